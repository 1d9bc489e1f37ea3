(** C43, C44: the xASTRO cw20 token. *)
From Coq Require Import ZArith Lia Bool List.
From Verif Require Import Num Amap Hist SnapshotModel SnapshotProofs SnapshotTrack XTokenModel.
Import ListNotations.
Open Scope Z_scope.

Definition bal_of (sn : snap) : Z := dflt (cur sn).
(** Sum of all balances. *)
Definition btotal (m : amap snap) : Z := sumf bal_of m.

(** ** Cells *)
Lemma cell_bsave m a h v b : cell (bsave m a h v) b = if a =? b then snap_save (cell m a) h v else cell m b.
Proof. unfold bsave, cell. rewrite find_put. destruct (Z.eqb_spec a b) as [->|N]; auto. Qed.

Lemma btotal_bsave m a h v : btotal (bsave m a h v) = btotal m - bal_of (cell m a) + v.
Proof.
  unfold btotal, bsave. rewrite sumf_put. unfold cell. destruct (find a m); simpl; unfold bal_of; simpl; lia.
Qed.

Definition saves (h : Z) (ws : list Z) (c : snap) : snap := fold_left (fun sn w => snap_save sn h w) ws c.
Lemma saves_cur h ws : forall c, last ws (bal_of c) = bal_of (saves h ws c).
Proof.
  unfold saves. induction ws as [|w ws IH] using rev_ind; intros c; [reflexivity|].
  rewrite fold_left_app. simpl. rewrite last_last. reflexivity.
Qed.

Definition path (h : Z) (m m' : amap snap) (a : Z) : Prop := exists ws, cell m' a = saves h ws (cell m a).
Lemma path_refl h m a : path h m m a. Proof. exists []. reflexivity. Qed.
Lemma path_trans h m1 m2 m3 a : path h m1 m2 a -> path h m2 m3 a -> path h m1 m3 a.
Proof.
  intros (w1 & E1) (w2 & E2). exists (w1 ++ w2). rewrite E2, E1. unfold saves. rewrite fold_left_app. reflexivity.
Qed.
Lemma path_bsave h m b v a : path h m (bsave m b h v) a.
Proof.
  destruct (Z.eqb_spec b a) as [->|N].
  - exists [v]. rewrite cell_bsave, Z.eqb_refl. reflexivity.
  - exists []. rewrite cell_bsave. destruct (Z.eqb_spec b a); [congruence|reflexivity].
Qed.

Lemma bsub_inv m a h v m' : bsub m a h v = Some m' ->
  m' = bsave m a h (bal_of (cell m a) - v) /\ 0 <= bal_of (cell m a) - v.
Proof. unfold bsub. intros H. unbind H as x E. injection H as <-. num_inv. unfold bal_of. split; auto; lia. Qed.
Lemma badd_inv m a h v m' : badd m a h v = Some m' -> m' = bsave m a h (bal_of (cell m a) + v).
Proof. unfold badd. intros H. unbind H as x E. injection H as <-. num_inv. reflexivity. Qed.

Lemma bal_bsave m a h v b : bal_of (cell (bsave m a h v) b) = if a =? b then v else bal_of (cell m b).
Proof. rewrite cell_bsave. destruct (a =? b); reflexivity. Qed.

Lemma create_path h l a : forall m t m' t', create_accounts h l m t = Some (m', t') -> path h m m' a.
Proof.
  induction l as [|[b v] l IH]; simpl; intros m t m' t' H.
  - injection H as <- <-. apply path_refl.
  - unguard H G. unbind H as t1 E. eapply path_trans; [apply path_bsave | eapply IH; exact H].
Qed.

Lemma create_total h l : forall m t m' t', NoDup (map fst l) ->
  (forall a, In a (map fst l) -> bal_of (cell m a) = 0) ->
  create_accounts h l m t = Some (m', t') -> btotal m' - t' = btotal m - t.
Proof.
  induction l as [|[b v] l IH]; simpl; intros m t m' t' N Z0 H.
  - injection H as <- <-. lia.
  - unguard H G. unbind H as t1 E. inversion N; subst. num_inv.
    apply IH in H; auto.
    + rewrite H, btotal_bsave, (Z0 b) by auto. lia.
    + intros a Ha. rewrite bal_bsave. destruct (Z.eqb_spec b a); [congruence|auto].
Qed.

(** ** Effect of a step on balances *)
Lemma step_path e m s s' a : step e m s = Some s' -> path (height e) (bals s) (bals s') a.
Proof.
  intros H. destruct m; simpl in H.
  - unguard H G. unbind H as [bs tot] E. unguard H G2. injection H as <-. simpl. eapply create_path; eauto.
  - unguard H G. unbind H as m1 E1. unbind H as m2 E2. injection H as <-. simpl.
    apply bsub_inv in E1. destruct E1 as [-> _]. apply badd_inv in E2. subst.
    eapply path_trans; apply path_bsave.
  - unguard H G. unbind H as m1 E1. unbind H as sup E2. injection H as <-. simpl.
    apply bsub_inv in E1. destruct E1 as [-> _]. apply path_bsave.
  - unguard H G. unbind H as sup E1. unguard H G2. unbind H as m1 E2. injection H as <-. simpl.
    apply badd_inv in E2. subst. apply path_bsave.
  - unguard H G. unguard H G2. destruct (match afind sender spender (allow s) with Some vx => vx | None => (0, Never) end).
    unbind H as v' E. injection H as <-. apply path_refl.
  - unguard H G. unbind H as [v x] E. destruct (amount <? v); [unguard H G2|]; injection H as <-; apply path_refl.
  - unguard H G. unbind H as al Ea. unbind H as m1 E1. unbind H as m2 E2. injection H as <-. simpl.
    apply bsub_inv in E1. destruct E1 as [-> _]. apply badd_inv in E2. subst.
    eapply path_trans; apply path_bsave.
  - unguard H G. unbind H as al Ea. unbind H as m1 E1. unbind H as sup E2. injection H as <-. simpl.
    apply bsub_inv in E1. destruct E1 as [-> _]. apply path_bsave.
Qed.

(** ** C43 *)

Definition no_repeats (l : list (env * msg)) : Prop :=
  Forall (fun em => match snd em with Instantiate acc _ => NoDup (map fst acc) | _ => True end) l.

Lemma run_snoc l x : run (l ++ [x]) = exec (run l) x.
Proof. unfold run. rewrite fold_left_app. reflexivity. Qed.

Lemma empty_until_live l : live (run l) = false -> run l = empty.
Proof.
  induction l as [|[e m] l IH] using rev_ind; [reflexivity|]. rewrite run_snoc. unfold exec. simpl.
  destruct (step e m (run l)) as [s'|] eqn:E; auto. intros H. exfalso.
  assert (L : live s' = true); [|congruence]. clear H IH.
  destruct m; simpl in E; unguard E G.
  - unbind E as [bs tot] E1. unguard E G2. injection E as <-. reflexivity.
  - unbind E as m1 E1. unbind E as m2 E2. injection E as <-. reflexivity.
  - unbind E as m1 E1. unbind E as m2 E2. injection E as <-. reflexivity.
  - unbind E as m1 E1. unguard E G2. unbind E as m2 E2. injection E as <-. reflexivity.
  - unguard E G2. destruct (match afind sender spender (allow (run l)) with Some vx => vx | None => (0, Never) end).
    unbind E as v' E1. injection E as <-. reflexivity.
  - unbind E as [v x] E1. destruct (amount <? v); [unguard E G2|]; injection E as <-; reflexivity.
  - unbind E as al Ea. unbind E as m1 E1. unbind E as m2 E2. injection E as <-. reflexivity.
  - unbind E as al Ea. unbind E as m1 E1. unbind E as m2 E2. injection E as <-. reflexivity.
Qed.

(** Exact effect of every message on every balance and on the supply. *)
Definition delta (m : msg) (a : Z) : Z :=
  match m with
  | Transfer f t v | TransferFrom _ f t v => (if a =? t then v else 0) - (if a =? f then v else 0)
  | Burn f v | BurnFrom _ f v => - (if a =? f then v else 0)
  | Mint _ t v => if a =? t then v else 0
  | _ => 0
  end.
Definition sdelta (m : msg) : Z :=
  match m with Burn _ v | BurnFrom _ _ v => - v | Mint _ _ v => v | _ => 0 end.

Ltac fin := repeat split; intros; try reflexivity; lia.
Theorem c43_exact_effects e m s s' a :
  step e m s = Some s' -> (forall acc mi, m <> Instantiate acc mi) ->
  balance s' a = balance s a + delta m a /\ 
  (0 <= balance s a -> 0 <= balance s' a) /\
  supply s' = supply s + sdelta m /\ minter s' = minter s.
Proof.
  intros H N. unfold balance. change (dflt (cur (cell (bals s') a))) with (bal_of (cell (bals s') a)).
  change (dflt (cur (cell (bals s) a))) with (bal_of (cell (bals s) a)).
  destruct m; simpl in H; unguard H G.
  - exfalso. eapply N. reflexivity.
  - unbind H as m1 E1. unbind H as m2 E2. injection H as <-. simpl. bools.
    apply bsub_inv in E1. destruct E1 as [-> L]. apply badd_inv in E2. subst.
    rewrite !bal_bsave, (Z.eqb_sym a recipient), (Z.eqb_sym a sender).
    destruct (Z.eqb_spec sender recipient), (Z.eqb_spec recipient a), (Z.eqb_spec sender a); subst; fin.
  - unbind H as m1 E1. unbind H as sup E2. injection H as <-. simpl. bools. num_inv.
    apply bsub_inv in E1. destruct E1 as [-> L].
    rewrite !bal_bsave, (Z.eqb_sym a sender). destruct (Z.eqb_spec sender a); subst; fin.
  - unbind H as sup E1. unguard H G2. unbind H as m1 E2. injection H as <-. simpl. bools. num_inv.
    apply badd_inv in E2. subst.
    rewrite !bal_bsave, (Z.eqb_sym a recipient). destruct (Z.eqb_spec recipient a); subst; fin.
  - unguard H G2. destruct (match afind sender spender (allow s) with Some vx => vx | None => (0, Never) end).
    unbind H as v' E. injection H as <-. simpl. fin.
  - unbind H as [v x] E. destruct (amount <? v); [unguard H G2|]; injection H as <-; simpl; fin.
  - unbind H as al Ea. unbind H as m1 E1. unbind H as m2 E2. injection H as <-. simpl. bools.
    apply bsub_inv in E1. destruct E1 as [-> L]. apply badd_inv in E2. subst.
    rewrite !bal_bsave, (Z.eqb_sym a recipient), (Z.eqb_sym a owner).
    destruct (Z.eqb_spec owner recipient), (Z.eqb_spec recipient a), (Z.eqb_spec owner a); subst; fin.
  - unbind H as al Ea. unbind H as m1 E1. unbind H as sup E2. injection H as <-. simpl. bools. num_inv.
    apply bsub_inv in E1. destruct E1 as [-> L].
    rewrite !bal_bsave, (Z.eqb_sym a owner). destruct (Z.eqb_spec owner a); subst; fin.
Qed.

Lemma step_total e m s s' : step e m s = Some s' ->
  (live s = false -> s = empty) ->
  match m with Instantiate acc _ => NoDup (map fst acc) | _ => True end ->
  btotal (bals s) = supply s -> btotal (bals s') = supply s'.
Proof.
  intros H Em ND T. destruct m; simpl in H; unguard H G.
  - unbind H as [bs tot] E. unguard H G2. injection H as <-. simpl. bools.
    assert (L : live s = false) by (destruct (live s); auto; discriminate). rewrite (Em L) in E. simpl in E.
    apply create_total in E; auto. simpl in E. lia.
  - unbind H as m1 E1. unbind H as m2 E2. injection H as <-. simpl.
    apply bsub_inv in E1. destruct E1 as [-> L]. apply badd_inv in E2. subst.
    rewrite !btotal_bsave. lia.
  - unbind H as m1 E1. unbind H as sup E2. injection H as <-. simpl. num_inv.
    apply bsub_inv in E1. destruct E1 as [-> L]. rewrite !btotal_bsave. lia.
  - unbind H as sup E1. unguard H G2. unbind H as m1 E2. injection H as <-. simpl. num_inv.
    apply badd_inv in E2. subst. rewrite !btotal_bsave. lia.
  - unguard H G2. destruct (match afind sender spender (allow s) with Some vx => vx | None => (0, Never) end).
    unbind H as v' E. injection H as <-. exact T.
  - unbind H as [v x] E. destruct (amount <? v); [unguard H G2|]; injection H as <-; exact T.
  - unbind H as al Ea. unbind H as m1 E1. unbind H as m2 E2. injection H as <-. simpl.
    apply bsub_inv in E1. destruct E1 as [-> L]. apply badd_inv in E2. subst.
    rewrite !btotal_bsave. lia.
  - unbind H as al Ea. unbind H as m1 E1. unbind H as sup E2. injection H as <-. simpl. num_inv.
    apply bsub_inv in E1. destruct E1 as [-> L]. rewrite !btotal_bsave. lia.
Qed.

Theorem c43_supply_is_sum l : no_repeats l -> btotal (bals (run l)) = supply (run l).
Proof.
  induction l as [|[e m] l IH] using rev_ind; intros N; [reflexivity|].
  apply Forall_app in N. destruct N as [N1 N2]. inversion N2; subst. rewrite run_snoc. unfold exec. cbn [fst snd] in *.
  destruct (step e m (run l)) as [s'|] eqn:E; auto.
  eapply step_total; eauto. apply empty_until_live.
Qed.

(** With an account listed twice at instantiation the reported supply exceeds all balances for ever. *)
Theorem c43_repeated_account_refuted : exists l,
  live (run l) = true /\ supply (run l) = 300 /\ btotal (bals (run l)) = 200.
Proof.
  exists [(mkEnv 1 1, Instantiate [(7, 100); (7, 200)] (Some (9, None)))]. vm_compute. auto.
Qed.

(** The cap holds in every history; the minter is fixed at instantiation. *)
Theorem c43_cap l mi cap : minter (run l) = Some (mi, Some cap) -> supply (run l) <= cap.
Proof.
  revert mi cap. induction l as [|[e m] l IH] using rev_ind; intros mi cap H; [discriminate|].
  rewrite run_snoc in *. unfold exec in *. cbn [fst snd] in *.
  destruct (step e m (run l)) as [s'|] eqn:E; [|eauto].
  destruct m; try (
    pose proof (c43_exact_effects _ _ _ _ 0 E ltac:(congruence)) as (_ & _ & S & M); rewrite M in H;
    specialize (IH _ _ H); simpl in S; simpl in E; unguard E G; bools; lia).
  - simpl in E. unguard E G. unbind E as [bs tot] E1. unguard E G2. injection E as <-. simpl in *. subst mint.
    bools. lia.
  - simpl in E. unguard E G. unbind E as sup E1. unguard E G2. unbind E as m1 E2. injection E as <-. simpl in *.
    rewrite H in G2. bools. lia.
Qed.

(** Exactly when a transfer succeeds; zero amounts are rejected (but not in transfers from allowances). *)
Theorem c43_transfer_succeeds e s sender recipient amount :
  live s = true -> 0 <= balance s sender <= U128MAX -> 0 <= balance s recipient <= U128MAX ->
  (exists s', step e (Transfer sender recipient amount) s = Some s') <->
  0 < amount <= balance s sender /\
  (sender <> recipient -> balance s recipient + amount <= U128MAX).
Proof.
  intros L B1 B2. unfold balance in *. simpl. rewrite L. unfold bsub, badd.
  set (x := dflt (cur (cell (bals s) sender))) in *. set (y := dflt (cur (cell (bals s) recipient))) in *.
  assert (Y : forall v, dflt (cur (cell (bsave (bals s) sender (height e) v) recipient)) =
                        if recipient =? sender then v else y).
  { intros v. change (bal_of (cell (bsave (bals s) sender (height e) v) recipient) = if recipient =? sender then v else y).
    rewrite bal_bsave, Z.eqb_sym. destruct (Z.eqb_spec recipient sender); reflexivity. }
  split.
  - intros [s' H]. unguard H G. unbind H as m1 E1. unbind H as m2 E2. bools.
    unbind E1 as v Ev. injection E1 as <-. unbind E2 as w Ew. rewrite Y in Ew. num_inv. split; [lia|].
    intros N. destruct (Z.eqb_spec recipient sender); [congruence|lia].
  - intros [H1 H2]. destruct (Z.ltb_spec 0 amount); [|lia]. cbn [andb].
    unfold sub128, u128. rewrite (proj2 (fits_iff U128MAX _)) by lia. rewrite Y.
    unfold add128, u128. destruct (Z.eqb_spec recipient sender) as [->|N];
      rewrite (proj2 (fits_iff U128MAX _)) by lia; eexists; reflexivity.
Qed.
Theorem c43_zero_rejected e s u v :
  step e (Transfer u v 0) s = None /\ step e (Burn u 0) s = None /\ step e (Mint u v 0) s = None.
Proof. simpl. destruct (live s); auto. Qed.

Theorem c43_supply_control e m s s' :
  step e m s = Some s' -> live s = true -> supply s' <> supply s ->
  exists mi cap, minter s = Some (mi, cap) /\
    match m with
    | Mint sender _ _ | Burn sender _ | BurnFrom sender _ _ => sender = mi
    | _ => False
    end.
Proof.
  intros H L N. destruct m; try (
    pose proof (c43_exact_effects _ _ _ _ 0 H ltac:(congruence)) as (_ & _ & S & M); simpl in S; lia).
  - simpl in H. rewrite L in H. discriminate.
  - simpl in H. unguard H G. bools. unfold is_minter in *. destruct (minter s) as [[mi cap]|]; [|discriminate].
    exists mi, cap. bools. auto.
  - simpl in H. unguard H G. bools. unfold is_minter in *. destruct (minter s) as [[mi cap]|]; [|discriminate].
    exists mi, cap. bools. auto.
  - simpl in H. unguard H G. bools. unfold is_minter in *. destruct (minter s) as [[mi cap]|]; [|discriminate].
    exists mi, cap. bools. auto.
Qed.

(** A balance falls only by the holder's own message, or within an unexpired allowance that the
    holder granted, which shrinks by the amount taken. *)
Definition allowance (s : state) (o p : Z) : Z := match afind o p (allow s) with Some (v, _) => v | None => 0 end.
Lemma afind_aput o p v l : afind o p (aput o p v l) = Some v.
Proof. unfold aput. simpl. rewrite !Z.eqb_refl. reflexivity. Qed.

(** A deadline that has not come yet. *)
Definition ahead (e : env) (x : expiration) : Prop := match x with Never => True | AtHeight h => height e < h | AtTime t => time e < t end.
Lemma expired_ahead e x : expired e x = false -> ahead e x.
Proof. destruct x; cbn; intros H; try exact Logic.I; apply Z.leb_gt in H; exact H. Qed.

Theorem c43_balance_protected e m s s' a :
  step e m s = Some s' -> live s = true -> balance s' a < balance s a ->
  (exists t v, m = Transfer a t v) \/ (exists v, m = Burn a v) \/
  (exists sp v x, ((exists t, m = TransferFrom sp a t v) \/ m = BurnFrom sp a v) /\
     afind a sp (allow s) = Some (allowance s a sp, x) /\ ahead e x /\
     v <= allowance s a sp /\ allowance s' a sp = allowance s a sp - v).
Proof.
  intros H L B.
  assert (NI : forall acc mi, m <> Instantiate acc mi).
  { intros acc mi ->. simpl in H. rewrite L in H. discriminate. }
  destruct (c43_exact_effects _ _ _ _ a H NI) as (D & _).
  destruct m; simpl in D; try lia.
  - destruct (Z.eqb_spec a sender) as [->|]; [left; eauto|].
    simpl in H. unguard H G. bools. destruct (a =? recipient); lia.
  - destruct (Z.eqb_spec a sender) as [->|]; [right; left; eauto|lia].
  - simpl in H. unguard H G. bools. destruct (a =? recipient); lia.
  - right; right. simpl in H. unguard H G. unbind H as al Ea. unbind H as m1 E1. unbind H as m2 E2. injection H as <-.
    bools. assert (a = owner) by (destruct (Z.eqb_spec a owner); auto; destruct (a =? recipient); lia). subst owner.
    unfold deduct in Ea. unbind Ea as [v x] Ef. unguard Ea G2. unbind Ea as v' Ev. injection Ea as <-. num_inv.
    exists sender, amount, x. unfold allowance. cbn [allow]. rewrite afind_aput, Ef. apply negb_true_iff, expired_ahead in G2.
    repeat split; eauto; lia.
  - right; right. simpl in H. unguard H G. unbind H as al Ea. unbind H as m1 E1. unbind H as sup E2. injection H as <-.
    bools. assert (a = owner) by (destruct (Z.eqb_spec a owner); auto; lia). subst owner.
    unfold deduct in Ea. unbind Ea as [v x] Ef. unguard Ea G2. unbind Ea as v' Ev. injection Ea as <-. num_inv.
    exists sender, amount, x. unfold allowance. cbn [allow]. rewrite afind_aput, Ef. apply negb_true_iff, expired_ahead in G2.
    repeat split; eauto; lia.
Qed.

Definition ex : list (env * msg) :=
  [(mkEnv 1 10, Instantiate [(1, 1000); (2, 500)] (Some (9, Some 2000)));
   (mkEnv 2 20, Mint 9 3 400); (mkEnv 2 20, Mint 9 3 101); (mkEnv 3 30, Transfer 1 2 100);
   (mkEnv 3 30, IncreaseAllowance 2 4 50 (Some (AtHeight 6))); (mkEnv 5 50, TransferFrom 4 2 5 30);
   (mkEnv 5 50, Transfer 3 9 400); (mkEnv 5 50, Burn 9 150); (mkEnv 6 60, TransferFrom 4 2 5 10)].
Example c43_example :
  supply (run ex) = 1750 /\ map (balance (run ex)) [1; 2; 3; 4; 5; 9] = [900; 570; 0; 0; 30; 250] /\
  allowance (run ex) 2 4 = 20.
Proof. vm_compute. auto. Qed.

(** ** C44 *)

Definition at_height (em : env * msg) : Z := height (fst em).

Theorem c44_balance_at l a b : nondecr at_height l ->
  balance_at (run l) a b = balance (run (before at_height b l)) a.
Proof.
  intros N. unfold balance_at, balance.
  exact (proj1 (track_at at_height exec (fun s => cell (bals s) a) (fun s => bal_of (cell (bals s) a)) empty l b
    ltac:(intros s [e m]; right; unfold exec; cbn [fst snd];
          destruct (step e m s) as [s'|] eqn:E;
          [ destruct (step_path _ _ _ _ a E) as (ws & P); exists ws; unfold at_height; cbn [fst]; rewrite P;
            split; [reflexivity|apply saves_cur]
          | exists []; split; reflexivity ])
    eq_refl eq_refl N)).
Qed.

(** Supply history. *)
Lemma floor_le b m h : Forall (fun p : Z * Z => fst p <= h) m ->
  match floor_entry b m with Some (k, _) => k <= h | None => True end.
Proof.
  induction 1 as [|[k w] m Hk Hm IH]; simpl; auto. simpl in Hk.
  destruct (floor_entry b m) as [[k' v']|].
  - destruct ((k <=? b) && (k' <=? k)); auto.
  - destruct (k <=? b); auto.
Qed.
Lemma floor_put_max b h v m : Forall (fun p : Z * Z => fst p <= h) m -> NoDup (keys m) ->
  floor_entry b (put h v m) = if h <=? b then Some (h, v) else floor_entry b m.
Proof.
  induction 1 as [|[k w] m Hk Hm IH]; simpl; auto. simpl in Hk. intros ND. inversion ND; subst.
  destruct (Z.eqb_spec k h) as [->|N]; simpl.
  - pose proof (floor_le b m h Hm) as F. destruct (Z.leb_spec h b); simpl.
    + destruct (floor_entry b m) as [[k' v']|]; auto. destruct (Z.leb_spec k' h); auto. lia.
    + destruct (floor_entry b m) as [[k' v']|]; auto.
  - rewrite IH by auto. destruct (Z.leb_spec h b).
    + destruct (Z.leb_spec h k); [lia|]. rewrite andb_false_r. reflexivity.
    + reflexivity.
Qed.
Lemma keys_put h v (m : amap Z) : NoDup (keys m) -> NoDup (keys (put h v m)).
Proof.
  unfold keys. induction m as [|[k w] m IH]; simpl; intros N.
  - constructor; auto.
  - inversion N; subst. destruct (Z.eqb_spec k h) as [->|Nk]; simpl; [constructor; auto|].
    constructor; auto. intros I. apply in_map_iff in I. destruct I as ([k2 w2] & E & I). simpl in E. subst k2.
    apply in_put in I. destruct I as [I|I]; [congruence|]. apply H1. apply in_map_iff. exists (k, w2). auto.
Qed.

(** A step records the new supply at its height, or leaves both alone. *)
Lemma step_shist e m s s' : step e m s = Some s' -> (live s = false -> s = empty) ->
  (shist s' = shist s /\ supply s' = supply s) \/ shist s' = put (height e) (supply s') (shist s).
Proof.
  intros H Em. destruct m; simpl in H; unguard H G.
  - unbind H as [bs tot] E. unguard H G2. injection H as <-. simpl. destruct (Z.eqb_spec tot 0) as [->|]; auto.
    left. split; auto. assert (L : live s = false) by (destruct (live s); auto; discriminate). rewrite (Em L). reflexivity.
  - unbind H as m1 E1. unbind H as m2 E2. injection H as <-. auto.
  - unbind H as m1 E1. unbind H as sup E2. injection H as <-. auto.
  - unbind H as sup E1. unguard H G2. unbind H as m1 E2. injection H as <-. auto.
  - unguard H G2. destruct (match afind sender spender (allow s) with Some vx => vx | None => (0, Never) end).
    unbind H as v' E. injection H as <-. auto.
  - unbind H as [v x] E. destruct (amount <? v); [unguard H G2|]; injection H as <-; auto.
  - unbind H as al Ea. unbind H as m1 E1. unbind H as m2 E2. injection H as <-. auto.
  - unbind H as al Ea. unbind H as m1 E1. unbind H as sup E2. injection H as <-. auto.
Qed.

Lemma shist_inv l h : nondecr at_height l -> Forall (fun em => at_height em <= h) l ->
  Forall (fun p => fst p <= h) (shist (run l)) /\ NoDup (keys (shist (run l))).
Proof.
  revert h. induction l as [|[e m] l IH] using rev_ind; intros h N F; [split; constructor|].
  apply nondecr_app_one in N. destruct N as [N1 N2]. apply Forall_app in F. destruct F as [F1 F2].
  inversion F2; subst. destruct (IH h N1 F1) as [A B]. rewrite run_snoc. unfold exec. cbn [fst snd].
  destruct (step e m (run l)) as [s'|] eqn:E; auto.
  destruct (step_shist _ _ _ _ E (empty_until_live l)) as [[-> _]| ->]; auto.
  split; [apply Forall_put; auto | apply keys_put; auto].
Qed.

(** The historical supply of block [b] is the supply at the END of block [b]. *)
Theorem c44_supply_at l b : nondecr at_height l ->
  supply_at (run l) b = supply (run (before at_height (b + 1) l)).
Proof.
  induction l as [|[e m] l IH] using rev_ind; intros N; [reflexivity|].
  apply nondecr_app_one in N. destruct N as [N1 N2]. specialize (IH N1).
  destruct (shist_inv l (height e) N1 N2) as [F ND].
  unfold before. rewrite filter_app. fold (before at_height (b + 1) l).
  assert (Q : at_height (e, m) = height e) by reflexivity.
  simpl filter. rewrite Q. destruct (Z.ltb_spec (height e) (b + 1)) as [Lt|Ge].
  - rewrite (before_all at_height (b + 1) l) by (eapply Forall_impl; [|exact N2]; simpl; intros; rewrite ?Q in *; lia).
    rewrite (before_all at_height (b + 1) l) in IH by (eapply Forall_impl; [|exact N2]; simpl; intros; rewrite ?Q in *; lia).
    rewrite run_snoc. unfold exec. cbn [fst snd]. destruct (step e m (run l)) as [s'|] eqn:E; auto.
    unfold supply_at in *. destruct (step_shist _ _ _ _ E (empty_until_live l)) as [[-> ->]| ->]; auto.
    rewrite floor_put_max by auto. destruct (Z.leb_spec (height e) b); [reflexivity|lia].
  - rewrite app_nil_r. rewrite run_snoc. unfold exec. cbn [fst snd].
    destruct (step e m (run l)) as [s'|] eqn:E; auto.
    unfold supply_at in *. destruct (step_shist _ _ _ _ E (empty_until_live l)) as [[-> _]| ->]; auto.
    rewrite floor_put_max by auto. destruct (Z.leb_spec (height e) b); [lia|exact IH].
Qed.

(** Hence balances at [b] (begin of block) go with the supply at [b - 1]. *)
Lemma no_repeats_before b l : no_repeats l -> no_repeats (before at_height b l).
Proof.
  unfold no_repeats, before. induction 1 as [|x l Hx Hl IH]; simpl; [constructor|].
  destruct (at_height x <? b); auto.
Qed.
Theorem c44_consistent_pair l b : nondecr at_height l -> no_repeats l ->
  supply_at (run l) (b - 1) = btotal (bals (run (before at_height b l))) /\
  forall a, balance_at (run l) a b = bal_of (cell (bals (run (before at_height b l))) a).
Proof.
  intros N R. split.
  - rewrite c44_supply_at by auto. replace (b - 1 + 1) with b by lia.
    symmetry. apply c43_supply_is_sum. apply no_repeats_before. exact R.
  - intros a. apply c44_balance_at. exact N.
Qed.

(** The same-block reading fails: at a block with a mint, historical supply exceeds the historical
    balances (at a block with a burn it falls short). *)
Theorem c44_same_block_refuted : exists l b,
  nondecr at_height l /\ no_repeats l /\ supply_at (run l) b = 500 /\
  forall a, balance_at (run l) a b = if a =? 1 then 100 else 0.
Proof.
  exists [(mkEnv 1 10, Instantiate [(1, 100)] (Some (9, None))); (mkEnv 5 50, Mint 9 1 400)], 5.
  assert (N : nondecr at_height [(mkEnv 1 10, Instantiate [(1, 100)] (Some (9, None))); (mkEnv 5 50, Mint 9 1 400)])
    by (simpl; repeat constructor; unfold at_height; simpl; lia).
  split; [exact N|]. split; [repeat constructor; simpl; tauto|]. split; [vm_compute; reflexivity|].
  intros a. rewrite c44_balance_at by exact N. unfold balance. vm_compute (bals _). unfold cell.
  cbn [find]. rewrite (Z.eqb_sym 1 a). destruct (a =? 1); reflexivity.
Qed.
Example c44_example : nondecr at_height ex /\ no_repeats ex /\
  map (fun b => (supply_at (run ex) b, supply_at (run ex) (b - 1), balance_at (run ex) 3 b)) [1; 2; 3; 5; 6] =
  [(1500, 0, 0); (1900, 1500, 0); (1900, 1900, 400); (1750, 1900, 400); (1750, 1750, 0)].
Proof.
  split; [simpl; repeat constructor; unfold at_height; simpl; lia|].
  split; [|vm_compute; reflexivity].
  repeat constructor; simpl; intuition discriminate.
Qed.

Print Assumptions c43_exact_effects.
Print Assumptions c43_supply_is_sum.
Print Assumptions c43_repeated_account_refuted.
Print Assumptions c43_cap.
Print Assumptions c43_supply_control.
Print Assumptions c43_balance_protected.
Print Assumptions c44_balance_at.
Print Assumptions c44_supply_at.
Print Assumptions c44_consistent_pair.
Print Assumptions c44_same_block_refuted.
Print Assumptions c43_transfer_succeeds.
Print Assumptions c43_zero_rejected.
