(** Incentives: the pending query against claims and against other people's messages. *)
From Coq Require Import ZArith Lia Bool List Permutation.
From Verif Require Import Num Amap Ledger IncentivesModel IncentivesSpec IncentivesSched IncentivesPool
  IncentivesPay IncentivesOps IncentivesInv IncentivesStep IncentivesProofs IncentivesExact.
Import ListNotations.
Open Scope Z_scope.

Lemma same_due_refl x : same_due x x.
Proof. destruct x as [[a v]|]; simpl; auto. Qed.
Lemma same_due_trans x y z : same_due x y -> same_due y z -> same_due x z.
Proof.
  destruct x as [[a v]|], y as [[b w]|], z as [[c t]|]; simpl; try tauto.
  intros [-> H1] [-> H2]. split; auto. intros A. rewrite H1. auto.
Qed.

(** ** Lists of rewards with the same indexes *)
Inductive alike : list rinfo -> list rinfo -> Prop :=
| al_nil : alike [] []
| al_new y : idx y = 0 -> alike [] [y]
| al_cons x y r s : matches (rw x) (rw y) = true -> idx x = idx y -> alike r s -> alike (x :: r) (y :: s).
Lemma matches_refl x : matches x x = true.
Proof. destruct x; simpl; auto. apply Z.eqb_refl. Qed.
Lemma alike_refl r : alike r r.
Proof. induction r; constructor; auto. apply matches_refl. Qed.
Lemma alike_app r y : idx y = 0 -> alike r (r ++ [y]).
Proof. intros E. induction r; simpl; constructor; auto. apply matches_refl. Qed.
Lemma alike_upd_int f rs : (forall x, is_ext (rw x) = false -> is_ext (rw (f x)) = false /\ idx (f x) = idx x) ->
  alike rs (upd_int f rs).
Proof.
  intros K. induction rs as [|r s IH]; [constructor|].
  cbn [upd_int]. change ((fix go (l : list rinfo) : list rinfo := match l with | [] => [] | r0 :: t0 => if is_ext (rw r0) then r0 :: go t0 else f r0 :: t0 end) s) with (upd_int f s).
  destruct (is_ext (rw r)) eqn:E.
  - constructor; auto. apply matches_refl.
  - destruct (K r E) as [K1 K2]. constructor; [|auto|apply alike_refl].
    destruct (rw r); [|discriminate]. destruct (rw (f r)); [auto|discriminate].
Qed.
Lemma alike_upd_ext a f rs : (forall x n, rw x = RExt a n -> exists m, rw (f x) = RExt a m) ->
  (forall x, idx (f x) = idx x) -> alike rs (upd_ext a f rs).
Proof.
  intros K1 K2. induction rs as [|r s IH]; simpl; [constructor|].
  destruct (rw r) as [b|b n] eqn:Er.
  - constructor; auto. apply matches_refl.
  - destruct (Z.eqb_spec b a).
    + subst. constructor; [|symmetry; auto|apply alike_refl].
      destruct (K1 _ _ Er) as [m ->]. rewrite Er. simpl. apply Z.eqb_refl.
    + constructor; auto. apply matches_refl.
Qed.
Lemma u_find_match x y l : matches x y = true -> u_find x l = u_find y l.
Proof.
  intros M. induction l as [|[z i] t IH]; simpl; auto. rewrite IH.
  destruct x, y; simpl in M; try discriminate; destruct z; simpl; auto.
  apply Z.eqb_eq in M. subst. auto.
Qed.
Lemma calc_one_match u x y : matches (rw x) (rw y) = true -> idx x = idx y -> calc_one u x = calc_one u y.
Proof. intros M E. unfold calc_one. rewrite (u_find_match _ _ _ M), E. auto. Qed.
Lemma credit_0 amt : credit 0 amt = Some 0.
Proof.
  unfold credit, umul256. rewrite Z.mul_0_r. reflexivity.
Qed.
Lemma calc_one_0 u y : idx y = 0 -> Forall (fun z => 0 <= snd z) (uidx u) -> calc_one u y = Some 0.
Proof.
  intros E F. unfold calc_one. rewrite E. pose proof (u_find_nn (rw y) _ F) as N.
  destruct (u_find (rw y) (uidx u)) as [i|]; [|apply credit_0]. simpl in N.
  destruct (Z.ltb_spec 0 i); [apply credit_0|]. replace (0 - i) with 0 by lia. apply credit_0.
Qed.
Definition int_part (l : list (bool * Z * Z)) : list Z := map snd (filter (fun x => negb (fst (fst x))) l).
Lemma calc_alike u r s : alike r s -> Forall (fun z => 0 <= snd z) (uidx u) ->
  match calc_all u r, calc_all u s with
  | None, None => True
  | Some a, Some b => (int_part b = int_part a \/ int_part b = int_part a ++ [0]) /\
                      forall A, paidA A (ext_part a) = paidA A (ext_part b)
  | _, _ => False
  end.
Proof.
  intros K F. induction K as [|y E|x y r s M E K IH]; simpl.
  - auto.
  - rewrite (calc_one_0 _ _ E F). simpl. unfold int_part, ext_part. destruct (is_ext (rw y)); simpl.
    + split; auto. intros A. unfold paidA, fl. simpl. destruct (asset_of (rw y) =? A); auto.
    + split; auto.
  - rewrite (calc_one_match u x y M E). destruct (calc_one u y) as [v|]; simpl; auto.
    destruct (calc_all u r) as [a|]; destruct (calc_all u s) as [b|]; try tauto; simpl.
    destruct IH as [I1 I2].
    assert (Ex : is_ext (rw x) = is_ext (rw y)) by (destruct (rw x), (rw y); auto; discriminate).
    rewrite Ex. unfold int_part, ext_part in *. destruct (is_ext (rw y)) eqn:Ey; simpl.
    + split; auto. intros A. specialize (I2 A).
      assert (Ea : asset_of (rw x) = asset_of (rw y)).
      { destruct (rw x), (rw y); try discriminate. simpl in M. apply Z.eqb_eq in M. auto. }
      rewrite Ea. unfold paidA, fl in *. simpl. destruct (asset_of (rw y) =? A); simpl; lia.
    + split; auto. destruct I1 as [I1|I1]; rewrite I1; auto.
Qed.
Lemma sum128_snoc0 l : forall acc, sum128 (l ++ [0]) acc = match sum128 l acc with
  | Some v => add128 v 0 | None => None end.
Proof. induction l as [|x r IH]; intros acc; simpl; [destruct (add128 acc 0); auto|]. destruct (add128 acc x); simpl; auto. Qed.
Lemma sum128_range l : forall acc v, sum128 l acc = Some v -> 0 <= acc <= U128MAX -> 0 <= v <= U128MAX.
Proof.
  induction l as [|x r IH]; intros acc v H B; simpl in H; [injection H as <-; auto|].
  unbind H as a E. apply add128_Some in E. apply IH in H; auto. destruct E as (-> & B2). auto.
Qed.

(** Finished indexes per asset decide everything about [due]. *)
Lemma due_same q q' rem rem' f f' u : alike (rewards q) (rewards q') ->
  (forall a, fl a (unseen u f rem) = fl a (unseen u f' rem')) ->
  Forall (fun z => 0 <= snd z) (uidx u) ->
  same_due (due q rem f u) (due q' rem' f' u).
Proof.
  intros K E F. unfold due.
  assert (Em : forall a, mem a (map fst (unseen u f rem)) = mem a (map fst (unseen u f' rem'))).
  { assert (G : forall l a, mem a (map fst l) = match fl a l with [] => false | _ => true end).
    { clear. induction l as [|[b v] r IH]; intros a; auto. unfold fl in *. simpl. rewrite Z.eqb_sym.
      destruct (b =? a); simpl; auto. }
    intros a. rewrite !G, E. auto. }
  assert (Er : reset (map fst (unseen u f rem)) (uidx u) = reset (map fst (unseen u f' rem')) (uidx u)).
  { unfold reset. apply map_ext. intros [x i]. simpl. rewrite Em. auto. }
  rewrite <- Er. set (ui := reset (map fst (unseen u f rem)) (uidx u)).
  assert (Fi : Forall (fun z => 0 <= snd z) ui).
  { unfold ui, reset. apply Forall_forall. intros y Hy. apply in_map_iff in Hy. destruct Hy as (z & <- & Hz).
    rewrite Forall_forall in F. specialize (F _ Hz). destruct (_ && _); simpl; auto. lia. }
  pose proof (claim_fin_def (amount u) (uidx u) (unseen u f rem) []) as D1.
  pose proof (claim_fin_def (amount u) (uidx u) (unseen u f' rem') []) as D2. simpl mem in D1, D2. cbv iota in D1, D2.
  assert (D : (exists o, claim_fin (amount u) (uidx u) [] (unseen u f rem) = Some o) <->
              (exists o, claim_fin (amount u) (uidx u) [] (unseen u f' rem') = Some o)).
  { rewrite D1, D2. split; intros H a; specialize (H a); [rewrite <- E|rewrite E]; auto. }
  clear D1 D2.
  pose proof (calc_alike (mkU (amount u) ui (claimed u)) _ _ K Fi) as C.
  destruct (claim_fin (amount u) (uidx u) [] (unseen u f rem)) as [o1|] eqn:E1;
    destruct (claim_fin (amount u) (uidx u) [] (unseen u f' rem')) as [o2|] eqn:E2; simpl; auto.
  2:{ destruct D as [D _]. destruct D; eauto. discriminate. }
  2:{ destruct D as [_ D]. destruct D; eauto. discriminate. }
  destruct (calc_all (mkU (amount u) ui (claimed u)) (rewards q)) as [a|];
    destruct (calc_all (mkU (amount u) ui (claimed u)) (rewards q')) as [b|]; simpl; try tauto.
  destruct C as [C1 C2]. fold (int_part a). fold (int_part b). fold (ext_part a). fold (ext_part b).
  assert (S : sum128 (int_part b) 0 = sum128 (int_part a) 0).
  { destruct C1 as [->| ->]; auto. rewrite sum128_snoc0. destruct (sum128 (int_part a) 0) as [v|] eqn:Ev; auto.
    apply sum128_range in Ev; [|unfold U128MAX; lia]. apply add128_Some. rewrite Z.add_0_r. auto. }
  rewrite S. destruct (sum128 (int_part a) 0) as [v|]; simpl; auto. split; auto. intros A.
  rewrite !sum_of_paid, !paidA_app, C2. f_equal.
  rewrite (claim_fin_val A _ _ _ _ _ E1), (claim_fin_val A _ _ _ _ _ E2). simpl. rewrite E. auto.
Qed.

(** ** Saving keeps what users have not seen *)
Lemma runs_zero l : Forall (fun x => snd (snd x) = 0) l -> runs l = match l with [] => [] | _ => [(true, l)] end.
Proof.
  induction l as [|x r IH]; auto. intros F. inversion F; subst. simpl. rewrite IH by auto.
  rewrite H1. simpl. destruct r; auto.
Qed.
Lemma fl_perm a l m : Permutation l m -> NoDup (map fst m) ->
  fl a (map (fun x : Z * (Z * Z) => (fst x, fst (snd x))) l) = fl a (map (fun x => (fst x, fst (snd x))) m).
Proof.
  intros Pr N. rewrite !fl_rem.
  assert (G : forall k, NoDup (map fst k) -> forall x, In x k -> fst x = a -> filter (fun x : Z * (Z * Z) => fst x =? a) k = [x]).
  { clear. induction k as [|y t IH]; simpl; intros N x Hx Ea; [contradiction|]. inversion N; subst.
    destruct Hx as [->|Hx].
    - rewrite Z.eqb_refl. f_equal. clear - H1. induction t as [|z t IH]; simpl; auto.
      destruct (Z.eqb_spec (fst z) (fst x)); [exfalso; apply H1; left; auto|]. apply IH.
      intros Hi. apply H1. right. auto.
    - destruct (Z.eqb_spec (fst y) (fst x)).
      + exfalso. apply H1. rewrite e. apply in_map. auto.
      + apply IH; auto. }
  assert (Nl : NoDup (map fst l)).
  { eapply Permutation_NoDup; [|exact N]. apply Permutation_map. apply Permutation_sym. auto. }
  destruct (filter (fun x => fst x =? a) m) as [|y t] eqn:Ef.
  - destruct (filter (fun x => fst x =? a) l) as [|z t] eqn:Eg; auto. exfalso.
    assert (Hz : In z (z :: t)) by (left; auto). rewrite <- Eg in Hz. apply filter_In in Hz.
    destruct Hz as [Hz Hb]. assert (In z (filter (fun x => fst x =? a) m)).
    { apply filter_In. split; auto. eapply Permutation_in; eauto. }
    rewrite Ef in H. contradiction.
  - assert (Hy : In y (y :: t)) by (left; auto). rewrite <- Ef in Hy. apply filter_In in Hy.
    destruct Hy as [Hy Hb]. apply Z.eqb_eq in Hb.
    rewrite <- Ef. rewrite (G m N y Hy Hb).
    rewrite (G l Nl y (Permutation_in _ (Permutation_sym Pr) Hy) Hb). auto.
Qed.
Lemma ins_last {V} k (v : V) l : Forall (fun x => fst x < k) l -> ins k v l = l ++ [(k, v)].
Proof.
  induction l as [|[k' v'] r IH]; simpl; auto. intros F. inversion F; subst. simpl in *.
  destruct (Z.ltb_spec k k'); [lia|]. destruct (Z.eqb_spec k k'); [lia|]. rewrite IH; auto.
Qed.
Lemma save_unseen e ts rem f o f' o' u a : save_runs ts (runs (ord e rem)) f o = Some (f', o') ->
  order_ok e -> NoDup (map fst rem) -> Forall (fun x => snd (snd x) = 0) rem ->
  (rem <> [] -> Forall (fun x => fst x < ts) f /\ claimed u < ts) ->
  fl a (unseen u f rem) = fl a (unseen u f' []).
Proof.
  intros H Eo N F L. specialize (Eo rem).
  rewrite runs_zero in H.
  2:{ apply Forall_forall. intros x Hx. rewrite Forall_forall in F. apply F. eapply Permutation_in; eauto. }
  destruct rem as [|x r].
  - apply Permutation_sym, Permutation_nil in Eo. rewrite Eo in H. simpl in H. injection H as <- <-. auto.
  - destruct (L ltac:(discriminate)) as [L1 L2].
    destruct (ord e (x :: r)) as [|y t] eqn:Eq; [apply Permutation_nil in Eo; discriminate|].
    cbn [save_runs] in H. injection H as <- _. rewrite ins_last by auto.
    rewrite unseen_app. unfold unseen at 2. rewrite fl_app. unfold after at 1. rewrite filter_app. cbn [filter fst].
    rewrite (proj2 (Z.ltb_lt _ _)) by auto.
    rewrite map_app, concat_app. simpl. rewrite !app_nil_r, fl_app. f_equal.
    + unfold unseen. simpl. rewrite app_nil_r. auto.
    + symmetry. apply (fl_perm a (y :: t) (x :: r)); auto.
Qed.

(** Rewards that finish while somebody is staked have no orphaned part. *)
Lemma update_rem_zero A p n q rem : wf A p -> update_rewards n p = Some (q, rem) -> 0 < total_lp (pl p) ->
  Forall (fun x => snd (snd x) = 0) rem.
Proof.
  intros W U Tp. unfold update_rewards in U. destruct (Z.leb_spec n (last (pl p))); [injection U as <- <-; constructor|].
  unbind U as [rs rm] E. injection U as <- <-.
  destruct (upd_all_spec _ _ _ _ _ _ _ E ltac:(lia) ltac:(lia) (w_ext _ _ W) (w_rw _ _ W) (w_sch _ _ W))
    as (I1 & I2 & I3 & I4 & I5 & I6 & I7 & I8 & I9).
  apply Forall_forall. intros [b [i o]] Hx. simpl. specialize (I9 b).
  assert (Hf : In (b, (i, o)) (filter (fun x => fst x =? b) rm)) by (apply filter_In; split; auto; apply Z.eqb_refl).
  destruct (find_ext b (rewards (pl p))) as [x|] eqn:Ex.
  - destruct I9 as (x' & gone & U1 & U2). destruct gone; destruct U2 as [U2 U3]; rewrite U3 in Hf; [|contradiction].
    destruct Hf as [Hf|[]]. injection Hf as <- <-.
    destruct (find_ext_in _ _ _ Ex) as [Hx2 [m Er]].
    apply (upd_one_emitted _ _ _ _ _ _ _ _ _ U1 Er ltac:(lia) Tp).
    + pose proof (w_rw _ _ W) as F. rewrite Forall_forall in F. auto.
    + apply (w_sch _ _ W).
  - destruct I9 as [_ U3]. rewrite U3 in Hf. contradiction.
Qed.
Lemma total_pos A p who u : wf A p -> find who (users p) = Some u -> 0 < amount u -> 0 < total_lp (pl p).
Proof.
  intros W E Hu. rewrite (w_total _ _ W).
  assert (G : forall m, Forall (fun x => okU (last (pl p)) (snd x)) m -> In (who, u) m -> amount u <= sumf amount m).
  { induction m as [|[k v] r IH]; simpl; [tauto|]. intros F [H|H]; inversion F as [|? ? F1 F2]; subst; simpl in *.
    - injection H as -> ->. assert (0 <= sumf amount r); [|lia].
      clear - F2. induction r as [|[k v] r IH]; simpl; [lia|]. inversion F2; subst. simpl in *. destruct H1. specialize (IH H2). lia.
    - destruct F1. specialize (IH F2 H). lia. }
  specialize (G _ (w_users _ _ W) (find_in _ _ _ E)). lia.
Qed.

Lemma commit_pending A T e lp s s' p q rem p' me : inv A T s -> 0 <= T -> T <= now e -> order_ok e ->
  p = cur lp s -> update_rewards (now e) p = Some (q, rem) ->
  alike (rewards q) (rewards (pl p')) -> last (pl p') = last q -> fins p' = fins p ->
  find me (users p') = find me (users p) ->
  save e lp p' rem s = Some s' ->
  forall k, 0 < position_of k me s -> same_due (pending e k me s) (pending e k me s').
Proof.
  intros I T0 L Eo -> U K Kl Kf Ku H k Hp.
  unfold save in H. unbind H as [f o] E. injection H as <-. unfold pending. cbn [lps set_lps].
  rewrite find_put. destruct (Z.eqb_spec lp k); [|apply same_due_refl]. subst k.
  unfold position_of in Hp. unfold cur in *. destruct (find lp (lps s)) as [p|] eqn:Ep; [|lia].
  cbv iota beta.
  destruct (find me (users p)) as [u|] eqn:Eu; [|lia].
  pose proof (i_lps _ _ _ I) as Q. rewrite Forall_forall in Q.
  destruct (Q _ (find_in _ _ _ Ep)) as [W Lw]. simpl in W, Lw. clear Q.
  cbn [users]. rewrite Ku. cbv iota beta. rewrite U.
  destruct (update_P A _ _ _ _ W U) as (U1 & U2 & U3 & U4 & U5 & U6).
  unfold update_rewards at 1. cbn [pl]. rewrite Kl, U3, Z.max_l by lia. rewrite (proj2 (Z.leb_le _ _)) by lia.
  cbn [fins].
  pose proof (w_users _ _ W) as Qu. rewrite Forall_forall in Qu. specialize (Qu _ (find_in _ _ _ Eu)). simpl in Qu.
  destruct Qu as (Q1 & Q2 & Q3). apply due_same; auto. intros a.
  rewrite Kf, Kl in E. eapply save_unseen; eauto.
  - exact (m_nd _ _ _ U1).
  - eapply update_rem_zero; eauto. eapply total_pos; eauto.
  - intros Hr. specialize (U5 Hr). split; [|lia]. eapply Forall_impl; [|exact (w_fin _ _ W)]. simpl. intros y [Hy _]. lia.
Qed.

(** ** Messages of other people *)
Lemma pending_lps e k me s s' : find k (lps s') = find k (lps s) -> pending e k me s' = pending e k me s.
Proof. intros E. unfold pending. rewrite E. auto. Qed.
Definition untouched (e : env) (me : Z) (s s' : state) : Prop :=
  forall k, 0 < position_of k me s -> same_due (pending e k me s) (pending e k me s').
Lemma untouched_lps e me s s' : lps s' = lps s -> untouched e me s s'.
Proof. intros E k _. rewrite (pending_lps e k me s s') by (rewrite E; auto). apply same_due_refl. Qed.
Lemma untouched_trans e me s1 s2 s3 : (forall k, position_of k me s2 = position_of k me s1) ->
  untouched e me s1 s2 -> untouched e me s2 s3 -> untouched e me s1 s3.
Proof. intros Q A B k Hk. eapply same_due_trans; [apply A; auto|]. apply B. rewrite Q. auto. Qed.
Lemma same_pos s s' me : same s s' -> forall k, position_of k me s' = position_of k me s.
Proof. intros H k. destruct (H k) as [_ Q]. auto. Qed.

Lemma touch_pending A T e c f lp s s' me : inv A T s -> 0 <= T -> T <= now e -> order_ok e ->
  (forall q q', f q = Some q' -> last q' = last q /\ alike (rewards q) (rewards q')) ->
  touch e c f lp s = Some s' -> untouched e me s s'.
Proof.
  intros I T0 L Eo K H. unfold touch in H. unbind H as p Ep.
  assert (Ec : p = cur lp s).
  { unfold cur. destruct (find lp (lps s)); [congruence|]. destruct c; congruence. }
  unbind H as [q rem] E. unbind H as q' E2. destruct (K _ _ E2) as [K1 K2].
  intros k Hk. refine (commit_pending A T e lp s s' p q rem _ me I T0 L Eo Ec E _ _ _ _ H k Hk); simpl; auto.
Qed.
Definition fine (f : Z -> pool -> option pool) : Prop :=
  forall al q q', f al q = Some q' -> (total_lp q' = total_lp q /\ last q' = last q /\ keeps (rewards q) (rewards q'))
    /\ alike (rewards q) (rewards q').
Lemma touch_all_pending A e c f l me : order_ok e -> fine f ->
  forall T s s', inv A T s -> 0 <= T -> T <= now e -> touch_all e c f l s = Some s' ->
  untouched e me s s' /\ inv A (now e) s' /\ same s s'.
Proof.
  intros Eo K. induction l as [|[lp al] r IH]; intros T s s' I T0 L H; simpl in H.
  - injection H as <-. split; [apply untouched_lps; auto|]. split; [eapply inv_later; eauto|apply same_refl; auto].
  - unbind H as s1 E.
    assert (I1 : inv A (now e) s1 /\ gap A s1 <= gap A s).
    { eapply (touch_gap A T e c (f al) lp); eauto. intros q q' Hq. apply (K al q q' Hq). }
    assert (S1 : same s s1).
    { eapply (touch_same e c (f al) lp); eauto. intros q q' Hq. apply (K al q q' Hq). }
    destruct I1 as [I1 _]. destruct (IH (now e) s1 s' I1 ltac:(lia) ltac:(lia) H) as (J1 & J2 & J3).
    split; [|split; auto; eapply same_trans; eauto].
    eapply untouched_trans; [apply same_pos; exact S1| |exact J1].
    eapply (touch_pending A T e c (f al) lp); eauto.
    intros q q' Hq. split; apply (K al q q' Hq).
Qed.
Lemma fine_disable : fine (fun _ => disable_astro).
Proof.
  intros al q q' H. split; [apply disable_keeps; auto|]. unfold disable_astro in H. injection H as <-. simpl.
  apply alike_upd_int. intros x Hx. simpl. auto.
Qed.
Lemma fine_set ast r t : fine (set_astro ast r t).
Proof.
  intros al q q' H. split; [eapply set_astro_keeps; eauto|]. unfold set_astro in H. unbind H as n E. unbind H as x E2.
  injection H as <-. simpl. destruct (existsb _ _).
  - apply alike_upd_int. intros y Hy. simpl. auto.
  - apply alike_app. auto.
Qed.

(** Renaming the protocol reward. *)
Definition tw (x y : rinfo) : Prop :=
  rps x = rps y /\ idx x = idx y /\ orph x = orph y /\
  (rw x = rw y \/ (is_ext (rw x) = false /\ is_ext (rw y) = false)).
Lemma tw_refl x : tw x x. Proof. repeat split; auto. Qed.
Lemma tws_refl l : Forall2 tw l l. Proof. induction l; constructor; auto. apply tw_refl. Qed.
Lemma tw_trans x y z : tw x y -> tw y z -> tw x z.
Proof.
  intros (A1 & A2 & A3 & A4) (B1 & B2 & B3 & B4). repeat split; try congruence.
  destruct A4 as [A4|[A4 A5]], B4 as [B4|[B4 B5]]; [left|right|right|right]; try congruence; split; congruence.
Qed.
Lemma tws_trans a b c : Forall2 tw a b -> Forall2 tw b c -> Forall2 tw a c.
Proof.
  intros H. revert c. induction H; intros c K; inversion K; subst; constructor; auto. eapply tw_trans; eauto.
Qed.
Lemma tws_alike a b : Forall2 tw a b -> alike a b.
Proof.
  induction 1 as [|x y r s (A1 & A2 & A3 & A4) _ IH]; constructor; auto.
  destruct A4 as [->|[A4 A5]]; [apply matches_refl|]. destruct (rw x), (rw y); auto; discriminate.
Qed.
Lemma accrue_tw t x y c : tw x y ->
  match accrue t x c, accrue t y c with
  | None, None => True | Some a, Some b => tw a b | _, _ => False end.
Proof.
  intros (A1 & A2 & A3 & A4). unfold accrue. rewrite A3. destruct (add256 (orph y) c); auto.
  destruct (t =? 0); [repeat split; auto|]. destruct (dratio256 t 1); auto. destruct (ddiv256 _ _); auto.
  rewrite A2. destruct (add256 (idx y) _); auto. repeat split; auto.
Qed.
Lemma upd_one_tw n l t m x y : tw x y ->
  match upd_one n l t (sched_of (asset_of (rw x)) m) x, upd_one n l t (sched_of (asset_of (rw y)) m) y with
  | None, None => True | Some (a, g), Some (b, h) => tw a b /\ g = h /\ (g = true -> a = b) | _, _ => False end.
Proof.
  intros W. pose proof W as (A1 & A2 & A3 & A4). destruct A4 as [A4|[A4 A5]].
  - assert (x = y) as -> by (destruct x, y; simpl in *; congruence).
    destruct (upd_one _ _ _ _ y) as [[a g]|]; auto. split; auto. apply tw_refl.
  - unfold upd_one. destruct (rw x); [|discriminate]. destruct (rw y); [|discriminate]. rewrite A1.
    destruct (per (rps y) (n - l)) as [c|]; auto. pose proof (accrue_tw t x y c W) as K.
    destruct (accrue t x c), (accrue t y c); auto. split; auto. split; auto. discriminate.
Qed.
Lemma upd_all_tw n l t m rs rs' : Forall2 tw rs rs' ->
  match upd_all n l t m rs, upd_all n l t m rs' with
  | None, None => True | Some (a, g), Some (b, h) => Forall2 tw a b /\ g = h | _, _ => False end.
Proof.
  induction 1 as [|x y r s W _ IH]; simpl; auto.
  pose proof (upd_one_tw n l t m x y W) as K.
  destruct (upd_one n l t (sched_of (asset_of (rw x)) m) x) as [[a g]|];
    destruct (upd_one n l t (sched_of (asset_of (rw y)) m) y) as [[b h]|]; try tauto.
  destruct K as (K1 & <- & K3).
  destruct (upd_all n l t m r) as [[k rem]|]; destruct (upd_all n l t m s) as [[k' rem']|]; try tauto.
  destruct IH as [I1 <-]. destruct g; split; auto. rewrite K3 by auto. auto.
Qed.
Lemma relabel_tw a l : forall m m', relabel a l m = Some m' -> forall k,
  match find k m, find k m' with
  | None, None => True
  | Some p, Some p' => users p' = users p /\ scheds p' = scheds p /\ fins p' = fins p /\
      total_lp (pl p') = total_lp (pl p) /\ last (pl p') = last (pl p) /\ Forall2 tw (rewards (pl p)) (rewards (pl p'))
  | _, _ => False
  end.
Proof.
  induction l as [|[lp al] r IH]; intros m m' H k; simpl in H.
  - injection H as <-. destruct (find k m); auto. repeat (split; auto). apply tws_refl.
  - unbind H as p Ep. unguard H G. specialize (IH _ _ H k). rewrite find_put in IH.
    destruct (Z.eqb_spec lp k); auto. subst. rewrite Ep. destruct (find k m') as [p'|]; auto.
    cbn [users scheds fins pl total_lp last rewards] in IH. destruct IH as (I1 & I2 & I3 & I4 & I5 & I6).
    repeat (split; auto). eapply tws_trans; [|exact I6]. clear.
    induction (rewards (pl p)) as [|x s IH]; simpl; [constructor|].
    destruct (is_ext (rw x)) eqn:E; constructor; auto; [apply tw_refl| |apply tws_refl].
    repeat split; auto.
Qed.
Lemma relabel_pending A T e me a s m' s' : inv A T s -> relabel a (active s) (lps s) = Some m' -> lps s' = m' ->
  untouched e me s s'.
Proof.
  intros I H E k Hk. unfold pending. rewrite E. pose proof (relabel_tw _ _ _ _ H k) as K.
  unfold position_of in Hk. destruct (find k (lps s)) as [p|] eqn:Ep; [|lia].
  destruct (find k m') as [p'|]; [|tauto]. destruct K as (K1 & K2 & K3 & K4 & K5 & K6). rewrite K1.
  destruct (find me (users p)) as [u|] eqn:Eu; simpl; auto.
  pose proof (i_lps _ _ _ I) as Q. rewrite Forall_forall in Q.
  destruct (Q _ (find_in _ _ _ Ep)) as [W Lw]. simpl in W, Lw. clear Q.
  pose proof (w_users _ _ W) as Qu. rewrite Forall_forall in Qu. specialize (Qu _ (find_in _ _ _ Eu)). simpl in Qu.
  destruct Qu as (Q1 & Q2 & Q3).
  unfold update_rewards. rewrite K5. destruct (now e <=? last (pl p)).
  - rewrite K3. apply due_same; auto. apply tws_alike. auto.
  - rewrite K2, K4. pose proof (upd_all_tw (now e) (last (pl p)) (total_lp (pl p)) (scheds p) _ _ K6) as G.
    destruct (upd_all _ _ _ _ (rewards (pl p))) as [[k1 r1]|]; destruct (upd_all _ _ _ _ (rewards (pl p'))) as [[k2 r2]|]; try tauto; simpl; auto.
    destruct G as [G1 <-]. rewrite K3. apply due_same; auto. simpl. apply tws_alike. auto.
Qed.

Lemma claim_each_pending A e sender me l : order_ok e -> sender <> me ->
  forall T s s' x v, inv A T s -> 0 <= T -> T <= now e ->
  claim_each e sender l s = Some (s', x, v) -> untouched e me s s'.
Proof.
  intros Eo N. induction l as [|lp r IH]; intros T s s' x v I T0 L H.
  - simpl in H. injection H as <- <- <-. apply untouched_lps. auto.
  - pose proof H as H0. simpl in H. unbind H as p Ep. unbind H as u Eu. unbind H as [q rem] E. unbind H as [x1 v1] E2.
    unbind H as s1 E3. unbind H as [[s2 x2] v2] E4. unbind H as pr E5. injection H as <- <- <-.
    assert (C1 : claim_each e sender [lp] s = Some (s1, x1 ++ [], v1 + 0)).
    { simpl. rewrite Ep, Eu, E, E2, E3. assert (Ev : add128 v1 0 = Some (v1 + 0)).
      { apply add128_Some. rewrite Z.add_0_r. split; auto.
        unfold due in E2. unbind E2 as o1 F1. unbind E2 as o2 F2. unbind E2 as o3 F3. injection E2 as <- <-.
        apply sum128_range in F3; auto. unfold U128MAX. lia. }
      rewrite Ev. auto. }
    destruct (claim_each_gap A e sender [lp] Eo T s s1 _ _ I T0 L C1) as (_ & J1 & _).
    pose proof (claim_each_same _ _ _ _ _ _ _ C1) as S1.
    eapply untouched_trans; [apply same_pos; exact S1| |eapply (IH (now e)); eauto; lia].
    intros k Hk.
    assert (Ec : p = cur lp s) by (unfold cur; rewrite Ep; auto).
    refine (commit_pending A T e lp s s1 p q rem _ me I T0 L Eo Ec E _ _ _ _ E3 k Hk); simpl; auto.
    + apply alike_refl.
    + apply find_put_other. auto.
Qed.
Lemma find_del_other' {V} k k2 (m : amap V) : k <> k2 -> find k2 (del k m) = find k2 m.
Proof. apply find_del_other. Qed.

Lemma deposit_pending A T e lp amt who s s' o me : inv A T s -> 0 <= T -> T <= now e -> order_ok e -> who <> me ->
  deposit e lp amt who s = Some (s', o) -> untouched e me s s'.
Proof.
  intros I T0 L Eo N H. unfold deposit in H. unguard H Hok.
  set (s0 := set_bal s (set (bal s) lp (get (bal s) lp + amt))) in *.
  change (match find lp (lps s0) with Some p => p | None => empty_lp end) with (cur lp s0) in H.
  unbind H as [q rem] E. unbind H as [ext prot] E2. unbind H as a E3. unbind H as t E4.
  unbind H as s1 E5. unbind H as o2 E6. destruct (pay_all e who s1 ext) as [s2 o1] eqn:E7. injection H as <- <-.
  intros k Hk. rewrite (pending_lps e k me s1 s2) by (pose proof (pay_all_lps e who ext s1) as K; rewrite E7 in K; simpl in K; rewrite K; auto).
  rewrite <- (pending_lps e k me s s0) by auto.
  refine (commit_pending A T e lp s0 s1 _ q rem _ me (inv_bal _ _ _ _ I) T0 L Eo eq_refl E _ _ _ _ E5 k Hk); simpl; auto.
  - apply alike_refl.
  - apply find_put_other. auto.
Qed.
Lemma withdraw_pending A T e sender lp amt s s' o me : inv A T s -> 0 <= T -> T <= now e -> order_ok e -> sender <> me ->
  withdraw e sender lp amt s = Some (s', o) -> untouched e me s s'.
Proof.
  intros I T0 L Eo N H. unfold withdraw in H. unbind H as p Ep.
  unbind H as u Eu. unguard H Hg. unbind H as [q rem] E. unbind H as [ext prot] E2.
  unbind H as a E3. unbind H as t E4. unbind H as s1 E5. unbind H as o2 E6.
  destruct (pay_all e sender s1 ext) as [s2 o1] eqn:E7. unguard H Hx. injection H as <- <-.
  intros k Hk. rewrite (pending_lps e k me s1 (set_bal s2 (set (bal s2) lp (get (bal s2) lp - amt)))) by (pose proof (pay_all_lps e sender ext s1) as K; rewrite E7 in K; simpl in K; simpl; rewrite K; auto).
  assert (Ec : p = cur lp s) by (unfold cur; rewrite Ep; auto).
  refine (commit_pending A T e lp s s1 p q rem _ me I T0 L Eo Ec E _ _ _ _ E5 k Hk); simpl; auto.
  - apply alike_refl.
  - destruct (a =? 0); [apply find_del_other; auto|apply find_put_other; auto].
Qed.
Lemma incentivize_pending A T e lp a amt n s f s' f' o me : inv A T s -> 0 <= T -> T <= now e -> order_ok e ->
  incentivize e lp a amt n s f = Some (s', f', o) -> untouched e me s s'.
Proof.
  intros I T0 L Eo H. unfold incentivize in H. unbind H as [[ne en] r] E. unguard H G. fold (cur lp s) in H.
  unbind H as [q rem] E1. unbind H as [rs sch] E2. unbind H as [[f1 s1] o1] E3. unbind H as [f2 s2] E4.
  unbind H as s3 E5. injection H as <- <- <-.
  assert (S1 : inv A T s1 /\ lps s1 = lps s).
  { destruct (fee s) as [[d v]|]; [|injection E3 as <- <- <-; auto].
    destruct (_ && _) in E3; [|injection E3 as <- <- <-; auto].
    unbind E3 as f0 E6. unguard E3 G3. injection E3 as <- <- <-. split; [apply inv_bal; auto|auto]. }
  destruct S1 as [I1 L1].
  assert (S2 : inv A T s2 /\ lps s2 = lps s1).
  { destruct (0 <=? a).
    - unbind E4 as f0 E6. injection E4 as <- <-. auto.
    - unguard E4 G4. injection E4 as <- <-. split; [apply inv_bal; auto|auto]. }
  destruct S2 as [I2 L2].
  assert (Ec : cur lp s = cur lp s2) by (unfold cur; rewrite L2, L1; auto).
  intros k Hk. rewrite <- (pending_lps e k me s s2) by (rewrite L2, L1; auto).
  refine (commit_pending A T e lp s2 s3 _ q rem _ me I2 T0 L Eo Ec E1 _ _ _ _ E5 k _); simpl; auto.
  - unfold incentivize_pool in E2. destruct (find_ext a (rewards q)) as [x|] eqn:Ex.
    + unbind E2 as r' E6. destruct (en <=? next_of (rw x)).
      * injection E2 as <- _. apply alike_upd_ext; simpl; eauto.
      * unbind E2 as sv E7. injection E2 as <- _. apply alike_upd_ext; simpl; eauto.
    + unguard E2 G2. injection E2 as <- _. apply alike_app. auto.
  - unfold position_of in *. rewrite L2, L1. auto.
Qed.
Lemma incentivize_each_pending A e l me : order_ok e -> periods_ok l -> forall T s f s' f' o,
  inv A T s -> 0 <= T -> T <= now e -> incentivize_each e l s f = Some (s', f', o) -> untouched e me s s'.
Proof.
  intros Eo. induction l as [|[lp [[a amt] n]] r IH]; intros Po T s f s' f' o I T0 L H; simpl in H.
  - injection H as <- <- <-. apply untouched_lps. auto.
  - inversion Po as [|? ? P1 P2]; subst. simpl in P1.
    unbind H as [[s1 f1] o1] E. unbind H as [[s2 f2] o2] E2. injection H as <- <- <-.
    destruct (incentivize_good A T e lp a amt n s f s1 f1 o1 I T0 L Eo P1 E) as (J1 & _).
    eapply untouched_trans; [apply same_pos; eapply (incentivize_same e lp a amt n s f); eauto| |].
    + eapply (incentivize_pending A T); eauto.
    + eapply (IH P2 (now e)); eauto; lia.
Qed.

Lemma step_untouched A T e sd m s s' o me : inv A T s -> 0 <= T -> T <= now e -> order_ok e -> unsigned m ->
  not_mine me sd m -> step e sd m s = Some (s', o) -> untouched e me s s'.
Proof.
  intros I T0 L Eo Mo N H.
  destruct m; simpl in H, N, Mo.
  - silent H. unfold setup_pools in E. unguard E G1. unguard E G2. unguard E G3.
    unbind E as s2 E1. unbind E as t E2. unbind E as s3 E3. injection E as <-.
    destruct (touch_all_pending A e false _ _ me Eo fine_disable T s s2 I T0 L E1) as (J1 & J2 & J3).
    destruct (touch_all_pending A e true _ _ me Eo (fine_set _ _ _) (now e) s2 s3 J2 ltac:(lia) ltac:(lia) E3) as (K1 & K2 & K3).
    eapply untouched_trans; [apply same_pos; exact J3|exact J1|].
    eapply untouched_trans; [apply same_pos; exact K3|exact K1|]. apply untouched_lps. auto.
  - unfold claim in H. unguard H G. unbind H as [[s1 x] v] E. unbind H as o2 E2.
    destruct (pay_all e sd s1 x) as [s2 o1] eqn:E3. injection H as <- <-.
    eapply untouched_trans; [apply same_pos; eapply claim_each_same; eauto|eapply (claim_each_pending A e sd me); eauto|].
    apply untouched_lps. pose proof (pay_all_lps e sd x s1) as K. rewrite E3 in K. auto.
  - eapply (deposit_pending A T e); eauto.
  - eapply (withdraw_pending A T e); eauto.
  - silent H. unfold set_tokens in E. unguard E G1. unbind E as s2 E1. injection E as <-.
    destruct (touch_all_pending A e false _ _ me Eo (fine_set _ _ _) T s s2 I T0 L E1) as (J1 & J2 & J3).
    eapply untouched_trans; [apply same_pos; exact J3|exact J1|]. apply untouched_lps. auto.
  - unfold incentivize_many in H. unguard H G. unbind H as [[s1 f1] o1] E. unguard H G2. injection H as <- <-.
    apply (incentivize_each_pending A e l me Eo Mo T _ _ _ _ _ (inv_bal _ _ _ _ I) T0 L E).
  - contradiction.
  - unfold claim_orphaned in H. unguard H G. unguard H G2. injection H as H. apply untouched_lps.
    match type of H with pay_all _ _ ?s1 ?x = _ => pose proof (pay_all_lps e to x s1) as K end.
    rewrite H in K. auto.
  - silent H. unfold update_config in E. unguard E G. unbind E as m E1. injection E as <-.
    destruct ast as [a|]; [eapply relabel_pending; eauto|]. injection E1 as <-. apply untouched_lps. auto.
  - silent H. unfold update_blocked in E. unguard E G1. unguard E G2. unbind E as bl1 E1.
    unbind E as [dis bl2] E2. destruct dis as [|d0 dr]; [injection E as <-; apply untouched_lps; auto|].
    unbind E as s2 E3. unbind E as red E4. unbind E as t E5. unbind E as s3 E6. injection E as <-.
    destruct (touch_all_pending A e false _ _ me Eo fine_disable T s s2 I T0 L E3) as (J1 & J2 & J3).
    destruct (touch_all_pending A e false _ _ me Eo (fine_set _ _ _) (now e) s2 s3 J2 ltac:(lia) ltac:(lia) E6) as (K1 & K2 & K3).
    eapply untouched_trans; [apply same_pos; exact J3|exact J1|].
    eapply untouched_trans; [apply same_pos; exact K3|exact K1|]. apply untouched_lps. auto.
  - silent H. unfold deactivate_pool in E. unguard E G1.
    destruct (find lp (lps s)) as [p|] eqn:Ef; [|injection E as <-; apply untouched_lps; auto].
    destruct (is_active (pl p)); [|injection E as <-; apply untouched_lps; auto].
    unbind E as [n al] E0. unbind E as s2 E1. unbind E as t E2. unbind E as s3 E3. injection E as <-.
    assert (E1' : touch_all e false (fun _ => disable_astro) [(lp, al)] s = Some s2) by (simpl; rewrite E1; auto).
    destruct (touch_all_pending A e false _ _ me Eo fine_disable T s s2 I T0 L E1') as (J1 & J2 & J3).
    destruct (touch_all_pending A e false _ _ me Eo (fine_set _ _ _) (now e) s2 s3 J2 ltac:(lia) ltac:(lia) E3) as (K1 & K2 & K3).
    eapply untouched_trans; [apply same_pos; exact J3|exact J1|].
    eapply untouched_trans; [apply same_pos; exact K3|exact K1|]. apply untouched_lps. auto.
  - silent H. unfold deactivate_blocked in E. unbind E as s2 E1. unbind E as t E2.
    destruct (touch_all_pending A e false _ _ me Eo fine_disable T s s2 I T0 L E1) as (J1 & J2 & J3).
    destruct (filter (fun x => mem (pair_type e (fst x)) (bad_types e)) (active s)); [injection E as <-; auto|].
    unbind E as s3 E3. injection E as <-.
    destruct (touch_all_pending A e false _ _ me Eo (fine_set _ _ _) (now e) s2 s3 J2 ltac:(lia) ltac:(lia) E3) as (K1 & K2 & K3).
    eapply untouched_trans; [apply same_pos; exact J3|exact J1|].
    eapply untouched_trans; [apply same_pos; exact K3|exact K1|]. apply untouched_lps. auto.
  - injection H as <- <-. apply untouched_lps. auto.
Qed.

(** ** Claims pay what the query says *)
Lemma outs_app A a b : paid_out A (a ++ b) = paid_out A a + paid_out A b /\
  lost_out A (a ++ b) = lost_out A a + lost_out A b /\ prot_out_sum (a ++ b) = prot_out_sum a + prot_out_sum b.
Proof.
  induction a as [|x r IH]; simpl; [auto|]. destruct IH as (I1 & I2 & I3).
  unfold paid_out, lost_out, prot_out_sum in *. simpl. rewrite I1, I2, I3. lia.
Qed.
Lemma pay_all_sum A e to l : forall s, let o := snd (pay_all e to s l) in
  paid_out A o + lost_out A o = sum_of A l /\ prot_out_sum o = 0.
Proof.
  induction l as [|x r IH]; intros s; simpl; auto.
  destruct (pay e to s x) as [s1 o1] eqn:E. specialize (IH s1). destruct (pay_all e to s1 r) as [s2 o2].
  simpl in *. destruct (outs_app A o1 o2) as (-> & -> & ->). destruct IH as [I1 I2].
  unfold pay in E. destruct x as [a v]. simpl. destruct (Z.eqb_spec v 0).
  - injection E as <- <-. unfold paid_out, lost_out, prot_out_sum in *. simpl. destruct (a =? A); lia.
  - destruct (_ && _); injection E as <- <-; unfold paid_out, lost_out, prot_out_sum in *; simpl; destruct (a =? A); lia.
Qed.
Lemma pay_prot_sum A e to v o : pay_prot e to v = Some o -> paid_out A o = 0 /\ lost_out A o = 0 /\ prot_out_sum o = v.
Proof.
  unfold pay_prot. destruct (Z.eqb_spec v 0); intros H; [injection H as <-; simpl; auto|].
  unguard H G. injection H as <-. unfold paid_out, lost_out, prot_out_sum. simpl. lia.
Qed.
Lemma sum_of_app A a b : sum_of A (a ++ b) = sum_of A a + sum_of A b.
Proof. rewrite !sum_of_paid. apply paidA_app. Qed.
Lemma claim_each_sum A e who l : forall s s' x v, NoDup l -> claim_each e who l s = Some (s', x, v) ->
  sum_of A x = fold_right (fun lp a => pend A e lp who s + a) 0 l /\
  v = fold_right (fun lp a => pend_prot e lp who s + a) 0 l.
Proof.
  induction l as [|lp r IH]; intros s s' x v N H; simpl in H.
  - injection H as <- <- <-. auto.
  - inversion N as [|? ? N1 N2]; subst.
    unbind H as p Ep. unbind H as u Eu. unbind H as [q rem] E. unbind H as [x1 v1] E2. unbind H as s1 E3.
    unbind H as [[s2 x2] v2] E4. unbind H as pr E5. injection H as <- <- <-.
    apply add128_Some in E5. destruct E5 as (-> & _).
    destruct (IH _ _ _ _ N2 E4) as [I1 I2]. rewrite sum_of_app, I1, I2. simpl.
    assert (P1 : pending e lp who s = Some (x1, v1)) by (unfold pending; rewrite Ep, Eu, E; auto).
    assert (G : forall k, k <> lp -> pending e k who s1 = pending e k who s).
    { intros k Hk. apply pending_lps. apply save_lps in E3. destruct E3 as (fi & El & _). rewrite El.
      apply find_put_other. auto. }
    unfold pend at 2, pend_prot at 2. rewrite P1. clear - G N1.
    assert (Q : fold_right (fun lp a => pend A e lp who s1 + a) 0 r = fold_right (fun lp a => pend A e lp who s + a) 0 r /\
                fold_right (fun lp a => pend_prot e lp who s1 + a) 0 r = fold_right (fun lp a => pend_prot e lp who s + a) 0 r).
    { induction r as [|k r IH]; simpl; auto. destruct IH as [I1 I2]; [intros Hi; apply N1; right; auto|].
      rewrite I1, I2. unfold pend at 1, pend_prot at 1. rewrite G; [auto|]. intros ->. apply N1. left. auto. }
    destruct Q as [-> ->]. auto.
Qed.
Lemma nodup_NoDup l : nodup l = true -> NoDup l.
Proof.
  induction l as [|x r IH]; simpl; [constructor|]. intros H. apply andb_true_iff in H. destruct H as [H1 H2].
  constructor; auto. apply negb_true_iff, mem_nIn in H1. auto.
Qed.
