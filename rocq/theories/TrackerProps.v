(** C41, C42: historical balances and historical supply of the token-factory tracker. *)
From Coq Require Import ZArith Lia Bool List.
From Verif Require Import Num Ledger Hist SnapshotModel SnapshotProofs SnapshotTrack TrackerModel.
Import ListNotations.
Open Scope Z_scope.

(** ** Shape of a successful event *)
Lemma upd_same f a v : upd f a v a = v.
Proof. unfold upd. rewrite Z.eqb_refl. reflexivity. Qed.
Lemma upd_other f a b v : b <> a -> upd f a v b = f b.
Proof. unfold upd. intros. destruct (Z.eqb_spec b a); congruence. Qed.

Lemma send_inv s u from to amount s' :
  step u (Send from to amount) s = Some s' ->
  0 <= amount <= get (bank s) from /\ bank s' = move (bank s) from to amount /\
  bsupply s' = bsupply s /\ ssnap s' = snap_save (ssnap s) u (bsupply s) /\
  forall a, a <> MODULE ->
    (snaps s' a = snaps s a /\ get (bank s') a = get (bank s) a) \/
    snaps s' a = snap_save (snaps s a) u (get (bank s') a).
Proof.
  unfold step, track_balances. intros H. unbind H as s1 E. unguard H G. injection H as <-.
  unbind E as sn Es. injection E as <-. bools. cbn [bank bsupply snaps ssnap].
  split; [lia|]. split; [reflexivity|]. split; [reflexivity|]. split; [reflexivity|].
  intros a Ha. destruct (Z.eqb_spec from to) as [->|N].
  { injection Es as <-. left. split; [reflexivity|]. destruct (Z.eq_dec a to) as [->|Na].
    - apply get_move_self.
    - apply get_move_other; auto. }
  unbind Es as sn1 E1.
  assert (A1 : a = from -> sn1 a = snap_save (snaps s a) u (get (bank s) a - amount)).
  { intros ->. destruct (Z.eqb_spec from MODULE); [congruence|]. unbind E1 as nb En. injection E1 as <-.
    num_inv. apply upd_same. }
  assert (A2 : a <> from -> sn1 a = snaps s a).
  { intros Na. destruct (Z.eqb_spec from MODULE); [injection E1 as <-; auto|].
    unbind E1 as nb En. injection E1 as <-. apply upd_other. auto. }
  assert (B1 : a = to -> sn a = snap_save (sn1 a) u (get (bank s) a + amount)).
  { intros ->. destruct (Z.eqb_spec to MODULE); [congruence|]. unbind Es as nb En. injection Es as <-.
    num_inv. apply upd_same. }
  assert (B2 : a <> to -> sn a = sn1 a).
  { intros Na. destruct (Z.eqb_spec to MODULE); [injection Es as <-; auto|].
    unbind Es as nb En. injection Es as <-. apply upd_other. auto. }
  destruct (Z.eq_dec a from) as [Ef|Nf].
  - right. rewrite B2 by congruence. rewrite A1 by auto. f_equal. subst a. rewrite get_move_from; auto.
  - destruct (Z.eq_dec a to) as [Et|Nt].
    + right. rewrite B1, A2 by auto. f_equal. subst a. rewrite get_move_to; auto.
    + left. rewrite B2, A2 by auto. split; [reflexivity|]. apply get_move_other; auto.
Qed.

Lemma balances_saved a : a <> MODULE ->
  saves_changes fst exec (fun s => snaps s a) (fun s => get (bank s) a).
Proof.
  intros Ha s [u e]. unfold exec. simpl. destruct (step u e s) as [s'|] eqn:E; [|left; auto].
  destruct e.
  - apply send_inv in E. destruct E as (_ & _ & _ & _ & K).
    destruct (K a Ha) as [[A B]|A]; [left; auto|]. right. exists [get (bank s') a]. split; auto.
  - left. simpl in E. unguard E G. unbind E as ns En. injection E as <-. simpl.
    split; [reflexivity|]. apply get_set_other. auto.
  - left. simpl in E. unguard E G. injection E as <-. simpl.
    split; [reflexivity|]. apply get_set_other. auto.
Qed.

(** Bank balances are non-negative and add up to the supply (whatever the events). *)
Lemma run_bank l : nonneg (bank (run l)) /\ total (bank (run l)) = bsupply (run l).
Proof.
  induction l as [|[u e] l IH] using rev_ind; [split; [constructor|reflexivity]|].
  unfold run in *. rewrite fold_left_app. simpl. set (s := fold_left exec l init) in *. clearbody s.
  unfold exec. simpl. destruct (step u e s) as [s'|] eqn:E; [|auto].
  destruct IH as [N T]. destruct e.
  - apply send_inv in E. destruct E as (G & B & S & _). rewrite B, S. split.
    + apply nonneg_move; auto.
    + rewrite total_move. auto.
  - simpl in E. unguard E G. unbind E as ns En. injection E as <-. simpl. bools. num_inv.
    pose proof (nonneg_get (bank s) MODULE N). split.
    + apply nonneg_set; auto. lia.
    + rewrite total_set. lia.
  - simpl in E. unguard E G. injection E as <-. simpl. bools.
    pose proof (nonneg_get (bank s) MODULE N). split.
    + apply nonneg_set; auto. lia.
    + rewrite total_set. lia.
Qed.

(** ** C41 *)

(** Events in chronological order.  A query for a past (or future) unit [u] reports the bank balance
    at the end of the last event before [u], i.e. at the beginning of [u]. *)
Theorem c41_balance_at_past l now a u :
  nondecr fst l -> a <> MODULE -> u <> now ->
  balance_at (run l) now a (Some u) = get (bank (run (before fst u l))) a.
Proof.
  intros N Ha Hu. unfold balance_at. destruct (Z.eqb_spec u now); [congruence|].
  exact (proj1 (track_at fst exec (fun s => snaps s a) (fun s => get (bank s) a) init l u
    (balances_saved a Ha) eq_refl eq_refl N)).
Qed.
(** A query for the current unit reports the present bank balance. *)
Theorem c41_balance_now l now a :
  nondecr fst l -> a <> MODULE ->
  balance_at (run l) now a None = get (bank (run l)) a /\
  balance_at (run l) now a (Some now) = get (bank (run l)) a.
Proof.
  intros N Ha. unfold balance_at. rewrite Z.eqb_refl.
  pose proof (proj2 (track_at fst exec (fun s => snaps s a) (fun s => get (bank s) a) init l 0
    (balances_saved a Ha) eq_refl eq_refl N)) as H. unfold dflt in H.
  change (hist_run exec init l) with (run l) in H. rewrite H. auto.
Qed.
(** The answer about a past unit never changes afterwards. *)
Theorem c41_past_is_immutable l l' now now' a u :
  nondecr fst (l ++ l') -> a <> MODULE -> u <> now -> u <> now' -> Forall (fun e => u <= fst e) l' ->
  balance_at (run (l ++ l')) now' a (Some u) = balance_at (run l) now a (Some u).
Proof.
  intros N Ha U U' F.
  assert (N1 : nondecr fst l).
  { clear -N. induction l' as [|x l' IH] using rev_ind; [rewrite app_nil_r in N; auto|].
    rewrite app_assoc in N. apply nondecr_app_one in N. tauto. }
  rewrite !c41_balance_at_past; auto. unfold before. rewrite filter_app.
  replace (filter (fun x => fst x <? u) l') with (@nil (Z * event)); [rewrite app_nil_r; reflexivity|].
  clear N. induction F as [|x r Hx Hr IH]; simpl; auto. destruct (Z.ltb_spec (fst x) u); [lia|auto].
Qed.

Definition ex : list (Z * event) :=
  [(10, ModuleMint 1000); (10, Send MODULE 1 1000); (12, Send 1 2 300); (12, Send 1 2 100);
   (15, Send 2 3 50); (15, Send 9 3 50); (20, Send 2 MODULE 200); (20, ModuleBurn 200); (20, Send 2 2 1)].
Example c41_example :
  nondecr fst ex /\
  map (fun u => balance_at (run ex) 30 2 (Some u)) [10; 12; 13; 15; 16; 20; 21; 30] = [0; 0; 400; 400; 350; 350; 150; 150] /\
  balance_at (run ex) 20 2 (Some 20) = 150.
Proof. split; [simpl; repeat (constructor; simpl; try lia)|]. vm_compute. split; reflexivity. Qed.

(** ** C42 *)

(** Supply seen by the last successful transfer of a history. *)
Definition rec_step (sr : state * Z) (ue : Z * event) : state * Z :=
  (exec (fst sr) ue,
   match snd ue, step (fst ue) (snd ue) (fst sr) with
   | Send _ _ _, Some s' => bsupply s'
   | _, _ => snd sr
   end).
Definition recorded (l : list (Z * event)) : Z := snd (fold_left rec_step l (init, 0)).

Lemma rec_fst l : forall s r, fst (fold_left rec_step l (s, r)) = fold_left exec l s.
Proof. induction l as [|e l IH]; intros s r; simpl; auto. unfold rec_step at 2. rewrite IH. reflexivity. Qed.

Lemma supply_saved : saves_changes fst rec_step (fun p => ssnap (fst p)) snd.
Proof.
  intros [s r] [u e]. unfold rec_step, exec. cbn [fst snd]. destruct (step u e s) as [s'|] eqn:E.
  - destruct e.
    + apply send_inv in E. destruct E as (_ & _ & S & K & _). right. exists [bsupply s'].
      simpl. rewrite K, S. auto.
    + left. simpl in E. unguard E G. unbind E as ns En. injection E as <-. auto.
    + left. simpl in E. unguard E G. injection E as <-. auto.
  - left. destruct e; auto.
Qed.

(** What the query answers in every history. *)
Theorem c42_supply_at l now u :
  nondecr fst l -> u <> now ->
  total_supply_at (run l) now (Some u) = recorded (before fst u l) /\
  total_supply_at (run l) now None = recorded l.
Proof.
  intros N Hu. unfold total_supply_at. destruct (Z.eqb_spec u now); [congruence|]. rewrite Z.eqb_refl.
  pose proof (track_at fst rec_step (fun p => ssnap (fst p)) snd (init, 0) l u supply_saved eq_refl eq_refl N) as [A B].
  unfold hist_run, dflt in *. rewrite !rec_fst in *. split; [exact A | exact B].
Qed.

(** It equals the true supply, and the sum of all balances, whenever the last event before the
    queried unit was a successful transfer (the staking contract ends every operation with one). *)
Theorem c42_exact_after_transfer l l0 t from to amount now u :
  nondecr fst l -> u <> now -> before fst u l = l0 ++ [(t, Send from to amount)] ->
  step t (Send from to amount) (run l0) <> None ->
  total_supply_at (run l) now (Some u) = total (bank (run (before fst u l))) /\
  total_supply_at (run l) now (Some u) = bsupply (run (before fst u l)).
Proof.
  intros N Hu E S. destruct (c42_supply_at l now u N Hu) as [-> _].
  rewrite (proj2 (run_bank (before fst u l))). rewrite E.
  assert (K : recorded (l0 ++ [(t, Send from to amount)]) = bsupply (run (l0 ++ [(t, Send from to amount)]))).
  { unfold recorded, run in *. rewrite !fold_left_app. cbn [fold_left].
    pose proof (rec_fst l0 init 0) as F. destruct (fold_left rec_step l0 (init, 0)) as [s0 r0].
    cbn [fst] in F. subst s0. unfold rec_step. cbn [fst snd]. unfold exec at 2. cbn [fst snd].
    destruct (step t _ (fold_left exec l0 init)); [reflexivity|congruence]. }
  auto.
Qed.

(** The intended statement fails: after a burn that is not followed by a transfer the reported
    historical supply still contains the burned tokens, while the reported balances do not. *)
Theorem c42_supply_is_sum_refuted : exists l now u,
  nondecr fst l /\ u < now /\
  total_supply_at (run l) now (Some u) = 1000 /\
  bsupply (run (before fst u l)) = 600 /\
  balance_at (run l) now 1 (Some u) + balance_at (run l) now 2 (Some u) = 600 /\
  forall a, a <> 1 -> a <> 2 -> a <> MODULE -> balance_at (run l) now a (Some u) = 0.
Proof.
  exists [(10, ModuleMint 1000); (10, Send MODULE 1 1000); (11, Send 1 2 500); (12, Send 1 MODULE 400); (12, ModuleBurn 400)], 30, 20.
  assert (N : nondecr (fst : Z * event -> Z) [(10, ModuleMint 1000); (10, Send MODULE 1 1000); (11, Send 1 2 500); (12, Send 1 MODULE 400); (12, ModuleBurn 400)])
    by (simpl; repeat (constructor; simpl; try lia)).
  split; [exact N|]. split; [lia|]. split; [vm_compute; reflexivity|]. split; [vm_compute; reflexivity|].
  split; [vm_compute; reflexivity|]. intros a H1 H2 H3. rewrite c41_balance_at_past by (auto; lia).
  unfold MODULE in H3. vm_compute bank.
  assert (E0 : (0 =? a) = false) by (apply Z.eqb_neq; lia).
  assert (E1 : (1 =? a) = false) by (apply Z.eqb_neq; lia).
  assert (E2 : (2 =? a) = false) by (apply Z.eqb_neq; lia).
  cbn [get]. rewrite ?E0, ?E1, ?E2. reflexivity.
Qed.
Example c42_example :
  map (fun u => total_supply_at (run ex) 30 (Some u)) [10; 11; 16; 21] = [0; 1000; 1000; 800] /\
  (exists l0, before fst 21 ex = l0 ++ [(20, Send 2 2 1)] /\ step 20 (Send 2 2 1) (run l0) <> None).
Proof.
  split; [vm_compute; reflexivity|].
  exists [(10, ModuleMint 1000); (10, Send MODULE 1 1000); (12, Send 1 2 300); (12, Send 1 2 100);
   (15, Send 2 3 50); (15, Send 9 3 50); (20, Send 2 MODULE 200); (20, ModuleBurn 200)].
  split; [reflexivity|]. vm_compute. discriminate.
Qed.

Print Assumptions c41_balance_at_past.
Print Assumptions c41_balance_now.
Print Assumptions c41_past_is_immutable.
Print Assumptions c42_supply_at.
Print Assumptions c42_exact_after_transfer.
Print Assumptions c42_supply_is_sum_refuted.
