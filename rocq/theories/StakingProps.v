(** Theorems C12-C14: xASTRO staking. *)
From Coq Require Import ZArith Lia Bool List.
From Verif Require Import Num Ledger StakingModel StakingProofs.
Import ListNotations.
Open Scope Z_scope.

(** States reachable by any history of messages. *)
Definition reachable (s : state) : Prop := exists l, s = run init l.
Lemma reachable_inv s : reachable s -> inv s.
Proof. intros (l & ->). apply run_inv, init_inv. Qed.

Definition ex : state := run init [Enter 1 1 1000000; Donate 500000; Enter 2 2 300000; XTransfer 2 3 50].
Lemma ex_reachable : reachable ex. Proof. eexists; reflexivity. Qed.

(** C12: dep/supply (ASTRO per xASTRO) never decreases, and is never below 1. *)
Theorem c12_rate_never_falls s l :
  reachable s -> 0 < supply s ->
  0 < supply (run s l) /\ dep s * supply (run s l) <= dep (run s l) * supply s.
Proof. intros R. exact (run_rate l s (reachable_inv _ R)). Qed.
Theorem c12_rate_at_least_one s : reachable s -> supply s <= dep s.
Proof.
  intros R. apply reachable_inv in R. destruct (i_lock _ R) as [E|[_ H]]; [|exact H].
  rewrite E. exact (i_dep _ R).
Qed.
Example c12_example :
  supply ex = 1200000 /\ dep ex = 1800000 /\
  (let s := run ex [Leave 2 7; Enter 4 4 11; Leave 1 999] in dep s = 1798503 /\ supply s = 1199001).
Proof. vm_compute. repeat split. Qed.

(** C13 *)
Theorem c13_round_trip s u a s1 m s2 r :
  reachable s -> 0 < supply s -> enter s u a = Some (s1, m) -> leave s1 u m = Some (s2, r) -> r <= a.
Proof. intros R. exact (round_trip s u a s1 m s2 r (reachable_inv _ R)). Qed.
Theorem c13_round_trip_first s u a s1 m s2 r :
  reachable s -> supply s = 0 -> enter s u a = Some (s1, m) -> leave s1 u m = Some (s2, r) ->
  r < a + dep s.
Proof. intros R. exact (round_trip_first s u a s1 m s2 r (reachable_inv _ R)). Qed.
Theorem c13_payout_covered s u a s1 r :
  reachable s -> leave s u a = Some (s1, r) -> 0 <= r <= dep s /\ dep s1 = dep s - r /\ r * supply s <= a * dep s.
Proof.
  intros R H. apply leave_inv in H; [|exact (reachable_inv _ R)].
  destruct H as (_ & _ & Hp & _ & _ & Hr & Hr' & Hd & _).
  split; [exact Hr'|]. split; [exact Hd|]. rewrite Hr, Z.mul_comm. apply Z.mul_div_le. exact Hp.
Qed.
Theorem c13_splitting_gains_nothing s u a1 a2 s1 r1 s2 r2 s3 r :
  reachable s -> leave s u a1 = Some (s1, r1) -> leave s1 u a2 = Some (s2, r2) ->
  leave s u (a1 + a2) = Some (s3, r) -> r1 + r2 <= r.
Proof. intros R. exact (split_leave s u a1 a2 s1 r1 s2 r2 s3 r (reachable_inv _ R)). Qed.
Example c13_example : exists s1 s2 s3 s4 s5,
  enter ex 5 1000 = Some (s1, 666) /\ leave s1 5 666 = Some (s2, 999) /\
  leave ex 2 333 = Some (s3, 499) /\ leave s3 2 334 = Some (s4, 501) /\
  leave ex 2 667 = Some (s5, 1000).
Proof. wit. Qed.

(** C14 *)
Theorem c14_locked_forever s l :
  reachable s -> 0 < supply s -> 1000 <= get (xb (run s l)) SELF /\ 1000 <= supply (run s l).
Proof.
  intros R HS. apply reachable_inv in R. destruct (run_rate l s R HS) as [H _].
  pose proof (run_inv l s R) as I. destruct (i_lock _ I) as [E|[L _]]; [lia|].
  split; [exact L|]. destruct (inv_supply _ I) as [_ K]. apply K. lia.
Qed.
Theorem c14_zero_mint_rejected s u a s1 m :
  reachable s -> enter s u a = Some (s1, m) -> 0 < m.
Proof. intros R H. apply enter_inv in H; [tauto | exact (reachable_inv _ R)]. Qed.
Theorem c14_loss_below_one_xastro s u a s1 m :
  reachable s -> 0 < supply s -> enter s u a = Some (s1, m) ->
  a * supply s1 - m * dep s1 < dep s.
Proof. intros R. exact (enter_loss s u a s1 m (reachable_inv _ R)). Qed.
Example c14_example :
  (let s := run init [Enter 1 1 1001; Leave 1 1; Donate 5000000] in
   supply s = 1000 /\ dep s = 5001000 /\ enter s 7 5000 = None /\ enter s 7 5001 <> None) /\
  enter init 1 1000 = None.
Proof. vm_compute. repeat split; discriminate. Qed.

(** C60: exact effects of staking messages. *)
Theorem c60_enter_exact s u a s1 m :
  reachable s -> enter s u a = Some (s1, m) ->
  m = (if supply s =? 0 then a - 1000 else a * supply s / dep s) /\
  dep s1 = dep s + a /\
  supply s1 = supply s + m + (if supply s =? 0 then 1000 else 0) /\
  (forall h, get (xb s1) h = get (xb s) h + (if h =? u then m else 0)
     + (if (supply s =? 0) && (h =? SELF) then 1000 else 0)).
Proof.
  intros R H. apply enter_inv in H; [|exact (reachable_inv _ R)].
  destruct H as (_ & _ & Hd & H1 & H2). destruct (Z.eqb_spec (supply s) 0) as [E|E].
  - destruct (H1 E) as (Hm & Hs & Hb). split; [exact Hm|]. split; [exact Hd|]. split; [lia|].
    intros h. rewrite Hb. cbv zeta. rewrite andb_true_l.
    destruct (Z.eqb_spec h u) as [->|N].
    + rewrite get_set_same. destruct (Z.eqb_spec u SELF) as [->|N2].
      * rewrite get_set_same. lia.
      * rewrite get_set_other by congruence. lia.
    + rewrite get_set_other by congruence. destruct (Z.eqb_spec h SELF) as [->|N2].
      * rewrite get_set_same. lia.
      * rewrite get_set_other by congruence. lia.
  - destruct (H2 E) as (Hm & Hs & Hb). split; [exact Hm|]. split; [exact Hd|]. split; [lia|].
    intros h. rewrite Hb. cbv zeta. rewrite andb_false_l.
    destruct (Z.eqb_spec h u) as [->|N].
    + rewrite get_set_same. destruct (Z.eqb_spec u SELF) as [->|N2].
      * rewrite get_set_same. lia.
      * rewrite get_set_other by congruence. lia.
    + rewrite get_set_other by congruence. destruct (Z.eqb_spec h SELF) as [->|N2].
      * rewrite get_set_same. lia.
      * rewrite get_set_other by congruence. lia.
Qed.
Theorem c60_leave_exact s u a s1 r :
  reachable s -> leave s u a = Some (s1, r) ->
  0 < a <= get (xb s) u /\ r = a * dep s / supply s /\ dep s1 = dep s - r /\ supply s1 = supply s - a /\
  (forall h, get (xb s1) h = get (xb s) h - (if h =? u then a else 0)).
Proof.
  intros R H. apply leave_inv in H; [|exact (reachable_inv _ R)].
  destruct H as (_ & Ha & _ & _ & _ & Hr & _ & Hd & Hs & Hb).
  repeat (split; [assumption|]). intros h. rewrite Hb. destruct (Z.eqb_spec h u) as [->|N].
  - rewrite get_set_same. reflexivity.
  - rewrite get_set_other by congruence. lia.
Qed.
(** A holder of xASTRO can always leave with any part of it. *)
Lemma run_dmax l : forall s, dep s <= U128MAX -> dep (run s l) <= U128MAX.
Proof.
  induction l as [|m l IH]; simpl; auto. intros s H. apply IH. unfold exec.
  destruct (step m s) as [[s' o]|] eqn:E; auto. destruct m; simpl in E.
  - unfold enter in E. unguard E E1. unguard E E2. unbind E as mint E3. unguard E E4. unbind E as d E5.
    inversion E; subst. simpl. apply add128_Some in E5. lia.
  - unfold leave in E. unguard E E1. unbind E as ret E2. unbind E as d E3. unguard E E4.
    inversion E; subst. simpl. apply sub128_Some in E3. lia.
  - unguard E E1. unbind E as d E2. inversion E; subst. simpl. apply add128_Some in E2. lia.
  - unguard E E1. inversion E; subst. exact H.
Qed.
Lemma reachable_dmax s : reachable s -> dep s <= U128MAX.
Proof. intros (l & ->). apply run_dmax. simpl. unfold U128MAX. lia. Qed.
Theorem c60_leave_always_possible s u a :
  reachable s -> u <> SELF -> 0 < a <= get (xb s) u -> exists s1 r, leave s u a = Some (s1, r).
Proof.
  intros R N Ha. pose proof (reachable_dmax _ R) as D. apply reachable_inv in R. destruct (inv_supply _ R) as [Hs0 Hs1].
  pose proof (get2_le_total _ u SELF (i_nn _ R) N) as G. rewrite (i_tot _ R) in G.
  pose proof (nonneg_get (xb s) SELF (i_nn _ R)).
  destruct (i_lock _ R) as [|[L1 L2]]; [lia|].
  unfold leave. destruct (Z.eqb_spec u SELF); [congruence|].
  rewrite (proj2 (Z.ltb_lt 0 a)) by lia. rewrite (proj2 (Z.leb_le a _)) by lia. simpl.
  assert (Q : 0 <= a * dep s / supply s <= dep s).
  { split; [apply Z.div_pos; nia|]. apply Z.div_le_upper_bound; nia. }
  unfold muldiv128, sub128, u128. destruct (Z.eqb_spec (supply s) 0); [lia|].
  rewrite (proj2 (fits_iff U128MAX _)) by lia. rewrite (proj2 (fits_iff U128MAX _)) by lia.
  rewrite (proj2 (Z.leb_le 1 _)) by lia. eauto.
Qed.
Example c60_example : exists s1 s2,
  enter ex 5 1000 = Some (s1, 666) /\ get (xb s1) 5 = get (xb ex) 5 + 666 /\
  leave s1 5 100 = Some (s2, 150) /\ get (xb s2) 5 = get (xb s1) 5 - 100.
Proof. wit. Qed.

Print Assumptions c60_enter_exact.
Print Assumptions c60_leave_exact.
Print Assumptions c60_leave_always_possible.
Print Assumptions c12_rate_never_falls.
Print Assumptions c12_rate_at_least_one.
Print Assumptions c13_round_trip.
Print Assumptions c13_round_trip_first.
Print Assumptions c13_payout_covered.
Print Assumptions c13_splitting_gains_nothing.
Print Assumptions c14_locked_forever.
Print Assumptions c14_zero_mint_rejected.
Print Assumptions c14_loss_below_one_xastro.
