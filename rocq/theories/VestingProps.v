(** Theorems C15-C18: vesting. *)
From Coq Require Import ZArith Lia Bool List.
From Verif Require Import Num Amap Hist VestingModel VestingSpec VestingProofs.
Import ListNotations.
Open Scope Z_scope.

(** States reachable by time [t] through any history of messages from any senders. *)
Definition reachable (t : Z) (s : state) : Prop :=
  exists o l, hist_ok l /\ Forall (fun tm => fst tm <= t) l /\ s = run (init o) l.
Lemma reachable_inv t s : is_u64 t -> reachable t s -> inv t s.
Proof.
  intros U (o & l & H & F & ->). apply (run_inv l 0); auto; try apply init_inv.
  - destruct H as [_ H]. eapply Forall_impl; [|exact H]. unfold is_u64. simpl. lia.
  - unfold is_u64 in U. lia.
Qed.

Definition lin (t0 a0 t1 a1 : Z) : sched := mkSch (mkPt t0 a0) (Some (mkPt t1 a1)).
Definition hist : list (Z * msg) :=
  [ (10, Register 1 [(5, [lin 100 10 200 1010; mkSch (mkPt 150 77) None]); (6, [lin 0 0 1000 333])] 1420);
    (50, Claim 6 None); (120, Claim 5 (Some 100)); (130, Register 2 [(5, [lin 1 1 500 2])] 2);
    (150, WithdrawActive 1 5 100); (160, Donate 5); (175, Claim 5 None) ].
Definition ex : state := run (init 1) hist.
Lemma ex_reachable : reachable 180 ex.
Proof.
  exists 1, hist. split; [|split; [|reflexivity]].
  - unfold hist_ok, hist, is_u64, U64MAX, msg_ok, sch_ok, pt_ok, is_u64, is_u128, U64MAX, U128MAX. simpl.
    repeat (split || constructor; simpl; try lia).
  - unfold hist. repeat constructor; simpl; lia.
Qed.

(** C15: total claimed so far never exceeds what has unlocked; a claim pays exactly the rest, or the
    requested part of it; asking for more fails. *)
Theorem c15_claimed_at_most_unlocked o l t a v :
  is_u64 t -> hist_ok l -> Forall (fun tm => fst tm <= t) l ->
  find a (accs (run (init o) l)) = Some v ->
  released v = claimed (init o) l a /\ 0 <= claimed (init o) l a <= unlocked_all (schedules v) t.
Proof.
  intros U H F E.
  assert (R : reachable t (run (init o) l)) by (exists o, l; auto).
  apply reachable_inv in R; auto. destruct (find_ok _ _ _ _ R E) as [_ R']. simpl in R'.
  assert (Q : rel_of (run (init o) l) a = rel_of (init o) a + claimed (init o) l a).
  { apply (run_claimed l 0); auto; [apply init_inv|].
    destruct H as [_ H]. eapply Forall_impl; [|exact H]. unfold is_u64. simpl. lia. }
  unfold rel_of in Q. rewrite E in Q. simpl in Q. lia.
Qed.
Theorem c15_claim_pays_exactly t s a v amount s' o :
  is_u64 t -> reachable t s -> find a (accs s) = Some v ->
  step t (Claim a amount) s = Some (s', o) ->
  bal s' = bal s - o /\
  (amount = None -> o = unlocked_all (schedules v) t - released v) /\
  (forall x, amount = Some x -> o = x /\ x <= unlocked_all (schedules v) t - released v) /\
  exists v', find a (accs s') = Some v' /\ schedules v' = schedules v /\ released v' = released v + o /\
    (forall b, b <> a -> find b (accs s') = find b (accs s)).
Proof.
  intros U R E H. apply reachable_inv in R; auto. simpl in H. unguard H Eg.
  apply claim_inv in H; auto; [|destruct amount; bools; auto].
  destruct H as (v0 & Ev & Ho & Ha & _ & Hb & Hs). rewrite E in Ev. injection Ev as <-.
  split; [exact Hb|]. split; [intros ->; exact Ha|].
  split; [intros x ->; split; [exact Ha | cbv zeta in Ho; lia]|].
  destruct Hs as [[-> ->]|Hs].
  - exists v. repeat split; auto. lia.
  - exists (mkInfo (schedules v) (released v + o)). rewrite Hs, find_put_same. repeat split; auto.
    intros b Nb. apply find_put_other. auto.
Qed.
Theorem c15_too_large_claim_fails t s a v x :
  is_u64 t -> reachable t s -> find a (accs s) = Some v ->
  unlocked_all (schedules v) t - released v < x -> step t (Claim a (Some x)) s = None.
Proof.
  intros U R E H. destruct (step t (Claim a (Some x)) s) as [[s' o]|] eqn:St; auto.
  destruct (c15_claim_pays_exactly _ _ _ _ _ _ _ U R E St) as (_ & _ & K & _).
  specialize (K x eq_refl). lia.
Qed.
Example c15_example : exists v s1,
  find 5 (accs ex) = Some v /\ released v = 787 /\ unlocked_all (schedules v) 180 = 827 /\
  claimed (init 1) hist 5 = 787 /\ claimed (init 1) hist 6 = 16 /\
  step 180 (Claim 5 None) ex = Some (s1, 40) /\ step 180 (Claim 5 (Some 41)) ex = None.
Proof. wit. Qed.

(** C16: the released amount of an accepted schedule over time. *)
Theorem c16_monotone_and_complete now s t1 t2 :
  sch_ok s -> sched_ok now s = true -> t1 <= t2 ->
  0 <= unlocked s t1 <= unlocked s t2 /\ unlocked s t2 <= end_amount s /\
  (t1 < time (start s) -> unlocked s t1 = 0) /\
  (time (start s) <= t1 -> amt (start s) <= unlocked s t1) /\
  (forall e, fin s = Some e -> time e <= t2 -> unlocked s t2 = amt e) /\
  (fin s = None -> time (start s) <= t2 -> unlocked s t2 = amt (start s)).
Proof.
  intros K S Ht. pose proof (sched_wf now s K S) as W.
  pose proof (unlocked_bounds s t1 W). pose proof (unlocked_bounds s t2 W).
  pose proof (unlocked_mono s t1 t2 W Ht).
  split; [lia|]. split; [lia|]. unfold unlocked.
  split; [intros C; destruct (Z.ltb_spec t1 (time (start s))); lia|].
  split; [|split].
  - intros C. destruct (Z.ltb_spec t1 (time (start s))); [lia|].
    unfold wf in W. destruct (fin s) as [e|]; [|lia].
    destruct (Z.leb_spec (time e) t1); [lia|].
    assert (0 <= (t1 - time (start s)) * (amt e - amt (start s)) / (time e - time (start s))); [|lia].
    apply div_nonneg; [|lia]. apply Z.mul_nonneg_nonneg; lia.
  - intros e Ee C. unfold wf in W. rewrite Ee in *. destruct (Z.ltb_spec t2 (time (start s))); [lia|].
    destruct (Z.leb_spec (time e) t2); lia.
  - intros Ee C. rewrite Ee. destruct (Z.ltb_spec t2 (time (start s))); lia.
Qed.
(** The contract computes exactly this curve. *)
Theorem c16_contract_computes_curve now s t :
  sch_ok s -> sched_ok now s = true -> is_u64 t -> time (start s) <= t ->
  sched_unlocked s t = Some (unlocked s t).
Proof. intros K S U T. apply sched_unlocked_total; auto. apply (sched_wf now); auto. Qed.
Example c16_example :
  sched_ok 10 (lin 100 10 200 1010) = true /\
  map (unlocked (lin 100 10 200 1010)) [99; 100; 133; 199; 200; 5000] = [0; 10; 340; 1000; 1010; 1010].
Proof. vm_compute. auto. Qed.

(** C17: the balance covers everything still owed; a full claim always succeeds, at any time. *)
Theorem c17_solvent t s : is_u64 t -> reachable t s -> sumf owed (accs s) <= bal s.
Proof. intros U R. apply reachable_inv in R; auto. exact (i_sol _ _ R). Qed.
Theorem c17_claim_always_succeeds t s a v :
  is_u64 t -> reachable t s -> find a (accs s) = Some v -> full_all (schedules v) <= U128MAX ->
  exists s', step t (Claim a None) s = Some (s', unlocked_all (schedules v) t - released v).
Proof.
  intros U R E M. apply reachable_inv in R; auto. destruct (find_ok _ _ _ _ R E) as [W Q]. simpl in *.
  pose proof (unlocked_all_bounds (schedules v) t W) as B.
  pose proof (sumf_find_le owed _ _ _ (inv_owed _ _ R) E) as L. pose proof (i_sol _ _ R). pose proof (i_bal _ _ R).
  unfold owed in L at 1.
  unfold claim. rewrite E. unfold available. rewrite sum_unlocked_total; auto; try lia.
  unfold sub128 at 1, u128. rewrite (proj2 (fits_iff U128MAX _)) by lia.
  rewrite Z.add_0_l.
  destruct (Z.eqb_spec (unlocked_all (schedules v) t - released v) 0) as [Z0|NZ]; [rewrite Z0; eauto|].
  unfold add128, sub128, u128. rewrite (proj2 (fits_iff U128MAX _)) by lia.
  rewrite (proj2 (fits_iff U128MAX _)) by lia. eauto.
Qed.
Example c17_example : sumf owed (accs ex) = 517 /\ bal ex = 522 /\
  (exists s1, step 100000 (Claim 5 None) ex = Some (s1, 200)).
Proof. vm_compute. repeat split. eexists; reflexivity. Qed.

(** C18: the owner's withdrawal from the running schedule. *)
Theorem c18_clawback t s sender a v amount s' o :
  is_u64 t -> reachable t s -> find a (accs s) = Some v ->
  step t (WithdrawActive sender a amount) s = Some (s', o) ->
  sender = owner s /\ o = amount /\ 0 < amount /\ bal s' = bal s - amount /\
  exists v', find a (accs s') = Some v' /\ released v' = released v /\
    unlocked_all (schedules v') t = unlocked_all (schedules v) t /\
    full_all (schedules v') = full_all (schedules v) - amount /\
    (forall t', t <= t' -> unlocked_all (schedules v') t <= unlocked_all (schedules v') t' <= unlocked_all (schedules v) t') /\
    (forall b, b <> a -> find b (accs s') = find b (accs s)).
Proof.
  intros U R E H. apply reachable_inv in R; auto. destruct (find_ok _ _ _ _ R E) as [W Q]. simpl in *.
  rewrite E in H. unguard H Eg. unbind H as l El. unbind H as b Eb. injection H as <- <-. bools. num_inv.
  apply cut_active_spec in El; auto. destruct El as (C1 & C2 & C3 & C4). simpl.
  repeat (split; [solve [auto]|]).
  exists (mkInfo l (released v)). rewrite find_put_same. simpl. repeat (split; [solve [auto]|]). split.
  - intros t' Ht'. split; [apply unlocked_all_mono; auto | auto].
  - intros b Nb. apply find_put_other. auto.
Qed.
Theorem c18_clawback_reduces_total_owed t s sender a amount s' o :
  is_u64 t -> reachable t s -> step t (WithdrawActive sender a amount) s = Some (s', o) ->
  sumf owed (accs s') = sumf owed (accs s) - amount.
Proof.
  intros U R H. apply reachable_inv in R; auto. simpl in H.
  unguard H Eg. unbind H as v Ev. unbind H as l El. unbind H as b Eb. injection H as <- <-.
  destruct (find_ok _ _ _ _ R Ev) as [W Q]. simpl in *. bools. num_inv.
  apply cut_active_spec in El; auto. destruct El as (C1 & C2 & C3 & C4).
  rewrite sumf_put, Ev. unfold owed. simpl. lia.
Qed.
Example c18_example : exists s1 v1,
  step 190 (WithdrawActive 1 5 30) ex = Some (s1, 30) /\ find 5 (accs s1) = Some v1 /\
  unlocked_all (schedules v1) 190 = 907 /\ full_all (schedules v1) = 957 /\
  step 190 (WithdrawActive 2 5 30) ex = None /\ step 190 (WithdrawActive 1 5 900) ex = None.
Proof. eexists; eexists. vm_compute. repeat split. Qed.

Print Assumptions c15_claimed_at_most_unlocked.
Print Assumptions c15_claim_pays_exactly.
Print Assumptions c15_too_large_claim_fails.
Print Assumptions c16_monotone_and_complete.
Print Assumptions c16_contract_computes_curve.
Print Assumptions c17_solvent.
Print Assumptions c17_claim_always_succeeds.
Print Assumptions c18_clawback.
Print Assumptions c18_clawback_reduces_total_owed.
