(** Incentives: property C69, positive half: in regular histories a staker can leave at any time. *)
From Coq Require Import ZArith Lia Bool List Permutation.
From Verif Require Import Num Amap Ledger IncentivesModel IncentivesSpec IncentivesExitSpec IncentivesSched
  IncentivesPool IncentivesPay IncentivesOps IncentivesInv IncentivesStep IncentivesProofs IncentivesMove
  IncentivesEmission IncentivesBudget IncentivesExit IncentivesProps.
Import ListNotations.
Open Scope Z_scope.

Section Reach.
  Variables (own fac ast : Z) (grd : option Z) (f : option (Z * Z)) (h : list (env * Z * msg)).
  Variables (e : env) (lp who : Z).
  Let i := init own fac ast grd f.
  Let s := run i h.
  (** A regular history; then any later moment at which the amounts fit the integer types. *)
  Hypotheses (Ht : timed 0 h) (Hr : regular i h) (He : emissions_ok i h) (Hl : time_after 0 h <= now e)
    (Ho : order_ok e) (Hb : budget 0 i h (now e) <= U128MAX) (R : in_range e lp s).
  (** A position, of any size. *)
  Hypothesis Hp : 0 < position_of lp who s.

  Lemma reach_facts : exists p u, find lp (lps s) = Some p /\ find who (users p) = Some u /\
    amount u = position_of lp who s /\ (forall A, inv A (time_after 0 h) s) /\ (forall A, gap A s <= 0) /\
    0 <= time_after 0 h /\ (forall A, sall A s) /\ jall (now e) s /\ J (now e) s <= UB.
  Proof.
    assert (RG : forall A, inv A (time_after 0 h) s /\ 0 <= time_after 0 h /\ gap A s <= gap A i).
    { intros A. apply run_good; auto; [apply inv_init|lia|]. apply regular_ok. auto. }
    unfold position_of in *. destruct (find lp (lps s)) as [p|] eqn:Ep; [|lia].
    destruct (find who (users p)) as [u|] eqn:Eu; [|lia].
    exists p, u. split; auto. split; auto. split; auto.
    split; [intros A; apply RG|]. split; [intros A; destruct (RG A) as (_ & _ & G); exact G|].
    split; [apply (RG 0)|]. split.
    - intros A. apply (run_safe A h 0 i); auto; try lia; constructor.
    - destruct (jall_init own fac ast grd f) as [J1 J2].
      destruct (run_J 0 h 0 i (inv_init 0 _ _ _ _ _) ltac:(lia) Ht (regular_ok 0 h i Hr) (em_init _ _ _ _ _) He J1 (now e) Hl) as [Q1 Q2].
      split; auto. fold i in J2. rewrite J2 in Q2. fold s in Q2.
      assert (P0 : 0 <= prot_paid i h).
      { apply prot_paid_nn. }
      pose proof DEC_pos. unfold UB.
      assert (budget 0 i h (now e) * DEC <= U128MAX * DEC) by (apply Z.mul_le_mono_nonneg_r; lia).
      assert (0 <= prot_paid i h * DEC) by (apply Z.mul_nonneg_nonneg; lia). lia.
  Qed.

  (** The pending rewards can be queried. *)
  Theorem c69_query : pending e lp who s <> None.
  Proof.
    destruct reach_facts as (p & u & Ep & Eu & Ea & I & G & T0 & Sa & Ja & Jb).
    apply (leave_pending e lp who (time_after 0 h) s p u); auto. lia.
  Qed.
  (** Any part of the position, up to all of it, can be withdrawn: the LP tokens are returned. *)
  Theorem c69_exit amt : vest_ok e = true -> xfer_ok e lp = true -> 0 <= amt <= position_of lp who s ->
    exists s' o, step e who (Withdraw lp amt) s = Some (s', o) /\ In (Back lp who amt) o /\
      position_of lp who s' = position_of lp who s - amt.
  Proof.
    intros V X A. destruct reach_facts as (p & u & Ep & Eu & Ea & I & G & T0 & Sa & Ja & Jb).
    rewrite <- Ea in *. apply (leave_withdraw e lp who (time_after 0 h) s p u); auto.
  Qed.
  (** The rewards can be claimed. *)
  Theorem c69_claim : vest_ok e = true -> exists s' o, step e who (ClaimRewards [lp]) s = Some (s', o).
  Proof.
    intros V. destruct reach_facts as (p & u & Ep & Eu & Ea & I & G & T0 & Sa & Ja & Jb).
    apply (leave_claim e lp who (time_after 0 h) s p u); auto. lia.
  Qed.
End Reach.
Print Assumptions c69_query.
Print Assumptions c69_exit.
Print Assumptions c69_claim.

(** ** A case *)

(** The reward is removed, set up again and finishes with a smaller index, while user 7 does nothing;
    meanwhile ASTRO is emitted. *)
Definition h6 : list (env * Z * msg) :=
  [(at_ t0, 1, SetTokensPerSecond 1000);
   (at_ t0, 1, SetupPools [(100, 10)]);
   (at_ t0, 9, Incentivize [(100, (5, 2000000, 1)); (100, (6, 3000000, 1))] [(5, 2000000); (6, 3000000)]);
   (at_ t0, 7, Deposit 100 1000 None);
   (at_ (t0 + 1000), 8, Deposit 100 1 (Some 7));
   (at_ (t0 + 1001), 1, RemoveReward 100 5 false 1);
   (at_ (t0 + 2000), 9, Deposit 100 1000000000 None);
   (at_ (t0 + 2000), 9, Incentivize [(100, (5, 2000000, 1))] [(5, 2000000)]);
   (at_ (t0 + 3000000), 9, Withdraw 100 1000000000)].
Definition s6 : state := Eval vm_compute in run s_init h6.
Lemma s6_eq : run s_init h6 = s6. Proof. vm_compute. reflexivity. Qed.
Example h6_regular : timed 0 h6 /\ regular s_init h6 /\ emissions_ok s_init h6.
Proof.
  split; [|split].
  - simpl. unfold unsigned. repeat split; try apply at_order; try (vm_compute; congruence); repeat constructor; vm_compute; congruence.
  - unfold h6. cbn [regular regular_removal]. repeat (split; [exact Logic.I|]). split; [|repeat (split; [exact Logic.I|]); exact Logic.I].
    split; [reflexivity|]. split; vm_compute; reflexivity.
  - unfold h6. cbn [emissions_ok emission_ok]. split; [lia|]. split; [repeat constructor; simpl; lia|]. repeat (split; [exact Logic.I|]). exact Logic.I.
Qed.
Example h6_range : in_range (at_ (t0 + 3000001)) 100 (run s_init h6) /\ budget 0 s_init h6 (t0 + 3000001) <= U128MAX /\
  position_of 100 7 (run s_init h6) = 1001.
Proof.
  rewrite s6_eq. split; [|split; [vm_compute; discriminate|vm_compute; reflexivity]].
  split; [vm_compute; split; discriminate|]. split.
  - intros A. cbn [bal s6 get]. repeat (destruct (_ =? A); [vm_compute; discriminate|]). vm_compute. discriminate.
  - assert (Q : exists p, find 100 (lps s6) = Some p /\ Forall (fun x => idx x < 2 ^ 255) (rewards (pl p))).
    { eexists. split; [vm_compute; reflexivity|]. repeat constructor; vm_compute; reflexivity. }
    destruct Q as (p & -> & Q). rewrite Forall_forall in Q. exact Q.
Qed.
Example h6_exit : option_map snd (step (at_ (t0 + 3000001)) 7 (Withdraw 100 1001) (run s_init h6)) =
  Some [Pay 5 7 1; Pay 6 7 2878; Pay 5 7 2; Prot 7 1004000; Back 100 7 1001].
Proof. vm_compute. reflexivity. Qed.
