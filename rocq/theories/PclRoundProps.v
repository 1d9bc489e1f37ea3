(** Concentrated pair: depositing and withdrawing at once (C115). *)
From Coq Require Import ZArith Lia Bool List.
From Verif Require Import Num Ledger PclMath PclModel PclParamProps PclProofs PclLpProps PclSwapProps PclTradeProps.
Import ListNotations.
Open Scope Z_scope.

(** A deposit adds exactly the two amounts to the reserves. *)
Lemma provide_reserves e s w d0 d1 tol ml s' share : step e (Provide w d0 d1 tol ml) s = Some (s', OProvide share) ->
  0 <= d0 /\ 0 <= d1 /\ r0 s' = r0 s + d0 /\ r1 s' = r1 s + d1.
Proof.
  intros H. cbn [step] in H.
  apply provide_inv in H as (tot & x0 & x1 & e0 & e1 & sh & ps & cc & A & B & _ & _ & _ & _ & _ & _ & _ & _ & _ & _ & _ & K).
  cbv zeta in K. destruct K as (_ & -> & _).
  match goal with |- context [set_pools ?a ?b ?c ?d ?e ?f ?g ?h ?i ?j] =>
    destruct (set_pools_fields a b c d e f g h i j) as (F1 & F2 & _) end.
  rewrite F1, F2. auto.
Qed.

Lemma half_round a r d n sup sup' D1 D2 : 0 <= n -> 0 <= sup -> 0 <= r + d -> 0 <= D2 -> sup' = sup + n -> 0 < sup' ->
  a * sup' <= (r + d) * (n - 1) -> D1 * sup' <= D2 * sup -> a * D2 <= (r + d) * (D2 - D1).
Proof.
  intros N S R D -> P A B.
  assert (a * (sup + n) * D2 <= (r + d) * (n - 1) * D2) by (apply Z.mul_le_mono_nonneg_r; assumption).
  assert ((r + d) * (D1 * (sup + n)) <= (r + d) * (D2 * sup)) by (apply Z.mul_le_mono_nonneg_l; assumption).
  assert (0 <= (r + d) * D2) by nia.
  assert ((a * D2) * (sup + n) <= ((r + d) * (D2 - D1)) * (sup + n)) by lia. nia.
Qed.

(** A deposit followed at once by the withdrawal of the LP tokens it minted pays at most the pool's share of each asset
    by which the deposit raised D (as the ComputeD query reports it before and after). *)
Theorem c115_round_trip : forall c s e w d0 d1 tol ml s1 share mins s2 a0 a1 D1 D2, reach c s -> env_ok e -> c <= now e ->
  0 < supply s -> step e (Provide w d0 d1 tol ml) s = Some (s1, OProvide share) -> 0 < share ->
  scale (pst s1) = scale (pst s) ->
  step e (Withdraw w share false mins) s1 = Some (s2, OWithdraw a0 a1) ->
  query_compute_d (now e) s = Some D1 -> query_compute_d (now e) s1 = Some D2 ->
  a0 * D2 <= (r0 s + d0) * (D2 - D1) /\ a1 * D2 <= (r1 s + d1) * (D2 - D1) /\
  supply s2 = supply s.
Proof.
  intros c s e w d0 d1 tol ml s1 share mins s2 a0 a1 D1 D2 R Ee C S0 P Sh Sc W Q1 Q2.
  destruct (c90_provide _ _ _ _ _ _ _ _ _ _ _ _ R S0 P Sh Sc Q1 Q2) as (Su & Pd).
  destruct (provide_reserves _ _ _ _ _ _ _ _ _ P) as (N0 & N1 & E0 & E1).
  pose proof (reach_step _ _ _ _ _ _ R Ee C P) as R1.
  destruct (c90_withdraw _ _ _ _ _ _ _ _ _ R1 W) as (b0 & b1 & K & N & _ & _ & Su2 & _ & _ & _ & _ & A0 & A1 & _).
  injection K as <- <-. rewrite E0 in A0. rewrite E1 in A1.
  pose proof (reach_inv _ _ R) as I. pose proof (proj1 (i_r0 _ I)). pose proof (proj1 (i_r1 _ I)).
  assert (D0 : 0 <= D2).
  { unfold query_compute_d in Q2. unbind Q2 as w0 B1. unbind Q2 as w1 B2. unguard Q2 G2. unbind Q2 as w2 B3.
    unbind Q2 as (aa, gg) B4. clear - Q2. unfold newton_d in Q2. unbind Q2 as m Em. unbind Q2 as k Ek. revert Q2. generalize k.
    induction MAX_ITER as [|n IH]; intros k' H; [discriminate H|]. cbn [newton_d_from] in H.
    unbind H as v Ev. unbind H as dv Edv. unbind H as q Eq. unbind H as d' Ed. unbind H as df Edf.
    destruct (df <=? TOL); [unguard H G; injection H as <-; bools; exact G|exact (IH _ H)]. }
  split; [|split; [|lia]].
  - apply (half_round a0 (r0 s) d0 share (supply s) (supply s1)); try assumption; lia.
  - apply (half_round a1 (r1 s) d1 share (supply s) (supply s1)); try assumption; lia.
Qed.

(** So whenever the reported D grows at most in proportion to an asset's reserve, the round trip gains none of that
    asset; it can gain both only if D grows faster than both reserves. *)
Theorem c115_no_profit : forall c s e w d0 d1 tol ml s1 share mins s2 a0 a1 D1 D2, reach c s -> env_ok e -> c <= now e ->
  0 < supply s -> step e (Provide w d0 d1 tol ml) s = Some (s1, OProvide share) -> 0 < share ->
  scale (pst s1) = scale (pst s) ->
  step e (Withdraw w share false mins) s1 = Some (s2, OWithdraw a0 a1) ->
  query_compute_d (now e) s = Some D1 -> query_compute_d (now e) s1 = Some D2 -> 0 < D2 ->
  (D2 * r0 s <= D1 * (r0 s + d0) -> a0 <= d0) /\ (D2 * r1 s <= D1 * (r1 s + d1) -> a1 <= d1).
Proof.
  intros c s e w d0 d1 tol ml s1 share mins s2 a0 a1 D1 D2 R Ee C S0 P Sh Sc W Q1 Q2 D0.
  destruct (c115_round_trip _ _ _ _ _ _ _ _ _ _ _ _ _ _ _ _ R Ee C S0 P Sh Sc W Q1 Q2) as (A & B & _).
  split; intros H; nia.
Qed.

(** The claim is false: in a small, imbalanced pool the solver stops too early and reports a D far too low. Depositing
    twice the reserves and withdrawing at once returns 40% more of both assets; the gain is other LPs' money. *)
Definition t115 : state := init0 (instantiate 1000 1 (std 230000000000000) (5000 * DEC) 20000000000000000 DEC true 8 8 true true).
Definition l115 : list (env * msg) :=
  [(at_ 1000, Provide 5 10000000 10000000 None None);
   (at_ 1010, Swap false 100000000 (Some (10 ^ 30)) (Some HALF_D)); (at_ 1100, Withdraw 5 98505 false None)].
Definition s115 : state := Eval vm_compute in run t115 l115.
Lemma s115_ok : run t115 l115 = s115.
Proof. vm_compute. reflexivity. Qed.
Lemma s115_reach : reach 1100 s115.
Proof.
  rewrite <- s115_ok. apply (reach_from 1000 (5000 * DEC) 20000000000000000 DEC 8 8 t115 l115);
    [vm_compute; reflexivity|vm_compute; split; discriminate|simpl; lia|repeat constructor; vm_compute; discriminate].
Qed.
Definition s115a : state := Eval vm_compute in exec s115 (at_ 1200, Provide 6 3291200 2070 (Some HALF_D) None).
Definition s115b : state := Eval vm_compute in exec s115a (at_ 1200, Withdraw 6 21003 false None).
Theorem c115_refuted : exists c s e s1 share s2 a0 a1, reach c s /\ c <= now e /\ get (lp s) 6 = 0 /\ 0 < get (lp s) 5 /\
  r0 s = 1645600 /\ r1 s = 1035 /\
  step e (Provide 6 3291200 2070 (Some HALF_D) None) s = Some (s1, OProvide share) /\
  scale (pst s1) = scale (pst s) /\
  step e (Withdraw 6 share false None) s1 = Some (s2, OWithdraw a0 a1) /\
  14 * 3291200 < 10 * a0 /\ 14 * 2070 <= 10 * a1 /\ supply s2 = supply s.
Proof.
  exists 1100, s115, (at_ 1200), s115a, 21003, s115b, 4608528, 2898.
  split; [exact s115_reach|]. split; [vm_compute; discriminate|]. split; [vm_compute; reflexivity|].
  split; [vm_compute; reflexivity|]. split; [reflexivity|]. split; [reflexivity|].
  split; [vm_compute; reflexivity|]. split; [vm_compute; reflexivity|]. split; [vm_compute; reflexivity|].
  split; [lia|]. split; [lia|]. reflexivity.
Qed.

(** The same deposit and withdrawal in a balanced pool loses a little of both assets. *)
Definition u115 : state := Eval vm_compute in run t115 [(at_ 1000, Provide 5 10000000 10000000 None None)].
Lemma u115_ok : run t115 [(at_ 1000, Provide 5 10000000 10000000 None None)] = u115.
Proof. vm_compute. reflexivity. Qed.
Definition u115a : state := Eval vm_compute in exec u115 (at_ 1200, Provide 6 3000000 3000000 None None).
Example c115_example : exists share a0 a1 s2 D1 D2, reach 1000 u115 /\
  step (at_ 1200) (Provide 6 3000000 3000000 None None) u115 = Some (u115a, OProvide share) /\ 0 < share /\
  scale (pst u115a) = scale (pst u115) /\
  step (at_ 1200) (Withdraw 6 share false None) u115a = Some (s2, OWithdraw a0 a1) /\
  query_compute_d 1200 u115 = Some D1 /\ query_compute_d 1200 u115a = Some D2 /\ 0 < D2 /\
  D2 * r0 u115 <= D1 * (r0 u115 + 3000000) /\ D2 * r1 u115 <= D1 * (r1 u115 + 3000000) /\
  2999000 < a0 < 3000000 /\ 2999000 < a1 < 3000000.
Proof.
  do 6 eexists. split.
  { rewrite <- u115_ok. apply (reach_from 1000 (5000 * DEC) 20000000000000000 DEC 8 8 t115 [(at_ 1000, Provide 5 10000000 10000000 None None)]);
      [vm_compute; reflexivity|vm_compute; split; discriminate|simpl; lia|repeat constructor; vm_compute; discriminate]. }
  split; [vm_compute; reflexivity|]. split; [reflexivity|]. split; [vm_compute; reflexivity|].
  split; [vm_compute; reflexivity|]. split; [vm_compute; reflexivity|]. split; [vm_compute; reflexivity|].
  split; [reflexivity|]. vm_compute. intuition discriminate.
Qed.

Print Assumptions c115_round_trip.
Print Assumptions c115_no_profit.
Print Assumptions c115_refuted.
