(** Concentrated pair: the invariant D and the curve (C116). *)
From Coq Require Import ZArith QArith Qabs Lia Lqa Bool List.
From Verif Require Import Num Ledger PclMath PclModel PclParamProps PclProofs PclLpProps PclSwapProps PclTradeProps PclRoundProps.
From Verif Require Import PclCurveSpec PclApprox PclAccuracy PclCurveExists.
Import ListNotations.
Open Scope Q_scope.

(** The reserves as numbers of tokens, asset 1 priced at the price scale. *)
Definition x_of (s : state) : Z := (r0 s * 10 ^ (18 - p0 s))%Z.
Definition y_of (s : state) : Z := (r1 s * 10 ^ (18 - p1 s) * scale (pst s) / 10 ^ 18)%Z.

(** The curve determines D: whatever lies below its solution is at most what lies above, *)
Theorem c116_unique : forall A g x y q1 q2, 0 < A -> 0 < g -> 0 < x -> 0 < y ->
  below A g x y q1 -> above A g x y q2 -> q1 <= q2.
Proof.
  intros A g x y q1 q2 HA Hg Hx Hy ((P1 & L1 & S1) & E1) ((P2 & L2 & S2) & E2). apply Qnot_lt_le. intros L.
  pose proof (F_anti A g x y q2 q1 HA Hg Hx Hy P2 L2 L S1) as H.
  assert (0 <= F A g x y q1 * (q2 * q2)) by (apply qmul_pos; [exact E1|apply qmul_pos; lra]).
  assert (0 <= - F A g x y q2 * (q1 * q1)) by (apply qmul_pos; [lra|apply qmul_pos; lra]). lra.
Qed.
(** and both sides come arbitrarily close to each other. *)
Theorem c116_exists : forall A g x y e, 0 < A -> 0 < g -> 0 < x -> 0 < y -> 0 < e ->
  exists q1 q2, below A g x y q1 /\ above A g x y q2 /\ q2 - q1 <= e.
Proof.
  intros A g x y e HA Hg Hx Hy He. destruct (solution_d A g HA Hg x y e Hx Hy He) as (q1 & q2 & B & U & _ & W).
  exists q1, q2. split; [exact B|]. split; [exact U|lra].
Qed.

Lemma query_d_inv t s D : query_compute_d t s = Some D -> exists a g, amp_gamma (rmp s) t = Some (a, g) /\
  newton_d (x_of s) (y_of s) a g = Some D.
Proof.
  intros H. unfold query_compute_d in H. unbind H as x0 E0. unbind H as x1 E1. unguard H G0. unbind H as y1 E2. unbind H as [a g] E3.
  apply with_prec_inv in E0 as (-> & _). apply with_prec_inv in E1 as (-> & _). apply dmul256_Some in E2 as (-> & _).
  exists a, g. split; [reflexivity|exact H].
Qed.

(** The D a pair reports is the solution of the curve up to 4e-5 and 1e-8 of itself: for every deployed pair with gamma at
    least 1e-4, unless the pool is tiny (gamma times D below 1e-3 or x*y below 1) or skewed beyond a billion to one. *)
Theorem c116_accurate : forall c s t D a g q, reach c s -> (c <= t)%Z -> query_compute_d t s = Some D ->
  amp_gamma (rmp s) t = Some (a, g) -> let X := val (x_of s) in let Y := val (y_of s) in
  (1 # 10000) <= val g -> 1 <= X * Y -> (1 # 1000) <= val g * val D -> X + Y <= 1000000000 * val D ->
  4 * (X * Y) <= val D * val D * (1 + (1 # 100000000)) -> val D <= (X + Y) * (1 + (1 # 1000000000)) ->
  (below (val a) (val g) X Y q -> q <= val D + ((4 # 100000) + (1 # 100000000) * val D)) /\
  (above (val a) (val g) X Y q -> val D - ((4 # 100000) + (1 # 100000000) * val D) <= q).
Proof.
  intros c s t D a g q R T Q Ag X Y G1 XY GD S1 L1 U1. apply query_d_inv in Q as (a' & g' & E & N).
  rewrite E in Ag. injection Ag as -> ->.
  destruct (rinv_value _ _ _ _ _ (reach_rinv _ _ R) T E) as ((Aa & Ab) & (Ga & Gb)). pose proof (reach_inv _ _ R) as I.
  pose proof (i_r0 _ I) as (Ra & _). pose proof (i_r1 _ I) as (Rb & _).
  assert (X0 : (0 <= x_of s)%Z). { unfold x_of. apply Z.mul_nonneg_nonneg; [exact Ra|apply Z.pow_nonneg; lia]. }
  pose proof (proj1 (val_nonneg _) X0 : 0 <= X) as V0.
  assert (Vx : 0 < X).
  { destruct (Qlt_le_dec 0 X) as [L|L]; [exact L|exfalso]. assert (E0 : X == 0) by lra. rewrite E0 in XY. lra. }
  assert (Vy : 0 < Y).
  { apply Qnot_le_lt. intros L. assert (X * Y <= 0); [|lra]. assert (0 <= X * - Y) by (apply qmul_pos; lra). lra. }
  assert (Z1 : (100000000000000000 <= a)%Z) by exact Aa. assert (Z2 : (a <= 100000000000000000000000)%Z) by exact Ab.
  assert (Z3 : (g <= 20000000000000000)%Z) by exact Gb.
  assert (A1 : (1 # 10) <= val a) by (clear - Z1; unfold val, Qle; cbn [Qnum Qden]; lia).
  assert (A2 : val a <= 100000) by (clear - Z2; unfold val, Qle; cbn [Qnum Qden]; lia).
  assert (G2 : val g <= 1 # 50) by (clear - Z3; unfold val, Qle; cbn [Qnum Qden]; lia).
  assert (Ha : (0 <= a)%Z) by lia. assert (Hg : (0 <= g)%Z) by lia.
  exact (newton_close (x_of s) (y_of s) a g D (proj2 (val_pos _) Vx) (proj2 (val_pos _) Vy) Ha Hg XY A1 A2 G1 G2 GD S1 L1 U1 q N).
Qed.

(** ** Balanced pools *)

Lemma dsqrt_square m i : (0 <= m)%Z -> (m * m <= U256MAX)%Z -> (i <= 9)%nat -> dsqrt_at (m * m) i = (m * 10 ^ 9)%Z.
Proof.
  intros M B. induction i as [|i IH]; intros I; cbn [dsqrt_at].
  - replace (m * m * 100 ^ Z.of_nat 0)%Z with (m * m)%Z by (change (100 ^ Z.of_nat 0)%Z with 1%Z; lia).
    replace (m * m <=? U256MAX)%Z with true by (symmetry; apply Z.leb_le; exact B). rewrite Z.sqrt_square by exact M. reflexivity.
  - destruct (m * m * 100 ^ Z.of_nat (S i) <=? U256MAX)%Z; [|apply IH; lia].
    set (n := Z.of_nat (S i)). assert (N : (0 <= n <= 9)%Z) by (unfold n; lia).
    replace (100 ^ n)%Z with (10 ^ n * 10 ^ n)%Z by (rewrite <- Z.pow_mul_l; reflexivity).
    replace (m * m * (10 ^ n * 10 ^ n))%Z with (m * 10 ^ n * (m * 10 ^ n))%Z by ring.
    rewrite Z.sqrt_square by (apply Z.mul_nonneg_nonneg; [exact M|apply Z.pow_nonneg; lia]).
    rewrite <- Z.mul_assoc, <- Z.pow_add_r by lia. replace (n + (9 - n))%Z with 9%Z by lia. reflexivity.
Qed.
Lemma f_balanced m a g v : (0 <= m)%Z -> f (2 * (m * 10 ^ 9)) (m * 10 ^ 9) (m * 10 ^ 9) a g = Some v -> v = 0%Z.
Proof.
  intros M H. unfold f in H.
  unbind H as mul E1. unbind H as d2 E2. unbind H as prod E3. unbind H as ag E4. unbind H as kn E5. unbind H as g1 E6.
  unbind H as k0 E7. unbind H as gk E8. unbind H as gk2 E9. unbind H as kd E10. unbind H as k E11. unbind H as sum E12.
  unbind H as t1 E13. unbind H as t2 E14. unbind H as t3 E15. unbind H as t4 E16. unbind H as t5 E17. unbind H as t6 E18.
  change (10 ^ 9)%Z with 1000000000%Z in *.
  assert (Mm : mul = (m * m)%Z).
  { apply sfit_Some in E1. replace (m * 1000000000 * (m * 1000000000))%Z with (m * m * DEC)%Z in E1 by (unfold DEC; ring).
    rewrite Z.quot_mul in E1 by discriminate. exact E1. }
  assert (Md : d2 = (4 * (m * m))%Z).
  { apply sfit_Some in E2. replace (2 * (m * 1000000000) * (2 * (m * 1000000000)))%Z with (4 * (m * m) * DEC)%Z in E2 by (unfold DEC; ring).
    rewrite Z.quot_mul in E2 by discriminate. exact E2. }
  apply sadd_val in E12, E15. apply ssubt_val in E17, H.
  assert (M1 : t1 = (4 * (m * m))%Z).
  { apply sfit_Some in E13. rewrite E12 in E13. replace (2 * (m * 1000000000) * (m * 1000000000 + m * 1000000000))%Z with (4 * (m * m) * DEC)%Z in E13 by (unfold DEC; ring).
    rewrite Z.quot_mul in E13 by discriminate. exact E13. }
  assert (M2 : t2 = t4).
  { apply sfit_Some in E14, E16. rewrite M1 in E14. rewrite Md in E16. rewrite E14, E16, Z.mul_comm. reflexivity. }
  assert (M6 : t6 = (m * m)%Z).
  { unfold sdiv in E18. change (FOUR_D =? 0)%Z with false in E18. apply sfit_Some in E18. rewrite Md in E18.
    replace (4 * (m * m) * DEC)%Z with (m * m * FOUR_D)%Z in E18 by (unfold DEC, FOUR_D; ring). rewrite Z.quot_mul in E18 by discriminate. exact E18. }
  lia.
Qed.
Lemma newton_balanced m a g D : (0 <= m)%Z -> newton_d (m * 10 ^ 9) (m * 10 ^ 9) a g = Some D -> D = (2 * (m * 10 ^ 9))%Z.
Proof.
  intros M H. unfold newton_d in H. unbind H as gm E1. unbind H as d0 E2.
  unfold geometric_mean in E1. unbind E1 as p E3. injection E1 as <-. apply dmul256_Some in E3 as (Ep & Bp).
  assert (Ep2 : p = (m * m)%Z).
  { change (10 ^ 9)%Z with 1000000000%Z in Ep. replace (m * 1000000000 * (m * 1000000000))%Z with (m * m * DEC)%Z in Ep by (unfold DEC; ring).
    rewrite Z.div_mul in Ep by discriminate. exact Ep. }
  subst p. rewrite Ep2 in *. unfold dsqrt in E2. rewrite dsqrt_square in E2; [|exact M|lia|lia].
  apply dmul256_Some in E2 as (E2 & _).
  replace (TWO_D * (m * 10 ^ 9))%Z with (2 * (m * 10 ^ 9) * DEC)%Z in E2 by (unfold TWO_D, DEC; ring). rewrite Z.div_mul in E2 by discriminate.
  rewrite E2 in H. unfold MAX_ITER in H. cbn [newton_d_from] in H.
  unbind H as v Ev. unbind H as dv Edv. unbind H as q Eq. unbind H as d' Ed. unbind H as df Edf.
  apply f_balanced in Ev; [|exact M]. subst v. unfold sdiv in Eq. destruct (dv =? 0)%Z eqn:Dz; [discriminate Eq|]. apply sfit_Some in Eq.
  rewrite Z.mul_0_l, Z.quot_0_l in Eq by (bools; exact Dz). apply ssubt_val in Ed. apply u256_Some in Edf as (-> & _).
  replace (Z.abs (d' - 2 * (m * 10 ^ 9)) <=? TOL)%Z with true in H by (symmetry; apply Z.leb_le; unfold TOL; lia).
  unguard H G0. injection H as <-. lia.
Qed.

(** A pool that holds equal value of both assets has exactly twice that value as its D (assets of at most 9 decimals). *)
Theorem c116_balanced : forall c s t D, reach c s -> (p0 s <= 9)%Z -> x_of s = y_of s -> query_compute_d t s = Some D ->
  D = (2 * x_of s)%Z.
Proof.
  intros c s t D R P E H. apply query_d_inv in H as (a & g & _ & N). rewrite <- E in N. pose proof (reach_inv _ _ R) as I.
  pose proof (i_p0 _ I) as (Pa & _). pose proof (i_r0 _ I) as (Ra & _).
  assert (Ex : x_of s = (r0 s * 10 ^ (9 - p0 s) * 10 ^ 9)%Z).
  { unfold x_of. rewrite <- Z.mul_assoc, <- Z.pow_add_r by lia. replace (9 - p0 s + 9)%Z with (18 - p0 s)%Z by lia. reflexivity. }
  rewrite Ex in N |- *. apply (newton_balanced _ a g); [|exact N]. apply Z.mul_nonneg_nonneg; [exact Ra|apply Z.pow_nonneg; lia].
Qed.

(** ** Tiny pools *)

(** The claim is false for a tiny, skewed pool (0.016456 : 0.00001035 tokens of 8-decimal assets, amplification 5000, gamma 0.02): the
    reported D is less than a fifth of the exact solution of the curve. *)
Theorem c116_refuted : exists c s t D, reach c s /\ (c <= t)%Z /\ query_compute_d t s = Some D /\
  amp_gamma (rmp s) t = Some (5000 * DEC, 20000000000000000)%Z /\ x_of s = 16456000000000000%Z /\ y_of s = 10350000000000%Z /\
  forall q, above 5000 (1 # 50) (val (x_of s)) (val (y_of s)) q -> 5 * val D < q.
Proof.
  exists 1100%Z, s115, 1200%Z, 829501274354314%Z. split; [exact s115_reach|]. split; [discriminate|].
  split; [vm_compute; reflexivity|]. split; [vm_compute; reflexivity|]. split; [vm_compute; reflexivity|]. split; [vm_compute; reflexivity|].
  assert (Ex : x_of s115 = 16456000000000000%Z) by (vm_compute; reflexivity). assert (Ey : y_of s115 = 10350000000000%Z) by (vm_compute; reflexivity).
  rewrite Ex, Ey. clear Ex Ey. intros q ((P & L & S) & E). set (e := 5 * val 829501274354314). apply Qnot_le_lt. intros C.
  assert (Fe : 0 < F 5000 (1 # 50) (val 16456000000000000) (val 10350000000000) e) by (vm_compute; reflexivity).
  assert (Hx : 0 < val 16456000000000000) by reflexivity. assert (Hy : 0 < val 10350000000000) by reflexivity.
  assert (Es : e <= val 16456000000000000 + val 10350000000000) by (vm_compute; discriminate).
  destruct (Qlt_le_dec q e) as [Q|Q].
  - pose proof (F_anti 5000 (1 # 50) _ _ q e ltac:(reflexivity) ltac:(reflexivity) Hx Hy P L Q Es) as A.
    assert (0 <= - F 5000 (1 # 50) (val 16456000000000000) (val 10350000000000) q * (e * e)) by (apply qmul_pos; [lra|apply sq_nn]).
    assert (0 * (q * q) < F 5000 (1 # 50) (val 16456000000000000) (val 10350000000000) e * (q * q)) by (apply Qmult_lt_r; [nra|exact Fe]). lra.
  - assert (Eq : q == e) by lra. assert (F5 : F 5000 (1 # 50) (val 16456000000000000) (val 10350000000000) q == F 5000 (1 # 50) (val 16456000000000000) (val 10350000000000) e).
    { unfold F, K, K0. rewrite Eq. reflexivity. }
    lra.
Qed.

(** A pool of 8 and 2.5 tokens with amplification 151.25 and gamma 0.02: the curve's solution is 10. *)
Definition t116 : state := init0 (instantiate 1000 1 (std 230000000000000) 151250000000000000000 20000000000000000 DEC true 6 6 true true).
Definition s116 : state := Eval vm_compute in run t116 [(at_ 1000, Provide 5 8000000 2500000 None None)].
Lemma s116_ok : run t116 [(at_ 1000, Provide 5 8000000 2500000 None None)] = s116.
Proof. vm_compute. reflexivity. Qed.
Example c116_example : exists D, reach 1000 s116 /\ query_compute_d 1200 s116 = Some D /\
  amp_gamma (rmp s116) 1200 = Some (151250000000000000000, 20000000000000000)%Z /\ let X := val (x_of s116) in let Y := val (y_of s116) in
  (1 # 10000) <= val 20000000000000000 /\ 1 <= X * Y /\ (1 # 1000) <= val 20000000000000000 * val D /\ X + Y <= 1000000000 * val D /\
  4 * (X * Y) <= val D * val D * (1 + (1 # 100000000)) /\ val D <= (X + Y) * (1 + (1 # 1000000000)) /\
  solves (val 151250000000000000000) (val 20000000000000000) X Y 10.
Proof.
  eexists. split.
  { rewrite <- s116_ok. apply (reach_from 1000 151250000000000000000 20000000000000000 DEC 6 6 t116 [(at_ 1000, Provide 5 8000000 2500000 None None)]);
      [vm_compute; reflexivity|vm_compute; split; discriminate|simpl; lia|repeat constructor; vm_compute; discriminate]. }
  split; [vm_compute; reflexivity|]. split; [vm_compute; reflexivity|]. cbv zeta. split; [discriminate|].
  split; [vm_compute; discriminate|]. split; [vm_compute; discriminate|]. split; [vm_compute; discriminate|].
  split; [vm_compute; discriminate|]. split; [vm_compute; discriminate|].
  assert (Rg : ranged (val (x_of s116)) (val (y_of s116)) 10) by (split; [reflexivity|split; vm_compute; discriminate]).
  split; (split; [exact Rg|vm_compute; discriminate]).
Qed.
(** A balanced pool. *)
Example c116_balanced_example : reach 1000 u115 /\ (p0 u115 <= 9)%Z /\ x_of u115 = y_of u115 /\
  query_compute_d 1200 u115 = Some (200000000000000000)%Z.
Proof.
  split.
  { rewrite <- u115_ok. apply (reach_from 1000 (5000 * DEC) 20000000000000000 DEC 8 8 t115 [(at_ 1000, Provide 5 10000000 10000000 None None)]);
      [vm_compute; reflexivity|vm_compute; split; discriminate|simpl; lia|repeat constructor; vm_compute; discriminate]. }
  split; [discriminate|]. split; vm_compute; reflexivity.
Qed.

Print Assumptions c116_unique.
Print Assumptions c116_exists.
Print Assumptions c116_accurate.
Print Assumptions c116_balanced.
Print Assumptions c116_refuted.
