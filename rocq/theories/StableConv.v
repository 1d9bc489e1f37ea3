(** The iterations of the stable pair end within their 64 rounds: Newton's method on a convex function divides the
    product of the function and its derivative by four in every round. *)
From Coq Require Import ZArith Lia Bool List.
From Verif Require Import Num StableMath StableProofs StableAcc.
Open Scope Z_scope.

(** ** Newton's method for D *)

(** The derivative of [Gam]. *)
Definition Gam' (P L D : Z) : Z := 3 * D ^ 2 + P * (L - DEC).

Lemma Gam_tangent P L s D e : Gam P L s (D + e) = Gam P L s D + Gam' P L D * e + e ^ 2 * (3 * D + e).
Proof. unfold Gam, Gam'. ring. Qed.
Lemma Gam_convex P L s u v : 0 <= u -> 0 <= v -> Gam P L s v + Gam' P L v * (u - v) <= Gam P L s u.
Proof.
  intros U V. replace u with (v + (u - v)) at 2 by ring. rewrite Gam_tangent.
  assert (0 <= (u - v) ^ 2 * (3 * v + (u - v))) by (apply Z.mul_nonneg_nonneg; [apply sq_nonneg|lia]). lia.
Qed.
Lemma Gam'_pos P L D : 0 < P -> 2 * DEC <= L -> 0 < P * (L - DEC) <= Gam' P L D.
Proof.
  intros A B. unfold Gam'. pose proof (sq_nonneg D). pose proof DEC_pos. split; [apply Z.mul_pos_pos; lia|lia].
Qed.
Lemma Gam'_mono P L u v : 0 <= u <= v -> Gam' P L u <= Gam' P L v.
Proof. intros H. unfold Gam'. assert (u ^ 2 <= v ^ 2) by (apply Z.pow_le_mono_l; lia). lia. Qed.

(** The rounded step is at most 3 units below the exact one ... *)
Lemma step_low L s P d dp r rv : d_step_facts DEC L s P d dp r rv -> 2 * DEC <= L -> 0 < P -> DEC <= d -> 0 <= r -> 2 * d <= 3 * s ->
  Gam' P L d * (d - r - 3) <= Gam P L s d.
Proof.
  intros [F1 _ F3 F4 F5 _] HL A Hd Hr Hs. remember DEC as Q eqn:EQ. assert (HQ : 0 < Q) by (subst; reflexivity). assert (D0 : 0 < d) by lia.
  remember (d * (L - Q) + 3 * Q * dp) as M eqn:EM.
  assert (G1 : d * (L * s) + 2 * d * (Q * dp) - Q * (d + Q) < (r + 1) * M).
  { assert (X : P * (- (Q * (d + Q + rv))) < P * (d * ((L - Q) * r - L * s) + Q * dp * (3 * r - 2 * d))) by (clear - F1; lia).
    apply Z.mul_lt_mono_pos_l in X; [|exact A]. clear - X F3 EM. lia. }
  assert (G2 : Q * (d + Q) <= 2 * M).
  { assert (Q * d <= (L - Q) * d) by (monor; clear - HL; lia). assert (Q * Q <= Q * d) by (monol; exact Hd).
    assert (0 <= Q * dp) by pos. clear - H H0 H1 EM. lia. }
  assert (G3 : d * (L * s) + 2 * d * (Q * dp) <= (r + 3) * M) by (clear - G1 G2; lia).
  assert (Md : 0 < M) by (clear - G2 HQ Hd; nia).
  assert (G4 : 0 <= 3 * (r + 3) - 2 * d).
  { assert (X : 2 * d * M <= 3 * (r + 3) * M).
    { assert (Y : 2 * d * (d * (L - Q)) <= 3 * (d * (L * s))).
      { assert (d * (L - Q) * (2 * d) <= d * (L - Q) * (3 * s)) by (apply Z.mul_le_mono_nonneg_l; [apply Z.mul_nonneg_nonneg; lia|lia]).
        assert (0 <= d * Q * (3 * s)) by (apply Z.mul_nonneg_nonneg; [pos; lia|lia]). clear - H H0. lia. }
      clear - Y G3 EM. lia. }
    assert (2 * d <= 3 * (r + 3)) by (apply Z.mul_le_mono_pos_r with M; assumption). lia. }
  assert (G5 : Q * P * dp * (3 * (r + 3) - 2 * d) <= d ^ 3 * (3 * (r + 3) - 2 * d)) by (apply Z.mul_le_mono_nonneg_r; assumption).
  assert (G6 : P * (d * (L * s) + 2 * d * (Q * dp)) <= P * ((r + 3) * M)) by (apply Z.mul_le_mono_nonneg_l; [lia|exact G3]).
  assert (G7 : d * (Gam' P L d * (d - r - 3)) <= d * (Gam P L s d)).
  { unfold Gam, Gam'. rewrite <- EQ. subst M. clear - G5 G6. lia. }
  apply Z.mul_le_mono_pos_l in G7; [exact G7|lia].
Qed.
(** ... and at most 8 above it. *)
Lemma step_high L s P d dp r rv : d_step_facts DEC L s P d dp r rv -> 2 * DEC <= L -> 0 < P -> DEC <= d -> 0 <= r ->
  - (6 * Gam' P L d) <= Gam P L s d -> Gam P L s d + Gam' P L d * (r - d) <= 8 * Gam' P L d.
Proof.
  intros [_ F2 _ F4 F5 F6] HL A Hd Hr HG. remember DEC as Q eqn:EQ. assert (HQ : 1000 < Q) by (subst; reflexivity). assert (HQ0 : 0 < Q) by lia. assert (D0 : 0 < d) by lia.
  assert (D2 : Q * d + Q * Q <= 2 * d ^ 2) by (clear - HQ Hd; nia).
  assert (F' : 3 * d ^ 2 + P * Q <= Gam' P L d). { unfold Gam'. rewrite <- EQ. assert (P * Q <= P * (L - Q)) by (monol; lia). lia. }
  assert (Fp : 0 < Gam' P L d) by (pose proof (Gam'_pos P L d A ltac:(rewrite <- EQ; exact HL)); lia).
  assert (G1 : d * (Gam P L s d + Gam' P L d * (r - d)) <= 4 * r * Gam' P L d).
  { unfold Gam. replace (d * (d ^ 3 + P * ((L - DEC) * d - L * s) + Gam' P L d * (r - d))) with
      (d * P * ((L - Q) * r - L * s) + d ^ 3 * (3 * r - 2 * d)) by (unfold Gam'; rewrite <- EQ; ring).
    assert (X : (d ^ 3 - Q * P * dp) * (3 * r - 2 * d) <= (Q * d + Q * Q + Q * P) * (3 * r)).
    { destruct (Z.le_gt_cases 0 (3 * r - 2 * d)) as [C|C].
      - apply Z.le_trans with ((Q * d + Q * Q + Q * P) * (3 * r - 2 * d)); [apply Z.mul_le_mono_nonneg_r; lia|].
        apply Z.mul_le_mono_nonneg_l; [clear - HQ Hd A; nia|lia].
      - assert ((d ^ 3 - Q * P * dp) * (3 * r - 2 * d) <= 0) by (apply Z.mul_nonneg_nonpos; lia).
        assert (0 <= (Q * d + Q * Q + Q * P) * (3 * r)) by (apply Z.mul_nonneg_nonneg; [clear - HQ Hd A; nia|lia]). lia. }
    assert (Y : r * (Q * P + 3 * (Q * d + Q * Q + Q * P)) <= r * (4 * Gam' P L d)) by (monol; pose proof (sq_nonneg d); clear - D2 F' H; lia).
    clear - F2 X Y. lia. }
  assert (G2 : r <= 2 * d).
  { destruct (Z.le_gt_cases r (2 * d)) as [|C]; [assumption|exfalso].
    assert (Y : d * (Gam' P L d * (r - d - 6)) <= d * (Gam P L s d + Gam' P L d * (r - d))) by (apply Z.mul_le_mono_nonneg_l; lia).
    assert (Z1 : Gam' P L d * (d * (r - d - 6)) <= Gam' P L d * (4 * r)) by (clear - Y G1; lia).
    apply Z.mul_le_mono_pos_l in Z1; [|exact Fp]. clear - Z1 C Hd HQ. nia. }
  assert (G3 : d * (Gam P L s d + Gam' P L d * (r - d)) <= d * (8 * Gam' P L d)).
  { assert (2 * (2 * Gam' P L d) * r <= 2 * (2 * Gam' P L d) * (2 * d)) by (apply Z.mul_le_mono_nonneg_l; lia). clear - H G1. lia. }
  apply Z.mul_le_mono_pos_l in G3; [exact G3|lia].
Qed.

(** One round: either the step is small, or the product of the function and its derivative shrinks. *)
Lemma quarter a b f f' dl h : 0 <= a -> 0 < b -> 0 < dl -> 0 <= h -> a + b * dl <= f -> f <= f' * (dl + h) -> 4 * dl * (a * b) <= (dl + h) * (f * f').
Proof.
  intros A B D H K1 K2. assert (0 < b * dl) by (apply Z.mul_pos_pos; lia). assert (F : 0 < f) by lia.
  assert (X : f * f <= f * (f' * (dl + h))) by (apply Z.mul_le_mono_nonneg_l; lia).
  assert (Y : (a + b * dl) * (a + b * dl) <= f * f) by (apply Z.mul_le_mono_nonneg; lia).
  assert (W : 0 <= (a - b * dl) ^ 2) by apply sq_nonneg. clear - X Y W. lia.
Qed.
Lemma d_round L s P d dp r rv : d_step_facts DEC L s P d dp r rv -> 2 * DEC <= L -> 0 < P -> DEC <= d -> 0 <= r -> 2 * d <= 3 * s ->
  0 <= Gam P L s (d + 3) ->
  0 <= Gam P L s (r + 3) /\ r <= d + 14 /\
  (TOL < d - r -> TOL * (P * (L - DEC)) ^ 2 <= Gam P L s (d + 3) * Gam' P L (d + 3) /\
     399 * (Gam P L s (r + 3) * Gam' P L (r + 3)) <= 100 * (Gam P L s (d + 3) * Gam' P L (d + 3))).
Proof.
  intros F HL A Hd Hr Hs HG.
  pose proof (step_low _ _ _ _ _ _ _ F HL A Hd Hr Hs) as Lo.
  assert (Fd : 0 < P * (L - DEC) <= Gam' P L d) by (apply Gam'_pos; assumption).
  assert (G0 : 0 <= Gam P L s (r + 3)).
  { pose proof (Gam_convex P L s (r + 3) d ltac:(lia) ltac:(unfold DEC in *; lia)). lia. }
  split; [exact G0|].
  assert (G3 : Gam P L s (d + 3) <= Gam P L s d + 3 * Gam' P L (d + 3)).
  { pose proof (Gam_convex P L s d (d + 3) ltac:(unfold DEC in *; lia) ltac:(unfold DEC in *; lia)). lia. }
  assert (D2 : Gam' P L (d + 3) <= 2 * Gam' P L d).
  { unfold Gam'. assert ((d + 3) ^ 2 <= 2 * d ^ 2) by (unfold DEC in Hd; nia). unfold Gam' in Fd. lia. }
  pose proof (step_high _ _ _ _ _ _ _ F HL A Hd Hr ltac:(lia)) as Hj.
  assert (Hi : r <= d + 14).
  { assert (X : Gam' P L d * (r - d) <= Gam' P L d * 14) by lia. apply Z.mul_le_mono_pos_l in X; lia. }
  split; [exact Hi|]. intros HT.
  assert (Fu : Gam' P L d <= Gam' P L (d + 3)) by (apply Gam'_mono; unfold DEC in *; lia).
  assert (Fr : 0 < P * (L - DEC) <= Gam' P L (r + 3)) by (apply Gam'_pos; assumption).
  assert (K1 : Gam P L s (r + 3) + Gam' P L (r + 3) * (d - r) <= Gam P L s (d + 3)).
  { pose proof (Gam_convex P L s (d + 3) (r + 3) ltac:(unfold DEC in *; lia) ltac:(lia)) as X. replace (d + 3 - (r + 3)) with (d - r) in X by ring. exact X. }
  assert (T0 : 0 < TOL) by reflexivity.
  assert (K2 : Gam P L s (d + 3) <= Gam' P L (d + 3) * (d - r + 11)).
  { assert (Gam' P L d * (d - r + 8) <= Gam' P L (d + 3) * (d - r + 8)) by (apply Z.mul_le_mono_nonneg_r; lia). lia. }
  assert (Ph : 0 <= Gam P L s (d + 3) * Gam' P L (d + 3)) by (apply Z.mul_nonneg_nonneg; lia).
  split.
  - assert (X : P * (L - DEC) * TOL <= Gam P L s (d + 3)).
    { assert (P * (L - DEC) * TOL <= Gam' P L (r + 3) * (d - r)) by (apply Z.mul_le_mono_nonneg; lia). lia. }
    replace (TOL * (P * (L - DEC)) ^ 2) with (P * (L - DEC) * TOL * (P * (L - DEC))) by ring.
    apply Z.mul_le_mono_nonneg; [apply Z.mul_nonneg_nonneg; lia|exact X|lia|lia].
  - assert (Fr0 : 0 < Gam' P L (r + 3)) by lia. assert (Dl : 0 < d - r) by lia.
    pose proof (quarter _ _ _ _ (d - r) 11 G0 Fr0 Dl ltac:(lia) K1 K2) as Qd.
    set (u := Gam P L s (d + 3) * Gam' P L (d + 3)) in *. set (v := Gam P L s (r + 3) * Gam' P L (r + 3)) in *.
    assert (0 <= v) by (unfold v; apply Z.mul_nonneg_nonneg; lia).
    apply Z.mul_le_mono_pos_l with (d - r); [lia|]. unfold TOL in HT. clear - Qd HT Ph H. nia.
Qed.

Lemma dmul256_ok a b : 0 <= a * b <= U256MAX * DEC -> dmul256 a b = Some (a * b / DEC).
Proof.
  intros H. apply dmul256_Some. split; [reflexivity|]. split; [apply Z.div_pos; [lia|reflexivity]|].
  apply Z.div_le_upper_bound; [reflexivity|lia].
Qed.
Lemma ddiv256_ok a b : 0 < b -> 0 <= a * DEC <= U256MAX * b -> ddiv256 a b = Some (a * DEC / b).
Proof.
  intros B H. apply ddiv256_Some. split; [lia|]. split; [reflexivity|]. split; [apply Z.div_pos; lia|].
  apply Z.div_le_upper_bound; lia.
Qed.
Lemma floor_le a b : 0 <= a -> 0 < b -> 0 <= a / b /\ b * (a / b) <= a.
Proof. intros A B. split; [apply Z.div_pos; lia|apply Z.mul_div_le; lia]. Qed.

(** No number of a round overflows. *)
Lemma round_some L s P d : 0 < P -> 2 * DEC <= L <= 2000000 * DEC -> DEC <= d <= 2 * 10 ^ 30 -> 0 <= s <= 10 ^ 30 -> d ^ 2 <= 10 ^ 10 * (DEC * P) ->
  exists p dp r, pow3 d = Some p /\ ddiv256 p P = Some dp /\ calculate_step d L s dp = Some r.
Proof.
  intros A HL Hd Hs HP.
  assert (D2 : 0 <= d * d <= 4 * 10 ^ 60) by nia.
  assert (D3 : 0 <= d * d * d <= 8 * 10 ^ 90) by nia.
  destruct (floor_le (d * d) DEC ltac:(lia) DEC_pos) as (q0 & q1). set (q := d * d / DEC) in *.
  assert (Eq : dmul256 d d = Some q) by (apply dmul256_ok; unfold U256MAX, DEC; lia).
  assert (Q1 : 0 <= q * d <= 10 ^ 90) by (unfold DEC in q1; nia).
  destruct (floor_le (q * d) DEC ltac:(lia) DEC_pos) as (p0 & p1). set (p := q * d / DEC) in *.
  assert (Ep : pow3 d = Some p) by (unfold pow3; rewrite Eq; apply dmul256_ok; unfold U256MAX, DEC; lia).
  assert (P1 : p * DEC * DEC <= d ^ 3).
  { replace (d ^ 3) with (d * d * d) by ring. assert (DEC * (DEC * p) <= DEC * (q * d)) by (apply mulm; [lia|unfold DEC; lia]).
    assert (DEC * q * d <= d * d * d) by (apply Z.mul_le_mono_nonneg_r; unfold DEC in *; lia). lia. }
  assert (P2 : p * DEC <= 10 ^ 10 * d * P).
  { apply Z.mul_le_mono_pos_r with DEC; [reflexivity|]. assert (d * d ^ 2 <= d * (10 ^ 10 * (DEC * P))) by (apply mulm; [exact HP|unfold DEC in *; lia]). lia. }
  assert (P3 : 0 <= p * DEC <= U256MAX * P). { split; [unfold DEC; lia|]. assert (10 ^ 10 * d * P <= U256MAX * P) by (apply Z.mul_le_mono_nonneg_r; unfold U256MAX; lia). lia. }
  destruct (floor_le (p * DEC) P ltac:(lia) A) as (e0 & e1). set (dp := p * DEC / P) in *.
  assert (Ed : ddiv256 p P = Some dp) by (apply ddiv256_ok; assumption).
  assert (Dp : dp <= 2 * 10 ^ 40).
  { apply Z.mul_le_mono_pos_l with P; [exact A|]. assert (P * (10 ^ 10 * d) <= P * (2 * 10 ^ 40)) by (apply mulm; lia). lia. }
  exists p, dp. unfold calculate_step. replace N_COINS with (2 * DEC) by reflexivity. replace (2 * DEC + DEC) with (3 * DEC) by reflexivity.
  assert (Ls : 0 <= L * s <= 2 * 10 ^ 54) by (unfold DEC in HL; nia).
  destruct (floor_le (L * s) DEC ltac:(lia) DEC_pos) as (l0 & l1). set (lm := L * s / DEC) in *.
  assert (El : dmul256 L s = Some lm) by (apply dmul256_ok; unfold U256MAX, DEC; lia). rewrite El.
  assert (E2 : dmul256 dp (2 * DEC) = Some (dp * 2)) by (rewrite dmul256_ok by (unfold U256MAX, DEC; lia); rewrite exact_mul; reflexivity). rewrite E2.
  assert (E3 : add256 lm (dp * 2) = Some (lm + dp * 2)) by (apply add256_Some; unfold U256MAX, DEC in *; lia). rewrite E3.
  assert (Lm : lm <= 2 * 10 ^ 36) by (unfold DEC in l1; lia).
  assert (Lv : 0 <= (lm + dp * 2) * d <= 10 ^ 72) by nia.
  destruct (floor_le ((lm + dp * 2) * d) DEC ltac:(lia) DEC_pos) as (v0 & v1). set (lv := (lm + dp * 2) * d / DEC) in *.
  assert (E4 : dmul256 (lm + dp * 2) d = Some lv) by (apply dmul256_ok; unfold U256MAX, DEC; lia). rewrite E4.
  assert (E5 : sub256 L DEC = Some (L - DEC)) by (apply sub256_Some; unfold U256MAX, DEC in *; lia). rewrite E5.
  assert (Dl : DEC * DEC <= d * (L - DEC) <= 10 ^ 60) by (unfold DEC in *; nia).
  assert (E6 : dmul256 d (L - DEC) = Some (d * (L - DEC) / DEC)) by (apply dmul256_ok; unfold U256MAX, DEC in *; lia). rewrite E6.
  assert (s0 : DEC <= d * (L - DEC) / DEC <= 10 ^ 60).
  { split; [apply Z.div_le_lower_bound; [reflexivity|apply Dl]|apply Z.div_le_upper_bound; [reflexivity|unfold DEC in *; lia]]. }
  set (ls := d * (L - DEC) / DEC) in *.
  assert (E7 : dmul256 dp (3 * DEC) = Some (dp * 3)) by (rewrite dmul256_ok by (unfold U256MAX, DEC; lia); rewrite exact_mul; reflexivity). rewrite E7.
  assert (E8 : add256 ls (dp * 3) = Some (ls + dp * 3)) by (apply add256_Some; unfold U256MAX, DEC in *; lia). rewrite E8.
  eexists. split; [exact Ep|]. split; [exact Ed|]. apply ddiv256_ok; unfold U256MAX, DEC in *; lia.
Qed.

(** Below the square root of four times the product of the reserves the function is negative. *)
Lemma Gam_neg P L s w z : 0 < P -> 2 * DEC <= L -> 0 <= z < w -> w ^ 2 <= DEC * P -> w <= s -> Gam P L s z < 0.
Proof.
  intros A HL Hz Hw Hs. pose proof DEC_pos as HQ.
  assert (W : Gam P L s w <= 0).
  { unfold Gam. replace (w ^ 3) with (w * w ^ 2) by ring. assert (w * w ^ 2 <= w * (DEC * P)) by (apply mulm; lia).
    assert (P * L * w <= P * L * s) by (apply mulm; [exact Hs|apply Z.mul_nonneg_nonneg; lia]). lia. }
  pose proof (Gam_convex P L s w z ltac:(lia) ltac:(lia)) as C. pose proof (Gam'_pos P L z A HL).
  assert (0 < Gam' P L z * (w - z)) by (apply Z.mul_pos_pos; lia). lia.
Qed.

Lemma loop_some L s P : 0 < P -> 2 * DEC <= L <= 2000000 * DEC -> DEC + 3 <= s <= 10 ^ 30 -> s ^ 2 <= 10 ^ 10 * (DEC * P) -> (DEC + 3) ^ 2 <= DEC * P ->
  forall n d, DEC <= d <= s -> 0 <= Gam P L s (d + 3) ->
  100 ^ Z.of_nat n * (Gam P L s (d + 3) * Gam' P L (d + 3)) < 399 ^ Z.of_nat n * (TOL * (P * (L - DEC)) ^ 2) ->
  exists r, d_loop (Datatypes.S n) L s P d = Some r /\ DEC <= r.
Proof.
  intros A HL Hs HS HW. induction n as [|n IH]; intros d Hd HG HP; cbn [d_loop].
  all: assert (D2 : d ^ 2 <= 10 ^ 10 * (DEC * P)) by (apply Z.le_trans with (s ^ 2); [apply Z.pow_le_mono_l; unfold DEC in *; lia|exact HS]).
  all: destruct (round_some L s P d A HL ltac:(lia) ltac:(unfold DEC in *; lia) D2) as (p & dp & r & E1 & E2 & E3); rewrite E1, E2, E3.
  all: destruct (d_step_ok L s P d p dp r ltac:(unfold DEC in *; lia) ltac:(lia) E1 E2 E3) as (_ & R0 & _ & rv & _ & F).
  all: destruct (d_round _ _ _ _ _ _ _ F ltac:(lia) A ltac:(lia) R0 ltac:(unfold DEC in *; lia) HG) as (G0 & Hi & Hn).
  all: assert (Rr : DEC <= r) by (destruct (Z.le_gt_cases DEC r) as [|C]; [assumption|exfalso]; 
    pose proof (Gam_neg P L s (DEC + 3) (r + 3) A ltac:(lia) ltac:(lia) HW ltac:(lia)); lia).
  all: destruct (Z.leb_spec (Z.abs (r - d)) TOL) as [C|C]; [exists r; auto|].
  all: assert (Dn : TOL < d - r) by (unfold TOL in *; lia); destruct (Hn Dn) as (N1 & N2).
  - exfalso. change (Z.of_nat 0) with 0 in HP. rewrite !Z.pow_0_r in HP. lia.
  - apply (IH r); [unfold TOL in *; lia|exact G0|].
    rewrite Nat2Z.inj_succ, !Z.pow_succ_r in HP by lia. set (a := 100 ^ Z.of_nat n) in *. set (b := 399 ^ Z.of_nat n) in *.
    assert (0 < a) by (apply Z.pow_pos_nonneg; lia).
    assert (a * (399 * (Gam P L s (r + 3) * Gam' P L (r + 3))) <= a * (100 * (Gam P L s (d + 3) * Gam' P L (d + 3)))) by (apply mulm; lia). lia.
Qed.
