(** The invariant of an ordinary pool is always found. *)
From Coq Require Import ZArith Lia Bool List.
From Verif Require Import Num StableMath StableProofs StableAcc StableConv.
Open Scope Z_scope.

(** An ordinary pool (reserves in units of 10^-18): at least one whole token of each asset, at most 10^12 in all, and
    neither reserve more than 10^9 times the other. *)
Definition ordinary (x y : Z) : Prop :=
  10 ^ 18 <= x /\ 10 ^ 18 <= y /\ x <= 10 ^ 9 * y /\ y <= 10 ^ 9 * x /\ x + y <= 10 ^ 30.

Lemma ordinary_P x y P : ordinary x y -> DEC * P <= 4 * x * y < DEC * P + DEC ->
  3 * DEC <= P /\ (x + y) ^ 2 <= 4 * 10 ^ 8 * (DEC * P) /\ (DEC + 3) ^ 2 <= DEC * P /\ DEC * P <= (x + y) ^ 2.
Proof.
  intros (X & Y & XY & YX & Su) HP. change (10 ^ 18) with DEC in *. assert (HQ : DEC = 1000000000000000000) by reflexivity.
  assert (A : 4 * DEC * DEC <= 4 * x * y).
  { assert (DEC * DEC <= x * y) by (apply Z.mul_le_mono_nonneg; lia). lia. }
  assert (P3 : 3 * DEC <= P). { apply Z.mul_le_mono_pos_l with DEC; [lia|]. lia. }
  split; [exact P3|].
  assert (B : (x + y) ^ 2 <= (10 ^ 9 + 3) * (x * y)).
  { destruct (Z.le_ge_cases x y).
    - assert (x * x <= y * x) by (apply Z.mul_le_mono_nonneg_r; lia). assert (y * y <= y * (10 ^ 9 * x)) by (apply Z.mul_le_mono_nonneg_l; lia).
      assert (0 <= x * y) by (apply Z.mul_nonneg_nonneg; lia). rewrite Z.pow_2_r. lia.
    - assert (y * y <= x * y) by (apply Z.mul_le_mono_nonneg_r; lia). assert (x * x <= x * (10 ^ 9 * y)) by (apply Z.mul_le_mono_nonneg_l; lia).
      assert (0 <= x * y) by (apply Z.mul_nonneg_nonneg; lia). rewrite Z.pow_2_r. lia. }
  split; [|split].
  - assert (DEC * 1 <= DEC * P) by (apply Z.mul_le_mono_nonneg_l; lia). lia.
  - assert (DEC * (3 * DEC) <= DEC * P) by (apply Z.mul_le_mono_nonneg_l; lia). rewrite Z.pow_2_r. lia.
  - assert (0 <= (x - y) ^ 2) by apply sq_nonneg. assert (4 * x * y = (x + y) ^ 2 - (x - y) ^ 2) by ring. lia.
Qed.

Lemma potential L P s : 2 * DEC <= L <= 2000000 * DEC -> 3 * DEC <= P -> DEC <= s <= 10 ^ 30 -> s ^ 2 <= 2 * 10 ^ 9 * (DEC * P) -> DEC * P <= s ^ 2 ->
  0 <= Gam P L s (s + 3) /\
  100 ^ 63 * (Gam P L s (s + 3) * Gam' P L (s + 3)) < 399 ^ 63 * (TOL * (P * (L - DEC)) ^ 2).
Proof.
  intros HL HP Hs H1 H2. assert (HQ : DEC = 1000000000000000000) by reflexivity.
  set (M := P * (L - DEC)).
  assert (M1 : DEC * P <= M) by (unfold M; rewrite (Z.mul_comm DEC P); apply Z.mul_le_mono_nonneg_l; lia).
  assert (M2 : M <= 2000000 * (DEC * P)). { unfold M. replace (2000000 * (DEC * P)) with (P * (2000000 * DEC)) by ring. apply Z.mul_le_mono_nonneg_l; lia. }
  assert (E : Gam P L s (s + 3) = (s + 3) ^ 3 - (DEC * P) * s + 3 * M) by (unfold Gam, M; ring).
  assert (E' : Gam' P L (s + 3) = 3 * (s + 3) ^ 2 + M) by reflexivity. rewrite E, E'. clearbody M. clear E E'.
  set (V := DEC * P) in *. assert (V0 : 3 * DEC * DEC <= V) by (unfold V; assert (DEC * (3 * DEC) <= DEC * P) by (apply Z.mul_le_mono_nonneg_l; lia); lia). clearbody V.
  assert (S2 : s * s = s ^ 2) by ring. set (q := s ^ 2) in *. assert (Q0 : DEC * s <= q) by (rewrite <- S2; apply Z.mul_le_mono_nonneg_r; lia).
  assert (C3 : (s + 3) ^ 3 = s * q + 9 * q + 27 * s + 27) by (unfold q; ring).
  assert (C2 : (s + 3) ^ 2 = q + 6 * s + 9) by (unfold q; ring). rewrite C3, C2. clearbody q. clear C3 C2.
  assert (V1 : V * s <= s * q) by (rewrite (Z.mul_comm V s); apply Z.mul_le_mono_nonneg_l; lia).
  assert (SQ : DEC * q <= s * q) by (apply Z.mul_le_mono_nonneg_r; lia).
  assert (VS : 0 <= V * s) by (apply Z.mul_nonneg_nonneg; lia).
  set (g := s * q + 9 * q + 27 * s + 27 - V * s + 3 * M).
  assert (G1 : 0 <= g <= 2 * (s * q)) by (unfold g; lia).
  split; [lia|]. clearbody g.
  assert (F1 : 3 * (q + 6 * s + 9) + M <= 4 * q + M) by lia.
  assert (A1 : g * (3 * (q + 6 * s + 9) + M) <= 2 * (s * q) * (4 * q + M)) by (apply Z.mul_le_mono_nonneg; lia).
  assert (A2 : 2 * (s * q) * (4 * q + M) <= 2 * (10 ^ 30 * (2 * 10 ^ 9 * M)) * (4 * (2 * 10 ^ 9 * M) + M)).
  { apply Z.mul_le_mono_nonneg; [lia| |lia|lia]. apply Z.mul_le_mono_nonneg_l; [lia|]. apply Z.mul_le_mono_nonneg; lia. }
  assert (A3 : 2 * (10 ^ 30 * (2 * 10 ^ 9 * M)) * (4 * (2 * 10 ^ 9 * M) + M) = 2 * (10 ^ 30 * (2 * 10 ^ 9)) * (4 * (2 * 10 ^ 9) + 1) * M ^ 2) by ring.
  assert (M0 : 0 < M ^ 2) by (apply Z.pow_pos_nonneg; lia).
  set (K := 2 * (10 ^ 30 * (2 * 10 ^ 9)) * (4 * (2 * 10 ^ 9) + 1)) in *.
  assert (N : 0 <= 100 ^ 63 /\ 100 ^ 63 * K < 399 ^ 63 * TOL) by (split; vm_compute; [discriminate|reflexivity]).
  clearbody K. generalize dependent (100 ^ 63). generalize (399 ^ 63). intros n9 n1 (N0 & N1).
  apply Z.le_lt_trans with (n1 * (K * M ^ 2)); [apply mulm; lia|]. rewrite !Z.mul_assoc. apply Z.mul_lt_mono_pos_r; [exact M0|exact N1].
Qed.

(** The leverage of an amplification between 1 and 10^6. *)
Lemma lev_range a : 100 <= a <= 100000000 -> 2 * DEC <= lev a <= 2000000 * DEC.
Proof. unfold lev, DEC. lia. Qed.

Lemma compute_d_some a x y : 100 <= a <= 100000000 -> ordinary x y -> exists D, compute_d a x y = Some D /\ DEC <= D.
Proof.
  intros Ha O. pose proof O as (X & Y & _ & _ & Su). change (10 ^ 18) with DEC in X, Y. assert (HQ : DEC = 1000000000000000000) by reflexivity.
  unfold compute_d. assert (E1 : dratio256 a AMP_PRECISION = Some (a * 10000000000000000)).
  { apply dratio256_Some. unfold AMP_PRECISION. replace (a * DEC) with (a * 10000000000000000 * 100) by (rewrite HQ; ring). rewrite Z.div_mul by discriminate.
    split; [discriminate|]. split; [reflexivity|]. unfold U256MAX. lia. }
  rewrite E1. replace N_COINS with (2 * DEC) by reflexivity.
  assert (E2 : dmul256 (a * 10000000000000000) (2 * DEC) = Some (lev a)).
  { rewrite dmul256_ok by (unfold U256MAX; lia). rewrite exact_mul. f_equal. unfold lev. ring. }
  rewrite E2. assert (K : forall z, 0 <= z <= 10 ^ 30 -> dmul256 z (2 * DEC) = Some (2 * z)).
  { intros z Hz. rewrite dmul256_ok by (unfold U256MAX; lia). rewrite exact_mul. f_equal. ring. }
  rewrite !K by lia. assert (E3 : add256 x y = Some (x + y)) by (apply add256_Some; unfold U256MAX; lia). rewrite E3.
  destruct (Z.eqb_spec (x + y) 0); [lia|].
  assert (B : 0 <= 2 * x * (2 * y) <= 10 ^ 62).
  { split; [apply Z.mul_nonneg_nonneg; lia|]. assert (x * y <= 10 ^ 30 * 10 ^ 30) by (apply Z.mul_le_mono_nonneg; lia). lia. }
  rewrite dmul256_ok by (unfold U256MAX; lia). pose proof (floor_bounds (2 * x * (2 * y)) DEC ltac:(lia)) as Fb. set (P := 2 * x * (2 * y) / DEC) in *.
  assert (HP : DEC * P <= 4 * x * y < DEC * P + DEC) by lia. clearbody P.
  destruct (ordinary_P x y P O HP) as (P1 & P2 & P3 & P4). pose proof (lev_range a Ha) as HL.
  assert (P2' : (x + y) ^ 2 <= 2 * 10 ^ 9 * (DEC * P)) by (clear - P1 P2; unfold DEC in *; lia).
  destruct (potential (lev a) P (x + y) HL P1 ltac:(lia) P2' P4) as (G0 & G1).
  change ITERATIONS with (Datatypes.S 63). apply (loop_some (lev a) (x + y) P); try assumption; try lia.
Qed.
