(** The iteration for the other reserve ends as well. *)
From Coq Require Import ZArith Lia Bool List.
From Verif Require Import Num StableMath StableProofs StableAcc StableConv StableConv2.
Open Scope Z_scope.

(** ** Newton's method for y^2 + (b - D) y = C *)
Definition Gq (be C y : Z) : Z := y ^ 2 + be * y - C.
Definition ETA : Z := 10000001.

Lemma Gq_at be C y z : Gq be C z = Gq be C y + (2 * y + be) * (z - y) + (z - y) ^ 2.
Proof. unfold Gq. ring. Qed.
Lemma Gq_disc be C z : (2 * z + be) ^ 2 = be ^ 2 + 4 * C + 4 * Gq be C z.
Proof. unfold Gq. ring. Qed.

(** The step is at most [ETA] units below the exact one and never above it. *)
Lemma y_step be C y r m : DEC <= 10000000 * m -> 4 * m ^ 2 <= be ^ 2 + 4 * C -> DEC <= 10000000 * (2 * y + be) -> 
  y ^ 2 + C - DEC - (2 * y + be) < r * (2 * y + be) -> r * (2 * y + be) <= y ^ 2 + C ->
  0 <= Gq be C (r + ETA) /\ 2 * m <= 2 * (r + ETA) + be /\
  Gq be C (r + ETA) <= ETA * (2 * y + be) + (r + ETA - y) ^ 2 /\ Gq be C y <= (2 * y + be) * (y - r).
Proof.
  intros Hm Hd Hq Lo Hi. assert (HQ : DEC = 1000000000000000000) by reflexivity. remember (2 * y + be) as q eqn:Eq.
  assert (T : 0 <= Gq be C y + q * (r + ETA - y)).
  { unfold Gq. replace (y ^ 2 + be * y - C + q * (r + ETA - y)) with (r * q + ETA * q - y ^ 2 - C) by (rewrite Eq; ring). unfold ETA. lia. }
  assert (T2 : Gq be C y + q * (r - y) <= 0).
  { unfold Gq. replace (y ^ 2 + be * y - C + q * (r - y)) with (r * q - y ^ 2 - C) by (rewrite Eq; ring). lia. }
  assert (G : Gq be C (r + ETA) = Gq be C y + q * (r + ETA - y) + (r + ETA - y) ^ 2) by (rewrite Eq; apply Gq_at).
  pose proof (sq_nonneg (r + ETA - y)) as Sq.
  assert (G0 : 0 <= Gq be C (r + ETA)) by lia. split; [exact G0|]. split; [|split; [lia|lia]].
  assert (m0 : 0 < m) by lia.
  set (g := 2 * (r + ETA) + be).
  assert (g0 : 0 < g).
  { assert (X : 0 < q * (2 * g)). 
    { assert (Y : 2 * (y ^ 2 + C) <= q * (2 * (r + ETA))) by (assert (0 <= ETA * q - DEC - q) by (unfold ETA; lia); lia).
      assert (Z1 : 2 * (2 * (y ^ 2 + C)) + 2 * (be * q) = q ^ 2 + be ^ 2 + 4 * C) by (rewrite Eq; ring).
      assert (0 < q ^ 2) by (apply Z.pow_pos_nonneg; lia). assert (0 <= m ^ 2) by apply sq_nonneg. unfold g. lia. }
    apply Z.mul_pos_cancel_l in X; lia. }
  assert (D : (2 * m) ^ 2 <= g ^ 2) by (unfold g; rewrite (Gq_disc be C); lia).
  apply Z.pow_le_mono_l_iff in D; [exact D|lia|lia|lia].
Qed.

Lemma y_round be C y r m : DEC <= 10000000 * m -> 4 * m ^ 2 <= be ^ 2 + 4 * C -> m <= 2 * y + be -> 
  y ^ 2 + C - DEC - (2 * y + be) < r * (2 * y + be) -> r * (2 * y + be) <= y ^ 2 + C -> 0 <= Gq be C (y + ETA) -> 2 * m <= 2 * (y + ETA) + be ->
  r <= y + 2 * ETA /\
  (TOL < y - r -> 4 * m ^ 2 * TOL <= Gq be C (y + ETA) * (2 * (y + ETA) + be) /\
     399 * (Gq be C (r + ETA) * (2 * (r + ETA) + be)) <= 100 * (Gq be C (y + ETA) * (2 * (y + ETA) + be))).
Proof.
  intros Hm Hd Hq Lo Hi HG Hg. assert (HQ : DEC = 1000000000000000000) by reflexivity. assert (HE : ETA = 10000001) by reflexivity.
  destruct (y_step be C y r m Hm Hd ltac:(lia) Lo Hi) as (G0 & G1 & _ & G2).
  assert (Gy : Gq be C (y + ETA) = Gq be C y + (2 * y + be) * ETA + ETA ^ 2).
  { rewrite (Gq_at be C y (y + ETA)). replace (y + ETA - y) with ETA by ring. reflexivity. }
  assert (m1 : 10 ^ 11 <= m) by lia.
  split.
  - apply Z.le_sub_le_add_l. apply Z.mul_le_mono_pos_l with (2 * y + be); [lia|].
    assert (ETA ^ 2 <= (2 * y + be) * ETA) by (rewrite Z.pow_2_r; apply Z.mul_le_mono_nonneg_r; lia). lia.
  - intros HT. assert (T0 : 0 < TOL) by reflexivity.
    assert (K1 : Gq be C (r + ETA) + (2 * (r + ETA) + be) * (y - r) <= Gq be C (y + ETA)).
    { rewrite (Gq_at be C (r + ETA) (y + ETA)). replace (y + ETA - (r + ETA)) with (y - r) by ring. pose proof (sq_nonneg (y - r)). lia. }
    assert (K2 : Gq be C (y + ETA) <= (2 * (y + ETA) + be) * (y - r + ETA)).
    { assert (0 <= ETA * (y - r)) by (apply Z.mul_nonneg_nonneg; lia). assert (0 <= ETA ^ 2) by apply sq_nonneg. lia. }
    split.
    + assert (X : 2 * m * TOL <= Gq be C (y + ETA)).
      { assert (2 * m * TOL <= (2 * (r + ETA) + be) * (y - r)) by (apply Z.mul_le_mono_nonneg; lia). lia. }
      replace (4 * m ^ 2 * TOL) with (2 * m * TOL * (2 * m)) by ring. apply Z.mul_le_mono_nonneg; [apply Z.mul_nonneg_nonneg; lia|exact X|lia|lia].
    + assert (Fr0 : 0 < 2 * (r + ETA) + be) by lia. assert (Dl : 0 < y - r) by lia. assert (E0 : 0 <= ETA) by lia.
      pose proof (quarter _ _ _ _ (y - r) ETA G0 Fr0 Dl E0 K1 K2) as Qd.
      set (u := Gq be C (y + ETA) * (2 * (y + ETA) + be)) in *. set (v := Gq be C (r + ETA) * (2 * (r + ETA) + be)) in *.
      assert (0 <= v) by (unfold v; apply Z.mul_nonneg_nonneg; lia). assert (0 <= u) by (unfold u; apply Z.mul_nonneg_nonneg; lia).
      apply Z.mul_le_mono_pos_l with (y - r); [lia|]. unfold TOL in HT. rewrite HE in Qd. clear - Qd HT H H0. nia.
Qed.

(** One round of the program. *)
Lemma y_round_some b c d y : 0 <= y <= 10 ^ 36 -> 0 <= c <= 10 ^ 50 -> 0 <= b <= 10 ^ 40 -> 0 <= d -> 0 < 2 * y + b - d ->
  exists y2 r, pow2 y = Some y2 /\ add256 y2 c = Some (y2 + c) /\ dmul256 y N_COINS = Some (2 * y) /\ add256 (2 * y) b = Some (2 * y + b) /\
    sub256 (2 * y + b) d = Some (2 * y + b - d) /\ ddiv256 (y2 + c) (2 * y + b - d) = Some r /\ 0 <= r /\
    y ^ 2 + c * DEC - DEC - (2 * y + b - d) < r * (2 * y + b - d) /\ r * (2 * y + b - d) <= y ^ 2 + c * DEC.
Proof.
  intros Hy Hc Hb Hd Hq. assert (HQ : DEC = 1000000000000000000) by reflexivity.
  assert (Y2 : 0 <= y * y <= 10 ^ 72) by nia. pose proof (floor_bounds (y * y) DEC ltac:(lia)) as Fb.
  destruct (floor_le (y * y) DEC ltac:(lia) DEC_pos) as (q0 & q1).
  exists (y * y / DEC), ((y * y / DEC + c) * DEC / (2 * y + b - d)).
  split; [apply dmul256_ok; unfold U256MAX; lia|]. set (y2 := y * y / DEC) in *. clearbody y2.
  split; [apply add256_Some; unfold U256MAX; lia|].
  split; [replace N_COINS with (2 * DEC) by reflexivity; rewrite dmul256_ok by (unfold U256MAX; lia); rewrite exact_mul; f_equal; ring|].
  split; [apply add256_Some; unfold U256MAX; lia|]. split; [apply sub256_Some; unfold U256MAX; lia|].
  set (q := 2 * y + b - d) in *. clearbody q.
  assert (N : 0 <= (y2 + c) * DEC <= 10 ^ 73) by lia.
  split; [apply ddiv256_ok; [exact Hq|]; split; [lia|]; assert (U256MAX * 1 <= U256MAX * q) by (apply Z.mul_le_mono_nonneg_l; unfold U256MAX; lia); unfold U256MAX in *; lia|].
  pose proof (floor_bounds ((y2 + c) * DEC) q Hq) as Fq. split; [apply Z.div_pos; lia|]. rewrite !Z.pow_2_r. lia.
Qed.

Lemma y_loop_some b c d m : 0 <= c <= 10 ^ 50 -> 0 <= b <= 10 ^ 40 -> 0 <= d -> DEC <= 10000000 * m -> 4 * m ^ 2 <= (b - d) ^ 2 + 4 * (c * DEC) ->
  forall n y, 0 <= y <= 10 ^ 36 -> 0 <= Gq (b - d) (c * DEC) (y + ETA) -> 2 * m <= 2 * (y + ETA) + (b - d) ->
  100 ^ Z.of_nat n * (Gq (b - d) (c * DEC) (y + ETA) * (2 * (y + ETA) + (b - d))) < 399 ^ Z.of_nat n * (4 * m ^ 2 * TOL) ->
  exists r, y_loop (Datatypes.S n) b c d y = Some r.
Proof.
  intros Hc Hb Hd Hm HD. assert (HQ : DEC = 1000000000000000000) by reflexivity. assert (HE : ETA = 10000001) by reflexivity.
  induction n as [|n IH]; intros y Hy HG Hg HP; cbn [y_loop].
  all: destruct (y_round_some b c d y Hy Hc Hb Hd ltac:(lia)) as (y2 & r & E1 & E2 & E3 & E4 & E5 & E6 & R0 & Lo & Hi); rewrite E1, E2, E3, E4, E5, E6.
  all: replace (2 * y + b - d) with (2 * y + (b - d)) in Lo, Hi by ring.
  all: assert (Hq : m <= 2 * y + (b - d)) by lia.
  all: destruct (y_step (b - d) (c * DEC) y r m Hm HD ltac:(lia) Lo Hi) as (G0 & G1 & _).
  all: destruct (y_round (b - d) (c * DEC) y r m Hm HD Hq Lo Hi HG Hg) as (Up & Hn).
  all: destruct (Z.leb_spec (Z.abs (r - y)) TOL) as [C|C]; [exists r; reflexivity|].
  all: assert (Dn : TOL < y - r) by (unfold TOL in *; lia); destruct (Hn Dn) as (N1 & N2).
  - exfalso. change (Z.of_nat 0) with 0 in HP. rewrite !Z.pow_0_r in HP. lia.
  - apply (IH r); [unfold TOL in *; lia|exact G0|exact G1|].
    rewrite Nat2Z.inj_succ, !Z.pow_succ_r in HP by lia. set (a := 100 ^ Z.of_nat n) in *. set (b' := 399 ^ Z.of_nat n) in *.
    assert (0 < a) by (apply Z.pow_pos_nonneg; lia).
    set (u := Gq (b - d) (c * DEC) (y + ETA) * (2 * (y + ETA) + (b - d))) in *. set (v := Gq (b - d) (c * DEC) (r + ETA) * (2 * (r + ETA) + (b - d))) in *.
    assert (a * (399 * v) <= a * (100 * u)) by (apply mulm; lia). lia.
Qed.
