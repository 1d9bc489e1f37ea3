(** Concentrated pair: how far the fixed-point evaluation of the curve is from exact fractions. *)
From Coq Require Import ZArith QArith Qabs Lia Lqa Bool.
From Verif Require Import Num PclMath PclCurveSpec.
Open Scope Q_scope.

(** The number a raw decimal stands for. *)
Definition val (v : Z) : Q := v # 1000000000000000000.
Definition u : Q := 1 # 1000000000000000000.

Lemma val_inj v : val v == inject_Z v * u.
Proof. unfold val, u, inject_Z, Qmult, Qeq. simpl. lia. Qed.
Lemma val_add a b : val (a + b) == val a + val b.
Proof. rewrite !val_inj, inject_Z_plus. ring. Qed.
Lemma val_opp a : val (- a) == - val a.
Proof. rewrite !val_inj, inject_Z_opp. ring. Qed.
Lemma val_sub a b : val (a - b) == val a - val b.
Proof. unfold Z.sub. rewrite val_add, val_opp. ring. Qed.
Lemma val_scale k a : val (k * a) == inject_Z k * val a.
Proof. rewrite !val_inj, inject_Z_mult. ring. Qed.
Lemma val_le a b : (a <= b)%Z <-> val a <= val b.
Proof. unfold val, Qle. simpl. lia. Qed.
Lemma val_lt a b : (a < b)%Z <-> val a < val b.
Proof. unfold val, Qlt. simpl. lia. Qed.
Lemma val_nonneg a : (0 <= a)%Z <-> 0 <= val a.
Proof. unfold val, Qle. simpl. lia. Qed.
Lemma val_pos a : (0 < a)%Z <-> 0 < val a.
Proof. unfold val, Qlt. simpl. lia. Qed.

Lemma floor_mul a b m : (0 <= a)%Z -> (0 <= b)%Z -> m = Z.quot (a * b) DEC -> (0 <= m)%Z /\ val m <= val a * val b < val m + u.
Proof.
  intros A B ->. assert (P : (0 <= a * b)%Z) by nia. rewrite Z.quot_div_nonneg by (try exact P; reflexivity).
  pose proof (Z.div_pos (a * b) DEC P eq_refl). pose proof (Z.mul_div_le (a * b) DEC eq_refl).
  pose proof (Z.mul_succ_div_gt (a * b) DEC eq_refl). revert H H0 H1. generalize (a * b / DEC)%Z. intros m M L U.
  split; [exact M|]. unfold DEC in *. split; unfold val, u, Qle, Qlt, Qmult, Qplus; simpl; lia.
Qed.
Lemma floor_div a b m : (0 <= a)%Z -> (0 < b)%Z -> m = Z.quot (a * DEC) b ->
  (0 <= m)%Z /\ val m * val b <= val a /\ val a < (val m + u) * val b.
Proof.
  intros A B ->. assert (P : (0 <= a * DEC)%Z) by (unfold DEC; lia). rewrite Z.quot_div_nonneg by (try exact P; lia).
  pose proof (Z.div_pos (a * DEC) b P B). pose proof (Z.mul_div_le (a * DEC) b B).
  pose proof (Z.mul_succ_div_gt (a * DEC) b B). revert H H0 H1. generalize (a * DEC / b)%Z. intros m M L U.
  split; [exact M|]. unfold DEC in *. split; unfold val, u, Qle, Qlt, Qmult, Qplus; simpl; nia.
Qed.

Lemma smul_val a b m : (0 <= a)%Z -> (0 <= b)%Z -> smul a b = Some m -> (0 <= m)%Z /\ val m <= val a * val b < val m + u.
Proof.
  intros A B H. unfold smul, sfit in H. destruct (_ <=? _)%Z; [|discriminate H].
  assert (E : m = Z.quot (a * b) DEC) by congruence. exact (floor_mul a b m A B E).
Qed.
Lemma smul_val_neg a b m : (0 <= a)%Z -> (0 <= b)%Z -> smul (- a) b = Some m ->
  (0 <= - m)%Z /\ val (- m) <= val a * val b < val (- m) + u.
Proof.
  intros A B H. unfold smul, sfit in H. destruct (_ <=? _)%Z; [|discriminate H].
  assert (E : m = Z.quot (- a * b) DEC) by congruence.
  rewrite Z.mul_opp_l, Z.quot_opp_l in E by discriminate.
  apply (floor_mul a b (- m) A B). lia.
Qed.
Lemma sdiv_val a b m : (0 <= a)%Z -> (0 < b)%Z -> sdiv a b = Some m ->
  (0 <= m)%Z /\ val m * val b <= val a /\ val a < (val m + u) * val b.
Proof.
  intros A B H. unfold sdiv, sfit in H. destruct (b =? 0)%Z; [discriminate H|]. destruct (_ <=? _)%Z; [|discriminate H].
  assert (E : m = Z.quot (a * DEC) b) by congruence. exact (floor_div a b m A B E).
Qed.
Lemma sdiv_val_neg a b m : (0 <= a)%Z -> (0 < b)%Z -> sdiv (- a) b = Some m ->
  (0 <= - m)%Z /\ val (- m) * val b <= val a /\ val a < (val (- m) + u) * val b.
Proof.
  intros A B H. unfold sdiv, sfit in H. destruct (b =? 0)%Z; [discriminate H|]. destruct (_ <=? _)%Z; [|discriminate H].
  assert (E : m = Z.quot (- a * DEC) b) by congruence.
  rewrite Z.mul_opp_l, Z.quot_opp_l in E by lia. apply (floor_div a b (- m) A B). lia.
Qed.
Lemma dmul256_val a b m : (0 <= a)%Z -> (0 <= b)%Z -> dmul256 a b = Some m -> (0 <= m)%Z /\ val m <= val a * val b < val m + u.
Proof.
  intros A B H. apply dmul256_Some in H as (E & _). apply (floor_mul a b m A B). rewrite Z.quot_div_nonneg by (try nia; reflexivity).
  exact E.
Qed.

Lemma qmul_le a b c d : 0 <= a -> a <= b -> 0 <= c -> c <= d -> a * c <= b * d.
Proof.
  intros A B C D. apply Qle_trans with (b * c); [apply Qmult_le_compat_r; assumption|].
  rewrite !(Qmult_comm b). apply Qmult_le_compat_r; [exact D|]. lra.
Qed.
Lemma qmul_pos a b : 0 <= a -> 0 <= b -> 0 <= a * b.
Proof. exact (Qmult_le_0_compat a b). Qed.
(** [ap e a b]: [a] is [b] up to the relative error [e]. *)
Definition ap (e a b : Q) : Prop := b * (1 - e) <= a /\ a <= b * (1 + e).
Lemma ap_weak e e' a b : 0 <= b -> e <= e' -> ap e a b -> ap e' a b.
Proof. intros B E (L & U). split; nra. Qed.
Lemma ap_eq e a b b' : b == b' -> ap e a b -> ap e a b'.
Proof. intros E (L & U). unfold ap. rewrite <- E. auto. Qed.
Lemma ap_refl e a : 0 <= a -> 0 <= e -> ap e a a.
Proof. intros. split; nra. Qed.
(** Rounding down by at most one unit. *)
Lemma ap_down e r a b c : ap e a b -> c <= a -> a < c + u -> u <= r * b -> ap (e + r) c b.
Proof. intros (L & U) C1 C2 R. split; nra. Qed.
Lemma ap_mul e1 e2 a a' b b' : 0 <= e1 -> e1 <= 1 -> 0 <= e2 -> e2 <= 1 -> 0 <= a' -> 0 <= b' ->
  ap e1 a a' -> ap e2 b b' -> ap (e1 + e2 + e1 * e2) (a * b) (a' * b').
Proof.
  intros E1 E1' E2 E2' A B (L1 & U1) (L2 & U2).
  assert (P1 : 0 <= a' * (1 - e1)) by nra. assert (P2 : 0 <= b' * (1 - e2)) by nra.
  assert (Q1 : 0 <= a) by lra. assert (Q2 : 0 <= b) by lra.
  assert (L : a' * (1 - e1) * (b' * (1 - e2)) <= a * b).
  { apply Qle_trans with (a * (b' * (1 - e2))); [apply Qmult_le_compat_r; assumption|].
    rewrite (Qmult_comm a), (Qmult_comm a). apply Qmult_le_compat_r; assumption. }
  assert (U : a * b <= a' * (1 + e1) * (b' * (1 + e2))).
  { apply Qle_trans with (a' * (1 + e1) * b); [apply Qmult_le_compat_r; assumption|].
    rewrite (Qmult_comm (a' * (1 + e1)) b), (Qmult_comm (a' * (1 + e1)) (b' * (1 + e2))).
    apply Qmult_le_compat_r; [assumption|]. nra. }
  assert (AB : 0 <= a' * b') by nra. assert (0 <= a' * b' * (e1 * e2)) by (apply Qmult_le_0_compat; [exact AB|nra]).
  split.
  - setoid_replace (a' * (1 - e1) * (b' * (1 - e2))) with (a' * b' * (1 - (e1 + e2 + e1 * e2)) + 2 * (a' * b' * (e1 * e2))) in L by ring.
    lra.
  - setoid_replace (a' * (1 + e1) * (b' * (1 + e2))) with (a' * b' * (1 + (e1 + e2 + e1 * e2))) in U by ring. exact U.
Qed.
Lemma ap_inv e b b' : 0 <= e -> e <= 1 # 2 -> 0 < b' -> ap e b b' -> ap (2 * e) (/ b) (/ b').
Proof.
  intros E E' B (L & U). assert (P : 0 < b) by nra.
  assert (PB : 0 < b * b') by nra.
  split.
  - setoid_replace (/ b' * (1 - 2 * e)) with ((1 - 2 * e) * b / (b * b')) by (field; split; lra).
    apply Qle_shift_div_r; [exact PB|]. setoid_replace (/ b * (b * b')) with b' by (field; lra).
    assert ((1 - 2 * e) * b <= (1 - 2 * e) * (b' * (1 + e))) by nra.
    assert ((1 - 2 * e) * (1 + e) <= 1) by nra. nra.
  - apply Qle_shift_inv_r; [exact P|].
    setoid_replace (/ b' * (1 + 2 * e) * b) with ((1 + 2 * e) * b / b') by (field; lra).
    apply Qle_shift_div_l; [exact B|].
    assert (b' * (1 - e) * (1 + 2 * e) <= b * (1 + 2 * e)) by nra. assert (1 <= (1 - e) * (1 + 2 * e)) by nra. nra.
Qed.
Lemma ap_div e1 e2 a a' b b' : 0 <= e1 -> e1 <= 1 -> 0 <= e2 -> e2 <= 1 # 2 -> 0 <= a' -> 0 < b' ->
  ap e1 a a' -> ap e2 b b' -> ap (e1 + 2 * e2 + e1 * (2 * e2)) (a / b) (a' / b').
Proof.
  intros. apply ap_mul; try assumption; try lra; [apply Qlt_le_weak, Qinv_lt_0_compat; assumption|apply ap_inv; assumption].
Qed.

Ltac unwrap H := unfold smul, sdiv, ssq, scube in H.
Lemma sfit_Some z m : sfit z = Some m -> m = z.
Proof. unfold sfit. destruct (_ <=? _)%Z; congruence. Qed.
Lemma sadd_val a b m : sadd a b = Some m -> m = (a + b)%Z.
Proof. exact (sfit_Some _ _). Qed.
Lemma ssubt_val a b m : ssubt a b = Some m -> m = (a - b)%Z.
Proof. exact (sfit_Some _ _). Qed.
Lemma smul_four a m : smul a FOUR_D = Some m -> m = (4 * a)%Z.
Proof.
  intros H. apply sfit_Some in H. change FOUR_D with (4 * DEC)%Z in H. rewrite Z.mul_assoc, Z.quot_mul in H by discriminate. lia.
Qed.
Lemma four_quarter a m : (0 <= a)%Z -> sdiv a FOUR_D = Some m -> (0 <= m)%Z /\ 4 * val m <= val a < 4 * val m + 4 * u.
Proof.
  intros A H. apply sdiv_val in H as (P & L & U); [|exact A|reflexivity].
  assert (E : val FOUR_D == 4) by reflexivity. rewrite E in L, U. split; [exact P|]. lra.
Qed.
Lemma gamma1_val g m : gamma1 g = Some m -> val m == val g + 1.
Proof. intros H. apply add256_Some in H as (-> & _). rewrite val_add. assert (E : val DEC == 1) by reflexivity. rewrite E. reflexivity. Qed.

(** [A * g^2] *)
Lemma ann_val a g m : (0 <= a)%Z -> (0 <= g)%Z -> (1 # 10) <= val a -> (1 # 10000) <= val g -> ann a g = Some m ->
  (0 <= m)%Z /\ ap (11 # 10000000000) (val m) (val a * (val g * val g)) /\ (1 # 1000000000) <= val a * (val g * val g).
Proof.
  intros A G HA HG H. unfold ann in H. destruct (dmul256 g g) as [q|] eqn:E; [|discriminate H].
  apply dmul256_val in E as (Q0 & L & U); [|exact G|exact G].
  apply dmul256_val in H as (M0 & L2 & U2); [|exact A|exact Q0].
  assert (GG : (1 # 100000000) <= val g * val g) by nra.
  assert (AG : (1 # 1000000000) <= val a * (val g * val g)) by nra.
  split; [exact M0|]. split; [|exact AG].
  assert (Aq : ap (1 # 10000000000) (val q) (val g * val g)).
  { apply (ap_weak (0 + (1 # 10000000000))); [lra|lra|]. apply ap_down with (val g * val g); try assumption; [apply ap_refl; lra|]. unfold u. lra. }
  assert (Am : ap (1 # 10000000000) (val a * val q) (val a * (val g * val g))).
  { apply (ap_weak (0 + (1 # 10000000000) + 0 * (1 # 10000000000))); [lra|lra|].
    apply ap_mul; try lra; [apply ap_refl; lra|exact Aq]. }
  apply (ap_weak ((1 # 10000000000) + (1 # 1000000000))); [lra|lra|]. apply ap_down with (val a * val q); try assumption. unfold u. lra.
Qed.

Lemma pad_dmul v m : dmul256 PADDING v = Some m -> m = (DEC * v)%Z.
Proof.
  intros H. apply dmul256_Some in H as (-> & _). change PADDING with (DEC * DEC)%Z.
  rewrite <- Z.mul_assoc, Z.mul_comm, Z.div_mul by discriminate. reflexivity.
Qed.
Lemma pad_smul v m : smul PADDING v = Some m -> m = (DEC * v)%Z.
Proof.
  intros H. apply sfit_Some in H. change PADDING with (DEC * DEC)%Z in H.
  rewrite <- Z.mul_assoc, Z.mul_comm, Z.quot_mul in H by discriminate. exact H.
Qed.
Lemma smul_two v m : smul (- TWO_D) v = Some m -> m = (- (2 * v))%Z.
Proof.
  intros H. apply sfit_Some in H. replace (- TWO_D * v)%Z with (- (2 * v) * DEC)%Z in H by (unfold TWO_D, DEC; lia).
  rewrite Z.quot_mul in H by discriminate. exact H.
Qed.
Lemma smul_two' v m : smul TWO_D v = Some m -> m = (2 * v)%Z.
Proof.
  intros H. apply sfit_Some in H. replace (TWO_D * v)%Z with (2 * v * DEC)%Z in H by (unfold TWO_D, DEC; lia).
  rewrite Z.quot_mul in H by discriminate. exact H.
Qed.
Lemma smul_dec a b m : smul (DEC * a) b = Some m -> m = (a * b)%Z.
Proof.
  intros H. apply sfit_Some in H. replace (DEC * a * b)%Z with (a * b * DEC)%Z in H by lia.
  rewrite Z.quot_mul in H by discriminate. exact H.
Qed.
Lemma val_dec a : val (DEC * a) == 1000000000000000000 * val a.
Proof. rewrite val_scale. reflexivity. Qed.
Lemma val_prod a b : val (a * b) == 1000000000000000000 * (val a * val b).
Proof. rewrite !val_inj, inject_Z_mult. unfold u. field. Qed.
Lemma half_val a m : (0 <= a)%Z -> sdiv a TWO_D = Some m -> (0 <= m)%Z /\ 2 * val m <= val a < 2 * val m + 2 * u.
Proof.
  intros A H. apply sdiv_val in H as (P & L & U); [|exact A|reflexivity].
  assert (E : val TWO_D == 2) by reflexivity. rewrite E in L, U. split; [exact P|]. lra.
Qed.

Lemma quot_bounds n p t e num m : 1 <= p -> 0 <= e -> num <= n * t -> n * t - e <= num -> m * p <= num -> num < (m + u) * p ->
  m <= n / p * t /\ n / p * t - e - u <= m.
Proof.
  intros P E N1 N2 M1 M2. assert (P0 : 0 < p) by lra. assert (Q : n / p * t == n * t / p) by (field; lra). rewrite Q. split.
  - apply Qle_shift_div_l; lra.
  - assert (n * t / p <= m + u + e); [|lra]. apply Qle_shift_div_r; [exact P0|].
    assert (e * 1 <= e * p) by (apply qmul_le; lra). lra.
Qed.

Section Point.
Context (d x y a g : Z).
Context (Hd : (0 <= d)%Z) (Hx : (0 <= x)%Z) (Hy : (0 <= y)%Z) (Ha : (0 <= a)%Z) (Hg : (0 <= g)%Z).
Local Notation D := (val d).
Local Notation X := (val x).
Local Notation Y := (val y).
Local Notation A := (val a).
Local Notation G := (val g).
Local Notation KK0 := (K0 X Y D).
Local Notation c := (G + 1 - KK0).
Local Notation KK := (K A G X Y D).
Context (D1 : 1 <= D) (XY : 1 <= X * Y) (A1 : (1 # 10) <= A) (G1 : (1 # 10000) <= G) (G2 : G <= 1 # 50)
  (GD : (99 # 100000) <= G * D) (C1 : (9 # 10) * G <= c).

Lemma pt_k0 : KK0 * (D * D) == 4 * (X * Y).
Proof. unfold K0. field. nra. Qed.
Lemma pt_k0_pos : 0 < KK0.
Proof. unfold K0. apply Qlt_shift_div_l; nra. Qed.
Lemma pt_k0_le : KK0 <= 51 # 50.
Proof. pose proof C1. pose proof G1. pose proof G2. lra. Qed.

Lemma pt_mul m : smul x y = Some m -> (0 <= m)%Z /\ val m <= X * Y < val m + u.
Proof. apply smul_val; assumption. Qed.
Lemma pt_d2 m : ssq d = Some m -> (0 < m)%Z /\ val m <= D * D < val m + u.
Proof.
  intros H. apply smul_val in H as (P & L); [|exact Hd|exact Hd]. split; [|exact L].
  apply val_pos. unfold u in L. nra.
Qed.
(** The ratio [K0]. *)
Lemma pt_k0_val mul d2 k0 : (0 <= mul)%Z -> (0 < d2)%Z -> val mul <= X * Y < val mul + u -> val d2 <= D * D < val d2 + u ->
  sdiv (4 * mul) d2 = Some k0 -> (0 <= k0)%Z /\ KK0 - 6 * u <= val k0 /\ val k0 <= KK0 + 2 * u.
Proof.
  intros M0 P (L1 & U1) (L2 & U2) H. apply sdiv_val in H as (Q & L & U); [|lia|exact P]. split; [exact Q|].
  assert (E4 : val (4 * mul) == 4 * val mul) by (rewrite val_scale; reflexivity). rewrite E4 in L, U.
  pose proof pt_k0 as E. pose proof pt_k0_pos as KP. pose proof pt_k0_le as KL.
  assert (DD : 1 <= D * D) by nra. pose proof (proj1 (val_nonneg k0) Q) as VK.
  assert (U0 : 0 < u) by reflexivity. assert (US : u <= 1 # 1000) by (unfold u; lra).
  split.
  - apply Qnot_lt_le. intros C.
    assert (B1 : (val k0 + u) * val d2 <= (val k0 + u) * (D * D)) by nra.
    assert (B2 : (val k0 + u) * (D * D) <= (KK0 - 5 * u) * (D * D)) by nra.
    assert (B3 : (KK0 - 5 * u) * (D * D) <= 4 * (X * Y) - 5 * u) by nra. lra.
  - apply Qnot_lt_le. intros C.
    assert (B1 : (KK0 + 2 * u) * val d2 <= val k0 * val d2) by (pose proof (proj1 (val_pos d2) P); nra).
    assert (B2 : (KK0 + 2 * u) * (D * D - u) < (KK0 + 2 * u) * val d2 ) by nra.
    assert (B3 : 4 * (X * Y) <= (KK0 + 2 * u) * (D * D - u)).
    { setoid_replace ((KK0 + 2 * u) * (D * D - u)) with (4 * (X * Y) + 2 * u * (D * D) - u * (KK0 + 2 * u)) by (rewrite <- E; ring).
      assert (u * (KK0 + 2 * u) <= u * 2) by nra. nra. }
    lra.
Qed.
(** [g + 1 - K0] *)
Lemma pt_gk k0 g1 gk : KK0 - 6 * u <= val k0 -> val k0 <= KK0 + 2 * u -> gamma1 g = Some g1 -> ssubt g1 k0 = Some gk ->
  (0 < gk)%Z /\ ap (1 # 1000000000000) (val gk) c.
Proof.
  intros L U Hg1 H. apply gamma1_val in Hg1. apply ssubt_val in H. 
  assert (E : val gk == G + 1 - val k0) by (rewrite H, val_sub, Hg1; reflexivity).
  pose proof C1 as B. pose proof G1 as B'. assert (S : (6 # 1) * u <= (1 # 1000000000000) * (9 # 100000)) by (unfold u; lra).
  assert (0 < u) by reflexivity.
  assert (AP : ap (1 # 1000000000000) (val gk) c) by (split; rewrite E; lra).
  split; [|exact AP]. apply val_pos. destruct AP as (AL & _). lra.
Qed.

Lemma pt_prod mul : val mul <= X * Y < val mul + u -> ap (1 # 100000000000000000) (val (4 * mul)) (4 * (X * Y)).
Proof.
  intros (L & U). assert (E4 : val (4 * mul) == 4 * val mul) by (rewrite val_scale; reflexivity). unfold ap. rewrite E4.
  pose proof XY. unfold u in *. split; lra.
Qed.
Lemma pt_d2_ap d2 : val d2 <= D * D < val d2 + u -> ap (1 # 100000000000000000) (val d2) (D * D).
Proof. intros (L & U). assert (1 <= D * D) by (pose proof D1; nra). unfold u in *. split; lra. Qed.
Lemma pt_cc : (81 # 10000000000) <= c * c.
Proof.
  pose proof C1. pose proof G1. assert (9 # 100000 <= c) by lra. revert H1. generalize c. intros z Z. nra.
Qed.
Lemma pt_c_pos : (9 # 100000) <= c.
Proof. pose proof C1. pose proof G1. lra. Qed.
Lemma pt_ccdd : (7 # 10000000) <= c * c * (D * D).
Proof.
  pose proof C1. pose proof G1. pose proof D1. pose proof GD.
  assert (H3 : (89 # 100000) <= c * D).
  { assert ((9 # 10) * G * D <= c * D) by (apply Qmult_le_compat_r; lra). lra. }
  setoid_replace (c * c * (D * D)) with ((c * D) * (c * D)) by ring. revert H3. generalize (c * D). intros z Z. nra.
Qed.
(** [g + 1 - K0] squared *)
Lemma pt_gk2 gk gk2 : (0 < gk)%Z -> ap (1 # 1000000000000) (val gk) c -> ssq gk = Some gk2 ->
  (0 < gk2)%Z /\ ap (14 # 100000000000) (val gk2) (c * c).
Proof.
  intros P AP H. apply smul_val in H as (Q & L & U); [|lia|lia]. pose proof pt_cc as B. pose proof pt_c_pos as CP.
  assert (AP2 : ap (14 # 100000000000) (val gk2) (c * c)).
  { apply (ap_weak (((1 # 1000000000000) + (1 # 1000000000000) + (1 # 1000000000000) * (1 # 1000000000000)) + (13 # 100000000000)));
      [lra|lra|].
    apply ap_down with (val gk * val gk); try assumption; [|unfold u; lra]. apply ap_mul; try lra; assumption. }
  split; [|exact AP2]. apply val_pos. destruct AP2 as (AL & _). lra.
Qed.
Lemma pt_k ag kn gk2 d2 mul kd k : (0 <= ag)%Z -> (0 <= mul)%Z -> (0 < gk2)%Z -> (0 < d2)%Z ->
  ap (11 # 10000000000) (val ag) (A * (G * G)) -> (1 # 1000000000) <= A * (G * G) ->
  val mul <= X * Y < val mul + u -> val d2 <= D * D < val d2 + u -> ap (14 # 100000000000) (val gk2) (c * c) ->
  smul ag (4 * mul) = Some kn -> smul gk2 d2 = Some kd -> sdiv kn kd = Some k ->
  (0 <= k)%Z /\ KK * (1 - (2 # 1000000000)) - u <= val k /\ val k <= KK * (1 + (2 # 1000000000)).
Proof.
  intros Pa Pm Pg Pd Aa Lg Bm Bd Ag H1 H2 H3.
  pose proof (pt_prod mul Bm) as Ap. pose proof (pt_d2_ap d2 Bd) as Ad. pose proof XY as B1. pose proof D1 as B2.
  pose proof pt_cc as Bc. pose proof pt_ccdd as Bcd. assert (DD : 1 <= D * D) by nra.
  apply smul_val in H1 as (Pn & Ln & Un); [|exact Pa|lia]. apply smul_val in H2 as (Pk & Lk & Uk); [|lia|lia].
  assert (N1 : (4 # 1000000000) <= A * (G * G) * (4 * (X * Y))) by nra.
  assert (An : ap (14 # 10000000000) (val kn) (A * (G * G) * (4 * (X * Y)))).
  { apply (ap_weak (((11 # 10000000000) + (1 # 100000000000000000) + (11 # 10000000000) * (1 # 100000000000000000)) + (26 # 100000000000)));
      [lra|lra|]. apply ap_down with (val ag * val (4 * mul)); [|exact Ln|exact Un|unfold u; lra].
    apply ap_mul; [lra|lra|lra|lra|lra|lra|exact Aa|exact Ap]. }
  assert (Ak : ap (15 # 100000000000) (val kd) (c * c * (D * D))).
  { apply (ap_weak (((14 # 100000000000) + (1 # 100000000000000000) + (14 # 100000000000) * (1 # 100000000000000000)) + (2 # 1000000000000)));
      [lra|lra|]. apply ap_down with (val gk2 * val d2); [|exact Lk|exact Uk|unfold u; lra].
    apply ap_mul; [lra|lra|lra|lra|lra|lra|exact Ag|exact Ad]. }
  assert (Kp : (0 < kd)%Z) by (apply val_pos; destruct Ak as (AL & _); lra).
  apply sdiv_val in H3 as (P & L & U); [|exact Pn|exact Kp]. split; [exact P|].
  pose proof (proj1 (val_pos kd) Kp) as VK.
  assert (Q : ap (2 # 1000000000) (val kn / val kd) (A * (G * G) * (4 * (X * Y)) / (c * c * (D * D)))).
  { apply (ap_weak ((14 # 10000000000) + 2 * (15 # 100000000000) + (14 # 10000000000) * (2 * (15 # 100000000000)))).
    - apply Qle_shift_div_l; lra.
    - lra.
    - apply ap_div; [lra|lra|lra|lra|lra|lra|exact An|exact Ak]. }
  assert (E : A * (G * G) * (4 * (X * Y)) / (c * c * (D * D)) == KK).
  { pose proof pt_c_pos as CP. unfold K. rewrite <- pt_k0. field. split; lra. }
  apply (ap_eq _ _ _ _ E) in Q. destruct Q as (QL & QU).
  assert (L' : val k <= val kn / val kd) by (apply Qle_shift_div_l; assumption).
  assert (U' : val kn / val kd < val k + u) by (apply Qlt_shift_div_r; assumption).
  split; lra.
Qed.
Lemma pt_K_pos : 0 < KK.
Proof.
  unfold K. pose proof pt_cc. pose proof pt_k0_pos. apply Qlt_shift_div_l; [lra|]. rewrite Qmult_0_l.
  pose proof A1. pose proof G1. apply Qmult_lt_0_compat; [|assumption].
  apply Qmult_lt_0_compat; [lra|apply Qmult_lt_0_compat; lra].
Qed.

(** The function whose zero the solver looks for. *)
Lemma pt_f v : f d x y a g = Some v ->
  Qabs (val v - F A G X Y D) <= ((2 # 1000000000) * KK + u) * D * Qabs (X + Y - D) + u * (2 * KK + 3).
Proof.
  intros H. unfold f in H.
  unbind H as mul E1. unbind H as d2 E2. unbind H as prod E3. unbind H as ag E4. unbind H as kn E5. unbind H as g1 E6.
  unbind H as k0 E7. unbind H as gk E8. unbind H as gk2 E9. unbind H as kd E10. unbind H as k E11. unbind H as sum E12.
  unbind H as t1 E13. unbind H as t2 E14. unbind H as t3 E15. unbind H as t4 E16. unbind H as t5 E17. unbind H as t6 E18.
  apply smul_four in E3. subst prod.
  apply pt_mul in E1 as (M0 & Bm). apply pt_d2 in E2 as (P2 & Bd).
  apply ann_val in E4 as (Pa & Aa & La); try assumption.
  apply (pt_k0_val mul d2 k0 M0 P2 Bm Bd) in E7 as (Pk0 & Lk0 & Uk0).
  destruct (pt_gk k0 g1 gk Lk0 Uk0 E6 E8) as (Pgk & Agk). destruct (pt_gk2 gk gk2 Pgk Agk E9) as (Pg2 & Ag2).
  destruct (pt_k ag kn gk2 d2 mul kd k Pa M0 Pg2 P2 Aa La Bm Bd Ag2 E5 E10 E11) as (Pk & Lk & Uk).
  apply sadd_val in E12, E15. apply ssubt_val in E17, H. subst.
  assert (Ps : (0 <= x + y)%Z) by lia.
  apply smul_val in E13 as (Pt1 & L1 & U1); [|exact Hd|exact Ps].
  apply smul_val in E14 as (Pt2 & L2 & U2); [|exact Pt1|exact Pk].
  apply smul_val in E16 as (Pt4 & L4 & U4); [|exact Pk|lia].
  apply four_quarter in E18 as (Pt6 & L6 & U6); [|lia].
  rewrite !val_sub, val_add. rewrite val_add in L1, U1.
  pose proof pt_K_pos as KP. pose proof (proj1 (val_nonneg k) Pk) as VK. pose proof (proj1 (val_nonneg d) Hd) as VD.
  assert (U0 : 0 < u) by reflexivity.
  set (kk := KK) in *. set (k' := val k) in *. set (s := X + Y) in *.
  (* the four rounded products *)
  assert (Kle : k' <= 2 * kk) by lra.
  assert (T2 : k' * (D * s) - u * k' - u <= val t2 <= k' * (D * s)).
  { split; [|nra]. assert (k' * (D * s) - k' * u <= k' * val t1) by nra. lra. }
  assert (T4 : k' * (D * D) - u * k' - u <= val t4 <= k' * (D * D)).
  { split; [|nra]. assert (k' * (D * D) - k' * u <= k' * val d2) by nra. lra. }
  assert (W : Qabs ((k' - kk) * (D * (s - D))) <= ((2 # 1000000000) * kk + u) * D * Qabs (s - D)).
  { rewrite Qabs_Qmult, Qabs_Qmult, (Qabs_pos D VD), Qmult_assoc.
    apply Qmult_le_compat_r; [|apply Qabs_nonneg]. apply Qmult_le_compat_r; [|exact VD].
    apply Qabs_Qle_condition. split; lra. }
  apply Qabs_Qle_condition in W. apply Qabs_Qle_condition. unfold F. fold kk. fold s.
  set (w := ((2 # 1000000000) * kk + u) * D * Qabs (s - D)) in *.
  setoid_replace (kk * D * (s - D)) with (k' * (D * s) - k' * (D * D) - (k' - kk) * (D * (s - D))) by ring.
  set (e := (k' - kk) * (D * (s - D))) in *.
  assert (UK : u * k' <= u * (2 * kk)) by nra.
  assert (Q4 : D * D / 4 == (1 # 4) * (D * D)) by field. rewrite Q4.
  destruct Bm, Bd, T2, T4, W. clearbody w e kk k' s. split; lra.
Qed.

(** [K] as the derivative computes it, from the rounded [K0]. *)
Context (A2 : A <= 100000).
Lemma pt_kd ag k0 kn gk2 k : (0 <= ag)%Z -> (0 <= k0)%Z -> (0 < gk2)%Z ->
  ap (11 # 10000000000) (val ag) (A * (G * G)) -> (1 # 1000000000) <= A * (G * G) ->
  KK0 - 6 * u <= val k0 -> val k0 <= KK0 + 2 * u -> ap (14 # 100000000000) (val gk2) (c * c) ->
  smul ag k0 = Some kn -> sdiv kn gk2 = Some k ->
  (0 <= k)%Z /\ KK * (1 - (1 # 100000000)) - 1500 * u <= val k /\ val k <= KK * (1 + (1 # 100000000)) + 1500 * u.
Proof.
  intros Pa P0 Pg (Al & Au) Lb L0 U0 (Gl & Gu) H1 H2.
  apply smul_val in H1 as (Pn & Ln & Un); [|exact Pa|exact P0]. apply sdiv_val in H2 as (Pk & Lk & Uk); [|exact Pn|exact Pg].
  split; [exact Pk|]. pose proof pt_cc as Bc. pose proof pt_k0_pos as K0p. pose proof pt_k0_le as K0l. pose proof pt_K_pos as KP.
  pose proof pt_c_pos as CP. pose proof C1 as C1'. pose proof G1 as G1'. pose proof G2 as G2'. pose proof A1 as A1'. pose proof A2 as A2'.
  assert (Bu : A * (G * G) <= 40). { assert (G * G <= 1 # 2500) by nra. assert (0 <= G * G) by nra. nra. }
  assert (E : KK * (c * c) == A * (G * G) * KK0) by (unfold K; field; lra).
  assert (Alt : (1 # 2) <= KK0 \/ (1 # 4) <= c * c).
  { destruct (Qlt_le_dec KK0 (1 # 2)); [right|left; assumption]. assert ((1 # 2) <= c) by lra. revert H. generalize c. intros z Z. nra. }
  assert (U1 : 0 < u) by reflexivity. assert (Us : u <= 1 # 100000000000000000) by (unfold u; lra).
  pose proof (proj1 (val_pos gk2) Pg) as Vg. pose proof (proj1 (val_nonneg k) Pk) as Vk. pose proof (proj1 (val_nonneg k0) P0) as Vk0.
  pose proof (proj1 (val_nonneg ag) Pa) as Va.
  revert E Alt Gl Gu Bc K0p K0l KP L0 U0 Bu Al Au Lb. generalize (c * c) as q. generalize (A * (G * G)) as B, KK as z, KK0 as t.
  intros B z t q E Alt Gl Gu Bc K0p K0l KP L0 U0 Bu Al Au Lb.
  assert (Q0 : 0 < q) by lra. assert (B0 : 0 <= B) by lra.
  assert (Bt : 0 <= B * t) by (apply qmul_pos; lra). assert (BU : 0 <= B * u) by (apply qmul_pos; lra).
  assert (zq : 0 <= z * q) by lra. assert (uq : 0 <= u * q) by (apply qmul_pos; lra).
  (* the numerator *)
  assert (N1 : val kn <= B * t * (1 + (12 # 10000000000)) + 3 * (B * u)).
  { assert (val ag * val k0 <= B * (1 + (11 # 10000000000)) * (t + 2 * u)) by (apply qmul_le; lra). lra. }
  assert (N2 : B * t * (1 - (12 # 10000000000)) - 7 * (B * u) - u <= val kn).
  { assert (B * (1 - (11 # 10000000000)) * (t - 6 * u) <= val ag * val k0).
    { destruct (Qlt_le_dec (t - 6 * u) 0) as [T|T]; [|apply qmul_le; lra].
      assert (0 <= B * (1 - (11 # 10000000000)) * (6 * u - t)) by (apply qmul_pos; lra).
      assert (0 <= val ag * val k0) by (apply qmul_pos; lra). lra. } lra. }
  rewrite <- E in N1, N2.
  assert (B3 : 3 * (B * u) <= z * q * (1 # 1000000000) + 900 * (u * q)).
  { destruct Alt as [T|T].
    - assert (B * (1 # 2) <= z * q) by (rewrite E; apply qmul_le; lra).
      assert (B * (1 # 2) * u <= z * q * (1 # 100000000000000000)) by (apply qmul_le; lra). lra.
    - assert (B * u <= 40 * u) by (apply qmul_le; lra). assert (u * (1 # 4) <= u * q) by (apply qmul_le; lra). lra. }
  assert (B7 : 7 * (B * u) + u <= z * q * (3 # 1000000000) + 1400 * (u * q)).
  { destruct Alt as [T|T].
    - assert (B * (1 # 2) <= z * q) by (rewrite E; apply qmul_le; lra).
      assert (u <= B * 1000000000 * u) by (rewrite <- (Qmult_1_l u) at 1; apply qmul_le; lra).
      assert (B * (1 # 2) * (2000000014 * u) <= z * q * (3 # 1000000000)) by (apply qmul_le; try lra; unfold u; lra). lra.
    - assert (B * u <= 40 * u) by (apply qmul_le; lra). assert (u * (1 # 4) <= u * q) by (apply qmul_le; lra). lra. }
  split.
  - apply Qnot_lt_le. intros H.
    assert (X1 : (val k + u) * val gk2 <= (z * (1 - (1 # 100000000)) - 1499 * u) * (q * (1 + (14 # 100000000000)))).
    { apply qmul_le; lra. }
    lra.
  - apply Qnot_lt_le. intros H.
    assert (X1 : (z * (1 + (1 # 100000000)) + 1500 * u) * (q * (1 - (14 # 100000000000))) <= val k * val gk2) by (apply qmul_le; lra).
    lra.
Qed.

Local Notation rr := ((G + 1 + KK0) / c).
(** Numerator and denominator of the derivative of [K]. *)
Lemma pt_kpn ag mul k0 g1 kpn : (0 <= ag)%Z -> (0 <= mul)%Z -> (0 <= k0)%Z ->
  ap (11 # 10000000000) (val ag) (A * (G * G)) -> (1 # 1000000000) <= A * (G * G) -> val mul <= X * Y < val mul + u ->
  KK0 - 6 * u <= val k0 -> val k0 <= KK0 + 2 * u -> gamma1 g = Some g1 ->
  smul (- (2 * (ag * (4 * mul)))) (g1 + k0) = Some kpn ->
  (0 <= - kpn)%Z /\ ap (12 # 10000000000) (val (- kpn)) (2000000000000000000 * (A * (G * G) * (4 * (X * Y))) * (G + 1 + KK0)).
Proof.
  intros Pa Pm P0 Aa La Bm L0 U0 Hg1 H. apply gamma1_val in Hg1. pose proof (pt_prod mul Bm) as Ap.
  pose proof pt_k0_pos as K0p. pose proof G1 as G1'. pose proof XY as XY'. assert (Us : u <= 1 # 100000000000000000) by (unfold u; lra).
  assert (U1 : 0 < u) by reflexivity.
  assert (Pg : (0 <= g1 + k0)%Z). { apply val_nonneg. rewrite val_add, Hg1. pose proof (proj1 (val_nonneg k0) P0). lra. }
  apply smul_val_neg in H as (P & L & U); [|lia|exact Pg]. split; [exact P|].
  assert (B : 1 <= G + 1 + KK0) by lra.
  assert (AN : ap (111 # 100000000000) (val (2 * (ag * (4 * mul)))) (2000000000000000000 * (A * (G * G) * (4 * (X * Y))))).
  { assert (EN : val (2 * (ag * (4 * mul))) == 2 * (1000000000000000000 * (val ag * val (4 * mul)))).
    { rewrite val_scale, val_prod. reflexivity. }
    assert (Q : ap (111 # 100000000000) (val ag * val (4 * mul)) (A * (G * G) * (4 * (X * Y)))).
    { apply (ap_weak ((11 # 10000000000) + (1 # 100000000000000000) + (11 # 10000000000) * (1 # 100000000000000000)));
        [assert (0 <= A * (G * G) * (4 * (X * Y))) by (apply qmul_pos; lra); lra|lra|].
      apply ap_mul; [lra|lra|lra|lra|lra|lra|exact Aa|exact Ap]. }
    destruct Q as (Q1 & Q2). unfold ap. rewrite EN. split; lra. }
  assert (AG : ap (6 # 100000000000000000) (val (g1 + k0)) (G + 1 + KK0)).
  { unfold ap. rewrite val_add, Hg1. split; lra. }
  assert (NN : (1 # 1000000000) <= 2000000000000000000 * (A * (G * G) * (4 * (X * Y)))).
  { assert ((1 # 1000000000) * 1 <= A * (G * G) * (4 * (X * Y))) by (apply qmul_le; lra). lra. }
  assert (NB : 1 <= 2000000000000000000 * (A * (G * G) * (4 * (X * Y)))).
  { assert ((1 # 1000000000) * 1 <= A * (G * G) * (4 * (X * Y))) by (apply qmul_le; lra). lra. }
  assert (NC : 1 <= 2000000000000000000 * (A * (G * G) * (4 * (X * Y))) * (G + 1 + KK0)).
  { rewrite <- (Qmult_1_l 1) at 1. apply qmul_le; lra. }
  apply (ap_weak (((111 # 100000000000) + (6 # 100000000000000000) + (111 # 100000000000) * (6 # 100000000000000000)) + (1 # 100000000000000000)));
    [lra|lra|].
  apply ap_down with (val (2 * (ag * (4 * mul))) * val (g1 + k0)); [|exact L|exact U|].
  - apply ap_mul; [lra|lra|lra|lra|lra|lra|exact AN|exact AG].
  - lra.
Qed.
Lemma pt_kpd d3 gk q2 q3 kpd : scube d = Some d3 -> (0 < gk)%Z -> ap (1 # 1000000000000) (val gk) c ->
  smul (DEC * d3) gk = Some q2 -> smul q2 gk = Some q3 -> smul q3 gk = Some kpd ->
  (0 < kpd)%Z /\ ap (4 # 1000000000000) (val kpd) (1000000000000000000 * (D * D * D) * c * c * c) /\
  100000000 <= 1000000000000000000 * (D * D * D) * c * c * c.
Proof.
  intros H3 Pg Ag H4 H5 H6. unfold scube in H3. unbind H3 as d2 E2. apply pt_d2 in E2 as (P2 & Bd).
  pose proof (pt_d2_ap d2 Bd) as Ad. apply smul_val in H3 as (P3 & L3 & U3); [|lia|exact Hd].
  pose proof D1 as D1'. pose proof pt_c_pos as CP. pose proof pt_cc as CC. pose proof pt_ccdd as CD. pose proof C1 as C1'. pose proof GD as GD'. pose proof G1 as G1'.
  assert (DD : 1 <= D * D) by nra. assert (DDD : 1 <= D * D * D) by nra. assert (Us : u <= 1 # 100000000000000000) by (unfold u; lra).
  assert (U0 : 0 < u) by reflexivity.
  assert (CDl : (89 # 100000) <= c * D).
  { assert ((9 # 10) * G * D <= c * D) by (apply Qmult_le_compat_r; lra). lra. }
  assert (A3 : ap (1 # 10000000000000000) (val d3) (D * D * D)).
  { apply (ap_weak (((1 # 100000000000000000) + 0 + (1 # 100000000000000000) * 0) + (1 # 100000000000000000))); [lra|lra|].
    apply ap_down with (val d2 * val d); [|exact L3|exact U3|lra].
    apply ap_mul; [lra|lra|lra|lra|lra|lra|exact Ad|apply ap_refl; lra]. }
  assert (Aq1 : ap (1 # 10000000000000000) (val (DEC * d3)) (1000000000000000000 * (D * D * D))).
  { unfold ap. rewrite val_dec. destruct A3. split; lra. }
  assert (P1 : (0 <= DEC * d3)%Z) by (unfold DEC; lia).
  apply smul_val in H4 as (Pq2 & L4 & U4); [|exact P1|lia]. apply smul_val in H5 as (Pq3 & L5 & U5); [|exact Pq2|lia].
  apply smul_val in H6 as (Pk & L6 & U6); [|exact Pq3|lia].
  assert (B1 : 1000000000000000000 <= 1000000000000000000 * (D * D * D)) by lra.
  assert (M1 : (1000000000000000000 * (9 # 100000)) <= 1000000000000000000 * (D * D * D) * c) by (apply qmul_le; lra).
  assert (M2 : (1000000000000000000 * (9 # 100000) * (9 # 100000)) <= 1000000000000000000 * (D * D * D) * c * c) by (apply qmul_le; lra).
  assert (M3 : 100000000 <= 1000000000000000000 * (D * D * D) * c * c * c).
  { setoid_replace (1000000000000000000 * (D * D * D) * c * c * c) with (1000000000000000000 * ((c * D) * ((c * D) * (c * D)))) by ring.
    assert ((89 # 100000) * (89 # 100000) <= (c * D) * (c * D)) by (apply qmul_le; lra).
    assert ((89 # 100000) * ((89 # 100000) * (89 # 100000)) <= (c * D) * ((c * D) * (c * D))) by (apply qmul_le; lra). lra. }
  assert (Aq2 : ap (11 # 10000000000000) (val q2) (1000000000000000000 * (D * D * D) * c)).
  { apply (ap_weak (((1 # 10000000000000000) + (1 # 1000000000000) + (1 # 10000000000000000) * (1 # 1000000000000)) + (1 # 100000000000000000)));
      [lra|lra|]. apply ap_down with (val (DEC * d3) * val gk); [|exact L4|exact U4|lra].
    apply ap_mul; [lra|lra|lra|lra|lra|lra|exact Aq1|exact Ag]. }
  assert (Aq3 : ap (22 # 10000000000000) (val q3) (1000000000000000000 * (D * D * D) * c * c)).
  { apply (ap_weak (((11 # 10000000000000) + (1 # 1000000000000) + (11 # 10000000000000) * (1 # 1000000000000)) + (1 # 100000000000000000)));
      [lra|lra|]. apply ap_down with (val q2 * val gk); [|exact L5|exact U5|lra].
    apply ap_mul; [lra|lra|lra|lra|lra|lra|exact Aq2|exact Ag]. }
  assert (Ak : ap (4 # 1000000000000) (val kpd) (1000000000000000000 * (D * D * D) * c * c * c)).
  { apply (ap_weak (((22 # 10000000000000) + (1 # 1000000000000) + (22 # 10000000000000) * (1 # 1000000000000)) + (1 # 100000000000000000)));
      [lra|lra|]. apply ap_down with (val q3 * val gk); [|exact L6|exact U6|lra].
    apply ap_mul; [lra|lra|lra|lra|lra|lra|exact Aq3|exact Ag]. }
  split; [|split; [exact Ak|exact M3]]. apply val_pos. destruct Ak as (Al & _). lra.
Qed.

Lemma pt_r : 1 <= rr /\ rr <= 25000.
Proof.
  pose proof pt_c_pos as CP. pose proof pt_k0_pos. pose proof pt_k0_le. pose proof G2. split.
  - apply Qle_shift_div_l; lra.
  - apply Qle_shift_div_r; lra.
Qed.

(** The derivative, bounded by its exact value. *)
Context (SB : X + Y <= 1100000000 * D).
Lemma pt_df v : df_dd d x y a g = Some v ->
  Qabs (val v) <= (101 # 100) * (KK * (2 * rr - 1) * Qabs (X + Y - D) + KK * D + D / 2).
Proof.
  intros H. unfold df_dd in H.
  unbind H as ag E1. unbind H as g1 E2. unbind H as d2 E3. unbind H as mul E4. unbind H as prod E5. unbind H as sum E6.
  unbind H as k0 E7. unbind H as k0p E8. unbind H as gk E9. unbind H as gk2 E10. unbind H as kn E11. unbind H as k E12.
  unbind H as pag E13. unbind H as n1 E14. unbind H as g1k E15. unbind H as kpn E16. unbind H as d3 E17. unbind H as q1 E18.
  unbind H as q2 E19. unbind H as q3 E20. unbind H as kpd E21. unbind H as a1 E22. unbind H as a2 E23. unbind H as a3 E24.
  unbind H as a4 E25. unbind H as a5 E26. unbind H as b1 E27. unbind H as b2 E28. unbind H as c1 E29. unbind H as b3 E30.
  unbind H as b4 E31. unbind H as c2 E32. unbind H as b5 E33.
  apply smul_four in E5. subst prod. apply smul_two in E8. subst k0p. apply pad_dmul in E13. subst pag.
  apply smul_dec in E14. subst n1. apply pad_smul in E18. subst q1. apply smul_two' in E30. subst b3.
  apply sadd_val in E6, E15, E26. apply ssubt_val in E29, E32, H. subst sum g1k a5 c1 c2 v.
  apply pt_mul in E4 as (M0 & Bm). apply pt_d2 in E3 as (P2 & Bd).
  apply ann_val in E1 as (Pa & Aa & La); try assumption.
  apply (pt_k0_val mul d2 k0 M0 P2 Bm Bd) in E7 as (Pk0 & Lk0 & Uk0).
  destruct (pt_gk k0 g1 gk Lk0 Uk0 E2 E9) as (Pgk & Agk). destruct (pt_gk2 gk gk2 Pgk Agk E10) as (Pg2 & Ag2).
  destruct (pt_kd ag k0 kn gk2 k Pa Pk0 Pg2 Aa La Lk0 Uk0 Ag2 E11 E12) as (Pk & Lk & Uk).
  replace (ag * - (2 * (4 * mul)))%Z with (- (2 * (ag * (4 * mul))))%Z in E16 by ring.
  destruct (pt_kpn ag mul k0 g1 kpn Pa M0 Pk0 Aa La Bm Lk0 Uk0 E2 E16) as (Pn & An).
  destruct (pt_kpd d3 gk q2 q3 kpd E17 Pgk Agk E19 E20 E21) as (Pp & Akp & Bp).
  assert (Ps : (0 <= x + y)%Z) by lia.
  rewrite <- (Z.opp_involutive kpn) in E22, E27.
  apply smul_val_neg in E22 as (Pa1 & La1 & Ua1); [|exact Pn|exact Hd].
  rewrite <- (Z.opp_involutive a1) in E23. apply smul_val_neg in E23 as (Pa2 & La2 & Ua2); [|exact Pa1|exact Ps].
  rewrite <- (Z.opp_involutive a2) in E24. apply sdiv_val_neg in E24 as (Pa3 & La3 & Ua3); [|exact Pa2|exact Pp].
  apply smul_val_neg in E27 as (Pb1 & Lb1 & Ub1); [|exact Pn|lia].
  rewrite <- (Z.opp_involutive b1) in E28. apply sdiv_val_neg in E28 as (Pb2 & Lb2 & Ub2); [|exact Pb1|exact Pp].
  apply smul_val in E25 as (Pa4 & La4 & Ua4); [|exact Pk|exact Ps].
  apply smul_val in E31 as (Pb4 & Lb4 & Ub4); [|lia|exact Hd]. apply half_val in E33 as (Pb5 & Lb5 & Ub5); [|exact Hd].
  rewrite val_add in La2, Ua2, La4, Ua4. assert (E2k : val (2 * k) == 2 * val k) by (rewrite val_scale; reflexivity). rewrite E2k in Lb4, Ub4.
  rewrite !val_sub, val_add. 
  assert (O3 : val a3 == - val (- a3)) by (rewrite val_opp; ring). assert (O2 : val b2 == - val (- b2)) by (rewrite val_opp; ring).
  rewrite O3, O2. clear O3 O2.
  pose proof pt_K_pos as KP. destruct pt_r as (R1 & R2). pose proof SB as SB'. pose proof D1 as D1'. pose proof pt_c_pos as CP.
  pose proof (proj1 (val_nonneg x) Hx) as VX. pose proof (proj1 (val_nonneg y) Hy) as VY. pose proof (proj1 (val_nonneg k) Pk) as VK.
  pose proof (proj1 (val_nonneg (- kpn)) Pn) as VN.
  assert (U0 : 0 < u) by reflexivity. assert (Us : u <= 1 # 1000000000000000000) by (unfold u; lra).
  (* the slope of K *)
  assert (AQ : ap (2 # 1000000000) (val (- kpn) / val kpd)
    (2000000000000000000 * (A * (G * G) * (4 * (X * Y))) * (G + 1 + KK0) / (1000000000000000000 * (D * D * D) * c * c * c))).
  { assert (N0 : 0 <= 2000000000000000000 * (A * (G * G) * (4 * (X * Y))) * (G + 1 + KK0)).
    { pose proof pt_k0_pos. pose proof G1. pose proof XY. apply qmul_pos; [|lra].
      assert (0 <= A * (G * G) * (4 * (X * Y))) by (apply qmul_pos; lra). lra. }
    apply (ap_weak ((12 # 10000000000) + 2 * (4 # 1000000000000) + (12 # 10000000000) * (2 * (4 # 1000000000000)))).
    - apply Qle_shift_div_l; lra.
    - lra.
    - apply ap_div; [lra|lra|lra|lra|exact N0|lra|exact An|exact Akp]. }
  assert (EQ : 2000000000000000000 * (A * (G * G) * (4 * (X * Y))) * (G + 1 + KK0) / (1000000000000000000 * (D * D * D) * c * c * c)
    == 2 * (KK * rr) / D).
  { unfold K. rewrite <- pt_k0. field. split; lra. }
  apply (ap_eq _ _ _ _ EQ) in AQ. clear EQ.
  assert (Vp : 1 <= val kpd) by (destruct Akp; lra).
  set (q := val (- kpn) / val kpd) in *. set (n := val (- kpn)) in *. set (pp := val kpd) in *.
  assert (AW : ap (2 # 1000000000) (q * D) (2 * (KK * rr))).
  { assert (EW : 2 * (KK * rr) == 2 * (KK * rr) / D * D) by (field; split; lra).
    destruct AQ as (Q1 & Q2). unfold ap. rewrite EW.
    setoid_replace (2 * (KK * rr) / D * D * (1 - (2 # 1000000000))) with (2 * (KK * rr) / D * (1 - (2 # 1000000000)) * D) by ring.
    setoid_replace (2 * (KK * rr) / D * D * (1 + (2 # 1000000000))) with (2 * (KK * rr) / D * (1 + (2 # 1000000000)) * D) by ring.
    split; apply Qmult_le_compat_r; lra. }
  clear AQ. assert (Q0 : 0 <= q) by (apply Qle_shift_div_l; lra).
  set (s := X + Y) in *.
  assert (S0 : 0 <= s) by (unfold s; lra).
  destruct (quot_bounds n pp (D * s) (u * (s + 1)) (val (- a2)) (val (- a3))) as (T3u & T3l);
    [exact Vp|apply qmul_pos; lra| | |exact La3|exact Ua3|].
  { apply Qle_trans with (val (- a1) * s); [exact La2|]. rewrite Qmult_assoc. apply Qmult_le_compat_r; assumption. }
  { assert ((n * D - u) * s <= val (- a1) * s) by (apply Qmult_le_compat_r; lra). lra. }
  destruct (quot_bounds n pp (val d2) u (val (- b1)) (val (- b2))) as (T2u & T2l);
    [exact Vp|lra|exact Lb1|lra|exact Lb2|exact Ub2|].
  fold q in T3u, T3l, T2u, T2l. destruct Bd as (Bd1 & Bd2).
  assert (Z2u : q * val d2 <= q * (D * D)) by (rewrite !(Qmult_comm q); apply Qmult_le_compat_r; assumption).
  assert (Z2l : q * (D * D) - q * u <= q * val d2).
  { setoid_replace (q * (D * D) - q * u) with (q * (D * D - u)) by ring. rewrite !(Qmult_comm q). apply Qmult_le_compat_r; lra. }
  assert (qw : q * u <= q * D * u) by (apply Qmult_le_compat_r; [|lra]; rewrite <- (Qmult_1_r q) at 1; rewrite !(Qmult_comm q); apply Qmult_le_compat_r; assumption).
  set (w := q * D) in *.
  setoid_replace (q * (D * s)) with (w * s) in T3u by (unfold w; ring). setoid_replace (q * (D * s)) with (w * s) in T3l by (unfold w; ring).
  setoid_replace (q * (D * D)) with (w * D) in Z2u by (unfold w; ring). setoid_replace (q * (D * D)) with (w * D) in Z2l by (unfold w; ring).
  (* in terms of the distance to the sum *)
  set (z := KK) in *. set (r := rr) in *. set (si := s - D) in *. pose proof (Qabs_nonneg si) as Si.
  assert (W0 : 0 <= w) by (unfold w; apply qmul_pos; lra).
  assert (zr : 0 <= z * r) by (apply qmul_pos; lra).
  assert (I1 : Qabs ((w - 2 * (z * r)) * si) <= (4 # 1000000000) * (z * r * Qabs si)).
  { rewrite Qabs_Qmult. setoid_replace ((4 # 1000000000) * (z * r * Qabs si)) with ((4 # 1000000000) * (z * r) * Qabs si) by ring.
    apply Qmult_le_compat_r; [|exact Si]. destruct AW. apply Qabs_Qle_condition. split; lra. }
  assert (I2 : Qabs ((val k - z) * (si - D)) <= ((1 # 100000000) * z + 1500 * u) * (Qabs si + D)).
  { rewrite Qabs_Qmult. apply qmul_le; [apply Qabs_nonneg| |apply Qabs_nonneg|].
    - apply Qabs_Qle_condition. split; lra.
    - setoid_replace (si - D) with (si + - D) by ring. eapply Qle_trans; [apply Qabs_triangle|]. rewrite Qabs_opp, (Qabs_pos D) by lra. lra. }
  assert (I3 : Qabs (z * (2 * r - 1) * si) <= z * (2 * r - 1) * Qabs si).
  { rewrite Qabs_Qmult, (Qabs_pos (z * (2 * r - 1))) by (apply qmul_pos; lra). lra. }
  assert (I4 : Qabs si <= 1100000000 * D) by (apply Qabs_Qle_condition; unfold si; split; lra).
  assert (I5 : w <= 3 * (z * r)) by (destruct AW; lra). assert (I6 : w * u <= 3 * (z * r) * (1 # 1000000000000000000)) by (apply qmul_le; lra).
  assert (I7 : z * r <= z * 25000) by (apply qmul_le; lra). assert (I8 : z * 1 <= z * D) by (apply qmul_le; lra).
  assert (I9 : z * 1 * Qabs si <= z * r * Qabs si) by (apply Qmult_le_compat_r; [apply qmul_le; lra|exact Si]).
  assert (I10 : 0 <= z * Qabs si) by (apply qmul_pos; lra).
  apply Qabs_Qle_condition in I1, I2, I3. destruct I1 as (I1a & I1b), I2 as (I2a & I2b), I3 as (I3a & I3b).
  assert (J : s == si + D) by (unfold si; ring).
  assert (us : u * s <= (1 # 1000000000000000000) * (1100000001 * D)) by (apply qmul_le; lra).
  assert (uD : u * (Qabs si + D) <= (1 # 1000000000000000000) * (1100000001 * D)) by (apply qmul_le; lra).
  assert (I3c : z * (2 * r - 1) * Qabs si == 2 * (z * r * Qabs si) - z * Qabs si) by ring.
  rewrite I3c in *. clear I3c.
  assert (HD : D / 2 == (1 # 2) * D) by field. rewrite HD.
  rewrite J in T3u, T3l, La4, Ua4, us. apply Qabs_Qle_condition.
  assert (G1' : (w - 2 * (z * r)) * si == w * si - 2 * (z * r * si)) by ring. rewrite G1' in *.
  assert (G2' : (val k - z) * (si - D) == val k * si - val k * D - z * si + z * D) by ring. rewrite G2' in *.
  assert (G3' : z * (2 * r - 1) * si == 2 * (z * r * si) - z * si) by ring. rewrite G3' in *.
  clear G1' G2' G3'. clearbody q n pp w z r. clear An Akp Aa Ag2 Agk.
  split; lra.
Qed.
End Point.
