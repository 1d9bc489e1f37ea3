(** Concentrated pair: from a small value of the curve function to a small distance from the exact solution. *)
From Coq Require Import ZArith QArith Qabs Lia Lqa Bool.
From Verif Require Import Num PclMath PclCurveSpec PclApprox.
Open Scope Q_scope.

Section Slope.
Context (A g x y D : Q).
Context (A0 : 0 < A) (g0 : 0 < g) (x0 : 0 < x) (y0 : 0 < y) (D0 : 0 < D).
Local Notation k := (K A g x y D).
Local Notation t := (K0 x y D).
Local Notation c := (g + 1 - t).
Local Notation r := ((g + 1 + t) / c).
Local Notation s := (x + y - D).
Local Notation M := (k * (2 * r - 1) * Qabs s + k * D + D / 2).
Context (C0 : (9 # 10) * g <= c) (g2 : g <= 1 # 50).

Lemma t_pos : 0 < t.
Proof. unfold K0. apply Qlt_shift_div_l; [nra|]. assert (0 < x * y) by nra. lra. Qed.
Lemma c_pos : 0 < c.
Proof. lra. Qed.
Lemma k_pos : 0 < k.
Proof.
  unfold K. pose proof t_pos. pose proof c_pos. apply Qlt_shift_div_l; [apply Qmult_lt_0_compat; assumption|].
  rewrite Qmult_0_l. apply Qmult_lt_0_compat; [|assumption]. apply Qmult_lt_0_compat; [assumption|apply Qmult_lt_0_compat; assumption].
Qed.
Lemma r_one : 1 <= r.
Proof. pose proof t_pos. apply Qle_shift_div_l; lra. Qed.
Lemma r_le : r * g <= 23 # 10.
Proof.
  pose proof c_pos. pose proof t_pos. assert (Q : r * g == (g + 1 + t) * g / c) by (field; lra). rewrite Q.
  apply Qle_shift_div_r; [assumption|].
  assert ((23 # 10) * ((9 # 10) * g) <= (23 # 10) * c) by (apply qmul_le; lra).
  assert ((g + 1 + t) * g <= (206 # 100) * g) by (apply Qmult_le_compat_r; lra). lra.
Qed.
(** [K] at two points: the exact difference. *)
Lemma K_diff e : 0 < e -> 0 < g + 1 - K0 x y e ->
  K A g x y e * (c * c) * ((g + 1 - K0 x y e) * (g + 1 - K0 x y e)) - k * (c * c) * ((g + 1 - K0 x y e) * (g + 1 - K0 x y e)) ==
  A * (g * g) * (K0 x y e - t) * ((g + 1) * (g + 1) - K0 x y e * t).
Proof. intros E P. pose proof c_pos. unfold K. field. split; lra. Qed.
Lemma K0_shift e : 0 < e -> K0 x y e * (e * e) == t * (D * D).
Proof. intros E. unfold K0. field. split; lra. Qed.

(** To the right. *)
Lemma slope_up h : 0 < h -> h <= (21 # 1000) * g * D -> h <= s -> F A g x y (D + h) <= F A g x y D - (7 # 10) * h * M.
Proof.
  intros H0 H1 H2. pose proof t_pos as T. pose proof c_pos as C. pose proof k_pos as Kp. pose proof r_one as R1. pose proof r_le as R2.
  set (p := D + h). assert (P0 : 0 < p) by (unfold p; lra). set (b := K0 x y p).
  assert (Hs : h <= (42 # 100000) * D). { assert (g * D <= (1 # 50) * D) by (apply Qmult_le_compat_r; lra). lra. }
  assert (Eb : b * (p * p) == t * (D * D)) by (apply K0_shift; exact P0).
  assert (B0 : 0 < b). { unfold b, K0. apply Qlt_shift_div_l; [nra|]. assert (0 < x * y) by nra. lra. }
  assert (pp : 0 < p * p) by nra. assert (DDp : 0 < D * D) by nra.
  assert (Bt : b < t).
  { apply Qnot_le_lt. intros L. assert (t * (p * p) <= b * (p * p)) by (apply Qmult_le_compat_r; lra).
    assert (D * D < p * p) by (unfold p; nra). assert (t * (D * D) < t * (p * p)) by (apply Qmult_lt_l; assumption). lra. }
  (* relative fall of K0 *)
  assert (Td : (t - b) * D <= t * (2 * h)).
  { apply Qnot_lt_le. intros L.
    assert (L1 : t * (2 * h) * (p * p) < (t - b) * D * (p * p)) by (apply Qmult_lt_r; assumption).
    assert (L2 : (t - b) * D * (p * p) == t * (D * (h * (2 * D + h)))).
    { setoid_replace ((t - b) * D * (p * p)) with (D * (t * (p * p) - b * (p * p))) by ring. rewrite Eb. unfold p. ring. }
    rewrite L2 in L1. assert (L3 : D * (h * (2 * D + h)) <= 2 * h * (p * p)).
    { assert (0 <= h * (h * h)) by nra. assert (0 <= D * (h * h)) by nra. unfold p. lra. }
    assert (L4 : t * (D * (h * (2 * D + h))) <= t * (2 * h * (p * p))) by (rewrite !(Qmult_comm t); apply Qmult_le_compat_r; lra). lra. }
  assert (Eta : t - b <= (49 # 1000) * c).
  { apply Qnot_lt_le. intros L. assert ((49 # 1000) * c * D < (t - b) * D) by (apply Qmult_lt_r; assumption).
    assert (t * (2 * h) <= (102 # 100) * (2 * h)) by (apply Qmult_le_compat_r; lra).
    assert ((49 # 1000) * ((9 # 10) * g) * D <= (49 # 1000) * c * D) by (apply Qmult_le_compat_r; lra).
    assert (0 < g * D) by nra. lra. }
  set (cb := g + 1 - b). assert (CB : cb == c + (t - b)) by (unfold cb; ring).
  assert (CBp : 0 < cb) by lra.
  (* difference of K *)
  pose proof (K_diff p P0 CBp) as KD. fold b in KD. fold cb in KD. set (kp := K A g x y p) in *.
  assert (Ek : k * (c * c) == A * (g * g) * t) by (unfold K; field; lra).
  assert (KD2 : (k - kp) * (c * c) * (cb * cb) * t == k * (c * c) * (t - b) * ((g + 1) * (g + 1) - b * t)).
  { setoid_replace ((k - kp) * (c * c) * (cb * cb) * t) with (- ((kp * (c * c) * (cb * cb) - k * (c * c) * (cb * cb)) * t)) by ring.
    rewrite KD, Ek. ring. }
  assert (KD3 : (k - kp) * (cb * cb) * t == k * (t - b) * ((g + 1) * (g + 1) - b * t)).
  { apply (Qmult_inj_r _ _ (c * c)); [nra|].
    setoid_replace ((k - kp) * (cb * cb) * t * (c * c)) with ((k - kp) * (c * c) * (cb * cb) * t) by ring.
    setoid_replace (k * (t - b) * ((g + 1) * (g + 1) - b * t) * (c * c)) with (k * (c * c) * (t - b) * ((g + 1) * (g + 1) - b * t)) by ring.
    exact KD2. }
  assert (kd0 : 0 <= k * (t - b)) by (apply qmul_pos; lra).
  assert (cc : 0 < c * c) by (apply Qmult_lt_0_compat; assumption).
  assert (Gain : (k - kp) * t * ((49 # 1000) + 1) * ((49 # 1000) + 1) >= k * (t - b) * r).
  { assert (W1 : (k - kp) * t * (cb * cb) >= k * (t - b) * (c * (g + 1 + t))).
    { setoid_replace ((k - kp) * t * (cb * cb)) with ((k - kp) * (cb * cb) * t) by ring. rewrite KD3.
      rewrite !(Qmult_comm (k * (t - b))). apply Qmult_le_compat_r; [|exact kd0].
      assert (0 <= t * (t - b)) by (apply qmul_pos; lra). lra. }
    assert (W2 : cb * cb <= ((49 # 1000) + 1) * c * (((49 # 1000) + 1) * c)) by (apply qmul_le; lra).
    assert (W3 : 0 <= (k - kp) * t).
    { apply Qnot_lt_le. intros L. assert ((k - kp) * t * (cb * cb) < 0 * (cb * cb)) by (apply Qmult_lt_r; [apply Qmult_lt_0_compat; assumption|exact L]).
      assert (0 <= k * (t - b) * (c * (g + 1 + t))) by (apply qmul_pos; [exact kd0|apply qmul_pos; lra]). lra. }
    assert (W4 : (k - kp) * t * (cb * cb) <= (k - kp) * t * (((49 # 1000) + 1) * c * (((49 # 1000) + 1) * c))).
    { rewrite !(Qmult_comm ((k - kp) * t)). apply Qmult_le_compat_r; assumption. }
    apply Qnot_lt_le. intros L.
    assert (W5 : (k - kp) * t * ((49 # 1000) + 1) * ((49 # 1000) + 1) * (c * c) < k * (t - b) * r * (c * c)) by (apply Qmult_lt_r; assumption).
    assert (W6 : k * (t - b) * r * (c * c) == k * (t - b) * (c * (g + 1 + t))) by (field; lra). lra. }
  (* against the step *)
  assert (Step : (t - b) * p >= t * ((199 # 100) * h)).
  { apply Qnot_lt_le. intros L.
    assert (L1 : (t - b) * p * p < t * ((199 # 100) * h) * p) by (apply Qmult_lt_r; assumption).
    assert (L2 : (t - b) * p * p == t * (h * (2 * D + h))).
    { setoid_replace ((t - b) * p * p) with (t * (p * p) - b * (p * p)) by ring. rewrite Eb. unfold p. ring. }
    rewrite L2 in L1. assert (L3 : (199 # 100) * h * p <= h * (2 * D + h)).
    { setoid_replace ((199 # 100) * h * p) with (h * ((199 # 100) * p)) by ring. rewrite !(Qmult_comm h). apply Qmult_le_compat_r; [unfold p; lra|lra]. }
    assert (L4 : t * ((199 # 100) * h * p) <= t * (h * (2 * D + h))) by (rewrite !(Qmult_comm t); apply Qmult_le_compat_r; lra). lra. }
  assert (Main : (k - kp) * p >= (18 # 10) * (k * r * h)).
  { apply Qnot_lt_le. intros L.
    assert (L1 : (k - kp) * p * (t * ((49 # 1000) + 1) * ((49 # 1000) + 1)) < (18 # 10) * (k * r * h) * (t * ((49 # 1000) + 1) * ((49 # 1000) + 1)))
      by (apply Qmult_lt_r; [lra|exact L]).
    assert (L2 : k * (t - b) * r * p <= (k - kp) * t * ((49 # 1000) + 1) * ((49 # 1000) + 1) * p) by (apply Qmult_le_compat_r; [exact Gain|lra]).
    assert (L3 : k * r * (t * ((199 # 100) * h)) <= k * r * ((t - b) * p)).
    { rewrite !(Qmult_comm (k * r)). apply Qmult_le_compat_r; [exact Step|apply qmul_pos; lra]. }
    assert (0 < k * r * h * t). { apply Qmult_lt_0_compat; [|exact T]. apply Qmult_lt_0_compat; [|exact H0]. apply Qmult_lt_0_compat; lra. }
    lra. }
  (* collect *)
  assert (Abs : Qabs s == s) by (apply Qabs_pos; lra). rewrite Abs.
  assert (kr : 0 <= k * r) by (apply qmul_pos; lra).
  assert (RH : r * h <= (5 # 100) * D).
  { assert (r * h <= r * ((21 # 1000) * g * D)) by (rewrite !(Qmult_comm r); apply Qmult_le_compat_r; lra).
    assert (r * g * D <= (23 # 10) * D) by (apply Qmult_le_compat_r; lra). lra. }
  unfold F. fold kp. fold p.
  set (w := s) in *. assert (Ew : x + y == w + D) by (unfold w; ring). rewrite Ew.
  setoid_replace (w + D - p) with (w - h) by (unfold p; ring).
  assert (X1 : (k - kp) * p * (w - h) >= (18 # 10) * (k * r * h) * (w - h)) by (apply Qmult_le_compat_r; lra).
  assert (X2 : k * h * (r * h) <= k * h * ((5 # 100) * D)) by (rewrite !(Qmult_comm (k * h)); apply Qmult_le_compat_r; [exact RH|apply qmul_pos; lra]).
  assert (X3 : k * h * w * 1 <= k * h * w * r).
  { rewrite !(Qmult_comm (k * h * w)). apply Qmult_le_compat_r; [exact R1|]. apply qmul_pos; [apply qmul_pos; lra|lra]. }
  assert (X4 : 0 <= k * h * D) by (apply qmul_pos; [apply qmul_pos; lra|lra]). assert (X5 : 0 <= h * D) by (apply qmul_pos; lra).
  assert (X6 : 0 <= h * h) by (apply qmul_pos; lra). assert (X7 : 0 <= k * h * h) by (apply qmul_pos; [apply qmul_pos; lra|lra]).
  assert (Hq : forall z, z / 4 == (1 # 4) * z) by (intros; field). assert (Hq2 : D / 2 == (1 # 2) * D) by field. rewrite !Hq, Hq2.
  assert (Ep : p == D + h) by reflexivity.
  assert (E1 : kp * p * (w - h) == k * p * (w - h) - (k - kp) * p * (w - h)) by ring.
  rewrite E1. assert (E2 : k * p * (w - h) == k * D * w + k * h * w - k * h * D - k * h * h) by (unfold p; ring). rewrite E2.
  assert (E3 : p * p == D * D + 2 * (h * D) + h * h) by (unfold p; ring). rewrite E3.
  assert (X8 : 0 <= k * h * w) by (apply qmul_pos; [apply qmul_pos; lra|lra]).
  clear - X1 X2 X3 X4 X5 X6 X7 X8. revert X1 X2 X3 X4 X7 X8. generalize r as rv, k as kv. intros rv kv X1 X2 X3 X4 X7 X8. clearbody w kp p.
  set (q := (kv - kp) * p * (w - h)) in *. clearbody q. lra.
Qed.

(** To the left. *)
Lemma slope_down h : 0 < h -> h <= (1 # 100) * D -> - (h / 2) <= s -> K0 x y (D - h) <= 1 ->
  F A g x y D + (7 # 10) * h * M <= F A g x y (D - h).
Proof.
  intros H0 H1 H2 Hp. pose proof t_pos as T. pose proof c_pos as C. pose proof k_pos as Kp. pose proof r_one as R1.
  set (p := D - h) in *. assert (P0 : 0 < p) by (unfold p; lra). set (b := K0 x y p) in *.
  assert (Eb : b * (p * p) == t * (D * D)) by (apply K0_shift; exact P0).
  assert (B0 : 0 < b). { unfold b, K0. apply Qlt_shift_div_l; [nra|]. assert (0 < x * y) by nra. lra. }
  assert (pp : 0 < p * p) by nra. assert (DDp : 0 < D * D) by nra.
  assert (Bt : t < b).
  { apply Qnot_le_lt. intros L. assert (b * (p * p) <= t * (p * p)) by (apply Qmult_le_compat_r; lra).
    assert (p * p < D * D) by (unfold p; nra). assert (t * (p * p) < t * (D * D)) by (apply Qmult_lt_l; assumption). lra. }
  set (cb := g + 1 - b). assert (CB : cb == c - (b - t)) by (unfold cb; ring). assert (CBp : 0 < cb) by (unfold cb; lra).
  pose proof (K_diff p P0 CBp) as KD. fold b in KD. fold cb in KD. set (kp := K A g x y p) in *.
  assert (Ek : k * (c * c) == A * (g * g) * t) by (unfold K; field; lra).
  assert (KD2 : (kp - k) * (c * c) * (cb * cb) * t == k * (c * c) * (b - t) * ((g + 1) * (g + 1) - b * t)).
  { setoid_replace ((kp - k) * (c * c) * (cb * cb) * t) with ((kp * (c * c) * (cb * cb) - k * (c * c) * (cb * cb)) * t) by ring.
    rewrite KD, Ek. ring. }
  assert (cc : 0 < c * c) by (apply Qmult_lt_0_compat; assumption).
  assert (KD3 : (kp - k) * (cb * cb) * t == k * (b - t) * ((g + 1) * (g + 1) - b * t)).
  { apply (Qmult_inj_r _ _ (c * c)); [lra|].
    setoid_replace ((kp - k) * (cb * cb) * t * (c * c)) with ((kp - k) * (c * c) * (cb * cb) * t) by ring.
    setoid_replace (k * (b - t) * ((g + 1) * (g + 1) - b * t) * (c * c)) with (k * (c * c) * (b - t) * ((g + 1) * (g + 1) - b * t)) by ring.
    exact KD2. }
  assert (kd0 : 0 <= k * (b - t)) by (apply qmul_pos; lra).
  assert (cbcb : 0 < cb * cb) by (apply Qmult_lt_0_compat; assumption).
  assert (Gain : (kp - k) * t >= k * (b - t) * r).
  { assert (W1 : ((g + 1) * (g + 1) - b * t) * c >= cb * cb * (g + 1 + t)).
    { set (e := b - t) in *. assert (E0 : 0 < e) by (unfold e; lra). assert (Ebe : b == t + e) by (unfold e; ring). rewrite CB, Ebe.
      set (m := c) in *. assert (Et : t == g + 1 - m) by (unfold m; ring).
      assert (Em : cb == m - e) by (rewrite CB; reflexivity).
      assert (Z1 : ((g + 1) * (g + 1) - (t + e) * t) * m - (m - e) * (m - e) * (g + 1 + t) == e * (2 * m * (g + 1 + t) - m * t - e * (g + 1 + t))).
      { rewrite Et. ring. }
      assert (Z2 : 0 <= e * (2 * m * (g + 1 + t) - m * t - e * (g + 1 + t))).
      { apply qmul_pos; [lra|]. assert (0 <= (m - e) * (g + 1 + t)) by (apply qmul_pos; lra).
        assert (0 <= m * (g + 1)) by (apply qmul_pos; lra). lra. }
      lra. }
    apply Qnot_lt_le. intros L.
    assert (L1 : (kp - k) * t * (cb * cb * c) < k * (b - t) * r * (cb * cb * c)).
    { apply Qmult_lt_r; [apply Qmult_lt_0_compat; assumption|exact L]. }
    assert (L2 : (kp - k) * t * (cb * cb * c) == k * (b - t) * (((g + 1) * (g + 1) - b * t) * c)).
    { setoid_replace ((kp - k) * t * (cb * cb * c)) with ((kp - k) * (cb * cb) * t * c) by ring. rewrite KD3. ring. }
    assert (L3 : k * (b - t) * r * (cb * cb * c) == k * (b - t) * (cb * cb * (g + 1 + t))) by (field; lra).
    assert (L4 : k * (b - t) * (cb * cb * (g + 1 + t)) <= k * (b - t) * (((g + 1) * (g + 1) - b * t) * c)).
    { rewrite !(Qmult_comm (k * (b - t))). apply Qmult_le_compat_r; assumption. }
    lra. }
  assert (Step : (b - t) * p >= t * (2 * h)).
  { apply Qnot_lt_le. intros L.
    assert (L1 : (b - t) * p * p < t * (2 * h) * p) by (apply Qmult_lt_r; assumption).
    assert (L2 : (b - t) * p * p == t * (h * (2 * D - h))).
    { setoid_replace ((b - t) * p * p) with (b * (p * p) - t * (p * p)) by ring. rewrite Eb. unfold p. ring. }
    rewrite L2 in L1. assert (L3 : 2 * h * p <= h * (2 * D - h)).
    { assert (0 <= h * h) by (apply qmul_pos; lra). unfold p. lra. }
    assert (L4 : t * (2 * h * p) <= t * (h * (2 * D - h))) by (rewrite !(Qmult_comm t); apply Qmult_le_compat_r; lra). lra. }
  assert (Main : (kp - k) * p >= 2 * (k * r * h)).
  { apply Qnot_lt_le. intros L.
    assert (L1 : (kp - k) * p * t < 2 * (k * r * h) * t) by (apply Qmult_lt_r; assumption).
    assert (L2 : k * (b - t) * r * p <= (kp - k) * t * p) by (apply Qmult_le_compat_r; [exact Gain|lra]).
    assert (L3 : k * r * (t * (2 * h)) <= k * r * ((b - t) * p)).
    { rewrite !(Qmult_comm (k * r)). apply Qmult_le_compat_r; [exact Step|apply qmul_pos; lra]. }
    lra. }
  assert (Hq : forall z, z / 4 == (1 # 4) * z) by (intros; field). assert (Hq2 : forall z, z / 2 == (1 # 2) * z) by (intros; field).
  rewrite Hq2 in H2. unfold F. fold kp. fold p. set (w := s) in *.
  assert (Ew : x + y == w + D) by (unfold w; ring). setoid_replace (x + y - p) with (w + h) by (unfold p, w; ring).
  assert (Abs : Qabs w <= w + h) by (apply Qabs_Qle_condition; split; lra).
  assert (Ab0 : 0 <= Qabs w) by apply Qabs_nonneg.
  assert (X1 : (kp - k) * p * (w + h) >= 2 * (k * r * h) * (w + h)) by (apply Qmult_le_compat_r; lra).
  assert (X2 : k * (2 * r - 1) * h * Qabs w <= k * (2 * r - 1) * h * (w + h)).
  { rewrite !(Qmult_comm (k * (2 * r - 1) * h)). apply Qmult_le_compat_r; [exact Abs|]. apply qmul_pos; [apply qmul_pos; lra|lra]. }
  assert (X3 : 0 <= k * (2 * r - 1) * h * Qabs w) by (apply qmul_pos; [apply qmul_pos; [apply qmul_pos; lra|lra]|exact Ab0]).
  assert (X4 : 0 <= k * h * D) by (apply qmul_pos; [apply qmul_pos; lra|lra]). assert (X5 : 0 <= h * D) by (apply qmul_pos; lra).
  assert (X6 : h * h <= (1 # 100) * (h * D)). { assert (h * h <= h * ((1 # 100) * D)) by (apply qmul_le; lra). lra. }
  rewrite !Hq, Hq2.
  assert (E1 : kp * p * (w + h) == k * p * (w + h) + (kp - k) * p * (w + h)) by ring.
  rewrite E1. assert (E2 : k * p * (w + h) == k * D * w - k * h * w + k * h * D - k * h * h) by (unfold p; ring). rewrite E2.
  assert (E3 : p * p == D * D - 2 * (h * D) + h * h) by (unfold p; ring). rewrite E3.
  clear - X1 X2 X3 X4 X5 X6. revert X1 X2 X3 X4. generalize r as rv, k as kv. intros rv kv X1 X2 X3 X4. 
  set (a := Qabs w) in *. clearbody w kp p a.
  set (q := (kp - kv) * p * (w + h)) in *. clearbody q. lra.
Qed.
End Slope.

(** The last iterate of the solver. *)
Lemma newton_last n dp x y a g D : newton_d_from n dp x y a g = Some D ->
  exists d v dv q, f d x y a g = Some v /\ df_dd d x y a g = Some dv /\ sdiv v dv = Some q /\ D = (d - q)%Z /\
    (Z.abs q <= TOL)%Z /\ (0 <= D)%Z.
Proof.
  revert dp. induction n as [|n IH]; intros dp H; [discriminate H|]. cbn [newton_d_from] in H.
  unbind H as v Ev. unbind H as dv Edv. unbind H as q Eq. unbind H as d' Ed. unbind H as df Edf.
  destruct (df <=? TOL)%Z eqn:T; [|exact (IH _ H)]. unguard H G0. injection H as <-. bools.
  apply ssubt_val in Ed. apply u256_Some in Edf as (-> & _). exists dp, v, dv, q. subst d'.
  repeat split; try assumption. replace (Z.abs q) with (Z.abs (dp - q - dp)) by lia. exact T.
Qed.
Lemma sdiv_abs v dv q : sdiv v dv = Some q -> (Z.abs v * DEC <= (Z.abs q + 1) * Z.abs dv)%Z.
Proof.
  unfold sdiv. destruct (dv =? 0)%Z eqn:Z; [discriminate|]. intros H. apply sfit_Some in H. bools.
  pose proof (Z.quot_rem' (v * DEC) dv) as E. rewrite <- H in E.
  pose proof (Z.rem_bound_abs (v * DEC) dv Z). unfold DEC in *.
  assert (Z.abs (v * 1000000000000000000) = Z.abs v * 1000000000000000000)%Z by (rewrite Z.abs_mul; reflexivity).
  rewrite <- H1, E. pose proof (Z.abs_triangle (dv * q) (Z.rem (v * 1000000000000000000) dv)). rewrite Z.abs_mul in H2. nia.
Qed.
Lemma val_abs v : Qabs (val v) == val (Z.abs v).
Proof. unfold val, Qabs. reflexivity. Qed.
Lemma sdiv_abs_val v dv q : sdiv v dv = Some q -> (Z.abs q <= TOL)%Z -> Qabs (val v) <= (10001 # 1000000000) * Qabs (val dv).
Proof.
  intros H T. apply sdiv_abs in H. rewrite !val_abs. assert (L : (Z.abs v * DEC <= (TOL + 1) * Z.abs dv)%Z) by nia.
  unfold val, Qle, Qmult. cbn [Qnum Qden]. unfold DEC, TOL in L. lia.
Qed.

Section Close.
Context (x y a g R : Z).
Context (Hx : (0 < x)%Z) (Hy : (0 < y)%Z) (Ha : (0 <= a)%Z) (Hg : (0 <= g)%Z).
Local Notation X := (val x).
Local Notation Y := (val y).
Local Notation A := (val a).
Local Notation G := (val g).
Context (XY : 1 <= X * Y) (A1 : (1 # 10) <= A) (A2 : A <= 100000) (G1 : (1 # 10000) <= G) (G2 : G <= 1 # 50)
  (GR : (1 # 1000) <= G * val R) (SR : X + Y <= 1000000000 * val R)
  (LR : 4 * (X * Y) <= val R * val R * (1 + (1 # 100000000))) (UR : val R <= (X + Y) * (1 + (1 # 1000000000))).

Lemma newton_close q : newton_d x y a g = Some R ->
  (below A G X Y q -> q <= val R + ((4 # 100000) + (1 # 100000000) * val R)) /\
  (above A G X Y q -> val R - ((4 # 100000) + (1 # 100000000) * val R) <= q).
Proof.
  intros H. unfold newton_d in H. unbind H as m0 Em. unbind H as dp Ed.
  apply newton_last in H as (d & v & dv & qq & Ef & Edf & Eq & -> & Tq & R0).
  set (R := (d - qq)%Z) in *.
  assert (VR : val R == val d - val qq) by (unfold R; apply val_sub).
  assert (Vq : Qabs (val qq) <= 1 # 100000).
  { rewrite val_abs. pose proof (proj1 (val_le _ _) Tq) as Tv. assert (ET : val TOL == 1 # 100000) by reflexivity. rewrite ET in Tv. exact Tv. }
  apply Qabs_Qle_condition in Vq as (Vq1 & Vq2).
  pose proof (proj1 (val_pos x) Hx) as VX. pose proof (proj1 (val_pos y) Hy) as VY.
  pose proof (proj1 (val_nonneg R) R0) as VR0.
  (* the reported value is not small *)
  assert (R1 : (199 # 100) <= val R).
  { apply Qnot_lt_le. intros L. assert (val R * val R <= (199 # 100) * (199 # 100)) by (apply qmul_le; lra). lra. }
  assert (GR1 : (1 # 100000) <= G * (1 # 10)) by lra.
  assert (D1 : 1 <= val d) by lra.
  assert (Hd : (0 <= d)%Z) by (apply val_nonneg; lra).
  assert (GD : (99 # 100000) <= G * val d).
  { assert (G * (val R - (1 # 100000)) <= G * val d) by (apply qmul_le; lra).
    assert (G * (1 # 100000) <= (1 # 50) * (1 # 100000)) by (apply Qmult_le_compat_r; lra). lra. }
  assert (DD : 0 < val d * val d) by (apply Qmult_lt_0_compat; lra).
  assert (K1 : K0 X Y (val d) <= 1 + (1 # 10) * G).
  { unfold K0. apply Qle_shift_div_r; [exact DD|].
    assert (E1 : val R * val R <= (val d + (1 # 100000)) * (val d + (1 # 100000))) by (apply qmul_le; lra).
    assert (E2 : G * val d * 1 <= G * val d * val d) by (apply qmul_le; lra).
    assert (E3 : (99 # 100000) * val d <= G * val d * val d) by (apply Qmult_le_compat_r; lra).
    assert (E4 : (1 # 10000) * (val d * val d) <= G * (val d * val d)) by (apply Qmult_le_compat_r; lra). lra. }
  assert (C1 : (9 # 10) * G <= G + 1 - K0 X Y (val d)) by lra.
  assert (SB : X + Y <= 1100000000 * val d) by lra.
  assert (Hx' : (0 <= x)%Z) by lia. assert (Hy' : (0 <= y)%Z) by lia.
  pose proof (pt_f d x y a g Hd Hx' Hy' Ha Hg D1 XY A1 G1 G2 GD C1 v Ef) as Bf.
  pose proof (pt_df d x y a g Hd Hx' Hy' Ha Hg D1 XY A1 G1 G2 GD C1 A2 SB dv Edf) as Bdf.
  pose proof (sdiv_abs_val v dv qq Eq Tq) as Bq.
  assert (A0 : 0 < A) by lra. assert (g0 : 0 < G) by lra. assert (D0 : 0 < val d) by lra.
  pose proof (k_pos A G X Y (val d) A0 g0 VX VY D0 C1) as Kp.
  pose proof (r_one G X Y (val d) g0 VX VY D0 C1) as R1'.
  set (kk := K A G X Y (val d)) in *. set (tt := K0 X Y (val d)) in *. set (rr := (G + 1 + tt) / (G + 1 - tt)) in *.
  set (sg := X + Y - val d) in *.
  set (M := kk * (2 * rr - 1) * Qabs sg + kk * val d + val d / 2) in *.
  set (h := (2 # 100000) + (1 # 100000000) * val d).
  assert (Sg0 : 0 <= Qabs sg) by apply Qabs_nonneg.
  assert (Mk : kk * 1 * Qabs sg <= kk * (2 * rr - 1) * Qabs sg) by (apply Qmult_le_compat_r; [apply qmul_le; lra|exact Sg0]).
  assert (Mks : 0 <= kk * 1 * Qabs sg) by (apply qmul_pos; lra).
  assert (Hd2 : val d / 2 == (1 # 2) * val d) by field.
  assert (Mkd : kk * 1 <= kk * val d) by (apply qmul_le; lra).
  assert (M1 : kk * Qabs sg <= M) by (unfold M; rewrite Hd2; lra).
  assert (M2 : (1 # 2) * val d <= M) by (unfold M; rewrite Hd2; lra).
  assert (M3 : kk + (1 # 2) <= M) by (unfold M; rewrite Hd2; lra).
  assert (SgD : Qabs sg <= 1100000000 * val d) by (apply Qabs_Qle_condition; unfold sg; split; lra).
  (* the value of the curve function at the last iterate *)
  assert (FV : Qabs (F A G X Y (val d)) < (7 # 10) * h * M).
  { setoid_replace (F A G X Y (val d)) with (val v + - (val v - F A G X Y (val d))) by ring.
    eapply Qle_lt_trans; [apply Qabs_triangle|]. rewrite Qabs_opp.
    assert (B1 : Qabs (val v) <= (10001 # 1000000000) * ((101 # 100) * M)).
    { eapply Qle_trans; [exact Bq|]. rewrite !(Qmult_comm (10001 # 1000000000)). apply Qmult_le_compat_r; [exact Bdf|lra]. }
    assert (B2 : (2 # 1000000000) * kk * val d * Qabs sg <= (2 # 1000000000) * val d * M).
    { setoid_replace ((2 # 1000000000) * kk * val d * Qabs sg) with ((2 # 1000000000) * val d * (kk * Qabs sg)) by ring.
      apply qmul_le; lra. }
    assert (B3 : u * val d * Qabs sg <= (3 # 1000000000) * val d * M).
    { assert (u * val d * Qabs sg <= u * val d * (1100000000 * val d)) by (apply qmul_le; try lra; apply qmul_pos; [unfold u|]; lra).
      assert (u * 1100000000 * val d * val d <= (11 # 10000000000) * val d * (2 * M)) by (apply qmul_le; try lra; [apply qmul_pos; [unfold u|]; lra|unfold u; lra]).
      assert (0 <= val d * M) by (apply qmul_pos; lra). lra. }
    assert (B4 : u * (2 * kk + 3) <= (1 # 100000000) * M).
    { assert (u * (2 * kk + 3) <= (1 # 1000000000) * (6 * M)) by (apply qmul_le; try lra; unfold u; lra). lra. }
    assert (dM : 0 < val d * M) by (apply Qmult_lt_0_compat; lra).
    assert (hM : (7 # 10) * h * M == (14 # 1000000) * M + (7 # 1000000000) * (val d * M)) by (unfold h; ring). rewrite hM.
    assert (B5 : ((2 # 1000000000) * kk + u) * val d * Qabs sg == (2 # 1000000000) * kk * val d * Qabs sg + u * val d * Qabs sg) by ring.
    rewrite B5 in Bf. lra. }
  assert (FV1 : - ((7 # 10) * h * M) < F A G X Y (val d) /\ F A G X Y (val d) < (7 # 10) * h * M).
  { apply Qabs_Qlt_condition in FV. exact FV. }
  destruct FV1 as (FV1 & FV2).
  assert (h0 : 0 < h) by (unfold h; lra).
  assert (hg : h <= (21 # 1000) * G * val d).
  { assert ((1 # 10000) * val d <= G * val d) by (apply Qmult_le_compat_r; lra). unfold h. lra. }
  assert (hD : h <= (1 # 100) * val d).
  { assert (G * val d <= (1 # 50) * val d) by (apply Qmult_le_compat_r; lra). lra. }
  split.
  { intros ((Q0 & Q4 & QS) & QF). assert (Up : q <= val d + h); [|unfold h in *; lra]. apply Qnot_lt_le. intros L.
    assert (hs : h <= sg) by (unfold sg; lra).
    pose proof (slope_up A G X Y (val d) A0 g0 VX VY D0 C1 G2 h h0 hg hs) as SU. cbv zeta in SU. fold tt kk rr sg in SU. fold M in SU.
    assert (P4 : 4 * (X * Y) <= (val d + h) * (val d + h)).
    { assert (Lw : val R * (1 + (1 # 200000000)) <= val d + h) by (unfold h; lra).
      assert (val R * (1 + (1 # 200000000)) * (val R * (1 + (1 # 200000000))) <= (val d + h) * (val d + h)) by (apply qmul_le; lra).
      assert (0 <= val R * val R) by (apply qmul_pos; lra). lra. }
    pose proof (F_anti A G X Y (val d + h) q A0 g0 VX VY ltac:(lra) P4 L QS) as FA.
    assert (0 < q * q) by (apply Qmult_lt_0_compat; assumption).
    assert (0 <= F A G X Y q * ((val d + h) * (val d + h))) by (apply qmul_pos; [exact QF|apply qmul_pos; lra]).
    assert (F A G X Y (val d + h) * (q * q) < 0 * (q * q)) by (apply Qmult_lt_r; lra). lra. }
  { intros ((Q0 & Q4 & QS) & QF). assert (Dn : val d - h <= q); [|unfold h in *; lra]. apply Qnot_lt_le. intros L.
    assert (P0 : 0 < val d - h) by lra.
    assert (P4 : 4 * (X * Y) <= (val d - h) * (val d - h)).
    { assert (q * q <= (val d - h) * (val d - h)) by (apply qmul_le; lra). lra. }
    assert (PK : K0 X Y (val d - h) <= 1) by (unfold K0; apply Qle_shift_div_r; [apply Qmult_lt_0_compat; assumption|lra]).
    assert (h2 : h / 2 == (1 # 2) * h) by field.
    assert (hs : - (h / 2) <= sg).
    { rewrite h2. unfold sg, h. destruct (Qlt_le_dec (X + Y) (val d)); [|lra]. lra. }
    pose proof (slope_down A G X Y (val d) A0 g0 VX VY D0 C1 G2 h h0 hD hs PK) as SD. cbv zeta in SD. fold tt kk rr sg in SD. fold M in SD.
    assert (PS : val d - h <= X + Y) by (rewrite h2 in hs; unfold sg in hs; lra).
    pose proof (F_anti A G X Y q (val d - h) A0 g0 VX VY Q0 Q4 L PS) as FA.
    assert (0 < q * q) by (apply Qmult_lt_0_compat; assumption).
    assert (0 <= - F A G X Y q * ((val d - h) * (val d - h))) by (apply qmul_pos; [lra|apply qmul_pos; lra]).
    assert (0 * (q * q) < F A G X Y (val d - h) * (q * q)) by (apply Qmult_lt_r; lra). lra. }
Qed.
End Close.
