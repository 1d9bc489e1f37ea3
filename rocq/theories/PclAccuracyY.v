(** Concentrated pair: how far the reserve found by the solver is from the exact reserve on the curve. *)
From Coq Require Import ZArith QArith Qabs Lia Lqa Bool.
From Verif Require Import Num PclMath PclCurveSpec PclApprox PclAccuracy PclApproxY.
Open Scope Q_scope.

Lemma K0_lin x y z D : 0 < y -> 0 < D -> K0 x z D * y == K0 x y D * z.
Proof. intros Y P. unfold K0. field. lra. Qed.
(** The curve function increases in a reserve. *)
Lemma F_mono_y A g x D y z : 0 < A -> 0 < g -> 0 < x -> 0 < D -> 0 < y -> y < z -> 4 * (x * z) <= D * D -> D <= x + y ->
  F A g x y D < F A g x z D.
Proof.
  intros HA G X P Y L H S. assert (XYZ : x * y < x * z) by (apply Qmult_lt_l; assumption).
  assert (Hy : 4 * (x * y) <= D * D) by lra. assert (Z : 0 < z) by lra.
  destruct (K0_bounds x y D X Y P Hy) as (B & C). destruct (K0_bounds x z D X Z P H) as (B2 & C2).
  assert (T : K0 x y D <= K0 x z D).
  { unfold K0. assert (DD : 0 < D * D) by (apply Qmult_lt_0_compat; assumption). apply Qle_shift_div_r; [exact DD|].
    setoid_replace (4 * (x * z) / (D * D) * (D * D)) with (4 * (x * z)) by (field; lra). lra. }
  assert (KL : K A g x y D <= K A g x z D).
  { unfold K. apply frac_mono; try assumption. apply Qlt_le_weak. repeat apply Qmult_lt_0_compat; assumption. }
  pose proof (K_pos A g x y D HA G X Y P Hy) as KP. unfold F.
  set (k1 := K A g x y D) in *. set (k2 := K A g x z D) in *.
  assert (k1 * D * (x + y - D) <= k2 * D * (x + z - D)).
  { apply qmul_le; [apply qmul_pos; lra|apply Qmult_le_compat_r; lra|lra|lra]. }
  lra.
Qed.

Section SlopeY.
Context (A g x y D : Q).
Context (A0 : 0 < A) (g0 : 0 < g) (x0 : 0 < x) (y0 : 0 < y) (D0 : 0 < D).
Local Notation k := (K A g x y D).
Local Notation t := (K0 x y D).
Local Notation c := (g + 1 - t).
Local Notation r := ((g + 1 + t) / c).
Local Notation s := (x + y - D).
Local Notation M := (k * r / y * D * Qabs s + k * D + x).
Context (C0 : (9 # 10) * g <= c) (g2 : g <= 1 # 50).

Lemma K_diff_y z : 0 < g + 1 - K0 x z D ->
  (K A g x z D - k) * ((g + 1 - K0 x z D) * (g + 1 - K0 x z D)) * t == k * (K0 x z D - t) * ((g + 1) * (g + 1) - K0 x z D * t).
Proof.
  intros P. pose proof (c_pos g x y D g0 C0) as C. unfold K. set (b := K0 x z D) in *. set (w := K0 x y D) in *. field. split; lra.
Qed.

(** To the right. *)
Lemma slope_y_up h : 0 < h -> - (h / 2) <= s -> K0 x (y + h) D <= 1 ->
  F A g x y D + h * M <= F A g x (y + h) D.
Proof.
  intros H0 H2 Hp. pose proof (t_pos x y D x0 y0 D0) as T. pose proof (c_pos g x y D g0 C0) as C.
  pose proof (k_pos A g x y D A0 g0 x0 y0 D0 C0) as Kp. pose proof (r_one g x y D g0 x0 y0 D0 C0) as R1.
  set (p := y + h) in *. assert (P0 : 0 < p) by (unfold p; lra).
  pose proof (K0_lin x y p D y0 D0) as Eb. set (b := K0 x p D) in *.
  assert (Step : (b - t) * y == t * h).
  { setoid_replace ((b - t) * y) with (b * y - t * y) by ring. rewrite Eb. unfold p. ring. }
  assert (th : 0 < t * h) by (apply Qmult_lt_0_compat; assumption).
  assert (Bt : t < b).
  { apply Qnot_le_lt. intros L. assert (0 <= (t - b) * y) by (apply qmul_pos; lra). lra. }
  assert (B0 : 0 < b) by lra.
  set (cb := g + 1 - b). assert (CB : cb == c - (b - t)) by (unfold cb; ring). assert (CBp : 0 < cb) by (unfold cb; lra).
  pose proof (K_diff_y p CBp) as KD3. fold b in KD3. fold cb in KD3. set (kp := K A g x p D) in *.
  assert (kd0 : 0 <= k * (b - t)) by (apply qmul_pos; lra).
  assert (cbcb : 0 < cb * cb) by (apply Qmult_lt_0_compat; assumption).
  assert (Gain : (kp - k) * t >= k * (b - t) * r).
  { assert (W1 : ((g + 1) * (g + 1) - b * t) * c >= cb * cb * (g + 1 + t)).
    { set (e := b - t) in *. assert (E0 : 0 < e) by (unfold e; lra). assert (Ebe : b == t + e) by (unfold e; ring). rewrite CB, Ebe.
      set (m := c) in *. assert (Et : t == g + 1 - m) by (unfold m; ring).
      assert (Em : cb == m - e) by (rewrite CB; reflexivity).
      assert (Z1 : ((g + 1) * (g + 1) - (t + e) * t) * m - (m - e) * (m - e) * (g + 1 + t) == e * (2 * m * (g + 1 + t) - m * t - e * (g + 1 + t))).
      { rewrite Et. ring. }
      assert (Z2 : 0 <= e * (2 * m * (g + 1 + t) - m * t - e * (g + 1 + t))).
      { apply qmul_pos; [lra|]. assert (0 <= (m - e) * (g + 1 + t)) by (apply qmul_pos; lra).
        assert (0 <= m * (g + 1)) by (apply qmul_pos; lra). lra. }
      lra. }
    apply Qnot_lt_le. intros L.
    assert (L1 : (kp - k) * t * (cb * cb * c) < k * (b - t) * r * (cb * cb * c)).
    { apply Qmult_lt_r; [apply Qmult_lt_0_compat; assumption|exact L]. }
    assert (L2 : (kp - k) * t * (cb * cb * c) == k * (b - t) * (((g + 1) * (g + 1) - b * t) * c)).
    { setoid_replace ((kp - k) * t * (cb * cb * c)) with ((kp - k) * (cb * cb) * t * c) by ring. rewrite KD3. ring. }
    assert (L3 : k * (b - t) * r * (cb * cb * c) == k * (b - t) * (cb * cb * (g + 1 + t))) by (field; lra).
    assert (L4 : k * (b - t) * (cb * cb * (g + 1 + t)) <= k * (b - t) * (((g + 1) * (g + 1) - b * t) * c)).
    { rewrite !(Qmult_comm (k * (b - t))). apply Qmult_le_compat_r; assumption. }
    lra. }
  set (q := k * r / y). assert (QY : q * y == k * r) by (unfold q; field; lra).
  assert (Q0 : 0 <= q). { unfold q. apply Qle_shift_div_l; [lra|]. rewrite Qmult_0_l. apply qmul_pos; lra. }
  assert (Main : kp - k >= q * h).
  { apply Qnot_lt_le. intros L.
    assert (L1 : (kp - k) * (t * y) < q * h * (t * y)) by (apply Qmult_lt_r; [apply Qmult_lt_0_compat; assumption|exact L]).
    assert (L2 : k * (b - t) * r * y <= (kp - k) * t * y) by (apply Qmult_le_compat_r; [exact Gain|lra]).
    assert (L3 : k * (b - t) * r * y == k * r * (t * h)) by (rewrite <- Step; ring).
    assert (L4 : q * h * (t * y) == k * r * (t * h)) by (rewrite <- QY; ring). lra. }
  assert (Hq2 : forall z, z / 2 == (1 # 2) * z) by (intros; field). rewrite Hq2 in H2.
  unfold F. fold kp. fold q. setoid_replace (x + p - D) with (s + h) by (unfold p; ring). set (w := s) in *.
  assert (Abs : Qabs w <= w + h) by (apply Qabs_Qle_condition; split; lra).
  pose proof (Qabs_nonneg w) as Ab0.
  assert (X1 : (kp - k) * (D * (w + h)) >= q * h * (D * (w + h))) by (apply Qmult_le_compat_r; [exact Main|apply qmul_pos; lra]).
  assert (X2 : q * h * D * Qabs w <= q * h * D * (w + h)).
  { rewrite !(Qmult_comm (q * h * D)). apply Qmult_le_compat_r; [exact Abs|]. apply qmul_pos; [apply qmul_pos; lra|lra]. }
  assert (E1 : kp * D * (w + h) == k * D * w + k * D * h + (kp - k) * (D * (w + h))) by ring. rewrite E1.
  assert (E2 : x * p == x * y + x * h) by (unfold p; ring). rewrite E2.
  clear - X1 X2. revert X1 X2. generalize k as kv. intros kv X1 X2. set (a := Qabs w) in *. clearbody w kp p a q.
  set (qq := (kp - kv) * (D * (w + h))) in *. clearbody qq. lra.
Qed.

(** To the left. *)
Lemma slope_y_down h : 0 < h -> h <= (21 # 1000) * g * y -> h <= s ->
  F A g x (y - h) D <= F A g x y D - (7 # 10) * h * M.
Proof.
  intros H0 H1 H2. pose proof (t_pos x y D x0 y0 D0) as T. pose proof (c_pos g x y D g0 C0) as C.
  pose proof (k_pos A g x y D A0 g0 x0 y0 D0 C0) as Kp. pose proof (r_one g x y D g0 x0 y0 D0 C0) as R1.
  pose proof (r_le g x y D g0 x0 y0 D0 C0 g2) as R2.
  set (p := y - h) in *.
  assert (Hs : h <= (42 # 100000) * y). { assert (g * y <= (1 # 50) * y) by (apply Qmult_le_compat_r; lra). lra. }
  assert (P0 : 0 < p) by (unfold p; lra).
  pose proof (K0_lin x y p D y0 D0) as Eb. set (b := K0 x p D) in *.
  assert (Step : (t - b) * y == t * h).
  { setoid_replace ((t - b) * y) with (t * y - b * y) by ring. rewrite Eb. unfold p. ring. }
  assert (th : 0 < t * h) by (apply Qmult_lt_0_compat; assumption).
  assert (Bt : b < t).
  { apply Qnot_le_lt. intros L. assert (0 <= (b - t) * y) by (apply qmul_pos; lra). lra. }
  assert (B0 : 0 < b).
  { apply Qnot_le_lt. intros L. assert (0 < t * p) by (apply Qmult_lt_0_compat; assumption). assert (0 <= - b * y) by (apply qmul_pos; lra). lra. }
  assert (Eta : t - b <= (49 # 1000) * c).
  { apply Qnot_lt_le. intros L. assert ((49 # 1000) * c * y < (t - b) * y) by (apply Qmult_lt_r; assumption).
    assert (t * h <= (102 # 100) * h) by (apply Qmult_le_compat_r; lra).
    assert ((49 # 1000) * ((9 # 10) * g) * y <= (49 # 1000) * c * y) by (apply Qmult_le_compat_r; lra).
    assert (0 < g * y) by (apply Qmult_lt_0_compat; assumption). lra. }
  set (cb := g + 1 - b). assert (CB : cb == c + (t - b)) by (unfold cb; ring).
  assert (CBp : 0 < cb) by lra.
  pose proof (K_diff_y p CBp) as KD. fold b in KD. fold cb in KD. set (kp := K A g x p D) in *.
  assert (KD3 : (k - kp) * (cb * cb) * t == k * (t - b) * ((g + 1) * (g + 1) - b * t)).
  { setoid_replace ((k - kp) * (cb * cb) * t) with (- ((kp - k) * (cb * cb) * t)) by ring. rewrite KD. ring. }
  assert (kd0 : 0 <= k * (t - b)) by (apply qmul_pos; lra).
  assert (cc : 0 < c * c) by (apply Qmult_lt_0_compat; assumption).
  assert (Gain : (k - kp) * t * ((49 # 1000) + 1) * ((49 # 1000) + 1) >= k * (t - b) * r).
  { assert (W1 : (k - kp) * t * (cb * cb) >= k * (t - b) * (c * (g + 1 + t))).
    { setoid_replace ((k - kp) * t * (cb * cb)) with ((k - kp) * (cb * cb) * t) by ring. rewrite KD3.
      rewrite !(Qmult_comm (k * (t - b))). apply Qmult_le_compat_r; [|exact kd0].
      assert (0 <= t * (t - b)) by (apply qmul_pos; lra). lra. }
    assert (W2 : cb * cb <= ((49 # 1000) + 1) * c * (((49 # 1000) + 1) * c)) by (apply qmul_le; lra).
    assert (W3 : 0 <= (k - kp) * t).
    { apply Qnot_lt_le. intros L. assert ((k - kp) * t * (cb * cb) < 0 * (cb * cb)) by (apply Qmult_lt_r; [apply Qmult_lt_0_compat; assumption|exact L]).
      assert (0 <= k * (t - b) * (c * (g + 1 + t))) by (apply qmul_pos; [exact kd0|apply qmul_pos; lra]). lra. }
    assert (W4 : (k - kp) * t * (cb * cb) <= (k - kp) * t * (((49 # 1000) + 1) * c * (((49 # 1000) + 1) * c))).
    { rewrite !(Qmult_comm ((k - kp) * t)). apply Qmult_le_compat_r; assumption. }
    apply Qnot_lt_le. intros L.
    assert (W5 : (k - kp) * t * ((49 # 1000) + 1) * ((49 # 1000) + 1) * (c * c) < k * (t - b) * r * (c * c)) by (apply Qmult_lt_r; assumption).
    assert (W6 : k * (t - b) * r * (c * c) == k * (t - b) * (c * (g + 1 + t))) by (field; lra). lra. }
  set (q := k * r / y). assert (QY : q * y == k * r) by (unfold q; field; lra).
  assert (Q0 : 0 <= q). { unfold q. apply Qle_shift_div_l; [lra|]. rewrite Qmult_0_l. apply qmul_pos; lra. }
  assert (Main : k - kp >= (9 # 10) * (q * h)).
  { apply Qnot_lt_le. intros L.
    assert (L1 : (k - kp) * (t * y * ((49 # 1000) + 1) * ((49 # 1000) + 1)) < (9 # 10) * (q * h) * (t * y * ((49 # 1000) + 1) * ((49 # 1000) + 1))).
    { apply Qmult_lt_r; [|exact L]. assert (0 < t * y) by (apply Qmult_lt_0_compat; assumption). lra. }
    assert (L2 : k * (t - b) * r * y <= (k - kp) * t * ((49 # 1000) + 1) * ((49 # 1000) + 1) * y) by (apply Qmult_le_compat_r; [exact Gain|lra]).
    assert (L3 : k * (t - b) * r * y == k * r * (t * h)) by (rewrite <- Step; ring).
    assert (L4 : q * h * (t * y) == k * r * (t * h)) by (rewrite <- QY; ring).
    assert (0 <= k * r * (t * h)) by (apply qmul_pos; [apply qmul_pos; lra|lra]). lra. }
  assert (Abs : Qabs s == s) by (apply Qabs_pos; lra). rewrite Abs.
  assert (QH : q * h <= (5 # 100) * k).
  { assert (q * h <= q * ((21 # 1000) * g * y)) by (rewrite !(Qmult_comm q); apply Qmult_le_compat_r; lra).
    assert (q * ((21 # 1000) * g * y) == (21 # 1000) * (r * g) * k) by (setoid_replace (q * ((21 # 1000) * g * y)) with ((21 # 1000) * g * (q * y)) by ring; rewrite QY; ring).
    assert ((21 # 1000) * (r * g) * k <= (21 # 1000) * (23 # 10) * k) by (apply Qmult_le_compat_r; lra). lra. }
  unfold F. fold kp. fold q. setoid_replace (x + p - D) with (s - h) by (unfold p; ring). set (w := s) in *.
  assert (X1 : (k - kp) * (D * (w - h)) >= (9 # 10) * (q * h) * (D * (w - h))) by (apply Qmult_le_compat_r; [exact Main|apply qmul_pos; lra]).
  assert (X2 : q * h * (D * h) <= (5 # 100) * k * (D * h)) by (apply Qmult_le_compat_r; [exact QH|apply qmul_pos; lra]).
  assert (X3 : 0 <= q * h * (D * w)) by (apply qmul_pos; apply qmul_pos; lra).
  assert (X4 : 0 <= k * (D * h)) by (apply qmul_pos; [lra|apply qmul_pos; lra]). assert (X5 : 0 <= x * h) by (apply qmul_pos; lra).
  assert (E1 : kp * D * (w - h) == k * D * w - k * (D * h) - (k - kp) * (D * (w - h))) by ring. rewrite E1.
  assert (E2 : x * p == x * y - x * h) by (unfold p; ring). rewrite E2.
  clear - X1 X2 X3 X4 X5. revert X1 X2 X4. generalize k as kv. intros kv X1 X2 X4. clearbody w kp p q.
  set (qq := (kv - kp) * (D * (w - h))) in *. clearbody qq. lra.
Qed.
End SlopeY.

(** The last iterate of the solver. *)
Lemma newton_y_last n yp d x a g one R : newton_y_from n d yp x a g one = Some R ->
  exists y v dv q, f d x y a g = Some v /\ df_dx d x y x a g = Some dv /\ sdiv v dv = Some q /\ R = (y - q)%Z /\
    (Z.abs q <= TOL)%Z /\ (0 <= R)%Z.
Proof.
  revert yp. induction n as [|n IH]; intros yp H; [discriminate H|]. cbn [newton_y_from] in H. cbv zeta in H.
  unbind H as v Ev. unbind H as dv Edv. unbind H as q Eq. unbind H as d' Ed. unbind H as df Edf.
  destruct (df <=? TOL)%Z eqn:T; [|exact (IH _ H)]. unguard H G0. injection H as <-. bools.
  apply ssubt_val in Ed. apply u256_Some in Edf as (-> & _). exists yp, v, dv, q. subst d'.
  split; [destruct one; [exact Ev|rewrite f_sym; exact Ev]|]. split; [destruct one; [exact Edv|rewrite df_dx_sym; exact Edv]|].
  split; [exact Eq|]. split; [reflexivity|]. split; [|exact G0].
  replace (Z.abs q) with (Z.abs (yp - q - yp)) by lia. exact T.
Qed.

Section CloseY.
Context (d x a g R : Z).
Context (Hd : (0 <= d)%Z) (Hx : (0 <= x)%Z) (Ha : (0 <= a)%Z) (Hg : (0 <= g)%Z).
Local Notation D := (val d).
Local Notation X := (val x).
Local Notation A := (val a).
Local Notation G := (val g).
Context (D1 : 1 <= D) (X1 : 1 <= X) (R1 : (101 # 100) <= val R) (A1 : (1 # 10) <= A) (A2 : A <= 100000) (G1 : (1 # 10000) <= G) (G2 : G <= 1 # 50)
  (GD : (1 # 1000) <= G * D) (GR : (1 # 1000) <= G * val R) (SK : (X + val R) * (X + val R) <= 1000000000 * (X * val R))
  (LR : 4 * (X * val R) <= D * D * (1 + (1 # 1000000000))) (UR : D <= X + val R * (1 + (1 # 1000000000))).

Lemma newton_y_close z one : newton_y d x a g one = Some R -> 0 < z ->
  (above A G X z D -> z <= val R + ((4 # 100000) + (1 # 100000000) * val R)) /\
  (below A G X z D -> val R - ((4 # 100000) + (1 # 100000000) * val R) <= z).
Proof.
  intros H Z0. unfold newton_y in H. unbind H as d2 Em. unbind H as q4 Ed. unbind H as y0 Ey.
  apply newton_y_last in H as (y & v & dv & qq & Ef & Edf & Eq & -> & Tq & R0).
  set (R := (y - qq)%Z) in *.
  assert (VR : val R == val y - val qq) by (unfold R; apply val_sub).
  assert (Vq : Qabs (val qq) <= 1 # 100000).
  { rewrite val_abs. pose proof (proj1 (val_le _ _) Tq) as Tv. assert (ET : val TOL == 1 # 100000) by reflexivity. rewrite ET in Tv. exact Tv. }
  apply Qabs_Qle_condition in Vq as (Vq1 & Vq2). set (Y := val y) in *. set (W := val R) in *.
  assert (Y1 : 1 <= Y) by lra. assert (Hy : (0 <= y)%Z) by (apply val_nonneg; fold Y; lra).
  assert (XY : 1 <= X * Y) by (rewrite <- (Qmult_1_l 1) at 1; apply qmul_le; lra).
  assert (GDd : (99 # 100000) <= G * D) by lra.
  assert (GY : (99 # 100000) <= G * Y).
  { assert (G * (W - (1 # 100000)) <= G * Y) by (apply qmul_le; lra).
    assert (G * (1 # 100000) <= (1 # 50) * (1 # 100000)) by (apply Qmult_le_compat_r; lra). lra. }
  assert (DD : 0 < D * D) by (apply Qmult_lt_0_compat; lra).
  assert (XW : 0 <= X * W) by (apply qmul_pos; lra).
  assert (K1 : K0 X Y D <= 1 + (1 # 10) * G).
  { unfold K0. apply Qle_shift_div_r; [exact DD|].
    assert (E1 : X * Y <= X * (W + (1 # 100000))) by (apply qmul_le; lra).
    assert (E2 : X * (1 # 1000) <= X * (G * W)) by (apply qmul_le; lra).
    assert (E3 : G * (4 * (X * W)) <= G * (D * D * (1 + (1 # 1000000000)))) by (apply qmul_le; lra).
    assert (E4 : (1 # 10000) * (D * D) <= G * (D * D)) by (apply Qmult_le_compat_r; lra). lra. }
  assert (C1 : (9 # 10) * G <= G + 1 - K0 X Y D) by lra.
  assert (X9 : (9 # 10) <= X) by lra. assert (Y9 : (9 # 10) <= Y) by lra.
  (* skew *)
  assert (WX : W <= 1000000000 * X).
  { apply Qnot_lt_le. intros L. assert (1000000000 * X * W < W * W) by (apply Qmult_lt_r; lra). assert (0 <= X * X) by (apply qmul_pos; lra). lra. }
  assert (XWl : X <= 1000000000 * W).
  { apply Qnot_lt_le. intros L. assert (1000000000 * W * X < X * X) by (apply Qmult_lt_r; lra). assert (0 <= W * W) by (apply qmul_pos; lra). lra. }
  assert (DX : D <= 1000000000000 * X) by lra.
  pose proof (pt_f d x y a g Hd Hx Hy Ha Hg D1 XY A1 G1 G2 GDd C1 v Ef) as Bf.
  pose proof (pt_dx d x y a g Hd Hx Hy Ha Hg D1 X9 Y9 XY A1 A2 G1 G2 GDd C1 DX dv Edf) as Bdf.
  pose proof (sdiv_abs_val v dv qq Eq Tq) as Bq. fold Y in Bf, Bdf.
  assert (A0 : 0 < A) by lra. assert (g0 : 0 < G) by lra. assert (D0 : 0 < D) by lra. assert (x0 : 0 < X) by lra. assert (yy0 : 0 < Y) by lra.
  pose proof (k_pos A G X Y D A0 g0 x0 yy0 D0 C1) as Kp.
  pose proof (r_one G X Y D g0 x0 yy0 D0 C1) as R1'.
  set (kk := K A G X Y D) in *. set (tt := K0 X Y D) in *. set (rr := (G + 1 + tt) / (G + 1 - tt)) in *.
  set (sg := X + Y - D) in *.
  set (M := kk * rr / Y * D * Qabs sg + kk * D + X) in *.
  set (h := (2 # 100000) + (1 # 100000000) * Y).
  assert (Sg0 : 0 <= Qabs sg) by apply Qabs_nonneg.
  set (q := kk * rr / Y) in *. assert (QY : q * Y == kk * rr) by (unfold q; field; lra).
  assert (Qn : 0 <= q). { unfold q. apply Qle_shift_div_l; [lra|]. rewrite Qmult_0_l. apply qmul_pos; lra. }
  assert (Mq : 0 <= q * D * Qabs sg) by (apply qmul_pos; [apply qmul_pos; lra|exact Sg0]).
  assert (Mkd : kk * 1 <= kk * D) by (apply qmul_le; lra).
  assert (M1 : kk * D * Qabs sg <= Y * M).
  { assert (B1 : kk * (D * Qabs sg) <= kk * rr * (D * Qabs sg)).
    { apply Qmult_le_compat_r; [|apply qmul_pos; lra]. rewrite <- (Qmult_1_r kk) at 1. apply qmul_le; lra. }
    rewrite <- QY in B1. assert (B2 : Y * (q * D * Qabs sg) <= Y * M) by (rewrite !(Qmult_comm Y); apply Qmult_le_compat_r; unfold M; lra). lra. }
  assert (M2 : X <= M) by (unfold M; lra).
  assert (M3 : kk + 1 <= M) by (unfold M; lra).
  assert (XYM : X * Y <= Y * M) by (rewrite (Qmult_comm X Y), !(Qmult_comm Y); apply Qmult_le_compat_r; lra).
  (* the value of the curve function at the last iterate *)
  assert (DS : D * Qabs sg <= (11 # 10) * 1000000000 * (X * Y)).
  { assert (S1 : D <= (102 # 100) * (X + W)) by lra.
    assert (S2 : Qabs sg <= (102 # 100) * (X + W)) by (apply Qabs_Qle_condition; unfold sg; split; lra).
    assert (S3 : D * Qabs sg <= (102 # 100) * (X + W) * ((102 # 100) * (X + W))) by (apply qmul_le; lra).
    assert (S4 : X * W <= (101 # 100) * (X * Y)).
    { assert (X * W <= X * ((101 # 100) * Y)) by (apply qmul_le; lra). lra. }
    lra. }
  assert (FV : Qabs (F A G X Y D) < (7 # 10) * h * M).
  { setoid_replace (F A G X Y D) with (val v + - (val v - F A G X Y D)) by ring.
    eapply Qle_lt_trans; [apply Qabs_triangle|]. rewrite Qabs_opp.
    assert (B1 : Qabs (val v) <= (10001 # 1000000000) * ((101 # 100) * M)).
    { eapply Qle_trans; [exact Bq|]. rewrite !(Qmult_comm (10001 # 1000000000)). apply Qmult_le_compat_r; [exact Bdf|lra]. }
    assert (B3 : u * (D * Qabs sg) <= (2 # 1000000000) * (Y * M)).
    { assert (u * (D * Qabs sg) <= (1 # 1000000000000000000) * ((11 # 10) * 1000000000 * (X * Y))) by (apply qmul_le; [unfold u; lra|unfold u; lra|apply qmul_pos; lra|exact DS]).
      lra. }
    assert (B4 : u * (2 * kk + 3) <= (1 # 100000000) * M).
    { assert (u * (2 * kk + 3) <= (1 # 1000000000) * (6 * M)) by (apply qmul_le; try lra; unfold u; lra). lra. }
    assert (dM : 0 < Y * M) by (apply Qmult_lt_0_compat; lra).
    assert (hM : (7 # 10) * h * M == (14 # 1000000) * M + (7 # 1000000000) * (Y * M)) by (unfold h; ring). rewrite hM.
    assert (B5 : ((2 # 1000000000) * kk + u) * D * Qabs sg == (2 # 1000000000) * (kk * D * Qabs sg) + u * (D * Qabs sg)) by ring.
    rewrite B5 in Bf. lra. }
  assert (M0 : 0 < M) by lra. assert (h0 : 0 < h) by (unfold h; lra). assert (hM : 0 < h * M) by (apply Qmult_lt_0_compat; assumption).
  apply Qabs_Qlt_condition in FV as (FV1 & FV2).
  assert (Hh : h <= (21 # 1000) * G * Y).
  { assert ((1 # 10000) * Y <= G * Y) by (apply Qmult_le_compat_r; lra). unfold h. lra. }
  split.
  { intros ((_ & Q4 & QS) & QF). assert (Up : z <= Y + h); [|unfold h in *; lra]. apply Qnot_lt_le. intros L.
    assert (Sh : - (h / 2) <= sg). { setoid_replace (- (h / 2)) with (- ((1 # 2) * h)) by field. unfold sg, h. lra. }
    assert (X4 : X * (Y + h) < X * z) by (apply Qmult_lt_l; assumption).
    assert (K1h : K0 X (Y + h) D <= 1) by (unfold K0; apply Qle_shift_div_r; [exact DD|lra]).
    pose proof (slope_y_up A G X Y D A0 g0 x0 yy0 D0 C1 G2 h h0 Sh K1h) as S. fold kk in S. fold tt in S. fold rr in S. fold sg in S. fold q in S. fold M in S.
    assert (Sh2 : D <= X + (Y + h)). { setoid_replace (- (h / 2)) with (- ((1 # 2) * h)) in Sh by field. unfold sg in Sh. lra. }
    assert (Yh : 0 < Y + h) by lra.
    pose proof (F_mono_y A G X D (Y + h) z A0 g0 x0 D0 Yh L Q4 Sh2) as Mo. lra. }
  { intros ((_ & Q4 & QS) & QF). assert (Down : Y - h <= z); [|unfold h in *; lra]. apply Qnot_lt_le. intros L. assert (Sh : h <= sg) by (unfold sg; lra).
    pose proof (slope_y_down A G X Y D A0 g0 x0 yy0 D0 C1 G2 h h0 Hh Sh) as S. fold kk in S. fold tt in S. fold rr in S. fold sg in S. fold q in S. fold M in S.
    assert (X4 : 4 * (X * (Y - h)) <= D * D).
    { assert (X * (Y - h) <= X * (W * (1 - (99 # 10000000000)))) by (apply qmul_le; unfold h; lra). lra. }
    assert (Sh2 : D <= X + z) by lra.
    pose proof (F_mono_y A G X D z (Y - h) A0 g0 x0 D0 Z0 L X4 Sh2) as Mo. lra. }
Qed.
End CloseY.
