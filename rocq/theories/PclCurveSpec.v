(** The curve of the concentrated pair over exact fractions, independent of the model.

    For reserves [x], [y] (asset 1 in units of asset 0 at the price scale), amplification [A] and gamma [g], the
    invariant D is the number between 2*sqrt(x*y) and x + y with [F A g x y D = 0]. *)
From Coq Require Import QArith Lqa.
Open Scope Q_scope.

Definition K0 (x y D : Q) : Q := 4 * (x * y) / (D * D).
Definition K (A g x y D : Q) : Q := A * (g * g) * K0 x y D / ((g + 1 - K0 x y D) * (g + 1 - K0 x y D)).
Definition F (A g x y D : Q) : Q := K A g x y D * D * (x + y - D) + x * y - D * D / 4.
(** The range of D, and the two sides of the curve's solution in it. *)
Definition ranged (x y D : Q) : Prop := 0 < D /\ 4 * (x * y) <= D * D /\ D <= x + y.
Definition below (A g x y D : Q) : Prop := ranged x y D /\ 0 <= F A g x y D.
Definition above (A g x y D : Q) : Prop := ranged x y D /\ F A g x y D <= 0.
(** [D] solves the curve. *)
Definition solves (A g x y D : Q) : Prop := below A g x y D /\ above A g x y D.

Lemma K0_bounds x y D : 0 < x -> 0 < y -> 0 < D -> 4 * (x * y) <= D * D -> 0 < K0 x y D <= 1.
Proof.
  intros X Y P H. assert (DD : 0 < D * D) by nra. assert (XY : 0 < x * y) by nra. unfold K0. split.
  - apply Qlt_shift_div_l; [exact DD|]. lra.
  - apply Qle_shift_div_r; [exact DD|]. lra.
Qed.
Lemma K0_anti x y D1 D2 : 0 < x -> 0 < y -> 0 < D1 -> D1 < D2 -> K0 x y D2 < K0 x y D1.
Proof.
  intros X Y P H. assert (XY : 0 < x * y) by nra. unfold K0.
  apply Qlt_shift_div_r; [nra|].
  setoid_replace (4 * (x * y) / (D1 * D1) * (D2 * D2)) with (4 * (x * y) * (D2 * D2) / (D1 * D1)) by (field; nra).
  apply Qlt_shift_div_l; [nra|]. assert (D1 * D1 < D2 * D2) by nra. nra.
Qed.
Lemma frac_mono c g t u : 0 <= c -> 0 < g -> 0 < u -> u <= t -> t <= 1 ->
  c * u / ((g + 1 - u) * (g + 1 - u)) <= c * t / ((g + 1 - t) * (g + 1 - t)).
Proof.
  intros C G U L T. set (p := g + 1 - u). set (q := g + 1 - t).
  assert (Q0 : 0 < q) by (unfold q; lra). assert (PQ : q <= p) by (unfold p, q; lra).
  apply Qle_shift_div_r; [nra|].
  setoid_replace (c * t / (q * q) * (p * p)) with (c * t * (p * p) / (q * q)) by (field; nra).
  apply Qle_shift_div_l; [nra|].
  assert (q * q <= p * p) by nra. assert (c * u <= c * t) by nra. assert (0 <= c * u) by nra. nra.
Qed.
Lemma K_pos A g x y D : 0 < A -> 0 < g -> 0 < x -> 0 < y -> 0 < D -> 4 * (x * y) <= D * D -> 0 < K A g x y D.
Proof.
  intros HA G X Y P H. destruct (K0_bounds x y D X Y P H) as (B & C). unfold K.
  apply Qlt_shift_div_l; [nra|]. assert (0 < A * (g * g)) by (repeat apply Qmult_lt_0_compat; assumption). rewrite Qmult_0_l. apply Qmult_lt_0_compat; assumption.
Qed.
Lemma K_anti A g x y D1 D2 : 0 < A -> 0 < g -> 0 < x -> 0 < y -> 0 < D1 -> 4 * (x * y) <= D1 * D1 -> D1 < D2 ->
  K A g x y D2 <= K A g x y D1.
Proof.
  intros HA G X Y P H L. destruct (K0_bounds x y D1 X Y P H) as (B & C).
  destruct (K0_bounds x y D2 X Y) as (B2 & C2); [lra|nra|].
  pose proof (K0_anti x y D1 D2 X Y P L). unfold K.
  apply frac_mono; try assumption; try lra. apply Qlt_le_weak. repeat apply Qmult_lt_0_compat; assumption.
Qed.

(** [F / D^2] is strictly decreasing: the curve has at most one solution, above every point where [F] is positive and
    below every point where it is negative. *)
Lemma F_anti A g x y D1 D2 : 0 < A -> 0 < g -> 0 < x -> 0 < y -> 0 < D1 -> 4 * (x * y) <= D1 * D1 -> D1 < D2 ->
  D2 <= x + y -> F A g x y D2 * (D1 * D1) < F A g x y D1 * (D2 * D2).
Proof.
  intros HA G X Y P H L S. assert (XY : 0 < x * y) by nra.
  pose proof (K_anti A g x y D1 D2 HA G X Y P H L) as KA.
  assert (KP : 0 < K A g x y D2) by (apply K_pos; try assumption; nra).
  unfold F. set (k1 := K A g x y D1) in *. set (k2 := K A g x y D2) in *. set (s := x + y) in *. set (p := x * y) in *.
  assert (E1 : k2 * D2 * (s - D2) * (D1 * D1) <= k1 * D1 * (s - D1) * (D2 * D2)).
  { assert (D2 * (s - D2) * (D1 * D1) <= D1 * (s - D1) * (D2 * D2)).
    { setoid_replace (D2 * (s - D2) * (D1 * D1)) with (D1 * D2 * (D1 * (s - D2))) by ring.
      setoid_replace (D1 * (s - D1) * (D2 * D2)) with (D1 * D2 * (D2 * (s - D1))) by ring.
      assert (D1 * (s - D2) <= D2 * (s - D1)) by nra. assert (0 < D1 * D2) by nra. nra. }
    assert (0 <= D2 * (s - D2) * (D1 * D1)). { assert (0 <= D2 * (s - D2)) by nra. nra. }
    setoid_replace (k2 * D2 * (s - D2) * (D1 * D1)) with (k2 * (D2 * (s - D2) * (D1 * D1))) by ring.
    setoid_replace (k1 * D1 * (s - D1) * (D2 * D2)) with (k1 * (D1 * (s - D1) * (D2 * D2))) by ring. nra. }
  assert (DD : D1 * D1 < D2 * D2) by nra.
  assert (E2 : p * (D1 * D1) < p * (D2 * D2)) by (apply Qmult_lt_l; assumption).
  setoid_replace ((k2 * D2 * (s - D2) + p - D2 * D2 / 4) * (D1 * D1))
    with (k2 * D2 * (s - D2) * (D1 * D1) + p * (D1 * D1) - D2 * D2 * (D1 * D1) / 4) by field.
  setoid_replace ((k1 * D1 * (s - D1) + p - D1 * D1 / 4) * (D2 * D2))
    with (k1 * D1 * (s - D1) * (D2 * D2) + p * (D2 * D2) - D2 * D2 * (D1 * D1) / 4) by field.
  lra.
Qed.
