(** Concentrated pair: the exact curve has solutions. Over fractions: its two sides come arbitrarily close. *)
From Coq Require Import ZArith QArith Qabs Qminmax Lia Lqa.
From Verif Require Import PclCurveSpec PclApprox.
Open Scope Q_scope.

Lemma sq_nn a : 0 <= a * a.
Proof. destruct (Qlt_le_dec a 0); [setoid_replace (a * a) with (- a * - a) by ring|]; apply qmul_pos; lra. Qed.
Lemma bisect (P R : Q -> Prop) lo hi : lo <= hi -> P lo -> R hi -> (forall m, lo <= m -> m <= hi -> P m \/ R m) ->
  forall n, exists l h, lo <= l /\ l <= h /\ h <= hi /\ P l /\ R h /\ (h - l) * inject_Z (Z.of_nat (S n)) <= hi - lo.
Proof.
  intros L HP HR D n. induction n as [|n (l & h & A & B & C & Pl & Rh & W)].
  - exists lo, hi. repeat split; try assumption; try lra. change (inject_Z (Z.of_nat 1)) with 1. lra.
  - set (m := (l + h) * (1 # 2)). set (k := inject_Z (Z.of_nat (S n))) in *.
    assert (E : inject_Z (Z.of_nat (S (S n))) == k + 1). { unfold k. rewrite (Nat2Z.inj_succ (S n)). unfold Z.succ. rewrite inject_Z_plus. reflexivity. }
    assert (K1 : 1 <= k). { unfold k. change 1 with (inject_Z 1). rewrite <- Zle_Qle. lia. }
    assert (V : (h - l) * (1 # 2) * (k + 1) <= hi - lo).
    { assert ((h - l) * ((k + 1) * (1 # 2)) <= (h - l) * k) by (apply qmul_le; lra). lra. }
    destruct (D m) as [Pm|Rm]; [unfold m; lra|unfold m; lra| |].
    + exists m, h. rewrite E. repeat split; try assumption; try (unfold m; lra).
    + exists l, m. rewrite E. repeat split; try assumption; try (unfold m; lra).
Qed.
Lemma fine w e : 0 < e -> exists n, forall v, v * inject_Z (Z.of_nat (S n)) <= w -> v <= e.
Proof.
  intros E. destruct (Qarchimedean (w / e)) as (p & Hp). exists (Pos.to_nat p). intros v V. apply Qnot_lt_le. intros L.
  set (k := inject_Z (Z.of_nat (S (Pos.to_nat p)))) in *.
  assert (K : w / e < k). { eapply Qlt_trans; [exact Hp|]. unfold k. change (Z.pos p # 1) with (inject_Z (Z.pos p)). rewrite <- Zlt_Qlt. lia. }
  assert (K0 : 0 < k). { unfold k. change 0 with (inject_Z 0). rewrite <- Zlt_Qlt. lia. }
  assert (W : w / e * e < k * e) by (apply Qmult_lt_r; assumption). assert (Q : w / e * e == w) by (field; lra). rewrite Q in W.
  assert (e * k < v * k) by (apply Qmult_lt_r; assumption). lra.
Qed.
(** Squares are dense. *)
Lemma sqrt_between a d : 0 < a -> 0 < d -> exists q, 0 < q /\ a <= q * q /\ q * q <= a + d.
Proof.
  intros A D. set (b := a + 1). set (e := Qmin 1 (d / (2 * b + 1))).
  assert (B : 0 < 2 * b + 1) by (unfold b; lra).
  assert (Dv : d / (2 * b + 1) * (2 * b + 1) == d) by (field; lra).
  assert (E0 : 0 < e). { unfold e. apply Q.min_glb_lt; [reflexivity|]. apply Qlt_shift_div_l; lra. }
  assert (E1 : e <= 1) by apply Q.le_min_l. assert (E2 : e <= d / (2 * b + 1)) by apply Q.le_min_r.
  assert (E3 : e * (2 * b + 1) <= d) by (rewrite <- Dv; apply Qmult_le_compat_r; lra).
  destruct (fine (b - 0) e E0) as (n & Fn).
  destruct (bisect (fun q => q * q <= a) (fun q => a <= q * q) 0 b) with (n := n) as (l & h & L0 & LH & HB & Pl & Rh & W).
  - unfold b; lra.
  - lra.
  - assert (1 * b <= b * b) by (apply qmul_le; unfold b; lra). unfold b in *. lra.
  - intros m _ _. destruct (Qlt_le_dec (m * m) a); [left|right]; lra.
  - apply Fn in W. exists h. split; [|split; [exact Rh|]].
    + destruct (Qlt_le_dec 0 h) as [|N]; [assumption|exfalso]. assert (Z : h == 0) by lra. rewrite Z in Rh. lra.
    + assert (V : h * h <= (l + e) * (l + e)) by (apply qmul_le; lra).
      assert (l * e <= b * e) by (apply Qmult_le_compat_r; lra). assert (e * e <= e * 1) by (apply qmul_le; lra). lra.
Qed.

Section Sides.
Context (A g : Q) (A0 : 0 < A) (g0 : 0 < g).
Lemma side x y D : below A g x y D \/ above A g x y D \/ ~ ranged x y D.
Proof.
  destruct (Qlt_le_dec 0 D) as [P|P]; [|right; right; intros (H & _); lra].
  destruct (Qlt_le_dec (D * D) (4 * (x * y))) as [L|L]; [right; right; intros (_ & H & _); lra|].
  destruct (Qlt_le_dec (x + y) D) as [S|S]; [right; right; intros (_ & _ & H); lra|].
  destruct (Qlt_le_dec (F A g x y D) 0) as [N|N]; [right; left|left]; (split; [repeat split; assumption|lra]).
Qed.
Lemma K_low x y D : 0 < x -> 0 < y -> ranged x y D -> D * D <= 8 * (x * y) ->
  A * (g * g) * (1 # 2) / ((g + 1) * (g + 1)) <= K A g x y D.
Proof.
  intros X Y (P & L & S) H. destruct (K0_bounds x y D X Y P L) as (B & C).
  assert (T : (1 # 2) <= K0 x y D). { unfold K0. apply Qle_shift_div_l; [apply Qmult_lt_0_compat; assumption|lra]. }
  unfold K. set (t := K0 x y D) in *. assert (N : 0 < A * (g * g)) by (repeat apply Qmult_lt_0_compat; assumption).
  assert (cc : (g + 1 - t) * (g + 1 - t) <= (g + 1) * (g + 1)) by (apply qmul_le; lra).
  assert (c0 : 0 < (g + 1 - t) * (g + 1 - t)) by (apply Qmult_lt_0_compat; lra).
  apply Qle_shift_div_l; [exact c0|].
  setoid_replace (A * (g * g) * (1 # 2) / ((g + 1) * (g + 1)) * ((g + 1 - t) * (g + 1 - t)))
    with (A * (g * g) * (1 # 2) * ((g + 1 - t) * (g + 1 - t)) / ((g + 1) * (g + 1))) by (field; lra).
  apply Qle_shift_div_r; [apply Qmult_lt_0_compat; lra|].
  apply qmul_le; [apply qmul_pos; lra|apply qmul_le; lra|lra|exact cc].
Qed.
(** A fraction below the solution. *)
Lemma start_d x y : 0 < x -> 0 < y -> exists q, below A g x y q.
Proof.
  intros X Y. destruct (Qeq_dec x y) as [E|E].
  { exists (x + y). split; [split; [lra|split; [pose proof (sq_nn (x - y)); lra|lra]]|]. unfold F. setoid_replace (x + y - (x + y)) with 0 by ring.
    assert (W : (x - y) * (x - y) == 0) by (setoid_replace (x - y) with 0 by lra; reflexivity).
    setoid_replace ((x + y) * (x + y) / 4) with ((1 # 4) * ((x + y) * (x + y))) by field. lra. }
  set (S := x + y). set (p := 4 * (x * y)). set (w := (x - y) * (x - y)). set (k := A * (g * g) * (1 # 2) / ((g + 1) * (g + 1))).
  assert (S0 : 0 < S) by (unfold S; lra). assert (xy : 0 < x * y) by (apply Qmult_lt_0_compat; assumption).
  assert (p0 : 0 < p) by (unfold p; lra).
  assert (w0 : 0 < w).
  { pose proof (sq_nn (x - y)) as Q. fold w in Q. apply Qle_lteq in Q as [Q|Q]; [exact Q|exfalso].
    symmetry in Q. unfold w in Q. apply Qmult_integral in Q. destruct Q; apply E; lra. }
  assert (k0 : 0 < k).
  { unfold k. apply Qlt_shift_div_l; [apply Qmult_lt_0_compat; lra|]. rewrite Qmult_0_l. apply Qmult_lt_0_compat; [|reflexivity]. repeat apply Qmult_lt_0_compat; assumption. }
  assert (Sw : S * S == p + w) by (unfold S, p, w; ring).
  assert (SS : 0 < S * S) by (apply Qmult_lt_0_compat; assumption).
  set (eta := k * p * w / (S * S)). assert (eta0 : 0 < eta).
  { unfold eta. apply Qlt_shift_div_l; [exact SS|]. rewrite Qmult_0_l. apply Qmult_lt_0_compat; [apply Qmult_lt_0_compat|]; assumption. }
  set (d := Qmin p (Qmin (w * (1 # 2)) eta)).
  assert (d0 : 0 < d) by (unfold d; repeat apply Q.min_glb_lt; lra).
  assert (d1 : d <= p) by apply Q.le_min_l.
  assert (d2 : d <= w * (1 # 2)) by (eapply Qle_trans; [apply Q.le_min_r|apply Q.le_min_l]).
  assert (d3 : d <= eta) by (eapply Qle_trans; [apply Q.le_min_r|apply Q.le_min_r]).
  destruct (sqrt_between p d p0 d0) as (q & q0 & q1 & q2). exists q.
  assert (qS : q <= S).
  { apply Qnot_lt_le. intros L. assert (S * S <= q * q) by (apply qmul_le; lra). lra. }
  assert (Rg : ranged x y q) by (split; [exact q0|split; [exact q1|exact qS]]).
  split; [exact Rg|].
  assert (KL : k <= K A g x y q) by (apply K_low; try assumption; unfold p in *; lra).
  assert (G1 : w * (1 # 2) <= (S - q) * (2 * S)).
  { assert ((S - q) * (S + q) <= (S - q) * (2 * S)) by (apply qmul_le; lra). lra. }
  assert (G2 : p <= q * S) by (assert (q * q <= q * S) by (apply qmul_le; lra); lra).
  unfold F. fold S. set (kk := K A g x y q) in *.
  assert (G3 : p * (w * (1 # 2)) <= q * S * ((S - q) * (2 * S))) by (apply qmul_le; lra).
  assert (G4 : eta * (1 # 4) <= k * (q * (S - q))).
  { assert (Ev : eta * (S * S) == k * (p * w)) by (unfold eta; field; lra). apply Qnot_lt_le. intros L.
    assert (L1 : k * (q * (S - q)) * (S * S) < eta * (1 # 4) * (S * S)) by (apply Qmult_lt_r; assumption).
    assert (L2 : k * (p * (w * (1 # 2))) <= k * (q * S * ((S - q) * (2 * S)))) by (rewrite !(Qmult_comm k); apply Qmult_le_compat_r; lra).
    lra. }
  assert (G5 : k * (q * (S - q)) <= kk * (q * (S - q))) by (apply Qmult_le_compat_r; [exact KL|apply qmul_pos; lra]).
  setoid_replace (q * q / 4) with ((1 # 4) * (q * q)) by field. unfold p in *. lra.
Qed.
Theorem solution_d x y e : 0 < x -> 0 < y -> 0 < e -> exists q1 q2, below A g x y q1 /\ above A g x y q2 /\ q1 <= q2 /\ q2 <= q1 + e.
Proof.
  intros X Y E. destruct (start_d x y X Y) as (lo & B). pose proof B as ((P & L & S) & _).
  destruct (fine (x + y - lo) e E) as (n & Fn).
  destruct (bisect (below A g x y) (above A g x y) lo (x + y) S B) with (n := n) as (l & h & L0 & LH & HB & Pl & Rh & W).
  - split; [split; [lra|split; [pose proof (sq_nn (x - y)); lra|lra]]|]. unfold F. setoid_replace (x + y - (x + y)) with 0 by ring.
    setoid_replace ((x + y) * (x + y) / 4) with ((1 # 4) * ((x + y) * (x + y))) by field. pose proof (sq_nn (x - y)). lra.
  - intros m M1 M2. destruct (side x y m) as [H|[H|H]]; [left; exact H|right; exact H|exfalso]. apply H.
    split; [lra|]. split; [|exact M2]. assert (lo * lo <= m * m) by (apply qmul_le; lra). lra.
  - apply Fn in W. exists l, h. repeat split; try apply Pl; try apply Rh; lra.
Qed.

(** A reserve above the solution, with D given. *)
Lemma start_z x D : 0 < x -> 0 < D -> exists z, 0 < z /\ above A g x z D.
Proof.
  intros X P. destruct (Qlt_le_dec x D) as [L|L].
  { exists (D - x). split; [lra|]. split; [split; [exact P|split; [pose proof (sq_nn (D - 2 * x)); lra|lra]]|].
    unfold F. setoid_replace (x + (D - x) - D) with 0 by ring. setoid_replace (D * D / 4) with ((1 # 4) * (D * D)) by field.
    pose proof (sq_nn (D - 2 * x)). lra. }
  assert (DD : 0 < D * D) by (apply Qmult_lt_0_compat; assumption). set (N := A * (g * g)).
  assert (N0 : 0 < N) by (unfold N; repeat apply Qmult_lt_0_compat; assumption).
  assert (xx : 0 < x * x) by (apply Qmult_lt_0_compat; assumption).
  set (w := 32 * N * (x * x) / D + x). assert (w0 : 0 < w).
  { unfold w. assert (0 <= 32 * N * (x * x) / D); [|lra]. apply Qle_shift_div_l; [exact P|]. rewrite Qmult_0_l. apply qmul_pos; lra. }
  set (z := Qmin (D * D / (8 * x)) (D * D / (4 * w))).
  assert (a1 : 0 < D * D / (8 * x)) by (apply Qlt_shift_div_l; lra). assert (a2 : 0 < D * D / (4 * w)) by (apply Qlt_shift_div_l; lra).
  assert (z0 : 0 < z) by (apply Q.min_glb_lt; assumption).
  assert (z1 : z * (8 * x) <= D * D). { assert (z <= D * D / (8 * x)) by apply Q.le_min_l. assert (E : D * D / (8 * x) * (8 * x) == D * D) by (field; lra).
    rewrite <- E. apply Qmult_le_compat_r; lra. }
  assert (z2 : z * (4 * w) <= D * D). { assert (z <= D * D / (4 * w)) by apply Q.le_min_r. assert (E : D * D / (4 * w) * (4 * w) == D * D) by (field; lra).
    rewrite <- E. apply Qmult_le_compat_r; lra. }
  assert (zx : z <= x). { apply Qnot_lt_le. intros B. assert (x * (8 * x) < z * (8 * x)) by (apply Qmult_lt_r; lra). assert (D * D <= x * x) by (apply qmul_le; lra). lra. }
  exists z. split; [exact z0|]. split; [split; [exact P|split; [assert (0 <= z * x) by (apply qmul_pos; lra); lra|lra]]|].
  destruct (K0_bounds x z D X z0 P) as (B & C); [assert (0 <= z * x) by (apply qmul_pos; lra); lra|].
  set (t := K0 x z D) in *. assert (Et : t * (D * D) == 4 * (x * z)) by (unfold t, K0; field; lra).
  assert (T : t <= 1 # 2).
  { apply Qnot_lt_le. intros H. assert ((1 # 2) * (D * D) < t * (D * D)) by (apply Qmult_lt_r; assumption). lra. }
  assert (KU : K A g x z D <= 4 * (N * t)).
  { unfold K. fold t. fold N. assert (cc : (1 # 4) <= (g + 1 - t) * (g + 1 - t)).
    { assert ((1 # 2) * (1 # 2) <= (g + 1 - t) * (g + 1 - t)) by (apply qmul_le; lra). lra. }
    apply Qle_shift_div_r; [lra|]. assert (0 <= N * t) by (apply qmul_pos; lra).
    assert (4 * (N * t) * (1 # 4) <= 4 * (N * t) * ((g + 1 - t) * (g + 1 - t))) by (apply qmul_le; lra). lra. }
  unfold F. set (kk := K A g x z D) in *.
  assert (V1 : kk * D * (x + z - D) <= 4 * (N * t) * D * (2 * x)).
  { apply Qle_trans with (4 * (N * t) * D * (x + z - D)).
    - apply Qmult_le_compat_r; [apply Qmult_le_compat_r|]; lra.
    - rewrite !(Qmult_comm (4 * (N * t) * D)). apply Qmult_le_compat_r; [lra|]. apply qmul_pos; [|lra]. assert (0 <= N * t) by (apply qmul_pos; lra). lra. }
  assert (V2 : 4 * (N * t) * D * (2 * x) == z * (32 * N * (x * x) / D)).
  { setoid_replace (4 * (N * t) * D * (2 * x)) with (8 * N * x * (t * (D * D)) / D) by (field; lra). rewrite Et. field. lra. }
  rewrite V2 in V1. setoid_replace (D * D / 4) with ((1 # 4) * (D * D)) by field. unfold w in z2. lra.
Qed.
Theorem solution_z x D e : 0 < x -> 0 < D -> 0 < e -> exists z1 z2, 0 < z1 /\ above A g x z1 D /\ below A g x z2 D /\ z1 <= z2 /\ z2 <= z1 + e.
Proof.
  intros X P E. destruct (start_z x D X P) as (lo & Z0 & B). pose proof B as ((_ & L & S) & _).
  set (hi := D * D / (4 * x)). assert (Eh : hi * (4 * x) == D * D) by (unfold hi; field; lra).
  assert (LH : lo <= hi).
  { apply Qnot_lt_le. intros H. assert (hi * (4 * x) < lo * (4 * x)) by (apply Qmult_lt_r; lra). lra. }
  assert (HS : 0 <= x + hi - D).
  { assert (Q : x + hi - D == (D - 2 * x) * (D - 2 * x) / (4 * x)) by (unfold hi; field; lra). rewrite Q.
    apply Qle_shift_div_l; [lra|]. rewrite Qmult_0_l. apply sq_nn. }
  assert (H4 : 4 * (x * hi) <= D * D) by lra.
  destruct (fine (hi - lo) e E) as (n & Fn).
  destruct (bisect (fun z => above A g x z D) (fun z => below A g x z D) lo hi LH B) with (n := n) as (l & h & L0 & LH' & HB & Pl & Rh & W).
  - split; [split; [exact P|split; [exact H4|lra]]|]. unfold F.
    pose proof (K_pos A g x hi D A0 g0 X ltac:(lra) P H4) as KP.
    assert (0 <= K A g x hi D * D * (x + hi - D)) by (apply qmul_pos; [apply qmul_pos; lra|exact HS]).
    setoid_replace (D * D / 4) with ((1 # 4) * (D * D)) by field. lra.
  - intros m M1 M2. destruct (side x m D) as [H|[H|H]]; [right; exact H|left; exact H|exfalso]. apply H.
    split; [exact P|]. split; [|lra]. assert (m * (4 * x) <= hi * (4 * x)) by (apply Qmult_le_compat_r; lra). lra.
  - apply Fn in W. exists l, h. split; [lra|]. split; [exact Pl|]. split; [exact Rh|]. lra.
Qed.
End Sides.
