(** Concentrated pair: the derivative of the curve function by a reserve and its exact value. *)
From Coq Require Import ZArith QArith Qabs Lia Lqa Bool.
From Verif Require Import Num PclMath PclCurveSpec PclApprox.
Open Scope Q_scope.

(** The function and its derivative do not depend on the order of the reserves. *)
Lemma f_sym d x y a g : f d x y a g = f d y x a g.
Proof. unfold f, smul, sadd. rewrite (Z.mul_comm x y), (Z.add_comm x y). reflexivity. Qed.
Lemma df_dx_sym d x y r a g : df_dx d x y r a g = df_dx d y x r a g.
Proof. unfold df_dx, smul, sadd. rewrite (Z.mul_comm x y), (Z.add_comm x y). reflexivity. Qed.
Lemma smul_pad a m : smul a PADDING = Some m -> m = (DEC * a)%Z.
Proof.
  intros H. apply sfit_Some in H. change PADDING with (DEC * DEC)%Z in H.
  rewrite Z.mul_assoc, Z.quot_mul in H by discriminate. lia.
Qed.
Lemma dmul_ssq d m : (0 <= d)%Z -> dmul256 d d = Some m -> m = Z.quot (d * d) DEC.
Proof. intros D H. apply dmul256_Some in H as (-> & _). rewrite Z.quot_div_nonneg by (try nia; reflexivity). reflexivity. Qed.

Section PointY.
Context (d x y a g : Z).
Context (Hd : (0 <= d)%Z) (Hx : (0 <= x)%Z) (Hy : (0 <= y)%Z) (Ha : (0 <= a)%Z) (Hg : (0 <= g)%Z).
Local Notation D := (val d).
Local Notation X := (val x).
Local Notation Y := (val y).
Local Notation A := (val a).
Local Notation G := (val g).
Local Notation KK0 := (K0 X Y D).
Local Notation c := (G + 1 - KK0).
Local Notation KK := (K A G X Y D).
Local Notation rr := ((G + 1 + KK0) / c).
Context (D1 : 1 <= D) (X1 : (9 # 10) <= X) (Y1 : (9 # 10) <= Y) (XY : 1 <= X * Y) (A1 : (1 # 10) <= A) (A2 : A <= 100000) (G1 : (1 # 10000) <= G) (G2 : G <= 1 # 50)
  (GD : (99 # 100000) <= G * D) (C1 : (9 # 10) * G <= c) (DX : D <= 1000000000000 * X).

Lemma pt_kx d2 ag k0 g1 gk gk2 n1 n2 q3 kx : (0 <= ag)%Z -> (0 < gk)%Z -> (0 < gk2)%Z -> (0 < d2)%Z -> (0 <= k0)%Z ->
  ap (11 # 10000000000) (val ag) (A * (G * G)) -> (1 # 1000000000) <= A * (G * G) ->
  val d2 <= D * D < val d2 + u -> KK0 - 6 * u <= val k0 -> val k0 <= KK0 + 2 * u ->
  gamma1 g = Some g1 -> ap (1 # 1000000000000) (val gk) c -> ap (14 # 100000000000) (val gk2) (c * c) ->
  smul (4 * x) ag = Some n1 -> smul n1 (g1 + k0) = Some n2 -> smul (d2 * gk) gk2 = Some q3 -> sdiv (DEC * n2) q3 = Some kx ->
  (0 <= kx)%Z /\ val kx <= KK * rr / Y * (1 + (1 # 100000000)).
Proof.
  intros Pa Pg Pg2 P2 P0 Aa La Bd L0 U0 Hg1 Agk Ag2 H1 H2 H3 H4. apply gamma1_val in Hg1.
  pose proof (pt_d2_ap d D1 d2 Bd) as Ad. pose proof (pt_c_pos d x y g G1 C1) as CP. pose proof (pt_cc d x y g G1 C1) as CC.
  pose proof (pt_ccdd d x y g D1 G1 GD C1) as CD. pose proof (pt_k0_pos d x y D1 XY) as K0p.
  assert (U1 : 0 < u) by reflexivity. assert (Us : u <= 1 # 100000000000000000) by (unfold u; lra).
  assert (Vg1 : 0 <= val (g1 + k0)). { rewrite val_add, Hg1. pose proof (proj1 (val_nonneg k0) P0). lra. }
  apply smul_val in H1 as (Pn1 & L1 & V1); [|lia|exact Pa]. apply smul_val in H2 as (Pn2 & L2 & V2); [|exact Pn1|apply val_nonneg; exact Vg1].
  apply smul_val in H3 as (Pq3 & L3 & V3); [|lia|lia].
  assert (E4 : val (4 * x) == 4 * X) by (rewrite val_scale; reflexivity). rewrite E4 in *.
  assert (EQ2 : val (d2 * gk) == 1000000000000000000 * (val d2 * val gk)) by apply val_prod. rewrite EQ2 in *.
  pose proof (proj1 (val_nonneg ag) Pa) as Va. pose proof (proj1 (val_pos d2) P2) as Vd2. pose proof (proj1 (val_pos gk) Pg) as Vgk.
  pose proof (proj1 (val_pos gk2) Pg2) as Vgk2.
  (* denominator *)
  assert (DD : 1 <= D * D) by nra.
  assert (AQ : ap (2 # 10000000000) (val q3) (1000000000000000000 * (D * D * c) * (c * c))).
  { assert (Q1 : ap (2 # 1000000000000) (val d2 * val gk) (D * D * c)).
    { apply (ap_weak ((1 # 100000000000000000) + (1 # 1000000000000) + (1 # 100000000000000000) * (1 # 1000000000000)));
        [apply qmul_pos; lra|lra|]. apply ap_mul; [lra|lra|lra|lra|lra|lra|exact Ad|exact Agk]. }
    assert (Q2 : ap (2 # 1000000000000) (1000000000000000000 * (val d2 * val gk)) (1000000000000000000 * (D * D * c))).
    { destruct Q1. split; lra. }
    assert (Lw : (9 # 100000) <= D * D * c). { apply Qle_trans with (1 * c); [lra|]. apply Qmult_le_compat_r; lra. }
    assert (Lq : 1 <= 1000000000000000000 * (D * D * c) * (c * c)).
    { apply Qle_trans with ((1000000000000000000 * (9 # 100000)) * (81 # 10000000000)); [lra|]. apply qmul_le; lra. }
    apply (ap_weak (((2 # 1000000000000) + (14 # 100000000000) + (2 # 1000000000000) * (14 # 100000000000)) + (1 # 10000000000000)));
      [lra|lra|]. apply ap_down with (1000000000000000000 * (val d2 * val gk) * val gk2); [|exact L3|exact V3|lra].
    apply ap_mul; [lra|lra|lra|lra|lra|lra|exact Q2|exact Ag2]. }
  assert (Lq : 1 <= 1000000000000000000 * (D * D * c) * (c * c)).
  { assert ((9 # 100000) <= D * D * c) by (apply Qle_trans with (1 * c); [lra|]; apply Qmult_le_compat_r; lra).
    apply Qle_trans with ((1000000000000000000 * (9 # 100000)) * (81 # 10000000000)); [lra|]. apply qmul_le; lra. }
  (* numerator *)
  assert (Q0 : (0 < q3)%Z) by (apply val_pos; destruct AQ; lra).
  apply sdiv_val in H4 as (Pk & L4 & V4); [|unfold DEC; lia|exact Q0]. split; [exact Pk|]. rewrite val_dec in L4.
  set (B := A * (G * G)) in *. set (t := KK0) in *.
  assert (N2 : val n2 <= 4 * X * B * (G + 1 + t) * (1 + (12 # 10000000000))).
  { destruct Aa as (_ & Ua).
    assert (S1 : val n1 <= 4 * X * (B * (1 + (11 # 10000000000)))).
    { eapply Qle_trans; [exact L1|]. apply qmul_le; lra. }
    assert (S2 : val (g1 + k0) <= (G + 1 + t) * (1 + (1 # 100000000000000))) by (rewrite val_add, Hg1; lra).
    pose proof (proj1 (val_nonneg n1) Pn1) as Vn1.
    eapply Qle_trans; [exact L2|].
    eapply Qle_trans; [apply qmul_le; [exact Vn1|exact S1|exact Vg1|exact S2]|].
    assert (W : 0 <= 4 * X * B * (G + 1 + t)) by (apply qmul_pos; [apply qmul_pos; lra|lra]).
    setoid_replace (4 * X * (B * (1 + (11 # 10000000000))) * ((G + 1 + t) * (1 + (1 # 100000000000000)))) with
      (4 * X * B * (G + 1 + t) * ((1 + (11 # 10000000000)) * (1 + (1 # 100000000000000)))) by ring.
    rewrite !(Qmult_comm (4 * X * B * (G + 1 + t))). apply Qmult_le_compat_r; [lra|exact W]. }
  set (N := 4 * X * B * (G + 1 + t)) in *. assert (N0 : 0 <= N) by (unfold N; apply qmul_pos; [apply qmul_pos; lra|lra]).
  set (m := G + 1 - t) in *.
  assert (EK : KK * ((G + 1 + t) / m) / Y * (D * D * m * (m * m)) == N).
  { unfold N. transitivity (B * (KK0 * (D * D)) * (G + 1 + t) / Y).
    - unfold K. fold B. fold t. fold m. field. split; lra.
    - rewrite (pt_k0 d x y D1). field. lra. }
  set (z := KK * ((G + 1 + t) / m) / Y) in *. set (w := D * D * m * (m * m)) in *.
  assert (W0 : 0 < w). { apply Qlt_le_trans with ((9 # 100000) * (81 # 10000000000)); [reflexivity|].
    unfold w. apply qmul_le; [lra| |lra|exact CC]. apply Qle_trans with (1 * m); [lra|]. apply Qmult_le_compat_r; lra. }
  assert (AQ1 : 1000000000000000000 * w * (1 - (2 # 10000000000)) <= val q3). { destruct AQ as (AQ & _). unfold w. lra. }
  assert (Z0 : 0 <= z).
  { apply Qnot_lt_le. intros L. assert (z * w < 0 * w) by (apply Qmult_lt_r; assumption). lra. }
  apply Qnot_lt_le. intros L. pose proof (proj1 (val_nonneg kx) Pk) as Vk.
  assert (S3 : val kx * (1000000000000000000 * w * (1 - (2 # 10000000000))) <= val kx * val q3).
  { apply qmul_le; lra. }
  assert (S4 : z * (1 + (1 # 100000000)) * w < val kx * w) by (apply Qmult_lt_r; assumption).
  assert (S5 : z * (1 + (1 # 100000000)) * w == N * (1 + (1 # 100000000))) by (rewrite <- EK; ring).
  rewrite S5 in S4. clear - S3 S4 L4 N2 N0. revert S3 S4. set (kw := val kx * w).
  setoid_replace (val kx * (1000000000000000000 * w * (1 - (2 # 10000000000)))) with (1000000000000000000 * kw * (1 - (2 # 10000000000))) by (unfold kw; ring).
  intros. lra.
Qed.

Lemma pt_dx v : df_dx d x y x a g = Some v ->
  Qabs (val v) <= (101 # 100) * (KK * rr / Y * D * Qabs (X + Y - D) + KK * D + X).
Proof.
  intros H. unfold df_dx in H.
  unbind H as d2 E1. unbind H as mul E2. unbind H as prod E3. unbind H as k0 E4. unbind H as g1 E5. unbind H as gk E6.
  unbind H as gk2 E7. unbind H as ag E8. unbind H as kn E9. unbind H as k E10. unbind H as k0x E11. unbind H as n1 E12.
  unbind H as g1k E13. unbind H as n2 E14. unbind H as n3 E15. unbind H as q1 E16. unbind H as q2 E17. unbind H as q3 E18.
  unbind H as kx E19. unbind H as sum E20. unbind H as t1 E21. unbind H as t2 E22. unbind H as t3 E23. unbind H as t4 E24.
  unbind H as t5 E25.
  apply smul_four in E3, E11. subst prod k0x. apply smul_pad in E15. subst n3. apply pad_dmul in E16. subst q1.
  apply smul_dec in E17. subst q2. apply sadd_val in E13, E20, E22, E24. apply ssubt_val in H. subst g1k sum t2 t4 v.
  apply (pt_mul x y Hx Hy) in E2 as (M0 & Bm).
  apply dmul256_val in E1 as (P2 & Bd); [|exact Hd|exact Hd].
  assert (P2' : (0 < d2)%Z). { apply val_pos. assert (1 <= D * D) by nra. unfold u in Bd. lra. }
  apply ann_val in E8 as (Pa & Aa & La); try assumption.
  apply (pt_k0_val d x y g D1 XY G1 G2 C1 mul d2 k0 M0 P2' Bm Bd) in E4 as (Pk0 & Lk0 & Uk0).
  destruct (pt_gk d x y g G1 C1 k0 g1 gk Lk0 Uk0 E5 E6) as (Pgk & Agk). destruct (pt_gk2 d x y g G1 C1 gk gk2 Pgk Agk E7) as (Pg2 & Ag2).
  destruct (pt_kd d x y a g D1 XY A1 G1 G2 C1 A2 ag k0 kn gk2 k Pa Pk0 Pg2 Aa La Lk0 Uk0 Ag2 E9 E10) as (Pk & Lk & Uk).
  destruct (pt_kx d2 ag k0 g1 gk gk2 n1 n2 q3 kx Pa Pgk Pg2 P2' Pk0 Aa La Bd Lk0 Uk0 E5 Agk Ag2 E12 E14 E18 E19) as (Px & Ux).
  assert (Ps : (0 <= x + y)%Z) by lia.
  apply smul_val in E21 as (Pt1 & L1 & U1); [|exact Px|exact Ps]. apply smul_val in E23 as (Pt3 & L3 & U3); [|lia|exact Hd].
  apply smul_val in E25 as (Pt5 & L5 & U5); [|exact Px|exact P2].
  rewrite val_add in L1, U1, L3, U3. rewrite val_sub, val_add.
  pose proof (proj1 (val_nonneg kx) Px) as Vx. pose proof (proj1 (val_nonneg k) Pk) as Vk.
  pose proof (pt_K_pos d x y a g D1 XY A1 G1 C1) as KP.
  destruct (pt_r d x y g D1 XY G1 G2 C1) as (R1 & R2).
  set (z := KK) in *. set (r := rr) in *. set (q := z * r / Y) in *.
  assert (QY : q * Y == z * r) by (unfold q; field; lra).
  assert (Q0 : 0 <= q). { unfold q. apply Qle_shift_div_l; [lra|]. rewrite Qmult_0_l. apply qmul_pos; lra. }
  assert (QB : q * (9 # 10) <= z * 25000).
  { apply Qle_trans with (q * Y); [rewrite !(Qmult_comm q); apply Qmult_le_compat_r; lra|]. rewrite QY. apply qmul_le; lra. }
  assert (Us : u <= 1 # 1000000000000000000) by (unfold u; lra). assert (U0 : 0 < u) by reflexivity.
  set (si := X + Y - D) in *. pose proof (Qabs_nonneg si) as Si. set (kv := val kx) in *.
  assert (T3 : (val t1 + val k) * D <= (kv * (X + Y) + val k) * D) by (apply Qmult_le_compat_r; lra).
  assert (T3' : (kv * (X + Y) - u + val k) * D <= (val t1 + val k) * D) by (apply Qmult_le_compat_r; lra).
  assert (T5 : kv * val d2 <= kv * (D * D)) by (rewrite !(Qmult_comm kv); apply Qmult_le_compat_r; lra).
  assert (T5' : kv * (D * D - u) <= kv * val d2) by (rewrite !(Qmult_comm kv); apply Qmult_le_compat_r; lra).
  assert (I1 : Qabs (kv * D * si) <= q * D * Qabs si * (1 + (1 # 100000000))).
  { rewrite Qabs_Qmult, (Qabs_pos (kv * D)) by (apply qmul_pos; lra).
    setoid_replace (q * D * Qabs si * (1 + (1 # 100000000))) with (q * (1 + (1 # 100000000)) * D * Qabs si) by ring.
    apply Qmult_le_compat_r; [|exact Si]. apply Qmult_le_compat_r; lra. }
  apply Qabs_Qle_condition in I1. destruct I1 as (I1a & I1b).
  assert (KD : val k * D <= (z * (1 + (1 # 100000000)) + 1500 * u) * D) by (apply Qmult_le_compat_r; lra).
  assert (KD0 : 0 <= val k * D) by (apply qmul_pos; lra). assert (zD : z * 1 <= z * D) by (apply qmul_le; lra).
  assert (uD : u * D <= (1 # 1000000000000000000) * (1000000000000 * X)) by (apply qmul_le; lra).
  assert (ku : kv * u <= q * (1 + (1 # 100000000)) * (1 # 1000000000000000000)) by (apply qmul_le; lra).
  assert (qs : 0 <= q * D * Qabs si) by (apply qmul_pos; [apply qmul_pos; lra|exact Si]).
  assert (E : X + Y == si + D) by (unfold si; ring).
  assert (F1 : (kv * (X + Y) + val k) * D == kv * D * si + kv * (D * D) + val k * D) by (rewrite E; ring).
  assert (F2 : (kv * (X + Y) - u + val k) * D == kv * D * si + kv * (D * D) + val k * D - u * D) by (rewrite E; ring).
  assert (F3 : kv * (D * D - u) == kv * (D * D) - kv * u) by ring.
  rewrite F1 in T3. rewrite F2 in T3'. rewrite F3 in T5'.
  clear E F1 F2 F3. clearbody si kv z r q. apply Qabs_Qle_condition. split; lra.
Qed.
End PointY.
