(** Accuracy of the numerical core of the stable pair: the exact invariant versus the computed one. *)
From Coq Require Import ZArith Lia Bool List.
From Verif Require Import Num StableMath StableProofs.
Open Scope Z_scope.

Lemma sq_nonneg a : 0 <= a ^ 2.
Proof. rewrite Z.pow_2_r. apply Z.square_nonneg. Qed.
Ltac pos := repeat first [ assumption | apply sq_nonneg | apply Z.mul_nonneg_nonneg | apply Z.add_nonneg_nonneg
                         | apply Z.pow_nonneg | apply Z.lt_le_incl; assumption | (clear; lia) ].
(** [c * a <= c * b] and [a * c <= b * c] for nonnegative [c]. *)
Ltac monol := apply Z.mul_le_mono_nonneg_l; [pos|].
Ltac monor := apply Z.mul_le_mono_nonneg_r; [pos|].

Lemma cube_split a b : a ^ 3 = b ^ 3 + 3 * b ^ 2 * (a - b) + (a - b) ^ 2 * (a + 2 * b).
Proof. ring. Qed.

(** d * Gam(r) from below. *)
Lemma gam_low Q T L sum ab d dp r rv :
  d_step_facts Q L sum ab d dp r rv -> 0 < Q -> 0 < T -> 0 < ab -> 0 <= d -> 0 <= 3 * r - 2 * d -> 0 <= r ->
  d * (r ^ 3 + ab * ((L - Q) * r - L * sum)) > - (d * (ab * (L - Q) + 3 * d ^ 2) + Q * ab * (d + Q)).
Proof.
  intros [F1 _ F3 F4 F5 _] HQ HT A Hd H3 Hr.
  assert (B1 : Q * ab * dp * (3 * r - 2 * d) <= d ^ 3 * (3 * r - 2 * d)) by (monor; exact F5).
  assert (B2 : d ^ 3 * (3 * r - 2 * d) <= d * r ^ 3).
  { assert (0 <= d * ((r - d) ^ 2 * (r + 2 * d))) as X by pos. rewrite (cube_split r d). clear - X. lia. }
  assert (B3 : ab * (Q * rv) <= ab * (d * (L - Q) + 3 * Q * dp)) by (monol; exact F3).
  clear - F1 F5 B1 B2 B3. lia.
Qed.

(** Growth of Gam. *)
Lemma gam_grow Q L sum ab r e :
  0 <= r -> 0 <= e -> 
  (r + e) ^ 3 + ab * ((L - Q) * (r + e) - L * sum) >=
    r ^ 3 + ab * ((L - Q) * r - L * sum) + e * (3 * r ^ 2 + ab * (L - Q)).
Proof.
  intros Hr He. assert (0 <= e ^ 2 * (e + 3 * r)) as X by pos. clear - X. lia.
Qed.

(** The computed D is not below the exact invariant by more than 3 + 2 Q / D units. *)
Lemma d_lower Q T L sum ab d dp r rv D0 :
  d_step_facts Q L sum ab d dp r rv -> 0 < Q -> 0 < T -> 2 * Q <= L -> 0 < ab -> 0 <= d ->
  Z.abs (r - d) <= T -> 2 * T <= r ->
  D0 ^ 3 + ab * ((L - Q) * D0 - L * sum) <= 0 -> (D0 - r - 3) * r <= 2 * Q.
Proof.
  intros F HQ HT HL A Hd Hab Hr HG.
  assert (Dl : r <= 2 * d) by (clear - Hab Hr; lia). assert (Du : 2 * d <= 3 * r) by (clear - Hab Hr; lia).
  assert (R0 : 0 < r) by (clear - HT Hr; lia). assert (P0 : 0 < d) by (clear - Dl R0; lia).
  destruct (Z.le_gt_cases ((D0 - r - 3) * r) (2 * Q)) as [|C]; [assumption|exfalso].
  pose proof (gam_low _ T _ _ _ _ _ _ _ F HQ HT A Hd ltac:(clear - Du; lia) ltac:(clear - R0; lia)) as G1.
  destruct (Z.le_gt_cases D0 r) as [E0|E0].
  { assert ((D0 - r - 3) * r <= 0 * r) as X by (monor; clear - E0; lia). clear - X C HQ. lia. }
  remember (D0 - r) as e eqn:Ee. assert (E1 : 0 < e) by (clear - Ee E0; lia).
  replace D0 with (r + e) in HG by (clear - Ee; lia).
  pose proof (gam_grow Q L sum ab r e ltac:(clear - R0; lia) ltac:(clear - E1; lia)) as G2.
  assert (HM : ab * Q <= ab * (L - Q)) by (monol; clear - HL; lia).
  assert (M0 : 0 <= ab * (L - Q)) by (assert (0 <= ab * Q) by pos; clear - HM H; lia).
  remember (ab * (L - Q)) as M eqn:EM.
  remember (r ^ 3 + ab * ((L - Q) * r - L * sum)) as g eqn:Eg.
  assert (G3 : d * (e * (3 * r ^ 2 + M)) < d * (M + 3 * d ^ 2) + ab * Q * (d + Q)).
  { assert (d * (g + e * (3 * r ^ 2 + M)) <= d * 0) as X by (monol; clear - G2 HG; lia). clear - X G1. lia. }
  assert (G4 : ab * Q * (d + Q) <= M * (d + Q)) by (monor; exact HM).
  assert (S0 : 0 <= r ^ 2) by apply sq_nonneg.
  assert (G5 : r * (d * (e * (3 * r ^ 2 + M))) <= r * (d * (M + 3 * d ^ 2) + M * (d + Q)))
    by (monol; clear - G3 G4; lia).
  assert (G6 : 0 < d * (3 * r ^ 2 + M)).
  { apply Z.mul_pos_pos; [exact P0|]. assert (0 < r ^ 2) as X by (apply Z.pow_pos_nonneg; [exact R0|clear; lia]).
    clear - X M0. lia. }
  assert (G7 : d * (3 * r ^ 2 + M) * (3 * r + 2 * Q) < d * (3 * r ^ 2 + M) * (e * r))
    by (apply Z.mul_lt_mono_pos_l; [exact G6|clear - C; lia]).
  assert (K0 : d ^ 2 <= 3 * r ^ 2).
  { assert ((2 * d) ^ 2 <= (3 * r) ^ 2) as X by (apply Z.pow_le_mono_l; clear - Du P0; lia). clear - X S0. lia. }
  assert (K1 : r * d * d ^ 2 <= r * d * (3 * r ^ 2)) by (monol; exact K0).
  assert (K2 : Q * M * r <= Q * M * (2 * d)) by (monol; exact Dl).
  assert (K3 : 0 <= d * r * M) by pos. assert (K4 : 0 <= d * r ^ 2 * Q) by pos.
  clear - G5 G7 K1 K2 K3 K4. lia.
Qed.

(** ... and not above it by more than 6 + (6 Q + 12 T^2) / D + 4 Q^2 / D^2. *)
Lemma d_upper Q T L sum ab d dp r rv D0 :
  d_step_facts Q L sum ab d dp r rv -> 0 < Q -> 0 < T -> 2 * Q <= L -> 0 < ab -> 0 <= d ->
  Z.abs (r - d) <= T -> 2 * T <= r -> 0 <= D0 ->
  0 <= D0 ^ 3 + ab * ((L - Q) * D0 - L * sum) -> (r - D0 - 6) * r ^ 2 <= (6 * Q + 12 * T ^ 2) * r + 4 * Q ^ 2.
Proof.
  intros [_ F2 F3 F4 F5 F6] HQ HT HL A Hd Hab Hr HD0 HG.
  assert (Dl : r <= 2 * d) by (clear - Hab Hr; lia). assert (Du : 2 * d <= 3 * r) by (clear - Hab Hr; lia).
  assert (R0 : 0 < r) by (clear - HT Hr; lia). assert (P0 : 0 < d) by (clear - Dl R0; lia).
  assert (H3 : 0 <= 3 * r - 2 * d) by (clear - Du; lia).
  assert (S0 : 0 <= r ^ 2) by apply sq_nonneg. assert (ST : 0 <= T ^ 2) by apply sq_nonneg.
  assert (SQ : 0 <= Q ^ 2) by apply sq_nonneg.
  assert (Rhs : 0 <= (6 * Q + 12 * T ^ 2) * r) by pos.
  destruct (Z.le_gt_cases (r - D0) 6) as [C6|C6].
  { assert ((r - D0 - 6) * r ^ 2 <= 0 * r ^ 2) as X by (monor; clear - C6; lia). clear - X Rhs SQ. lia. }
  remember (r - D0) as e eqn:Ee.
  assert (HM : ab * Q <= ab * (L - Q)) by (monol; clear - HL; lia).
  assert (M0 : 0 <= ab * (L - Q)) by (assert (0 <= ab * Q) by pos; clear - HM H; lia).
  assert (B1 : (d ^ 3 - Q * ab * dp) * (3 * r - 2 * d) <= (Q * d + Q * Q + Q * ab) * (3 * r - 2 * d))
    by (monor; clear - F6; lia).
  assert (B4 : (r - d) ^ 2 <= T ^ 2).
  { apply Z.abs_le in Hab. pose proof (Z.mul_nonneg_nonneg (T - (r - d)) (T + (r - d)) ltac:(clear - Hab; lia) ltac:(clear - Hab; lia)) as X.
    clear - X. lia. }
  assert (B5 : d * ((r - d) ^ 2 * (r + 2 * d)) <= d * (T ^ 2 * (4 * r))).
  { monol. apply Z.mul_le_mono_nonneg; [pos|exact B4|pos|clear - Du; lia]. }
  assert (B6 : (Q * d + Q * Q + Q * ab) * (3 * r - 2 * d) <= (Q * d + Q * Q + Q * ab) * (2 * r)) by (monol; clear - Dl; lia).
  assert (G1 : d * (r ^ 3 + ab * ((L - Q) * r - L * sum)) <=
               Q * ab * r + (Q * d + Q * Q + Q * ab) * (2 * r) + d * (T ^ 2 * (4 * r))) by (clear - F2 B1 B5 B6; lia).
  assert (G2 : e * (r ^ 2 + ab * (L - Q)) <= r ^ 3 + ab * ((L - Q) * r - L * sum)).
  { assert (X : e * r ^ 2 <= r ^ 3 - D0 ^ 3).
    { assert (0 <= e * (r * D0 + D0 ^ 2)) as Z0 by (apply Z.mul_nonneg_nonneg; [clear - C6; lia|pos]).
      assert (Y : r ^ 3 - D0 ^ 3 = e * (r ^ 2 + r * D0 + D0 ^ 2)) by (subst e; ring). clear - Y Z0. lia. }
    assert (Y : ab * ((L - Q) * r - L * sum) = ab * ((L - Q) * D0 - L * sum) + e * (ab * (L - Q))) by (subst e; ring).
    clear - X Y HG. lia. }
  assert (G2' : e * (r ^ 2 + ab * Q) <= e * (r ^ 2 + ab * (L - Q))).
  { apply Z.mul_le_mono_nonneg_l; [clear - C6; lia|clear - HM; lia]. }
  assert (N0 : 0 <= e * (r ^ 2 + ab * Q)) by (apply Z.mul_nonneg_nonneg; [clear - C6; lia|pos]).
  assert (G3 : d * (e * (r ^ 2 + ab * Q)) <= Q * ab * r + (Q * d + Q * Q + Q * ab) * (2 * r) + d * (T ^ 2 * (4 * r))).
  { assert (d * (e * (r ^ 2 + ab * Q)) <= d * (r ^ 3 + ab * ((L - Q) * r - L * sum))) as X by (monol; clear - G2 G2'; lia).
    clear - X G1. lia. }
  assert (G4 : e * (r ^ 2 + ab * Q) <= 6 * (Q * ab) + 6 * (Q * r) + 4 * Q ^ 2 + 12 * (r * T ^ 2)).
  { apply Z.mul_le_mono_pos_l with r; [exact R0|].
    assert (X1 : r * (e * (r ^ 2 + ab * Q)) <= 2 * d * (e * (r ^ 2 + ab * Q))) by (monor; exact Dl).
    assert (X2 : 2 * d * (r * Q) <= 3 * r * (r * Q)) by (monor; exact Du).
    assert (X3 : 2 * d * (r * T ^ 2) <= 3 * r * (r * T ^ 2)) by (monor; exact Du).
    clear - X1 X2 X3 G3. lia. }
  assert (6 * (Q * ab) <= e * (Q * ab)) as G5 by (monor; clear - C6; lia).
  clear - G4 G5 S0. lia.
Qed.

(** ** Accuracy of the other reserve *)
Lemma y_loop_last n b c d y0 r : y_loop n b c d y0 = Some r -> 0 <= y0 ->
  exists y, 0 <= y /\ 0 <= r /\ Z.abs (r - y) <= TOL /\ 0 < 2 * y + b - d /\
    y ^ 2 + c * DEC - DEC - (2 * y + b - d) < r * (2 * y + b - d) /\
    r * (2 * y + b - d) <= y ^ 2 + c * DEC.
Proof.
  revert y0. induction n as [|n IH]; intros y0 H P; cbn [y_loop] in H; [discriminate|].
  unbind H as y2 E1. unbind H as num E2. unbind H as y2n E3. unbind H as q0 E4. unbind H as q E5. unbind H as y' E6.
  apply dmul256_floor in E1. apply add256_Some in E2, E4. apply sub256_Some in E5.
  replace N_COINS with (2 * DEC) in E3 by reflexivity. apply dmul256_int in E3.
  apply ddiv256_floor in E6; [|lia].
  destruct (Z.leb_spec (Z.abs (y' - y0)) TOL).
  - injection H as <-. exists y0. destruct E5 as [-> _], E4 as [-> _], E3 as [_ ->], E2 as [-> _].
    replace (y0 * 2 + b - d) with (2 * y0 + b - d) in E6 by ring.
    pose proof DEC_pos. rewrite Z.pow_2_r. repeat split; lia.
  - apply (IH y'); auto. lia.
Qed.

(** The coefficients of the quadratic equation, against the exact ones ([L] is the leverage 2 A). *)
Definition coef_ok (Q L x D b c : Z) : Prop :=
  L * (b - x) <= Q * D < L * (b - x) + L /\
  4 * x * L * c <= D ^ 3 /\ D ^ 3 < 4 * x * L * c + Q * D + Q ^ 2 + 4 * x * L.

(** The result of the iteration satisfies the exact equation up to a small error. *)
Lemma hy_bounds Q T L x D b c y r :
  coef_ok Q L x D b c -> 0 < Q -> 0 < L -> 0 < x -> 0 <= D -> 0 <= r ->
  Z.abs (r - y) <= T ->
  y ^ 2 + c * Q - Q - (2 * y + b - D) < r * (2 * y + b - D) -> r * (2 * y + b - D) <= y ^ 2 + c * Q ->
  let H := 4 * x * r * (L * (x + r) - (L - Q) * D) - Q * D ^ 3 in
  - (4 * x * L * (2 * y + b - D + 2 * Q) + Q ^ 2 * (D + Q)) < H /\ H <= 4 * x * L * (T ^ 2 + r).
Proof.
  intros ((C1 & C2) & C3 & C4) HQ HL Hx HD Hr Ha Lo Hi H.
  remember (2 * y + b - D) as q eqn:Eq. assert (Eb : b = q - 2 * y + D) by (clear - Eq; lia).
  remember (r ^ 2 + (b - D) * r - c * Q) as F eqn:EF.
  assert (FL : - (Q + q) < F).
  { pose proof (sq_nonneg (r - y)) as X. subst F b. clear - Lo X. lia. }
  assert (FU : F <= T ^ 2).
  { apply Z.abs_le in Ha.
    pose proof (Z.mul_nonneg_nonneg (T - (r - y)) (T + (r - y)) ltac:(clear - Ha; lia) ltac:(clear - Ha; lia)) as X.
    subst F b. clear - Hi X. lia. }
  assert (EH : H = 4 * x * L * F + 4 * x * r * (Q * D - L * (b - x)) + Q * (4 * x * L * c - D ^ 3)).
  { subst F. unfold H. ring. }
  assert (K1 : 0 <= 4 * x * r * (Q * D - L * (b - x))) by (apply Z.mul_nonneg_nonneg; [pos|clear - C1; lia]).
  assert (K2 : 4 * x * r * (Q * D - L * (b - x)) <= 4 * x * r * L) by (monol; clear - C2; lia).
  assert (K3 : Q * (4 * x * L * c - D ^ 3) <= Q * 0) by (monol; clear - C3; lia).
  assert (K4 : Q * (- (Q * D + Q ^ 2 + 4 * x * L)) <= Q * (4 * x * L * c - D ^ 3)) by (monol; clear - C4; lia).
  assert (M1 : 4 * x * L * (- (Q + q)) < 4 * x * L * F).
  { apply Z.mul_lt_mono_pos_l; [|exact FL]. apply Z.mul_pos_pos; [clear - Hx; lia|exact HL]. }
  assert (M2 : 4 * x * L * F <= 4 * x * L * T ^ 2) by (monol; exact FU).
  clearbody H. split.
  - clear - EH K1 K4 M1. lia.
  - clear - EH K2 K3 M2. lia.
Qed.

(** The divisor is at least half of the result. *)
Lemma q_lower Q T y r q c : 0 < Q -> 0 < T -> Q <= T ^ 2 -> 0 <= c -> 8 * T <= r -> Z.abs (r - y) <= T ->
  y ^ 2 + c * Q - Q - q < r * q -> 0 < q -> r <= 2 * q.
Proof.
  intros HQ HT HQT Hc Hr Ha H Hq.
  destruct (Z.le_gt_cases r (2 * q)) as [|C]; [assumption|exfalso].
  assert (0 <= c * Q) as P by pos.
  assert (Hy : 7 * r <= 8 * y) by (clear - Hr Ha; lia).
  assert (Y2 : (7 * r) ^ 2 <= (8 * y) ^ 2) by (apply Z.pow_le_mono_l; clear - Hy Hr HT; lia).
  assert (T2 : (8 * T) ^ 2 <= r ^ 2) by (apply Z.pow_le_mono_l; clear - Hr HT; lia).
  assert (M : (r + 1) * (2 * q) <= (r + 1) * r) by (apply Z.mul_le_mono_nonneg_l; clear - C Hr HT; lia).
  assert (R1 : 8 * r <= r * r) by (apply Z.mul_le_mono_nonneg_r; clear - Hr HT; lia).
  clear - H P Y2 T2 M R1 HQT. lia.
Qed.

(** The computed reserve is not below the exact one by more than 2 + (8 Q + Q (D + Q) / (2 x)) / Y. *)
Lemma y_lower Q T L x D b c y r Y0 :
  coef_ok Q L x D b c -> 0 < Q -> 0 < T -> Q <= T ^ 2 -> 2 * Q <= L -> 0 < x -> 0 <= D -> 0 <= c ->
  8 * T <= r -> Z.abs (r - y) <= T -> 0 < 2 * y + b - D ->
  y ^ 2 + c * Q - Q - (2 * y + b - D) < r * (2 * y + b - D) -> r * (2 * y + b - D) <= y ^ 2 + c * Q ->
  4 * x * Y0 * (L * (x + Y0) - (L - Q) * D) - Q * D ^ 3 <= 0 ->
  (Y0 - r - 2) * (2 * x * r) <= 16 * x * Q + Q * (D + Q).
Proof.
  intros C HQ HT HQT HL Hx HD Hc Hr Ha Hq Lo Hi HY.
  assert (L0 : 0 < L) by (clear - HL HQ; lia). assert (R0 : 0 < r) by (clear - Hr HT; lia).
  pose proof (hy_bounds Q T L x D b c y r C HQ L0 Hx HD ltac:(clear - R0; lia) Ha Lo Hi) as [B _]. cbn zeta in B.
  pose proof (q_lower Q T y r _ c HQ HT HQT Hc Hr Ha Lo Hq) as QL.
  destruct C as ((C1 & _) & _).
  remember (2 * y + b - D) as q eqn:Eq.
  assert (Rhs : 0 <= 16 * x * Q + Q * (D + Q)) by pos.
  destruct (Z.le_gt_cases (Y0 - r) 2) as [E2|E2].
  { assert ((Y0 - r - 2) * (2 * x * r) <= 0 * (2 * x * r)) as X by (monor; clear - E2; lia). clear - X Rhs. lia. }
  remember (Y0 - r) as e eqn:Ee. assert (EY : Y0 = r + e) by (clear - Ee; lia). subst Y0.
  (* derivative *)
  remember (2 * L * r + L * x - (L - Q) * D) as h eqn:Eh.
  assert (HH : L * q <= 2 * h).
  { assert (L * (2 * (q - 2 * T)) <= L * (2 * (q + 2 * (r - y)))) as X1
      by (apply Z.mul_le_mono_nonneg_l; [clear - L0; lia|clear - Ha; lia]).
    assert (L * q <= L * (2 * (q - 2 * T))) as X2 by (apply Z.mul_le_mono_nonneg_l; [clear - L0; lia|clear - QL Hr; lia]).
    assert (X3 : 2 * (L * (q + 2 * (r - y))) = 2 * (L * (2 * r + b - D))) by (subst q; ring).
    subst h. clear - X1 X2 X3 C1. lia. }
  assert (G : 4 * x * (r + e) * (L * (x + (r + e)) - (L - Q) * D) - Q * D ^ 3 >=
              4 * x * r * (L * (x + r) - (L - Q) * D) - Q * D ^ 3 + e * (4 * x * h)).
  { assert (0 <= 4 * x * L * e ^ 2) as X by pos. subst h. clear - X. lia. }
  assert (G1 : e * (4 * x * h) < 4 * x * L * (q + 2 * Q) + Q ^ 2 * (D + Q)) by (clear - G HY B; lia).
  assert (G2 : e * (2 * x) * (L * q) <= e * (2 * x) * (2 * h)).
  { apply Z.mul_le_mono_nonneg_l; [|exact HH]. apply Z.mul_nonneg_nonneg; [clear - E2; lia|pos]. }
  assert (G3 : Q * (D + Q) * (2 * Q) <= Q * (D + Q) * L) by (monol; exact HL).
  assert (G4 : L * (e * (4 * x * q)) < L * (8 * x * (q + 2 * Q) + Q * (D + Q))).
  { rewrite Z.pow_2_r in G1. clear - G1 G2 G3. lia. }
  apply Z.mul_lt_mono_pos_l in G4; [|exact L0].
  assert (G5 : (e - 2) * (2 * x) * r <= (e - 2) * (2 * x) * (2 * q)).
  { apply Z.mul_le_mono_nonneg_l; [|exact QL]. apply Z.mul_nonneg_nonneg; [clear - E2; lia|pos]. }
  clear - G4 G5. lia.
Qed.

(** ... and not above it by more than 1 + T^2 / Y. *)
Lemma y_upper Q T L x D b c y r Y0 :
  coef_ok Q L x D b c -> 0 < Q -> 0 < T -> 0 < L -> 0 < x -> 0 <= D -> 0 <= r ->
  Z.abs (r - y) <= T ->
  y ^ 2 + c * Q - Q - (2 * y + b - D) < r * (2 * y + b - D) -> r * (2 * y + b - D) <= y ^ 2 + c * Q ->
  0 < Y0 -> 0 <= 4 * x * Y0 * (L * (x + Y0) - (L - Q) * D) - Q * D ^ 3 ->
  (r - Y0 - 1) * r <= T ^ 2.
Proof.
  intros C HQ HT HL Hx HD Hr Ha Lo Hi HY0 HY.
  pose proof (hy_bounds Q T L x D b c y r C HQ HL Hx HD Hr Ha Lo Hi) as [_ B]. cbn zeta in B.
  destruct (Z.le_gt_cases (r - Y0) 0) as [E|E].
  { pose proof (sq_nonneg T) as P. assert ((r - Y0 - 1) * r <= 0 * r) as X by (monor; clear - E; lia). clear - X P. lia. }
  remember (r - Y0) as e eqn:Ee. assert (EY : r = Y0 + e) by (clear - Ee; lia).
  remember (L * (x + Y0) - (L - Q) * D) as k eqn:Ek.
  assert (K : 0 <= k).
  { assert (P : 0 <= Q * D ^ 3) by pos. destruct (Z.lt_ge_cases k 0) as [N|]; [exfalso|assumption].
    assert (4 * x * Y0 * k < 4 * x * Y0 * 0) as X
      by (apply Z.mul_lt_mono_pos_l; [|exact N]; apply Z.mul_pos_pos; [clear - Hx; lia|exact HY0]).
    clear - X HY P. lia. }
  assert (G : 4 * x * r * (L * (x + r) - (L - Q) * D) - Q * D ^ 3 =
              4 * x * Y0 * k - Q * D ^ 3 + 4 * x * e * k + 4 * x * L * (e * r)).
  { subst k r. ring. }
  assert (P : 0 <= 4 * x * e * k) by (apply Z.mul_nonneg_nonneg; [apply Z.mul_nonneg_nonneg; [pos|clear - E; lia]|exact K]).
  assert (F : 4 * x * L * (e * r) <= 4 * x * L * (T ^ 2 + r)) by (clear - G P B HY; lia).
  apply Z.mul_le_mono_pos_l in F; [|apply Z.mul_pos_pos; [clear - Hx; lia|exact HL]]. clear - F. lia.
Qed.

(** ** The functions of the pair *)

(** The leverage (2 A, in units of 10^-18) of a stored amplification. *)
Definition lev (amp : Z) : Z := amp * 20000000000000000.
Lemma lev_ge amp : 100 <= amp -> 2 * DEC <= lev amp.
Proof. unfold lev, DEC. lia. Qed.

Lemma compute_d_inv amp x y D : 0 <= amp -> 0 <= x -> 0 <= y -> compute_d amp x y = Some D -> 0 < x + y ->
  exists ab d dp rv, DEC * ab <= 4 * x * y < DEC * ab + DEC /\ 0 < ab /\ 0 <= d /\ 0 <= D /\ Z.abs (D - d) <= TOL /\
    d_step_facts DEC (lev amp) (x + y) ab d dp D rv.
Proof.
  intros Ha Hx Hy H S. unfold compute_d in H.
  unbind H as a E1. unbind H as L E2. unbind H as x2 E3. unbind H as y2 E4. unbind H as sum E5.
  apply dratio256_Some in E1. destruct E1 as (_ & -> & _).
  replace N_COINS with (2 * DEC) in * by reflexivity. apply dmul256_int in E2, E3, E4.
  destruct E2 as (_ & ->), E3 as (_ & ->), E4 as (_ & ->). apply add256_Some in E5. destruct E5 as (-> & _).
  destruct (Z.eqb_spec (x + y) 0); [lia|].
  unbind H as ab E6. apply dmul256_floor in E6. destruct E6 as (A0 & A1).
  replace (amp * DEC / AMP_PRECISION * 2) with (lev amp) in H.
  2: { unfold lev, AMP_PRECISION. replace (amp * DEC) with (amp * 10000000000000000 * 100) by (unfold DEC; ring).
       rewrite Z.div_mul by discriminate. ring. }
  apply d_loop_last in H; [|lia]. destruct H as (d & p & dp & D0 & Hp & Hdp & Hs & Hab).
  destruct (d_step_ok _ _ _ _ _ _ _ D0 A0 Hp Hdp Hs) as (A & R & _ & rv & _ & F).
  exists ab, d, dp, rv. replace (x * 2 * (y * 2)) with (4 * x * y) in A1 by ring. auto 10.
Qed.

(** [y_raw] runs the quadratic iteration for the computed invariant. *)
Lemma y_raw_inv amp x' x y r : 0 < amp -> 0 <= x -> 0 <= y -> 0 <= x' -> y_raw amp x' x y = Some r ->
  exists D b c yl, compute_d amp x y = Some D /\ 0 < x' /\ 0 <= D /\ 0 <= c /\ 0 <= r /\
    coef_ok DEC (lev amp) x' D b c /\ Z.abs (r - yl) <= TOL /\ 0 < 2 * yl + b - D /\
    yl ^ 2 + c * DEC - DEC - (2 * yl + b - D) < r * (2 * yl + b - D) /\
    r * (2 * yl + b - D) <= yl ^ 2 + c * DEC.
Proof.
  intros Ha Hx Hy Hx' H. unfold y_raw in H. unbind H as D E0.
  assert (D0 : 0 <= D).
  { destruct (Z.eq_dec (x + y) 0) as [Z0|NZ].
    - unfold compute_d in E0. repeat (let E := fresh in unbind E0 as ? E).
      num_inv. rewrite Z0 in E0. cbn in E0. injection E0 as <-. lia.
    - destruct (compute_d_inv amp x y D) as (? & ? & ? & ? & ?); try lia; tauto. }
  unbind H as a E1. unbind H as L E2. unbind H as ap E3. unbind H as p E4. unbind H as num E5. unbind H as nn E6.
  unbind H as n4 E7. unbind H as den E8. unbind H as c E9. unbind H as da E10. unbind H as db E11. unbind H as b E12.
  apply dratio256_Some in E1, E3. destruct E1 as (_ & -> & _), E3 as (_ & -> & _). rewrite !Z.div_1_r in *.
  replace N_COINS with (2 * DEC) in * by reflexivity.
  unfold AMP_PRECISION in *. apply dmul256_int in E2, E5, E6, E10.
  destruct E2 as (_ & ->), E5 as (_ & ->), E6 as (_ & ->), E10 as (_ & ->).
  replace (2 * DEC * 2) with (4 * DEC) in E7 by ring. apply dmul256_int in E7. destruct E7 as (_ & ->).
  replace (amp * DEC * 2) with (2 * amp * DEC) in * by ring. apply dmul256_int in E8. destruct E8 as (N0 & ->).
  apply ddiv256_floor in E9; [|exact N0]. destruct E9 as (N1 & C0 & C1).
  apply ddiv256_floor in E11; [|unfold DEC; lia]. destruct E11 as (_ & B0 & B1).
  apply add256_Some in E12. destruct E12 as (-> & _).
  apply pow3_bounds in E4; [|exact D0]. destruct E4 as (P0 & P1 & P2).
  apply y_loop_last in H; [|exact D0]. destruct H as (yl & Y0 & R0 & Hab & Hq & Lo & Hi).
  assert (X : 0 < x') by (destruct (Z.eq_dec x' 0) as [->|]; [cbn in N1; lia|lia]).
  exists D, (x' + db), c, yl. split; [reflexivity|]. split; [exact X|]. split; [exact D0|]. split; [exact C0|]. split; [exact R0|]. split; [|split; [exact Hab|split; [exact Hq|split; [exact Lo|exact Hi]]]].
  unfold coef_ok. rewrite !Z.pow_2_r. replace (x' + db - x') with db by ring.
  unfold lev. remember DEC as Q eqn:EQ. assert (EQ' : Q = 50 * 20000000000000000) by (subst Q; reflexivity).
  remember 20000000000000000 as u. assert (U : 0 < u) by lia. clear Hequ EQ.
  repeat split.
  - assert (db * amp * 2 <= D * 100).
    { apply Z.mul_le_mono_pos_r with Q; [lia|]. clear - B1. lia. }
    assert (u * (db * amp) <= u * (D * 50)) by (monol; lia). subst Q. lia.
  - assert (D * 100 < (db + 1) * amp * 2).
    { apply Z.mul_lt_mono_pos_r with Q; [lia|]. clear - B1. lia. }
    assert (u * (D * 50) < u * ((db + 1) * amp)) by (apply Z.mul_lt_mono_pos_l; lia). subst Q. lia.
  - assert (u * (x' * 4 * (2 * amp) * c) <= u * (p * 100 * Q)) by (monol; lia). subst Q. lia.
  - assert (u * (p * 100 * Q) <= u * (x' * 4 * (2 * amp) * c + x' * 4 * (2 * amp))) by (monol; lia). subst Q. lia.
Qed.
