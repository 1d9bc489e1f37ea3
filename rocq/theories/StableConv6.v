(** What the iteration for the other reserve returns when a reserve shrinks, with bounds from below. *)
From Coq Require Import ZArith Lia Bool List.
From Verif Require Import Num StableMath StableProofs StableAcc StableModel StableProps StableValueProps StableTradeProps StableConv StableConv2 StableConv3 StableConv4 StableConv5.
Open Scope Z_scope.

Lemma slope_low be C y r sg : 333000000000 <= sg -> sg ^ 2 <= be ^ 2 + 4 * C -> Z.abs (r - y) <= TOL -> 0 < 2 * y + be ->
  y ^ 2 + C - DEC - (2 * y + be) < r * (2 * y + be) -> 10000000000 <= 2 * y + be.
Proof.
  intros Hs Hd Ha Hq Lo. assert (HQ : DEC = 1000000000000000000) by reflexivity. assert (HT : TOL = 1000000000000) by reflexivity.
  destruct (Z.le_gt_cases 10000000000 (2 * y + be)) as [|K]; [assumption|exfalso]. remember (2 * y + be) as q eqn:Eq.
  assert (E : 2 * (2 * (y ^ 2 + C)) + 2 * (be * q) = q ^ 2 + be ^ 2 + 4 * C) by (rewrite Eq; ring).
  assert (F : 2 * (r * q) + be * q = q ^ 2 + 2 * ((r - y) * q)) by (rewrite Eq; ring).
  assert (G : (r - y) * q <= TOL * q) by (apply Z.mul_le_mono_nonneg_r; lia).
  assert (q2 : q ^ 2 <= 10000000000 * q) by (rewrite Z.pow_2_r; apply Z.mul_le_mono_nonneg_r; lia).
  assert (s2 : 333000000000 ^ 2 <= sg ^ 2) by (apply Z.pow_le_mono_l; lia). lia.
Qed.

Lemma y_above be C y r sg Y : 333000000000 <= sg -> sg ^ 2 <= be ^ 2 + 4 * C -> Z.abs (r - y) <= TOL -> 0 < 2 * y + be ->
  y ^ 2 + C - DEC - (2 * y + be) < r * (2 * y + be) -> Gq be C Y <= 0 -> Y <= r + 100000001.
Proof.
  intros Hs Hd Ha Hq Lo H. pose proof (slope_low be C y r sg Hs Hd Ha Hq Lo) as S0. assert (HQ : DEC = 1000000000000000000) by reflexivity.
  destruct (Z.le_gt_cases Y (r + 100000001)) as [|K]; [assumption|exfalso]. rewrite (Gq_at be C y Y) in H. unfold Gq in H. remember (2 * y + be) as q eqn:Eq.
  assert (A : 10000000000 * 100000001 <= q * (Y - r - 1)) by (apply Z.mul_le_mono_nonneg; lia).
  pose proof (sq_nonneg (Y - y)) as B. assert (E : y ^ 2 + be * y - C + q * (Y - y) = q * Y - y ^ 2 - C) by (rewrite Eq; ring).
  lia.
Qed.

(** Asking for a whole token outweighs every rounding. *)
Lemma ask_covers L A O D B : 2 * DEC <= L <= 2000000 * DEC -> DEC <= O -> A <= 10 ^ 9 * O -> DEC <= D -> A <= 47000 * D -> DEC <= B -> 2 * B <= A ->
  Hy L A (D + 7) O <= 0 -> Hy L (A - B) D (O + 100000001) + DEC * (DEC * D + DEC ^ 2 + 4 * (A - B) * L) <= 0.
Proof.
  intros HL HO AO HD AD HB BA H. assert (HQ : DEC = 1000000000000000000) by reflexivity. unfold Hy in *.
  set (W0 := L * (A + O) - (L - DEC) * (D + 7)) in *. set (W1 := L * (A - B + (O + 100000001)) - (L - DEC) * D).
  assert (WW : W1 <= W0).
  { unfold W0, W1. assert (L * 100000008 <= L * B) by (apply Z.mul_le_mono_nonneg_l; lia). clear - H0 HL HQ. lia. }
  clearbody W0 W1. set (e := DEC * D + DEC ^ 2 + 4 * (A - B) * L) in *.
  (* the roundings *)
  assert (D2 : DEC * D <= D ^ 2) by (rewrite Z.pow_2_r; apply Z.mul_le_mono_nonneg_r; lia).
  assert (Ee : 10 * A * e + 220 * A * D ^ 2 <= 8 * (B * D ^ 3)).
  { assert (L1 : (A - B) * L <= A * (2000000 * DEC)) by (apply Z.mul_le_mono_nonneg; lia).
    assert (e1 : e <= 3 * D ^ 2 + 8000000 * DEC * A). { unfold e. clear - L1 D2 HD HQ. rewrite (Z.pow_2_r DEC). assert (DEC * DEC <= DEC * D) by (apply Z.mul_le_mono_nonneg_l; lia). lia. }
    assert (e2 : e <= 3 * D ^ 2 + 376000000000 * DEC * D) by (clear - e1 AD HQ; lia).
    assert (e3 : e <= 376000000003 * D ^ 2) by (clear - e2 D2; lia).
    assert (F1 : 10 * A * e + 220 * A * D ^ 2 <= 3760000000250 * (A * D ^ 2)).
    { assert (A * e <= A * (376000000003 * D ^ 2)) by (apply Z.mul_le_mono_nonneg_l; lia). clear - H0 HB BA HQ. lia. }
    assert (F2 : A * D ^ 2 <= 47000 * D * D ^ 2) by (apply Z.mul_le_mono_nonneg_r; [apply sq_nonneg|lia]).
    assert (F3 : DEC * D ^ 3 <= B * D ^ 3) by (apply Z.mul_le_mono_nonneg_r; [apply Z.pow_nonneg; lia|lia]).
    replace (47000 * D * D ^ 2) with (47000 * D ^ 3) in F2 by ring. assert (0 <= D ^ 3) by (apply Z.pow_nonneg; lia). clear - F1 F2 F3 H0 HQ. lia. }
  assert (P3 : (D + 7) ^ 3 <= D ^ 3 + 22 * D ^ 2).
  { replace ((D + 7) ^ 3) with (D ^ 3 + 21 * D ^ 2 + 147 * D + 343) by ring. clear - D2 HD HQ. lia. }
  assert (D3 : 0 < D ^ 3) by (apply Z.pow_pos_nonneg; lia).
  apply Z.mul_le_mono_pos_l with (10 * A); [lia|].
  assert (M : 10 * A * (4 * (A - B) * (O + 100000001) * W1) <= DEC * (D + 7) ^ 3 * (10 * A - 8 * B)).
  { assert (R0 : 0 <= DEC * (D + 7) ^ 3 * (10 * A - 8 * B)) by (apply Z.mul_nonneg_nonneg; [apply Z.mul_nonneg_nonneg; [lia|apply Z.pow_nonneg; lia]|lia]).
    destruct (Z.le_gt_cases W1 0) as [N|N].
    - assert (K : 0 <= 10 * A * (4 * (A - B) * (O + 100000001))) by (repeat apply Z.mul_nonneg_nonneg; lia).
      assert (10 * A * (4 * (A - B) * (O + 100000001)) * W1 <= 0) by (apply Z.mul_nonneg_nonpos; assumption). clear - H0 R0. lia.
    - assert (K1 : 10 * ((A - B) * (O + 100000001)) <= O * (10 * A - 8 * B)).
      { clear - HB BA HO AO HQ. assert (DEC * O <= B * O) by (apply Z.mul_le_mono_nonneg_r; lia). assert (0 <= B * 100000001) by lia.  lia. }
      assert (K2 : 10 * ((A - B) * (O + 100000001)) * W1 <= O * (10 * A - 8 * B) * W0) by (apply Z.mul_le_mono_nonneg; try lia; repeat apply Z.mul_nonneg_nonneg; lia).
      assert (K3 : 4 * A * (10 * ((A - B) * (O + 100000001)) * W1) <= 4 * A * (O * (10 * A - 8 * B) * W0)) by (apply Z.mul_le_mono_nonneg_l; lia).
      assert (K4 : 4 * A * O * W0 * (10 * A - 8 * B) <= DEC * (D + 7) ^ 3 * (10 * A - 8 * B)) by (apply Z.mul_le_mono_nonneg_r; lia).
      clear - K3 K4. lia. }
  assert (M2 : (D + 7) ^ 3 * (10 * A - 8 * B) <= 10 * A * (D ^ 3 - e)).
  { assert (V : (D + 7) ^ 3 * (10 * A - 8 * B) <= (D ^ 3 + 22 * D ^ 2) * (10 * A - 8 * B)) by (apply Z.mul_le_mono_nonneg_r; lia).
    assert (V2 : 0 <= B * D ^ 2) by (apply Z.mul_nonneg_nonneg; [lia|apply sq_nonneg]). assert (V3 : 0 <= B * D ^ 3) by (apply Z.mul_nonneg_nonneg; lia). clear - V V2 V3 Ee. lia. }
  assert (M3 : DEC * ((D + 7) ^ 3 * (10 * A - 8 * B)) <= DEC * (10 * A * (D ^ 3 - e))) by (apply Z.mul_le_mono_nonneg_l; lia).
  clear - M M3. lia.
Qed.

Lemma Gq_Hy L x D b c Y : 0 < L -> 0 < x -> 0 < Y -> coef_ok DEC L x D b c -> Hy L x D Y + DEC * (DEC * D + DEC ^ 2 + 4 * x * L) <= 0 -> Gq (b - D) (c * DEC) Y <= 0.
Proof.
  intros HL Hx HY ((C1 & _) & _ & C4) H. assert (HQ : DEC = 1000000000000000000) by reflexivity. unfold Hy in H. unfold Gq.
  apply Z.mul_le_mono_pos_l with (4 * x * L); [apply Z.mul_pos_pos; lia|]. rewrite Z.mul_0_r.
  assert (A : 4 * x * Y * (L * (b - x)) <= 4 * x * Y * (DEC * D)) by (apply Z.mul_le_mono_nonneg_l; [apply Z.mul_nonneg_nonneg; lia|exact C1]).
  assert (B : DEC * D ^ 3 <= DEC * (4 * x * L * c + DEC * D + DEC ^ 2 + 4 * x * L)) by (apply Z.mul_le_mono_nonneg_l; lia).
  replace (4 * x * L * (Y ^ 2 + (b - D) * Y - c * DEC)) with (4 * x * Y * (L * (x + Y) - L * D) + 4 * x * Y * (L * (b - x)) - DEC * (4 * x * L * c)) by ring.
  replace (4 * x * Y * (L * (x + Y) - (L - DEC) * D)) with (4 * x * Y * (L * (x + Y) - L * D) + 4 * x * Y * (DEC * D)) in H by ring.
  replace (DEC * (4 * x * L * c + DEC * D + DEC ^ 2 + 4 * x * L)) with (DEC * (4 * x * L * c) + DEC * (DEC * D + DEC ^ 2 + 4 * x * L)) in B by ring.
  clear - A B H. lia.
Qed.

(** With at least a whole token and at most half of a reserve taken out, the other reserve can be computed, and has grown. *)
Lemma y_ask a (one : bool) x y B : 100 <= a <= 100000000 -> ordinary x y -> DEC <= B -> 2 * B <= (if one then y else x) ->
  exists r, y_raw a ((if one then y else x) - B) x y = Some r /\ (if one then x else y) <= r <= 10 ^ 37.
Proof.
  intros Ha O HB HA. assert (HQ : DEC = 1000000000000000000) by reflexivity. pose proof O as (X & Y & XY & YX & Su). change (10 ^ 18) with DEC in X, Y.
  set (A := if one then y else x) in *. set (Q := if one then x else y) in *.
  assert (HH : DEC <= A /\ A <= 10 ^ 30 /\ DEC <= Q /\ A <= 10 ^ 9 * Q /\ (x = A \/ y = A)) by (unfold A, Q; destruct one; lia). destruct HH as (A1 & A2 & Q1 & AQ & Ae).
  destruct (y_raw_half a (A - B) x y Ha O ltac:(lia) ltac:(lia)) as (r & Er). exists r. split; [exact Er|].
  destruct (compute_d_some a x y Ha O) as (D & ED & Hd). destruct (compute_d_range a x y D Ha O ED) as (_ & XD & YD). pose proof (lev_range a Ha) as HL.
  destruct (d_facts a x y D Ha O ED Hd) as (_ & _ & Du & _).
  destruct (y_raw_inv a (A - B) x y r ltac:(lia) ltac:(lia) ltac:(lia) ltac:(lia) Er) as (D' & b & c & yl & ED' & X0 & D0 & C0 & R0 & Co & Hab & Hq & Lo & Hi).
  rewrite ED in ED'. injection ED' as <-. split.
  - assert (H7 : Hy (lev a) A (D + 7) Q <= 0).
    { destruct (Z.le_gt_cases (Hy (lev a) A (D + 7) Q) 0) as [|K]; [assumption|exfalso].
      assert (K' : 0 < Hy (lev a) x (D + 7) y) by (unfold A, Q in K; destruct one; [rewrite Hy_sym|]; exact K).
      pose proof (computed_low a x y D (D + 7) Ha X Y ED Hd ltac:(lia) K'). lia. }
    assert (AD : A <= 47000 * D) by (destruct Ae as [<-|<-]; assumption).
    pose proof (ask_covers (lev a) A Q D B HL Q1 AQ Hd AD HB HA H7) as Cv.
    pose proof (Gq_Hy (lev a) (A - B) D b c (Q + 100000001) ltac:(lia) ltac:(lia) ltac:(lia) Co Cv) as Gn.
    destruct (sigma_low (lev a) (A - B) D b c HL ltac:(lia) Hd Co C0) as (S1 & _ & S3 & S0). cbv zeta in *. set (sg := Z.sqrt ((b - D) ^ 2 + 4 * (c * DEC))) in *. clearbody sg.
    replace (2 * yl + b - D) with (2 * yl + (b - D)) in * by ring.
    pose proof (y_above (b - D) (c * DEC) yl r sg (Q + 100000001) ltac:(lia) (proj1 S1) Hab Hq Lo Gn). lia.
  - destruct (Z.le_gt_cases DEC r) as [K|K]; [|lia].
    destruct (c63_reserve a (A - B) x y D r (D + DEC) ltac:(lia) ltac:(lia) ltac:(lia) ltac:(lia) ED Er K ltac:(lia)) as (_ & Bd).
    { assert ((D + DEC) * 1 <= (D + DEC) * (A - B)) by (apply Z.mul_le_mono_nonneg_l; lia). lia. }
    assert (H0 : 0 <= Hy (lev a) (A - B) D (10 ^ 36)).
    { unfold Hy. set (L := lev a) in *. clearbody L. assert (Dm : D <= 11 * 10 ^ 29) by lia.
      assert (D3 : D ^ 3 <= (11 * 10 ^ 29) ^ 3) by (apply Z.pow_le_mono_l; lia).
      assert (W : 10 ^ 54 <= L * (A - B + 10 ^ 36) - (L - DEC) * D).
      { assert (2 * DEC * (10 ^ 36 - 11 * 10 ^ 29) <= L * (A - B + 10 ^ 36 - D)) by (apply Z.mul_le_mono_nonneg; lia). assert (0 <= DEC * D) by lia. lia. }
      set (w := L * (A - B + 10 ^ 36) - (L - DEC) * D) in *. clearbody w.
      assert (4 * DEC * 10 ^ 36 * 10 ^ 54 <= 4 * (A - B) * 10 ^ 36 * w) by (apply Z.mul_le_mono_nonneg; lia). lia. }
    specialize (Bd (10 ^ 36) ltac:(lia) H0). lia.
Qed.
