(** C32: where the fee of the concentrated pair is the outer fee. *)
From Coq Require Import ZArith Lia Bool List.
From Verif Require Import Num Ledger PclMath PclModel PclParamProps.
Import ListNotations.
Open Scope Z_scope.

(** The imbalance measure of the code against the exact (x0-x1)^2 / (x0+x1)^2. *)
Lemma measure x0 x1 m s2 k0 : 0 <= x0 -> 0 <= x1 -> 10 ^ 18 <= x0 + x1 ->
  m = x0 * x1 / DEC -> s2 = (x0 + x1) * (x0 + x1) / DEC -> k0 = 4 * m * DEC / s2 ->
  (DEC - k0 + 2) * ((x0 + x1) * (x0 + x1)) >= DEC * ((x0 - x1) * (x0 - x1)) /\
  (DEC - k0 - 5) * ((x0 + x1) * (x0 + x1)) <= DEC * ((x0 - x1) * (x0 - x1)).
Proof.
  intros X0 X1 L Em Es Ek. pose proof DEC_pos as D. assert (D1 : DEC = 10 ^ 18) by reflexivity.
  assert (Q : (x0 - x1) * (x0 - x1) = (x0 + x1) * (x0 + x1) - 4 * (x0 * x1)) by lia. rewrite Q. clear Q.
  assert (P : 0 <= x0 * x1) by (apply Z.mul_nonneg_nonneg; auto).
  assert (AG : 4 * (x0 * x1) <= (x0 + x1) * (x0 + x1)) by (pose proof (Z.square_nonneg (x0 - x1)); lia).
  assert (B : DEC * DEC <= (x0 + x1) * (x0 + x1)) by (apply Z.mul_le_mono_nonneg; lia).
  set (w := x0 * x1) in *. set (q := (x0 + x1) * (x0 + x1)) in *. clearbody w q.
  pose proof (Z.mul_div_le w DEC D) as M1. pose proof (Z.mul_succ_div_gt w DEC D) as M2. rewrite <- Em in M1, M2.
  pose proof (Z.mul_div_le q DEC D) as S1. pose proof (Z.mul_succ_div_gt q DEC D) as S2. rewrite <- Es in S1, S2.
  assert (Sp : DEC <= s2) by (rewrite Es; apply Z.div_le_lower_bound; lia).
  pose proof (Z.mul_div_le (4 * m * DEC) s2 ltac:(lia)) as K1. pose proof (Z.mul_succ_div_gt (4 * m * DEC) s2 ltac:(lia)) as K2.
  rewrite <- Ek in K1, K2.
  assert (Mp : 0 <= m) by (rewrite Em; apply Z.div_pos; lia).
  assert (Kp : 0 <= k0) by (rewrite Ek; apply Z.div_pos; nia). clear Em Es Ek x0 x1 X0 X1 L.
  assert (Kd : k0 <= DEC + 2).
  { apply Z.nlt_ge. intros G. assert (s2 * (DEC + 3) <= s2 * k0) by (apply Z.mul_le_mono_nonneg_l; lia).
    assert (4 * m * DEC <= q) by lia. assert (q < DEC * (s2 + 1)) by lia. nia. }
  split.
  - (* k0 q <= DEC k0 (s2+1) <= DEC (4 m DEC + k0) <= DEC (4 w) + DEC k0, and DEC k0 <= 2 q *)
    assert (k0 * q <= k0 * (DEC * (s2 + 1))) by (apply Z.mul_le_mono_nonneg_l; lia).
    assert (DEC * (s2 * k0) <= DEC * (4 * m * DEC)) by (apply Z.mul_le_mono_nonneg_l; lia).
    assert (DEC * (4 * (DEC * m)) <= DEC * (4 * w)) by (apply Z.mul_le_mono_nonneg_l; lia).
    assert (DEC * k0 <= DEC * (DEC + 2)) by (apply Z.mul_le_mono_nonneg_l; lia).
    assert (DEC * (DEC + 2) <= 2 * (DEC * DEC)) by (rewrite D1; lia). lia.
  - (* (k0 + 1) q >= DEC (k0+1) s2 >= DEC 4 m DEC >= DEC 4 (w - DEC) *)
    assert (DEC * (4 * m * DEC) <= DEC * (s2 * Z.succ k0)) by (apply Z.mul_le_mono_nonneg_l; lia).
    assert ((DEC * s2) * Z.succ k0 <= q * Z.succ k0) by (apply Z.mul_le_mono_nonneg_r; lia).
    assert (4 * DEC * w <= 4 * DEC * (DEC * Z.succ m)) by (apply Z.mul_le_mono_nonneg_l; lia). lia.
Qed.

Lemma fee_weight p x0 x1 f : 0 <= fee_gamma p -> 0 <= x0 -> 0 <= x1 -> 10 ^ 18 <= x0 + x1 -> fee p x0 x1 = Some f ->
  exists b k, 0 < b /\
  (b - fee_gamma p + 2) * ((x0 + x1) * (x0 + x1)) >= DEC * ((x0 - x1) * (x0 - x1)) /\
  (b - fee_gamma p - 5) * ((x0 + x1) * (x0 + x1)) <= DEC * ((x0 - x1) * (x0 - x1)) /\
  k = fee_gamma p * DEC / b /\
  (if k <=? 10 ^ 15 then f = out_fee p else f = k * mid_fee p / DEC + (DEC - k) * out_fee p / DEC /\ k <= DEC).
Proof.
  intros G X0 X1 L E. unfold fee in E.
  unbind E as sum E1. unbind E as m E2. unbind E as n E3. unbind E as s2 E4. unbind E as k0 E5.
  unbind E as a E6. unbind E as b E7. unbind E as k1 E8. cbv zeta in E. unbind E as u1 E9. unbind E as r E10.
  unbind E as u2 E11. apply add256_Some in E as (-> & _), E1 as (-> & _), E6 as (-> & _).
  apply sub256_Some in E10 as (-> & K & _), E7 as (-> & Kb & _). apply dmul256_Some in E9 as (-> & _), E2 as (Em & _), E3 as (-> & _), E4 as (Es & _).
  apply dmul256_Some in E11 as (-> & _). apply ddiv256_Some in E8 as (Kn & K2 & _), E5 as (_ & K3 & _).
  assert (F : m * FOUR_D / DEC = 4 * m).
  { change FOUR_D with (4 * DEC). rewrite Z.mul_assoc. rewrite Z.div_mul by (pose proof DEC_pos; lia). lia. }
  rewrite F in K3. destruct (measure x0 x1 m s2 k0 X0 X1 L Em Es K3) as (A1 & A2).
  exists (fee_gamma p + DEC - k0), k1. split; [lia|]. split; [lia|]. split; [lia|]. split; [exact K2|].
  change (10 ^ 15) with FEE_TOL. destruct (k1 <=? FEE_TOL).
  - rewrite Z.mul_0_l, Z.sub_0_r, Z.div_0_l by (pose proof DEC_pos; lia). rewrite Z.mul_comm, Z.div_mul by (pose proof DEC_pos; lia). reflexivity.
  - split; [reflexivity|lia].
Qed.

(** A pool further out than gamma allows, by a factor of a thousand, takes exactly the outer fee. *)
Theorem c32_far p x0 x1 f : 0 <= fee_gamma p -> 0 <= x0 -> 0 <= x1 -> 10 ^ 18 <= x0 + x1 ->
  (999 * fee_gamma p + 3) * (x0 + x1) ^ 2 <= 10 ^ 18 * (x0 - x1) ^ 2 -> fee p x0 x1 = Some f -> f = out_fee p.
Proof.
  intros G X0 X1 L H E. destruct (fee_weight p x0 x1 f G X0 X1 L E) as (b & k & B & A1 & _ & K & F).
  rewrite !Z.pow_2_r in H. change (10 ^ 18) with DEC in H.
  assert (Q : 0 < (x0 + x1) * (x0 + x1)) by (apply Z.mul_pos_pos; lia).
  assert (Lb : 1000 * fee_gamma p + 1 <= b).
  { apply Z.nlt_ge. intros N.
    assert ((b - fee_gamma p + 2) * ((x0 + x1) * (x0 + x1)) < (999 * fee_gamma p + 3) * ((x0 + x1) * (x0 + x1)))
      by (apply Z.mul_lt_mono_pos_r; lia). lia. }
  destruct (Z.leb_spec k (10 ^ 15)) as [|N]; [exact F|]. exfalso.
  assert (k < 10 ^ 15 + 1) by (rewrite K; apply Z.div_lt_upper_bound; [lia|]; change DEC with (10 ^ 18); lia). lia.
Qed.
(** A pool nearer than that takes less, if the two fees differ by more than 10^-15. *)
Theorem c32_near p x0 x1 f : 0 <= fee_gamma p -> 0 <= mid_fee p -> mid_fee p + 1000 <= out_fee p ->
  0 <= x0 -> 0 <= x1 -> 10 ^ 18 <= x0 + x1 ->
  10 ^ 18 * (x0 - x1) ^ 2 <= (998 * fee_gamma p - 10) * (x0 + x1) ^ 2 -> fee p x0 x1 = Some f -> f < out_fee p.
Proof.
  intros G Hm Ho X0 X1 L H E. destruct (fee_weight p x0 x1 f G X0 X1 L E) as (b & k & B & _ & A2 & K & F).
  rewrite !Z.pow_2_r in H. change (10 ^ 18) with DEC in H.
  assert (Q : 0 < (x0 + x1) * (x0 + x1)) by (apply Z.mul_pos_pos; lia).
  assert (Ub : b <= 999 * fee_gamma p - 5).
  { apply Z.nlt_ge. intros N.
    assert ((998 * fee_gamma p - 10) * ((x0 + x1) * (x0 + x1)) < (b - fee_gamma p - 5) * ((x0 + x1) * (x0 + x1)))
      by (apply Z.mul_lt_mono_pos_r; lia). lia. }
  assert (Lk : 10 ^ 15 + 1 <= k) by (rewrite K; apply Z.div_le_lower_bound; [lia|]; change DEC with (10 ^ 18); lia).
  destruct (Z.leb_spec k (10 ^ 15)) as [|N]; [lia|]. destruct F as (-> & Kd). pose proof DEC_pos as D.
  pose proof (Z.mul_div_le (k * mid_fee p) DEC D) as M1. pose proof (Z.mul_div_le ((DEC - k) * out_fee p) DEC D) as M2.
  assert (M3 : k * 1000 <= k * (out_fee p - mid_fee p)) by (apply Z.mul_le_mono_nonneg_l; lia).
  assert (M4 : DEC < k * 1000) by (change DEC with (10 ^ 18); lia).
  apply (Zmult_lt_reg_r _ _ DEC); [lia|]. lia.
Qed.

(** There it is the mean of the inner fee, with weight gamma, and the outer fee, with the weight of the imbalance: both
    sides multiplied by the sum of the weights differ by two units and by five 10^-18 of the difference of the fees. *)
Theorem c32_value p x0 x1 f : 0 <= fee_gamma p -> 0 <= mid_fee p <= out_fee p -> out_fee p <= 10 ^ 18 ->
  0 <= x0 -> 0 <= x1 -> 10 ^ 18 <= x0 + x1 ->
  10 ^ 18 * (x0 - x1) ^ 2 <= (998 * fee_gamma p - 10) * (x0 + x1) ^ 2 -> fee p x0 x1 = Some f ->
  let gw := fee_gamma p * (x0 + x1) ^ 2 in let iw := 10 ^ 18 * (x0 - x1) ^ 2 in
  Z.abs (f * (gw + iw) - (mid_fee p * gw + out_fee p * iw)) <=
  2 * (gw + iw) + (5 * (out_fee p - mid_fee p) + 15) * (x0 + x1) ^ 2.
Proof.
  intros G Hm Ho X0 X1 L H E. cbv zeta. destruct (fee_weight p x0 x1 f G X0 X1 L E) as (b & k & B & A1 & A2 & K & F).
  pose proof (c32_between p x0 x1 f Hm E) as Fb.
  rewrite !Z.pow_2_r in *. change (10 ^ 18) with DEC in *. pose proof DEC_pos as D.
  assert (Q : 0 < (x0 + x1) * (x0 + x1)) by (apply Z.mul_pos_pos; lia).
  assert (Ub : b <= 999 * fee_gamma p - 5).
  { apply Z.nlt_ge. intros N.
    assert ((998 * fee_gamma p - 10) * ((x0 + x1) * (x0 + x1)) < (b - fee_gamma p - 5) * ((x0 + x1) * (x0 + x1)))
      by (apply Z.mul_lt_mono_pos_r; lia). lia. }
  assert (Lk : 10 ^ 15 + 1 <= k) by (rewrite K; apply Z.div_le_lower_bound; [lia|]; change DEC with (10 ^ 18); lia).
  destruct (Z.leb_spec k (10 ^ 15)) as [|N]; [lia|]. destruct F as (Ef & Kd).
  pose proof (Z.square_nonneg (x0 - x1)) as Iz.
  set (q := (x0 + x1) * (x0 + x1)) in *. set (z := (x0 - x1) * (x0 - x1)) in *. clearbody q z.
  set (g := fee_gamma p) in *. set (mf := mid_fee p) in *. set (of := out_fee p) in *. clearbody g mf of.
  clear E H L X0 X1 x0 x1 Ub Lk N.
  (* f against the weight k, then against b *)
  assert (F1 : k * mf + (DEC - k) * of - 2 * DEC <= f * DEC <= k * mf + (DEC - k) * of).
  { pose proof (Z.mul_div_le (k * mf) DEC D). pose proof (Z.mul_succ_div_gt (k * mf) DEC D).
    pose proof (Z.mul_div_le ((DEC - k) * of) DEC D). pose proof (Z.mul_succ_div_gt ((DEC - k) * of) DEC D). lia. }
  pose proof (Z.mul_div_le (g * DEC) b B) as K1. pose proof (Z.mul_succ_div_gt (g * DEC) b B) as K2. rewrite <- K in K1, K2.
  assert (W1 : (of - mf) * (b * k) <= (of - mf) * (g * DEC)) by (apply Z.mul_le_mono_nonneg_l; lia).
  assert (W2 : (of - mf) * (g * DEC) <= (of - mf) * (b * Z.succ k)) by (apply Z.mul_le_mono_nonneg_l; lia).
  assert (W3 : (of - mf) * b <= DEC * b) by (apply Z.mul_le_mono_nonneg_r; lia).
  assert (W4 : b * (k * mf + (DEC - k) * of - 2 * DEC) <= b * (f * DEC)) by (apply Z.mul_le_mono_nonneg_l; lia).
  assert (W5 : b * (f * DEC) <= b * (k * mf + (DEC - k) * of)) by (apply Z.mul_le_mono_nonneg_l; lia).
  assert (F2 : b * of - (of - mf) * g - 2 * b <= f * b <= b * of - (of - mf) * g + b).
  { split; apply (Zmult_le_reg_r _ _ DEC); lia. }
  (* multiply by q; b q = g q + D z + d *)
  assert (F3 : q * (b * of - (of - mf) * g - 2 * b) <= q * (f * b)) by (apply Z.mul_le_mono_nonneg_l; lia).
  assert (F4 : q * (f * b) <= q * (b * of - (of - mf) * g + b)) by (apply Z.mul_le_mono_nonneg_l; lia).
  set (d := b * q - g * q - DEC * z). assert (D1 : - (2 * q) <= d <= 5 * q) by (unfold d; lia).
  assert (Eb : b * q = g * q + DEC * z + d) by (unfold d; lia). clearbody d.
  assert (Q1 : q * (b * of - (of - mf) * g - 2 * b) = (of - 2) * (b * q) - (of - mf) * (g * q)) by lia.
  assert (Q2 : q * (f * b) = f * (b * q)) by lia.
  assert (Q3 : q * (b * of - (of - mf) * g + b) = (of + 1) * (b * q) - (of - mf) * (g * q)) by lia.
  rewrite Q1, Q2, Eb in F3. rewrite Q2, Q3, Eb in F4. clear - F3 F4 D1 Fb Q Hm.
  set (w := g * q) in *. set (i := DEC * z) in *. clearbody w i.
  assert (V : - (5 * q * (of - mf + 1)) <= d * (of - f) <= 5 * q * (of - mf + 1)).
  { assert (0 <= of - f <= of - mf + 1) by lia. set (y := of - f) in *. set (t := of - mf + 1) in *. clearbody y t.
    assert (5 * q * y <= 5 * q * t) by (apply Z.mul_le_mono_nonneg_l; lia).
    assert (d * y <= 5 * q * y) by (apply Z.mul_le_mono_nonneg_r; lia).
    assert (- (5 * q) * y <= d * y) by (apply Z.mul_le_mono_nonneg_r; lia). lia. }
  apply Z.abs_le. split; lia.
Qed.

(** Mid fee 0.26%, outer fee 0.45%, gamma 0.00023: at 3 to 1 the outer fee, at 100 to 99 less. *)
Definition ex_fee : params := mkParams 2600000000000000 4500000000000000 230000000000000 2000000000000 146000000000000 600.
Example c32_far_example : fee ex_fee (3 * 10 ^ 20) (10 ^ 20) = Some 4500000000000000 /\
  (999 * fee_gamma ex_fee + 3) * (3 * 10 ^ 20 + 10 ^ 20) ^ 2 <= 10 ^ 18 * (3 * 10 ^ 20 - 10 ^ 20) ^ 2.
Proof. split; vm_compute; congruence. Qed.
Example c32_near_example : (exists f, fee ex_fee (100 * 10 ^ 20) (99 * 10 ^ 20) = Some f /\ 2600000000000000 < f) /\
  10 ^ 18 * (100 * 10 ^ 20 - 99 * 10 ^ 20) ^ 2 <= (998 * fee_gamma ex_fee - 10) * (100 * 10 ^ 20 + 99 * 10 ^ 20) ^ 2.
Proof. split; [eexists; split; vm_compute; reflexivity|vm_compute; congruence]. Qed.

Print Assumptions c32_far.
Print Assumptions c32_near.
Print Assumptions c32_value.
