(** C146: how far the reverse simulation of the stable pair can be trusted. *)
From Coq Require Import ZArith Lia Bool List.
From Verif Require Import Num Ledger StableMath StableModel StablePair StableProofs StableAcc StableProps StableExitProps StableConv StableConv2 StableConv5 StableLiveProps.
From Verif Require XykModel OwnershipModel.
Import ListNotations.
Open Scope Z_scope.

(** ** Specification *)

Definition fee (e : env) : Z := total_fee (fees e).
(** One base unit of the asked asset and of the offered one, in units of 10^-18. *)
Definition ask_unit (s : state) (one : bool) : Z := 10 ^ (18 - (if one then p1 s else p0 s)).
Definition offer_unit (s : state) (one : bool) : Z := 10 ^ (18 - (if one then p0 s else p1 s)).
Definition ask_reserve (s : state) (one : bool) : Z := if one then r1 s else r0 s.
(** With commission, no more than half of the reserve is asked for. *)
Definition half (e : env) (s : state) (one : bool) (ask : Z) : Prop := 0 < ask /\ 2 * (10 ^ 18 * ask) <= (10 ^ 18 - fee e) * ask_reserve s one.

(** ** Proofs *)

Lemma Hy_up L x x' D Y : 0 <= L -> 0 < x <= x' -> 0 < Y -> 0 <= D -> 0 < Hy L x D Y -> 0 < Hy L x' D Y.
Proof.
  intros HL Hx HY HD H. unfold Hy in *. set (w := L * (x + Y) - (L - DEC) * D) in *. set (w' := L * (x' + Y) - (L - DEC) * D) in *.
  assert (D3 : 0 <= DEC * D ^ 3) by (apply Z.mul_nonneg_nonneg; [discriminate|apply Z.pow_nonneg; exact HD]).
  assert (xY : 0 < 4 * x * Y) by (apply Z.mul_pos_pos; lia).
  assert (W : 0 < w). { destruct (Z.lt_ge_cases 0 w) as [|N]; [assumption|]. assert (4 * x * Y * w <= 4 * x * Y * 0) by (apply Z.mul_le_mono_nonneg_l; lia). lia. }
  assert (W' : w <= w'). { unfold w, w'. assert (L * (x + Y) <= L * (x' + Y)) by (apply mulm; lia). lia. }
  assert (A : 4 * x * Y <= 4 * x' * Y) by (apply Z.mul_le_mono_nonneg_r; lia).
  assert (4 * x * Y * w <= 4 * x' * Y * w') by (apply Z.mul_le_mono_nonneg; lia). lia.
Qed.
Lemma d_le a x y D : 100 <= a <= 100000000 -> 0 <= x -> 0 <= y -> compute_d a x y = Some D -> D <= x + y + DEC.
Proof.
  intros Ha X Y HD. assert (HQ : DEC = 1000000000000000000) by reflexivity. destruct (Z.le_gt_cases DEC D) as [Hd|]; [|lia].
  destruct (c63_invariant a x y D ltac:(lia) X Y HD Hd) as (P & HP & _ & H2). specialize (H2 (x + y) ltac:(lia)).
  assert (0 <= Gam P (lev a) (x + y) (x + y)); [|specialize (H2 H); lia]. unfold Gam.
  replace ((x + y) ^ 3 + P * ((lev a - DEC) * (x + y) - lev a * (x + y))) with ((x + y) * ((x + y) ^ 2 - DEC * P)) by ring.
  apply Z.mul_nonneg_nonneg; [lia|]. assert (0 <= (x - y) ^ 2) by apply sq_nonneg. assert (4 * x * y = (x + y) ^ 2 - (x - y) ^ 2) by ring. lia.
Qed.
Lemma floor_off g po r Y off : 0 <= po <= g -> g <= 18 -> 0 <= r ->
  (do old <- to_prec (r * 10 ^ (18 - po)) g; do off0 <- sub128 (Y / 10 ^ (18 - g)) old; adjust_precision off0 g po) = Some off ->
  0 <= off /\ off * 10 ^ (18 - po) <= Y - r * 10 ^ (18 - po) < (off + 1) * 10 ^ (18 - po).
Proof.
  intros Hp Hg Hr H. unbind H as old E1. unbind H as off0 E2. apply to_prec_inv in E1. destruct E1 as (_ & E1 & _). apply sub128_Some in E2. destruct E2 as (E2 & E3 & _).
  assert (T : 0 < 10 ^ (g - po)) by (apply Z.pow_pos_nonneg; lia). assert (G : 0 < 10 ^ (18 - g)) by (apply Z.pow_pos_nonneg; lia).
  assert (U : 10 ^ (18 - po) = 10 ^ (g - po) * 10 ^ (18 - g)) by (rewrite <- Z.pow_add_r by lia; f_equal; lia). rewrite U in *. set (t := 10 ^ (g - po)) in *. set (ug := 10 ^ (18 - g)) in *.
  rewrite Z.mul_assoc, Z.div_mul in E1 by lia. subst old. pose proof (floor_bounds Y ug G) as B. set (v := Y / ug) in *. clearbody v.
  assert (K : off * t <= off0 < (off + 1) * t).
  { unfold adjust_precision in H. destruct (Z.eqb_spec g po) as [->|N].
    - injection H as <-. unfold t. rewrite Z.sub_diag. change (10 ^ 0) with 1. lia.
    - destruct (Z.ltb_spec g po); [lia|]. injection H as <-. fold t. pose proof (floor_bounds off0 t T). lia. }
  assert (A1 : off * t * ug <= off0 * ug) by (apply Z.mul_le_mono_nonneg_r; lia). assert (A2 : (off0 + 1) * ug <= (off + 1) * t * ug) by (apply Z.mul_le_mono_nonneg_r; lia).
  split; [|subst off0; lia]. destruct (Z.le_gt_cases 0 off) as [|Ng]; [assumption|exfalso]. assert ((off + 1) * t <= 0 * t) by (apply Z.mul_le_mono_nonneg_r; lia). lia.
Qed.

(** What the reverse simulation computes: [B] before commission, [Y] the offered reserve that leaves the rest. *)
Lemma reverse_inv e s (one : bool) ask off sp cm : reachable s -> env_ok e -> 0 <= p0 s <= 18 -> 0 <= p1 s <= 18 -> ordinary_pool s -> half e s one ask ->
  query_reverse_simulation e s one ask = Some (off, sp, cm) ->
  let x := r0 s * 10 ^ (18 - p0 s) in let y := r1 s * 10 ^ (18 - p1 s) in let f := DEC - fee e in let askd := ask * ask_unit s one in
  exists a D B Y, current_amp (amp s) (now e) = Some a /\ 100 <= a <= 100000000 /\ compute_d a x y = Some D /\
    0 < f /\ 0 <= B /\ f * B <= DEC * askd /\ (DEC ^ 2 - f) * askd - f * DEC <= f * DEC * B /\ 2 * B <= (if one then y else x) /\
    y_raw a ((if one then y else x) - B) x y = Some Y /\ 0 <= off /\
    off * offer_unit s one <= Y - (if one then x else y) < (off + 1) * offer_unit s one.
Proof.
  intros R He P0 P1 O (H0 & Hf) H x y f askd. assert (HQ : DEC = 1000000000000000000) by reflexivity. change (10 ^ 18) with DEC in Hf.
  pose proof (reachable_inv _ R) as I. pose proof (i_r0 _ I) as Q0. pose proof (i_r1 _ I) as Q1. pose proof O as (X & Y & _). fold x y in X, Y.
  unfold query_reverse_simulation in H. assert (N0 : r0 s <> 0) by (intros K; unfold x in X; rewrite K in X; lia). assert (N1 : r1 s <> 0) by (intros K; unfold y in Y; rewrite K in Y; lia).
  destruct (Z.eqb_spec (r0 s) 0); [contradiction|]. destruct (Z.eqb_spec (r1 s) 0); [contradiction|]. destruct (Z.eqb_spec ask 0); [lia|]. cbn [orb] in H.
  unbind H as x' E1. unbind H as y' E2. apply with_prec_inv in E1, E2. destruct E1 as (_ & ->), E2 as (_ & ->). fold x y in H.
  unbind H as omc E3. unbind H as inv E4. unbind H as askd' E5. unbind H as B E6. unbind H as a E7. unbind H as na E8. unbind H as no E9. unbind H as old E10. unbind H as off0 E11. unbind H as off' E12.
  unbind H as b1 E13. unbind H as b2 E14. unbind H as cm' E15. injection H as -> _ _.
  apply sub256_Some in E3. destruct E3 as (-> & E3 & _). change (total_fee (fees e)) with (fee e) in *. fold f in E3, E4. apply dinv_Some in E4. destruct E4 as (F0 & ->).
  apply with_prec_inv in E5. destruct E5 as (_ & ->). fold (ask_unit s one) in E6. fold askd in E6. apply dmul256_Some in E6. destruct E6 as (-> & E6 & _).
  set (inv := DEC * DEC / f) in *. assert (f0 : 0 < f) by lia. pose proof (floor_bounds (DEC * DEC) f f0) as V. fold inv in V.
  assert (Up : 0 < ask_unit s one) by (unfold ask_unit; apply Z.pow_pos_nonneg; destruct one; lia). assert (A0 : 0 < askd) by (unfold askd; apply Z.mul_pos_pos; lia).
  set (B := inv * askd / DEC) in *. pose proof (floor_bounds (inv * askd) DEC DEC_pos) as VB. fold B in VB.
  assert (B1 : f * B <= DEC * askd).
  { apply Z.mul_le_mono_pos_l with DEC; [lia|]. assert (f * (DEC * B) <= f * (inv * askd)) by (apply mulm; lia). assert (askd * (f * inv) <= askd * (DEC * DEC)) by (apply mulm; lia). lia. }
  assert (B2 : (DEC ^ 2 - f) * askd - f * DEC <= f * DEC * B).
  { assert (f * (inv * askd) <= f * (DEC * B + DEC)) by (apply mulm; lia). assert (askd * (DEC * DEC) <= askd * (f * inv + f)) by (apply mulm; lia). rewrite Z.pow_2_r. lia. }
  set (A := if one then y else x) in *. assert (EA : A = ask_reserve s one * ask_unit s one) by (unfold A, ask_reserve, ask_unit, x, y; destruct one; reflexivity).
  assert (B3 : 2 * B <= A).
  { apply Z.mul_le_mono_pos_l with f; [exact f0|]. assert (2 * (DEC * ask) * ask_unit s one <= f * ask_reserve s one * ask_unit s one) by (apply Z.mul_le_mono_nonneg_r; [lia|exact Hf]). rewrite EA. unfold askd in B1. lia. }
  unfold calc_y in E9. unbind E9 as Y1 E. apply sub256_Some in E8. destruct E8 as (-> & E8 & _).
  assert (ED : exists D, compute_d a x y = Some D). { unfold y_raw in E. destruct (compute_d a x y) as [D|]; [exists D; reflexivity|discriminate]. } destruct ED as (D & ED).
  exists a, D, B, Y1. split; [reflexivity|]. split; [exact (c28_range s (now e) a R E7)|]. split; [exact ED|]. split; [exact f0|]. split; [exact E6|]. split; [exact B1|]. split; [exact B2|]. split; [exact B3|]. split; [exact E|].
  apply to_prec_inv in E9. destruct E9 as (Gp & E9 & _). subst no. unfold offer_unit. unfold greatest in *.
  assert (K := floor_off (Z.max (p0 s) (p1 s)) (if one then p0 s else p1 s) (if one then r0 s else r1 s) Y1 off).
  assert (Eo : (if one then x else y) = (if one then r0 s else r1 s) * 10 ^ (18 - (if one then p0 s else p1 s))) by (unfold x, y; destruct one; reflexivity).
  rewrite Eo in *. apply K; [destruct one; lia|lia|destruct one; assumption|]. rewrite E10, E11. exact E12.
Qed.

(** Likewise the simulation. *)
Lemma forward_inv e s (one : bool) offer ret sp cm : reachable s -> env_ok e -> 0 <= p0 s <= 18 -> 0 <= p1 s <= 18 -> ordinary_pool s -> 0 < offer ->
  query_simulation e s (negb one) offer = Some (ret, sp, cm) ->
  let x := r0 s * 10 ^ (18 - p0 s) in let y := r1 s * 10 ^ (18 - p1 s) in
  exists a r, current_amp (amp s) (now e) = Some a /\ y_raw a ((if one then x else y) + offer * offer_unit s one) x y = Some r /\
    0 <= ret + cm <= ask_reserve s one /\ ask_reserve s one - (ret + cm) = r / ask_unit s one /\ cm = (ret + cm) * fee e / DEC.
Proof.
  intros R He P0 P1 O H0 H x y. pose proof (reachable_inv _ R) as I. pose proof (i_r0 _ I) as Q0. pose proof (i_r1 _ I) as Q1. pose proof O as (X & Y & _). fold x y in X, Y.
  unfold query_simulation in H. assert (N0 : r0 s <> 0) by (intros K; unfold x in X; rewrite K in X; lia). assert (N1 : r1 s <> 0) by (intros K; unfold y in Y; rewrite K in Y; lia).
  destruct (Z.eqb_spec (r0 s) 0); [contradiction|]. destruct (Z.eqb_spec (r1 s) 0); [contradiction|]. destruct (Z.eqb_spec offer 0); [lia|]. cbn [orb] in H.
  apply quote_inv in H; [|exact He]. destruct H as (gross & a & x' & y' & off & Hx & Hy' & Ho & Ha & _ & _ & _ & Hc & Hcm & Hr & _).
  apply with_prec_inv in Hx, Hy', Ho. destruct Hx as (_ & ->), Hy' as (_ & ->), Ho as (_ & ->). fold x y in Hc. exists a.
  destruct one; cbn [negb] in Hc; unfold ask_reserve, ask_unit, offer_unit; (apply compute_swap_inv in Hc; [|assumption|assumption]); destruct Hc as (r & Hr' & Hg & Hk & _).
  all: exists r; split; [exact Ha|]; split; [exact Hr'|]; replace (ret + cm) with gross by lia; split; [exact Hg|]; split; [exact Hk|exact Hcm].
Qed.

(** C146: offering as much as the reverse simulation says and 2 * 10^-9 of a token more (two base units, for assets of up
    to 8 decimals) yields what was asked for, less one part in 10^18 and 10^-12 of a token. *)
Theorem c146_suffices e s (one : bool) ask off sp0 cm0 n ret sp cm : reachable s -> env_ok e -> 0 <= p0 s <= 18 -> 0 <= p1 s <= 18 -> ordinary_pool s ->
  half e s one ask -> query_reverse_simulation e s one ask = Some (off, sp0, cm0) ->
  offer_unit s one + 2 * 10 ^ 9 <= n * offer_unit s one -> query_simulation e s (negb one) (off + n) = Some (ret, sp, cm) ->
  10 ^ 18 <= (ask_reserve s one - ret - cm) * ask_unit s one ->
  10 ^ 18 * ((ask - ret) * ask_unit s one) <= ask * ask_unit s one + 1000002 * 10 ^ 18.
Proof.
  intros R He P0 P1 O Hh H Hn H' Hl. change (10 ^ 18) with DEC in *. assert (HQ : DEC = 1000000000000000000) by reflexivity.
  destruct (reverse_inv _ _ _ _ _ _ _ R He P0 P1 O Hh H) as (a & D & B & Y & Ea & Ha & ED & f0 & B0 & B1 & B2 & B3 & EY & O0 & O1).
  assert (Uo : 1 <= offer_unit s one) by (unfold offer_unit; apply (pow_le18 (if one then p0 s else p1 s)); destruct one; assumption).
  assert (Ua : 1 <= ask_unit s one) by (unfold ask_unit; apply (pow_le18 (if one then p1 s else p0 s)); destruct one; assumption).
  set (u := ask_unit s one) in *. set (uo := offer_unit s one) in *.
  assert (n0 : 0 < n). { destruct (Z.lt_ge_cases 0 n) as [|N]; [assumption|]. assert (n * uo <= 0 * uo) by (apply Z.mul_le_mono_nonneg_r; lia). lia. }
  assert (on : 0 < off + n) by lia. destruct (forward_inv _ _ _ _ _ _ _ R He P0 P1 O on H') as (a' & r & Ea' & Er & G0 & Gr & Gc). rewrite Ea in Ea'. injection Ea' as <-.
  fold u in Gr. fold uo in Er. pose proof O as (X0 & Y0 & XY & YX & Su).
  set (x := r0 s * 10 ^ (18 - p0 s)) in *. set (y := r1 s * 10 ^ (18 - p1 s)) in *. change (10 ^ 18) with DEC in X0, Y0.
  set (A := if one then y else x) in *. set (op := if one then x else y) in *. assert (Ax : DEC <= A /\ x + y <= (10 ^ 9 + 1) * A) by (unfold A; destruct one; lia).
  assert (Ox : DEC <= op /\ x + y <= (10 ^ 9 + 1) * op) by (unfold op; destruct one; lia).
  pose proof (d_le a x y D Ha ltac:(lia) ltac:(lia) ED) as Dl. pose proof (compute_d_nonneg a x y D ltac:(lia) ltac:(lia) ltac:(lia) ED) as Dn.
  set (na := A - B) in *. set (k := 10 ^ 9 + 3). assert (Kn : D + DEC <= 2 * k * na) by (unfold k, na; lia).
  assert (Y1 : DEC <= Y). { assert (0 <= off * uo) by (apply Z.mul_nonneg_nonneg; lia). lia. }
  destruct (c63_reserve a na x y D Y k ltac:(lia) ltac:(lia) ltac:(lia) ltac:(unfold na; lia) ED EY Y1 ltac:(unfold k; lia) Kn) as (L1 & _).
  assert (Hp : 0 < Hy (lev a) na D (Y + 11 + k)). { destruct (Z.lt_ge_cases 0 (Hy (lev a) na D (Y + 11 + k))) as [|N]; [assumption|]. specialize (L1 _ N). lia. }
  rewrite Hy_sym in Hp. set (X := op + (off + n) * uo) in *.
  assert (XB : Y + 11 + k <= X). { unfold X, k. replace ((off + n) * uo) with ((off + 1) * uo + (n * uo - uo)) by ring. lia. }
  pose proof (lev_ge a ltac:(lia)) as HL. assert (k0 : 0 <= k) by (unfold k; lia).
  assert (Hx : 0 < Hy (lev a) X D na) by (apply (Hy_up (lev a) (Y + 11 + k)); try assumption; [lia|lia|unfold na; lia]).
  assert (Rr : DEC <= r). { pose proof (floor_bounds r u ltac:(lia)) as FB. rewrite <- Gr in FB. replace (ask_reserve s one - ret - cm) with (ask_reserve s one - (ret + cm)) in Hl by ring. lia. }
  assert (Kx : D + DEC <= 2 * k * X). { assert (op <= X) by (unfold X; assert (0 <= (off + n) * uo) by (apply Z.mul_nonneg_nonneg; lia); lia). unfold k. lia. }
  destruct (c63_reserve a X x y D r k ltac:(lia) ltac:(lia) ltac:(lia) ltac:(lia) ED Er Rr k0 Kx) as (_ & L2).
  specialize (L2 na ltac:(unfold na; lia) ltac:(lia)). set (g := ret + cm) in *.
  assert (EA : A = ask_reserve s one * u) by (unfold A, ask_reserve, u, ask_unit, x, y; destruct one; reflexivity).
  assert (Gu : B - 1000001 <= g * u). { pose proof (floor_bounds r u ltac:(lia)) as FB. rewrite <- Gr in FB. unfold na in L2. lia. }
  set (f := DEC - fee e) in *. assert (Fe : fee e = DEC - f) by (unfold f; ring). destruct He as (_ & He & _). change (total_fee (fees e)) with (fee e) in He.
  assert (Cm : DEC * cm <= g * fee e). { rewrite Gc at 1. apply Z.mul_div_le. reflexivity. }
  assert (Rt : f * g <= DEC * ret). { replace ret with (g - cm) by (unfold g; ring). rewrite Fe in Cm. lia. }
  assert (F1 : f <= DEC) by lia. set (askd := ask * u) in *.
  assert (Z1 : f * (B - 1000001) <= f * (g * u)) by (apply mulm; lia). assert (Z2 : u * (f * g) <= u * (DEC * ret)) by (apply mulm; lia).
  assert (ad : 0 <= askd) by (unfold askd; destruct Hh; apply Z.mul_nonneg_nonneg; lia).
  assert (Z3 : f * askd <= DEC * askd) by (apply Z.mul_le_mono_nonneg_r; lia).
  apply Z.mul_le_mono_pos_l with DEC; [lia|]. assert (Z4 : DEC * (f * (B - 1000001)) <= DEC * (u * (DEC * ret))) by (apply mulm; lia).
  replace ((ask - ret) * u) with (askd - ret * u) by (unfold askd; ring). assert (Z5 : 1000002 * (DEC * f) <= 1000002 * (DEC * DEC)) by (apply mulm; [apply mulm; lia|lia]).
  clear - B2 Z3 Z4 Z5. replace (DEC ^ 2) with (DEC * DEC) in B2 by ring. lia.
Qed.
Print Assumptions c146_suffices.

(** C146: and it does not say too much: with 10^-12 of a token less (one base unit, for assets of up to 11 decimals) one
    receives what was asked for and at most two base units and 1.1 * 10^-9 of a token more. *)
Theorem c146_needed e s (one : bool) ask off sp0 cm0 n ret sp cm : reachable s -> env_ok e -> 0 <= p0 s <= 18 -> 0 <= p1 s <= 18 -> ordinary_pool s ->
  half e s one ask -> query_reverse_simulation e s one ask = Some (off, sp0, cm0) ->
  1000002 <= n * offer_unit s one -> n < off -> query_simulation e s (negb one) (off - n) = Some (ret, sp, cm) ->
  10 ^ 18 <= (ask_reserve s one - ret - cm) * ask_unit s one ->
  (ret - ask) * ask_unit s one <= 2 * ask_unit s one + 1100000000.
Proof.
  intros R He P0 P1 O Hh H Hn Hno H' Hl. change (10 ^ 18) with DEC in *. assert (HQ : DEC = 1000000000000000000) by reflexivity.
  destruct (reverse_inv _ _ _ _ _ _ _ R He P0 P1 O Hh H) as (a & D & B & Y & Ea & Ha & ED & f0 & B0 & B1 & B2 & B3 & EY & O0 & O1).
  assert (Uo : 1 <= offer_unit s one) by (unfold offer_unit; apply (pow_le18 (if one then p0 s else p1 s)); destruct one; assumption).
  assert (Ua : 1 <= ask_unit s one) by (unfold ask_unit; apply (pow_le18 (if one then p1 s else p0 s)); destruct one; assumption).
  set (u := ask_unit s one) in *. set (uo := offer_unit s one) in *.
  assert (on : 0 < off - n) by lia. destruct (forward_inv _ _ _ _ _ _ _ R He P0 P1 O on H') as (a' & r & Ea' & Er & G0 & Gr & Gc). rewrite Ea in Ea'. injection Ea' as <-.
  fold u in Gr. fold uo in Er. pose proof O as (X0 & Y0 & XY & YX & Su).
  set (x := r0 s * 10 ^ (18 - p0 s)) in *. set (y := r1 s * 10 ^ (18 - p1 s)) in *. change (10 ^ 18) with DEC in X0, Y0.
  set (A := if one then y else x) in *. set (op := if one then x else y) in *. assert (Ax : DEC <= A /\ x + y <= (10 ^ 9 + 1) * A) by (unfold A; destruct one; lia).
  assert (Ox : DEC <= op /\ x + y <= (10 ^ 9 + 1) * op) by (unfold op; destruct one; lia).
  pose proof (d_le a x y D Ha ltac:(lia) ltac:(lia) ED) as Dl. pose proof (compute_d_nonneg a x y D ltac:(lia) ltac:(lia) ltac:(lia) ED) as Dn.
  set (na := A - B) in *. set (k := 10 ^ 9 + 3). assert (Kn : D + DEC <= 2 * k * na) by (unfold k, na; lia).
  assert (Ou : 0 <= off * uo) by (apply Z.mul_nonneg_nonneg; lia). assert (Y1 : DEC <= Y) by lia.
  destruct (c63_reserve a na x y D Y k ltac:(lia) ltac:(lia) ltac:(lia) ltac:(unfold na; lia) ED EY Y1 ltac:(unfold k; lia) Kn) as (_ & L1).
  set (X := op + (off - n) * uo) in *. assert (Xo : op <= X) by (unfold X; assert (0 <= (off - n) * uo) by (apply Z.mul_nonneg_nonneg; lia); lia).
  assert (XB : X <= Y - 1000002) by (unfold X; lia).
  assert (Hp : Hy (lev a) na D (Y - 1000002) < 0). { destruct (Z.lt_ge_cases (Hy (lev a) na D (Y - 1000002)) 0) as [|N]; [assumption|]. specialize (L1 (Y - 1000002) ltac:(lia) N). lia. }
  rewrite Hy_sym in Hp. pose proof (lev_ge a ltac:(lia)) as HL. assert (k0 : 0 <= k) by (unfold k; lia).
  assert (Hx : Hy (lev a) X D na <= 0).
  { destruct (Z.le_gt_cases (Hy (lev a) X D na) 0) as [|N]; [assumption|exfalso]. assert (0 < Hy (lev a) (Y - 1000002) D na); [|lia]. apply (Hy_up (lev a) X); try assumption; [lia|lia|unfold na; lia]. }
  assert (Rr : DEC <= r). { pose proof (floor_bounds r u ltac:(lia)) as FB. rewrite <- Gr in FB. replace (ask_reserve s one - ret - cm) with (ask_reserve s one - (ret + cm)) in Hl by ring. lia. }
  assert (Kx : D + DEC <= 2 * k * X) by (unfold k; lia).
  destruct (c63_reserve a X x y D r k ltac:(lia) ltac:(lia) ltac:(lia) ltac:(lia) ED Er Rr k0 Kx) as (L2 & _).
  specialize (L2 na Hx). set (g := ret + cm) in *.
  assert (EA : A = ask_reserve s one * u) by (unfold A, ask_reserve, u, ask_unit, x, y; destruct one; reflexivity).
  assert (Gu : g * u <= B + 10 + k + u). { pose proof (floor_bounds r u ltac:(lia)) as FB. rewrite <- Gr in FB. unfold na in L2. lia. }
  set (f := DEC - fee e) in *. assert (Fe : fee e = DEC - f) by (unfold f; ring). destruct He as (_ & He & _). change (total_fee (fees e)) with (fee e) in He.
  assert (Cm : g * fee e < DEC * cm + DEC). { pose proof (floor_bounds (g * fee e) DEC DEC_pos) as FB. rewrite <- Gc in FB. lia. }
  assert (Rt : DEC * ret <= f * g + DEC). { replace ret with (g - cm) by (unfold g; ring). rewrite Fe in Cm. lia. }
  assert (F1 : f <= DEC) by lia. set (askd := ask * u) in *.
  assert (Z1 : f * (g * u) <= f * (B + 10 + k + u)) by (apply mulm; lia). assert (Z2 : u * (DEC * ret) <= u * (f * g + DEC)) by (apply mulm; lia).
  assert (Z3 : f * (10 + k + u) <= DEC * (10 + k + u)) by (apply Z.mul_le_mono_nonneg_r; lia).
  apply Z.mul_le_mono_pos_l with DEC; [lia|]. replace ((ret - ask) * u) with (ret * u - askd) by (unfold askd; ring). unfold k in *. clear - B1 Z1 Z2 Z3 HQ. lia.
Qed.
Print Assumptions c146_needed.

(** C146: the offer named is not always enough: one unit short for 1096 of the 3000000 units of the example's pool. *)
Theorem c146_exact_refuted : exists e s ask off sp0 cm0 ret sp cm, reachable s /\ env_ok e /\ ordinary_pool s /\ half e s true ask /\
  query_reverse_simulation e s true ask = Some (off, sp0, cm0) /\ query_simulation e s false off = Some (ret, sp, cm) /\ ret < ask.
Proof.
  exists (ex_e 1000), ex_t, 1096. do 6 eexists. split; [apply ex_reach; hist|]. split; [apply ex_env_ok; unfold is_u64, U64MAX; lia|].
  split; [vm_compute; intuition congruence|]. split; [vm_compute; intuition congruence|]. split; [vm_compute; reflexivity|]. split; [vm_compute; reflexivity|reflexivity].
Qed.
Print Assumptions c146_exact_refuted.

(** The hypotheses of both theorems are met: one token of three, with two base units more and one less. *)
Example c146_example : ordinary_pool ex_t /\ half (ex_e 1000) ex_t true 1000000 /\ query_reverse_simulation (ex_e 1000) ex_t true 1000000 = Some (723874, 0, 1001) /\
  offer_unit ex_t true + 2 * 10 ^ 9 <= 2 * offer_unit ex_t true /\ query_simulation (ex_e 1000) ex_t false 723876 = Some (1000002, 0, 1001) /\
  query_simulation (ex_e 1000) ex_t false 723873 = Some (999999, 0, 1001).
Proof. repeat (split; [vm_compute; intuition congruence|]). vm_compute. reflexivity. Qed.
