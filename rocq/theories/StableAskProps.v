(** C146: in an ordinary pool the reverse simulation answers. *)
From Coq Require Import ZArith Lia Bool List.
From Verif Require Import StableValueProps StableTradeProps StableConv4 StableConv6.
From Verif Require Import Num Ledger StableMath StableModel StablePair StableProofs StableAcc StableProps StableExitProps StableConv StableConv2 StableConv5 StableLiveProps StableReverseProps.
Import ListNotations.
Open Scope Z_scope.

Lemma to_prec_ok v p : 0 <= p <= 18 -> 0 <= v <= 10 ^ 37 -> to_prec v p = Some (v / 10 ^ (18 - p)) /\ 0 <= v / 10 ^ (18 - p) <= v.
Proof.
  intros Hp Hv. pose proof (pow_le18 p Hp) as (t0 & _). unfold to_prec. rewrite (proj2 (Z.leb_le 0 p)), (proj2 (Z.leb_le p 18)) by lia. cbn [andb].
  set (t := 10 ^ (18 - p)) in *. clearbody t. assert (M : 0 <= v / t <= v).
  { split; [apply Z.div_pos; lia|]. apply Z.div_le_upper_bound; [lia|]. assert (1 * v <= t * v) by (apply Z.mul_le_mono_nonneg_r; lia). lia. }
  split; [|exact M]. apply u128_Some. unfold U128MAX. lia.
Qed.

(** Every request for at least one whole token and, with commission, at most half of a reserve gets an answer. *)
Theorem c146_answers e s (one : bool) ask : reachable s -> env_ok e -> 0 <= p0 s <= 18 -> 0 <= p1 s <= 18 -> ordinary_pool s -> init_t (amp s) <= now e ->
  half e s one ask -> 10 ^ 18 <= ask * ask_unit s one ->
  exists off sp cm, query_reverse_simulation e s one ask = Some (off, sp, cm) /\ 0 <= off /\ 0 <= cm.
Proof.
  intros R He P0 P1 O T (H0 & Hf) Hw. change (10 ^ 18) with DEC in *. assert (HQ : DEC = 1000000000000000000) by reflexivity.
  destruct (reachable_small _ R) as (B0 & B1). pose proof (reachable_inv _ R) as I. pose proof (i_r0 _ I) as Q0. pose proof (i_r1 _ I) as Q1.
  destruct (c28_between s (now e) R T) as (a & Ea & _). pose proof (c28_range s (now e) a R Ea) as Ha.
  pose proof (pow_le18 _ P0) as (t0 & _). pose proof (pow_le18 _ P1) as (t1 & _).
  set (x := r0 s * 10 ^ (18 - p0 s)) in *. set (y := r1 s * 10 ^ (18 - p1 s)) in *.
  assert (Od : ordinary x y) by exact O. destruct O as (X & Y & _ & _ & Su). fold x y in X, Y, Su. change (10 ^ 18) with DEC in X, Y.
  assert (N0 : r0 s <> 0) by (intros K; unfold x in X; rewrite K in X; lia). assert (N1 : r1 s <> 0) by (intros K; unfold y in Y; rewrite K in Y; lia).
  unfold query_reverse_simulation. destruct (Z.eqb_spec (r0 s) 0); [contradiction|]. destruct (Z.eqb_spec (r1 s) 0); [contradiction|]. destruct (Z.eqb_spec ask 0); [lia|]. cbn [orb].
  rewrite (with_prec_ok (r0 s)), (with_prec_ok (r1 s)) by lia. fold x y. cbv zeta. change (total_fee (fees e)) with (fee e).
  assert (Fe : 0 <= fee e <= DEC) by (destruct He as (_ & He & _); unfold fee, DEC in *; lia).
  set (f := DEC - fee e) in *. set (A := if one then y else x).
  assert (Pk : 0 <= (if one then p1 s else p0 s) <= 18) by (destruct one; assumption). assert (Po : 0 <= (if one then p0 s else p1 s) <= 18) by (destruct one; assumption).
  assert (Ua : 1 <= ask_unit s one) by (unfold ask_unit; destruct one; assumption).
  assert (EA : A = ask_reserve s one * ask_unit s one) by (unfold A, ask_reserve, ask_unit, x, y; destruct one; reflexivity).
  assert (Ar : 0 <= ask_reserve s one) by (unfold ask_reserve; destruct one; assumption).
  assert (f0 : 0 < f). { destruct (Z.lt_ge_cases 0 f) as [|K]; [assumption|exfalso]. assert (f * ask_reserve s one <= 0) by (apply Z.mul_nonpos_nonneg; lia). lia. }
  assert (E1 : sub256 DEC (fee e) = Some f) by (apply sub256_Some; unfold f, U256MAX in *; lia). rewrite E1.
  assert (E2 : dinv f = Some (DEC * DEC / f)) by (apply dinv_Some; split; [lia|reflexivity]). rewrite E2.
  assert (Ak : ask <= ask_reserve s one).
  { apply Z.mul_le_mono_pos_l with (2 * DEC); [lia|]. assert (f * ask_reserve s one <= DEC * ask_reserve s one) by (apply Z.mul_le_mono_nonneg_r; lia). lia. }
  assert (Am : ask_reserve s one <= U128MAX) by (unfold ask_reserve; destruct one; assumption).
  rewrite (with_prec_ok ask) by lia. fold (ask_unit s one). set (askd := ask * ask_unit s one) in *.
  set (inv := DEC * DEC / f). pose proof (floor_bounds (DEC * DEC) f f0) as V. fold inv in V.
  assert (i1 : DEC <= inv) by (apply Z.div_le_lower_bound; [exact f0|]; assert (f * DEC <= DEC * DEC) by (apply Z.mul_le_mono_nonneg_r; unfold f; lia); lia).
  assert (Hh : 2 * (DEC * askd) <= f * A).
  { rewrite EA. unfold askd. assert (2 * (DEC * ask) * ask_unit s one <= f * ask_reserve s one * ask_unit s one) by (apply Z.mul_le_mono_nonneg_r; lia). lia. }
  assert (A2 : DEC <= A <= 10 ^ 30) by (unfold A; destruct one; lia).
  assert (iv : 2 * (inv * askd) <= DEC * A).
  { apply Z.mul_le_mono_pos_l with f; [exact f0|]. assert (askd * (f * inv) <= askd * (DEC * DEC)) by (apply Z.mul_le_mono_nonneg_l; lia). assert (DEC * (2 * (DEC * askd)) <= DEC * (f * A)) by (apply Z.mul_le_mono_nonneg_l; lia). lia. }
  assert (iw : DEC * askd <= inv * askd) by (apply Z.mul_le_mono_nonneg_r; lia).
  assert (DA : DEC * A <= DEC * 10 ^ 30) by (apply Z.mul_le_mono_nonneg_l; lia).
  rewrite dmul256_ok by (unfold U256MAX; lia). pose proof (floor_bounds (inv * askd) DEC ltac:(lia)) as VB. set (B := inv * askd / DEC) in *.
  assert (Bl : DEC <= B) by (apply Z.div_le_lower_bound; lia). assert (Bh : 2 * B <= A) by lia. clearbody B inv.
  rewrite Ea. fold A. assert (E3 : sub256 A B = Some (A - B)) by (apply sub256_Some; unfold U256MAX; lia). rewrite E3.
  destruct (y_ask a one x y B Ha Od Bl Bh) as (r & Er & R1 & R2). fold A in Er. unfold calc_y. rewrite Er. set (Q := if one then x else y) in *.
  assert (Q2 : 0 <= Q <= 10 ^ 30) by (unfold Q; destruct one; lia).
  assert (Gr : 0 <= greatest s <= 18) by (unfold greatest; lia).
  destruct (to_prec_ok r (greatest s) Gr ltac:(lia)) as (T1 & T1'). destruct (to_prec_ok Q (greatest s) Gr ltac:(lia)) as (T2 & T2'). rewrite T1, T2.
  pose proof (pow_le18 _ Gr) as (tg & _). assert (Mo : Q / 10 ^ (18 - greatest s) <= r / 10 ^ (18 - greatest s)) by (apply Z.div_le_mono; lia).
  set (u := Q / 10 ^ (18 - greatest s)) in *. set (v := r / 10 ^ (18 - greatest s)) in *. assert (E4 : sub128 v u = Some (v - u)) by (apply sub128_Some; unfold U128MAX; lia). rewrite E4.
  destruct (to_prec_ok B _ Po ltac:(lia)) as (T3 & T3'). destruct (to_prec_ok B _ Pk ltac:(lia)) as (T4 & T4'). rewrite T3, T4.
  assert (Ap : exists w, adjust_precision (v - u) (greatest s) (if one then p0 s else p1 s) = Some w /\ 0 <= w).
  { unfold adjust_precision. destruct (Z.eqb_spec (greatest s) (if one then p0 s else p1 s)); [eexists; split; [reflexivity|lia]|].
    destruct (Z.ltb_spec (greatest s) (if one then p0 s else p1 s)) as [K|K]; [exfalso; unfold greatest in K; destruct one; lia|].
    eexists. split; [reflexivity|]. apply Z.div_pos; [lia|apply Z.pow_pos_nonneg; lia]. }
  destruct Ap as (w & Ew & W0). rewrite Ew. set (b2 := B / 10 ^ (18 - (if one then p1 s else p0 s))) in *.
  assert (Um : 0 <= b2 * fee e / DEC <= U128MAX).
  { assert (0 <= b2 * fee e <= b2 * DEC) by (split; [apply Z.mul_nonneg_nonneg; lia|apply Z.mul_le_mono_nonneg_l; lia]). split; [apply Z.div_pos; lia|]. apply Z.div_le_upper_bound; unfold U128MAX; lia. }
  assert (E5 : umul b2 (fee e) = Some (b2 * fee e / DEC)) by (apply umul_Some; split; [reflexivity|exact Um]). rewrite E5.
  do 3 eexists. split; [reflexivity|]. lia.
Qed.
Print Assumptions c146_answers.

(** One whole token of three. *)
Example c146_answers_example : init_t (amp ex_t) <= now (ex_e 1000) /\ half (ex_e 1000) ex_t true 1000000 /\ 10 ^ 18 <= 1000000 * ask_unit ex_t true.
Proof. vm_compute. intuition congruence. Qed.
