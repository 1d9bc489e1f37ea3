(** Concentrated pair: stopping a parameter change, the price a swap records, the slippage limit of deposits
    (C31, C91, C99). *)
From Coq Require Import ZArith Lia Bool List.
From Verif Require Import Num Ledger PclMath PclModel PclParamProps PclProofs PclLpProps PclSwapProps PclTradeProps.
From Verif Require XykModel ObservationModel.
Import ListNotations.
Open Scope Z_scope.

(** ** C31: stopping a parameter change *)

(** Amplification and gamma stay for ever at the values they have when the change is stopped; nothing else changes. *)
Theorem c31_stop : forall e who s s' o, step e (StopPromotion who) s = Some (s', o) ->
  exists a g, amp_gamma (rmp s) (now e) = Some (a, g) /\
    (forall t, now e <= t -> amp_gamma (rmp s') t = Some (a, g)) /\
    pst s' = pst s /\ par s' = par s /\ supply s' = supply s /\ lp s' = lp s /\ r0 s' = r0 s /\ r1 s' = r1 s.
Proof.
  intros e who s s' o H. cbn [step] in H. unguard H G. unbind H as r E. injection H as <- _. unfold stop in E.
  unbind E as [a g] Ea. injection E as <-. exists a, g. split; [reflexivity|]. split; [|repeat split].
  intros t T. unfold amp_gamma. cbn [rmp set_cfg f_time f_amp f_gamma]. replace (t <? now e) with false by (symmetry; apply Z.ltb_ge; exact T).
  reflexivity.
Qed.
Example c31_stop_example :
  let s := run ex0 [(at_ 100000, Promote 7 (400 * DEC) 1450000000000000 300000)] in
  exists s' o, step (at_ 200000) (StopPromotion 7) s = Some (s', o) /\ amp_gamma (rmp s) 200000 = Some (220 * DEC, 797500000000000) /\
    amp_gamma (rmp s) 300000 = Some (400 * DEC, 1450000000000000) /\ amp_gamma (rmp s') 300000 = Some (220 * DEC, 797500000000000).
Proof.
  cbv zeta. eexists. exists ONone. split; [vm_compute; reflexivity|]. split; [vm_compute; reflexivity|].
  split; vm_compute; reflexivity.
Qed.

(** ** C91: the last price *)

(** A swap of at least 10^-5 tokens on both sides records its price (asset 0 per asset 1): what was offered against what
    left the pool (return and fees, up to less than three units of rounding). A smaller one leaves the price state as it is. *)
Theorem c91_last_price : forall c s e one offer belief ms s' ret spread comm maker shr, reach c s ->
  step e (Swap one offer belief ms) s = Some (s', OSwap ret spread comm maker shr) ->
  let wo := 10 ^ (18 - (if one then p1 s else p0 s)) in let wa := 10 ^ (18 - (if one then p0 s else p1 s)) in
  exists gone, (ret + maker + shr) * wa <= gone < (ret + maker + shr + 3) * wa /\
    if (10 ^ 13 <=? gone) && (10 ^ 13 <=? offer * wo)
    then last (pst s') = if one then gone * 10 ^ 18 / (offer * wo) else offer * wo * 10 ^ 18 / gone
    else pst s' = pst s.
Proof.
  intros c s e one offer belief ms s' ret spread comm maker shr R H. cbv zeta. pose proof (reach_inv _ _ R) as I.
  cbn [step] in H. unguard H G. apply swap_inv in H as (ret' & spread' & comm' & maker' & shr' & Eo & F).
  injection Eo as <- <- <- <- <-. destruct F as [(off & x0 & x1 & old & fs & res & of_ & ps & cc & ob & pe & F) _ _].
  destruct F as (W & _ & _ & _ & _ & _ & _ & Fs & Cs & Of & Rt & _ & _ & Sh & Mk & _ & _ & _ & _ & (tot & _ & U) & _ & _ & ->).
  apply with_prec_inv in W as (-> & _).
  assert (Pa : 0 <= (if one then p0 s else p1 s) <= 18) by (destruct one; [exact (i_p0 _ I)|exact (i_p1 _ I)]).
  assert (N : 0 <= maker_fee res /\ 0 <= share_fee res /\ (maker_share e = 0 -> maker_fee res = 0) /\ (fs = 0 -> share_fee res = 0)).
  { clear - Cs. unfold compute_swap in Cs. step_inv Cs. injection Cs as <-. cbn [maker_fee share_fee]. num_inv.
    split; [lia|]. split; [lia|]. split; intros Q; rewrite Q, Z.mul_0_r; reflexivity. }
  destruct N as (Mf & Sf & Mz & Sz).
  assert (K : forall v x, to_uint v (if one then p0 s else p1 s) = Some x ->
    x * 10 ^ (18 - (if one then p0 s else p1 s)) <= v < (x + 1) * 10 ^ (18 - (if one then p0 s else p1 s))).
  { intros v x T. apply to_uint_inv in T as (-> & _); [|exact Pa]. destruct (pow_split _ Pa) as (_ & Wp & _).
    pose proof (Z.mul_div_le v _ Wp). pose proof (Z.mul_succ_div_gt v _ Wp). lia. }
  exists of_. apply K in Rt.
  assert (S1 : shr * 10 ^ (18 - (if one then p0 s else p1 s)) <= share_fee res < (shr + 1) * 10 ^ (18 - (if one then p0 s else p1 s))).
  { unfold fee_share_rate in Fs. destruct (fshare s); [exact (K _ _ Sh)|]. injection Fs as <-. rewrite (Sz eq_refl). subst shr.
    destruct (pow_split _ Pa) as (_ & Wp & _). lia. }
  assert (S2 : maker * 10 ^ (18 - (if one then p0 s else p1 s)) <= maker_fee res < (maker + 1) * 10 ^ (18 - (if one then p0 s else p1 s))).
  { unfold maker_share in Mz. destruct (maker_on (fees e)); [exact (K _ _ Mk)|]. rewrite (Mz eq_refl). subst maker.
    destruct (pow_split _ Pa) as (_ & Wp & _). lia. }
  split. { unfold outflow in Of. unbind Of as q Eq. apply add256_Some in Eq as (-> & _). apply add256_Some in Of as (-> & _).
    remember (10 ^ (18 - (if one then p0 s else p1 s))) as w. lia. }
  assert (Ps : forall n0 n1 ps0 h ob0 pe0 z, pst (set_pools s n0 n1 (supply s) (lp s) ps0 z h ob0 pe0) = ps0) by (intros; destruct z as [[? ?] ?]; reflexivity).
  rewrite Ps. change MIN_TRADE_SIZE with (10 ^ 13) in U. destruct (_ && _); [|exact U].
  destruct U as (price & y1 & L & _ & U). apply update_price_fields in U as (ps1 & M & _ & -> & _).
  apply move_oracle_inv in M as (_ & _ & _ & ->). unfold last_price in L. rewrite Of in L.
  destruct one; apply ddiv256_Some in L as (_ & -> & _); reflexivity.
Qed.

Example c91_last_price_example :
  step (at_ 2000) (Swap false 100000000 None (Some HALF_D)) ex_balanced = Some (ex_traded, OSwap 48537391 1251233 211375 0 0) /\
  last (pst ex_balanced) = 2 * DEC /\ last (pst ex_traded) = 2060267309917418178 /\
  100000000 * 10 ^ 18 / 48537392 <= 2060267309917418178 <= 100000000 * 10 ^ 18 / 48537391.
Proof.
  split; [exact ex_traded_step|]. split; [vm_compute; reflexivity|]. split; [vm_compute; reflexivity|].
  split; vm_compute; discriminate.
Qed.

(** ** C99: deposits *)

(** What the deposited value [v] (18 digits, at the pool's price [sc]) should give in LP tokens when half of it is on
    each side and one LP token is worth [xr] *)
Definition fair (v sc xr : Z) : Z := Z.sqrt (v / 2 * v / 10 ^ 18 * 10 ^ 18 / (2 * sc) * 10 ^ 18) * 10 ^ 18 / xr.
(** the part of [x] that belongs to [sh] of [t] LP tokens *)
Definition part (x sh t : Z) : Z := x * (sh * 10 ^ 18 / t) / 10 ^ 18.

Lemma dsqrt_exact q : 0 <= q -> q <= 10 ^ 59 -> dsqrt q = Z.sqrt (q * 10 ^ 18).
Proof.
  intros A B. unfold dsqrt. cbn [dsqrt_at]. change (100 ^ Z.of_nat 9) with (10 ^ 18). change (10 ^ (9 - Z.of_nat 9)) with 1.
  assert (C : q * 10 ^ 18 <=? U256MAX = true) by (apply Z.leb_le; unfold U256MAX; lia). rewrite C. lia.
Qed.

(** the tolerance the code applies *)
Lemma slippage_ok ps tol e0 e1 sh sl : 0 < scale ps ->
  (e0 + e1 * scale ps / DEC) * (e0 + e1 * scale ps / DEC) <= 10 ^ 59 * scale ps ->
  provide_slippage ps tol e0 e1 sh = Some sl ->
  let t := match tol with Some v => v | None => 5 * 10 ^ 16 end in
  let f := fair (e0 + e1 * scale ps / DEC) (scale ps) (xreal ps) in
  t <= 5 * 10 ^ 17 /\ (f - sh) * DEC < (t + 1) * f.
Proof.
  intros Sc Vb Ps. unfold provide_slippage in Ps. cbv zeta in Ps |- *.
  assert (D1 : DEFAULT_SLIPPAGE = 5 * 10 ^ 16) by reflexivity. assert (D2 : MAX_ALLOWED_SLIPPAGE = 5 * 10 ^ 17) by reflexivity.
  assert (D3 : TWO_D = 2 * DEC) by reflexivity. assert (D4 : 10 ^ 18 = DEC) by reflexivity. rewrite D1, D2, D3 in Ps.
  unguard Ps G3. unbind Ps as v1 F1. unbind Ps as v F2. unbind Ps as hv F3. unbind Ps as m F4. unbind Ps as dn F5. unbind Ps as qq F6.
  unbind Ps as ex F7. unbind Ps as sl' F8. unguard Ps G4. bools. pose proof DEC_pos as DP.
  apply dmul256_Some in F1 as (-> & _). apply add256_Some in F2 as (-> & B2). apply ddiv256_Some in F3 as (_ & -> & _).
  apply dmul256_Some in F4 as (-> & _). apply dmul256_Some in F5 as (-> & _). apply ddiv256_Some in F6 as (_ & F6 & _).
  apply ddiv256_Some in F7 as (_ & F7 & B7). apply ddiv256_Some in F8 as (Nz & F8 & _). rewrite <- F7 in B7.
  rewrite Z.div_mul_cancel_r in F6 by lia.
  assert (Y : 2 * DEC * scale ps / DEC = 2 * scale ps).
  { rewrite (Z.mul_comm 2), <- Z.mul_assoc, Z.mul_comm. apply Z.div_mul; lia. }
  rewrite Y in F6. clear Y Ps.
  remember (e0 + e1 * scale ps / DEC) as v eqn:Ev.
  assert (Q0 : 0 <= qq <= 10 ^ 59).
  { split. { subst qq. apply Z.div_pos; [|lia]. apply Z.mul_nonneg_nonneg; [|lia]. apply Z.div_pos; [|lia].
             apply Z.mul_nonneg_nonneg; [apply Z.div_pos; lia|lia]. }
    subst qq. apply Z.div_le_upper_bound; [lia|].
    assert (K1 : v / 2 * v / DEC * DEC <= v / 2 * v) by (rewrite Z.mul_comm; apply Z.mul_div_le; lia).
    assert (K2 : v / 2 * v <= v * v). { apply Z.mul_le_mono_nonneg_r; [lia|]. apply Z.div_le_upper_bound; lia. } lia. }
  rewrite dsqrt_exact in F7 by lia. unfold fair. rewrite D4 in *. rewrite <- F6, <- F7. split; [assumption|].
  assert (Ep : 0 < ex) by lia. rewrite F8 in G4. clear - G4 Ep DP.
  pose proof (Z.mul_succ_div_gt (ssub ex sh * DEC) ex Ep) as K. unfold ssub in *.
  assert ((ex - sh) * DEC <= Z.max 0 (ex - sh) * DEC) by (apply Z.mul_le_mono_nonneg_r; lia).
  set (q := Z.max 0 (ex - sh) * DEC / ex) in *. nia.
Qed.

(** A deposit into a pool with liquidity that is out of proportion by at least 10^-5 tokens on both sides mints at least
    its fair amount of LP tokens less the tolerated fraction (5% unless given, at most 50%). *)
Theorem c99_deposit : forall c s e who d0 d1 tol ml s' share, reach c s ->
  step e (Provide who d0 d1 tol ml) s = Some (s', OProvide share) -> 0 < supply s ->
  let t := match tol with Some v => v | None => 5 * 10 ^ 16 end in
  let sc := scale (pst s) in
  let w0 := 10 ^ (18 - p0 s) in let w1 := 10 ^ (18 - p1 s) in
  let v := d0 * w0 + d1 * w1 * sc / 10 ^ 18 in
  v * v <= 10 ^ 59 * sc ->
  exists sh, share * 10 ^ 12 <= sh < (share + 1) * 10 ^ 12 /\
    let T := supply s * 10 ^ 12 + sh in
    let b0 := part ((r0 s + d0) * w0) sh T in
    let b1 := part ((r1 s + d1) * w1 * sc / 10 ^ 18) sh T * 10 ^ 18 / sc in
    (10 ^ 13 <= Z.abs (d0 * w0 - b0) -> 10 ^ 13 <= Z.abs (d1 * w1 - b1) ->
     t <= 5 * 10 ^ 17 /\ (fair v sc (xreal (pst s)) - sh) * 10 ^ 18 < (t + 1) * fair v sc (xreal (pst s))).
Proof.
  intros c s e who d0 d1 tol ml s' share R H Sp. cbv zeta. intros Vb. pose proof (reach_inv _ _ R) as I. pose proof (i_scale _ I) as Sc.
  cbn [step] in H. unfold provide in H. unguard H G. unbind H as total E1. unbind H as x0 E2. unbind H as x1 E3. unbind H as e0 E4. unbind H as e1 E5.
  unbind H as [sh2 ps] E6. unguard H G2. unbind H as n0 E7. unbind H as n1 E8. cbv zeta in H. unbind H as sup E9. unbind H as cc E10.
  injection H as _ <-. bools.
  apply with_prec_inv in E1 as (-> & _). apply with_prec_inv in E2 as (-> & _). apply with_prec_inv in E3 as (-> & _).
  apply with_prec_inv in E4 as (-> & _). apply with_prec_inv in E5 as (-> & _). change (10 ^ (18 - LP_PREC)) with (10 ^ 12) in *.
  destruct (pow_split _ (i_p0 _ I)) as (_ & W0 & _). destruct (pow_split _ (i_p1 _ I)) as (_ & W1 & _).
  remember (10 ^ (18 - p0 s)) as w0. remember (10 ^ (18 - p1 s)) as w1.
  apply calculate_shares_inv in E6 as (m1 & a & g & nd & sh & ps1 & _ & _ & _ & M1 & _ & _ & Q & Sh0 & _ & (b0 & b1 & ratio & Er & Eb0 & (_ & Eb1) & P) & U).
  replace (supply s * 10 ^ 12 =? 0) with false in Q by (symmetry; apply Z.eqb_neq; lia).
  destruct Q as (o1 & od & q & i1 & pf & _ & _ & _ & _ & _ & _ & _ & _ & ->).
  apply dmul256_Some in M1 as (M1 & _). exists sh.
  apply to_uint_inv in U as (-> & _); [|unfold LP_PREC; lia]. change (10 ^ (18 - LP_PREC)) with (10 ^ 12).
  split. { pose proof (Z.mul_div_le sh (10 ^ 12) eq_refl). pose proof (Z.mul_succ_div_gt sh (10 ^ 12) eq_refl). lia. }
  unfold part. change (10 ^ 18) with DEC in *. rewrite <- !Z.mul_add_distr_r in *. rewrite <- Er, <- Eb0, <- M1, <- Eb1. intros A0 A1.
  change MIN_TRADE_SIZE with (10 ^ 13) in P.
  replace ((10 ^ 13 <=? Z.abs (d0 * w0 - b0)) && (10 ^ 13 <=? Z.abs (d1 * w1 - b1))) with true in P
    by (symmetry; apply andb_true_iff; split; apply Z.leb_le; assumption).
  destruct P as (sl & price & Ps & _). exact (slippage_ok _ _ _ _ _ _ Sc Vb Ps).
Qed.
(** One-sided deposit of 20 tokens: 7.060928 LP tokens, 0.14% less than the fair 7.071067; refused when only 0.1% is tolerated. *)
Definition ex_lopsided : state := Eval vm_compute in exec ex_balanced (at_ 2000, Provide 6 20000000 0 None None).
Example c99_deposit_example :
  step (at_ 2000) (Provide 6 20000000 0 None None) ex_balanced = Some (ex_lopsided, OProvide 7060928) /\
  0 < supply ex_balanced /\ (20 * 10 ^ 18) * (20 * 10 ^ 18) <= 10 ^ 59 * scale (pst ex_balanced) /\
  fair (20 * 10 ^ 18) (scale (pst ex_balanced)) (xreal (pst ex_balanced)) = 7071067811865475244 /\
  10 ^ 13 <= 20 * 10 ^ 18 - part (2020000000 * 10 ^ 12) (7060928 * 10 ^ 12) ((supply ex_balanced + 7060928) * 10 ^ 12) /\
  step (at_ 2000) (Provide 6 20000000 0 (Some (10 ^ 15)) None) ex_balanced = None.
Proof.
  split; [vm_compute; reflexivity|]. split; [vm_compute; reflexivity|]. split; [vm_compute; discriminate|].
  split; [vm_compute; reflexivity|]. split; [vm_compute; discriminate|]. vm_compute. reflexivity.
Qed.

Print Assumptions c31_stop.
Print Assumptions c91_last_price.
Print Assumptions c99_deposit.
