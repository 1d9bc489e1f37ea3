(** Concentrated pair: what each operation does, and the invariants of every reachable state. *)
From Coq Require Import ZArith Lia Bool List.
From Verif Require Import Num Ledger SnapshotModel BufferModel PclMath PclModel PclParamProps.
From Verif Require XykModel OwnershipModel ObservationModel.
Import ListNotations.
Open Scope Z_scope.

(** A state of a deployed pair at block time [c], after any history of messages in block-time order. *)
Definition reach (c : Z) (s : state) : Prop :=
  exists t h u am ga ps tr q0 q1 n0 n1 s0 l, 0 <= t <= U64MAX /\
    instantiate t h u am ga ps tr q0 q1 n0 n1 = Some s0 /\ timely t l /\
    Forall (fun em => env_ok (fst em)) l /\ s = run s0 l /\ c = end_time t l.
(** Fees announced by the factory: the maker's part is at most the whole fee. *)
Definition fees_ok (e : env) : Prop := 0 <= maker_rate (fees e) <= 10 ^ 18.

Ltac got := first [assumption | reflexivity].

(** ** Conversions *)
Lemma with_prec_inv v p x : with_prec v p = Some x -> x = v * 10 ^ (18 - p) /\ 0 <= x <= U256MAX.
Proof. unfold with_prec. intros H. apply u256_Some in H as (-> & H). auto. Qed.
Lemma pow_split p : 0 <= p <= 18 -> 0 < 10 ^ p /\ 0 < 10 ^ (18 - p) /\ 10 ^ p * 10 ^ (18 - p) = DEC.
Proof.
  intros H. split; [apply Z.pow_pos_nonneg; lia|]. split; [apply Z.pow_pos_nonneg; lia|].
  rewrite <- Z.pow_add_r by lia. replace (p + (18 - p)) with 18 by lia. reflexivity.
Qed.
Lemma to_uint_inv v p x : 0 <= p <= 18 -> to_uint v p = Some x ->
  x = v / 10 ^ (18 - p) /\ 0 <= x <= U128MAX /\ 0 <= v.
Proof.
  intros Hp H. unfold to_uint in H. unbind H as w E. apply u256_Some in E as (-> & E).
  apply u128_Some in H as (-> & H). destruct (pow_split p Hp) as (A & B & C).
  rewrite <- C in *. rewrite Z.div_mul_cancel_l in * by lia. split; [reflexivity|]. split; [exact H|]. nia.
Qed.
Lemma to_uint_with v p x y : 0 <= p <= 18 -> with_prec v p = Some x -> to_uint x p = Some y -> y = v.
Proof.
  intros Hp H1 H2. apply with_prec_inv in H1 as (-> & _). apply to_uint_inv in H2 as (-> & _); [|exact Hp].
  destruct (pow_split p Hp) as (A & B & C). apply Z.div_mul. lia.
Qed.

(** ** Swap *)

Record swap_facts (e : env) (s : state) (one : bool) (offer : Z) (belief ms : option Z) (s' : state)
    (ret spread comm maker shr : Z) : Prop := mkSF {
  sf_ex : exists off x0 x1 old fs res of_ ps c ob pe,
    with_prec offer (if one then p1 s else p0 s) = Some off /\
    with_prec (r0 s) (p0 s) = Some x0 /\ with_prec (r1 s) (p1 s) = Some x1 /\
    off <> 0 /\ x0 <> 0 /\ x1 <> 0 /\
    calc_last_prices (par s) (rmp s) (pst s) (now e) x0 x1 = Some old /\
    fee_share_rate s = Some fs /\
    compute_swap (par s) (rmp s) (pst s) (now e) x0 x1 off one (maker_share e) fs = Some res /\
    outflow res = Some of_ /\
    to_uint (dy res) (if one then p0 s else p1 s) = Some ret /\
    to_uint (spread_fee res) (if one then p0 s else p1 s) = Some spread /\
    to_uint (total_fee res) (if one then p0 s else p1 s) = Some comm /\
    (match fshare s with Some _ => to_uint (share_fee res) (if one then p0 s else p1 s) = Some shr | None => shr = 0 end) /\
    (if maker_on (fees e) then to_uint (maker_fee res) (if one then p0 s else p1 s) = Some maker else maker = 0) /\
    assert_max_spread belief ms offer ret spread = Some tt /\
    accumulate_prices s (now e) old = Some c /\
    ObservationModel.accumulate (now e) (obs s) (pend s) = Some ob /\
    (if (MIN_TRADE_SIZE <=? off) && (MIN_TRADE_SIZE <=? dy res) then
       exists pc, ObservationModel.pre_save (now e) (pend s) (if one then ret else offer) (if one then offer else ret) = Some pc /\ pe = Some pc
     else pe = pend s) /\
    (exists total, with_prec (supply s) LP_PREC = Some total /\
      if (MIN_TRADE_SIZE <=? of_) && (MIN_TRADE_SIZE <=? off) then
        exists price y1, last_price res off one = Some price /\
          dmul256 (if one then x1 + off else x1 - of_) (scale (pst s)) = Some y1 /\
          update_price (par s) (rmp s) (pst s) (now e) total (if one then x0 - of_ else x0 + off) y1 price = Some ps
      else ps = pst s) /\
    (0 <= (if one then x0 else x1) - of_) /\
    (can_send (if one then nat0 s else nat1 s) ret = true) /\
    s' = set_pools s (if one then r0 s - ret - maker - shr else r0 s + offer)
                     (if one then r1 s + offer else r1 s - ret - maker - shr) (supply s) (lp s) ps c (height e) ob pe;
  sf_ask : 0 <= (if one then r0 s else r1 s) - ret - maker - shr;
  sf_off : (if one then r1 s else r0 s) + offer <= U128MAX }.
Lemma swap_inv e s one offer belief ms s' o : swap e s one offer belief ms = Some (s', o) ->
  exists ret spread comm maker shr, o = OSwap ret spread comm maker shr /\
    swap_facts e s one offer belief ms s' ret spread comm maker shr.
Proof.
  intros H. unfold swap in H.
  unbind H as off E1. unbind H as x0 E2. unbind H as x1 E3. unguard H G. unbind H as old E4. unbind H as fs E5.
  unbind H as res E6. unbind H as of_ E7. unbind H as n_off E8. unbind H as n_ask E9. unbind H as ret E10.
  unbind H as spread E11. unbind H as ok E12. unbind H as total E13. unbind H as ps E14. unguard H G2.
  unbind H as shr E15. unbind H as maker E16. unbind H as c E17. unbind H as ob E18. unbind H as pe E19.
  unbind H as comm E20. unbind H as m_off E21. unbind H as k1 E22. unbind H as k2 E23. unbind H as m_ask E24.
  injection H as <- <-. destruct ok.
  apply add256_Some in E8 as (-> & _). apply sub256_Some in E9 as (-> & B1 & _).
  apply add128_Some in E21 as (-> & _ & B2). apply sub128_Some in E22 as (-> & _).
  apply sub128_Some in E23 as (-> & _). apply sub128_Some in E24 as (-> & B3 & _).
  exists ret, spread, comm, maker, shr. split; [reflexivity|]. split; [|exact B3|exact B2].
  exists off, x0, x1, old, fs, res, of_, ps, c, ob, pe. bools.
  repeat (split; [assumption|]).
  split. { destruct (fshare s); [exact E15|congruence]. }
  split. { destruct (maker_on (fees e)); [exact E16|congruence]. }
  repeat (split; [assumption|]).
  split.
  { destruct ((MIN_TRADE_SIZE <=? off) && (MIN_TRADE_SIZE <=? dy res)).
    - unbind E19 as pc E. injection E19 as <-. exists pc. auto.
    - congruence. }
  split.
  { exists total. split; [exact E13|]. destruct ((MIN_TRADE_SIZE <=? of_) && (MIN_TRADE_SIZE <=? off)).
    - unbind E14 as price E. unbind E14 as y1 E'. exists price, y1.
      split; [reflexivity|]. destruct one; (split; [exact E'|exact E14]).
    - congruence. }
  split; [exact B1|]. split; [exact G2|]. destruct one; reflexivity.
Qed.

(** The fee rate never exceeds the larger of the two configured fees. *)
Lemma fee_max p x0 x1 f : 0 <= mid_fee p -> 0 <= out_fee p -> fee p x0 x1 = Some f ->
  0 <= f <= Z.max (mid_fee p) (out_fee p).
Proof.
  intros Hm Ho E. unfold fee in E.
  unbind E as sum E1. unbind E as m E2. unbind E as n E3. unbind E as s2 E4. unbind E as k0 E5.
  unbind E as a E6. unbind E as b E7. unbind E as k1 E8. unbind E as u1 E9. unbind E as r E10.
  unbind E as u2 E11. apply add256_Some in E as (-> & R).
  apply sub256_Some in E10 as (-> & K & _). apply dmul256_Some in E9 as (-> & _).
  apply dmul256_Some in E11 as (-> & _). apply ddiv256_Some in E8 as (_ & K2 & K1). rewrite <- K2 in K1.
  remember (if k1 <=? FEE_TOL then 0 else k1) as k eqn:Ek.
  assert (0 <= k) by (rewrite Ek; destruct (k1 <=? FEE_TOL); lia).
  pose proof DEC_pos as D. remember (Z.max (mid_fee p) (out_fee p)) as M.
  assert (mid_fee p <= M) by lia. assert (out_fee p <= M) by lia.
  divb (k * mid_fee p) DEC A. divb ((DEC - k) * out_fee p) DEC B.
  assert (k * mid_fee p + (DEC - k) * out_fee p <= DEC * M) by nia.
  split; [lia|nia].
Qed.

(** Amounts of a computed swap. *)
Record res_facts (p : params) (ps : pstate) (x0 x1 offer : Z) (one : bool) (ms fs : Z) (res : result) : Prop := {
  rf_dy : 0 <= dy res; rf_sp : 0 <= spread_fee res; rf_mk : 0 <= maker_fee res; rf_sh : 0 <= share_fee res;
  rf_tot : 0 <= total_fee res;
  rf_fee : 99 * total_fee res <= dy res;
  rf_parts : maker_fee res + share_fee res <= total_fee res;
  rf_maker : DEC * maker_fee res <= ms * total_fee res;
  rf_share : DEC * share_fee res <= fs * total_fee res }.
Lemma compute_swap_amounts p r ps t x0 x1 offer one ms fs res :
  params_ok p -> 0 <= ms <= DEC -> 0 <= fs <= DEC ->
  compute_swap p r ps t x0 x1 offer one ms fs = Some res -> res_facts p ps x0 x1 offer one ms fs res.
Proof.
  intros P Hm Hf H. unfold compute_swap in H.
  unbind H as y1 E1. unbind H as (a, g) E2. unbind H as d E3. unbind H as off E4. unbind H as n_off E5.
  unbind H as ny E6. unbind H as dyi E7. unbind H as gross E8. unbind H as expect E9. unbind H as rate E10.
  unbind H as tf E11. unbind H as ret E12. unbind H as sf E13. unbind H as rest E14. unbind H as mf E15.
  injection H as <-.
  assert (R : 0 <= rate <= 10 ^ 16).
  { destruct P as (P1 & P2 & _).
    destruct one; (apply fee_max in E10; [lia|lia|lia]). }
  assert (G : 0 <= gross).
  { apply sub256_Some in E7 as (-> & E7). destruct one.
    - injection E8 as <-. lia.
    - apply ddiv256_Some in E8 as (_ & -> & E8). lia. }
  apply dmul256_Some in E11 as (-> & T0 & _). apply sub256_Some in E12 as (-> & R0 & _).
  apply dmul256_Some in E13 as (-> & S0 & _). apply sub256_Some in E14 as (-> & K0 & _).
  apply dmul256_Some in E15 as (-> & M0 & _).
  pose proof DEC_pos as D.
  divb (rate * gross) DEC tf. divb (tf * fs) DEC sf. divb ((tf - sf) * ms) DEC mf.
  assert (100 * tf <= gross).
  { assert (100 * (rate * gross) <= DEC * gross).
    { replace DEC with (100 * 10 ^ 16) by reflexivity. nia. }
    assert (DEC * (100 * tf) <= DEC * gross) by lia. nia. }
  assert (sf <= tf) by nia.
  assert (mf <= tf - sf) by nia.
  constructor; cbn [dy spread_fee maker_fee share_fee total_fee]; try lia; try nia.
  unfold ssub. lia.
Qed.

(** ** Provide *)

Lemma calculate_shares_inv t p r ps x0 x1 total d0 d1 tol amount ps2 :
  calculate_shares t p r ps x0 x1 total d0 d1 tol = Some (amount, ps2) ->
  exists n1 a g nd share ps1,
    (total <> 0 \/ (d0 <> 0 /\ d1 <> 0)) /\ 0 <= x0 + d0 <= U256MAX /\ 0 <= x1 + d1 <= U256MAX /\
    dmul256 (x1 + d1) (scale ps) = Some n1 /\ amp_gamma r t = Some (a, g) /\
    newton_d (x0 + d0) n1 a g = Some nd /\
    (if total =? 0 then
       exists x, get_xcp nd (scale ps) = Some x /\ share = x - 10 ^ 15 /\ 0 < share /\
         ps1 = mkPs (oracle ps) (last ps) (scale ps) (upd ps) DEC DEC
     else
       exists o1 od q i1 pf, dmul256 x1 (scale ps) = Some o1 /\ newton_d x0 o1 a g = Some od /\ od <> 0 /\
         q = total * nd / DEC * DEC / od /\ dmul256 d1 (scale ps) = Some i1 /\
         provide_fee p d0 i1 (x0 + d0) n1 = Some pf /\ 0 <= DEC - pf /\
         share = Z.max 0 (q - total) * (DEC - pf) / DEC /\ ps1 = ps) /\
    0 <= share /\ 0 < total + share /\
    (exists b0 b1 ratio, ratio = share * DEC / (total + share) /\ b0 = (x0 + d0) * ratio / DEC /\
       (scale ps <> 0 /\ b1 = n1 * ratio / DEC * DEC / scale ps) /\
       if (MIN_TRADE_SIZE <=? Z.abs (d0 - b0)) && (MIN_TRADE_SIZE <=? Z.abs (d1 - b1)) then
         exists sl price, provide_slippage ps1 tol d0 d1 share = Some sl /\
           ddiv256 (Z.abs (d0 - b0)) (Z.abs (d1 - b1)) = Some price /\
           update_price p r ps1 t (total + share) (x0 + d0) n1 price = Some ps2
       else ps2 = ps1) /\
    to_uint share LP_PREC = Some amount.
Proof.
  intros H. unfold calculate_shares in H.
  unguard H G. unbind H as n0 E0. unbind H as m1 E1. unbind H as n1 E2. unbind H as (a, g) E3.
  unbind H as nd E4. unbind H as (share, ps1) E5. unbind H as tot E6. unbind H as ratio E7. unbind H as b0 E8.
  unbind H as b1' E9. unbind H as b1 E10. unbind H as ps2' E11. unbind H as am E12. injection H as <- <-.
  apply add256_Some in E0 as (-> & R0). apply add256_Some in E1 as (-> & R1).
  apply add256_Some in E6 as (-> & R6).
  apply ddiv256_Some in E7 as (N7 & Er & R7). apply dmul256_Some in E8 as (Eb0 & R8).
  apply dmul256_Some in E9 as (-> & R9). apply ddiv256_Some in E10 as (N10 & Eb1 & R10).
  assert (S : 0 <= share).
  { destruct (total =? 0).
    - unbind E5 as x Ex. unbind E5 as m Em. unguard E5 Gm. injection E5 as <- _.
      apply sub256_Some in Em as (-> & Em & _). lia.
    - unbind E5 as o1 Eo. unbind E5 as od Ed. unbind E5 as m Em. unbind E5 as q Eq. unbind E5 as i1 Ei.
      unbind E5 as pf Ep. unbind E5 as k Ek. unbind E5 as sh Es. injection E5 as <- _.
      apply dmul256_Some in Es as (-> & Es & _). exact Es. }
  exists n1, a, g, nd, share, ps1.
  split. { bools. destruct (total =? 0) eqn:T; bools; [|left; exact T].
    right. destruct (d0 =? 0) eqn:A; [discriminate G|]. destruct (d1 =? 0) eqn:B; [discriminate G|]. bools. auto. }
  split; [got|]. split; [got|]. split; [got|]. split; [got|]. split; [got|].
  split.
  { destruct (total =? 0).
    - unbind E5 as x Ex. unbind E5 as m Em. unguard E5 Gm. injection E5 as <- <-.
      apply sub256_Some in Em as (-> & Em & _). exists x. bools.
      change (MINIMUM_LIQUIDITY * 10 ^ (18 - LP_PREC)) with (10 ^ 15) in *.
      split; [got|]. split; [got|]. split; [lia|reflexivity].
    - unbind E5 as o1 Eo. unbind E5 as od Ed. unbind E5 as m Em. unbind E5 as q Eq. unbind E5 as i1 Ei.
      unbind E5 as pf Ep. unbind E5 as k Ek. unbind E5 as sh Es. injection E5 as <- <-.
      apply dmul256_Some in Em as (-> & _). apply ddiv256_Some in Eq as (Nq & Eq & _).
      apply sub256_Some in Ek as (-> & Ek & _). apply dmul256_Some in Es as (-> & _).
      exists o1, od, q, i1, pf. split; [got|]. split; [got|]. split; [got|]. split; [got|].
      split; [got|]. split; [got|]. split; [got|]. split; reflexivity. }
  split; [exact S|]. split; [lia|]. split; [|got].
  exists b0, b1, ratio. split; [got|]. split; [got|]. split; [split; [exact N10|exact Eb1]|].
  destruct ((MIN_TRADE_SIZE <=? Z.abs (d0 - b0)) && (MIN_TRADE_SIZE <=? Z.abs (d1 - b1))).
  - unbind E11 as sl Es. unbind E11 as price Ep. exists sl, price. split; [got|].
    split; got.
  - congruence.
Qed.

Lemma provide_inv e s w d0 d1 tol ml s' o : provide e s w d0 d1 tol ml = Some (s', o) ->
  exists total x0 x1 e0 e1 share ps c,
    0 <= d0 /\ 0 <= d1 /\ registered e = true /\
    with_prec (supply s) LP_PREC = Some total /\
    with_prec (r0 s) (p0 s) = Some x0 /\ with_prec (r1 s) (p1 s) = Some x1 /\
    with_prec d0 (p0 s) = Some e0 /\ with_prec d1 (p1 s) = Some e1 /\
    calculate_shares (now e) (par s) (rmp s) (pst s) x0 x1 total e0 e1 tol = Some (share, ps) /\
    (match ml with Some m => m <= share | None => 0 <= share end) /\
    r0 s + d0 <= U128MAX /\ r1 s + d1 <= U128MAX /\
    accumulate_prices s (now e) (last (pst s)) = Some c /\
    let locked := if supply s =? 0 then 1000 else 0 in
    let lp1 := if supply s =? 0 then set (lp s) SELF (get (lp s) SELF + 1000) else lp s in
    0 <= supply s + locked + share <= U128MAX /\
    s' = set_pools s (r0 s + d0) (r1 s + d1) (supply s + locked + share)
           (set lp1 w (get lp1 w + share)) ps c (height e) (obs s) (pend s) /\ o = OProvide share.
Proof.
  intros H. unfold provide in H. unguard H G. bools.
  unbind H as total E1. unbind H as x0 E2. unbind H as x1 E3. unbind H as e0 E4. unbind H as e1 E5.
  unbind H as (share, ps) E6. unguard H G2. unbind H as n0 E7. unbind H as n1 E8. unbind H as sup E9.
  unbind H as c E10. injection H as <- <-.
  apply add128_Some in E7 as (-> & _ & B7). apply add128_Some in E8 as (-> & _ & B8).
  apply u128_Some in E9 as (-> & B9). bools.
  exists total, x0, x1, e0, e1, share, ps, c.
  repeat (split; [got|]). split; [destruct ml; lia|].
  repeat (split; [got|]). reflexivity.
Qed.

(** ** Withdraw *)

Lemma withdraw_inv e s w n imb mins s' o : withdraw e s w n imb mins = Some (s', o) ->
  exists x0 x1 ratio f0 a0 f1 a1 y1 a g d x ld xr,
    w <> SELF /\ 0 < n <= get (lp s) w /\ imb = false /\
    with_prec (r0 s) (p0 s) = Some x0 /\ with_prec (r1 s) (p1 s) = Some x1 /\
    share_ratio (ssub n 1) (supply s) = Some ratio /\
    refund x0 (p0 s) ratio = Some (f0, a0) /\ refund x1 (p1 s) ratio = Some (f1, a1) /\
    0 <= x0 - f0 /\ 0 <= x1 - f1 /\
    dmul256 (x1 - f1) (scale (pst s)) = Some y1 /\ amp_gamma (rmp s) (now e) = Some (a, g) /\
    newton_d (x0 - f0) y1 a g = Some d /\ get_xcp d (scale (pst s)) = Some x /\
    0 <= supply s - n /\ with_prec (supply s - n) LP_PREC = Some ld /\ ddiv256 x ld = Some xr /\
    can_send (nat0 s) a0 = true /\ can_send (nat1 s) a1 = true /\
    0 <= r0 s - a0 /\ 0 <= r1 s - a1 /\
    s' = set_pools s (r0 s - a0) (r1 s - a1) (supply s - n) (set (lp s) w (get (lp s) w - n))
           (mkPs (oracle (pst s)) (last (pst s)) (scale (pst s)) (upd (pst s)) (xcp (pst s)) xr)
           (c01 s, c10 s, last_t s) (height e) (obs s) (pend s) /\ o = OWithdraw a0 a1.
Proof.
  intros H. unfold withdraw in H. unguard H G. bools.
  unbind H as x0 E1. unbind H as x1 E2. unguard H G2. unbind H as ratio E3. unbind H as (f0, a0) E4.
  unbind H as (f1, a1) E5. unbind H as y0 E6. unbind H as y1' E7. unbind H as y1 E8. unbind H as (a, g) E9.
  unbind H as d E10. unbind H as x E11. unbind H as left E12. unbind H as ld E13. unbind H as xr E14.
  unguard H G3. unbind H as n0 E15. unbind H as n1 E16. injection H as <- <-.
  apply sub256_Some in E6 as (-> & B6 & _). apply sub256_Some in E7 as (-> & B7 & _).
  apply sub128_Some in E12 as (-> & B12 & _). apply sub128_Some in E15 as (-> & B15 & _).
  apply sub128_Some in E16 as (-> & B16 & _). bools.
  exists x0, x1, ratio, f0, a0, f1, a1, y1, a, g, d, x, ld, xr.
  split; [got|]. split; [lia|]. repeat (split; [got|]). split; reflexivity.
Qed.

(** ** Price state: nothing but the stated fields changes, and the scale stays positive *)

Lemma move_oracle_inv p ps t price ps' : move_oracle p ps t price = Some ps' ->
  scale ps' = scale ps /\ xcp ps' = xcp ps /\ xreal ps' = xreal ps /\ last ps' = price.
Proof. unfold move_oracle. intros H. destruct (upd ps <? t); step_inv H; injection H as <-; auto. Qed.
Lemma book_profit_inv ps rampng a g total x0 x1 ps' : book_profit ps rampng a g total x0 x1 = Some ps' ->
  scale ps' = scale ps /\ oracle ps' = oracle ps /\ last ps' = last ps /\ upd ps' = upd ps /\
  exists d x, newton_d x0 x1 a g = Some d /\ get_xcp d (scale ps) = Some x /\
  (xreal ps = 0 /\ ps' = ps \/
   xreal ps <> 0 /\ total <> 0 /\ xreal ps' = x * DEC / total /\ 0 <= xreal ps' /\
   (rampng = true \/ xreal ps <= xreal ps') /\ xcp ps' = xcp ps * xreal ps' / DEC * DEC / xreal ps /\ 0 <= xcp ps').
Proof.
  intros H. unfold book_profit in H. unbind H as d E1. unbind H as x E2.
  destruct (xreal ps =? 0) eqn:Z0.
  - injection H as <-. bools. repeat (split; [got|]). exists d, x. auto.
  - unbind H as r E3. unguard H G. unbind H as m E4. unbind H as xp E5. injection H as <-.
    apply ddiv256_Some in E3 as (N & -> & B). apply dmul256_Some in E4 as (-> & _).
    apply ddiv256_Some in E5 as (_ & -> & B5). bools. cbn [scale oracle last upd xreal xcp].
    repeat (split; [got|]). exists d, x. split; [got|]. split; [got|]. right.
    split; [exact Z0|]. split; [exact N|]. split; [got|]. split; [lia|]. split; [|split; [reflexivity|lia]].
    destruct rampng; [left; reflexivity|right]. rewrite orb_false_r in G. bools. exact G.
Qed.
Lemma get_xcp_scale d sc x : get_xcp d sc = Some x -> 0 <= sc -> 0 < sc.
Proof.
  unfold get_xcp. intros H P. unbind H as a E1. unbind H as q E2. unbind H as b E3.
  apply dmul256_Some in E2 as (-> & _). apply ddiv256_Some in E3 as (N & _).
  destruct (Z.eq_dec sc 0) as [->|]; [|lia]. exfalso. apply N. reflexivity.
Qed.
Lemma try_repeg_inv p ps a g total x0 x1 ps' : try_repeg p ps a g total x0 x1 = Some ps' ->
  oracle ps' = oracle ps /\ last ps' = last ps /\ upd ps' = upd ps /\ xcp ps' = xcp ps /\
  (ps' = ps \/
   exists q norm delta ns, ddiv256 (oracle ps) (scale ps) = Some q /\ norm = Z.abs (q - DEC) /\
     delta = Z.max (min_delta p) (norm * TENTH / DEC) /\ delta <= norm /\ norm <> 0 /\
     (xcp ps - DEC) * DEC / TWO_D + repeg p < xreal ps - DEC /\ 0 <= xreal ps - DEC /\ 0 <= xcp ps - DEC /\
     ns = (scale ps * (norm - delta) / DEC + delta * oracle ps / DEC) * DEC / norm /\ 0 <= ns /\
     scale ps' = ns /\ 0 < ns /\
     (exists y d x, y = x1 * ns / DEC * DEC / scale ps /\ newton_d x0 y a g = Some d /\ get_xcp d ns = Some x /\
        total <> 0 /\ xreal ps' = x * DEC / total /\ 0 <= xreal ps' <= U256MAX) /\
     xcp ps + DEC < 2 * xreal ps').
Proof.
  intros H. unfold try_repeg in H. unbind H as q E1. unbind H as tenth E2.
  apply dmul256_Some in E2 as (-> & _).
  remember (Z.abs (q - DEC)) as norm. remember (Z.max (min_delta p) (norm * TENTH / DEC)) as delta.
  destruct (delta <=? norm) eqn:L; [|injection H as <-; auto 10].
  unbind H as pr E3. unbind H as px E4. unbind H as hx E5. unbind H as th E6.
  destruct (th <? pr) eqn:T; [|injection H as <-; auto 10].
  unbind H as nd E7. unbind H as n1 E8. unbind H as n2 E9. unbind H as num E10. unbind H as ns E11.
  unbind H as y1 E12. unbind H as y E13. unbind H as d E14. unbind H as x E15. unbind H as r E16.
  unbind H as lhs E17. unbind H as rhs E18.
  destruct (rhs <? lhs) eqn:R; [|injection H as <-; auto 10]. injection H as <-.
  cbn [oracle last upd xcp scale xreal]. repeat (split; [got|]). right.
  apply sub256_Some in E3 as (-> & E3). apply sub256_Some in E4 as (-> & E4).
  apply ddiv256_Some in E5 as (_ & -> & _). apply add256_Some in E6 as (-> & _).
  apply sub256_Some in E7 as (-> & _). apply dmul256_Some in E8 as (-> & _).
  apply dmul256_Some in E9 as (-> & _). apply add256_Some in E10 as (-> & _).
  apply ddiv256_Some in E11 as (N11 & En & B11). rewrite <- En in B11.
  apply dmul256_Some in E12 as (-> & _). apply ddiv256_Some in E13 as (_ & Ey & _).
  apply ddiv256_Some in E16 as (N16 & Er & B16). rewrite <- Er in B16.
  apply dmul256_Some in E17 as (-> & _). apply add256_Some in E18 as (-> & _).
  pose proof (get_xcp_scale _ _ _ E15 (proj1 B11)) as P. bools.
  exists q, norm, delta, ns. split; [got|]. split; [exact Heqnorm|]. split; [exact Heqdelta|].
  split; [exact L|]. split; [got|]. split; [lia|]. split; [lia|]. split; [lia|]. split; [got|].
  split; [lia|]. split; [got|]. split; [exact P|]. split.
  - exists y, d, x. auto 10.
  - replace (TWO_D * r / DEC) with (2 * r) in R; [exact R|].
    change TWO_D with (2 * DEC). rewrite <- Z.mul_assoc, (Z.mul_comm DEC), Z.mul_assoc. symmetry. apply Z.div_mul.
    pose proof DEC_pos. lia.
Qed.
Lemma update_price_inv p r ps t total x0 x1 price ps' : update_price p r ps t total x0 x1 price = Some ps' ->
  exists a g ps1 ps2, amp_gamma r t = Some (a, g) /\ move_oracle p ps t price = Some ps1 /\
    book_profit ps1 (t <? f_time r) a g total x0 x1 = Some ps2 /\ try_repeg p ps2 a g total x0 x1 = Some ps'.
Proof.
  intros H. unfold update_price in H. unbind H as (a, g) E1. unbind H as ps1 E2. unbind H as ps2 E3.
  exists a, g, ps1, ps2. split; [got|]. split; [got|]. split; [exact E3|exact H].
Qed.
Lemma update_price_scale p r ps t total x0 x1 price ps' : update_price p r ps t total x0 x1 price = Some ps' ->
  0 < scale ps -> 0 < scale ps'.
Proof.
  intros H P. apply update_price_inv in H as (a & g & ps1 & ps2 & _ & E1 & E2 & E3).
  apply move_oracle_inv in E1 as (E1 & _). apply book_profit_inv in E2 as (E2 & _).
  apply try_repeg_inv in E3 as (_ & _ & _ & _ & [->|(q & norm & delta & ns & E3)]); [congruence|].
  destruct E3 as (_ & _ & _ & _ & _ & _ & _ & _ & _ & _ & -> & P' & _). exact P'.
Qed.

(** ** Invariant *)

Record inv (s : state) : Prop := {
  i_p0 : 0 <= p0 s <= 18; i_p1 : 0 <= p1 s <= 18;
  i_r0 : 0 <= r0 s <= U128MAX; i_r1 : 0 <= r1 s <= U128MAX;
  i_par : params_ok (par s);
  i_fs : match fshare s with Some b => 1 <= b <= 1000 | None => True end;
  i_lp : nonneg (lp s); i_sum : total (lp s) = supply s; i_sup : supply s <= U128MAX;
  i_lock : supply s = 0 \/ 1000 <= get (lp s) SELF;
  i_scale : 0 < scale (pst s) }.

Lemma set_pools_fields s n0 n1 sup l ps c h ob pe :
  let s' := set_pools s n0 n1 sup l ps c h ob pe in
  r0 s' = n0 /\ r1 s' = n1 /\ supply s' = sup /\ lp s' = l /\ pst s' = ps /\ par s' = par s /\ rmp s' = rmp s /\
  fshare s' = fshare s /\ p0 s' = p0 s /\ p1 s' = p1 s /\ owner s' = owner s /\ obs s' = ob /\ pend s' = pe /\
  c01 s' = fst (fst c) /\ c10 s' = snd (fst c) /\ last_t s' = snd c /\ nat0 s' = nat0 s /\ nat1 s' = nat1 s /\
  track s' = track s /\ h0 s' = (if track s then snap_save (h0 s) h n0 else h0 s) /\
  h1 s' = (if track s then snap_save (h1 s) h n1 else h1 s).
Proof. destruct c as [[? ?] ?]. cbv zeta. cbn. repeat (split; [got|]). reflexivity. Qed.

Lemma step_inv_ok e m s s' o : inv s -> step e m s = Some (s', o) -> inv s'.
Proof.
  intros I H. pose proof (step_settings _ _ _ _ _ H) as ST.
  assert (PAR : params_ok (par s')).
  { destruct ST as [(-> & _)|[(u & _ & U & _)|[(a & g & t & _ & _ & _ & -> & _)|[(_ & _ & -> & _)|[(b & _ & _ & _ & -> & _)|(_ & _ & -> & _)]]]]];
      try exact (i_par _ I). exact (update_ok _ _ _ (i_par _ I) U). }
  assert (FS : match fshare s' with Some b => 1 <= b <= 1000 | None => True end).
  { pose proof (i_fs _ I).
    destruct ST as [(_ & _ & ->)|[(u & _ & _ & _ & ->)|[(a & g & t & _ & _ & _ & _ & ->)|[(_ & _ & _ & ->)|[(b & _ & -> & Hb & _)|(_ & -> & _)]]]]];
      try assumption. exact Coq.Init.Logic.I. }
  clear ST. destruct m; cbn [step] in H.
  - apply provide_inv in H as (tot & x0 & x1 & e0 & e1 & share & ps & c & A0 & A1 & _ & E0 & _ & _ & _ & _ & E & M & B0 & B1 & _ & K).
    cbv zeta in K. destruct K as (K & -> & _).
    destruct (set_pools_fields s (r0 s + d0) (r1 s + d1) (supply s + (if supply s =? 0 then 1000 else 0) + share)
      (set (if supply s =? 0 then set (lp s) SELF (get (lp s) SELF + 1000) else lp s) receiver
        (get (if supply s =? 0 then set (lp s) SELF (get (lp s) SELF + 1000) else lp s) receiver + share)) ps c (height e) (obs s) (pend s))
      as (F1 & F2 & F3 & F4 & F5 & F6 & F7 & F8 & F9 & F10 & _).
    apply calculate_shares_inv in E as (n1 & a & g & nd & sh & ps1 & _ & _ & _ & _ & _ & _ & Es & S0 & _ & (b0 & b1 & ratio & _ & _ & _ & Hps) & Ea).
    apply to_uint_inv in Ea as (_ & Sh & _); [|unfold LP_PREC; lia].
    assert (P1 : 0 < scale ps1).
    { pose proof (i_scale _ I). destruct (tot =? 0).
      - destruct Es as (x & _ & _ & _ & ->). exact H.
      - destruct Es as (o1 & od & q & i1 & pf & _ & _ & _ & _ & _ & _ & _ & _ & ->). exact H. }
    assert (P2 : 0 < scale ps).
    { destruct (_ && _).
      - destruct Hps as (sl & price & _ & _ & U). exact (update_price_scale _ _ _ _ _ _ _ _ _ U P1).
      - subst ps. exact P1. }
    pose proof (i_lp _ I) as NL. pose proof (i_sum _ I) as SL. pose proof (i_lock _ I) as LK.
    pose proof (i_r0 _ I). pose proof (i_r1 _ I).
    remember (if supply s =? 0 then set (lp s) SELF (get (lp s) SELF + 1000) else lp s) as lp1.
    assert (N1 : nonneg lp1).
    { subst lp1. destruct (supply s =? 0); [|exact NL]. apply nonneg_set; [exact NL|].
      pose proof (nonneg_get _ SELF NL). lia. }
    assert (T1 : total lp1 = supply s + (if supply s =? 0 then 1000 else 0)).
    { subst lp1. destruct (supply s =? 0); [rewrite total_set|]; lia. }
    assert (L1 : 1000 <= get lp1 SELF).
    { subst lp1. destruct (supply s =? 0) eqn:Z0.
      - rewrite get_set_same. pose proof (nonneg_get _ SELF NL). lia.
      - bools. destruct LK; [contradiction|assumption]. }
    constructor; rewrite ?F1, ?F2, ?F3, ?F4, ?F5, ?F6, ?F7, ?F8, ?F9, ?F10; try (exact (i_p0 _ I)); try (exact (i_p1 _ I)); try lia.
    + exact (i_par _ I).
    + exact (i_fs _ I).
    + apply nonneg_set; [exact N1|]. pose proof (nonneg_get _ receiver N1). lia.
    + rewrite total_set, T1. lia.
    + right. destruct (Z.eq_dec receiver SELF) as [->|Ne].
      * rewrite get_set_same. lia.
      * rewrite get_set_other by exact Ne. exact L1.
  - apply withdraw_inv in H as (x0 & x1 & ratio & f0 & a0 & f1 & a1 & y1 & a & g & d & x & ld & xr & W & N & _ & X0 & X1 & Rt & R0 & R1 & _ & _ & _ & _ & _ & _ & Sp & _ & _ & _ & _ & B0 & B1 & -> & _).
    pose proof (i_lp _ I) as NL. pose proof (i_sum _ I) as SL. pose proof (i_lock _ I) as LK.
    pose proof (i_r0 _ I). pose proof (i_r1 _ I). pose proof (i_sup _ I).
    assert (A0 : 0 <= a0). { unfold refund in R0. unbind R0 as d0 Ed. unbind R0 as v Ev. injection R0 as _ <-.
      apply to_uint_inv in Ev; [|exact (i_p0 _ I)]. lia. }
    assert (A1 : 0 <= a1). { unfold refund in R1. unbind R1 as d0 Ed. unbind R1 as v Ev. injection R1 as _ <-.
      apply to_uint_inv in Ev; [|exact (i_p1 _ I)]. lia. }
    constructor; cbn; try (exact (i_p0 _ I)); try (exact (i_p1 _ I)); try (exact (i_scale _ I)); try exact PAR; try exact FS; try lia.
    + apply nonneg_set; [exact NL|lia].
    + rewrite total_set. lia.
    + right. rewrite get_set_other by exact W.
      pose proof (get_le_total _ who NL). destruct LK as [LK|LK]; [|exact LK]. lia.
  - unguard H G. bools. apply swap_inv in H as (ret & spread & comm & maker & shr & -> & F).
    destruct F as [(off & x0 & x1 & old & fs & res & of_ & ps & c & ob & pe & F) A B].
    destruct F as (_ & _ & _ & _ & _ & _ & _ & _ & _ & _ & Rt & _ & _ & Sh & Mk & _ & _ & _ & _ & (tot & _ & Hps) & _ & _ & ->).
    destruct (set_pools_fields s (if one then r0 s - ret - maker - shr else r0 s + offer)
       (if one then r1 s + offer else r1 s - ret - maker - shr) (supply s) (lp s) ps c (height e) ob pe)
      as (F1 & F2 & F3 & F4 & F5 & F6 & F7 & F8 & F9 & F10 & _).
    assert (PA : 0 <= (if one then p0 s else p1 s) <= 18) by (destruct one; [exact (i_p0 _ I)|exact (i_p1 _ I)]).
    assert (0 <= ret) by (apply to_uint_inv in Rt; [lia|exact PA]).
    assert (0 <= shr) by (destruct (fshare s); [apply to_uint_inv in Sh; [lia|exact PA]|lia]).
    assert (0 <= maker) by (destruct (maker_on (fees e)); [apply to_uint_inv in Mk; [lia|exact PA]|lia]).
    assert (P2 : 0 < scale ps).
    { destruct (_ && _).
      - destruct Hps as (price & y1 & _ & _ & U). exact (update_price_scale _ _ _ _ _ _ _ _ _ U (i_scale _ I)).
      - subst ps. exact (i_scale _ I). }
    pose proof (i_r0 _ I). pose proof (i_r1 _ I).
    constructor; rewrite ?F1, ?F2, ?F3, ?F4, ?F5, ?F6, ?F7, ?F8, ?F9, ?F10; try (apply I); try lia.
    + destruct one; lia.
    + destruct one; lia.
  - unguard H G. unbind H as p E. injection H as <- _. destruct I. constructor; cbn in *; assumption.
  - unguard H G. unbind H as p E. injection H as <- _. destruct I. constructor; cbn in *; assumption.
  - unguard H G. unbind H as p E. injection H as <- _. destruct I. constructor; cbn in *; assumption.
  - unguard H G. injection H as <- _. destruct I. constructor; cbn in *; assumption.
  - unguard H G. injection H as <- _. destruct I. constructor; cbn in *; assumption.
  - unbind H as x E. injection H as <- _. destruct I. constructor; cbn in *; assumption.
  - unguard H G. unbind H as x E. injection H as <- _. apply add128_Some in E as (-> & E). destruct I.
    constructor; cbn in *; try assumption; destruct one; lia.
  - unguard H G. injection H as <- _. bools. destruct I. constructor; cbn in *; try assumption.
    + apply nonneg_move; [assumption|lia].
    + rewrite total_move. assumption.
    + destruct i_lock0 as [L|L]; [left; exact L|right].
      destruct (Z.eq_dec SELF to) as [<-|Ne].
      * rewrite get_move_to by assumption. lia.
      * rewrite get_move_other by congruence. exact L.
Qed.
Lemma run_inv l : forall s, inv s -> inv (run s l).
Proof.
  induction l as [|[e m] l IH]; intros s I; [exact I|].
  change (run s ((e, m) :: l)) with (run (exec s (e, m)) l). apply IH. unfold exec. cbn [fst snd].
  destruct (step e m s) as [[s' o]|] eqn:E; [|exact I]. exact (step_inv_ok _ _ _ _ _ I E).
Qed.
Lemma deploy_inv t h u am ga ps tr q0 q1 n0 n1 s : 0 <= t <= U64MAX ->
  instantiate t h u am ga ps tr q0 q1 n0 n1 = Some s -> inv s.
Proof.
  intros T H. pose proof (instantiate_inv _ _ _ _ _ _ _ _ _ _ _ _ H T) as (P & _).
  unfold instantiate in H. unguard H G. unguard H G2. unbind H as p E. unguard H G3. injection H as <-. cbn in P.
  bools. repeat match goal with F : fits _ _ = true |- _ => apply fits_iff in F end.
  constructor; cbn; try assumption; try (unfold U128MAX; lia); try exact Coq.Init.Logic.I; try lia.
  constructor.
Qed.
Lemma reach_inv c s : reach c s -> inv s.
Proof.
  intros (t & h & u & am & ga & ps & tr & q0 & q1 & n0 & n1 & s0 & l & T & H & _ & _ & -> & _).
  apply run_inv. exact (deploy_inv _ _ _ _ _ _ _ _ _ _ _ _ T H).
Qed.
Lemma reach_rinv c s : reach c s -> rinv (rmp s) c.
Proof.
  intros (t & h & u & am & ga & ps & tr & q0 & q1 & n0 & n1 & s0 & l & T & H & L & F & -> & ->).
  destruct (instantiate_inv _ _ _ _ _ _ _ _ _ _ _ _ H T) as (A & B & _).
  exact (proj2 (run_settings l t s0 A B L F)).
Qed.
