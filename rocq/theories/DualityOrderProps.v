(** Order-book pair: sizes and prices of the orders it places (C102). *)
From Coq Require Import ZArith Lia Bool List.
From Verif Require Import Num Ledger PclMath PclModel PclParamProps PclProofs PclLpProps DualityModel DualityProofs DualityProps.
From Verif Require Amap XykModel ObservationModel.
Import ListNotations.
Open Scope Z_scope.

(** ** Specification *)

(** What the first orders of one side bring when they are filled at their prices (18 digits) *)
Fixpoint value (price : Z * Z -> Z) (size : Z) (l : list (Z * Z)) : Z :=
  match l with [] => 0 | q :: r => price q * size / 10 ^ 18 + value price size r end.
(** [off] is what the curve with invariant [D] asks for [ask] of the asset whose (internal) volume is [x], net of the
    fee rate [fee], the other volume being [y]: the fee is put on top of [ask], and [Y] solves the curve. *)
Definition on_curve (D a g fee x y ask : Z) (first : bool) (off : Z) : Prop :=
  exists gross Y, gross = ask * (10 ^ 36 / (10 ^ 18 - fee)) / 10 ^ 18 /\
    newton_y D (x - gross) a g first = Some Y /\ off = Y - y.

(** An order to sell an asset of precision [bp] for one of precision [qp] is sent with [w_avg], the least average
    price accepted, and [w_limit], the price of the order, the fraction [ad] above it. Both are counted in smallest
    units with 27 digits: when the asset sold has more decimals, the 18-digit price is first cut down. *)
Definition in_units (price bp qp v : Z) : Prop :=
  if bp <=? qp then v = price * 10 ^ (qp - bp) * 10 ^ 9 else v = price / 10 ^ (bp - qp) * 10 ^ 9.
Definition quoted (ad price bp qp : Z) (w : post) : Prop :=
  in_units price bp qp (w_avg w) /\ in_units (price + ad * price / 10 ^ 18) bp qp (w_limit w).
(** The size of one of [n] orders of a side when the share [liq] / 2 of the volume [x] is exported *)
Definition size_of (x lq n : Z) : Z := x * (lq / 2) / 10 ^ 18 / n.
(** [n] is the volume of [c] coins of precision [p], short of at most five coins (roundings of fees and payouts) *)
Definition volume_of (c p n : Z) : Prop := (c - 5) * 10 ^ (18 - p) < n <= c * 10 ^ (18 - p).

(** ** The prices constructed *)

Lemma next_price_value size i o ls sp v : 0 <= size -> 1 <= i -> (i = 1 -> ls = 0) ->
  next_price size i o ls = Some sp -> dmul256 sp size = Some v ->
  0 <= o - (ls + v) <= size / DEC + 1.
Proof.
  intros S I L H V. pose proof DEC_pos as D. apply dmul256_Some in V as (V & _).
  assert (K : exists z, z = size /\ z <> 0 /\ sp = (o - ls) * DEC / z /\ 0 <= sp).
  { unfold next_price in H. destruct (1 <? i) eqn:G; bools.
    - unbind H as r E. apply sub256_Some in E as (-> & _). apply ddiv256_Some in H as (Nz & -> & B). exists size. repeat split; try assumption; lia.
    - assert (i = 1) by lia. subst i. rewrite (L eq_refl) in *. unbind H as am E. apply dmul256_Some in E as (E & _).
      rewrite Z.mul_1_l, Z.div_mul in E by lia. subst am. apply ddiv256_Some in H as (Nz & -> & B). rewrite Z.sub_0_r. exists size. repeat split; try assumption; lia. }
  destruct K as (z & -> & Nz & Es & P). divb ((o - ls) * DEC) size q. subst sp. divb (q * size) DEC u. subst v. divb size DEC t.
  remember (o - ls) as r. replace (o - (ls + u)) with (r - u) by lia.
  assert (A1 : size * q <= r * DEC) by assumption. assert (A2 : DEC * u <= size * q) by nia. assert (A3 : u <= r) by nia. split; [lia|].
  assert (A4 : r * DEC < size * q + size) by nia. assert (A5 : size * q < DEC * u + DEC) by nia.
  assert (A6 : r * DEC < DEC * u + DEC + DEC * t + DEC) by nia. nia.
Qed.

(** the [k]-th element and the orders up to it *)
Lemma construct_values n : forall i p sc a g d x0 x1 s0 s1 ls lb l, 0 <= s0 -> 0 <= s1 -> 1 <= i -> (i = 1 -> ls = 0 /\ lb = 0) ->
  construct n i p sc a g d x0 x1 s0 s1 ls lb = Some (Some l) ->
  Forall (fun q => 0 < fst q /\ 0 < snd q) l /\
  forall k, (k < n)%nat ->
  exists o1 o0, offer_for p sc a g d x0 x1 (s0 * (i + Z.of_nat k)) true = Some o1 /\
    offer_for p sc a g d x0 x1 (s1 * (i + Z.of_nat k)) false = Some o0 /\
    0 <= o1 - (ls + value fst s0 (firstn (S k) l)) <= s0 / DEC + 1 /\
    0 <= o0 - (lb + value snd s1 (firstn (S k) l)) <= s1 / DEC + 1.
Proof.
  pose proof DEC_pos as D.
  induction n as [|n IH]; intros i p sc a g d x0 x1 s0 s1 ls lb l S0 S1 I L H; cbn [construct] in H.
  { injection H as <-. split; [constructor|]. intros k K. lia. }
  unbind H as k0 E1. unbind H as o1 E2. unbind H as sp E3. unbind H as k1 E4. unbind H as o0 E5. unbind H as bp E6.
  destruct ((sp =? 0) || (bp =? 0)) eqn:Zb; [discriminate H|]. apply orb_false_iff in Zb as (Z1 & Z2). bools.
  unbind H as vs E7. unbind H as vb E8. unbind H as rest E9. destruct rest as [l'|]; [|discriminate H].
  injection H as <-. apply dmul256_Some in E1 as (E1 & _). apply dmul256_Some in E4 as (E4 & _).
  rewrite Z.mul_assoc, Z.div_mul in E1, E4 by lia. subst k0 k1.
  assert (P1 : 0 <= sp) by (unfold next_price in E3; destruct (1 <? i); [unbind E3 as r Er|unbind E3 as r Er]; apply ddiv256_Some in E3; lia).
  assert (P2 : 0 <= bp) by (unfold next_price in E6; destruct (1 <? i); [unbind E6 as r Er|unbind E6 as r Er]; apply ddiv256_Some in E6; lia).
  pose proof (next_price_value _ _ _ _ _ _ S0 I (fun e => proj1 (L e)) E3 E7) as V1.
  pose proof (next_price_value _ _ _ _ _ _ S1 I (fun e => proj2 (L e)) E6 E8) as V2.
  apply dmul256_Some in E7 as (E7 & _). apply dmul256_Some in E8 as (E8 & _).
  apply IH in E9 as (F & E9); try assumption; [|lia|lia].
  split. { constructor; [cbn; lia|exact F]. }
  intros [|k] K.
  - exists o1, o0. rewrite Z.add_0_r. split; [exact E2|]. split; [exact E5|]. cbn [firstn value fst snd]. change (10 ^ 18) with DEC.
    rewrite <- E7, <- E8, !Z.add_0_r. split; assumption.
  - destruct (E9 k) as (q1 & q0 & A1 & A0 & B1 & B0); [lia|]. exists q1, q0.
    replace (i + Z.of_nat (S k)) with (i + 1 + Z.of_nat k) by lia. split; [exact A1|]. split; [exact A0|].
    change (firstn (S (S k)) ((sp, bp) :: l')) with ((sp, bp) :: firstn (S k) l'). cbn [value fst snd]. change (10 ^ 18) with DEC.
    rewrite <- E7, <- E8. lia.
Qed.

Lemma offer_on_curve p sc a g d x0 x1 ask one o : 0 <= sc ->
  offer_for p sc a g d x0 x1 ask one = Some o ->
  if one then exists v, on_curve d a g (out_fee p) x0 x1 ask true v /\ o = v * 10 ^ 18 / sc
  else on_curve d a g (out_fee p) x1 x0 (ask * sc / 10 ^ 18) false o.
Proof.
  intros Sc H. unfold offer_for in H. unbind H as w E1. unbind H as rest E2. unbind H as inv E3. unbind H as bf E4. unbind H as n E5.
  unbind H as ny E6. unbind H as dx E7. change (10 ^ 18) with DEC.
  assert (Ei : inv = 10 ^ 36 / (DEC - out_fee p)).
  { apply sub256_Some in E2 as (-> & _). unfold dinv in E3. destruct (DEC - out_fee p =? 0); [discriminate E3|]. apply (f_equal (fun v => match v with Some z => z | None => 0 end)) in E3. cbv beta iota in E3. rewrite <- E3. change (10 ^ 36) with (DEC * DEC). reflexivity. }
  apply sub256_Some in E5 as (-> & _). apply sub256_Some in E7 as (-> & _). apply dmul256_Some in E4 as (E4 & _).
  destruct one.
  - injection E1 as <-. exists (ny - x1). split; [|apply ddiv256_Some in H as (_ & -> & _); reflexivity].
    exists bf, ny. change (10 ^ 18) with DEC. rewrite <- Ei. auto.
  - apply dmul256_Some in E1 as (E1 & _). injection H as <-. rewrite <- E1. exists bf, ny. change (10 ^ 18) with DEC. rewrite <- Ei. auto.
Qed.
Lemma duality_price_inv price bp qp v : duality_price price bp qp = Some v -> in_units price bp qp v.
Proof.
  pose proof DEC_pos as D.
  intros H. unfold duality_price in H. unbind H as q E. apply mul256_Some in H as (-> & _). unfold in_units. change DUALITY_ADJ with (10 ^ 9).
  destruct (bp <=? qp) eqn:L; bools.
  - replace (qp <? bp) with false in E by (symmetry; apply Z.ltb_ge; lia). destruct (bp <? qp) eqn:M; bools.
    + apply dmul256_Some in E as (-> & _). rewrite Z.mul_assoc, Z.div_mul by lia. reflexivity.
    + injection E as <-. replace (qp - bp) with 0 by lia. rewrite Z.mul_1_r. reflexivity.
  - replace (qp <? bp) with true in E by (symmetry; apply Z.ltb_lt; lia). apply ddiv256_Some in E as (_ & -> & _).
    assert (W : 0 < 10 ^ (bp - qp)) by (apply Z.pow_pos_nonneg; lia). rewrite Z.div_mul_cancel_r by lia. reflexivity.
Qed.
Lemma to_post_quoted ad q0 q1 price size b w : to_post ad q0 q1 price size b = Some w ->
  w_buy w = b /\ quoted ad price (if b then q1 else q0) (if b then q0 else q1) w.
Proof.
  intros H. unfold to_post in H. unbind H as x E1. unbind H as lim E2. cbv zeta in H. unbind H as lv E3. unbind H as av E4. unbind H as mm E5.
  unbind H as am E6. injection H as <-. split; [reflexivity|]. apply dmul256_Some in E1 as (-> & _). apply add256_Some in E2 as (-> & _).
  split; cbn [w_avg w_limit]; apply duality_price_inv; assumption.
Qed.
Lemma to_posts_nth ad q0 q1 s0 s1 : forall l ws k sp bp, to_posts ad q0 q1 s0 s1 l = Some ws -> nth_error l k = Some (sp, bp) ->
  exists w v, nth_error ws (2 * k) = Some w /\ nth_error ws (2 * k + 1) = Some v /\ w_buy w = false /\ w_buy v = true /\
    quoted ad sp q0 q1 w /\ quoted ad bp q1 q0 v.
Proof.
  induction l as [|[sp0 bp0] l IH]; intros ws k sp bp H N; [destruct k; discriminate N|]. cbn [to_posts] in H.
  unbind H as w E1. unbind H as v E2. unbind H as rs E3. injection H as <-.
  apply to_post_quoted in E1 as (A1 & A2). apply to_post_quoted in E2 as (B1 & B2). destruct k as [|k].
  - injection N as <- <-. exists w, v. auto 7.
  - cbn [nth_error] in N. destruct (IH _ _ _ _ eq_refl N) as (w' & v' & C1 & C2 & C). exists w', v'.
    replace (2 * S k)%nat with (S (S (2 * k))) by lia. split; [exact C1|]. split; [exact C2|exact C].
Qed.
Lemma order_size_of b x s : 1 <= num b -> order_size b x = Some s -> s = size_of x (liq b) (num b).
Proof.
  pose proof DEC_pos as D. intros N H. unfold order_size in H. unbind H as h E1. unbind H as l E2. apply ddiv256_Some in E1 as (_ & -> & _).
  apply dmul256_Some in E2 as (-> & _). apply ddiv256_Some in H as (_ & -> & _). unfold size_of. change TWO_D with (2 * DEC). change (10 ^ 18) with DEC.
  rewrite Z.div_mul_cancel_r by lia. rewrite Z.div_mul_cancel_r by lia. reflexivity.
Qed.

(** C102. Whenever orders are placed they lie on the curve of the pool as the message leaves it: with [D] the
    invariant of the volumes held (contract and book together, after fees and payouts), the first [k] sell orders
    bring together what the curve asks for their total size net of the out fee, up to [s / 10^18 + 1] units of the
    18-digit volume, never more; likewise the buy orders. The prices are then sent as [quoted]. *)
Theorem c102_orders : forall st de m st' o, dreach st -> trading m -> dstep de m st = Some (st', o) -> o_posts o <> [] ->
  let n := num (ob st) in let sc := scale (pst (pool st')) in let fee := out_fee (par (pool st)) in
  exists n0 n1 a g D l,
    volume_of (r0 (pool st') - got0 de + posted false (o_posts o)) (p0 (pool st)) n0 /\
    volume_of (r1 (pool st') - got1 de + posted true (o_posts o)) (p1 (pool st)) n1 /\
    let y1 := n1 * sc / 10 ^ 18 in let s0 := size_of n0 (liq (ob st)) n in let s1 := size_of n1 (liq (ob st)) n in
    amp_gamma (rmp (pool st)) (now (base de)) = Some (a, g) /\ newton_d n0 y1 a g = Some D /\
    Z.of_nat (length l) = n /\ Forall (fun q => 0 < fst q /\ 0 < snd q) l /\
    (forall k, (1 <= k <= length l)%nat -> exists v1 v0,
       on_curve D a g fee n0 y1 (s0 * Z.of_nat k) true v1 /\
       on_curve D a g fee y1 n0 (s1 * Z.of_nat k * sc / 10 ^ 18) false v0 /\
       0 <= v1 * 10 ^ 18 / sc - value fst s0 (firstn k l) <= s0 / 10 ^ 18 + 1 /\
       0 <= v0 - value snd s1 (firstn k l) <= s1 / 10 ^ 18 + 1) /\
    (forall k sp bp, nth_error l k = Some (sp, bp) -> exists w v,
       nth_error (o_posts o) (2 * k) = Some w /\ nth_error (o_posts o) (2 * k + 1) = Some v /\
       w_buy w = false /\ w_buy v = true /\
       quoted (adj (ob st)) sp (p0 (pool st)) (p1 (pool st)) w /\ quoted (adj (ob st)) bp (p1 (pool st)) (p0 (pool st)) v).
Proof.
  intros st de m st' o R T H Np. cbv zeta. pose proof (dreach_good _ R) as G. pose proof (g_inv _ G) as I.
  pose proof (dstep_good _ _ _ _ _ G H) as G'. pose proof (i_scale _ (g_inv _ G')) as Sc.
  destruct (c107_settlement _ _ _ _ _ T H) as (os' & L' & K0 & K1 & _).
  destruct (trading_deployed _ _ _ _ _ G T H) as (os & n0 & n1 & ps & L & D & N0 & N1 & Es & V0 & V1 & V2 & V3). apply se_deploy in D.
  rewrite L in L'. injection L' as <-.
  assert (Wp : forall v, when_posted (o_posts o) v = v) by (destruct (o_posts o); [contradiction|reflexivity]).
  rewrite Wp in K0, K1.
  pose proof (g_ob _ G) as Vo. unfold valid_ob in Vo. bools.
  assert (NN : 1 <= num (ob st)) by assumption. assert (LL : 0 <= liq (ob st)) by (unfold MIN_LIQ in *; lia).
  unfold deploy in D. destruct (enabled (ob st)); cbn [negb] in D; [|injection D as D _; congruence].
  unbind D as m0 E1. unbind D as m1 E2. unbind D as s0 E3. unbind D as s1 E4.
  destruct ((s0 <? m0) || (s1 <? m1)) eqn:Mn; [injection D as D _; congruence|].
  unbind D as u0 E5. unbind D as u1 E6. unbind D as [a g] E7. unbind D as y1 E8. unbind D as d E9. unbind D as cc E10.
  destruct cc as [l|]; [|injection D as D _; congruence]. unbind D as ws E11. injection D as Ew _. subst ws.
  apply order_size_of in E3; [|exact NN]. apply order_size_of in E4; [|exact NN]. apply dmul256_Some in E8 as (E8 & _).
  rewrite Es in *. exists n0, n1, a, g, d, l. change (10 ^ 18) with DEC. rewrite <- E3, <- E4, <- E8. pose proof DEC_pos as DP.
  assert (S0 : 0 <= s0). { subst s0. unfold size_of. apply Z.div_pos; [|lia]. apply Z.div_pos; [|reflexivity]. apply Z.mul_nonneg_nonneg; [exact N0|]. apply Z.div_pos; lia. }
  assert (S1 : 0 <= s1). { subst s1. unfold size_of. apply Z.div_pos; [|lia]. apply Z.div_pos; [|reflexivity]. apply Z.mul_nonneg_nonneg; [exact N1|]. apply Z.div_pos; lia. }
  pose proof (construct_length _ _ _ _ _ _ _ _ _ _ _ _ _ _ E10) as Ln.
  apply construct_values in E10 as (Ps & E10); [|exact S0|exact S1|lia|auto].
  split. { unfold volume_of. clear - V0 V2 K0. split; [eapply Z.le_lt_trans; [|exact V2]|eapply Z.le_trans; [exact V0|]]; apply Z.eq_le_incl; f_equal; lia. }
  split. { unfold volume_of. clear - V1 V3 K1. split; [eapply Z.le_lt_trans; [|exact V3]|eapply Z.le_trans; [exact V1|]]; apply Z.eq_le_incl; f_equal; lia. }
  split; [reflexivity|]. split; [exact E9|]. split; [rewrite Ln; apply Z2Nat.id; lia|]. split; [exact Ps|].
  split; [|intros k sp bp Nk; exact (to_posts_nth _ _ _ _ _ _ _ _ _ _ E11 Nk)].
  intros k K. destruct k as [|k]; [lia|]. destruct (E10 k) as (o1 & o0 & A1 & A0 & B1 & B0); [lia|].
  replace (1 + Z.of_nat k) with (Z.of_nat (S k)) in A1, A0 by lia.
  apply offer_on_curve in A1 as (v & C1 & ->); [|lia]. apply offer_on_curve in A0; [|lia]. exists v, o0. change (10 ^ 18) with DEC in *.
  split; [exact C1|]. split; [exact A0|]. split; assumption.
Qed.

(** C109. What the pair notes about trades made while its orders are being placed: nothing when as many orders as it
    placed are on record, otherwise one trade. If coins of asset 0 came in, the trade is those coins; only when none
    did it is the coins of asset 1 that came in (up to five coins of rounding in both cases). What was paid for them
    is not noted ([maker] = 0: one order's size, see [c108_fee] and [c109_refuted]). *)
Theorem c109_recorded : forall st de m st' o, dreach st -> trading m -> dstep de m st = Some (st', o) -> o_posts o <> [] ->
  if Z.of_nat (length (keys (ob st'))) <? 2 * num (ob st) then
    exists t, delayed (ob st') = Some t /\ maker t = 0 /\ 0 < taker t /\
      if buy t then got0 de <= taker t <= got0 de + 5 else got0 de = 0 /\ got1 de <= taker t <= got1 de + 5
  else delayed (ob st') = None.
Proof.
  intros st de m st' o R T H Np. pose proof (dreach_good _ R) as G. pose proof (g_inv _ G) as I.
  destruct (trading_deployed _ _ _ _ _ G T H) as (os & n0 & n1 & ps & L & Se & _ & _ & _ & V0 & V1 & V2 & V3).
  destruct Se as [_ _ (os' & d1 & C & _ & _ & _ & _ & W & _) _ _]. apply cancel_lookup in C as (L' & _). rewrite L in L'. injection L' as <-.
  destruct (o_posts o) as [|wp r]; [contradiction|].
  destruct W as (K0 & K1 & Q0 & Q1 & _ & _ & _ & _ & u0 & u1 & U0 & U1 & _ & _ & _ & W).
  destruct (_ <? _); [|exact W]. destruct W as (t & A & ->). exists t. split; [reflexivity|].
  apply to_uint_inv in U0 as (-> & _); [|exact (i_p0 _ I)]. apply to_uint_inv in U1 as (-> & _); [|exact (i_p1 _ I)].
  destruct (pow_split _ (i_p0 _ I)) as (_ & W0 & _). destruct (pow_split _ (i_p1 _ I)) as (_ & W1 & _).
  assert (B : forall c n w, 0 < w -> n <= c * w -> (c - 5) * w < n -> c - 5 <= n / w <= c).
  { clear. intros c n w W A B. split; [apply Z.div_le_lower_bound; [exact W|lia]|].
    apply Z.lt_succ_r. apply Z.div_lt_upper_bound; [exact W|]. nia. }
  pose proof (B _ _ _ W0 V0 V2) as B0. pose proof (B _ _ _ W1 V1 V3) as B1. clear B V0 V1 V2 V3.
  unfold autoexecuted in A. cbn [fst snd] in A.
  revert K0 K1 A. generalize (posted false (wp :: r)) (posted true (wp :: r)). intros z0 z1 K0 K1 A. revert B0 B1 A. generalize (n0 / 10 ^ (18 - p0 (pool st))) (n1 / 10 ^ (18 - p1 (pool st))). intros v0 v1 B0 B1 A.
  destruct (_ <? r0 (pool st')) eqn:C0; [injection A as <-; cbn [buy maker taker]; bools; split; [reflexivity|]; lia|].
  destruct (_ <? r1 (pool st')) eqn:C1; [injection A as <-; cbn [buy maker taker]; bools; split; [reflexivity|]; lia|discriminate A].
Qed.

Print Assumptions c102_orders.
Print Assumptions c109_recorded.
