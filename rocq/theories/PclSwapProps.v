(** Concentrated pair: swaps, queries, accumulators and balance history
    (C88, C92, C93, C95, C97, C99, C100). *)
From Coq Require Import ZArith Lia Bool List.
From Verif Require Import Num Ledger Hist SnapshotModel SnapshotProofs SnapshotTrack BufferModel PclMath PclModel
  PclParamProps PclProofs.
From Verif Require XykModel OwnershipModel ObservationModel.
Import ListNotations.
Open Scope Z_scope.

(** ** C88: settlement *)

Lemma maker_share_ok e : fees_ok e -> 0 <= maker_share e <= DEC.
Proof. unfold fees_ok, maker_share. change (10 ^ 18) with DEC. pose proof DEC_pos. destruct (maker_on (fees e)); lia. Qed.
Lemma fee_share_ok s fs : inv s -> fee_share_rate s = Some fs ->
  fs = match fshare s with Some b => b * 10 ^ 14 | None => 0 end /\ 0 <= fs <= 10 ^ 17.
Proof.
  intros I H. pose proof (i_fs _ I) as B. unfold fee_share_rate in H. destruct (fshare s) as [b|].
  - apply dratio256_Some in H as (_ & -> & _).
    replace (b * DEC) with (b * 10 ^ 14 * 10000) by (unfold DEC; lia). rewrite Z.div_mul by lia. lia.
  - injection H as <-. lia.
Qed.

Theorem c88_swap : forall c s e one offer belief ms s' o, reach c s -> fees_ok e ->
  step e (Swap one offer belief ms) s = Some (s', o) ->
  exists ret spread comm maker shr, o = OSwap ret spread comm maker shr /\
    let ask s := if one then r0 s else r1 s in let off s := if one then r1 s else r0 s in
    off s' = off s + offer /\ ask s' = ask s - (ret + maker + shr) /\ 0 <= ask s' /\
    0 <= ret /\ 0 <= maker /\ 0 <= shr /\
    (* at most 1% of the output is fee, and only a part of it leaves the pool *)
    99 * comm <= ret /\ maker + shr <= comm /\
    (fshare s = None -> shr = 0) /\ (forall b, fshare s = Some b -> 10000 * shr <= b * (comm + 1)) /\
    (maker_on (fees e) = false -> maker = 0) /\ 10 ^ 18 * maker <= maker_rate (fees e) * (comm + 1) /\
    supply s' = supply s /\ lp s' = lp s /\ par s' = par s /\ rmp s' = rmp s.
Proof.
  intros c s e one offer belief ms s' o R Fe H. apply reach_inv in R. cbn [step] in H. unguard H G.
  apply swap_inv in H as (ret & spread & comm & maker & shr & -> & F).
  destruct F as [(off & x0 & x1 & old & fs & res & of_ & ps & cc & ob & pe & F) A B].
  destruct F as (_ & _ & _ & _ & _ & _ & _ & Ef & Ec & _ & Rt & _ & Cm & Sh & Mk & _ & _ & _ & _ & _ & _ & _ & ->).
  apply compute_swap_amounts in Ec; [|exact (i_par _ R)|exact (maker_share_ok e Fe)|].
  2:{ destruct (fee_share_ok s fs R Ef) as (_ & K). unfold DEC. lia. }
  destruct (fee_share_ok s fs R Ef) as (Efs & Kfs).
  assert (PA : 0 <= (if one then p0 s else p1 s) <= 18) by (destruct one; [exact (i_p0 _ R)|exact (i_p1 _ R)]).
  exists ret, spread, comm, maker, shr. split; [reflexivity|]. cbv zeta.
  destruct (set_pools_fields s (if one then r0 s - ret - maker - shr else r0 s + offer)
       (if one then r1 s + offer else r1 s - ret - maker - shr) (supply s) (lp s) ps cc (height e) ob pe)
      as (F1 & F2 & F3 & F4 & F5 & F6 & F7 & _).
  rewrite F1, F2, F3, F4, F6, F7.
  destruct Ec as [D0 S0 M0 H0 T0 T1 T2 T3 T4].
  apply to_uint_inv in Rt as (Rt & Rr & _); [|exact PA]. apply to_uint_inv in Cm as (Cm & Cr & _); [|exact PA].
  destruct (pow_split _ PA) as (Q1 & Q2 & _). remember (10 ^ (18 - (if one then p0 s else p1 s))) as w.
  assert (Sh' : shr = match fshare s with Some _ => share_fee res / w | None => 0 end).
  { destruct (fshare s); [apply to_uint_inv in Sh; [subst w; tauto|exact PA]|exact Sh]. }
  assert (Mk' : maker = if maker_on (fees e) then maker_fee res / w else 0).
  { destruct (maker_on (fees e)); [apply to_uint_inv in Mk; [subst w; tauto|exact PA]|exact Mk]. }
  clear Sh Mk.
  assert (C1 : w * comm <= total_fee res < w * comm + w) by (subst comm; split; [apply div_mul_le|apply div_mul_gt]; lia).
  assert (K1 : 0 <= shr /\ w * shr <= share_fee res).
  { rewrite Sh'. destruct (fshare s); [split; [apply div_nonneg; lia|apply div_mul_le; lia]|lia]. }
  assert (K2 : 0 <= maker /\ w * maker <= maker_fee res).
  { rewrite Mk'. destruct (maker_on (fees e)); [split; [apply div_nonneg; lia|apply div_mul_le; lia]|lia]. }
  split; [destruct one; reflexivity|]. split; [destruct one; lia|]. split; [destruct one; lia|].
  split; [lia|]. split; [lia|]. split; [lia|].
  split. { subst ret. apply div_ge_iff; [lia|]. nia. }
  split. { nia. }
  split. { intros Fn. rewrite Sh', Fn. reflexivity. }
  split.
  { intros b Fb. rewrite Fb in Efs. subst fs. unfold DEC in T4. pose proof (i_fs _ R) as Bb. rewrite Fb in Bb.
    assert (10 ^ 18 * (w * shr) <= b * 10 ^ 14 * total_fee res) by nia.
    assert (10000 * (w * shr) <= b * total_fee res) by lia.
    assert (b * total_fee res <= b * (w * (comm + 1))) by nia. nia. }
  split. { intros Mo. rewrite Mk', Mo. reflexivity. }
  split.
  { unfold fees_ok in Fe. unfold DEC, maker_share in T3. destruct (maker_on (fees e)).
    - assert (10 ^ 18 * (w * maker) <= maker_rate (fees e) * total_fee res) by lia.
      assert (maker_rate (fees e) * total_fee res <= maker_rate (fees e) * (w * (comm + 1))) by nia. nia.
    - subst maker. nia. }
  auto.
Qed.

(** LP tokens: holdings add up to the supply, and 1000 units stay in the pair for ever after the first deposit. *)
Theorem c88_lp_ledger : forall c s, reach c s ->
  nonneg (lp s) /\ total (lp s) = supply s /\ (supply s = 0 \/ 1000 <= get (lp s) SELF) /\
  0 <= r0 s /\ 0 <= r1 s.
Proof.
  intros c s R. apply reach_inv in R. destruct R. split; [assumption|]. split; [assumption|].
  split; [assumption|]. lia.
Qed.
Theorem c88_alive : forall c s e m s' o, reach c s -> 0 < supply s -> step e m s = Some (s', o) -> 1000 <= supply s'.
Proof.
  intros c s e m s' o R P H. apply reach_inv in R. pose proof (step_inv_ok _ _ _ _ _ R H) as R'.
  assert (L : 1000 <= get (lp s) SELF) by (pose proof (i_lock _ R); lia).
  assert (L' : 1000 <= get (lp s') SELF).
  { destruct m; cbn [step] in H.
    - apply provide_inv in H as (tot & x0 & x1 & e0 & e1 & share & ps & cc & _ & _ & _ & _ & _ & _ & _ & _ & E & _ & _ & _ & _ & K).
      cbv zeta in K. destruct K as (_ & -> & _).
      destruct (set_pools_fields s (r0 s + d0) (r1 s + d1) (supply s + (if supply s =? 0 then 1000 else 0) + share)
        (set (if supply s =? 0 then set (lp s) SELF (get (lp s) SELF + 1000) else lp s) receiver
        (get (if supply s =? 0 then set (lp s) SELF (get (lp s) SELF + 1000) else lp s) receiver + share)) ps cc (height e) (obs s) (pend s))
        as (_ & _ & _ & F4 & _). rewrite F4.
      apply calculate_shares_inv in E as (n1 & a & g & nd & sh & ps1 & _ & _ & _ & _ & _ & _ & _ & _ & _ & _ & Ea).
      apply to_uint_inv in Ea as (_ & Sh & _); [|unfold LP_PREC; lia].
      destruct (supply s =? 0) eqn:Z0; [bools; lia|].
      destruct (Z.eq_dec receiver SELF) as [->|Ne]; [rewrite get_set_same; lia|rewrite get_set_other by exact Ne; exact L].
    - apply withdraw_inv in H as (x0 & x1 & ratio & f0 & a0 & f1 & a1 & y1 & a & g & d & x & ld & xr & W & _ & _ & _ & _ & _ & _ & _ & _ & _ & _ & _ & _ & _ & _ & _ & _ & _ & _ & _ & _ & -> & _).
      cbn. rewrite get_set_other by exact W. exact L.
    - unguard H G. apply swap_inv in H as (ret & spread & comm & maker & shr & -> & F).
      destruct F as [(off & x0 & x1 & old & fs & res & of_ & ps & cc & ob & pe & F) A B].
      destruct F as (_ & _ & _ & _ & _ & _ & _ & _ & _ & _ & _ & _ & _ & _ & _ & _ & _ & _ & _ & _ & _ & _ & ->).
      match goal with |- context [set_pools ?a ?b ?c ?d ?e ?f ?g ?h ?i ?j] =>
        destruct (set_pools_fields a b c d e f g h i j) as (_ & _ & _ & F4 & _); rewrite F4 end. exact L.
    - unguard H G. unbind H as p E. injection H as <- _. exact L.
    - unguard H G. unbind H as p E. injection H as <- _. exact L.
    - unguard H G. unbind H as p E. injection H as <- _. exact L.
    - unguard H G. injection H as <- _. exact L.
    - unguard H G. injection H as <- _. exact L.
    - unbind H as x E. injection H as <- _. exact L.
    - unguard H G. unbind H as x E. injection H as <- _. exact L.
    - unguard H G. injection H as <- _. bools. cbn.
      destruct (Z.eq_dec SELF to) as [<-|Ne]; [rewrite get_move_to by assumption; lia|].
      rewrite get_move_other by congruence. exact L. }
  pose proof (get_le_total _ SELF (i_lp _ R')). rewrite (i_sum _ R') in *. lia.
Qed.

(** ** C92: queries announce what the messages do *)

Theorem c92_simulation : forall e one offer belief ms s s' ret spread comm maker shr,
  step e (Swap one offer belief ms) s = Some (s', OSwap ret spread comm maker shr) ->
  query_simulation e s one offer = Some (ret, spread, comm).
Proof.
  intros e one offer belief ms s s' ret spread comm maker shr H. cbn [step] in H. unguard H G.
  apply swap_inv in H as (ret' & spread' & comm' & maker' & shr' & E & F). injection E as <- <- <- <- <-.
  destruct F as [(off & x0 & x1 & old & fs & res & of_ & ps & cc & ob & pe & F) A B].
  destruct F as (E1 & E2 & E3 & N1 & N2 & N3 & _ & E4 & E5 & _ & E6 & E7 & E8 & _).
  unfold query_simulation. rewrite E1, E2, E3. cbv iota beta zeta.
  apply Z.eqb_neq in N1, N2, N3. rewrite N1, N2, N3. cbn [negb andb]. rewrite E4. cbv iota beta.
  rewrite E5. cbv iota beta. rewrite E6, E7, E8. reflexivity.
Qed.
Theorem c92_simulate_provide : forall e w d0 d1 tol ml s s' share,
  step e (Provide w d0 d1 tol ml) s = Some (s', OProvide share) ->
  query_simulate_provide e s d0 d1 tol = Some share /\ (forall m, ml = Some m -> m <= share) /\
  r0 s' = r0 s + d0 /\ r1 s' = r1 s + d1 /\
  supply s' = supply s + (if supply s =? 0 then 1000 else 0) + share.
Proof.
  intros e w d0 d1 tol ml s s' share H. cbn [step] in H.
  apply provide_inv in H as (tot & x0 & x1 & e0 & e1 & sh & ps & cc & _ & _ & G & E1 & E2 & E3 & E4 & E5 & E6 & M & _ & _ & _ & K).
  cbv zeta in K. destruct K as (_ & -> & K). injection K as <-.
  split.
  - unfold query_simulate_provide. rewrite G, E1, E2, E3, E4, E5. cbv iota beta. rewrite E6. reflexivity.
  - split; [intros m ->; exact M|].
    match goal with |- context [set_pools ?a ?b ?c ?d ?e ?f ?g ?h ?i ?j] =>
        destruct (set_pools_fields a b c d e f g h i j) as (F1 & F2 & F3 & _); rewrite F1, F2, F3 end. auto.
Qed.
Theorem c92_simulate_withdraw : forall e w n imb mins s s' a0 a1,
  step e (Withdraw w n imb mins) s = Some (s', OWithdraw a0 a1) -> query_share s n = Some (a0, a1).
Proof.
  intros e w n imb mins s s' a0 a1 H. cbn [step] in H.
  apply withdraw_inv in H as (x0 & x1 & ratio & f0 & b0 & f1 & b1 & y1 & a & g & d & x & ld & xr & _ & _ & _ & E1 & E2 & E3 & E4 & E5 & H).
  do 13 (destruct H as (_ & H)). destruct H as (_ & H). injection H as <- <-.
  unfold query_share. rewrite E1, E2, E3. cbv iota beta. rewrite E4, E5. reflexivity.
Qed.

(** ** C99: limits chosen by the trader *)

Theorem c99_max_spread : forall c s e one offer belief ms s' ret spread comm maker shr, reach c s ->
  (forall m, ms = Some m -> 0 <= m) -> (forall b, belief = Some b -> 0 <= b) ->
  step e (Swap one offer belief ms) s = Some (s', OSwap ret spread comm maker shr) ->
  let max := match ms with Some m => m | None => 5 * 10 ^ 16 end in
  max <= 5 * 10 ^ 17 /\
  match belief with
  | Some b => 0 < b /\ exists expected,
      (* offer / belief, rounded down twice at 18 digits *)
      expected * b <= offer * 10 ^ 18 /\ offer * 10 ^ 18 * 10 ^ 18 < ((expected + 1) * 10 ^ 18 + offer) * b /\
      (expected - ret) * 10 ^ 18 <= (max + 1) * expected
  | None => spread * 10 ^ 18 < (max + 1) * (ret + spread)
  end.
Proof.
  intros c s e one offer belief ms s' ret spread comm maker shr R Hm Hb H. apply reach_inv in R.
  cbn [step] in H. unguard H G. bools.
  apply swap_inv in H as (ret' & spread' & comm' & maker' & shr' & E & F). injection E as <- <- <- <- <-.
  destruct F as [(off & x0 & x1 & old & fs & res & of_ & ps & cc & ob & pe & F) A B].
  destruct F as (_ & _ & _ & _ & _ & _ & _ & _ & _ & _ & E6 & E7 & _ & _ & _ & M & _).
  assert (PA : 0 <= (if one then p0 s else p1 s) <= 18) by (destruct one; [exact (i_p0 _ R)|exact (i_p1 _ R)]).
  apply to_uint_inv in E6 as (_ & R0 & _); [|exact PA]. apply to_uint_inv in E7 as (_ & S0 & _); [|exact PA].
  cbv zeta. unfold assert_max_spread in M. unguard M G2. apply Z.leb_le in G2.
  unfold DEFAULT_SLIPPAGE, MAX_ALLOWED_SLIPPAGE in *.
  replace (5 * 10 ^ 16) with 50000000000000000 by reflexivity.
  remember (match ms with Some m => m | None => 50000000000000000 end) as max.
  assert (X : 0 <= max) by (subst max; destruct ms; [apply Hm; reflexivity|lia]).
  split; [lia|]. change (10 ^ 18) with DEC. pose proof DEC_pos as D. destruct belief as [b|].
  - unbind M as inv E1. unbind M as inv' E2. unbind M as z' E3.
    apply dinv_Some in E1 as (N & ->). apply u128_Some in E2 as (-> & E2). apply umul_Some in E3 as (-> & E3).
    specialize (Hb b eq_refl). split; [lia|].
    divb (DEC * DEC) b q. divb (offer * q) DEC z. exists z.
    split; [nia|]. split; [nia|].
    destruct (ret <? z) eqn:L.
    + unbind M as r Er. unguard M G3. apply dratio256_Some in Er as (N2 & -> & _). bools.
      apply div_le_iff in G3; [|lia]. unfold ssub in G3. lia.
    + bools. nia.
  - unbind M as tot E1. unbind M as r Er. unguard M G3. apply add128_Some in E1 as (-> & _).
    apply dratio256_Some in Er as (N2 & -> & _). bools. apply div_le_iff in G3; lia.
Qed.

(** ** C97: the minimum amounts of a withdrawal are ignored *)

Theorem c97_ignored : forall e w n imb m1 m2 s, step e (Withdraw w n imb m1) s = step e (Withdraw w n imb m2) s.
Proof. reflexivity. Qed.

(** ** C93: a recorded trade with a zero quote amount stops all swaps *)

Lemma zero_quote_stops e s one offer belief ms pc :
  pend s = Some pc -> ObservationModel.quote pc = 0 -> step e (Swap one offer belief ms) s = None.
Proof.
  intros P Q. destruct (step e (Swap one offer belief ms) s) as [[s' o]|] eqn:H; [exfalso|reflexivity].
  cbn [step] in H. unguard H G. apply swap_inv in H as (ret & spread & comm & maker & shr & -> & F).
  destruct F as [(off & x0 & x1 & old & fs & res & of_ & ps & cc & ob & pe & F) A B].
  destruct F as (_ & _ & _ & _ & _ & _ & _ & _ & _ & _ & _ & _ & _ & _ & _ & _ & _ & Ob & _).
  unfold ObservationModel.accumulate in Ob. rewrite P, Q in Ob. discriminate Ob.
Qed.
Lemma pend_kept e m s s' o : step e m s = Some (s', o) ->
  (forall one offer belief ms, m <> Swap one offer belief ms) -> pend s' = pend s.
Proof.
  intros H N. destruct m; cbn [step] in H.
  - apply provide_inv in H as (tot & x0 & x1 & e0 & e1 & share & ps & cc & _ & _ & _ & _ & _ & _ & _ & _ & E & _ & _ & _ & _ & K).
    cbv zeta in K. destruct K as (_ & -> & _).
    match goal with |- context [set_pools ?a ?b ?c ?d ?e ?f ?g ?h ?i ?j] =>
        destruct (set_pools_fields a b c d e f g h i j) as (_ & _ & _ & _ & _ & _ & _ & _ & _ & _ & _ & _ & F & _); exact F end.
  - apply withdraw_inv in H as (x0 & x1 & ratio & f0 & a0 & f1 & a1 & y1 & a & g & d & x & ld & xr & W & _ & _ & _ & _ & _ & _ & _ & _ & _ & _ & _ & _ & _ & _ & _ & _ & _ & _ & _ & _ & -> & _).
    reflexivity.
  - exfalso. exact (N _ _ _ _ eq_refl).
  - unguard H G. unbind H as p E. injection H as <- _. reflexivity.
  - unguard H G. unbind H as p E. injection H as <- _. reflexivity.
  - unguard H G. unbind H as p E. injection H as <- _. reflexivity.
  - unguard H G. injection H as <- _. reflexivity.
  - unguard H G. injection H as <- _. reflexivity.
  - unbind H as x E. injection H as <- _. reflexivity.
  - unguard H G. unbind H as x E. injection H as <- _. reflexivity.
  - unguard H G. injection H as <- _. reflexivity.
Qed.
(** Once such a trade is recorded no swap ever succeeds again, whatever anyone does. *)
Theorem c93_for_ever : forall l s pc, pend s = Some pc -> ObservationModel.quote pc = 0 ->
  forall e one offer belief ms, step e (Swap one offer belief ms) (run s l) = None.
Proof.
  induction l as [|[e m] l IH]; intros s pc P Q.
  - intros. exact (zero_quote_stops _ _ _ _ _ _ _ P Q).
  - change (run s ((e, m) :: l)) with (run (exec s (e, m)) l). apply (IH _ pc); [|exact Q].
    unfold exec. cbn [fst snd]. destruct (step e m s) as [[s' o]|] eqn:E; [|exact P].
    destruct (match m with Swap _ _ _ _ => true | _ => false end) eqn:K.
    + destruct m; try discriminate K. rewrite (zero_quote_stops _ _ _ _ _ _ _ P Q) in E. discriminate E.
    + rewrite (pend_kept _ _ _ _ _ E); [exact P|]. intros ? ? ? ? ->. discriminate K.
Qed.

(** ** C100: price accumulators *)

(** The increment over [el] seconds at price [p] (units of asset 0 per asset 1, 18 digits): six decimals. *)
Definition tick (el p : Z) : Z := el * (p * 10 ^ 6 / 10 ^ 18).

Lemma accumulate_inv s t p cc : 0 <= p -> accumulate_prices s t p = Some cc ->
  (t <= last_t s /\ cc = (c01 s, c10 s, last_t s)) \/
  (last_t s < t /\ 0 < p /\
   cc = ((c01 s + tick (t - last_t s) (10 ^ 36 / p)) mod 2 ^ 128, (c10 s + tick (t - last_t s) p) mod 2 ^ 128, t)).
Proof.
  intros P H. unfold accumulate_prices in H. destruct (t <=? last_t s) eqn:L; bools.
  - injection H as <-. left. auto.
  - right. unbind H as inv E1. unbind H as q0 E2. unbind H as v0 E3. unbind H as i0 E4. unbind H as q1 E5.
    unbind H as v1 E6. unbind H as i1 E7. injection H as <-.
    apply dinv_Some in E1 as (N & ->). apply dmul256_Some in E2 as (-> & _). apply u128_Some in E3 as (-> & _).
    apply mul128_Some in E4 as (-> & _). apply dmul256_Some in E5 as (-> & _). apply u128_Some in E6 as (-> & _).
    apply mul128_Some in E7 as (-> & _).
    split; [exact L|]. split; [lia|].
    assert (W : forall z, z * TWAP_PRECISION_DEC / DEC = z * 10 ^ 6).
    { intros z. replace (z * TWAP_PRECISION_DEC) with (z * 10 ^ 6 * DEC) by (unfold TWAP_PRECISION_DEC, DEC; lia).
      apply Z.div_mul. pose proof DEC_pos. lia. }
    rewrite !W. unfold tick, wadd128. reflexivity.
Qed.

(** The price of an infinitesimal trade used by swaps: what a sale of min(1, 0.0001 * reserve) of asset 0 gives. *)
Theorem c100_swap : forall c s e one offer belief ms s' o, reach c s ->
  step e (Swap one offer belief ms) s = Some (s', o) -> exists p,
  calc_last_prices (par s) (rmp s) (pst s) (now e) (r0 s * 10 ^ (18 - p0 s)) (r1 s * 10 ^ (18 - p1 s)) = Some p /\
  (now e <= last_t s -> c01 s' = c01 s /\ c10 s' = c10 s /\ last_t s' = last_t s) /\
  (last_t s < now e -> 0 < p /\ last_t s' = now e /\
     c01 s' = (c01 s + tick (now e - last_t s) (10 ^ 36 / p)) mod 2 ^ 128 /\
     c10 s' = (c10 s + tick (now e - last_t s) p) mod 2 ^ 128).
Proof.
  intros c s e one offer belief ms s' o R H. apply reach_inv in R. cbn [step] in H. unguard H G.
  apply swap_inv in H as (ret & spread & comm & maker & shr & -> & F).
  destruct F as [(off & x0 & x1 & old & fs & res & of_ & ps & cc & ob & pe & F) A B].
  destruct F as (_ & E2 & E3 & _ & _ & _ & Eo & _ & _ & _ & _ & _ & _ & _ & _ & _ & Ac & _ & _ & _ & _ & _ & ->).
  apply with_prec_inv in E2 as (-> & _), E3 as (-> & _). exists old. split; [exact Eo|].
  assert (P : 0 <= old).
  { unfold calc_last_prices in Eo. unbind Eo as m Em. unbind Eo as rs Er. unfold last_price in Eo.
    unbind Eo as oo Eoo. apply ddiv256_Some in Eo as (_ & -> & K). lia. }
  match goal with |- context [set_pools ?a ?b ?c ?d ?e ?f ?g ?h ?i ?j] =>
    destruct (set_pools_fields a b c d e f g h i j) as (_ & _ & _ & _ & _ & _ & _ & _ & _ & _ & _ & _ & _ & F1 & F2 & F3 & _);
    rewrite F1, F2, F3 end.
  apply accumulate_inv in Ac; [|exact P]. destruct Ac as [(L & ->)|(L & P' & ->)]; cbn [fst snd].
  - split; [auto|lia].
  - split; [lia|auto].
Qed.
(** Deposits accumulate the price of the last trade; nothing else changes the accumulators. *)
Theorem c100_provide : forall e w d0 d1 tol ml s s' o, 0 <= last (pst s) ->
  step e (Provide w d0 d1 tol ml) s = Some (s', o) ->
  let p := last (pst s) in
  (now e <= last_t s -> c01 s' = c01 s /\ c10 s' = c10 s /\ last_t s' = last_t s) /\
  (last_t s < now e -> 0 < p /\ last_t s' = now e /\
     c01 s' = (c01 s + tick (now e - last_t s) (10 ^ 36 / p)) mod 2 ^ 128 /\
     c10 s' = (c10 s + tick (now e - last_t s) p) mod 2 ^ 128).
Proof.
  intros e w d0 d1 tol ml s s' o P H. cbn [step] in H.
  apply provide_inv in H as (tot & x0 & x1 & e0 & e1 & sh & ps & cc & _ & _ & G & E1 & E2 & E3 & E4 & E5 & E6 & M & _ & _ & Ac & K).
  cbv zeta in K. destruct K as (_ & -> & K). cbv zeta.
  match goal with |- context [set_pools ?a ?b ?c ?d ?e ?f ?g ?h ?i ?j] =>
    destruct (set_pools_fields a b c d e f g h i j) as (_ & _ & _ & _ & _ & _ & _ & _ & _ & _ & _ & _ & _ & F1 & F2 & F3 & _);
    rewrite F1, F2, F3 end.
  apply accumulate_inv in Ac; [|exact P]. destruct Ac as [(L & ->)|(L & P' & ->)]; cbn [fst snd].
  - split; [auto|lia].
  - split; [lia|auto].
Qed.
Theorem c100_others : forall e m s s' o, step e m s = Some (s', o) ->
  (forall one offer belief ms, m <> Swap one offer belief ms) ->
  (forall w d0 d1 tol ml, m <> Provide w d0 d1 tol ml) ->
  c01 s' = c01 s /\ c10 s' = c10 s /\ last_t s' = last_t s.
Proof.
  intros e m s s' o H N1 N2. destruct m; cbn [step] in H.
  - exfalso. exact (N2 _ _ _ _ _ eq_refl).
  - apply withdraw_inv in H as (x0 & x1 & ratio & f0 & a0 & f1 & a1 & y1 & a & g & d & x & ld & xr & W & _ & _ & _ & _ & _ & _ & _ & _ & _ & _ & _ & _ & _ & _ & _ & _ & _ & _ & _ & _ & -> & _).
    auto.
  - exfalso. exact (N1 _ _ _ _ eq_refl).
  - unguard H G. unbind H as p E. injection H as <- _. auto.
  - unguard H G. unbind H as p E. injection H as <- _. auto.
  - unguard H G. unbind H as p E. injection H as <- _. auto.
  - unguard H G. injection H as <- _. auto.
  - unguard H G. injection H as <- _. auto.
  - unbind H as x E. injection H as <- _. auto.
  - unguard H G. unbind H as x E. injection H as <- _. auto.
  - unguard H G. injection H as <- _. auto.
Qed.

(** ** C95: balance history *)

Definition no_donation (m : msg) : bool := match m with Donate _ _ => false | _ => true end.
(** The history including the creation of the pair, as a list of optional messages. *)
Definition ev_height (h : Z) (x : option (env * msg)) : Z := match x with Some em => height (fst em) | None => h end.
Definition hexec (s0 : state) (o : option state) (x : option (env * msg)) : option state :=
  match o, x with
  | None, None => Some s0
  | None, Some _ => None
  | Some s, None => Some s
  | Some s, Some em => if track s && no_donation (snd em) then Some (exec s em) else Some s
  end.
Definition hsel (one : bool) (o : option state) : snap :=
  match o with Some s => if one then h1 s else h0 s | None => snap0 end.
Definition hval (one : bool) (o : option state) : Z :=
  match o with Some s => if one then r1 s else r0 s | None => 0 end.

Lemma step_track e m s s' o : step e m s = Some (s', o) -> track s' = track s /\
  (track s = true -> no_donation m = true ->
   (h0 s' = h0 s /\ h1 s' = h1 s /\ r0 s' = r0 s /\ r1 s' = r1 s) \/
   (h0 s' = snap_save (h0 s) (height e) (r0 s') /\ h1 s' = snap_save (h1 s) (height e) (r1 s'))).
Proof.
  intros H. destruct m; cbn [step] in H.
  - apply provide_inv in H as (tot & x0 & x1 & e0 & e1 & share & ps & cc & _ & _ & _ & _ & _ & _ & _ & _ & E & _ & _ & _ & _ & K).
    cbv zeta in K. destruct K as (_ & -> & _).
    match goal with |- context [set_pools ?a ?b ?c ?d ?e ?f ?g ?h ?i ?j] =>
        destruct (set_pools_fields a b c d e f g h i j) as (F1 & F2 & _ & _ & _ & _ & _ & _ & _ & _ & _ & _ & _ & _ & _ & _ & _ & _ & F3 & F4 & F5);
        rewrite F1, F2, F3, F4, F5 end.
    split; [reflexivity|]. intros -> _. right. auto.
  - apply withdraw_inv in H as (x0 & x1 & ratio & f0 & a0 & f1 & a1 & y1 & a & g & d & x & ld & xr & W & _ & _ & _ & _ & _ & _ & _ & _ & _ & _ & _ & _ & _ & _ & _ & _ & _ & _ & _ & _ & -> & _).
    split; [reflexivity|]. cbn. intros -> _. right. auto.
  - unguard H G. apply swap_inv in H as (ret & spread & comm & maker & shr & -> & F).
    destruct F as [(off & x0 & x1 & old & fs & res & of_ & ps & cc & ob & pe & F) A B].
    destruct F as (_ & _ & _ & _ & _ & _ & _ & _ & _ & _ & _ & _ & _ & _ & _ & _ & _ & _ & _ & _ & _ & _ & ->).
    match goal with |- context [set_pools ?a ?b ?c ?d ?e ?f ?g ?h ?i ?j] =>
        destruct (set_pools_fields a b c d e f g h i j) as (F1 & F2 & _ & _ & _ & _ & _ & _ & _ & _ & _ & _ & _ & _ & _ & _ & _ & _ & F3 & F4 & F5);
        rewrite F1, F2, F3, F4, F5 end.
    split; [reflexivity|]. intros -> _. right. auto.
  - unguard H G. unbind H as p E. injection H as <- _. auto 10.
  - unguard H G. unbind H as p E. injection H as <- _. auto 10.
  - unguard H G. unbind H as p E. injection H as <- _. auto 10.
  - unguard H G. injection H as <- _. auto 10.
  - unguard H G. injection H as <- _. auto 10.
  - unbind H as x E. injection H as <- _. auto 10.
  - unguard H G. unbind H as x E. injection H as <- _. split; [reflexivity|]. discriminate.
  - unguard H G. injection H as <- _. auto 10.
Qed.

Theorem c95_balance_at : forall t h u am ga ps q0 q1 n0 n1 s0 l one x,
  instantiate t h u am ga ps true q0 q1 n0 n1 = Some s0 ->
  nondecr (fun em => height (fst em)) l -> Forall (fun em => h <= height (fst em)) l ->
  Forall (fun em => no_donation (snd em) = true) l ->
  dflt (balance_at (run s0 l) one x) =
  (let s := run s0 (before (fun em => height (fst em)) x l) in if one then r1 s else r0 s).
Proof.
  intros t h u am ga ps q0 q1 n0 n1 s0 l one x Hi N Hh Hd.
  assert (S0 : track s0 = true /\ h0 s0 = snap_save snap0 h 0 /\ h1 s0 = snap_save snap0 h 0 /\ r0 s0 = 0 /\ r1 s0 = 0).
  { unfold instantiate in Hi. unguard Hi G. unguard Hi G2. unbind Hi as p E. unguard Hi G3. injection Hi as <-.
    auto 10. }
  destruct S0 as (T0 & A0 & A1 & B0 & B1).
  assert (SC : saves_changes (ev_height h) (hexec s0) (hsel one) (hval one)).
  { intros [s|] [em|]; cbn [hexec].
    - destruct (track s) eqn:T; [|left; auto]. cbn [andb].
      destruct (no_donation (snd em)) eqn:D; [|left; auto].
      unfold exec. destruct (step (fst em) (snd em) s) as [[s' o]|] eqn:E; [|left; auto].
      apply step_track in E as (_ & E). destruct (E T D) as [(E1 & E2 & E3 & E4)|(E1 & E2)]; cbn [hsel hval].
      + left. destruct one; auto.
      + right. destruct one; [exists [r1 s']|exists [r0 s']]; cbn; auto.
    - left; auto.
    - left; auto.
    - right. exists [0]. cbn. destruct one; auto. }
  assert (RUN : forall k s, track s = true -> Forall (fun em => no_donation (snd em) = true) k ->
    fold_left (hexec s0) (map Some k) (Some s) = Some (run s k)).
  { clear. induction k as [|em k IH]; intros s T F; [reflexivity|].
    inversion F as [|? ? F1 F2]; subst. cbn [map fold_left hexec]. rewrite T, F1. cbn [andb].
    rewrite IH; [reflexivity| |exact F2]. unfold exec.
    destruct (step (fst em) (snd em) s) as [[s' o]|] eqn:E; [|exact T].
    apply step_track in E as (-> & _). exact T. }
  assert (HR : forall k, Forall (fun em => no_donation (snd em) = true) k ->
    hist_run (hexec s0) None (None :: map Some k) = Some (run s0 k)).
  { intros k F. unfold hist_run. cbn [fold_left hexec]. apply RUN; assumption. }
  assert (ND : nondecr (ev_height h) (None :: map Some l)).
  { clear -N Hh. cbn. split.
    - rewrite Forall_map. exact Hh.
    - induction l as [|em l IH]; cbn in *; [exact I|]. inversion Hh; subst. destruct N as (N1 & N2).
      split; [rewrite Forall_map; exact N1|apply IH; assumption]. }
  destruct (track_at (ev_height h) (hexec s0) (hsel one) (hval one) None (None :: map Some l) x SC eq_refl eq_refl ND) as (K & _).
  rewrite HR in K by exact Hd. cbn [hsel] in K. unfold balance_at. cbv zeta.
  transitivity (dflt (snap_at (if one then h1 (run s0 l) else h0 (run s0 l)) x)); [reflexivity|]. rewrite K.
  unfold before. cbn [filter ev_height].
  assert (FM : filter (fun e => ev_height h e <? x) (map Some l) = map Some (filter (fun em => height (fst em) <? x) l)).
  { clear. induction l as [|em l IH]; [reflexivity|]. cbn [map filter ev_height]. destruct (height (fst em) <? x); cbn [map]; rewrite IH; reflexivity. }
  rewrite FM. assert (FD : Forall (fun em => no_donation (snd em) = true) (filter (fun em => height (fst em) <? x) l)).
  { clear -Hd. induction Hd; cbn; [constructor|]. destruct (height (fst x0) <? x); [constructor; assumption|assumption]. }
  destruct (h <? x) eqn:L.
  - rewrite HR by exact FD. reflexivity.
  - bools. assert (E : filter (fun em => height (fst em) <? x) l = []).
    { clear -Hh L. induction Hh as [|em l A B IH]; cbn; [reflexivity|].
      destruct (Z.ltb_spec (height (fst em)) x); [lia|exact IH]. }
    rewrite E. cbn. destruct one; auto.
Qed.

(** ** Witnesses and examples *)

Definition at_fee (t : Z) : env := mkEnv t t (XykModel.mkFees 0 500000000000000000 true) 7 true.
Definition init0 (s : option state) : state :=
  match s with
  | Some s => s
  | None => mkState 0 0 0 0 true true 0 [] params0 (mkRamp 0 0 0 0 0 0) (mkPs 0 0 0 0 0 0) 0 0 0 None None None
              true snap0 snap0 (buf_init 1) None
  end.
(** 2000 of asset 0 and 1000 of asset 1 at price 2, balanced; and 2000 : 300. *)
Definition ex0 : state := init0 (pool0 230000000000000 (2 * DEC)).
Definition ex_balanced : state := run ex0 [(at_ 1000, Provide 5 2000000000 1000000000 None None)].
Definition ex_skewed : state := run ex0 [(at_ 1000, Provide 5 2000000000 300000000 None None)].

Lemma ex0_ok : pool0 230000000000000 (2 * DEC) = Some ex0.
Proof. vm_compute. reflexivity. Qed.
Lemma reach_run l : timely 1000 l -> Forall (fun em => env_ok (fst em)) l -> reach (end_time 1000 l) (run ex0 l).
Proof.
  intros T F. exists 1000, 1, (std 230000000000000), (40 * DEC), 145000000000000, (2 * DEC), true, 6, 6, true, true, ex0, l.
  split; [unfold U64MAX; lia|]. split; [exact ex0_ok|]. auto.
Qed.
Ltac reach_ex := apply reach_run; [simpl; lia|repeat constructor; vm_compute; discriminate].
Lemma balanced_reach : reach 1000 ex_balanced.
Proof. unfold ex_balanced. change 1000 with (end_time 1000 [(at_ 1000, Provide 5 2000000000 1000000000 None None)]). reach_ex. Qed.
Lemma skewed_reach : reach 1000 ex_skewed.
Proof. unfold ex_skewed. change 1000 with (end_time 1000 [(at_ 1000, Provide 5 2000000000 300000000 None None)]). reach_ex. Qed.

(** C92: the reverse simulation announces an offer that buys less than asked for. *)
Theorem c92_reverse_refuted : exists c s e ask o sp fe ret sp' comm, reach c s /\
  query_reverse_simulation e s true ask = Some (o, sp, fe) /\
  query_simulation e s false o = Some (ret, sp', comm) /\ ret < ask.
Proof.
  exists 1000, ex_skewed, (at_ 2000), 1000000, 6653437. do 5 eexists.
  split; [exact skewed_reach|]. split; [vm_compute; reflexivity|]. split; [vm_compute; reflexivity|]. reflexivity.
Qed.

(** C97: a withdrawal succeeds although it pays far less than the minimum asked for. *)
Theorem c97_refuted : exists c s e w n min0 min1 s' a0 a1, reach c s /\
  step e (Withdraw w n false (Some (min0, min1))) s = Some (s', OWithdraw a0 a1) /\ a0 < min0 /\ a1 < min1.
Proof.
  exists 1000, ex_balanced, (at_ 2000), 5, 1000000, (10 ^ 9), (10 ^ 9). do 3 eexists.
  split; [exact balanced_reach|]. split; [vm_compute; reflexivity|]. split; reflexivity.
Qed.

(** C93: with an asset of four decimals one tiny accepted trade disables all later swaps. *)
Definition ex4 : state :=
  init0 (instantiate 1000 1 (std 230000000000000) (40 * DEC) 145000000000000 DEC true 6 4 true false).
Theorem c93_refuted : exists s e trade s', 
  instantiate 1000 1 (std 230000000000000) (40 * DEC) 145000000000000 DEC true 6 4 true false = Some ex4 /\
  s = run ex4 [(at_ 1000, Provide 5 1000000000 10000000 None None)] /\
  step (at_ 1002) (Swap false 1000000 None None) s <> None /\
  step e trade s = Some (s', OSwap 0 0 0 0 0) /\
  forall l e' one offer belief ms, step e' (Swap one offer belief ms) (run s' l) = None.
Proof.
  assert (E : exists k, step (at_ 1001) (Swap false 40 (Some (10 ^ 24)) None)
      (run ex4 [(at_ 1000, Provide 5 1000000000 10000000 None None)]) = Some (k, OSwap 0 0 0 0 0) /\
      pend k = Some (ObservationModel.mkPre 40 0 1001)).
  { destruct (step _ _ _) as [[k o]|] eqn:E; [|vm_compute in E; discriminate E].
    exists k. vm_compute in E. injection E as <- <-. split; reflexivity. }
  destruct E as (k & E & P).
  eexists. exists (at_ 1001), (Swap false 40 (Some (10 ^ 24)) None), k.
  split; [vm_compute; reflexivity|]. split; [reflexivity|].
  split; [vm_compute; discriminate|]. split; [exact E|].
  intros l e' one offer belief ms. exact (c93_for_ever l k _ P eq_refl e' one offer belief ms).
Qed.

Example c88_example : exists s', step (at_fee 2000) (Swap false 10000000 None (Some 100000000000000000)) ex_balanced =
    Some (s', OSwap 4985649 420 13930 6965 0) /\ fees_ok (at_fee 2000).
Proof. eexists. split; [vm_compute; reflexivity|unfold fees_ok; simpl; lia]. Qed.
Example c92_example :
  query_simulation (at_fee 2000) ex_balanced false 10000000 = Some (4985649, 420, 13930) /\
  query_share ex_balanced 1000000 = Some (1414212, 707106) /\
  query_simulate_provide (at_ 2000) ex_balanced 2000000 1000000 None = Some 1414213.
Proof. split; [|split]; vm_compute; reflexivity. Qed.
Example c95_example :
  let l := [(at_ 1000, Provide 5 2000000000 1000000000 None None); (at_fee 2000, Swap false 10000000 None None);
            (at_ 3000, Withdraw 5 1000000 false None)] in
  nondecr (fun em => height (fst em)) l /\ balance_at (run ex0 l) true 1 = None /\ balance_at (run ex0 l) true 1000 = Some 0 /\
  balance_at (run ex0 l) true 2000 = Some 1000000000 /\ balance_at (run ex0 l) true 2001 = Some 995007386.
Proof.
  cbv zeta. split; [simpl; repeat split; repeat constructor; simpl; lia|]. split; [|split; [|split]]; vm_compute; reflexivity.
Qed.
Example c99_example :
  step (at_ 2000) (Swap false 10000000 (Some (2 * DEC)) (Some 10000000000000000)) ex_balanced <> None /\
  step (at_ 2000) (Swap false 10000000 (Some (2 * DEC)) (Some 1000000000000000)) ex_balanced = None.
Proof. split; vm_compute; [discriminate|reflexivity]. Qed.
Example c100_example : let s := run ex_balanced [(at_ 2000, Swap false 10000000 None None)] in
  last_t ex_balanced = 1000 /\ last_t s = 2000 /\ (c01 s, c10 s) = (498699000, 2005216000).
Proof. cbv zeta. split; [|split]; vm_compute; reflexivity. Qed.

Print Assumptions c88_swap.
Print Assumptions c88_lp_ledger.
Print Assumptions c88_alive.
Print Assumptions c92_simulation.
Print Assumptions c92_simulate_provide.
Print Assumptions c92_simulate_withdraw.
Print Assumptions c99_max_spread.
Print Assumptions c97_ignored.
Print Assumptions c93_for_ever.
Print Assumptions c100_swap.
Print Assumptions c100_provide.
Print Assumptions c100_others.
Print Assumptions c95_balance_at.
Print Assumptions c92_reverse_refuted.
Print Assumptions c97_refuted.
Print Assumptions c93_refuted.
