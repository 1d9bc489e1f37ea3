(** Order-book pair: what each message does, and the invariants of every reachable state. *)
From Coq Require Import ZArith Lia Bool List.
From Verif Require Import Num Ledger PclMath PclModel PclParamProps PclProofs DualityModel.
From Verif Require Amap XykModel.
Import ListNotations.
Open Scope Z_scope.

(** ** The order book *)

Lemma find_key k (d : book) : In k (map fst d) -> exists o, Amap.find k d = Some o.
Proof.
  induction d as [|[k' v] r IH]; [contradiction|]. cbn [map fst In Amap.find]. intros H.
  destruct (Z.eqb_spec k' k); [eauto|]. destruct H as [H|H]; [contradiction|]. exact (IH H).
Qed.
Lemma find_None k (d : book) : Amap.find k d = None -> ~ In k (map fst d).
Proof. intros E H. apply find_key in H as (o & H). congruence. Qed.

Lemma lookup_in ks : forall d os, lookup ks d = Some os -> forall k, In k ks -> Amap.find k d <> None.
Proof.
  induction ks as [|k r IH]; intros d os H j J; [contradiction|]. cbn [lookup] in H.
  unbind H as o E. unbind H as os' E'. injection H as <-. destruct J as [<-|J]; [congruence|]. exact (IH _ _ E' _ J).
Qed.
Lemma lookup_all ks : forall d, (forall k, In k ks -> Amap.find k d <> None) -> exists os, lookup ks d = Some os.
Proof.
  induction ks as [|k r IH]; intros d H; [exists []; reflexivity|]. cbn [lookup].
  destruct (Amap.find k d) as [o|] eqn:E; [|exfalso; exact (H k (or_introl eq_refl) E)].
  destruct (IH d) as (os & Eo). { intros j J. apply H. right. exact J. } rewrite Eo. eauto.
Qed.
Lemma lookup_missing ks d k : In k ks -> Amap.find k d = None -> lookup ks d = None.
Proof.
  intros J E. destruct (lookup ks d) eqn:L; [|reflexivity]. exfalso. exact (lookup_in _ _ _ L _ J E).
Qed.
Lemma lookup_del ks : forall k d os, ~ In k ks -> lookup ks (Amap.del k d) = Some os -> lookup ks d = Some os.
Proof.
  induction ks as [|j r IH]; intros k d os N H; [exact H|]. cbn [lookup] in *.
  unbind H as o E. unbind H as os' E'. injection H as <-.
  rewrite Amap.find_del_other in E by (intros ->; apply N; left; reflexivity). rewrite E.
  rewrite (IH k d os'); [reflexivity| |exact E']. intros J. apply N. right. exact J.
Qed.
(** A cancellation that goes through pays out exactly what lay there. *)
Lemma cancel_lookup ks : forall d os d', cancel ks d = Some (os, d') -> lookup ks d = Some os /\ NoDup ks.
Proof.
  induction ks as [|k r IH]; intros d os d' H; cbn [cancel] in H.
  - injection H as <- <-. split; [reflexivity|constructor].
  - unbind H as o E. unbind H as (os', d1) E'. injection H as <- <-. apply IH in E' as (E' & N).
    assert (Nk : ~ In k r).
    { intros J. apply (lookup_in _ _ _ E' k J). apply Amap.find_del_same. }
    split; [|constructor; assumption]. cbn [lookup]. rewrite E, (lookup_del _ _ _ _ Nk E'). reflexivity.
Qed.
Lemma cancel_dex ks : forall d os d', cancel ks d = Some (os, d') ->
  forall j, Amap.find j d' = if existsb (Z.eqb j) ks then None else Amap.find j d.
Proof.
  induction ks as [|k r IH]; intros d os d' H j; cbn [cancel] in H.
  - injection H as <- <-. reflexivity.
  - unbind H as o E. unbind H as (os', d1) E'. injection H as <- <-. rewrite (IH _ _ _ E' j). cbn [existsb].
    destruct (Z.eqb_spec j k) as [->|N]; cbn [orb].
    + rewrite Amap.find_del_same. destruct (existsb (Z.eqb k) r); reflexivity.
    + rewrite Amap.find_del_other by congruence. reflexivity.
Qed.

(** ** The parts of a message *)

Lemma open_book_inv de st b0 b1 a0 a1 ts x0 x1 : open_book de st b0 b1 a0 a1 = Some (ts, x0, x1) ->
  exists os, lookup (keys (ob st)) (dex st) = Some os /\
    fetch_trades (ob st) os (p0 (pool st)) (p1 (pool st)) (flip de) = Some ts /\
    0 <= b0 + lying false os <= U128MAX /\ 0 <= b1 + lying true os <= U128MAX /\
    x0 = (b0 + lying false os - a0) * 10 ^ (18 - p0 (pool st)) /\ 0 <= x0 <= U256MAX /\
    x1 = (b1 + lying true os - a1) * 10 ^ (18 - p1 (pool st)) /\ 0 <= x1 <= U256MAX.
Proof.
  unfold open_book. intros H. cbv zeta in H.
  unbind H as os E1. unbind H as ts' E2. unbind H as t0 E3. unbind H as t1 E4. unbind H as v0 E5. unbind H as v1 E6.
  unbind H as z0 E7. unbind H as z1 E8. unbind H as y0 E9. unbind H as y1 E10. injection H as <- <- <-.
  apply add128_Some in E3 as (-> & B3). apply add128_Some in E4 as (-> & B4).
  apply with_prec_inv in E5 as (-> & B5). apply with_prec_inv in E6 as (-> & B6).
  apply with_prec_inv in E7 as (-> & B7). apply with_prec_inv in E8 as (-> & B8).
  apply sub256_Some in E9 as (-> & B9). apply sub256_Some in E10 as (-> & B10).
  exists os. repeat (split; [got || assumption || lia|]). lia.
Qed.

(** The configuration part of the order-book state *)
Definition same_cfg (o o' : obook) : Prop :=
  enabled o' = enabled o /\ executor o' = executor o /\ num o' = num o /\ min0 o' = min0 o /\ min1 o' = min1 o /\
  liq o' = liq o /\ adj o' = adj o.
Record settled (de : denv) (s : state) (o : obook) (d : book) (b0 b1 f0 f1 w0 w1 x0 x1 : Z) (ps : pstate)
    (k0 k1 : Z) (o' : obook) (d' : book) (ws : list post) : Prop := mkSettled {
  se_deploy : deploy o s (now (base de)) x0 x1 ps = Some (ws, sizes o');
  se_cfg : same_cfg o o';
  se_ex : exists os d1, cancel (keys o) d = Some (os, d1) /\
    0 <= b0 - f0 /\ 0 <= b1 - f1 /\
    0 <= b0 - f0 + lying false os <= U128MAX /\ 0 <= b1 - f1 + lying true os <= U128MAX /\
    (match ws with
     | [] => k0 = b0 - f0 + lying false os - w0 /\ k1 = b1 - f1 + lying true os - w1 /\
             keys o' = keys o /\ pre o' = None /\ delayed o' = None /\ d' = d1
     | _ => k0 = b0 - f0 + lying false os - w0 - posted false ws + got0 de /\
            k1 = b1 - f1 + lying true os - w1 - posted true ws + got1 de /\
            0 <= got0 de /\ 0 <= got1 de /\ 0 <= k0 - got0 de /\ 0 <= k1 - got1 de /\
            d' = placed de ++ d1 /\ keys o' = firstn PAGE (map fst d') /\
            exists n0 n1, to_uint x0 (p0 s) = Some n0 /\ to_uint x1 (p1 s) = Some n1 /\
              0 <= n0 - posted false ws /\ 0 <= n1 - posted true ws /\
              pre o' = Some (n0 - posted false ws, n1 - posted true ws) /\
              (if Z.of_nat (length (keys o')) <? 2 * num o then
                 exists t, autoexecuted (n0 - posted false ws, n1 - posted true ws) k0 k1 = Some t /\ delayed o' = Some t
               else delayed o' = None)
     end) /\ 0 <= b0 - f0 + lying false os - w0 /\ 0 <= b1 - f1 + lying true os - w1;
  se_k0 : 0 <= k0 <= U128MAX; se_k1 : 0 <= k1 <= U128MAX }.
Lemma settle_inv de s o d b0 b1 f0 f1 w0 w1 x0 x1 ps k0 k1 o' d' ws :
  settle de s o d b0 b1 f0 f1 w0 w1 x0 x1 ps = Some (k0, k1, o', d', ws) ->
  settled de s o d b0 b1 f0 f1 w0 w1 x0 x1 ps k0 k1 o' d' ws.
Proof.
  intros H. unfold settle in H. unbind H as (ws', sz) E. unbind H as a0 E1. unbind H as a1 E2.
  unbind H as (os, d1) E3. unbind H as c0 E4. unbind H as c1 E5. unbind H as e0 E6. unbind H as e1 E7.
  apply sub128_Some in E1 as (-> & B1). apply sub128_Some in E2 as (-> & B2).
  apply add128_Some in E4 as (-> & B4). apply add128_Some in E5 as (-> & B5).
  apply sub128_Some in E6 as (-> & B6). apply sub128_Some in E7 as (-> & B7).
  destruct ws' as [|wp r].
  - injection H as <- <- <- <- <-. split; cbn; try assumption.
    + repeat split.
    + exists os, d1. split; [exact E3|]. repeat (split; [lia|]). split; [|lia]. repeat split; lia.
  - remember (wp :: r) as ws0 eqn:Ew. unbind H as n0 E8. unbind H as n1 E9. unbind H as q0 E10. unbind H as q1 E11. unbind H as g0 E12. unbind H as g1 E13.
    unguard H G. unbind H as k0' E14. unbind H as k1' E15. cbv zeta in H. unbind H as dl E16. injection H as <- <- <- <- <-.
    apply sub128_Some in E10 as (-> & B10). apply sub128_Some in E11 as (-> & B11).
    apply sub128_Some in E12 as (-> & B12). apply sub128_Some in E13 as (-> & B13).
    apply add128_Some in E14 as (-> & B14). apply add128_Some in E15 as (-> & B15). bools.
    split; cbn [sizes keys pre delayed num]; try assumption.
    + repeat split.
    + exists os, d1. split; [exact E3|]. repeat (split; [lia|]). split; [|lia]. rewrite Ew. rewrite <- Ew.
      split; [reflexivity|]. split; [reflexivity|]. repeat (split; [lia|]). split; [reflexivity|]. split; [reflexivity|].
      exists n0, n1. split; [exact E8|]. split; [exact E9|]. split; [lia|]. split; [lia|]. split; [reflexivity|].
      destruct (_ <? _).
      * unbind E16 as t Et. injection E16 as <-. exists t. split; [got|reflexivity].
      * congruence.
Qed.

(** ** Filled orders *)

(** What the pool loses to fees in the asset that went out *)
Lemma charge_inv e s t x prec y sa ma : 0 <= prec <= 18 -> charge e s t x prec = Some (y, sa, ma) ->
  exists tf sh mk, tf = out_fee (par s) * t_out t / DEC /\ 0 <= sh /\ 0 <= mk /\ 0 <= tf /\
    (match fshare s with Some b => sh = tf * (b * DEC / 10000) / DEC | None => sh = 0 end) /\
    (if maker_on (fees e) then mk = (tf - sh) * maker_rate (fees e) / DEC else mk = 0) /\
    (maker_on (fees e) = true -> sh <= tf) /\
    y = x - sh - mk /\ 0 <= y /\ sa = sh / 10 ^ (18 - prec) /\ ma = mk / 10 ^ (18 - prec) /\ 0 <= sa /\ 0 <= ma.
Proof.
  intros P H. unfold charge in H. unbind H as tf E1. unbind H as sh E2. unbind H as x1 E3. unbind H as sa' E4.
  unbind H as mk E5. unbind H as x2 E6. unbind H as ma' E7. injection H as <- <- <-.
  apply sub256_Some in E3 as (-> & B3). apply sub256_Some in E6 as (-> & B6).
  apply to_uint_inv in E4 as (-> & B4 & S4); [|exact P]. apply to_uint_inv in E7 as (-> & B7 & S7); [|exact P].
  apply dmul256_Some in E1 as (E1 & B1). rewrite <- E1 in B1.
  exists tf, sh, mk. split; [got|].
  split; [exact S4|]. split; [exact S7|]. split; [lia|].
  split. { destruct (fshare s); [|congruence]. unbind E2 as rate Er. apply dratio256_Some in Er as (_ & -> & _).
    apply dmul256_Some in E2 as (-> & _). reflexivity. }
  split. { destruct (maker_on _); [|congruence]. unbind E5 as rest Er. apply sub256_Some in Er as (-> & _).
    apply dmul256_Some in E5 as (-> & _). reflexivity. }
  split. { intros M. rewrite M in E5. unbind E5 as rest Er. apply sub256_Some in Er as (_ & Er & _). lia. }
  repeat (split; [lia || reflexivity|]). lia.
Qed.

Fixpoint gone (b : bool) (ts : list trade) : Z :=
  match ts with [] => 0 | t :: r => (if eqb (t_buy t) b then t_out t else 0) + gone b r end.
Lemma charge_all_inv e s : 0 <= p0 s <= 18 -> 0 <= p1 s <= 18 -> forall ts x0 x1 z0 z1 f0 f1,
  charge_all e s ts x0 x1 = Some (z0, z1, f0, f1) -> 0 <= x0 -> 0 <= x1 ->
  0 <= f0 /\ 0 <= f1 /\ 0 <= z0 /\ 0 <= z1 /\
  f0 * 10 ^ (18 - p0 s) <= x0 - z0 /\ f1 * 10 ^ (18 - p1 s) <= x1 - z1.
Proof.
  intros P0 P1. destruct (pow_split _ P0) as (_ & W0 & _). destruct (pow_split _ P1) as (_ & W1 & _).
  remember (10 ^ (18 - p0 s)) as w0 eqn:D0. remember (10 ^ (18 - p1 s)) as w1 eqn:D1.
  induction ts as [|t r IH]; intros x0 x1 z0 z1 f0 f1 H X0 X1; cbn [charge_all] in H.
  - injection H as <- <- <- <-. lia.
  - destruct (t_buy t).
    + unbind H as [[y sa] ma] E. unbind H as [[[u0 u1] g0] g1] E'. injection H as <- <- <- <-.
      apply charge_inv in E as (tf & sh & mk & _ & S & M & _ & _ & _ & _ & -> & Y & -> & -> & A & B); [|exact P1].
      apply IH in E'; [|lia|lia]. rewrite <- D1 in *. divb sh w1 q1. divb mk w1 q2. nia.
    + unbind H as [[y sa] ma] E. unbind H as [[[u0 u1] g0] g1] E'. injection H as <- <- <- <-.
      apply charge_inv in E as (tf & sh & mk & _ & S & M & _ & _ & _ & _ & -> & Y & -> & -> & A & B); [|exact P0].
      apply IH in E'; [|lia|lia]. rewrite <- D0 in *. divb sh w0 q1. divb mk w0 q2. nia.
Qed.
(** The fees of filled orders are at most the out-fee on what was sold. *)
Lemma charge_bound e s t x prec y sa ma : 0 <= prec <= 18 -> inv s -> fees_ok e -> 0 <= t_out t ->
  charge e s t x prec = Some (y, sa, ma) -> (x - y) * DEC <= out_fee (par s) * t_out t.
Proof.
  intros P I F T H. apply charge_inv in H as (tf & sh & mk & Et & S & M & _ & ES & EM & _ & -> & _); [|exact P].
  pose proof DEC_pos as D. unfold fees_ok in F. change (10 ^ 18) with DEC in F.
  assert (O : 0 <= out_fee (par s)) by (destruct (i_par _ I); lia).
  divb (out_fee (par s) * t_out t) DEC tf'. subst tf. rename tf' into tf.
  assert (tf0 : 0 <= tf) by nia.
  assert (Sh : sh <= tf).
  { pose proof (i_fs _ I) as B. destruct (fshare s) as [b|]; [|lia].
    divb (b * DEC) 10000 rt. assert (rt <= DEC) by nia. rewrite ES. apply Z.div_le_upper_bound; nia. }
  assert (Mk : mk <= tf - sh).
  { destruct (maker_on (fees e)); [|lia]. rewrite EM. apply Z.div_le_upper_bound; nia. }
  nia.
Qed.
Lemma charge_all_bound e s : inv s -> fees_ok e -> forall ts x0 x1 z0 z1 f0 f1,
  Forall (fun t => 0 <= t_out t) ts -> charge_all e s ts x0 x1 = Some (z0, z1, f0, f1) ->
  (x0 - z0) * DEC <= out_fee (par s) * gone false ts /\ (x1 - z1) * DEC <= out_fee (par s) * gone true ts.
Proof.
  intros I F. induction ts as [|t r IH]; intros x0 x1 z0 z1 f0 f1 T H; cbn [charge_all] in H.
  - injection H as <- <- <- <-. cbn. lia.
  - inversion T as [|? ? T1 T2]; subst. cbn [gone]. destruct (t_buy t) eqn:Eb; cbn [eqb].
    + unbind H as [[y sa] ma] E. unbind H as [[[u0 u1] g0] g1] E'. injection H as <- <- <- <-.
      apply charge_bound in E; [|exact (i_p1 _ I)|exact I|exact F|exact T1]. apply IH in E'; [|exact T2]. nia.
    + unbind H as [[y sa] ma] E. unbind H as [[[u0 u1] g0] g1] E'. injection H as <- <- <- <-.
      apply charge_bound in E; [|exact (i_p0 _ I)|exact I|exact F|exact T1]. apply IH in E'; [|exact T2]. nia.
Qed.

Lemma process_inv e s ts x0 x1 z0 z1 f0 f1 ps : process e s ts x0 x1 = Some (z0, z1, f0, f1, ps) ->
  charge_all e s ts x0 x1 = Some (z0, z1, f0, f1) /\
  (ps = pst s /\ (ts = [] \/ exists t, combine ts = Some t /\ (t_in t < MIN_TRADE_SIZE \/ t_out t < MIN_TRADE_SIZE)) \/
   exists t price total y1, combine ts = Some t /\ MIN_TRADE_SIZE <= t_in t /\ MIN_TRADE_SIZE <= t_out t /\
     trade_price t = Some price /\ 0 <= price <= U256MAX /\ with_prec (supply s) LP_PREC = Some total /\
     dmul256 z1 (scale (pst s)) = Some y1 /\
     update_price (par s) (rmp s) (pst s) (now e) total z0 y1 price = Some ps).
Proof.
  destruct ts as [|t0 r]; cbn [process].
  - intros [= <- <- <- <- <-]. split; [reflexivity|]. left. auto.
  - intros H. unbind H as [[[u0 u1] g0] g1] E. unbind H as t E1. unbind H as ps' E2. injection H as <- <- <- <- <-.
    split; [got|]. destruct ((MIN_TRADE_SIZE <=? t_in t) && (MIN_TRADE_SIZE <=? t_out t)) eqn:G.
    + right. bools. unbind E2 as price Ep. unbind E2 as total Et. unbind E2 as y1 Ey.
      exists t, price, total, y1. split; [got|]. split; [assumption|]. split; [assumption|]. split; [got|].
      split. { unfold trade_price in Ep. destruct (t_buy t); apply ddiv256_Some in Ep as (_ & -> & Bp); exact Bp. }
      split; [got|]. split; [got|]. exact E2.
    + left. split; [congruence|]. right. exists t. split; [got|]. apply andb_false_iff in G as [G|G]; bools; lia.
Qed.
Lemma process_scale e s ts x0 x1 z0 z1 f0 f1 ps : 0 < scale (pst s) -> process e s ts x0 x1 = Some (z0, z1, f0, f1, ps) -> 0 < scale ps.
Proof.
  intros P H. apply process_inv in H as (_ & [(-> & _)|(t & price & total & y1 & _ & _ & _ & _ & _ & _ & _ & U)]); [exact P|].
  exact (update_price_scale _ _ _ _ _ _ _ _ _ U P).
Qed.

(** ** The messages *)

Lemma provide_inv de st w d0 d1 tol ml st' o : provide de st w d0 d1 tol ml = Some (st', o) ->
  let s := pool st in let e := base de in
  exists total ts x0 x1 e0 e1 y0 y1 ps1 share ps2 c k0 k1 ob' d' ws f0 f1,
    0 <= d0 /\ 0 <= d1 /\ registered e = true /\ with_prec (supply s) LP_PREC = Some total /\
    0 <= r0 s + d0 <= U128MAX /\ 0 <= r1 s + d1 <= U128MAX /\
    open_book de st (r0 s + d0) (r1 s + d1) d0 d1 = Some (ts, x0, x1) /\
    with_prec d0 (p0 s) = Some e0 /\ with_prec d1 (p1 s) = Some e1 /\
    process e s ts x0 x1 = Some (y0, y1, f0, f1, ps1) /\
    calculate_shares (now e) (par s) (rmp s) ps1 y0 y1 total e0 e1 tol = Some (share, ps2) /\
    (match ml with Some m => m | None => 0 end) <= share /\
    accumulate_prices s (now e) (last (pst s)) = Some c /\
    settled de s (ob st) (dex st) (r0 s + d0) (r1 s + d1) f0 f1 0 0 (y0 + e0) (y1 + e1) ps2 k0 k1 ob' d' ws /\
    let locked := if supply s =? 0 then 1000 else 0 in
    let lp1 := if supply s =? 0 then set (lp s) SELF (get (lp s) SELF + 1000) else lp s in
    0 <= supply s + locked + share <= U128MAX /\
    st' = close st k0 k1 (supply s + locked + share) (set lp1 w (get lp1 w + share)) ps2 c ob' d' /\
    o = mkOut (OProvide share) ws f0 f1.
Proof.
  intros H. unfold provide in H. cbv zeta in *. unguard H G. bools.
  unbind H as total E1. unbind H as b0 E2. unbind H as b1 E3. unbind H as [[ts x0] x1] E4. unbind H as e0 E5. unbind H as e1 E6.
  unbind H as [[[[y0 y1] f0] f1] ps1] E7. unbind H as [share ps2] E8. unguard H G2. unbind H as sup E9. unbind H as c E10.
  unbind H as n0 E11. unbind H as n1 E12. unbind H as [[[[k0 k1] ob'] d'] ws] E13. injection H as <- <-.
  apply add128_Some in E2 as (-> & B2). apply add128_Some in E3 as (-> & B3). apply u128_Some in E9 as (-> & B9).
  apply add256_Some in E11 as (-> & _). apply add256_Some in E12 as (-> & _). apply settle_inv in E13. bools.
  exists total, ts, x0, x1, e0, e1, y0, y1, ps1, share, ps2, c, k0, k1, ob', d', ws, f0, f1.
  repeat (split; [got|]). reflexivity.
Qed.

Lemma withdraw_inv de st w n imb mins st' o : withdraw de st w n imb mins = Some (st', o) ->
  let s := pool st in let e := base de in
  exists ts x0 x1 y0 y1 f0 f1 ps ratio g0 a0 g1 a1 i1 am ga d x ld xr k0 k1 ob' d' ws,
    w <> SELF /\ 0 < n <= get (lp s) w /\ imb = false /\
    open_book de st (r0 s) (r1 s) 0 0 = Some (ts, x0, x1) /\
    process e s ts x0 x1 = Some (y0, y1, f0, f1, ps) /\
    share_ratio (ssub n 1) (supply s) = Some ratio /\
    refund y0 (p0 s) ratio = Some (g0, a0) /\ refund y1 (p1 s) ratio = Some (g1, a1) /\
    0 <= y0 - g0 /\ 0 <= y1 - g1 /\
    (match mins with Some (m0, m1) => m0 <= a0 /\ m1 <= a1 | None => True end) /\ a0 <> 0 /\ a1 <> 0 /\
    settled de s (ob st) (dex st) (r0 s) (r1 s) f0 f1 a0 a1 (y0 - g0) (y1 - g1) ps k0 k1 ob' d' ws /\
    dmul256 (y1 - g1) (scale ps) = Some i1 /\ amp_gamma (rmp s) (now e) = Some (am, ga) /\
    newton_d (y0 - g0) i1 am ga = Some d /\ get_xcp d (scale ps) = Some x /\
    0 <= supply s - n /\ with_prec (supply s - n) LP_PREC = Some ld /\ ddiv256 x ld = Some xr /\
    st' = close st k0 k1 (supply s - n) (set (lp s) w (get (lp s) w - n))
           (mkPs (oracle ps) (last ps) (scale ps) (upd ps) (xcp ps) xr) (c01 s, c10 s, last_t s) ob' d' /\
    o = mkOut (OWithdraw a0 a1) ws f0 f1.
Proof.
  intros H. unfold withdraw in H. cbv zeta in *. unguard H G. bools.
  unbind H as [[ts x0] x1] E1. unbind H as [[[[y0 y1] f0] f1] ps] E2. unguard H G2. unbind H as ratio E3.
  unbind H as [g0 a0] E4. unbind H as [g1 a1] E5. unbind H as n0 E6. unbind H as n1 E7. unguard H G3. unguard H G4.
  unbind H as [[[[k0 k1] ob'] d'] ws] E8. unbind H as i1 E9. unbind H as [am ga] E10. unbind H as d E11. unbind H as x E12.
  unbind H as left E13. unbind H as ld E14. unbind H as xr E15. injection H as <- <-.
  apply sub256_Some in E6 as (-> & B6 & _). apply sub256_Some in E7 as (-> & B7 & _). apply settle_inv in E8.
  apply sub128_Some in E13 as (-> & B13 & _). bools.
  exists ts, x0, x1, y0, y1, f0, f1, ps, ratio, g0, a0, g1, a1, i1, am, ga, d, x, ld, xr, k0, k1, ob', d', ws.
  split; [got|]. split; [lia|]. do 8 (split; [got|]).
  split. { destruct mins as [[m0 m1]|]; [|exact Logic.I]. bools. split; assumption. }
  unfold can_send in *. cbn [andb] in *. bools.
  repeat (split; [got|]). reflexivity.
Qed.

Lemma swap_inv de st one offer belief ms st' o : swap de st one offer belief ms = Some (st', o) ->
  let s := pool st in let e := base de in let pa := if one then p0 s else p1 s in
  exists off b0 b1 ts x0 x1 y0 y1 f0 f1 ps1 old fs res of_ ret spread comm mak shr total ps c k0 k1 ob' d' ws,
    with_prec offer (if one then p1 s else p0 s) = Some off /\
    b0 = r0 s + (if one then 0 else offer) /\ b1 = r1 s + (if one then offer else 0) /\
    (if one then b1 else b0) <= U128MAX /\
    open_book de st b0 b1 (if one then 0 else offer) (if one then offer else 0) = Some (ts, x0, x1) /\
    off <> 0 /\ x0 <> 0 /\ x1 <> 0 /\
    process e s ts x0 x1 = Some (y0, y1, f0, f1, ps1) /\
    calc_last_prices (par s) (rmp s) ps1 (now e) y0 y1 = Some old /\ fee_share_rate s = Some fs /\
    compute_swap (par s) (rmp s) ps1 (now e) y0 y1 off one (maker_share e) fs = Some res /\ outflow res = Some of_ /\
    to_uint (dy res) pa = Some ret /\ to_uint (spread_fee res) pa = Some spread /\ to_uint (total_fee res) pa = Some comm /\
    (match fshare s with Some _ => to_uint (share_fee res) pa = Some shr | None => shr = 0 end) /\
    (if maker_on (fees e) then to_uint (maker_fee res) pa = Some mak else mak = 0) /\
    assert_max_spread belief ms offer ret spread = Some tt /\
    accumulate_prices s (now e) old = Some c /\ with_prec (supply s) LP_PREC = Some total /\
    let n0 := if one then y0 - of_ else y0 + off in let n1 := if one then y1 + off else y1 - of_ in
    (if (MIN_TRADE_SIZE <=? of_) && (MIN_TRADE_SIZE <=? off) then
       exists price i1, last_price res off one = Some price /\ dmul256 n1 (scale ps1) = Some i1 /\
         update_price (par s) (rmp s) ps1 (now e) total n0 i1 price = Some ps
     else ps = ps1) /\
    0 <= n0 /\ 0 <= n1 /\ ret <> 0 /\
    let w := ret + mak + shr in
    settled de s (ob st) (dex st) b0 b1 f0 f1 (if one then w else 0) (if one then 0 else w) n0 n1 ps k0 k1 ob' d' ws /\
    st' = close st k0 k1 (supply s) (lp s) ps c ob' d' /\
    o = mkOut (OSwap ret spread comm mak shr) ws f0 f1.
Proof.
  intros H. unfold swap in H. cbv zeta in *.
  unbind H as off E1. unbind H as b0 E2. unbind H as b1 E3. unbind H as [[ts x0] x1] E4. unguard H G.
  unbind H as [[[[y0 y1] f0] f1] ps1] E5. unbind H as old E6. unbind H as fs E7. unbind H as res E8. unbind H as of_ E9.
  unbind H as n_off E10. unbind H as n_ask E11. unbind H as ret E12. unbind H as spread E13. unbind H as ok E14.
  unbind H as total E15. unbind H as ps E16. unguard H G2. unbind H as shr E17. unbind H as mak E18. unbind H as c E19.
  unbind H as comm E20. unbind H as [[[[k0 k1] ob'] d'] ws] E21. injection H as <- <-. destruct ok.
  apply add256_Some in E10 as (-> & B10). apply sub256_Some in E11 as (-> & B11). apply settle_inv in E21. bools.
  exists off, b0, b1, ts, x0, x1, y0, y1, f0, f1, ps1, old, fs, res, of_, ret, spread, comm, mak, shr, total, ps, c, k0, k1, ob', d', ws.
  split; [got|].
  assert (EB : b0 = r0 (pool st) + (if one then 0 else offer) /\ b1 = r1 (pool st) + (if one then offer else 0) /\
    (if one then b1 else b0) <= U128MAX).
  { destruct one.
    - apply add128_Some in E3 as (-> & B3). injection E2 as <-. lia.
    - apply add128_Some in E2 as (-> & B2). injection E3 as <-. lia. }
  destruct EB as (EB0 & EB1 & EB2). split; [exact EB0|]. split; [exact EB1|]. split; [exact EB2|].
  do 12 (split; [got|]).
  split. { destruct (fshare (pool st)); congruence. }
  split. { destruct (maker_on _); congruence. }
  do 3 (split; [got|]).
  split. { destruct (_ && _).
    - unbind E16 as price Ep. unbind E16 as i1 Ei. exists price, i1. destruct one; (split; [got|]); (split; [got|exact E16]).
    - congruence. }
  split. { destruct one; lia. } split. { destruct one; lia. }
  unfold can_send in *. cbn [andb] in *. bools. split; [assumption|].
  split. { destruct one; exact E21. } split; reflexivity.
Qed.

Lemma sync_inv de st who st' o : sync de st who = Some (st', o) ->
  let s := pool st in let e := base de in
  exists ts x0 x1 old y0 y1 f0 f1 ps c k0 k1 ob' d' ws,
    match executor (ob st) with Some x => who = x | None => True end /\
    open_book de st (r0 s) (r1 s) 0 0 = Some (ts, x0, x1) /\ ts <> [] /\
    calc_last_prices (par s) (rmp s) (pst s) (now e) x0 x1 = Some old /\
    process e s ts x0 x1 = Some (y0, y1, f0, f1, ps) /\
    accumulate_prices s (now e) old = Some c /\
    settled de s (ob st) (dex st) (r0 s) (r1 s) f0 f1 0 0 y0 y1 ps k0 k1 ob' d' ws /\
    st' = close st k0 k1 (supply s) (lp s) ps c ob' d' /\ o = mkOut ONone ws f0 f1.
Proof.
  intros H. unfold sync in H. cbv zeta in *. unguard H G. unbind H as [[ts x0] x1] E1. destruct ts as [|t r]; [discriminate H|].
  unbind H as old E2. unbind H as [[[[y0 y1] f0] f1] ps] E3. unbind H as c E4. unbind H as [[[[k0 k1] ob'] d'] ws] E5.
  injection H as <- <-. apply settle_inv in E5.
  exists (t :: r), x0, x1, old, y0, y1, f0, f1, ps, c, k0, k1, ob', d', ws.
  split. { destruct (executor (ob st)); [bools; exact G|exact Logic.I]. }
  split; [got|]. split; [discriminate|]. repeat (split; [got|]). reflexivity.
Qed.

(** ** Invariant *)

Record good (st : dstate) : Prop := mkGood {
  g_inv : inv (pool st); g_track : track (pool st) = false; g_pend : pend (pool st) = None;
  g_nat0 : nat0 (pool st) = true; g_nat1 : nat1 (pool st) = true;
  g_ob : valid_ob (ob st) = true; g_min0 : 0 <= min0 (ob st) <= U128MAX; g_min1 : 0 <= min1 (ob st) <= U128MAX }.

Lemma inv_close s k0 k1 sup l ps c h ob pe : inv s -> 0 <= k0 <= U128MAX -> 0 <= k1 <= U128MAX -> nonneg l ->
  total l = sup -> sup <= U128MAX -> (sup = 0 \/ 1000 <= get l SELF) -> 0 < scale ps ->
  inv (set_pools s k0 k1 sup l ps c h ob pe).
Proof.
  intros I A B N T U L P.
  destruct (set_pools_fields s k0 k1 sup l ps c h ob pe) as (F1 & F2 & F3 & F4 & F5 & F6 & F7 & F8 & F9 & F10 & _).
  destruct I. constructor; rewrite ?F1, ?F2, ?F3, ?F4, ?F5, ?F6, ?F7, ?F8, ?F9, ?F10; assumption.
Qed.
Lemma valid_same o o' : same_cfg o o' -> valid_ob o = true -> valid_ob o' = true.
Proof. intros (_ & _ & A & B & C & D & E). unfold valid_ob. rewrite A, B, C, D, E. auto. Qed.
Lemma good_close st k0 k1 sup l ps c o d : good st -> same_cfg (ob st) o -> 0 <= k0 <= U128MAX -> 0 <= k1 <= U128MAX -> nonneg l ->
  total l = sup -> sup <= U128MAX -> (sup = 0 \/ 1000 <= get l SELF) -> 0 < scale ps ->
  good (close st k0 k1 sup l ps c o d).
Proof.
  intros G S A B N T U L P. unfold close.
  destruct (set_pools_fields (pool st) k0 k1 sup l ps c 0 (obs (pool st)) (pend (pool st))) as (_ & _ & _ & _ & _ & _ & _ & _ & _ & _ & _ & _ & F13 & _ & _ & _ & F17 & F18 & F19 & _).
  constructor; cbn [pool ob].
  - apply inv_close; try assumption. exact (g_inv _ G).
  - rewrite F19. exact (g_track _ G).
  - rewrite F13. exact (g_pend _ G).
  - rewrite F17. exact (g_nat0 _ G).
  - rewrite F18. exact (g_nat1 _ G).
  - exact (valid_same _ _ S (g_ob _ G)).
  - destruct S as (_ & _ & _ & -> & _). exact (g_min0 _ G).
  - destruct S as (_ & _ & _ & _ & -> & _). exact (g_min1 _ G).
Qed.
Lemma shares_scale t p r ps x0 x1 total d0 d1 tol amount ps2 : 0 < scale ps ->
  calculate_shares t p r ps x0 x1 total d0 d1 tol = Some (amount, ps2) -> 0 < scale ps2 /\ 0 <= amount.
Proof.
  intros P E. apply calculate_shares_inv in E as (n1 & a & g & nd & sh & ps1 & _ & _ & _ & _ & _ & _ & Es & S0 & _ & (b0 & b1 & ratio & _ & _ & _ & Hps) & Ea).
  apply to_uint_inv in Ea as (_ & Sh & _); [|unfold LP_PREC; lia]. split; [|lia].
  assert (P1 : 0 < scale ps1).
  { destruct (total =? 0).
    - destruct Es as (x & _ & _ & _ & ->). exact P.
    - destruct Es as (o1 & od & q & i1 & pf & _ & _ & _ & _ & _ & _ & _ & _ & ->). exact P. }
  destruct (_ && _).
  - destruct Hps as (sl & price & _ & _ & U). exact (update_price_scale _ _ _ _ _ _ _ _ _ U P1).
  - subst ps2. exact P1.
Qed.
Lemma refund_nonneg x p ratio g a : 0 <= p <= 18 -> refund x p ratio = Some (g, a) -> 0 <= a.
Proof.
  intros P R. unfold refund in R. unbind R as d0 Ed. unbind R as v Ev. injection R as _ <-.
  apply to_uint_inv in Ev; [|exact P]. lia.
Qed.

Lemma config_keeps e m s s' o : config_msg m = true -> step e m s = Some (s', o) ->
  track s' = track s /\ pend s' = pend s /\ nat0 s' = nat0 s /\ nat1 s' = nat1 s /\ obs s' = obs s /\
  pst s' = pst s /\ supply s' = supply s.
Proof.
  intros C H. destruct m; try discriminate C; cbn [step] in H; unguard H G || idtac.
  all: try (unbind H as p E). all: injection H as <- _; cbn; auto 10.
Qed.

Lemma dstep_good de m st st' o : good st -> dstep de m st = Some (st', o) -> good st'.
Proof.
  intros G H. pose proof (g_inv _ G) as I. pose proof (i_lp _ I) as NL. pose proof (i_sum _ I) as SL.
  pose proof (i_lock _ I) as LK. pose proof (i_sup _ I) as SU. pose proof (i_scale _ I) as SC.
  destruct m; cbn [dstep] in H.
  - apply provide_inv in H as (tot & ts & x0 & x1 & e0 & e1 & y0 & y1 & ps1 & share & ps2 & c & k0 & k1 & ob' & d' & ws & f0 & f1 & H).
    cbv zeta in H. destruct H as (_ & _ & _ & _ & _ & _ & _ & _ & _ & Pr & Sh & _ & _ & Se & Su & -> & _).
    apply process_scale in Pr; [|exact SC]. apply shares_scale in Sh as (P2 & S0); [|exact Pr].
    destruct Se as [_ Sc _ K0 K1]. set (s := pool st) in *.
    remember (if supply s =? 0 then set (lp s) SELF (get (lp s) SELF + 1000) else lp s) as lp1.
    assert (N1 : nonneg lp1).
    { subst lp1. destruct (supply s =? 0); [|exact NL]. apply nonneg_set; [exact NL|].
      pose proof (nonneg_get _ SELF NL). lia. }
    assert (T1 : total lp1 = supply s + (if supply s =? 0 then 1000 else 0)).
    { subst lp1. destruct (supply s =? 0); [rewrite total_set|]; lia. }
    assert (L1 : 1000 <= get lp1 SELF).
    { subst lp1. destruct (supply s =? 0) eqn:Z0.
      - rewrite get_set_same. pose proof (nonneg_get _ SELF NL). lia.
      - bools. destruct LK; [contradiction|assumption]. }
    apply good_close; try assumption; try lia.
    + apply nonneg_set; [exact N1|]. pose proof (nonneg_get _ receiver N1). lia.
    + rewrite total_set, T1. lia.
    + right. destruct (Z.eq_dec receiver SELF) as [->|Ne].
      * rewrite get_set_same. lia.
      * rewrite get_set_other by exact Ne. exact L1.
  - apply withdraw_inv in H as (ts & x0 & x1 & y0 & y1 & f0 & f1 & ps & ratio & g0 & a0 & g1 & a1 & i1 & am & ga & d & x & ld & xr & k0 & k1 & ob' & d' & ws & H).
    destruct H as (W & N & _ & _ & Pr & _ & _ & _ & _ & _ & _ & _ & _ & Se & _ & _ & _ & _ & S0 & _ & _ & -> & _).
    apply process_scale in Pr; [|exact SC]. destruct Se as [_ Sc _ K0 K1].
    apply good_close; try assumption; try lia.
    + apply nonneg_set; [exact NL|lia].
    + rewrite total_set. lia.
    + right. rewrite get_set_other by exact W.
      pose proof (get_le_total _ who NL). destruct LK as [LK|LK]; [|exact LK]. lia.
  - unguard H G0. apply swap_inv in H as (off & b0 & b1 & ts & x0 & x1 & y0 & y1 & f0 & f1 & ps1 & old & fs & res & of_ & ret & spread & comm & mak & shr & tot & ps & c & k0 & k1 & ob' & d' & ws & H).
    cbv zeta in H.
    destruct H as (_ & _ & _ & _ & _ & _ & _ & _ & Pr & _ & _ & _ & _ & _ & _ & _ & _ & _ & _ & _ & _ & U & _ & _ & _ & Se & -> & _).
    apply process_scale in Pr; [|exact SC].
    assert (P2 : 0 < scale ps).
    { destruct (_ && _).
      - destruct U as (price & i1 & _ & _ & U). exact (update_price_scale _ _ _ _ _ _ _ _ _ U Pr).
      - subst ps. exact Pr. }
    destruct Se as [_ Sc _ K0 K1]. apply good_close; assumption.
  - apply sync_inv in H as (ts & x0 & x1 & old & y0 & y1 & f0 & f1 & ps & c & k0 & k1 & ob' & d' & ws & H).
    destruct H as (_ & _ & _ & _ & Pr & _ & Se & -> & _).
    apply process_scale in Pr; [|exact SC]. destruct Se as [_ Sc _ K0 K1]. apply good_close; assumption.
  - unfold update_ob in H. unguard H G1. unguard H G2. unguard H G3. unbind H as [os d] E. unguard H G4. unbind H as k0 E1. unbind H as k1 E2.
    injection H as <- _. apply add128_Some in E1 as (-> & B1). apply add128_Some in E2 as (-> & B2). bools.
    constructor; cbn [pool ob min0 min1]; try apply G; try assumption.
    + destruct I. constructor; cbn in *; assumption.
    + unfold orelse. destruct (v_min0 u); [apply fits_iff; assumption|exact (g_min0 _ G)].
    + unfold orelse. destruct (v_min1 u); [apply fits_iff; assumption|exact (g_min1 _ G)].
  - unguard H C. unbind H as [s o'] E. injection H as <- _.
    pose proof (config_keeps _ _ _ _ _ C E) as (A1 & A2 & A3 & A4 & _).
    constructor; cbn [pool ob]; try apply G.
    + exact (step_inv_ok _ _ _ _ _ I E).
    + rewrite A1. exact (g_track _ G).
    + rewrite A2. exact (g_pend _ G).
    + rewrite A3. exact (g_nat0 _ G).
    + rewrite A4. exact (g_nat1 _ G).
  - unbind H as od E. unguard H G1. injection H as <- _. destruct G. constructor; assumption.
Qed.
Lemma drun_good l : forall st, good st -> good (drun st l).
Proof.
  induction l as [|[e m] l IH]; intros s I; [exact I|].
  change (drun s ((e, m) :: l)) with (drun (dexec s (e, m)) l). apply IH. unfold dexec. cbn [fst snd].
  destruct (dstep e m s) as [[s' o]|] eqn:E; [|exact I]. exact (dstep_good _ _ _ _ _ I E).
Qed.

(** A new pair, or a concentrated pair with two native assets migrated to the order book, before its first message. *)
Definition started (st0 : dstate) : Prop :=
  (exists t u am ga ps q0 q1 ex n m0 m1 lq ad, 0 <= t <= U64MAX /\
     dinstantiate t u am ga ps q0 q1 ex n m0 m1 lq ad = Some st0) \/
  (exists c s v ex n m0 m1 lq ad, reach c s /\ nat0 s = true /\ nat1 s = true /\
     migrate_ob v s ex n m0 m1 lq ad = Some st0).
(** A state of a deployed pair after any history of messages, whatever the order book does. *)
Definition dreach (st : dstate) : Prop := exists st0 l, started st0 /\ st = drun st0 l.
Lemma started_good st : started st -> good st.
Proof.
  intros [(t & u & am & ga & ps & q0 & q1 & ex & n & m0 & m1 & lq & ad & T & H)|(c & s & v & ex & n & m0 & m1 & lq & ad & R & N0 & N1 & H)].
  - unfold dinstantiate in H. unbind H as s E. unguard H G. injection H as <-. bools.
    pose proof (deploy_inv _ _ _ _ _ _ _ _ _ _ _ _ T E) as I.
    unfold instantiate in E. unguard E G1. unguard E G2. unbind E as p Ep. unguard E G3. injection E as <-.
    constructor; cbn [pool ob min0 min1]; try reflexivity; try assumption; apply fits_iff; assumption.
  - unfold migrate_ob in H. unguard H G. injection H as <-. bools. apply reach_inv in R.
    constructor; cbn [pool ob min0 min1 strip track pend nat0 nat1]; try reflexivity; try assumption; try (apply fits_iff; assumption).
    destruct R. constructor; assumption.
Qed.
Lemma dreach_good st : dreach st -> good st.
Proof. intros (st0 & l & S & ->). apply drun_good, started_good, S. Qed.
