(** Order-book pair: properties of every state and message (C101, C105-C108, C110-C113).
    The histories showing what fails are in DualityWitnessProps. *)
From Coq Require Import ZArith Lia Bool List.
From Verif Require Import Num Ledger PclMath PclModel PclParamProps PclProofs PclLpProps DualityModel DualityProofs.
From Verif Require Amap XykModel ObservationModel.
Import ListNotations.
Open Scope Z_scope.

(** ** Specification *)

(** Messages that settle the book: deposits, withdrawals, swaps and syncs. *)
Definition trading (m : dmsg) : Prop :=
  match m with DProvide _ _ _ _ _ | DWithdraw _ _ _ _ | DSwap _ _ _ _ | DSync _ => True | _ => False end.
Definition disables (m : dmsg) : Prop :=
  match m with DUpdateOb _ u => v_enable u = Some false | _ => False end.
(** Every order the pair has on record exists. *)
Definition in_step (st : dstate) : Prop := forall k, In k (keys (ob st)) -> Amap.find k (dex st) <> None.
Definition stuck (st : dstate) : Prop := exists k, In k (keys (ob st)) /\ Amap.find k (dex st) = None.
(** What a message brings in, and what its result pays out, in each asset *)
Definition brings (one : bool) (m : dmsg) : Z :=
  match m with
  | DProvide _ d0 d1 _ _ => if one then d1 else d0
  | DSwap o offer _ _ => if eqb o one then offer else 0
  | _ => 0
  end.
Definition pays (one : bool) (m : dmsg) (o : out) : Z :=
  match m, o with
  | DWithdraw _ _ _ _, OWithdraw a0 a1 => if one then a1 else a0
  | DSwap o1 _ _ _, OSwap ret _ _ mak shr => if eqb o1 one then 0 else ret + mak + shr
  | _, _ => 0
  end.
Definition when_posted (l : list post) (v : Z) : Z := match l with [] => 0 | _ => v end.

(** ** The settlement of any of the four messages *)

Lemma trading_settled de m st st' o : trading m -> dstep de m st = Some (st', o) ->
  exists ts x0 x1 y0 y1 ps1 n0 n1 ps,
    open_book de st (r0 (pool st) + brings false m) (r1 (pool st) + brings true m) (brings false m) (brings true m) = Some (ts, x0, x1) /\
    process (base de) (pool st) ts x0 x1 = Some (y0, y1, o_fee0 o, o_fee1 o, ps1) /\
    settled de (pool st) (ob st) (dex st) (r0 (pool st) + brings false m) (r1 (pool st) + brings true m)
      (o_fee0 o) (o_fee1 o) (pays false m (o_res o)) (pays true m (o_res o)) n0 n1 ps
      (r0 (pool st')) (r1 (pool st')) (ob st') (dex st') (o_posts o).
Proof.
  intros T H. destruct m; try contradiction; cbn [dstep] in H.
  - apply provide_inv in H as (tot & ts & x0 & x1 & e0 & e1 & y0 & y1 & ps1 & share & ps2 & c & k0 & k1 & ob' & d' & ws & f0 & f1 & H).
    cbv zeta in H. destruct H as (_ & _ & _ & _ & _ & _ & O & _ & _ & Pr & _ & _ & _ & Se & _ & -> & ->).
    exists ts, x0, x1, y0, y1, ps1, (y0 + e0), (y1 + e1), ps2. cbn [brings pays o_fee0 o_fee1 o_res o_posts].
    split; [exact O|]. split; [exact Pr|]. unfold close. destruct c as [[? ?] ?]. exact Se.
  - apply withdraw_inv in H as (ts & x0 & x1 & y0 & y1 & f0 & f1 & ps & ratio & g0 & a0 & g1 & a1 & i1 & am & ga & d & x & ld & xr & k0 & k1 & ob' & d' & ws & H).
    destruct H as (_ & _ & _ & O & Pr & _ & _ & _ & _ & _ & _ & _ & _ & Se & _ & _ & _ & _ & _ & _ & _ & -> & ->).
    exists ts, x0, x1, y0, y1, ps, (y0 - g0), (y1 - g1), ps. cbn [brings pays o_fee0 o_fee1 o_res o_posts].
    rewrite !Z.add_0_r. split; [exact O|]. split; [exact Pr|]. exact Se.
  - unguard H G. apply swap_inv in H as (off & b0 & b1 & ts & x0 & x1 & y0 & y1 & f0 & f1 & ps1 & old & fs & res & of_ & ret & spread & comm & mak & shr & tot & ps & c & k0 & k1 & ob' & d' & ws & H).
    cbv zeta in H.
    destruct H as (_ & -> & -> & _ & O & _ & _ & _ & Pr & _ & _ & _ & _ & _ & _ & _ & _ & _ & _ & _ & _ & _ & _ & _ & _ & Se & -> & ->).
    exists ts, x0, x1, y0, y1, ps1, (if one then y0 - of_ else y0 + off), (if one then y1 + off else y1 - of_), ps.
    cbn [brings pays o_fee0 o_fee1 o_res o_posts]. unfold close. destruct c as [[? ?] ?].
    destruct one; cbn [eqb] in *; (split; [exact O|]); (split; [exact Pr|]); exact Se.
  - apply sync_inv in H as (ts & x0 & x1 & old & y0 & y1 & f0 & f1 & ps & c & k0 & k1 & ob' & d' & ws & H).
    destruct H as (_ & O & _ & _ & Pr & _ & Se & -> & ->).
    exists ts, x0, x1, y0, y1, ps, y0, y1, ps. cbn [brings pays o_fee0 o_fee1 o_res o_posts].
    rewrite !Z.add_0_r. unfold close. destruct c as [[? ?] ?]. split; [exact O|]. split; [exact Pr|]. exact Se.
Qed.

(** ** C107: nothing is lost or gained in a settlement *)

Theorem c107_settlement : forall st de m st' o, trading m -> dstep de m st = Some (st', o) ->
  exists os, lookup (keys (ob st)) (dex st) = Some os /\
    r0 (pool st') = r0 (pool st) + brings false m + lying false os - o_fee0 o - pays false m (o_res o)
                    - posted false (o_posts o) + when_posted (o_posts o) (got0 de) /\
    r1 (pool st') = r1 (pool st) + brings true m + lying true os - o_fee1 o - pays true m (o_res o)
                    - posted true (o_posts o) + when_posted (o_posts o) (got1 de) /\
    0 <= r0 (pool st') <= U128MAX /\ 0 <= r1 (pool st') <= U128MAX /\
    (forall k, Amap.find k (dex st') =
       match Amap.find k (match o_posts o with [] => [] | _ => placed de end) with
       | Some x => Some x
       | None => if existsb (Z.eqb k) (keys (ob st)) then None else Amap.find k (dex st)
       end).
Proof.
  intros st de m st' o T H. apply trading_settled in H as (ts & x0 & x1 & y0 & y1 & ps1 & n0 & n1 & ps & _ & _ & Se); [|exact T].
  destruct Se as [_ _ (os & d1 & C & _ & _ & _ & _ & W & _) K0 K1].
  pose proof (cancel_dex _ _ _ _ C) as D. apply cancel_lookup in C as (L & _). exists os. split; [exact L|].
  destruct (o_posts o) as [|w r] eqn:Ew.
  - destruct W as (A & B & _ & _ & _ & ->). cbn [posted when_posted]. split; [lia|]. split; [lia|]. split; [exact K0|]. split; [exact K1|].
    intros k. exact (D k).
  - destruct W as (A & B & _ & _ & _ & _ & -> & _). cbn [when_posted]. split; [lia|]. split; [lia|]. split; [exact K0|]. split; [exact K1|].
    intros k. rewrite <- (D k). clear. induction (placed de) as [|[j v] q IH]; [reflexivity|]. cbn.
    destruct (j =? k); [reflexivity|exact IH].
Qed.

(** At most one trade per side *)
Lemma fetch_shape b os q0 q1 flp ts : fetch_trades b os q0 q1 flp = Some ts ->
  ts = [] \/ (exists t, ts = [t]) \/ (exists t u, ts = [t; u] /\ t_buy u = negb (t_buy t)).
Proof.
  unfold fetch_trades. cbv zeta. destruct (os ++ _) as [|o0 r] eqn:Ea. { intros [= <-]. auto. }
  rewrite <- Ea. clear Ea. intros H. unbind H as [s0 s1] E. unbind H as i0 E0. unbind H as o1 E1. unbind H as i1 E2.
  unbind H as o0' E3. unbind H as di0 E4. unbind H as do1 E5. unbind H as di1 E6. unbind H as do0 E7.
  injection H as <-. destruct (i0 =? 0), (i1 =? 0), flp; cbn [app]; eauto; right; right; eexists _, _; split; reflexivity.
Qed.
(** so what leaves the pool for fees is what is sent, up to rounding two amounts down *)
Lemma charge_exact e s t x prec y sa ma : 0 <= prec <= 18 -> charge e s t x prec = Some (y, sa, ma) ->
  (sa + ma) * 10 ^ (18 - prec) <= x - y < (sa + ma + 2) * 10 ^ (18 - prec).
Proof.
  intros P H. apply charge_inv in H as (tf & sh & mk & _ & S & M & _ & _ & _ & _ & -> & _ & -> & -> & _ & _); [|exact P].
  destruct (pow_split _ P) as (_ & W & _). remember (10 ^ (18 - prec)) as w. divb sh w a. divb mk w b. nia.
Qed.
Lemma process_exact b os q0 q1 flp ts e s x0 x1 y0 y1 f0 f1 ps : 0 <= p0 s <= 18 -> 0 <= p1 s <= 18 ->
  fetch_trades b os q0 q1 flp = Some ts -> process e s ts x0 x1 = Some (y0, y1, f0, f1, ps) ->
  f0 * 10 ^ (18 - p0 s) <= x0 - y0 < (f0 + 2) * 10 ^ (18 - p0 s) /\
  f1 * 10 ^ (18 - p1 s) <= x1 - y1 < (f1 + 2) * 10 ^ (18 - p1 s) /\ 0 <= f0 /\ 0 <= f1.
Proof.
  intros P0 P1 F H. apply process_inv in H as (H & _).
  destruct (pow_split _ P0) as (_ & W0 & _). destruct (pow_split _ P1) as (_ & W1 & _).
  destruct (fetch_shape _ _ _ _ _ _ F) as [->|[(t & ->)|(t & u & -> & Nu)]]; cbn [charge_all] in H.
  - injection H as <- <- <- <-. nia.
  - destruct (t_buy t); unbind H as [[y sa] ma] E; injection H as <- <- <- <-.
    + pose proof E as E'. apply charge_exact in E; [|exact P1]. apply charge_inv in E'; [|exact P1].
      destruct E' as (tf & sh & mk & E'). nia.
    + pose proof E as E'. apply charge_exact in E; [|exact P0]. apply charge_inv in E'; [|exact P0].
      destruct E' as (tf & sh & mk & E'). nia.
  - rewrite Nu in H. destruct (t_buy t); cbn [negb] in H; unbind H as [[y sa] ma] E; unbind H as [[[z0 z1] g0] g1] Eq.
    + unbind Eq as [[y2 sa2] ma2] E2. injection Eq as <- <- <- <-. injection H as <- <- <- <-.
      pose proof E as E'. apply charge_exact in E; [|exact P1]. apply charge_inv in E'; [|exact P1]. destruct E' as (tf & sh & mk & E').
      pose proof E2 as E2'. apply charge_exact in E2; [|exact P0]. apply charge_inv in E2'; [|exact P0]. destruct E2' as (tf2 & sh2 & mk2 & E2').
      nia.
    + unbind Eq as [[y2 sa2] ma2] E2. injection Eq as <- <- <- <-. injection H as <- <- <- <-.
      pose proof E as E'. apply charge_exact in E; [|exact P0]. apply charge_inv in E'; [|exact P0]. destruct E' as (tf & sh & mk & E').
      pose proof E2 as E2'. apply charge_exact in E2; [|exact P1]. apply charge_inv in E2'; [|exact P1]. destruct E2' as (tf2 & sh2 & mk2 & E2').
      nia.
Qed.

(** A withdrawal pays the LP tokens' part, less one unit, of everything in the contract and in the book after the fees
    of filled orders, rounded down, and never less than the stated minimum. *)
Lemma refund_part y X f p n sup ratio g a : 0 <= p <= 18 -> 0 <= X - f -> 0 < n -> 0 < sup ->
  f * 10 ^ (18 - p) <= X * 10 ^ (18 - p) - y < (f + 2) * 10 ^ (18 - p) -> 0 <= y -> 0 <= f ->
  share_ratio (ssub n 1) sup = Some ratio -> refund y p ratio = Some (g, a) ->
  a * sup <= (n - 1) * (X - f) /\ (n - 1) * (X - f - 2) * 10 ^ 18 < (a + 2) * sup * 10 ^ 18 + X * sup.
Proof.
  intros P XF N S B Y F Er R. unfold share_ratio in Er. destruct (Z.eqb_spec sup 0); [lia|].
  apply dratio256_Some in Er as (_ & Er & Br). unfold ssub in Er. rewrite Z.max_r in Er by lia.
  unfold refund in R. unbind R as d E. unbind R as v Ev. injection R as <- <-.
  apply dmul256_Some in E as (E & Be). apply to_uint_inv in Ev as (Ev & _ & _); [|exact P].
  destruct (pow_split _ P) as (_ & W & _). change (10 ^ 18) with DEC. pose proof DEC_pos as D.
  remember (10 ^ (18 - p)) as w eqn:Dw. clear Dw.
  divb ((n - 1) * DEC) sup rt. subst ratio. rename rt into ratio.
  divb (y * ratio) DEC dd. subst d. rename dd into d. divb d w aa. subst v. rename aa into a.
  assert (R0 : 0 <= ratio) by nia. assert (R1 : ratio * sup <= (n - 1) * DEC) by nia.
  assert (Yu : y <= (X - f) * w) by nia.
  split.
  - assert (a * w * sup * DEC <= (n - 1) * ((X - f) * w) * DEC).
    { assert (a * w <= d) by nia. assert (d * DEC <= y * ratio) by nia.
      assert (a * w * DEC <= y * ratio) by nia. assert (y * ratio * sup <= y * ((n - 1) * DEC)) by nia.
      assert (y * ((n - 1) * DEC) <= (X - f) * w * ((n - 1) * DEC)) by nia. nia. }
    assert (a * sup * (w * DEC) <= (n - 1) * (X - f) * (w * DEC)) as Hm by nia.
    apply Z.mul_le_mono_pos_r in Hm; [exact Hm|nia].
  - assert (A1 : d < a * w + w) by nia. assert (A2 : y * ratio < d * DEC + DEC) by nia.
    assert (A3 : y * ratio < (a * w + w) * DEC) by nia.
    assert (A4 : (n - 1) * DEC < ratio * sup + sup) by nia.
    assert (A5 : y * ((n - 1) * DEC) <= y * (ratio * sup + sup)) by nia.
    assert (A6 : y * ((n - 1) * DEC) < (a * w + w) * DEC * sup + y * sup) by nia.
    assert (A7 : (X - f - 2) * w < y) by nia.
    assert (A8 : (X - f - 2) * w * ((n - 1) * DEC) <= y * ((n - 1) * DEC)) by nia.
    assert (A9 : y * sup <= X * w * sup) by nia.
    assert (A10 : (X - f - 2) * ((n - 1) * DEC) * w < ((a + 1) * DEC * sup + X * sup) * w) by nia.
    apply Z.mul_lt_mono_pos_r in A10; [|exact W]. nia.
Qed.
Theorem c107_withdraw : forall st de w n imb mins st' o, dreach st ->
  dstep de (DWithdraw w n imb mins) st = Some (st', o) ->
  exists a0 a1 os, o_res o = OWithdraw a0 a1 /\ lookup (keys (ob st)) (dex st) = Some os /\
    let S := supply (pool st) in
    let X0 := r0 (pool st) + lying false os in let X1 := r1 (pool st) + lying true os in
    a0 * S <= (n - 1) * (X0 - o_fee0 o) /\ (n - 1) * (X0 - o_fee0 o - 2) * 10 ^ 18 < (a0 + 2) * S * 10 ^ 18 + X0 * S /\
    a1 * S <= (n - 1) * (X1 - o_fee1 o) /\ (n - 1) * (X1 - o_fee1 o - 2) * 10 ^ 18 < (a1 + 2) * S * 10 ^ 18 + X1 * S /\
    0 < n <= get (lp (pool st)) w /\ get (lp (pool st')) w = get (lp (pool st)) w - n /\ supply (pool st') = S - n /\
    match mins with Some (m0, m1) => m0 <= a0 /\ m1 <= a1 | None => True end.
Proof.
  intros st de w n imb mins st' o R H. apply dreach_good in R. pose proof (g_inv _ R) as I. cbn [dstep] in H.
  apply withdraw_inv in H as (ts & x0 & x1 & y0 & y1 & f0 & f1 & ps & ratio & g0 & a0 & g1 & a1 & i1 & am & ga & d & x & ld & xr & k0 & k1 & ob' & d' & ws & H).
  destruct H as (_ & N & _ & O & Pr & Rt & R0 & R1 & Y0 & Y1 & M & _ & _ & Se & _ & _ & _ & _ & S0 & _ & _ & -> & ->).
  apply open_book_inv in O as (os & L & F & B0 & B1 & E0 & X0 & E1 & X1). rewrite Z.sub_0_r in E0, E1.
  pose proof (process_exact _ _ _ _ _ _ _ _ _ _ _ _ _ _ _ (i_p0 _ I) (i_p1 _ I) F Pr) as (K0 & K1 & F0 & F1).
  pose proof (process_inv _ _ _ _ _ _ _ _ _ _ Pr) as (Ch & _).
  apply charge_all_inv in Ch as (_ & _ & Z0 & Z1 & _); [|exact (i_p0 _ I)|exact (i_p1 _ I)|lia|lia].
  exists a0, a1, os. split; [reflexivity|]. split; [exact L|]. cbv zeta. cbn [o_fee0 o_fee1].
  assert (SP : 0 < supply (pool st)).
  { pose proof (get_le_total _ w (i_lp _ I)). rewrite (i_sum _ I) in *. lia. }
  destruct (pow_split _ (i_p0 _ I)) as (_ & W0 & _). destruct (pow_split _ (i_p1 _ I)) as (_ & W1 & _).
  rewrite E0 in K0. rewrite E1 in K1.
  destruct (refund_part y0 (r0 (pool st) + lying false os) f0 (p0 (pool st)) n (supply (pool st)) ratio g0 a0) as (A & A'); try assumption; try lia; try exact (i_p0 _ I); [nia|].
  destruct (refund_part y1 (r1 (pool st) + lying true os) f1 (p1 (pool st)) n (supply (pool st)) ratio g1 a1) as (B & B'); try assumption; try lia; try exact (i_p1 _ I); [nia|].
  split; [exact A|]. split; [exact A'|]. split; [exact B|]. split; [exact B'|]. split; [exact N|].
  unfold close. cbn [pool set_pools lp supply]. split; [apply get_set_same|]. split; [reflexivity|exact M].
Qed.

(** ** C101: the orders on record and the orders in the book *)

Lemma in_existsb k ks : In k ks -> existsb (Z.eqb k) ks = true.
Proof. intros H. apply existsb_exists. exists k. split; [exact H|apply Z.eqb_refl]. Qed.
Lemma firstn_In {A} n : forall (l : list A) x, In x (firstn n l) -> In x l.
Proof.
  induction n as [|n IH]; intros [|y l] x H; cbn in H; try contradiction. destruct H as [->|H]; [left; reflexivity|right; exact (IH _ _ H)].
Qed.
Lemma find_put_keeps k j o (d : book) : Amap.find k d <> None -> Amap.find k (Amap.put j o d) <> None.
Proof.
  intros H. destruct (Z.eq_dec j k) as [->|N]; [rewrite Amap.find_put_same; discriminate|].
  rewrite Amap.find_put_other by congruence. exact H.
Qed.

(** A message keeps the record and the book in step, except when it takes the recorded orders out of the book and
    places none: then it keeps the record, and none of the recorded orders exists. *)
Theorem c101_in_step : forall st de m st' o, in_step st -> dstep de m st = Some (st', o) ->
  in_step st' \/
  trading m /\ keys (ob st) <> [] /\ o_posts o = [] /\ keys (ob st') = keys (ob st) /\
  forall k, In k (keys (ob st')) -> Amap.find k (dex st') = None.
Proof.
  intros st de m st' o S H.
  assert (T : trading m \/ ~ trading m) by (destruct m; cbn; auto). destruct T as [T|T].
  - pose proof H as H0. apply trading_settled in H as (ts & x0 & x1 & y0 & y1 & ps1 & n0 & n1 & ps & _ & _ & Se); [|exact T].
    destruct Se as [_ _ (os & d1 & C & _ & _ & _ & _ & W & _) _ _].
    pose proof (cancel_dex _ _ _ _ C) as D. destruct (o_posts o) as [|w r] eqn:Ew.
    + destruct W as (_ & _ & Ek & _ & _ & Ed). destruct (keys (ob st)) as [|k ks] eqn:Eks.
      * left. intros k J. rewrite Ek in J. contradiction.
      * right. split; [exact T|]. split; [discriminate|]. split; [reflexivity|]. split; [exact Ek|].
        intros j J. rewrite Ek in J. rewrite Ed, (D j), (in_existsb _ _ J). reflexivity.
    + destruct W as (_ & _ & _ & _ & _ & _ & _ & Ek & _). left. intros k J. rewrite Ek in J. apply firstn_In in J.
      apply find_key in J as (x & ->). discriminate.
  - left. destruct m; try (exfalso; exact (T Logic.I)); cbn [dstep] in H.
    + unfold update_ob in H. unguard H G1. unguard H G2. unguard H G3. unbind H as [os d] E. unguard H G4. unbind H as k0 E1. unbind H as k1 E2.
      injection H as <- _. intros k J. cbn [ob keys dex] in *. destruct (match v_enable u with Some false => true | _ => false end); [contradiction|].
      injection E as _ <-. exact (S k J).
    + unguard H C. unbind H as [s o'] E. injection H as <- _. exact S.
    + unbind H as od E. unguard H G. injection H as <- _. intros k J. cbn [ob dex] in *. apply find_put_keeps. exact (S k J).
Qed.

(** Once an order on record is missing nothing ever repairs it: nobody can deposit, withdraw, swap or sync, the owner
    cannot switch the book off, and the funds stay. *)
Lemma stuck_fails de m st : stuck st -> trading m \/ disables m -> dstep de m st = None.
Proof.
  intros (k & J & F) T. pose proof (lookup_missing _ _ _ J F) as L.
  destruct (dstep de m st) as [[st' o]|] eqn:H; [|reflexivity]. exfalso. destruct T as [T|T].
  - apply trading_settled in H as (ts & x0 & x1 & y0 & y1 & ps1 & n0 & n1 & ps & O & _); [|exact T].
    apply open_book_inv in O as (os & L' & _). congruence.
  - destruct m; try contradiction. cbn [disables dstep] in *. unfold update_ob in H. rewrite T in H. unguard H G1. unguard H G2. unguard H G3.
    unbind H as [os d] E. apply cancel_lookup in E as (L' & _). congruence.
Qed.
Lemma stuck_step de m st st' o : stuck st -> dstep de m st = Some (st', o) ->
  stuck st' /\ keys (ob st') = keys (ob st) /\ supply (pool st') = supply (pool st) /\
  r0 (pool st) <= r0 (pool st') /\ r1 (pool st) <= r1 (pool st').
Proof.
  intros S H. pose proof S as (k & J & F).
  assert (T : trading m \/ ~ trading m) by (destruct m; cbn; auto). destruct T as [T|T].
  { rewrite (stuck_fails _ _ _ S (or_introl T)) in H. discriminate H. }
  destruct m; try (exfalso; exact (T Logic.I)).
  - assert (De : v_enable u = Some false \/ v_enable u <> Some false) by (destruct (v_enable u) as [[|]|]; auto; right; discriminate).
    destruct De as [De|De]. { rewrite (stuck_fails de (DUpdateOb sender u) _ S (or_intror De)) in H. discriminate H. }
    cbn [dstep] in H. unfold update_ob in H. unguard H G1. unguard H G2. unguard H G3. unbind H as [os d] E. unguard H G4.
    unbind H as k0 E1. unbind H as k1 E2. injection H as <- _.
    replace (match v_enable u with Some false => true | _ => false end) with false in * by (destruct (v_enable u) as [[|]|]; congruence).
    injection E as <- <-. apply add128_Some in E1 as (-> & _). apply add128_Some in E2 as (-> & _).
    split; [exists k; cbn; auto|]. split; [reflexivity|]. split; [reflexivity|]. cbn [pool set_balances r0 r1]. cbn. lia.
  - cbn [dstep] in H. unguard H C. unbind H as [s o'] E. injection H as <- _. cbn [ob pool dex].
    split; [exists k; auto|]. split; [reflexivity|].
    split; [exact (proj2 (proj2 (proj2 (proj2 (proj2 (proj2 (config_keeps _ _ _ _ _ C E)))))))|].
    destruct m; try discriminate C; cbn [step] in E; unguard E G || idtac.
    all: try (unbind E as p Ep). all: injection E as <- _; cbn; try lia.
    apply add128_Some in Ep as (-> & _). bools. destruct one; lia.
  - cbn [dstep] in H. unbind H as od E. unguard H G. injection H as <- _. cbn [ob pool dex].
    split; [|split; [reflexivity|split; [reflexivity|lia]]]. exists k. split; [exact J|].
    cbn [ob dex]. rewrite Amap.find_put_other; [exact F|]. intros ->. congruence.
Qed.
Theorem c101_for_ever : forall st, stuck st -> forall l,
  let st' := drun st l in
  stuck st' /\ keys (ob st') = keys (ob st) /\ supply (pool st') = supply (pool st) /\
  r0 (pool st) <= r0 (pool st') /\ r1 (pool st) <= r1 (pool st') /\
  forall de m, trading m \/ disables m -> dstep de m st' = None.
Proof.
  intros st S l. cbv zeta.
  enough (stuck (drun st l) /\ keys (ob (drun st l)) = keys (ob st) /\ supply (pool (drun st l)) = supply (pool st) /\
          r0 (pool st) <= r0 (pool (drun st l)) /\ r1 (pool st) <= r1 (pool (drun st l))) as (A & B & C & D & E).
  { repeat (split; [assumption|]). intros de m T. exact (stuck_fails _ _ _ A T). }
  revert st S. induction l as [|[e m] l IH]; intros st S; [cbn; auto with zarith|].
  change (drun st ((e, m) :: l)) with (drun (dexec st (e, m)) l). unfold dexec. cbn [fst snd].
  destruct (dstep e m st) as [[s' o]|] eqn:E; [|exact (IH _ S)].
  pose proof (stuck_step _ _ _ _ _ S E) as (S' & A & B & C & D). destruct (IH _ S') as (A1 & A2 & A3 & A4 & A5).
  split; [exact A1|]. split; [congruence|]. split; [congruence|]. lia.
Qed.

(** ** The filled orders a message finds (specification) *)

(** The orders on record together with the trade noted when they were placed *)
Definition fills (st : dstate) (os : list order) : list order :=
  os ++ match delayed (ob st) with Some o => [o] | None => [] end.
(** what one side has received, and what it has sold given the size its orders were placed with *)
Definition received (b : bool) (l : list order) : Z :=
  fold_right Z.add 0 (map taker (filter (fun o => eqb (buy o) b) l)).
Definition sold (b : bool) (size : Z) (l : list order) : Z :=
  fold_right Z.add 0 (map (fun o => Z.max 0 (size - maker o)) (filter (fun o => eqb (buy o) b) l)).
(** the fee on an amount sold: the fee-share recipient's part and the maker's part, each rounded down *)
Definition book_fee (e : env) (s : state) (amount prec : Z) : Z :=
  let w := 10 ^ (18 - prec) in
  let tf := out_fee (par s) * (amount * w) / 10 ^ 18 in
  let sh := match fshare s with Some b => tf * (b * 10 ^ 18 / 10000) / 10 ^ 18 | None => 0 end in
  let mk := if maker_on (fees e) then (tf - sh) * maker_rate (fees e) / 10 ^ 18 else 0 in
  sh / w + mk / w.

Lemma sum_in_received b l : sum_in b l = received b l.
Proof. unfold received. induction l as [|o r IH]; [reflexivity|]. cbn. rewrite IH. destruct (eqb (buy o) b); cbn; lia. Qed.
Lemma sum_out_sold b z l : sum_out b z l = sold b z l.
Proof. unfold sold. induction l as [|o r IH]; [reflexivity|]. cbn. rewrite IH. unfold ssub. destruct (eqb (buy o) b); cbn; lia. Qed.
Lemma sold_nonneg b z l : 0 <= sold b z l.
Proof. unfold sold. induction l as [|o r IH]; [cbn; lia|]. cbn. destruct (eqb (buy o) b); cbn; lia. Qed.
Lemma fetch_inv st os flp ts : fetch_trades (ob st) os (p0 (pool st)) (p1 (pool st)) flp = Some ts ->
  let l := fills st os in
  match sizes (ob st) with
  | None => l = [] /\ ts = []
  | Some (s0, s1) =>
      let w0 := 10 ^ (18 - p0 (pool st)) in let w1 := 10 ^ (18 - p1 (pool st)) in
      let buys := if received true l =? 0 then [] else [mkTrade true (received true l * w0) (sold true s1 l * w1)] in
      let sells := if received false l =? 0 then [] else [mkTrade false (received false l * w1) (sold false s0 l * w0)] in
      ts = if flp then sells ++ buys else buys ++ sells
  end.
Proof.
  unfold fetch_trades, fills. cbv zeta. destruct (os ++ _) as [|o0 r] eqn:Ea.
  { intros [= <-]. destruct (sizes (ob st)) as [[s0 s1]|]; [|auto]. cbn. destruct flp; reflexivity. }
  rewrite <- Ea. clear Ea. intros H. unbind H as [s0 s1] E. unbind H as i0 E0. unbind H as o1 E1. unbind H as i1 E2.
  unbind H as o0' E3. unbind H as di0 E4. unbind H as do1 E5. unbind H as di1 E6. unbind H as do0 E7.
  injection H as <-. apply u128_Some in E0 as (-> & _). apply u128_Some in E1 as (-> & _). apply u128_Some in E2 as (-> & _). apply u128_Some in E3 as (-> & _).
  apply with_prec_inv in E4 as (-> & _). apply with_prec_inv in E5 as (-> & _). apply with_prec_inv in E6 as (-> & _). apply with_prec_inv in E7 as (-> & _).
  rewrite !sum_in_received, !sum_out_sold. reflexivity.
Qed.

(** ** C105: a tie between what one asset received and sold stops the pair *)

Theorem c105_tie : forall st de m os s0 s1, trading m ->
  lookup (keys (ob st)) (dex st) = Some os -> sizes (ob st) = Some (s0, s1) ->
  let l := fills st os in
  received true l <> 0 -> received false l <> 0 ->
  (if flip de then received false l = sold true s1 l else received true l = sold false s0 l) ->
  dstep de m st = None.
Proof.
  intros st de m os s0 s1 T L S. cbv zeta. intros R0 R1 Eq.
  destruct (dstep de m st) as [[st' o]|] eqn:H; [exfalso|reflexivity].
  apply trading_settled in H as (ts & x0 & x1 & y0 & y1 & ps1 & n0 & n1 & ps & O & Pr & _); [|exact T].
  apply open_book_inv in O as (os' & L' & F & _). rewrite L in L'. injection L' as <-.
  apply fetch_inv in F. cbv zeta in F. rewrite S in F.
  apply Z.eqb_neq in R0, R1. rewrite R0, R1 in F. cbn [app] in F.
  assert (C : combine ts = None).
  { subst ts. destruct (flip de); cbn [combine t_in t_out]; rewrite Eq, Z.ltb_irrefl; reflexivity. }
  unfold process in Pr. destruct ts as [|t r]; [destruct (flip de); discriminate F|].
  unbind Pr as [[[u0 u1] g0] g1] E. rewrite C in Pr. discriminate Pr.
Qed.

(** ** C108: the fee of filled orders *)

Lemma charge_fee e s t x prec y sa ma amount : 0 <= prec <= 18 -> t_out t = amount * 10 ^ (18 - prec) ->
  charge e s t x prec = Some (y, sa, ma) -> sa + ma = book_fee e s amount prec.
Proof.
  intros P T H. apply charge_inv in H as (tf & sh & mk & Et & _ & _ & _ & ES & EM & _ & _ & _ & -> & -> & _); [|exact P].
  unfold book_fee. cbv zeta. change (10 ^ 18) with DEC. rewrite <- T, <- Et.
  assert (E : sh = match fshare s with Some b => tf * (b * DEC / 10000) / DEC | None => 0 end) by (destruct (fshare s); exact ES).
  rewrite <- E. assert (E2 : mk = if maker_on (fees e) then (tf - sh) * maker_rate (fees e) / DEC else 0) by (destruct (maker_on (fees e)); exact EM).
  rewrite <- E2. reflexivity.
Qed.
Theorem c108_fee : forall st de m st' o, dreach st -> trading m -> dstep de m st = Some (st', o) ->
  exists os, lookup (keys (ob st)) (dex st) = Some os /\
  let l := fills st os in
  match sizes (ob st) with
  | None => l = [] /\ o_fee0 o = 0 /\ o_fee1 o = 0
  | Some (s0, s1) =>
      o_fee0 o = (if received false l =? 0 then 0 else book_fee (base de) (pool st) (sold false s0 l) (p0 (pool st))) /\
      o_fee1 o = (if received true l =? 0 then 0 else book_fee (base de) (pool st) (sold true s1 l) (p1 (pool st)))
  end.
Proof.
  intros st de m st' o R T H. apply dreach_good in R. pose proof (g_inv _ R) as I.
  apply trading_settled in H as (ts & x0 & x1 & y0 & y1 & ps1 & n0 & n1 & ps & O & Pr & _); [|exact T].
  apply open_book_inv in O as (os & L & F & _). exists os. split; [exact L|]. cbv zeta.
  apply fetch_inv in F. cbv zeta in F. apply process_inv in Pr as (Pr & _).
  destruct (sizes (ob st)) as [[s0 s1]|].
  2: { destruct F as (F & ->). injection Pr as _ _ <- <-. auto. }
  set (l := fills st os) in *.
  destruct (received true l =? 0) eqn:Zt, (received false l =? 0) eqn:Zf; cbn [app] in F.
  - replace ts with (@nil trade) in Pr by (destruct (flip de); congruence). injection Pr as _ _ <- <-. auto.
  - replace ts with [mkTrade false (received false l * 10 ^ (18 - p1 (pool st))) (sold false s0 l * 10 ^ (18 - p0 (pool st)))] in Pr by (destruct (flip de); congruence).
    cbn [charge_all t_buy] in Pr. unbind Pr as [[y sa] ma] E. injection Pr as _ _ <- <-. split; [|reflexivity].
    rewrite Z.add_0_r. refine (charge_fee _ _ _ _ _ _ _ _ _ (i_p0 _ I) _ E); reflexivity.
  - replace ts with [mkTrade true (received true l * 10 ^ (18 - p0 (pool st))) (sold true s1 l * 10 ^ (18 - p1 (pool st)))] in Pr by (destruct (flip de); congruence).
    cbn [charge_all t_buy] in Pr. unbind Pr as [[y sa] ma] E. injection Pr as _ _ <- <-. split; [reflexivity|].
    rewrite Z.add_0_r. refine (charge_fee _ _ _ _ _ _ _ _ _ (i_p1 _ I) _ E); reflexivity.
  - destruct (flip de); subst ts; cbn [charge_all t_buy] in Pr; unbind Pr as [[y sa] ma] E; unbind Pr as [[[z0 z1] g0] g1] E'; injection Pr as _ _ <- <-;
      unbind E' as [[y' sa'] ma'] E2; injection E' as _ _ <- <-; rewrite !Z.add_0_r.
    + split; [refine (charge_fee _ _ _ _ _ _ _ _ _ (i_p0 _ I) _ E); reflexivity|refine (charge_fee _ _ _ _ _ _ _ _ _ (i_p1 _ I) _ E2); reflexivity].
    + split; [refine (charge_fee _ _ _ _ _ _ _ _ _ (i_p0 _ I) _ E2); reflexivity|refine (charge_fee _ _ _ _ _ _ _ _ _ (i_p1 _ I) _ E); reflexivity].
Qed.
(** which is never more than the pair's highest fee on what was sold *)
Lemma book_fee_bound e s amount prec : inv s -> fees_ok e -> 0 <= amount -> 0 <= prec <= 18 ->
  0 <= book_fee e s amount prec /\ book_fee e s amount prec * 10 ^ 18 <= out_fee (par s) * amount.
Proof.
  intros I F A P. unfold book_fee. cbv zeta. change (10 ^ 18) with DEC. destruct (pow_split _ P) as (_ & W & _).
  remember (10 ^ (18 - prec)) as w eqn:Dw. clear Dw. pose proof DEC_pos as D. unfold fees_ok in F. change (10 ^ 18) with DEC in F.
  assert (O : 0 <= out_fee (par s)) by (destruct (i_par _ I); lia).
  divb (out_fee (par s) * (amount * w)) DEC tf. assert (T0 : 0 <= tf) by nia.
  remember (match fshare s with Some b => tf * (b * DEC / 10000) / DEC | None => 0 end) as sh eqn:ES.
  assert (Sh : 0 <= sh <= tf).
  { pose proof (i_fs _ I) as B. destruct (fshare s) as [b|]; [|lia]. divb (b * DEC) 10000 rt. assert (0 <= rt <= DEC) by nia.
    subst sh. split; [apply Z.div_pos; nia|apply Z.div_le_upper_bound; nia]. }
  remember (if maker_on (fees e) then (tf - sh) * maker_rate (fees e) / DEC else 0) as mk eqn:EM.
  assert (Mk : 0 <= mk <= tf - sh).
  { destruct (maker_on (fees e)); [|lia]. subst mk. split; [apply Z.div_pos; nia|apply Z.div_le_upper_bound; nia]. }
  divb sh w a. divb mk w b. assert (0 <= a) by nia. assert (0 <= b) by nia. split; [lia|].
  assert (K : (a + b) * w <= tf) by nia. assert (K2 : (a + b) * w * DEC <= out_fee (par s) * amount * w) by nia.
  apply Z.mul_le_mono_pos_r with (p := w); [exact W|]. nia.
Qed.
Theorem c108_bound : forall st de m st' o s0 s1, dreach st -> fees_ok (base de) -> trading m -> dstep de m st = Some (st', o) ->
  sizes (ob st) = Some (s0, s1) ->
  exists os, lookup (keys (ob st)) (dex st) = Some os /\
    0 <= o_fee0 o /\ o_fee0 o * 10 ^ 18 <= out_fee (par (pool st)) * sold false s0 (fills st os) /\
    0 <= o_fee1 o /\ o_fee1 o * 10 ^ 18 <= out_fee (par (pool st)) * sold true s1 (fills st os).
Proof.
  intros st de m st' o s0 s1 R Fe T H S. destruct (c108_fee _ _ _ _ _ R T H) as (os & L & K). cbv zeta in K. rewrite S in K.
  apply dreach_good in R. pose proof (g_inv _ R) as I. destruct K as (-> & ->). exists os. split; [exact L|].
  assert (O : 0 <= out_fee (par (pool st))) by (destruct (i_par _ I); lia).
  pose proof (sold_nonneg false s0 (fills st os)) as A. pose proof (sold_nonneg true s1 (fills st os)) as B.
  pose proof (book_fee_bound (base de) _ _ _ I Fe A (i_p0 _ I)). pose proof (book_fee_bound (base de) _ _ _ I Fe B (i_p1 _ I)).
  destruct (received false (fills st os) =? 0), (received true (fills st os) =? 0); nia.
Qed.

(** ** C104: the price a sync records when only one side was filled *)

Theorem c104_one_side : forall st de who st' o os s0 s1 b, dstep de (DSync who) st = Some (st', o) ->
  lookup (keys (ob st)) (dex st) = Some os -> sizes (ob st) = Some (s0, s1) ->
  let l := fills st os in let ps := pst (pool st') in
  received b l <> 0 -> received (negb b) l = 0 ->
  let w0 := 10 ^ (18 - p0 (pool st)) in let w1 := 10 ^ (18 - p1 (pool st)) in
  let got := received b l * (if b then w0 else w1) in
  let gave := if b then sold true s1 l * w1 else sold false s0 l * w0 in
  if (10000000000000 <=? got) && (10000000000000 <=? gave)
  then last ps = if b then got * 10 ^ 18 / gave else gave * 10 ^ 18 / got
  else ps = pst (pool st).
Proof.
  change 10000000000000 with MIN_TRADE_SIZE. intros st de who st' o os s0 s1 b H L S. cbv zeta. intros R0 R1. cbn [dstep] in H.
  apply sync_inv in H as (ts & x0 & x1 & old & y0 & y1 & f0 & f1 & ps & c & k0 & k1 & ob' & d' & ws & H).
  destruct H as (_ & O & N & _ & Pr & _ & _ & -> & _).
  apply open_book_inv in O as (os' & L' & F & _). rewrite L in L'. injection L' as <-.
  apply fetch_inv in F. cbv zeta in F. rewrite S in F. unfold close. destruct c as [[? ?] ?]. cbn [pool set_pools pst].
  set (l := fills st os) in *. apply Z.eqb_neq in R0. apply Z.eqb_eq in R1.
  assert (Et : ts = [mkTrade b (received b l * (if b then 10 ^ (18 - p0 (pool st)) else 10 ^ (18 - p1 (pool st))))
                   (if b then sold true s1 l * 10 ^ (18 - p1 (pool st)) else sold false s0 l * 10 ^ (18 - p0 (pool st)))]).
  { destruct b; cbn [negb] in *; rewrite R0, R1 in F; destruct (flip de); exact F. }
  clear F. revert Et. generalize (received b l * (if b then 10 ^ (18 - p0 (pool st)) else 10 ^ (18 - p1 (pool st)))).
  generalize (if b then sold true s1 l * 10 ^ (18 - p1 (pool st)) else sold false s0 l * 10 ^ (18 - p0 (pool st))).
  intros gave got ->. apply process_inv in Pr as (_ & [(E & [K|(t & C & K)])|(t & price & tot & i1 & C & A1 & A2 & Tp & _ & _ & _ & U)]).
  - discriminate K.
  - injection C as <-. cbn [t_in t_out] in K. destruct (_ && _) eqn:G; [bools; lia|exact E].
  - injection C as <-. cbn [t_in t_out] in A1, A2. destruct (_ && _) eqn:G; [|apply andb_false_iff in G as [G|G]; bools; lia].
    apply update_price_fields in U as (ps1 & M & _ & -> & _). apply move_oracle_inv in M as (_ & _ & _ & ->).
    unfold trade_price in Tp. cbn [t_buy t_in t_out] in Tp. destruct b; apply ddiv256_Some in Tp as (_ & -> & _); reflexivity.
Qed.
(** When both sides were filled, the price recorded is what came in of asset 0 over what came in of asset 1: two
    amounts that belong to different trades (see [c104_refuted]). *)
Theorem c104_two_sides : forall st de who st' o os s0 s1, dstep de (DSync who) st = Some (st', o) ->
  lookup (keys (ob st)) (dex st) = Some os -> sizes (ob st) = Some (s0, s1) ->
  let l := fills st os in let ps := pst (pool st') in
  received true l <> 0 -> received false l <> 0 ->
  let in0 := received true l * 10 ^ (18 - p0 (pool st)) in let in1 := received false l * 10 ^ (18 - p1 (pool st)) in
  if (10000000000000 <=? in0) && (10000000000000 <=? in1) then last ps = in0 * 10 ^ 18 / in1 else ps = pst (pool st).
Proof.
  change 10000000000000 with MIN_TRADE_SIZE. intros st de who st' o os s0 s1 H L S. cbv zeta. intros R0 R1. cbn [dstep] in H.
  apply sync_inv in H as (ts & x0 & x1 & old & y0 & y1 & f0 & f1 & ps & c & k0 & k1 & ob' & d' & ws & H).
  destruct H as (_ & O & N & _ & Pr & _ & _ & -> & _).
  apply open_book_inv in O as (os' & L' & F & _). rewrite L in L'. injection L' as <-.
  apply fetch_inv in F. cbv zeta in F. rewrite S in F. unfold close. destruct c as [[? ?] ?]. cbn [pool set_pools pst].
  set (l := fills st os) in *. apply Z.eqb_neq in R0. apply Z.eqb_neq in R1. rewrite R0, R1 in F. cbn [app] in F.
  revert F. generalize (received true l * 10 ^ (18 - p0 (pool st))) (received false l * 10 ^ (18 - p1 (pool st))) (sold true s1 l * 10 ^ (18 - p1 (pool st)))
    (sold false s0 l * 10 ^ (18 - p0 (pool st))). intros in0 in1 out1 out0 F.
  apply process_inv in Pr as (_ & [(E & [K|(t & C & K)])|(t & price & tot & i1 & C & A1 & A2 & Tp & _ & _ & _ & U)]).
  - congruence.
  - assert (K' : in0 < MIN_TRADE_SIZE \/ in1 < MIN_TRADE_SIZE).
    { subst ts. destruct (flip de); cbn [combine t_in t_out t_buy] in C; destruct (_ <? _); [|destruct (_ <? _)| |destruct (_ <? _)];
        try discriminate C; injection C as <-; cbn [t_in t_out] in K; lia. }
    destruct (_ && _) eqn:G; [bools; lia|exact E].
  - apply update_price_fields in U as (ps1 & M & _ & -> & _). apply move_oracle_inv in M as (_ & _ & _ & ->).
    assert (K : MIN_TRADE_SIZE <= in0 /\ MIN_TRADE_SIZE <= in1 /\ price = in0 * 10 ^ 18 / in1).
    { subst ts. destruct (flip de); cbn [combine t_in t_out t_buy] in C; destruct (_ <? _); [|destruct (_ <? _)| |destruct (_ <? _)];
        try discriminate C; injection C as <-; cbn [t_in t_out] in A1, A2; unfold trade_price in Tp; cbn [t_buy t_in t_out] in Tp;
        apply ddiv256_Some in Tp as (_ & -> & _); auto. }
    destruct K as (K0 & K1 & ->). destruct (_ && _) eqn:G; [reflexivity|apply andb_false_iff in G as [G|G]; bools; lia].
Qed.

(** ** C103: how much of the pool is put into the book *)

Lemma order_size_inv b x z : 1 <= num b -> 0 <= liq b -> 0 <= x -> order_size b x = Some z -> 0 <= z /\ z * num b * (2 * DEC) <= x * liq b.
Proof.
  intros N L X H. unfold order_size in H. unbind H as h E. unbind H as l E'. pose proof DEC_pos as D.
  apply ddiv256_Some in E as (_ & Eh & _). apply dmul256_Some in E' as (El & _). apply ddiv256_Some in H as (_ & Ez & _).
  change TWO_D with (2 * DEC) in Eh. rewrite Z.div_mul_cancel_r in Eh by lia. rewrite Z.div_mul_cancel_r in Ez by lia.
  divb (liq b) 2 q. subst h. divb (x * q) DEC k. subst l. divb k (num b) y. subst z.
  assert (0 <= q) by nia. assert (0 <= k) by nia. assert (0 <= y) by nia. split; [assumption|].
  assert (y * num b <= k) by nia. assert (k * DEC <= x * q) by nia. assert (y * num b * DEC <= x * q) by nia. nia.
Qed.
Lemma construct_length n : forall i p sc a g d x0 x1 s0 s1 ls lb l, construct n i p sc a g d x0 x1 s0 s1 ls lb = Some (Some l) -> length l = n.
Proof.
  induction n as [|n IH]; intros i p sc a g d x0 x1 s0 s1 ls lb l H; cbn [construct] in H; [injection H as <-; reflexivity|].
  unbind H as k0 E1. unbind H as o1 E2. unbind H as sp E3. unbind H as k1 E4. unbind H as o0 E5. unbind H as bp E6.
  destruct (_ || _); [discriminate H|]. unbind H as vs E7. unbind H as vb E8. unbind H as rest E9. destruct rest as [l'|]; [|discriminate H].
  injection H as <-. cbn. rewrite (IH _ _ _ _ _ _ _ _ _ _ _ _ _ E9). reflexivity.
Qed.
Lemma to_post_amount ad q0 q1 price size (b : bool) w : 0 <= (if b then q1 else q0) <= 18 -> to_post ad q0 q1 price size b = Some w ->
  w_buy w = b /\ w_amount w = size / 10 ^ (18 - (if b then q1 else q0)).
Proof.
  intros P H. unfold to_post in H. unbind H as x E1. unbind H as limit E2. cbv zeta in H. unbind H as l E3. unbind H as av E4. unbind H as m E5. unbind H as am E6.
  injection H as <-. cbn [w_buy w_amount]. split; [reflexivity|]. apply u128_Some in E6 as (-> & _). apply dmul256_Some in E5 as (-> & _).
  destruct (pow_split _ P) as (A & B & C). pose proof DEC_pos as D. rewrite Z.mul_assoc, Z.div_mul by lia. rewrite <- C.
  rewrite (Z.mul_comm (10 ^ _) (10 ^ (18 - _))). apply Z.div_mul_cancel_r; lia.
Qed.
Lemma to_posts_shape ad q0 q1 s0 s1 : 0 <= q0 <= 18 -> 0 <= q1 <= 18 -> forall l ws, to_posts ad q0 q1 s0 s1 l = Some ws ->
  let a0 := s0 / 10 ^ (18 - q0) in let a1 := s1 / 10 ^ (18 - q1) in let n := Z.of_nat (length l) in
  posted false ws = n * a0 /\ posted true ws = n * a1 /\ Z.of_nat (length (filter w_buy ws)) = n /\ Z.of_nat (length ws) = 2 * n /\
  Forall (fun w => w_amount w = if w_buy w then a1 else a0) ws.
Proof.
  intros Q0 Q1. induction l as [|[sp bp] r IH]; intros ws H; cbv zeta; cbn [to_posts] in H.
  - injection H as <-. cbn. repeat split; constructor.
  - unbind H as a E1. unbind H as b E2. unbind H as rs E3. injection H as <-.
    apply to_post_amount in E1 as (A1 & A2); [|exact Q0]. apply to_post_amount in E2 as (B1 & B2); [|exact Q1].
    destruct (IH _ eq_refl) as (P0 & P1 & P2 & P3 & P4). cbn [posted filter length]. rewrite A1, B1. cbn [eqb]. cbn [length].
    rewrite !Nat2Z.inj_succ. repeat split; try lia. constructor; [rewrite A1; exact A2|]. constructor; [rewrite B1; exact B2|exact P4].
Qed.
(** the volume that is deployed is never more than what the contract holds at that moment *)
Lemma to_uint_below v p x : 0 <= p <= 18 -> to_uint v p = Some x -> x * 10 ^ (18 - p) <= v /\ 0 <= x.
Proof.
  intros P H. apply to_uint_inv in H as (-> & B & _); [|exact P]. destruct (pow_split _ P) as (_ & W & _). split; [|lia].
  rewrite Z.mul_comm. apply Z.mul_div_le. exact W.
Qed.
Lemma refund_below y p ratio g a : 0 <= p <= 18 -> refund y p ratio = Some (g, a) -> a * 10 ^ (18 - p) <= g.
Proof.
  intros P R. unfold refund in R. unbind R as d E. unbind R as v Ev. injection R as <- <-. apply to_uint_below in Ev as (A & _); [|exact P]. exact A.
Qed.
Lemma to_uint_above v p x : 0 <= p <= 18 -> to_uint v p = Some x -> v < (x + 1) * 10 ^ (18 - p).
Proof.
  intros P H. apply to_uint_inv in H as (-> & B & _); [|exact P]. destruct (pow_split _ P) as (_ & W & _).
  pose proof (Z.mul_succ_div_gt v _ W). lia.
Qed.
Lemma refund_above y p ratio g a : 0 <= p <= 18 -> refund y p ratio = Some (g, a) -> g < (a + 1) * 10 ^ (18 - p).
Proof.
  intros P R. unfold refund in R. unbind R as d E. unbind R as v Ev. injection R as <- <-. exact (to_uint_above _ _ _ P Ev).
Qed.
Lemma swap_fees_nonneg p r ps t x0 x1 off one ms fs res : compute_swap p r ps t x0 x1 off one ms fs = Some res ->
  0 <= maker_fee res /\ 0 <= share_fee res /\ (ms = 0 -> maker_fee res = 0) /\ (fs = 0 -> share_fee res = 0).
Proof.
  intros H. unfold compute_swap in H. step_inv H. injection H as <-. cbn [maker_fee share_fee]. num_inv.
  split; [lia|]. split; [lia|]. split; intros ->; rewrite Z.mul_0_r; reflexivity.
Qed.
Lemma trading_deployed de m st st' o : good st -> trading m -> dstep de m st = Some (st', o) ->
  exists os n0 n1 ps, lookup (keys (ob st)) (dex st) = Some os /\
    settled de (pool st) (ob st) (dex st) (r0 (pool st) + brings false m) (r1 (pool st) + brings true m) (o_fee0 o) (o_fee1 o)
      (pays false m (o_res o)) (pays true m (o_res o)) n0 n1 ps (r0 (pool st')) (r1 (pool st')) (ob st') (dex st') (o_posts o) /\ 0 <= n0 /\ 0 <= n1 /\ scale ps = scale (pst (pool st')) /\
    n0 <= (r0 (pool st) + brings false m + lying false os - o_fee0 o - pays false m (o_res o)) * 10 ^ (18 - p0 (pool st)) /\
    n1 <= (r1 (pool st) + brings true m + lying true os - o_fee1 o - pays true m (o_res o)) * 10 ^ (18 - p1 (pool st)) /\
    (r0 (pool st) + brings false m + lying false os - o_fee0 o - pays false m (o_res o) - 5) * 10 ^ (18 - p0 (pool st)) < n0 /\
    (r1 (pool st) + brings true m + lying true os - o_fee1 o - pays true m (o_res o) - 5) * 10 ^ (18 - p1 (pool st)) < n1.
Proof.
  intros G T H. pose proof (g_inv _ G) as I. pose proof (i_p0 _ I) as P0. pose proof (i_p1 _ I) as P1.
  destruct (pow_split _ P0) as (_ & V0 & _). destruct (pow_split _ P1) as (_ & V1 & _).
  assert (Ch : forall os ts x0 x1 y0 y1 f0 f1 ps, process (base de) (pool st) ts x0 x1 = Some (y0, y1, f0, f1, ps) -> 0 <= x0 -> 0 <= x1 ->
    fetch_trades (ob st) os (p0 (pool st)) (p1 (pool st)) (flip de) = Some ts ->
    0 <= y0 /\ 0 <= y1 /\ y0 <= x0 - f0 * 10 ^ (18 - p0 (pool st)) /\ y1 <= x1 - f1 * 10 ^ (18 - p1 (pool st)) /\
    x0 - (f0 + 2) * 10 ^ (18 - p0 (pool st)) < y0 /\ x1 - (f1 + 2) * 10 ^ (18 - p1 (pool st)) < y1).
  { intros os ts x0 x1 y0 y1 f0 f1 ps Pr X0 X1 F. pose proof (process_exact _ _ _ _ _ _ _ _ _ _ _ _ _ _ _ P0 P1 F Pr).
    apply process_inv in Pr as (Pr & _). apply charge_all_inv in Pr; try assumption. lia. }
  destruct m; try contradiction; cbn [dstep] in H.
  - apply provide_inv in H as (tot & ts & x0 & x1 & e0 & e1 & y0 & y1 & ps1 & share & ps2 & c & k0 & k1 & ob' & d' & ws & f0 & f1 & H).
    cbv zeta in H. destruct H as (D0 & D1 & _ & _ & _ & _ & O & W0 & W1 & Pr & _ & _ & _ & Se & _ & -> & ->).
    apply open_book_inv in O as (os & L & F & _ & _ & X0 & B0 & X1 & B1). apply (Ch os) in Pr as (Y0 & Y1 & Z0 & Z1 & Z2 & Z3); [|lia|lia|exact F].
    apply with_prec_inv in W0 as (E0 & C0). apply with_prec_inv in W1 as (E1 & C1).
    exists os, (y0 + e0), (y1 + e1), ps2. cbn [brings pays o_fee0 o_fee1 o_res o_posts]. split; [exact L|].
    split; [unfold close; destruct c as [[? ?] ?]; exact Se|]. unfold close; try destruct c as [[? ?] ?]; cbn [pool set_pools pst scale]; (split; [nia|]); (split; [nia|]); (split; [reflexivity|]); nia.
  - apply withdraw_inv in H as (ts & x0 & x1 & y0 & y1 & f0 & f1 & ps & ratio & g0 & a0 & g1 & a1 & i1 & am & ga & d & x & ld & xr & k0 & k1 & ob' & d' & ws & H).
    destruct H as (_ & _ & _ & O & Pr & _ & R0 & R1 & S0 & S1 & _ & _ & _ & Se & _ & _ & _ & _ & _ & _ & _ & -> & ->).
    apply open_book_inv in O as (os & L & F & _ & _ & X0 & B0 & X1 & B1). apply (Ch os) in Pr as (Y0 & Y1 & Z0 & Z1 & Z2 & Z3); [|lia|lia|exact F].
    pose proof (refund_above _ _ _ _ _ P0 R0). pose proof (refund_above _ _ _ _ _ P1 R1). apply refund_below in R0; [|exact P0]. apply refund_below in R1; [|exact P1].
    exists os, (y0 - g0), (y1 - g1), ps. cbn [brings pays o_fee0 o_fee1 o_res o_posts]. split; [exact L|].
    split; [rewrite !Z.add_0_r; exact Se|]. unfold close; try destruct c as [[? ?] ?]; cbn [pool set_pools pst scale]; (split; [nia|]); (split; [nia|]); (split; [reflexivity|]); nia.
  - unguard H G0. apply swap_inv in H as (off & b0 & b1 & ts & x0 & x1 & y0 & y1 & f0 & f1 & ps1 & old & fs & res & of_ & ret & spread & comm & mak & shr & tot & ps & c & k0 & k1 & ob' & d' & ws & H).
    cbv zeta in H.
    destruct H as (W & -> & -> & _ & O & _ & _ & _ & Pr & _ & Fs & Cs & Of & Rt & _ & _ & Sh & Mk & _ & _ & _ & _ & N0 & N1 & _ & Se & -> & ->).
    apply open_book_inv in O as (os & L & F & _ & _ & X0 & B0 & X1 & B1). apply (Ch os) in Pr as (Y0 & Y1 & Z0 & Z1 & Z2 & Z3); [|lia|lia|exact F].
    apply with_prec_inv in W as (Eo & C0). apply swap_fees_nonneg in Cs as (Mf & Sf & Mz & Sz).
    unfold outflow in Of. unbind Of as q Eq. apply add256_Some in Eq as (-> & _). apply add256_Some in Of as (-> & _).
    assert (Pa : 0 <= (if one then p0 (pool st) else p1 (pool st)) <= 18) by (destruct one; assumption).
    pose proof (to_uint_above _ _ _ Pa Rt) as Ru. apply to_uint_below in Rt as (Rt & _); [|exact Pa].
    assert (Su : share_fee res < (shr + 1) * 10 ^ (18 - (if one then p0 (pool st) else p1 (pool st)))).
    { unfold fee_share_rate in Fs. destruct (fshare (pool st)); [exact (to_uint_above _ _ _ Pa Sh)|]. injection Fs as <-. rewrite (Sz eq_refl). subst shr. destruct one; lia. }
    assert (Mu : maker_fee res < (mak + 1) * 10 ^ (18 - (if one then p0 (pool st) else p1 (pool st)))).
    { unfold maker_share in Mz. destruct (maker_on _); [exact (to_uint_above _ _ _ Pa Mk)|]. rewrite (Mz eq_refl). subst mak. destruct one; lia. }
    assert (Sh' : shr * 10 ^ (18 - (if one then p0 (pool st) else p1 (pool st))) <= share_fee res).
    { destruct (fshare (pool st)); [apply to_uint_below in Sh as (Sh & _); [exact Sh|exact Pa]|subst shr; lia]. }
    assert (Mk' : mak * 10 ^ (18 - (if one then p0 (pool st) else p1 (pool st))) <= maker_fee res).
    { destruct (maker_on _); [apply to_uint_below in Mk as (Mk & _); [exact Mk|exact Pa]|subst mak; lia]. }
    exists os, (if one then y0 - (dy res + maker_fee res + share_fee res) else y0 + off), (if one then y1 + off else y1 - (dy res + maker_fee res + share_fee res)), ps.
    cbn [brings pays o_fee0 o_fee1 o_res o_posts]. split; [exact L|].
    split; [unfold close; destruct c as [[? ?] ?]; destruct one; cbn [eqb] in *; exact Se|]. split; [exact N0|]. split; [exact N1|].
    split; [unfold close; destruct c as [[? ?] ?]; reflexivity|]. destruct one; cbn [eqb] in *; nia.
  - apply sync_inv in H as (ts & x0 & x1 & old & y0 & y1 & f0 & f1 & ps & c & k0 & k1 & ob' & d' & ws & H).
    destruct H as (_ & O & _ & _ & Pr & _ & Se & -> & ->).
    apply open_book_inv in O as (os & L & F & _ & _ & X0 & B0 & X1 & B1). apply (Ch os) in Pr as (Y0 & Y1 & Z0 & Z1 & Z2 & Z3); [|lia|lia|exact F].
    exists os, y0, y1, ps. cbn [brings pays o_fee0 o_fee1 o_res o_posts]. split; [exact L|].
    split; [rewrite !Z.add_0_r; unfold close; destruct c as [[? ?] ?]; exact Se|]. unfold close; try destruct c as [[? ?] ?]; cbn [pool set_pools pst scale]; (split; [nia|]); (split; [nia|]); (split; [reflexivity|]); nia.
Qed.
Theorem c103_exported : forall st de m st' o, dreach st -> trading m -> dstep de m st = Some (st', o) -> o_posts o <> [] ->
  let n := num (ob st) in
  enabled (ob st) = true /\ Z.of_nat (length (o_posts o)) = 2 * n /\ Z.of_nat (length (filter w_buy (o_posts o))) = n /\
  exists a0 a1, sizes (ob st') = Some (a0, a1) /\ min0 (ob st) <= a0 /\ min1 (ob st) <= a1 /\
    Forall (fun w => w_amount w = if w_buy w then a1 else a0) (o_posts o) /\
    posted false (o_posts o) = n * a0 /\ posted true (o_posts o) = n * a1 /\
    2 * 10 ^ 18 * (n * a0) <= liq (ob st) * (r0 (pool st') - got0 de + n * a0) /\
    2 * 10 ^ 18 * (n * a1) <= liq (ob st) * (r1 (pool st') - got1 de + n * a1).
Proof.
  intros st de m st' o R T H Np. cbv zeta. pose proof (dreach_good _ R) as G. pose proof (g_inv _ G) as I.
  destruct (c107_settlement _ _ _ _ _ T H) as (os' & L' & K0 & K1 & _).
  destruct (trading_deployed _ _ _ _ _ G T H) as (os & n0 & n1 & ps & L & D & N0 & N1 & _ & V0 & V1 & _). apply se_deploy in D.
  rewrite L in L'. injection L' as <-.
  assert (Wp : forall v, when_posted (o_posts o) v = v) by (destruct (o_posts o); [contradiction|reflexivity]).
  rewrite Wp in K0, K1.
  pose proof (g_ob _ G) as Vo. unfold valid_ob in Vo. bools.
  assert (NN : 1 <= num (ob st)) by assumption. assert (LL : 0 <= liq (ob st)) by (unfold MIN_LIQ in *; lia).
  unfold deploy in D. destruct (enabled (ob st)); cbn [negb] in D; [|injection D as D _; congruence].
  unbind D as m0 E1. unbind D as m1 E2. unbind D as s0 E3. unbind D as s1 E4.
  destruct ((s0 <? m0) || (s1 <? m1)) eqn:Mn; [injection D as D _; congruence|]. apply orb_false_iff in Mn as (Mn0 & Mn1). bools.
  unbind D as u0 E5. unbind D as u1 E6. unbind D as [a g] E7. unbind D as y1 E8. unbind D as d E9. unbind D as cc E10.
  destruct cc as [l|]; [|injection D as D _; congruence]. unbind D as ws E11. injection D as Ew Es. subst ws.
  apply construct_length in E10. apply to_posts_shape in E11; [|exact (i_p0 _ I)|exact (i_p1 _ I)]. cbv zeta in E11.
  rewrite E10, Z2Nat.id in E11 by lia. destruct E11 as (P0 & P1 & P2 & P3 & P4).
  apply to_uint_inv in E5 as (U0 & _); [|exact (i_p0 _ I)]. apply to_uint_inv in E6 as (U1 & _); [|exact (i_p1 _ I)].
  rewrite <- U0, <- U1 in *. apply with_prec_inv in E1 as (E1 & _). apply with_prec_inv in E2 as (E2 & _).
  apply order_size_inv in E3 as (S0 & E3); try assumption. apply order_size_inv in E4 as (S1 & E4); try assumption.
  destruct (pow_split _ (i_p0 _ I)) as (_ & W0 & _). destruct (pow_split _ (i_p1 _ I)) as (_ & W1 & _).
  split; [reflexivity|]. split; [exact P3|]. split; [exact P2|]. exists u0, u1. split; [symmetry; exact Es|].
  remember (10 ^ (18 - p0 (pool st))) as w0. remember (10 ^ (18 - p1 (pool st))) as w1. change (10 ^ 18) with DEC. pose proof DEC_pos as DP.
  split. { subst u0. apply Z.div_le_lower_bound; [exact W0|]. lia. }
  split. { subst u1. apply Z.div_le_lower_bound; [exact W1|]. lia. }
  split; [exact P4|]. split; [exact P0|]. split; [exact P1|].
  rewrite P0 in K0. rewrite P1 in K1.
  remember (r0 (pool st) + brings false m + lying false os - o_fee0 o - pays false m (o_res o)) as A0.
  remember (r1 (pool st) + brings true m + lying true os - o_fee1 o - pays true m (o_res o)) as A1.
  replace (r0 (pool st') - got0 de + num (ob st) * u0) with A0 by lia. replace (r1 (pool st') - got1 de + num (ob st) * u1) with A1 by lia.
  assert (B : forall u s w n A, 0 < w -> u = s / w -> s * num (ob st) * (2 * DEC) <= n * liq (ob st) -> n <= A * w ->
    2 * DEC * (num (ob st) * u) <= liq (ob st) * A).
  { clear - LL NN DP. intros u s w n A W E3 Hs Hn. divb s w q. subst u. remember (num (ob st) * (2 * DEC)) as k eqn:Ek. assert (K : 0 < k) by nia.
    rewrite <- Z.mul_assoc, <- Ek in Hs. assert (B1 : q * w * k <= s * k) by nia.
    assert (B2 : n * liq (ob st) <= A * w * liq (ob st)) by nia. apply Z.mul_le_mono_pos_r with (p := w); [exact W|].
    replace (2 * DEC * (num (ob st) * q)) with (k * q) by nia. nia. }
  split; [exact (B _ _ _ _ _ W0 U0 E3 V0)|exact (B _ _ _ _ _ W1 U1 E4 V1)].
Qed.

(** ** C106: configuration of the book *)

Theorem c106_bounds : forall st, dreach st -> let o := ob st in
  1 <= num o <= 15 /\ 10 ^ 16 <= liq o <= 5 * 10 ^ 17 /\ 10 ^ 14 <= adj o <= 3 * 10 ^ 15 /\
  1 <= min0 o <= U128MAX /\ 1 <= min1 o <= U128MAX.
Proof.
  intros st R. cbv zeta. apply dreach_good in R. pose proof (g_ob _ R) as V. pose proof (g_min0 _ R). pose proof (g_min1 _ R).
  unfold valid_ob, MAX_ORDERS, MIN_LIQ, MAX_LIQ, MIN_ADJ, MAX_ADJ in V. bools. lia.
Qed.
(** Only the owner's message changes it, in the fields it names; a sync is for the executor, when there is one. *)
Definition set_field {A} (o : option A) (d : A) : A := match o with Some x => x | None => d end.
Theorem c106_authority : forall st de m st' o, dstep de m st = Some (st', o) ->
  match m with
  | DUpdateOb who u =>
      who = eff_owner (base de) (pool st) /\
      enabled (ob st') = set_field (v_enable u) (enabled (ob st)) /\
      executor (ob st') = (match v_executor u with Some x => Some x | None => if v_remove u then None else executor (ob st) end) /\
      (v_remove u = true -> v_executor u = None) /\
      num (ob st') = set_field (v_num u) (num (ob st)) /\ min0 (ob st') = set_field (v_min0 u) (min0 (ob st)) /\
      min1 (ob st') = set_field (v_min1 u) (min1 (ob st)) /\ liq (ob st') = set_field (v_liq u) (liq (ob st)) /\
      adj (ob st') = set_field (v_adj u) (adj (ob st))
  | _ =>
      same_cfg (ob st) (ob st') /\
      match m with DSync who => (match executor (ob st) with Some x => who = x | None => True end) | _ => True end
  end.
Proof.
  intros st de m st' o H. assert (T : trading m \/ ~ trading m) by (destruct m; cbn; auto). destruct T as [T|T].
  - pose proof H as H'. apply trading_settled in H as (ts & x0 & x1 & y0 & y1 & ps1 & n0 & n1 & ps & _ & _ & Se); [|exact T].
    pose proof (se_cfg _ _ _ _ _ _ _ _ _ _ _ _ _ _ _ _ _ _ Se) as C.
    destruct m; try contradiction; (split; [exact C|]); try exact Logic.I.
    cbn [dstep] in H'. unfold sync in H'. cbv zeta in H'. unguard H' G. destruct (executor (ob st)); [bools; exact G|exact Logic.I].
  - destruct m; try (exfalso; exact (T Logic.I)); cbn [dstep] in H.
    + unfold update_ob in H. unguard H G1. unguard H G2. unguard H G3. unbind H as [os d] E. unguard H G4. unbind H as k0 E1. unbind H as k1 E2.
      injection H as <- _. cbn [ob enabled executor num min0 min1 liq adj]. bools. split; [exact G1|]. split; [reflexivity|]. split; [reflexivity|].
      split; [|repeat split; reflexivity]. intros Rm. rewrite Rm in G2. cbn [negb orb] in G2. destruct (v_executor u); [discriminate G2|reflexivity].
    + unguard H C. unbind H as [s o'] E. injection H as <- _. split; [repeat split|exact Logic.I].
    + unbind H as od E. unguard H G. injection H as <- _. split; [repeat split|exact Logic.I].
Qed.

(** ** C112: switching the book off *)

(** Everything that lies in the book comes back, the record is emptied, and no fee is taken. *)
Theorem c112_disable : forall st de who u st' o, dstep de (DUpdateOb who u) st = Some (st', o) -> v_enable u = Some false ->
  exists os, lookup (keys (ob st)) (dex st) = Some os /\ enabled (ob st') = false /\ keys (ob st') = [] /\
    r0 (pool st') = r0 (pool st) + lying false os /\ r1 (pool st') = r1 (pool st) + lying true os /\
    supply (pool st') = supply (pool st) /\ lp (pool st') = lp (pool st) /\ pst (pool st') = pst (pool st) /\
    o_fee0 o = 0 /\ o_fee1 o = 0 /\
    forall k, Amap.find k (dex st') = if existsb (Z.eqb k) (keys (ob st)) then None else Amap.find k (dex st).
Proof.
  intros st de who u st' o H D. cbn [dstep] in H. unfold update_ob in H. rewrite D in H.
  unguard H G1. unguard H G2. unguard H G3. unbind H as [os d] E. unguard H G4. unbind H as k0 E1. unbind H as k1 E2.
  injection H as <- <-. exists os. pose proof (cancel_dex _ _ _ _ E) as Dx. apply cancel_lookup in E as (L & _).
  apply add128_Some in E1 as (-> & _). apply add128_Some in E2 as (-> & _).
  split; [exact L|]. repeat (split; [reflexivity|]). exact Dx.
Qed.

(** ** C111: queries announce what the messages do *)

Lemma u128_ok z : 0 <= z <= U128MAX -> u128 z = Some z.
Proof. intros H. apply u128_Some. auto. Qed.
Lemma u256_ok z : 0 <= z <= U256MAX -> u256 z = Some z.
Proof. intros H. apply u256_Some. auto. Qed.
Lemma open_book_attached de st a0 a1 ts x0 x1 : open_book de st (r0 (pool st) + a0) (r1 (pool st) + a1) a0 a1 = Some (ts, x0, x1) ->
  0 <= p0 (pool st) <= 18 -> 0 <= p1 (pool st) <= 18 -> 0 <= r0 (pool st) -> 0 <= r1 (pool st) -> 0 <= a0 -> 0 <= a1 ->
  open_book de st (r0 (pool st)) (r1 (pool st)) 0 0 = Some (ts, x0, x1).
Proof.
  intros H P0 P1 R0 R1 A0 A1. apply open_book_inv in H as (os & L & F & B0 & B1 & E0 & X0 & E1 & X1).
  destruct (pow_split _ P0) as (_ & W0 & _). destruct (pow_split _ P1) as (_ & W1 & _).
  unfold open_book. cbv zeta. rewrite L. cbv iota beta. rewrite F. cbv iota beta.
  assert (Q0 : x0 = (r0 (pool st) + lying false os) * 10 ^ (18 - p0 (pool st))) by nia.
  assert (Q1 : x1 = (r1 (pool st) + lying true os) * 10 ^ (18 - p1 (pool st))) by nia.
  assert (T0 : 0 <= r0 (pool st) + lying false os) by nia. assert (T1 : 0 <= r1 (pool st) + lying true os) by nia.
  unfold add128. rewrite !u128_ok by lia. cbv iota beta. unfold with_prec. rewrite <- Q0, <- Q1. rewrite !u256_ok by lia.
  cbv iota beta. rewrite !Z.mul_0_l. change (u256 0) with (Some 0). cbv iota beta. unfold sub256.
  rewrite !Z.sub_0_r, !u256_ok by lia. reflexivity.
Qed.

Theorem c111_share : forall st de w n imb mins st' o a0 a1, dstep de (DWithdraw w n imb mins) st = Some (st', o) ->
  o_res o = OWithdraw a0 a1 -> dquery_share de st n = Some (a0, a1).
Proof.
  intros st de w n imb mins st' o a0 a1 H E. cbn [dstep] in H. unfold withdraw in H. cbv zeta in H. unguard H G.
  unbind H as [[ts x0] x1] E1. unbind H as [[[[y0 y1] f0] f1] ps] E2. unguard H G2. unbind H as ratio E3.
  unbind H as [g0 b0] E4. unbind H as [g1 b1] E5. unbind H as n0 E6. unbind H as n1 E7. unguard H G3. unguard H G4.
  unbind H as [[[[k0 k1] ob'] d'] ws] E8. unbind H as i1 E9. unbind H as [am ga] E10. unbind H as d E11. unbind H as x E12.
  unbind H as left E13. unbind H as ld E14. unbind H as xr E15. injection H as _ <-. cbn [o_res] in E. injection E as <- <-.
  unfold dquery_share. cbv zeta. rewrite E1. cbv iota beta. rewrite E2. cbv iota beta. rewrite E3. cbv iota beta. rewrite E4. cbv iota beta. rewrite E5. reflexivity.
Qed.
Theorem c111_provide : forall st de w d0 d1 tol ml st' o share, dreach st -> dstep de (DProvide w d0 d1 tol ml) st = Some (st', o) ->
  o_res o = OProvide share -> dquery_simulate_provide de st d0 d1 tol = Some share.
Proof.
  intros st de w d0 d1 tol ml st' o share R H E. apply dreach_good in R. pose proof (g_inv _ R) as I. cbn [dstep] in H.
  apply provide_inv in H as (tot & ts & x0 & x1 & e0 & e1 & y0 & y1 & ps1 & sh & ps2 & c & k0 & k1 & ob' & d' & ws & f0 & f1 & H).
  cbv zeta in H. destruct H as (D0 & D1 & Rg & Tt & _ & _ & O & W0 & W1 & Pr & Sh & _ & _ & _ & _ & _ & ->).
  injection E as ->. apply open_book_attached in O; try assumption; try apply I.
  unfold dquery_simulate_provide. cbv zeta. rewrite Tt. cbv iota beta. rewrite O. cbv iota beta. rewrite Pr. cbv iota beta. rewrite Rg. cbv iota beta.
  rewrite W0. cbv iota beta. rewrite W1. cbv iota beta. rewrite Sh. reflexivity.
Qed.
Lemma newton_d_zero x0 x1 a g : x0 * x1 = 0 -> newton_d x0 x1 a g = None.
Proof.
  intros Z0. unfold newton_d, geometric_mean. unfold dmul256 at 1. rewrite Z0. change (0 / DEC) with 0. change (u256 0) with (Some 0). cbv iota beta.
  change (dmul256 TWO_D (dsqrt 0)) with (Some 0). cbv iota beta. unfold MAX_ITER. cbn [newton_d_from].
  destruct (f 0 x0 x1 a g) as [v|] eqn:E; [|reflexivity]. exfalso. unfold f in E. unbind E as m0 E1. unbind E as d2 E2.
  change (ssq 0) with (Some 0) in E2. injection E2 as <-. unbind E as pr E3. unbind E as ag E4. unbind E as kn E5. unbind E as g1 E6. unbind E as k0 E7.
  discriminate E7.
Qed.
Theorem c111_simulation : forall st de one offer belief ms st' o ret spread comm mak shr, dreach st ->
  dstep de (DSwap one offer belief ms) st = Some (st', o) -> o_res o = OSwap ret spread comm mak shr ->
  dquery_simulation de st one offer = Some (ret, spread, comm).
Proof.
  intros st de one offer belief ms st' o ret spread comm mak shr R H E. apply dreach_good in R. pose proof (g_inv _ R) as I. cbn [dstep] in H. unguard H G0.
  apply swap_inv in H as (off & b0 & b1 & ts & x0 & x1 & y0 & y1 & f0 & f1 & ps1 & old & fs & res & of_ & ret' & spread' & comm' & mak' & shr' & tot & ps & c & k0 & k1 & ob' & d' & ws & H).
  cbv zeta in H.
  destruct H as (W & -> & -> & _ & O & N1 & N2 & N3 & Pr & _ & Fs & Cs & _ & Rt & Sp & Cm & _ & _ & _ & _ & _ & _ & _ & _ & _ & _ & _ & ->).
  injection E as -> -> -> _ _. bools. apply open_book_attached in O; try apply I; try (destruct one; lia).
  unfold dquery_simulation. cbv zeta. rewrite W. cbv iota beta. rewrite O. cbv iota beta. rewrite Pr. cbv iota beta.
  assert (Y : y0 * y1 <> 0).
  { intros Y. unfold compute_swap in Cs. unbind Cs as z1 E1. unbind Cs as [a g] E2. unbind Cs as d E3.
    rewrite newton_d_zero in E3; [discriminate E3|]. apply dmul256_Some in E1 as (-> & _). apply Z.mul_eq_0 in Y as [-> | ->]; [reflexivity|].
    rewrite Z.mul_0_l. change (0 / DEC) with 0. lia. }
  apply Z.eqb_neq in N1. rewrite N1. replace (y0 =? 0) with false by (symmetry; apply Z.eqb_neq; nia). replace (y1 =? 0) with false by (symmetry; apply Z.eqb_neq; nia).
  cbn [negb andb]. rewrite Fs. cbv iota beta. rewrite Cs. cbv iota beta. rewrite Rt. cbv iota beta. rewrite Sp. cbv iota beta. rewrite Cm. reflexivity.
Qed.

(** ** C113: without the book the pair is the concentrated pair *)

Definition plain (st : dstate) : Prop := enabled (ob st) = false /\ keys (ob st) = [] /\ delayed (ob st) = None.
Definition as_plain (m : dmsg) : option msg :=
  match m with
  | DProvide w d0 d1 tol ml => Some (Provide w d0 d1 tol ml)
  | DWithdraw w n imb None => Some (Withdraw w n imb None)
  | DSwap one offer belief ms => Some (Swap one offer belief ms)
  | DConfig m => if config_msg m then Some m else None
  | _ => None
  end.
(** a state without the trade the concentrated pair keeps for its price history *)
Definition forget (s : state) : state :=
  mkState (r0 s) (r1 s) (p0 s) (p1 s) (nat0 s) (nat1 s) (supply s) (lp s) (par s) (rmp s) (pst s) (c01 s) (c10 s)
    (last_t s) (fshare s) (owner s) (proposal s) (track s) (h0 s) (h1 s) (obs s) None.

Lemma with_prec_ok v p : 0 <= v <= U128MAX -> 0 <= p <= 18 -> with_prec v p = Some (v * 10 ^ (18 - p)).
Proof.
  intros V P. unfold with_prec. apply u256_ok. destruct (pow_split _ P) as (A & B & C).
  assert (10 ^ (18 - p) <= DEC) by nia. assert (U128MAX * DEC <= U256MAX) by (vm_compute; discriminate). nia.
Qed.
Lemma open_plain de st a0 a1 : good st -> plain st -> 0 <= a0 -> 0 <= a1 -> r0 (pool st) + a0 <= U128MAX -> r1 (pool st) + a1 <= U128MAX ->
  open_book de st (r0 (pool st) + a0) (r1 (pool st) + a1) a0 a1 =
  Some ([], r0 (pool st) * 10 ^ (18 - p0 (pool st)), r1 (pool st) * 10 ^ (18 - p1 (pool st))).
Proof.
  intros G (_ & K & D) A0 A1 B0 B1. pose proof (g_inv _ G) as I. pose proof (i_r0 _ I). pose proof (i_r1 _ I).
  unfold open_book. cbv zeta. rewrite K. cbn [lookup]. cbv iota beta. unfold fetch_trades. rewrite D. cbn [app lying]. unfold add128.
  rewrite !Z.add_0_r, !u128_ok by lia. rewrite !with_prec_ok by (try apply I; lia). unfold sub256.
  destruct (pow_split _ (i_p0 _ I)) as (_ & W0 & _). destruct (pow_split _ (i_p1 _ I)) as (_ & W1 & _).
  pose proof (with_prec_ok _ _ (i_r0 _ I) (i_p0 _ I)) as E0. apply with_prec_inv in E0 as (_ & E0).
  pose proof (with_prec_ok _ _ (i_r1 _ I) (i_p1 _ I)) as E1. apply with_prec_inv in E1 as (_ & E1).
  replace ((r0 (pool st) + a0) * 10 ^ (18 - p0 (pool st)) - a0 * 10 ^ (18 - p0 (pool st))) with (r0 (pool st) * 10 ^ (18 - p0 (pool st))) by lia.
  replace ((r1 (pool st) + a1) * 10 ^ (18 - p1 (pool st)) - a1 * 10 ^ (18 - p1 (pool st))) with (r1 (pool st) * 10 ^ (18 - p1 (pool st))) by lia.
  rewrite !u256_ok by assumption. reflexivity.
Qed.
Definition idle (o : obook) : obook :=
  mkOb (enabled o) (executor o) (num o) (min0 o) (min1 o) (liq o) (adj o) (keys o) None None (sizes o).
Lemma settle_plain de st b0 b1 w0 w1 x0 x1 ps : plain st -> 0 <= b0 <= U128MAX -> 0 <= b1 <= U128MAX ->
  settle de (pool st) (ob st) (dex st) b0 b1 0 0 w0 w1 x0 x1 ps =
  do k0 <- sub128 b0 w0; do k1 <- sub128 b1 w1; Some (k0, k1, idle (ob st), dex st, []).
Proof.
  intros (En & K & _) B0 B1. unfold settle, deploy. rewrite En, K. cbn [negb cancel lying]. cbv iota beta.
  unfold sub128 at 1 2, add128. rewrite !Z.sub_0_r, !u128_ok by lia. rewrite !Z.add_0_r. unfold idle. rewrite En, K. reflexivity.
Qed.
Lemma step_forget e m s s' o : config_msg m = true -> step e m s = Some (s', o) -> pend s = None -> forget s' = s'.
Proof.
  intros C H P. pose proof (config_keeps _ _ _ _ _ C H) as (_ & A & _). rewrite P in A. destruct s'. cbn in A |- *. subst. reflexivity.
Qed.

Lemma plain_provide de st w d0 d1 tol ml : good st -> plain st ->
  provide de st w d0 d1 tol ml =
  match PclModel.provide (base de) (pool st) w d0 d1 tol ml with
  | Some (s', r) => Some (mkD (forget s') (idle (ob st)) (dex st), mkOut r [] 0 0)
  | None => None
  end.
Proof.
  intros G P. pose proof (g_inv _ G) as I. pose proof (i_r0 _ I) as R0. pose proof (i_r1 _ I) as R1.
  unfold provide, PclModel.provide. cbv zeta. destruct ((0 <=? d0) && (0 <=? d1) && registered (base de)) eqn:Gd; [|reflexivity]. bools.
  destruct (with_prec (supply (pool st)) LP_PREC) as [tot|]; [|reflexivity].
  rewrite (with_prec_ok (r0 (pool st))) by (try apply I; lia). rewrite (with_prec_ok (r1 (pool st))) by (try apply I; lia).
  unfold add128.
  destruct (u128 (r0 (pool st) + d0)) as [b0|] eqn:E0.
  2: { destruct (with_prec d0 _); [|reflexivity]. destruct (with_prec d1 _); [|reflexivity].
       destruct (calculate_shares _ _ _ _ _ _ _ _ _ _) as [[? ?]|]; [|reflexivity]. destruct (_ <=? _); reflexivity. }
  destruct (u128 (r1 (pool st) + d1)) as [b1|] eqn:E1.
  2: { destruct (with_prec d0 _); [|reflexivity]. destruct (with_prec d1 _); [|reflexivity].
       destruct (calculate_shares _ _ _ _ _ _ _ _ _ _) as [[? ?]|]; [|reflexivity]. destruct (_ <=? _); reflexivity. }
  apply u128_Some in E0 as (-> & B0). apply u128_Some in E1 as (-> & B1).
  rewrite (open_plain de st d0 d1 G P) by lia. cbv iota beta. cbn [process]. cbv iota beta.
  destruct (with_prec d0 (p0 (pool st))) as [e0|] eqn:W0; [|reflexivity].
  destruct (with_prec d1 (p1 (pool st))) as [e1|] eqn:W1; [|reflexivity].
  destruct (calculate_shares _ _ _ _ _ _ _ _ _ _) as [[share ps]|]; [|reflexivity].
  destruct (_ <=? share); [|reflexivity]. destruct (u128 (supply (pool st) + _ + share)) as [sup|]; [|reflexivity].
  destruct (accumulate_prices _ _ _) as [[[c1 c2] c3]|]; [|reflexivity].
  apply with_prec_inv in W0 as (W0 & X0). apply with_prec_inv in W1 as (W1 & X1).
  pose proof (with_prec_ok _ _ B0 (i_p0 _ I)) as Y0. apply with_prec_inv in Y0 as (_ & Y0).
  pose proof (with_prec_ok _ _ B1 (i_p1 _ I)) as Y1. apply with_prec_inv in Y1 as (_ & Y1).
  destruct (pow_split _ (i_p0 _ I)) as (_ & V0 & _). destruct (pow_split _ (i_p1 _ I)) as (_ & V1 & _).
  unfold add256. rewrite !u256_ok by nia. cbv iota beta. rewrite (settle_plain _ _ _ _ _ _ _ _ _ P) by lia.
  unfold sub128. rewrite !Z.sub_0_r, !u128_ok by lia. cbv iota beta.
  unfold close, set_pools, forget. cbn. rewrite (g_track _ G), (g_pend _ G). reflexivity.
Qed.
Lemma plain_withdraw de st w n imb : good st -> plain st ->
  withdraw de st w n imb None =
  match PclModel.withdraw (base de) (pool st) w n imb None with
  | Some (s', r) => Some (mkD (forget s') (idle (ob st)) (dex st), mkOut r [] 0 0)
  | None => None
  end.
Proof.
  intros G P. pose proof (g_inv _ G) as I. pose proof (i_r0 _ I) as R0. pose proof (i_r1 _ I) as R1.
  unfold withdraw, PclModel.withdraw. cbv zeta. destruct (negb (w =? SELF) && (0 <? n) && (n <=? get (lp (pool st)) w)) eqn:Gd; [|reflexivity].
  rewrite (with_prec_ok (r0 (pool st))) by (try apply I; lia). rewrite (with_prec_ok (r1 (pool st))) by (try apply I; lia).
  pose proof (open_plain de st 0 0 G P) as O. rewrite !Z.add_0_r in O. rewrite O by lia. clear O. cbv iota beta. cbn [process]. cbv iota beta.
  destruct (negb imb); [|reflexivity]. destruct (share_ratio _ _) as [ratio|]; [|reflexivity].
  destruct (refund _ (p0 (pool st)) _) as [[g0 a0]|]; [|reflexivity]. destruct (refund _ (p1 (pool st)) _) as [[g1 a1]|]; [|reflexivity].
  destruct (sub256 _ g0) as [n0|]; [|reflexivity]. destruct (sub256 _ g1) as [n1|]; [|reflexivity].
  rewrite (settle_plain _ _ _ _ _ _ _ _ _ P) by lia. rewrite (g_nat0 _ G), (g_nat1 _ G).
  Ltac unsettled := match goal with |- context [can_send true ?a0 && can_send true ?a1] =>
    destruct (can_send true a0 && can_send true a1); [|reflexivity]; destruct (sub128 _ a0); [|reflexivity]; destruct (sub128 _ a1); reflexivity end.
  destruct (dmul256 n1 _) as [i1|]; [|unsettled].
  destruct (amp_gamma _ _) as [[am ga]|]; [|unsettled].
  destruct (newton_d _ _ _ _) as [d|]; [|unsettled].
  destruct (get_xcp _ _) as [x|]; [|unsettled].
  destruct (sub128 (supply _) n) as [left|]; [|unsettled].
  destruct (with_prec left _) as [ld|]; [|unsettled].
  destruct (ddiv256 x ld) as [xr|]; [|unsettled].
  destruct (can_send true a0 && can_send true a1); [|reflexivity]. destruct (sub128 _ a0); [|reflexivity]. destruct (sub128 _ a1); [|reflexivity].
  cbv iota beta. unfold close, set_pools, forget. cbn. rewrite (g_track _ G), (g_pend _ G). reflexivity.
Qed.
Lemma plain_swap de st one offer belief ms : good st -> plain st -> 0 <= offer ->
  swap de st one offer belief ms =
  match PclModel.swap (base de) (pool st) one offer belief ms with
  | Some (s', r) => Some (mkD (forget s') (idle (ob st)) (dex st), mkOut r [] 0 0)
  | None => None
  end.
Proof.
  intros G P Of. pose proof (g_inv _ G) as I. pose proof (i_r0 _ I) as R0. pose proof (i_r1 _ I) as R1.
  unfold swap, PclModel.swap. cbv zeta.
  destruct (with_prec offer (if one then p1 (pool st) else p0 (pool st))) as [off|] eqn:W; [|reflexivity].
  rewrite (with_prec_ok (r0 (pool st))) by (try apply I; lia). rewrite (with_prec_ok (r1 (pool st))) by (try apply I; lia).
  assert (Ad : (exists a, add128 (if one then r1 (pool st) else r0 (pool st)) offer = Some a) \/ add128 (if one then r1 (pool st) else r0 (pool st)) offer = None).
  { destruct (add128 _ _); eauto. }
  destruct Ad as [(a & Ad)|Ad].
  2: { rewrite Ad.
    match goal with |- _ = match ?M with _ => _ end => assert (Em : M = None) end.
    { match goal with |- ?M = None => destruct M as [[s' r]|] eqn:H; [exfalso|reflexivity] end.
      step_inv H. discriminate H. }
    rewrite Em. destruct one; rewrite Ad; reflexivity. }
  assert (Ao : 0 <= a <= U128MAX /\ a = (if one then r1 (pool st) else r0 (pool st)) + offer) by (apply add128_Some in Ad as (A1 & A2); lia).
  assert (O : open_book de st (if one then r0 (pool st) else a) (if one then a else r1 (pool st)) (if one then 0 else offer) (if one then offer else 0) =
    Some ([], r0 (pool st) * 10 ^ (18 - p0 (pool st)), r1 (pool st) * 10 ^ (18 - p1 (pool st)))).
  { rewrite <- (open_plain de st (if one then 0 else offer) (if one then offer else 0) G P) by (destruct one; lia).
    destruct one; [replace (r0 (pool st) + 0) with (r0 (pool st)) by lia|replace (r1 (pool st) + 0) with (r1 (pool st)) by lia]; destruct Ao as (_ & ->); reflexivity. }
  rewrite Ad.
  replace (if one then Some (r0 (pool st)) else add128 (r0 (pool st)) offer) with (Some (if one then r0 (pool st) else a)) by (destruct one; [reflexivity|symmetry; exact Ad]).
  replace (if one then add128 (r1 (pool st)) offer else Some (r1 (pool st))) with (Some (if one then a else r1 (pool st))) by (destruct one; [symmetry; exact Ad|reflexivity]).
  cbv iota beta. rewrite O. cbv iota beta. clear O.
  generalize (r0 (pool st) * 10 ^ (18 - p0 (pool st))). generalize (r1 (pool st) * 10 ^ (18 - p1 (pool st))). intros x1 x0.
  destruct (negb (off =? 0) && negb (x0 =? 0) && negb (x1 =? 0)); [|reflexivity]. cbn [process]. cbv iota beta.
  destruct (calc_last_prices _ _ _ _ _ _) as [old|]; [|reflexivity]. destruct (fee_share_rate _) as [fs|]; [|reflexivity].
  destruct (compute_swap _ _ _ _ _ _ _ _ _ _) as [res|]; [|reflexivity]. destruct (outflow res) as [of_|]; [|reflexivity].
  destruct (add256 _ off) as [n_off|]; [|reflexivity]. destruct (sub256 _ of_) as [n_ask|]; [|reflexivity].
  assert (Pa : 0 <= (if one then p0 (pool st) else p1 (pool st)) <= 18) by (destruct one; apply I).
  set (pa := if one then p0 (pool st) else p1 (pool st)) in *.
  destruct (to_uint (dy res) pa) as [ret|] eqn:Er; [|reflexivity]. destruct (to_uint (spread_fee res) pa) as [spread|]; [|reflexivity].
  destruct (assert_max_spread _ _ _ _ _); [|reflexivity]. destruct (with_prec (supply (pool st)) LP_PREC) as [tot|]; [|reflexivity].
  match goal with |- match ?A with _ => _ end = match (match ?B with _ => _ end) with _ => _ end => replace A with B by (destruct one; reflexivity); destruct B as [ps|]; [|reflexivity] end.
  rewrite (g_nat0 _ G), (g_nat1 _ G). replace (if one then true else true) with true by (destruct one; reflexivity).
  destruct (can_send true ret); [|reflexivity].
  match goal with |- match ?A with _ => _ end = _ => destruct A as [shr|] eqn:Es; [|reflexivity] end.
  match goal with |- match ?A with _ => _ end = _ => destruct A as [mak|] eqn:Em; [|reflexivity] end.
  destruct (accumulate_prices _ _ _) as [[[c1 c2] c3]|]; [|reflexivity]. rewrite (g_pend _ G). cbn [ObservationModel.accumulate ObservationModel.pre_save]. cbv iota beta.
  rewrite (settle_plain _ _ _ _ _ _ _ _ _ P) by (destruct one; lia).
  assert (Br : 0 <= ret) by (apply to_uint_inv in Er; [lia|exact Pa]).
  assert (Bs : 0 <= shr) by (destruct (fshare (pool st)); [apply to_uint_inv in Es; [lia|exact Pa]|injection Es as <-; lia]).
  assert (Bm : 0 <= mak) by (destruct (maker_on _); [apply to_uint_inv in Em; [lia|exact Pa]|injection Em as <-; lia]).
  clear Er Es Em. destruct (to_uint (total_fee res) pa) as [comm|]; [|destruct (_ && _); reflexivity].
  match goal with |- _ = match (match (if ?c then Some ?u else Some ?v) with Some _ => _ | None => _ end) with _ => _ end =>
    replace (if c then Some u else Some v) with (Some (if c then u else v)) by (destruct c; reflexivity) end.
  cbv iota beta.
  assert (Sub : forall v, 0 <= v <= U128MAX -> (do q1 <- sub128 v ret; do q2 <- sub128 q1 mak; sub128 q2 shr) = sub128 v (ret + mak + shr)).
  { intros v V. unfold sub128 at 1. destruct (Z.le_gt_cases (ret + mak + shr) v) as [L|L].
    - rewrite u128_ok by lia. unfold sub128. rewrite u128_ok by lia. f_equal. lia.
    - destruct (u128 (v - ret)) as [q1|] eqn:E1; [apply u128_Some in E1 as (-> & E1)|].
      + unfold sub128 at 1. destruct (u128 (v - ret - mak)) as [q2|] eqn:E2; [apply u128_Some in E2 as (-> & E2)|].
        * unfold sub128. f_equal. lia.
        * symmetry. unfold sub128, u128. destruct (fits _ _) eqn:F; [apply fits_iff in F; lia|reflexivity].
      + symmetry. unfold sub128, u128. destruct (fits _ _) eqn:F; [apply fits_iff in F; lia|reflexivity]. }
  destruct one.
  - specialize (Sub _ R0). destruct (sub128 (r0 (pool st)) ret) as [q1|]; cbv iota beta.
    2: { rewrite <- Sub. reflexivity. }
    destruct (sub128 q1 mak) as [q2|]; cbv iota beta. 2: { rewrite <- Sub. reflexivity. }
    rewrite Sub. destruct (sub128 (r0 (pool st)) (ret + mak + shr)) as [q3|]; [|reflexivity].
    unfold sub128. rewrite Z.sub_0_r, u128_ok by lia. cbv iota beta.
    unfold close, set_pools, forget. cbn. rewrite (g_track _ G), (g_pend _ G). reflexivity.
  - specialize (Sub _ R1). destruct (sub128 (r1 (pool st)) ret) as [q1|]; cbv iota beta.
    2: { rewrite <- Sub. destruct (sub128 a 0); reflexivity. }
    destruct (sub128 q1 mak) as [q2|]; cbv iota beta. 2: { rewrite <- Sub. destruct (sub128 a 0); reflexivity. }
    rewrite Sub. destruct (sub128 (r1 (pool st)) (ret + mak + shr)) as [q3|]; [|destruct (sub128 a 0); reflexivity].
    unfold sub128. rewrite Z.sub_0_r, u128_ok by lia. cbv iota beta.
    unfold close, set_pools, forget. cbn. rewrite (g_track _ G), (g_pend _ G). reflexivity.
Qed.
Lemma plain_step st de m m' : good st -> plain st -> as_plain m = Some m' ->
  dstep de m st =
  match step (base de) m' (pool st) with
  | Some (s', r) => Some (mkD (forget s') (match m with DConfig _ => ob st | _ => idle (ob st) end) (dex st), mkOut r [] 0 0)
  | None => None
  end.
Proof.
  intros R P H. destruct m; try discriminate H.
  - injection H as <-. exact (plain_provide _ _ _ _ _ _ _ R P).
  - destruct mins; [discriminate H|]. injection H as <-. exact (plain_withdraw _ _ _ _ _ R P).
  - injection H as <-. cbn [dstep step]. destruct (0 <=? offer) eqn:G; [|reflexivity]. bools. exact (plain_swap _ _ _ _ _ _ R P G).
  - cbn [as_plain] in H. destruct (config_msg m) eqn:C; [|discriminate H]. injection H as <-. cbn [dstep]. rewrite C.
    destruct (step (base de) m (pool st)) as [[s' r]|] eqn:E; [|reflexivity].
    rewrite (step_forget _ _ _ _ _ C E (g_pend _ R)). reflexivity.
Qed.
Theorem c113_plain : forall st de m m', dreach st -> plain st -> as_plain m = Some m' ->
  dstep de m st =
  match step (base de) m' (pool st) with
  | Some (s', r) => Some (mkD (forget s') (match m with DConfig _ => ob st | _ => idle (ob st) end) (dex st), mkOut r [] 0 0)
  | None => None
  end.
Proof. intros st de m m' R. exact (plain_step st de m m' (dreach_good _ R)). Qed.
(** and it stays that way until the owner switches the book on *)
Theorem c113_stays : forall st de m st' o, plain st -> dstep de m st = Some (st', o) ->
  plain st' \/ exists who u, m = DUpdateOb who u /\ v_enable u = Some true.
Proof.
  intros st de m st' o (En & K & D) H. assert (T : trading m \/ ~ trading m) by (destruct m; cbn; auto). destruct T as [T|T].
  - left. apply trading_settled in H as (ts & x0 & x1 & y0 & y1 & ps1 & n0 & n1 & ps & _ & _ & Se); [|exact T].
    destruct Se as [De (Ce & _) (os & d1 & C & _ & _ & _ & _ & W & _) _ _]. unfold deploy in De. rewrite En in De. injection De as De _. rewrite <- De in W.
    destruct W as (_ & _ & Ek & _ & Ed & _). split; [congruence|]. split; [congruence|exact Ed].
  - destruct m; try (exfalso; exact (T Logic.I)); cbn [dstep] in H.
    + unfold update_ob in H. unguard H G1. unguard H G2. unguard H G3. unbind H as [os d] E. unguard H G4. unbind H as k0 E1. unbind H as k1 E2.
      injection H as <- _. destruct (v_enable u) as [[|]|] eqn:Ev; [right; eauto|left|left]; split; cbn [ob enabled keys delayed orelse]; auto.
    + left. unguard H C. unbind H as [s o'] E. injection H as <- _. split; auto.
    + left. unbind H as od E. unguard H G. injection H as <- _. split; auto.
Qed.

(** ** C110: settling the book keeps the profit *)

Definition healthy (ps : pstate) : Prop := 10 ^ 18 <= xcp ps /\ 10 ^ 18 <= xreal ps /\ xcp ps + 10 ^ 18 <= 2 * xreal ps.
Definition repriced (e : env) (s : state) (ps ps' : pstate) : Prop :=
  ps' = ps \/ exists tot x0 x1 price, update_price (par s) (rmp s) ps (now e) tot x0 x1 price = Some ps'.
Lemma repriced_keeps e s ps ps' : inv s -> f_time (rmp s) <= now e -> repriced e s ps ps' -> 
  (healthy ps -> healthy ps') /\
  (scale ps' = scale ps /\ xreal ps <= xreal ps' \/
   moved (min_delta (par s)) (scale ps) (scale ps') (oracle ps') /\ xcp ps' + DEC < 2 * xreal ps').
Proof.
  intros I T [->|(tot & x0 & x1 & price & U)]; [split; [auto|left; lia]|].
  assert (Md : 0 <= min_delta (par s)) by (apply (i_par _ I)).
  destruct (update_price_profit _ _ _ _ _ _ _ _ _ T Md U) as (A & _ & B). split; [exact A|exact B].
Qed.
Lemma process_repriced e s ts x0 x1 y0 y1 f0 f1 ps : process e s ts x0 x1 = Some (y0, y1, f0, f1, ps) -> repriced e s (pst s) ps.
Proof.
  intros H. apply process_inv in H as (_ & [(-> & _)|(t & price & tot & i1 & _ & _ & _ & _ & _ & _ & _ & U)]); [left; reflexivity|right].
  exists tot, y0, i1, price. exact U.
Qed.
(** Recording the filled orders of a sync never lowers the value of an LP token unless the price scale moves, and
    then at least half of the profit is kept. *)
Theorem c110_sync : forall st de who st' o, dreach st -> dstep de (DSync who) st = Some (st', o) -> f_time (rmp (pool st)) <= now (base de) ->
  let s := pool st in let s' := pool st' in
  supply s' = supply s /\ lp s' = lp s /\
  (scale (pst s') = scale (pst s) /\ xreal (pst s) <= xreal (pst s') \/
   moved (min_delta (par s)) (scale (pst s)) (scale (pst s')) (oracle (pst s')) /\ xcp (pst s') + 10 ^ 18 < 2 * xreal (pst s')).
Proof.
  intros st de who st' o R H T. cbv zeta. apply dreach_good in R. pose proof (g_inv _ R) as I. cbn [dstep] in H.
  apply sync_inv in H as (ts & x0 & x1 & old & y0 & y1 & f0 & f1 & ps & c & k0 & k1 & ob' & d' & ws & H).
  destruct H as (_ & _ & _ & _ & Pr & _ & _ & -> & _). unfold close. destruct c as [[? ?] ?]. cbn [pool set_pools supply lp pst].
  split; [reflexivity|]. split; [reflexivity|]. apply process_repriced in Pr. exact (proj2 (repriced_keeps _ _ _ _ I T Pr)).
Qed.
Theorem c110_healthy : forall st de m st' o, dreach st -> dstep de m st = Some (st', o) -> f_time (rmp (pool st)) <= now (base de) ->
  match m with DWithdraw _ _ _ _ => False | _ => True end -> 0 < supply (pool st) ->
  healthy (pst (pool st)) -> healthy (pst (pool st')) /\ 0 < supply (pool st').
Proof.
  intros st de m st' o R H T Nw S0 Hh. apply dreach_good in R. pose proof (g_inv _ R) as I. destruct m; try contradiction; cbn [dstep] in H.
  - apply provide_inv in H as (tot & ts & x0 & x1 & e0 & e1 & y0 & y1 & ps1 & share & ps2 & c & k0 & k1 & ob' & d' & ws & f0 & f1 & H).
    cbv zeta in H. destruct H as (_ & _ & _ & Tt & _ & _ & _ & _ & _ & Pr & Sh & _ & _ & _ & _ & -> & _).
    unfold close. destruct c as [[? ?] ?]. cbn [pool set_pools pst supply].
    apply process_repriced in Pr. apply (repriced_keeps _ _ _ _ I T) in Pr as (Pr & _). specialize (Pr Hh).
    assert (Sn : 0 <= share) by (pose proof (calculate_shares_inv _ _ _ _ _ _ _ _ _ _ _ _ Sh) as (n1 & a & g & nd & sh & ps3 & _ & _ & _ & _ & _ & _ & _ & _ & _ & _ & Ea); apply to_uint_inv in Ea; [lia|unfold LP_PREC; lia]).
    split; [|destruct (supply (pool st) =? 0); lia].
    apply calculate_shares_inv in Sh as (n1 & a & g & nd & sh & ps3 & _ & _ & _ & _ & _ & _ & Es & _ & _ & (b0 & b1 & ratio & _ & _ & _ & Hps) & _).
    assert (Tn : tot =? 0 = false).
    { apply with_prec_inv in Tt as (-> & _). apply Z.eqb_neq. assert (0 < 10 ^ (18 - LP_PREC)) by reflexivity. nia. }
    rewrite Tn in Es. destruct Es as (o1 & od & q & i1 & pf & _ & _ & _ & _ & _ & _ & _ & _ & ->).
    assert (Rp : repriced (base de) (pool st) ps1 ps2).
    { destruct (_ && _); [|left; exact Hps]. destruct Hps as (sl & price & _ & _ & U). right. eexists _, _, _, _. exact U. }
    exact (proj1 (repriced_keeps _ _ _ _ I T Rp) Pr).
  - unguard H G0. apply swap_inv in H as (off & b0 & b1 & ts & x0 & x1 & y0 & y1 & f0 & f1 & ps1 & old & fs & res & of_ & ret & spread & comm & mak & shr & tot & ps & c & k0 & k1 & ob' & d' & ws & H).
    cbv zeta in H.
    destruct H as (_ & _ & _ & _ & _ & _ & _ & _ & Pr & _ & _ & _ & _ & _ & _ & _ & _ & _ & _ & _ & _ & U & _ & _ & _ & _ & -> & _).
    unfold close. destruct c as [[? ?] ?]. cbn [pool set_pools pst supply]. split; [|exact S0].
    apply process_repriced in Pr. apply (repriced_keeps _ _ _ _ I T) in Pr as (Pr & _). specialize (Pr Hh).
    assert (Rp : repriced (base de) (pool st) ps1 ps).
    { destruct (_ && _); [|left; exact U]. destruct U as (price & i1 & _ & _ & U). right. eexists _, _, _, _. exact U. }
    exact (proj1 (repriced_keeps _ _ _ _ I T Rp) Pr).
  - apply sync_inv in H as (ts & x0 & x1 & old & y0 & y1 & f0 & f1 & ps & c & k0 & k1 & ob' & d' & ws & H).
    destruct H as (_ & _ & _ & _ & Pr & _ & _ & -> & _). unfold close. destruct c as [[? ?] ?]. cbn [pool set_pools supply lp pst].
    split; [|exact S0]. apply process_repriced in Pr. exact (proj1 (repriced_keeps _ _ _ _ I T Pr) Hh).
  - unfold update_ob in H. unguard H G1. unguard H G2. unguard H G3. unbind H as [os d] E. unguard H G4. unbind H as k0 E1. unbind H as k1 E2.
    injection H as <- _. split; assumption.
  - unguard H C. unbind H as [s o'] E. injection H as <- _. pose proof (config_keeps _ _ _ _ _ C E) as (_ & _ & _ & _ & _ & Ep & Esu).
    cbn [pool]. rewrite Ep, Esu. auto.
  - unbind H as od E. unguard H G. injection H as <- _. auto.
Qed.

Print Assumptions c107_settlement.
Print Assumptions c107_withdraw.
Print Assumptions c101_in_step.
Print Assumptions c101_for_ever.
Print Assumptions c105_tie.
Print Assumptions c108_fee.
Print Assumptions c108_bound.
Print Assumptions c104_one_side.
Print Assumptions c104_two_sides.
Print Assumptions c103_exported.
Print Assumptions c106_bounds.
Print Assumptions c106_authority.
Print Assumptions c112_disable.
Print Assumptions c111_share.
Print Assumptions c111_provide.
Print Assumptions c111_simulation.
Print Assumptions c113_plain.
Print Assumptions c113_stays.
Print Assumptions c110_sync.
Print Assumptions c110_healthy.
