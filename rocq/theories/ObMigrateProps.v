(** Migration of a concentrated pair to the order-book code (C122). *)
From Coq Require Import ZArith Lia Bool List.
From Verif Require Import Num Ledger PclMath PclModel PclParamProps PclProofs PclSwapProps PclTradeProps PclLpProps DualityModel DualityProofs
  DualityProps ObMigrateModel.
From Verif Require Amap XykModel ObservationModel.
Import ListNotations.
Open Scope Z_scope.

(** ** Specification *)

(** the same messages sent one after the other, each of which must be accepted *)
Fixpoint answers (s : state) (l : list (env * msg)) : option (list out * state) :=
  match l with
  | [] => Some ([], s)
  | (e, m) :: r =>
      match step e m s with
      | Some (s1, o) => match answers s1 r with Some (os, s2) => Some (o :: os, s2) | None => None end
      | None => None
      end
  end.
Fixpoint danswers (s : dstate) (l : list (denv * dmsg)) : option (list dout * dstate) :=
  match l with
  | [] => Some ([], s)
  | (e, m) :: r =>
      match dstep e m s with
      | Some (s1, o) => match danswers s1 r with Some (os, s2) => Some (o :: os, s2) | None => None end
      | None => None
      end
  end.
(** the same message in the same block, whatever the order book would do *)
Definition same_call (a : env * msg) (b : denv * dmsg) : Prop := base (fst b) = fst a /\ as_plain (snd b) = Some (snd a).
(** the parts of the pool a user can observe on both contracts *)
Definition same_pool (s s' : state) : Prop :=
  r0 s' = r0 s /\ r1 s' = r1 s /\ p0 s' = p0 s /\ p1 s' = p1 s /\ supply s' = supply s /\ lp s' = lp s /\ par s' = par s /\
  rmp s' = rmp s /\ pst s' = pst s /\ c01 s' = c01 s /\ c10 s' = c10 s /\ last_t s' = last_t s /\ fshare s' = fshare s /\
  owner s' = owner s /\ proposal s' = proposal s.

(** a migrated pair after any messages, with CW20 assets or without, while the book is off *)
Definition mrun (s : state) (l : list (env * msg)) : state :=
  fold_left (fun s em => match mstep (fst em) (snd em) s with Some (s', _) => s' | None => s end) l s.
Definition mreach (s : state) : Prop := exists c s0 v ex n m0 m1 lq ad st l,
  reach c s0 /\ migrate_ob v s0 ex n m0 m1 lq ad = Some st /\ s = mrun (pool st) l.

(** ** Proofs *)

Lemma strip_accumulate s t p : accumulate_prices (strip s) t p = accumulate_prices s t p.
Proof. reflexivity. Qed.
Lemma strip_step e m s s' r : step e m s = Some (s', r) ->
  exists s1, step e m (strip s) = Some (s1, r) /\ forget s1 = strip s'.
Proof.
  Ltac walk H := repeat match type of H with
    | match ?X with _ => _ end = Some _ => destruct X; try discriminate H
    end.
  intros H. destruct m; cbn [step] in H |- *;
    unfold PclModel.provide, PclModel.withdraw, PclModel.swap, eff_owner, fee_share_rate in H |- *.
  all: try (rewrite !strip_accumulate).
  all: cbn [strip r0 r1 p0 p1 nat0 nat1 supply lp par rmp pst c01 c10 last_t fshare owner proposal track h0 h1 obs pend ObservationModel.accumulate ObservationModel.pre_save].
  all: try (walk H; injection H as <- <-; eexists; split; reflexivity).
  - walk H. injection H as <- <-. match goal with c : (Z * Z * Z)%type |- _ => destruct c as [[? ?] ?] end. eexists. split; reflexivity.
  - repeat match type of H with
      | match accumulate_prices _ _ _ with _ => _ end = Some _ => destruct (accumulate_prices _ _ _) as [[[? ?] ?]|] eqn:Ac; [|discriminate H]
      | match ?X with _ => _ end = Some _ => destruct X; try discriminate H
      end.
    injection H as <- <-. cbv iota beta.
    match goal with |- context [if ?c then Some (Some ?x) else Some None] =>
      replace (if c then Some (Some x) else Some None) with (Some (if c then Some x else None)) by (destruct c; reflexivity) end.
    eexists. split; [reflexivity|]. reflexivity.
Qed.

Lemma strip_same s : same_pool s (strip s).
Proof. repeat split. Qed.
Lemma same_answers : forall l dl st s os s', Forall2 same_call l dl -> good st -> plain st -> pool st = strip s ->
  answers s l = Some (os, s') ->
  exists st', danswers st dl = Some (map (fun o => mkOut o [] 0 0) os, st') /\ pool st' = strip s' /\ plain st'.
Proof.
  induction l as [|[e m] l IH]; intros dl st s os s' F G P E H; inversion F as [|? [de dm] ? dl' (Eb & Ep) F']; subst; cbn [fst snd] in *.
  - cbn [answers] in H. injection H as <- <-. exists st. auto.
  - cbn [answers] in H. subst e. destruct (step (base de) m s) as [[s1 o]|] eqn:S; [|discriminate H].
    destruct (answers s1 l) as [[os1 s2]|] eqn:A; [|discriminate H]. injection H as <- <-.
    apply strip_step in S as (s1' & S & Fg).
    assert (D : exists o1, dstep de dm st = Some (mkD (strip s1) o1 (dex st), mkOut o [] 0 0)).
    { rewrite <- E in S. pose proof (plain_step st de dm m G P Ep) as D. rewrite S in D. rewrite <- Fg. eexists. exact D. }
    destruct D as (o1 & D). cbn [danswers]. rewrite D.
    assert (P1 : plain (mkD (strip s1) o1 (dex st))).
    { destruct (c113_stays _ _ _ _ _ P D) as [|(w & u & -> & _)]; [assumption|discriminate Ep]. }
    assert (G1 : good (mkD (strip s1) o1 (dex st))) by exact (dstep_good _ _ _ _ _ G D).
    destruct (IH dl' _ s1 os1 s2 F' G1 P1 eq_refl A) as (st' & Da & Ps & Pl).
    rewrite Da. exists st'. auto.
Qed.

(** ** C122 *)

(** The migration keeps the pool, the LP tokens, the parameters, the prices and the owner, and starts with the book
    switched off, empty and with settings in their ranges. *)
Theorem c122_kept : forall v s ex n m0 m1 lq ad st, migrate_ob v s ex n m0 m1 lq ad = Some st ->
  v = true /\ same_pool s (pool st) /\ enabled (ob st) = false /\ keys (ob st) = [] /\ dex st = [] /\ executor (ob st) = ex /\
  num (ob st) = n /\ min0 (ob st) = m0 /\ min1 (ob st) = m1 /\ liq (ob st) = lq /\ adj (ob st) = ad /\
  1 <= n <= 15 /\ 0 < m0 <= U128MAX /\ 0 < m1 <= U128MAX.
Proof.
  intros v s ex n m0 m1 lq ad st H. unfold migrate_ob in H. unguard H G. injection H as <-. bools.
  unfold valid_ob in *. cbn [num min0 min1 liq adj] in *. bools. repeat match goal with F : fits _ _ = true |- _ => apply fits_iff in F end.
  split; [assumption|]. split; [apply strip_same|]. cbn. unfold MAX_ORDERS in *.
  repeat (split; [reflexivity|]). lia.
Qed.
(** Until the owner switches the book on, users of a migrated pair with native assets notice nothing: any messages the
    concentrated pair would accept, it accepts, with the same results and the same pool afterwards. *)
Theorem c122_same : forall c s v ex n m0 m1 lq ad st l dl os s', reach c s -> nat0 s = true -> nat1 s = true ->
  migrate_ob v s ex n m0 m1 lq ad = Some st -> Forall2 same_call l dl -> answers s l = Some (os, s') ->
  exists st', danswers st dl = Some (map (fun o => mkOut o [] 0 0) os, st') /\ same_pool s' (pool st').
Proof.
  intros c s v ex n m0 m1 lq ad st l dl os s' R N0 N1 M F A.
  assert (G : good st). { apply started_good. right. exists c, s, v, ex, n, m0, m1, lq, ad. auto. }
  unfold migrate_ob in M. unguard M Gd. injection M as <-.
  destruct (same_answers l dl _ s os s' F G) as (st' & D & E & _); [repeat split|reflexivity|exact A|].
  exists st'. split; [exact D|]. rewrite E. apply strip_same.
Qed.

(** ** A pair with a CW20 asset *)

(** With native assets the model of a migrated pair agrees with the one of the order-book pair. *)
Theorem c122_native : forall st de m m', dreach st -> plain st -> as_plain m = Some m' ->
  match mstep (base de) m' (pool st), dstep de m st with
  | Some (s', r), Some (st', o) => same_pool s' (pool st') /\ o_res o = r
  | None, None => True
  | _, _ => False
  end.
Proof.
  intros st de m m' R P H. apply dreach_good in R. rewrite (plain_step st de m m' R P H).
  assert (E : mstep (base de) m' (pool st) = match step (base de) m' (pool st) with Some (s', r) => Some (strip s', r) | None => None end).
  { destruct m as [| ? ? ? [|] | | | |c|]; try discriminate H; cbn [as_plain] in H.
    - injection H as <-. cbn [mstep]. rewrite (g_nat0 _ R), (g_nat1 _ R). reflexivity.
    - injection H as <-. reflexivity.
    - injection H as <-. cbn [mstep step]. unfold mswap. rewrite (g_nat0 _ R), (g_nat1 _ R).
      replace (if one then true else true) with true by (destruct one; reflexivity). destruct (0 <=? offer); reflexivity.
    - destruct (config_msg c) eqn:C; [|discriminate H]. injection H as <-. destruct c; try discriminate C; reflexivity. }
  rewrite E. destruct (step (base de) m' (pool st)) as [[s' r]|]; [|exact Logic.I]. repeat split.
Qed.
(** An accepted swap of a CW20 asset pays out the other asset and takes in nothing. *)
Theorem c122_unpaid : forall e s (one : bool) offer belief ms s' o, (if one then nat1 s else nat0 s) = false ->
  mstep e (Swap one offer belief ms) s = Some (s', o) ->
  exists ret spread comm maker shr, o = OSwap ret spread comm maker shr /\
    (if one then r1 s' = r1 s /\ r0 s' = r0 s - ret - maker - shr else r0 s' = r0 s /\ r1 s' = r1 s - ret - maker - shr) /\
    supply s' = supply s /\ lp s' = lp s.
Proof.
  intros e s one offer belief ms s' o N H. cbn [mstep] in H. unfold mswap in H. unguard H G. rewrite N in H. unguard H G1. unbind H as (s1, o1) E. injection H as <- <-.
  apply PclProofs.swap_inv in E as (ret & spread & comm & maker & shr & -> & F). exists ret, spread, comm, maker, shr. split; [reflexivity|].
  destruct F as [(off & x0 & x1 & old & fs & res & of_ & ps & c & ob & pe & F) A B].
  destruct F as (_ & _ & _ & _ & _ & _ & _ & _ & _ & _ & _ & _ & _ & _ & _ & _ & _ & _ & _ & _ & _ & _ & ->).
  destruct c as [[? ?] ?]. unfold without. cbn. destruct one; repeat split; lia.
Qed.
Lemma inv_strip s : inv s -> inv (strip s).
Proof. intros []. constructor; assumption. Qed.
Lemma mstep_inv e m s s' o : inv s -> mstep e m s = Some (s', o) -> inv s'.
Proof.
  intros I H. assert (K : forall x s1 o1, step e x s = Some (s1, o1) -> inv (strip s1)).
  { intros x s1 o1 E. apply inv_strip. exact (step_inv_ok _ _ _ _ _ I E). }
  destruct m as [| ? ? ? [|] | | | | | | | | |]; cbn [mstep] in H; try discriminate H;
    try (unbind H as (s1, o1) E; injection H as <- <-; exact (K _ _ _ E)).
  - unguard H G. unbind H as (s1, o1) E. injection H as <- <-. exact (K _ _ _ E).
  - unfold mswap in H. unguard H G. bools. destruct (if one then nat1 s else nat0 s).
    + unbind H as (s1, o1) E. injection H as <- <-. apply (K (Swap one offer belief max_spread) s1 o1). cbn [step].
      replace (0 <=? offer) with true by (symmetry; apply Z.leb_le; assumption). exact E.
    + unguard H G1. bools. unbind H as (s1, o1) E. injection H as <- <-. apply inv_strip.
      assert (I1 : inv (without s one offer)).
      { pose proof (i_r0 _ I). pose proof (i_r1 _ I). destruct I. constructor; try assumption; unfold without; cbn; destruct one; lia. }
      apply (step_inv_ok e (Swap one offer belief max_spread) _ _ o1 I1). cbn [step].
      replace (0 <=? offer) with true by (symmetry; apply Z.leb_le; assumption). exact E.
Qed.
Lemma mreach_inv s : mreach s -> inv s.
Proof.
  intros (c & s0 & v & ex & n & m0 & m1 & lq & ad & st & l & R & M & ->).
  assert (I : inv (pool st)). { unfold migrate_ob in M. unguard M G. injection M as <-. apply inv_strip, (reach_inv _ _ R). }
  revert I. generalize (pool st). clear. induction l as [|[e m] l IH]; intros s I; [exact I|].
  unfold mrun. cbn [fold_left]. apply IH. cbn [fst snd]. destruct (mstep e m s) as [[s' o]|] eqn:E; [|exact I]. exact (mstep_inv _ _ _ _ _ I E).
Qed.
(** Unless a change of amplification and gamma is in progress, such a swap goes through only when the value of an LP
    token has grown by as much since the last trade, or when one of its amounts is below the minimum trade size. *)
Theorem c122_guarded : forall s e (one : bool) offer belief ms s' ret spread comm maker shr, mreach s ->
  f_time (rmp s) <= now e -> mstep e (Swap one offer belief ms) s = Some (s', OSwap ret spread comm maker shr) ->
  (scale (pst s') = scale (pst s) /\ xreal (pst s) <= xreal (pst s')) \/
  (moved (min_delta (par s)) (scale (pst s)) (scale (pst s')) (oracle (pst s')) /\ xcp (pst s') + 10 ^ 18 < 2 * xreal (pst s')) \/
  (pst s' = pst s /\
   (offer * 10 ^ (18 - (if one then p1 s else p0 s)) < 10 ^ 13 \/ ret * 10 ^ (18 - (if one then p0 s else p1 s)) < 10 ^ 13)).
Proof.
  intros s e one offer belief ms s' ret spread comm maker shr R T H. apply mreach_inv in R as I. cbn [mstep] in H. unfold mswap in H. unguard H G.
  assert (E : exists s1 s2, PclModel.swap e s1 one offer belief ms = Some (s2, OSwap ret spread comm maker shr) /\ s' = strip s2 /\
    par s1 = par s /\ rmp s1 = rmp s /\ pst s1 = pst s /\ p0 s1 = p0 s /\ p1 s1 = p1 s).
  { destruct (if one then nat1 s else nat0 s); [|unguard H G1]; unbind H as (s2, o2) E; injection H as <- ->; eexists _, s2; (split; [exact E|]); repeat split. }
  destruct E as (s1 & s2 & E & -> & E1 & E2 & E3 & E4 & E5). clear H.
  apply PclProofs.swap_inv in E as (ret' & spread' & comm' & maker' & shr' & Eo & F). injection Eo as <- <- <- <- <-.
  destruct F as [(off & x0 & x1 & old & fs & res & of_ & ps & c' & ob & pe & F) _ _].
  destruct F as (Wo & _ & _ & _ & _ & _ & _ & _ & Cs & Of & Rt & _ & _ & _ & _ & _ & _ & _ & _ & (tot & _ & Hps) & _ & _ & ->).
  rewrite ?E1, ?E2, ?E3, ?E4, ?E5 in *.
  assert (Md : 0 <= min_delta (par s)) by (apply (i_par _ I)).
  assert (Q : pst (strip (set_pools s1 (if one then r0 s1 - ret - maker - shr else r0 s1 + offer)
     (if one then r1 s1 + offer else r1 s1 - ret - maker - shr) (supply s1) (lp s1) ps c' (height e) ob pe)) = ps) by (destruct c' as [[? ?] ?]; reflexivity).
  rewrite Q. clear Q. destruct ((MIN_TRADE_SIZE <=? of_) && (MIN_TRADE_SIZE <=? off)) eqn:B.
  - destruct Hps as (price & y1 & _ & _ & U). destruct (update_price_profit _ _ _ _ _ _ _ _ _ T Md U) as (_ & _ & [K|K]); auto.
  - right; right. split; [exact Hps|]. apply with_prec_inv in Wo as (-> & _). apply andb_false_iff in B as [B|B]; apply Z.leb_gt in B; unfold MIN_TRADE_SIZE in B.
    + right. assert (Pa : 0 <= (if one then p0 s else p1 s) <= 18) by (destruct one; apply I).
      destruct (pow_split _ Pa) as (_ & P18 & _). apply to_uint_inv in Rt as (-> & _ & _); [|exact Pa].
      assert (D : dy res <= of_).
      { unfold outflow in Of. unbind Of as a Ea. apply add256_Some in Ea as (-> & _). apply add256_Some in Of as (-> & _).
        clear - Cs. unfold compute_swap in Cs. step_inv Cs. injection Cs as <-. cbn [maker_fee share_fee dy]. num_inv. lia. }
      pose proof (Z.mul_div_le (dy res) (10 ^ (18 - (if one then p0 s else p1 s))) P18). lia.
    + left. lia.
Qed.
(** and it takes no deposits *)
Theorem c122_no_deposit : forall e s r d0 d1 tol ml, nat0 s && nat1 s = false -> mstep e (Provide r d0 d1 tol ml) s = None.
Proof. intros e s r d0 d1 tol ml N. cbn [mstep]. rewrite N. reflexivity. Qed.

(** ** Witness and examples *)

(** 2000 of a CW20 asset 0 and 1000 of a native asset 1, both of six decimals, at price 2; a day later the owner starts
    a change of the amplification from 40 to 41. *)
Definition tok0 : state := Eval vm_compute in
  init0 (instantiate 1000 1 (std 230000000000000) (40 * DEC) 145000000000000 (2 * DEC) true 6 6 false true).
Definition l_tok : list (env * msg) :=
  [(at_ 1000, Provide 5 2000000000 1000000000 None None);
   (at_ 100000, Promote 7 (41 * DEC) 145000000000000 300000)].
Definition tok2 : state := Eval vm_compute in run tok0 l_tok.
Lemma tok2_reach : reach 100000 tok2.
Proof.
  exists 1000, 1, (std 230000000000000), (40 * DEC), 145000000000000, (2 * DEC), true, 6, 6, false, true, tok0, l_tok.
  split; [vm_compute; split; discriminate|]. split; [vm_compute; reflexivity|]. split; [simpl; lia|].
  split; [repeat constructor; vm_compute; discriminate|]. split; [vm_compute; reflexivity|reflexivity].
Qed.
Definition half : option Z := Some 500000000000000000.
Definition grab (s : option (state * Z)) : option (state * Z) :=
  match s with
  | Some (s, n) => match mstep (at_ 100001) (Swap false 400000000 None half) s with
                   | Some (s', OSwap ret _ _ _ _) => Some (s', n + ret)
                   | _ => None
                   end
  | None => None
  end.
(** C122: the migration accepts a pair with a CW20 asset. Four messages naming 400 of it, by anyone and without sending
    anything, then take 592 of the 1000 of the other asset. *)
Theorem c122_refuted : exists c s st s', reach c s /\ migrate_ob true s None 1 1000000 1000000 MIN_LIQ MIN_ADJ = Some st /\
  grab (grab (grab (grab (Some (pool st, 0))))) = Some (s', 592606470) /\
  r0 s = 2000000000 /\ r1 s = 1000000000 /\ r0 s' = 2000000000 /\ r1 s' = 407393530.
Proof.
  exists 100000, tok2, (mkD (strip tok2) (mkOb false None 1 1000000 1000000 MIN_LIQ MIN_ADJ [] None None None) []).
  match eval vm_compute in (grab (grab (grab (grab (Some (strip tok2, 0)))))) with Some (?s', _) => exists s' end.
  split; [exact tok2_reach|]. split; [vm_compute; reflexivity|]. split; [vm_compute; reflexivity|]. repeat split; vm_compute; reflexivity.
Qed.
(** Without a change in progress the same message is refused. *)
Example c122_token_example : mstep (at_ 100001) (Swap false 400000000 None half) (strip (run tok0 (firstn 1 l_tok))) = None /\
  mstep (at_ 100001) (Swap false 9 None half) (strip (run tok0 (firstn 1 l_tok))) <> None /\
  nat0 (strip tok2) = false /\ mstep (at_ 100001) (Withdraw 5 1000000 false None) (strip tok2) <> None.
Proof. split; [vm_compute; reflexivity|]. split; [vm_compute; discriminate|]. split; [reflexivity|vm_compute; discriminate]. Qed.
(** A pair with native assets before and after the migration *)
Definition l_same : list (env * msg) :=
  [(at_ 2000, Swap false 1000000 None None); (at_ 2001, LpTransfer 5 6 1000000); (at_ 2002, Withdraw 6 1000000 false None)].
Definition dl_same : list (denv * dmsg) :=
  [(mkDEnv (at_ 2000) false [] 0 0, DSwap false 1000000 None None); (mkDEnv (at_ 2001) false [] 0 0, DConfig (LpTransfer 5 6 1000000));
   (mkDEnv (at_ 2002) false [] 0 0, DWithdraw 6 1000000 false None)].
Example c122_example : exists st os s', reach 1000 ex_balanced /\ nat0 ex_balanced = true /\ nat1 ex_balanced = true /\
  migrate_ob true ex_balanced None 1 1000000 1000000 MIN_LIQ MIN_ADJ = Some st /\ Forall2 same_call l_same dl_same /\
  answers ex_balanced l_same = Some (os, s') /\ os = [OSwap 498695 3 1301 0 0; ONone; OWithdraw 1414919 706753].
Proof.
  exists (mkD (strip ex_balanced) (mkOb false None 1 1000000 1000000 MIN_LIQ MIN_ADJ [] None None None) []).
  match eval vm_compute in (answers ex_balanced l_same) with Some (?os, ?s') => exists os, s' end.
  split; [exact balanced_reach|]. split; [vm_compute; reflexivity|]. split; [vm_compute; reflexivity|]. split; [reflexivity|].
  split; [repeat constructor; vm_compute; reflexivity|]. split; [vm_compute; reflexivity|reflexivity].
Qed.

Print Assumptions c122_kept.
Print Assumptions c122_same.
Print Assumptions c122_native.
Print Assumptions c122_unpaid.
Print Assumptions c122_guarded.
Print Assumptions c122_no_deposit.
Print Assumptions c122_refuted.
