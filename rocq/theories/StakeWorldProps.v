(** C135, C136: liquidity staked on deposit, and the pair and the incentives contract together. *)
From Coq Require Import ZArith Lia Bool List Permutation.
From Verif Require Import Num Amap Ledger IncentivesModel IncentivesSpec IncentivesExitSpec IncentivesProofs IncentivesBudget IncentivesProps IncentivesExitProps.
From Verif Require XykModel XykSpec XykProofs XykProps XykLpProps XykExitProps IncentivesInv.
From Verif Require Import StakeWorldModel StakeWorldSpec StakeWorldProofs.
Import ListNotations.
Open Scope Z_scope.

(** ** C135 *)

(** Each contract runs its own code on the messages it sees, with acceptable environments and times. *)
Theorem c135_parts c b own fac ast grd f l : 0 <= lpd c -> gen c <> SELF -> timed 0 l ->
  let i := init b own fac ast grd f in let w := run c i l in
  pair w = XykModel.run (XykModel.init b) (pair_hist c i l) /\ XykSpec.envs_ok (pair_hist c i l) /\
  inc w = IncentivesModel.run (IncentivesModel.init own fac ast grd f) (inc_hist c i l) /\ IncentivesSpec.timed 0 (inc_hist c i l) /\
  IncentivesSpec.time_after 0 (inc_hist c i l) <= time_after 0 l.
Proof.
  intros P Ns T i w. destruct (run_parts c l i) as [A B]. destruct (hist_timed c l P Ns 0 i T) as (C & D & E). auto.
Qed.
Print Assumptions c135_parts.

(** The LP tokens on the incentives contract's account are the ones it has on its books; they cover all positions,
    and all LP tokens in circulation, staked or not, are covered by the supply. *)
Theorem c135_backed c b own fac ast grd f l e : 0 <= lpd c -> gen c <> SELF -> timed 0 l ->
  let i := init b own fac ast grd f in let w := run c i l in
  free w (gen c) = get (bal (inc w)) (lpd c) /\
  total (XykModel.lp (pair w)) = XykModel.supply (pair w) /\
  (removals_ok (lpd c) (inc i) (inc_hist c i l) -> time_after 0 l <= now e ->
   sum_positions (lpd c) (inc w) + orphaned (lpd c) (inc w) + total_pending (lpd c) e (inc w) <= free w (gen c)).
Proof.
  intros P Ns T i w. destruct (c135_parts c b own fac ast grd f l P Ns T) as (A & B & C & D & E). fold i w in A, B, C, D, E.
  assert (K : coupled c w) by (apply run_coupled; auto; reflexivity). unfold coupled in K. unfold free. split; [exact K|].
  assert (R : XykSpec.reachable (pair w)) by (rewrite A; exists b, (pair_hist c i l); auto).
  split; [apply (XykLpProps.c58_supply_is_sum_of_balances _ R)|].
  intros Ro Lt. rewrite K. rewrite C. rewrite <- c34_total by exact D. apply c35_solvent; auto. lia.
Qed.
Print Assumptions c135_backed.

(** A position shrinks only by the staker's own withdrawal. *)
Theorem c135_mine c e m w w' o a : event_ok e m -> step c e m w = Some (w', o) ->
  position_of (lpd c) a (inc w') < position_of (lpd c) a (inc w) ->
  exists n, m = Stake a (Withdraw (lpd c) n) /\ position_of (lpd c) a (inc w') = position_of (lpd c) a (inc w) - n.
Proof.
  intros (_ & _ & _ & U) H L. destruct m; cbn [step] in H.
  - unguard H G. unbind H as [p po] E. cbv zeta in H. destruct (_ =? 0); [injection H as <- <-; cbn in L; lia|].
    unbind H as [i io] E2. injection H as <- <-. cbn in E2. injection E2 as <- _. cbn in L. unfold position_of in L. cbn in L. lia.
  - unbind H as [p po] E. destruct po as [share| | |]; try discriminate. unguard H G. unbind H as [i os] E1. unbind H as p' E2. injection H as <- <-. cbn [inc] in L.
    destruct (c34_deposit _ _ _ _ _ _ _ _ E1) as (_ & K & _). rewrite K in L. bools. destruct (_ && _); lia.
  - unguard H G. unbind H as [p po] E. unbind H as [i os] E1. unbind H as p' E2. injection H as <- <-. cbn [inc] in *.
    pose proof (fun M => c34_others _ _ _ _ _ _ M E1) as Oth.
    destruct m; try (destruct (Oth eq_refl) as (K & _); rewrite K in L; lia).
    + destruct (c34_deposit _ _ _ _ _ _ _ _ E1) as (_ & K & _). rewrite K in L. cbn in U. destruct ((lpd c =? lp) && _); lia.
    + destruct (c34_withdraw _ _ _ _ _ _ _ E1) as (_ & _ & K & _). rewrite K in L |- *. destruct (Z.eqb_spec (lpd c) lp) as [<-|N]; [|cbn in L; lia].
      destruct (Z.eqb_spec a sender) as [->|N]; [|cbn in L; lia]. cbn [andb]. exists amt. auto.
Qed.
Print Assumptions c135_mine.

(** *** A deposit with auto-stake *)
Lemma provide_as e s who rcv d0 d1 tol ml p share who' rcv' :
  XykModel.step e (XykModel.Provide who rcv d0 d1 tol ml) s = Some (p, XykModel.OProvide share) ->
  exists p', XykModel.step e (XykModel.Provide who' rcv' d0 d1 tol ml) s = Some (p', XykModel.OProvide share) /\
    XykModel.r0 p' = XykModel.r0 p /\ XykModel.r1 p' = XykModel.r1 p /\ XykModel.supply p' = XykModel.supply p /\
    XykModel.c0 p' = XykModel.c0 p /\ XykModel.c1 p' = XykModel.c1 p /\ XykModel.last_t p' = XykModel.last_t p /\
    XykModel.fshare p' = XykModel.fshare p /\ XykModel.track p' = XykModel.track p /\ XykModel.h0 p' = XykModel.h0 p /\ XykModel.h1 p' = XykModel.h1 p.
Proof.
  cbn [XykModel.step]. unfold XykModel.provide. intros H. destruct ((0 <? d0) && (0 <? d1)); [|discriminate].
  destruct (XykModel.calculate_shares _ _ _ _ _ _) as [sh|]; [|discriminate]. cbv zeta in *. destruct (_ <=? sh); [|discriminate].
  destruct (add128 _ d0) as [n0|]; [|discriminate]. destruct (add128 _ d1) as [n1|]; [|discriminate]. destruct (XykModel.upd_prices e s) as [[[x y] t]|]; [|discriminate].
  destruct (XykModel.track_save s (XykModel.height e) n0 n1). injection H as <- <-. eexists. split; [reflexivity|]. repeat split.
Qed.
Lemma same_transfer e p q from to v p' o : same_pair p q -> XykModel.step e (XykModel.LpTransfer from to v) p = Some (p', o) ->
  exists q', XykModel.step e (XykModel.LpTransfer from to v) q = Some (q', o) /\ same_pair p' q'.
Proof.
  intros (S1 & S2 & S3 & S4 & S5) H. cbn [XykModel.step] in *. rewrite <- S4. destruct (_ && _ && _); [|discriminate]. injection H as <- <-.
  eexists. split; [reflexivity|]. unfold same_pair. cbn. rewrite S1, S2, S3. repeat (split; [first [reflexivity|intros a; rewrite !get_move, S4; reflexivity]|]). intuition.
Qed.
Lemma same_deliver c e os : forall p q p', same_pair p q -> deliver c e os p = Some p' -> exists q', deliver c e os q = Some q' /\ same_pair p' q'.
Proof.
  induction os as [|o r IH]; intros p q p' S H; cbn [deliver] in *; [injection H as <-; eauto|].
  destruct (leaves c o) as [[to v]|]; [|eapply IH; eauto]. destruct (negb _); [|discriminate]. unbind H as [p1 o1] E.
  destruct (same_transfer _ _ _ _ _ _ _ _ S E) as (q1 & E1 & S1). rewrite E1. eapply IH; eauto.
Qed.
Lemma same_sym p q : same_pair p q -> same_pair q p.
Proof. unfold same_pair. intuition. Qed.
(** It is the same as a deposit and then staking what was minted, for the same receiver: one succeeds if the other does,
    with the same payments and the same resulting state. *)
Theorem c135_auto c e w who rcv d0 d1 tol ml share os : gen c <> SELF -> who <> SELF -> who <> gen c -> 0 < share -> XykSpec.reachable (pair w) ->
  (forall w', step c e (AutoStake who rcv d0 d1 tol ml) w = Some (w', OAuto share os) ->
     exists w1 w2, step c e (Direct (XykModel.Provide who who d0 d1 tol ml)) w = Some (w1, OPair (XykModel.OProvide share)) /\
       step c e (Stake who (Deposit (lpd c) share (Some rcv))) w1 = Some (w2, OStake os) /\ inc w' = inc w2 /\ same_pair (pair w') (pair w2)) /\
  (forall w1 w2, step c e (Direct (XykModel.Provide who who d0 d1 tol ml)) w = Some (w1, OPair (XykModel.OProvide share)) ->
     step c e (Stake who (Deposit (lpd c) share (Some rcv))) w1 = Some (w2, OStake os) ->
     exists w', step c e (AutoStake who rcv d0 d1 tol ml) w = Some (w', OAuto share os) /\ inc w' = inc w2 /\ same_pair (pair w') (pair w2)).
Proof.
  intros Ns N1 N2 P R. pose proof (XykLpProps.c58_supply_is_sum_of_balances _ R) as (_ & F). specialize (F who). destruct F as (F & _).
  assert (Dir : forall p1, XykModel.step (xe e) (XykModel.Provide who who d0 d1 tol ml) (pair w) = Some (p1, XykModel.OProvide share) ->
    get (XykModel.lp p1) (gen c) - get (XykModel.lp (pair w)) (gen c) = 0 /\ 
    step c e (Direct (XykModel.Provide who who d0 d1 tol ml)) w = Some (mkW p1 (inc w), OPair (XykModel.OProvide share))).
  { intros p1 E1. destruct (provide_lp _ _ _ _ _ _ _ _ _ _ E1) as (sh & Q & _ & A1). assert (K : get (XykModel.lp p1) (gen c) - get (XykModel.lp (pair w)) (gen c) = 0).
    { rewrite A1. destruct (Z.eqb_spec (gen c) who); [congruence|]. destruct (Z.eqb_spec (gen c) SELF); [contradiction|]. cbn [andb]. lia. }
    split; [exact K|]. cbn [step by_gen negb]. rewrite E1. cbv zeta. rewrite K. reflexivity. }
  assert (Two : forall p p1, XykModel.step (xe e) (XykModel.Provide who (gen c) d0 d1 tol ml) (pair w) = Some (p, XykModel.OProvide share) ->
    XykModel.step (xe e) (XykModel.Provide who who d0 d1 tol ml) (pair w) = Some (p1, XykModel.OProvide share) ->
    exists p2, XykModel.step (xe e) (XykModel.LpTransfer who (gen c) share) p1 = Some (p2, XykModel.ONone) /\ same_pair p p2).
  { intros p p1 E E1. destruct (provide_as _ _ _ _ _ _ _ _ _ _ who who E) as (p1' & E1' & S). rewrite E1 in E1'. injection E1' as <-.
    destruct (provide_lp _ _ _ _ _ _ _ _ _ _ E) as (sh & Q & _ & A). injection Q as <-.
    destruct (provide_lp _ _ _ _ _ _ _ _ _ _ E1) as (sh & Q & _ & A1). injection Q as <-. cbn [XykModel.step].
    destruct (Z.eqb_spec who SELF); [contradiction|]. rewrite (proj2 (Z.leb_le 0 share)) by lia.
    rewrite (proj2 (Z.leb_le share (get (XykModel.lp p1) who))) by (rewrite A1, Z.eqb_refl; destruct (_ && _); lia). cbn [negb andb].
    eexists. split; [reflexivity|]. unfold same_pair. cbn. destruct S as (S1 & S2 & S3 & S4 & S5 & S6 & S7 & S8 & S9 & S10).
    rewrite S1, S2, S3, S4, S5, S6, S7, S8, S9, S10. repeat (split; [reflexivity|]). split; [|auto 10].
    intros a. rewrite get_move, A, A1. destruct (a =? who), (a =? gen c); lia. }
  split.
  - intros w' H. cbn [step] in H. unbind H as [p po] E. destruct po as [sh| | |]; try discriminate. unguard H G. unbind H as [i os'] Ei. unbind H as p' Ed. injection H as <- -> ->.
    destruct (provide_as _ _ _ _ _ _ _ _ _ _ who who E) as (p1 & E1 & _). destruct (Dir p1 E1) as (_ & D). destruct (Two p p1 eq_refl E1) as (p2 & T & S).
    destruct (same_deliver _ _ _ _ _ _ S Ed) as (p2' & Ed2 & S'). exists (mkW p1 (inc w)), (mkW p2' i). split; [exact D|].
    cbn [step pair inc attached is_gift]. rewrite Z.eqb_refl. destruct (Z.eqb_spec who (gen c)); [contradiction|]. cbn [negb andb]. rewrite T.
    change (IncentivesModel.step (ie e) who (Deposit (lpd c) share (Some rcv)) (inc w)) with (IncentivesModel.step (ie e) SELF (Deposit (lpd c) share (Some rcv)) (inc w)).
    rewrite Ei, Ed2. auto.
  - intros w1 w2 H1 H2. pose proof H1 as H1'. cbn [step by_gen negb] in H1'. unbind H1' as [p1 po] E1. cbv zeta in H1'.
    assert (po = XykModel.OProvide share) as -> by (destruct (_ =? 0) in H1'; [injection H1' as _ ->; reflexivity|unbind H1' as [i io] E3; injection H1' as _ ->; reflexivity]).
    destruct (Dir p1 eq_refl) as (K & D). rewrite D in H1. injection H1 as <-. clear H1' D.
    destruct (provide_as _ _ _ _ _ _ _ _ _ _ who (gen c) E1) as (p & E & _). destruct (Two p p1 E eq_refl) as (p2 & T & S).
    cbn [step pair inc attached is_gift] in H2. rewrite Z.eqb_refl in H2. unguard H2 G. rewrite T in H2. unbind H2 as [i os'] Ei. unbind H2 as p2' Ed. injection H2 as <- ->.
    destruct (same_deliver _ _ _ _ _ _ (same_sym _ _ S) Ed) as (p' & Ed' & S'). exists (mkW p' i). cbn [step]. rewrite E, (proj2 (Z.ltb_lt 0 share)) by lia.
    change (IncentivesModel.step (ie e) SELF (Deposit (lpd c) share (Some rcv)) (inc w)) with (IncentivesModel.step (ie e) who (Deposit (lpd c) share (Some rcv)) (inc w)).
    rewrite Ei, Ed'. split; [reflexivity|]. split; [reflexivity|]. apply same_sym. exact S'.
Qed.
Print Assumptions c135_auto.

(** The receiver's position grows by exactly the minted shares, no other position changes; free LP tokens change only
    by rewards paid in LP tokens. *)
Theorem c135_auto_effect c e w who rcv d0 d1 tol ml w' o : 0 <= lpd c -> gen c <> SELF -> XykSpec.reachable (pair w) ->
  step c e (AutoStake who rcv d0 d1 tol ml) w = Some (w', o) ->
  exists share os, o = OAuto share os /\ 0 < share /\ (forall m, ml = Some m -> m <= share) /\
    XykModel.r0 (pair w') = XykModel.r0 (pair w) + d0 /\ XykModel.r1 (pair w') = XykModel.r1 (pair w) + d1 /\
    XykModel.supply (pair w') = XykModel.supply (pair w) + share + (if XykModel.supply (pair w) =? 0 then 1000 else 0) /\
    (forall lp a, position_of lp a (inc w') = position_of lp a (inc w) + if (lp =? lpd c) && (a =? rcv) then share else 0) /\
    (forall a, a <> gen c -> free w' a = free w a + received c a os + if (a =? SELF) && (XykModel.supply (pair w) =? 0) then 1000 else 0) /\
    (forall x, In x os -> match x with Pay _ to _ | Lost _ to _ | Prot to _ => to = rcv | _ => False end).
Proof.
  intros P Ns R H. cbn [step] in H. unbind H as [p po] E. destruct po as [share| | |]; try discriminate. unguard H G. unbind H as [i os] Ei. unbind H as p' Ed. injection H as <- <-.
  bools. exists share, os. split; [reflexivity|]. split; [lia|]. cbn [pair inc].
  destruct (XykLpProps.c58_provide _ _ _ _ _ _ _ _ _ _ R E) as (sh & Q & _ & R0 & R1 & Su & Ml & _). injection Q as <-.
  destruct (provide_lp _ _ _ _ _ _ _ _ _ _ E) as (sh & Q & _ & A). injection Q as <-.
  apply deliver_inv in Ed. destruct Ed as (_ & D & _ & D1 & D2 & D3 & _). split; [exact Ml|]. rewrite D1, D2, D3. split; [exact R0|]. split; [exact R1|]. split; [exact Su|].
  destruct (c34_deposit _ _ _ _ _ _ _ _ Ei) as (_ & K & _). split; [exact K|]. split.
  - intros a Na. unfold free. rewrite D, A. destruct (Z.eqb_spec a (gen c)); [contradiction|]. cbn [pair]. lia.
  - clear - Ei. cbn [IncentivesModel.step] in Ei. unfold deposit in Ei. unguard Ei G. unbind Ei as [q rem] E1. unbind Ei as [ext prot] E2. unbind Ei as a E3. unbind Ei as t E4.
    unbind Ei as s1 E5. unbind Ei as o2 E6. destruct (pay_all (ie e) rcv s1 ext) as [s2 o1] eqn:E7. injection Ei as <- <-. intros x Hx. apply in_app_iff in Hx.
    destruct Hx as [Hx|Hx].
    + clear - E7 Hx. revert s1 s2 o1 E7 Hx. induction ext as [|[b v] r IH]; intros s1 s2 o1 E7 Hx; cbn [pay_all] in E7; [injection E7 as <- <-; destruct Hx|].
      destruct (pay (ie e) rcv s1 (b, v)) as [s3 o3] eqn:E8. destruct (pay_all (ie e) rcv s3 r) as [s4 o4] eqn:E9. injection E7 as <- <-. apply in_app_iff in Hx.
      destruct Hx as [Hx|Hx]; [|eapply IH; eauto]. unfold pay in E8. destruct (v =? 0); [injection E8 as <- <-; destruct Hx|].
      destruct (_ && _); injection E8 as <- <-; destruct Hx as [<-|[]]; reflexivity.
    + unfold pay_prot in E6. destruct (prot =? 0); [injection E6 as <-; destruct Hx|]. unguard E6 G2. injection E6 as <-. destruct Hx as [<-|[]]; reflexivity.
Qed.
Print Assumptions c135_auto_effect.
(** Only for pairs the factory knows. *)
Theorem c135_unregistered c e w who rcv d0 d1 tol ml : lp_ok (ie e) (lpd c) = false -> step c e (AutoStake who rcv d0 d1 tol ml) w = None.
Proof.
  intros L. cbn [step]. destruct (XykModel.step _ _ _) as [[p [share| | |]]|]; auto. destruct (0 <? share); auto. cbn [IncentivesModel.step]. unfold deposit. rewrite L. reflexivity.
Qed.
Print Assumptions c135_unregistered.

(** ** C136: from a staked position back to the two assets *)
Lemma withdraw_outs e who lp n s s' o : IncentivesModel.step e who (Withdraw lp n) s = Some (s', o) -> 0 <= n ->
  forall x, In x o -> match x with Pay _ to v => to = who /\ 0 <= v | Back _ to v => to = who /\ 0 <= v | Fee _ _ => False | _ => True end.
Proof.
  intros H Hn. cbn [IncentivesModel.step] in H. unfold withdraw in H. unbind H as p Ep. unbind H as u Eu. unguard H G. unbind H as [q rem] E1. unbind H as [ext prot] E2.
  unbind H as a E3. unbind H as t E4. unbind H as s1 E5. unbind H as o2 E6. destruct (pay_all e who s1 ext) as [s2 o1] eqn:E7. unguard H G2. injection H as <- <-.
  apply IncentivesInv.due_nn in E2. intros x Hx. apply in_app_iff in Hx. destruct Hx as [Hx|Hx]; [|apply in_app_iff in Hx; destruct Hx as [Hx|[<-|[]]]].
  - clear - E7 Hx E2. revert s1 s2 o1 E7 Hx. induction E2 as [|[b v] r V F IH]; intros s1 s2 o1 E7 Hx; cbn [pay_all] in E7; [injection E7 as <- <-; destruct Hx|].
    destruct (pay e who s1 (b, v)) as [s3 o3] eqn:E8. destruct (pay_all e who s3 r) as [s4 o4] eqn:E9. injection E7 as <- <-. apply in_app_iff in Hx.
    destruct Hx as [Hx|Hx]; [|eapply IH; eauto]. unfold pay in E8. destruct (v =? 0); [injection E8 as <- <-; destruct Hx|].
    destruct (_ && _); injection E8 as <- <-; destruct Hx as [<-|[]]; auto.
  - unfold pay_prot in E6. destruct (prot =? 0); [injection E6 as <-; destruct Hx|]. unguard E6 G3. injection E6 as <-. destruct Hx as [<-|[]]; auto.
  - auto.
Qed.
Lemma received_ge c a n os : (forall x to v, In x os -> leaves c x = Some (to, v) -> 0 <= v) -> In (Back (lpd c) a n) os -> n <= received c a os.
Proof.
  intros F Hi. induction os as [|x r IH]; [destruct Hi|]. unfold received. cbn [fold_right]. fold (received c a r).
  assert (Fr : forall y to v, In y r -> leaves c y = Some (to, v) -> 0 <= v) by (intros y to v I1 I2; apply (F y to v (or_intror I1) I2)).
  assert (P : 0 <= received c a r).
  { clear - Fr. induction r as [|y r IH]; [cbn; lia|]. unfold received. cbn [fold_right]. fold (received c a r).
    assert (0 <= received c a r) by (apply IH; intros y' to v I1 I2; apply (Fr y' to v (or_intror I1) I2)). destruct (leaves c y) as [[to v]|] eqn:E; [|lia].
    pose proof (Fr y to v (or_introl eq_refl) E). destruct (to =? a); lia. }
  destruct Hi as [->|Hi].
  - cbn [leaves]. rewrite !Z.eqb_refl. lia.
  - specialize (IH Fr Hi). destruct (leaves c x) as [[to v]|] eqn:E; [|lia]. pose proof (F x to v (or_introl eq_refl) E). destruct (to =? a); lia.
Qed.

Section Exit.
  Variables (c : cfg) (b : bool) (own fac ast : Z) (grd : option Z) (f : option (Z * Z)) (l : list (wenv * msg)).
  Variables (e : wenv) (who n : Z).
  Let i := init b own fac ast grd f.
  Let w := run c i l.
  Let h := inc_hist c i l.
  Hypotheses (P : 0 <= lpd c) (Ns : gen c <> SELF) (Ht : timed 0 l) (Hl : time_after 0 l <= now (ie e)).
  Hypotheses (Hx : XykSpec.env_ok (xe e)) (Ho : order_ok (ie e)) (Hw1 : who <> SELF) (Hw2 : who <> gen c).
  (** Rewards are removed regularly and all amounts fit (as for C69); the accumulators of the pair fit (as for C134). *)
  Hypotheses (Hr : regular (inc i) h) (He : emissions_ok (inc i) h)
    (Hb : budget 0 (inc i) h (now (ie e)) <= U128MAX) (R : in_range (ie e) (lpd c) (inc w)).
  Hypothesis Ha : XykExitProps.accrues (XykModel.now (xe e)) (pair w).
  Hypotheses (V : vest_ok (ie e) = true) (X : xfer_ok (ie e) (lpd c) = true).
  Hypothesis Hn : 0 < n <= position_of (lpd c) who (inc w).

  (** Whoever has a position can unstake any part of it and redeem it for the proportional share of both reserves. *)
  Theorem c136_exit : exists w1 os w2,
    let a0 := XykModel.r0 (pair w) * (n * 10 ^ 18 / XykModel.supply (pair w)) / 10 ^ 18 in
    let a1 := XykModel.r1 (pair w) * (n * 10 ^ 18 / XykModel.supply (pair w)) / 10 ^ 18 in
    step c e (Stake who (Withdraw (lpd c) n)) w = Some (w1, OStake os) /\ free w who + n <= free w1 who /\
    step c e (Direct (XykModel.Withdraw who n None)) w1 = Some (w2, OPair (XykModel.OWithdraw a0 a1)) /\
    position_of (lpd c) who (inc w2) = position_of (lpd c) who (inc w) - n /\ free w who <= free w2 who.
  Proof.
    destruct (c135_parts c b own fac ast grd f l P Ns Ht) as (A & B & C & D & E). fold i w h in A, B, C, D, E.
    assert (Rx : XykSpec.reachable (pair w)) by (rewrite A; exists b, (pair_hist c i l); auto).
    assert (Cp : coupled c w) by (apply run_coupled; auto; reflexivity).
    pose proof (XykLpProps.c58_supply_is_sum_of_balances _ Rx) as (_ & Fr).
    assert (Hn' : 0 < position_of (lpd c) who (IncentivesModel.run (IncentivesModel.init own fac ast grd f) h)) by (rewrite <- C; lia).
    destruct (c69_exit own fac ast grd f h (ie e) (lpd c) who D Hr He ltac:(lia) Ho Hb ltac:(rewrite <- C; exact R) Hn' n V X ltac:(rewrite <- C; lia))
      as (s' & os & E1 & Hback & _). rewrite <- C in E1.
    assert (Out : forall x to v, In x os -> leaves c x = Some (to, v) -> to = who /\ 0 <= v).
    { intros x to v Hi Le. pose proof (withdraw_outs _ _ _ _ _ _ _ E1 ltac:(lia) x Hi) as Q. destruct x; cbn [leaves] in Le; try discriminate; try contradiction;
        (destruct (_ =? lpd c); [injection Le as <- <-; exact Q|discriminate]). }
    assert (Et : XykModel.step (xe e) (XykModel.LpTransfer who (gen c) 0) (pair w) =
      Some (XykModel.mkState (XykModel.r0 (pair w)) (XykModel.r1 (pair w)) (XykModel.supply (pair w)) (move (XykModel.lp (pair w)) who (gen c) 0)
        (XykModel.c0 (pair w)) (XykModel.c1 (pair w)) (XykModel.last_t (pair w)) (XykModel.fshare (pair w)) (XykModel.track (pair w)) (XykModel.h0 (pair w)) (XykModel.h1 (pair w)), XykModel.ONone)).
    { cbn [XykModel.step]. destruct (Z.eqb_spec who SELF); [contradiction|]. rewrite (proj2 (Z.leb_le 0 (get (XykModel.lp (pair w)) who))) by apply Fr. reflexivity. }
    set (p1 := XykModel.mkState _ _ _ _ _ _ _ _ _ _ _) in Et.
    pose proof (step_bal (lpd c) _ _ _ _ _ _ P E1) as Bal. cbn [attached] in Bal.
    assert (Nb : 0 <= get (bal s') (lpd c)).
    { cbn [IncentivesModel.step] in E1. unfold withdraw in E1. unbind E1 as pp Ep. unbind E1 as u Eu. unguard E1 G. unbind E1 as [q rem] E1'. unbind E1 as [ext prot] E2.
      unbind E1 as a E3. unbind E1 as t E4. unbind E1 as s1 E5. unbind E1 as o2 E6. destruct (pay_all (ie e) who s1 ext) as [s2 o1]. unguard E1 G2. injection E1 as <- _.
      cbn [bal set_bal]. rewrite get_set_same. bools. lia. }
    destruct (deliver_ok c (xe e) os Ns p1) as (p2 & Ed).
    { intros x to v Hi Le. destruct (Out x to v Hi Le) as (-> & ?). auto. }
    { cbn [p1 XykModel.lp]. rewrite get_move, Z.eqb_refl. destruct (Z.eqb_spec (gen c) who); [congruence|]. unfold coupled in Cp. lia. }
    assert (S1 : step c e (Stake who (Withdraw (lpd c) n)) w = Some (mkW p2 s', OStake os)).
    { cbn [step attached is_gift]. destruct (Z.eqb_spec who (gen c)); [contradiction|]. cbn [negb andb]. rewrite Et, E1, Ed. reflexivity. }
    assert (Rx1 : XykSpec.reachable p2).
    { pose proof (step_parts _ _ _ _ _ _ S1) as (Q & _). cbn [pair] in Q. destruct Rx as (b' & lx & O1 & O2). rewrite O2 in Q. exists b'. eexists. split; [|rewrite Q; unfold XykModel.run; rewrite <- fold_left_app; reflexivity].
      apply Forall_app. split; [exact O1|]. constructor; [exact Hx|]. unfold moves. apply Forall_flat_map. apply Forall_forall. intros x _. destruct (leaves c x) as [[to v]|]; [|constructor]. constructor; [exact Hx|constructor]. }
    pose proof (deliver_inv _ _ _ _ _ Ed) as (_ & Dl & _ & D1 & D2 & D3 & D4). cbn [p1 XykModel.lp XykModel.supply XykModel.r0 XykModel.r1 XykModel.last_t] in Dl, D1, D2, D3, D4.
    assert (Rc : n <= received c who os) by (apply received_ge; [intros x to v Hi Le; apply (Out x to v Hi Le)|exact Hback]).
    assert (Fw : get (XykModel.lp p2) who = free w who + received c who os).
    { rewrite Dl, get_move. destruct (Z.eqb_spec who (gen c)); [contradiction|]. rewrite Z.eqb_refl. unfold free. lia. }
    assert (Hd : 0 < n <= get (XykModel.lp p2) who) by (rewrite Fw; unfold free; specialize (Fr who); lia).
    destruct (XykExitProps.c134_exit (xe e) p2 who n None Rx1) as (p3 & E3); [|exact Hw1|exact Hd|exact Logic.I|].
    { unfold XykExitProps.accrues in *. rewrite D2, D3, D4. exact Ha. }
    rewrite D1, D2, D3 in E3.
    assert (Gen3 : get (XykModel.lp p3) (gen c) = get (XykModel.lp p2) (gen c)).
    { pose proof E3 as Q. cbn [XykModel.step] in Q. apply XykProofs.withdraw_inv in Q. destruct Q as (? & ? & _ & _ & _ & _ & _ & _ & _ & _ & _ & Q & _). rewrite Q, get_set_other by auto. reflexivity. }
    assert (Free3 : get (XykModel.lp p3) who = get (XykModel.lp p2) who - n).
    { pose proof E3 as Q. cbn [XykModel.step] in Q. apply XykProofs.withdraw_inv in Q. destruct Q as (? & ? & _ & _ & _ & _ & _ & _ & _ & _ & _ & Q & _). rewrite Q, get_set_same. reflexivity. }
    exists (mkW p2 s'), os, (mkW p3 s'). cbv zeta. split; [exact S1|]. split; [unfold free at 2; cbn [pair]; lia|]. split.
    { cbn [step by_gen pair inc]. destruct (Z.eqb_spec who (gen c)); [contradiction|]. cbn [negb]. rewrite E3. cbv zeta. rewrite Gen3, Z.sub_diag. reflexivity. }
    split; [|unfold free at 2; cbn [pair]; lia]. cbn [inc]. destruct (c34_withdraw _ _ _ _ _ _ _ E1) as (_ & _ & K & _). rewrite K, !Z.eqb_refl. reflexivity.
  Qed.
End Exit.
Print Assumptions c136_exit.

(** ** A case: a deposit, emissions and rewards in another token and in the LP token itself, a deposit staked for user 8. *)
Definition cw : cfg := mkCfg 100 50 60.
Definition wat (t : Z) : wenv := mkE (XykProps.ex_env t 10) (at_ t).
Definition hw : list (wenv * msg) :=
  [(wat t0, Direct (XykModel.Provide 1 1 10000000 40000000 None None));
   (wat t0, Stake 1 (SetTokensPerSecond 1000));
   (wat t0, Stake 1 (SetupPools [(100, 10)]));
   (wat t0, Stake 1 (Incentivize [(100, (5, 2000000, 1)); (100, (100, 2400000, 1))] [(5, 2000000); (100, 2400000)]));
   (wat (t0 + 10), AutoStake 7 8 500000 2000000 None (Some 1000000));
   (wat (t0 + 20), Stake 1 (Deposit 100 1000 None));
   (wat (t0 + 30), Direct (XykModel.LpTransfer 1 50 77))].
Definition wi : world := init true 1 2 3 None None.
Definition ww : world := Eval vm_compute in run cw wi hw.
Lemma ww_eq : run cw wi hw = ww. Proof. vm_compute. reflexivity. Qed.
Definition hi : list (env * Z * IncentivesModel.msg) :=
  [(at_ t0, 1, SetTokensPerSecond 1000);
   (at_ t0, 1, SetupPools [(100, 10)]);
   (at_ t0, 1, Incentivize [(100, (5, 2000000, 1)); (100, (100, 2400000, 1))] [(5, 2000000); (100, 2400000)]);
   (at_ (t0 + 10), 0, Deposit 100 1000000 (Some 8));
   (at_ (t0 + 20), 1, Deposit 100 1000 None);
   (at_ (t0 + 30), 50, Donate 100 77)].
Lemma hi_eq : inc_hist cw wi hw = hi. Proof. vm_compute. reflexivity. Qed.
Lemma wat_ok t m : match m with Stake _ m => unsigned m | _ => True end -> event_ok (wat t) m.
Proof. intros U. split; [reflexivity|]. split; [apply XykProps.ex_env_ok|]. split; [apply at_order|exact U]. Qed.
Example hw_timed : timed 0 hw.
Proof.
  unfold hw. cbn [timed wat ie at_ now].
  repeat (split; [vm_compute; discriminate|]; split; [apply wat_ok; first [exact Logic.I|cbn [unsigned]; repeat constructor; vm_compute; congruence]|]). exact Logic.I.
Qed.
(** The hypotheses of [c136_exit]. *)
Example hw_meets : 0 <= lpd cw /\ gen cw <> SELF /\ timed 0 hw /\ time_after 0 hw <= now (ie (wat (t0 + 100000))) /\
  regular (inc wi) (inc_hist cw wi hw) /\ emissions_ok (inc wi) (inc_hist cw wi hw) /\
  budget 0 (inc wi) (inc_hist cw wi hw) (t0 + 100000) <= U128MAX /\ in_range (at_ (t0 + 100000)) 100 (inc (run cw wi hw)) /\
  XykExitProps.accrues (t0 + 100000) (pair (run cw wi hw)) /\ position_of 100 8 (inc (run cw wi hw)) = 1000000.
Proof.
  split; [discriminate|]. split; [discriminate|]. split; [exact hw_timed|]. split; [vm_compute; discriminate|]. rewrite hi_eq, ww_eq.
  split; [repeat (split; [exact Logic.I|]); exact Logic.I|]. split.
  { unfold hi. cbn [emissions_ok emission_ok]. split; [lia|]. split; [repeat constructor; simpl; lia|]. repeat (split; [exact Logic.I|]). exact Logic.I. }
  split; [vm_compute; discriminate|]. split.
  { split; [vm_compute; split; discriminate|]. split.
    - intros A. cbn [bal inc ww get]. repeat (destruct (_ =? A); [vm_compute; discriminate|]). vm_compute. discriminate.
    - assert (Q : exists p, find 100 (lps (inc ww)) = Some p /\ Forall (fun x => idx x < 2 ^ 255) (rewards (pl p))).
      { eexists. split; [vm_compute; reflexivity|]. repeat constructor; vm_compute; reflexivity. }
      destruct Q as (p & -> & Q). rewrite Forall_forall in Q. exact Q. }
  split; [|vm_compute; reflexivity]. unfold XykExitProps.accrues. cbv zeta. right. right. right. vm_compute. intuition congruence.
Qed.
(** User 8, who never deposited anything, unstakes and redeems. *)
Example hw_exit : exists w1 w2,
  step cw (wat (t0 + 100000)) (Stake 8 (Withdraw 100 1000000)) (run cw wi hw) =
    Some (w1, OStake [Pay 5 8 191526; Pay 100 8 229831; Prot 8 99900119; Back 100 8 1000000]) /\ free w1 8 = 1229831 /\
  step cw (wat (t0 + 100000)) (Direct (XykModel.Withdraw 8 1000000 None)) w1 = Some (w2, OPair (XykModel.OWithdraw 499999 1999999)) /\
  free w2 8 = 229831 /\ free w2 50 = 1000 + 77 + (2400000 - 229831).
Proof. rewrite ww_eq. do 2 eexists. split; [vm_compute; reflexivity|]. split; [vm_compute; reflexivity|]. split; [vm_compute; reflexivity|]. split; vm_compute; reflexivity. Qed.
(** The deposit that was staked for user 8, and the same in two steps. *)
Definition w4 : world := Eval vm_compute in run cw wi (firstn 4 hw).
Example hw_auto : XykSpec.reachable (pair w4) /\
  option_map snd (step cw (wat (t0 + 10)) (AutoStake 7 8 500000 2000000 None (Some 1000000)) w4) = Some (OAuto 1000000 []) /\
  step cw (wat (t0 + 10)) (AutoStake 7 8 500000 2000000 None (Some 1000001)) w4 = None /\
  position_of 100 8 (inc (exec cw w4 (wat (t0 + 10), AutoStake 7 8 500000 2000000 None None))) = 1000000 /\
  free (exec cw w4 (wat (t0 + 10), AutoStake 7 8 500000 2000000 None None)) 7 = 0.
Proof.
  split; [|split; [vm_compute; reflexivity|split; [vm_compute; reflexivity|split; vm_compute; reflexivity]]].
  exists true, (pair_hist cw wi (firstn 4 hw)). split; [|vm_compute; reflexivity]. repeat constructor; apply XykProps.ex_env_ok.
Qed.
