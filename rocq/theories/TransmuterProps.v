(** Theorems C26, C27, C53, C54: transmuter pair. *)
From Coq Require Import ZArith Lia Bool List.
From Verif Require Import Num Ledger TransmuterModel TransmuterSpec TransmuterProofs.
Import ListNotations.
Open Scope Z_scope.

(** Any pool (decimals are an unsigned byte) after any history. *)
Definition reachable (s : state) : Prop :=
  exists decs s0 l, (forall p, In p decs -> 0 <= snd p) /\ init decs = Some s0 /\ s = run s0 l.
Lemma reachable_inv s : reachable s -> inv s.
Proof. intros (decs & s0 & l & D & I & ->). apply run_inv. eapply init_inv; eauto. Qed.

(** Three assets with 6, 18 and 8 decimals. *)
Definition ex_decs := [(1, 6); (2, 18); (3, 8)].
Definition ex0 : state := mkState [(1, 10 ^ 12); (2, 1); (3, 10 ^ 10)] [] [].
Definition ex_hist : list msg :=
  [ Provide 7 [(1, 5000000); (3, 100)] [(1, 5000000); (3, 100)]; Provide 8 [(2, 3 * 10 ^ 18)] [(2, 3 * 10 ^ 18)];
    Swap (2, 10 ^ 18 + 77) (Some 1); Donate [(2, 5)]; Withdraw 7 1000000000001 []; Withdraw 8 (10 ^ 18) [(1, 1)] ].
Definition ex : state := run ex0 ex_hist.
Lemma ex_init : init ex_decs = Some ex0. Proof. vm_compute. reflexivity. Qed.
Lemma ex_reachable : reachable ex.
Proof.
  exists ex_decs, ex0, ex_hist. split; [|split; [apply ex_init | reflexivity]].
  unfold ex_decs. simpl. intros p H. repeat destruct H as [<-|H]; simpl; lia || tauto.
Qed.

(** C26: LP tokens are always fully backed. *)
Theorem c26_fully_backed s : reachable s -> total (lp s) <= reserves (cfg s) (pools s).
Proof. intros R. exact (i_back _ (reachable_inv _ R)). Qed.
(** Over any history: what was brought in minus what was paid out is what the pool holds, which covers
    all LP tokens outstanding. *)
Theorem c26_no_value_extracted decs s0 l :
  (forall p, In p decs -> 0 <= snd p) -> init decs = Some s0 ->
  fst (flows s0 l) - snd (flows s0 l) = reserves (cfg s0) (pools (run s0 l)) /\
  total (lp (run s0 l)) <= fst (flows s0 l) - snd (flows s0 l).
Proof.
  intros D I. pose proof (init_inv _ _ D I) as K. pose proof (flows_eq l s0 K) as F.
  assert (Z0 : reserves (cfg s0) (pools s0) = 0).
  { unfold init in I. unbind I as c Ec. injection I as <-. simpl. clear. induction c as [|[d k] c IH]; simpl in *; lia. }
  assert (C : cfg (run s0 l) = cfg s0).
  { clear. revert s0. induction l as [|m l IH]; intros s0; auto. cbn [run fold_left].
    change (fold_left exec l (exec s0 m)) with (run (exec s0 m) l). rewrite IH. unfold exec.
    destruct (step m s0) as [[s' o]|] eqn:E; auto. eapply step_cfg; eauto. }
  pose proof (i_back _ (run_inv l s0 K)) as B. rewrite C in B. lia.
Qed.
(** One withdrawal: never more than the burned share of the reserves; a withdrawal of chosen assets burns
    exactly their worth and pays exactly them. *)
Theorem c26_withdraw s u amount assets s' outs :
  reachable s -> step (Withdraw u amount assets) s = Some (s', outs) ->
  let burned := total (lp s) - total (lp s') in
  0 <= burned <= amount /\ get (lp s') u = get (lp s) u - burned /\
  worth (cfg s) outs * total (lp s) <= reserves (cfg s) (pools s) * burned /\
  (assets <> [] -> outs = assets /\ burned = worth (cfg s) assets).
Proof.
  intros R H. apply reachable_inv in R. cbv zeta. simpl in H.
  unguard H E1. unguard H E2. unbind H as [bu ou] Ew. unbind H as p Ep. injection H as <- <-. bools.
  pose proof (get_le_total _ u (i_lp _ R)).
  assert (Fa : Forall (fun a => 0 <= snd a) assets).
  { apply Forall_forall. intros a Ha. rewrite forallb_forall in E2. apply E2 in Ha. bools. lia. }
  apply withdraw_spec in Ew; auto; [|lia]. cbn [lp]. rewrite total_set, get_set_same.
  replace (total (lp s) - (total (lp s) - get (lp s) u + (get (lp s) u - bu))) with bu by lia.
  destruct Ew as (W1 & W2 & W3 & W4). auto.
Qed.
(** Whoever holds LP tokens can always take out any single asset worth at most that much, as far as the
    pool holds it. *)
Theorem c26_redeemable s u amount d x :
  reachable s -> in_pool (cfg s) d = true -> 0 < amount <= get (lp s) u -> amount <= U128MAX ->
  0 <= x <= get (pools s) d -> get (pools s) d <= U128MAX -> unit_value (cfg s) d * x <= amount ->
  exists s', step (Withdraw u amount [(d, x)]) s = Some (s', [(d, x)]).
Proof.
  intros R Hd Ha Ha' Hx Hp Hw. apply reachable_inv in R. destruct (i_cfg _ R) as [N F].
  assert (exists k, coef (cfg s) d = Some k) as [k Ek].
  { unfold coef. clear - Hd. induction (cfg s) as [|[e k] c IH]; simpl in *; [discriminate|].
    destruct (e =? d); eauto. }
  pose proof (coef_pos _ _ _ (i_cfg _ R) Ek). pose proof (coef_unit _ _ _ Ek) as Eu. rewrite Eu in Hw.
  assert (0 <= x * k) by nia.
  simpl. rewrite (proj2 (Z.ltb_lt 0 amount)) by lia. rewrite (proj2 (Z.leb_le amount _)) by lia. simpl.
  rewrite (proj2 (Z.leb_le 0 x)) by lia. simpl. rewrite Hd.
  unfold sub128 at 1, u128. rewrite (proj2 (fits_iff U128MAX _)) by lia.
  unfold normalize. simpl. rewrite Ek. unfold mul128, u128. rewrite (proj2 (fits_iff U128MAX _)) by lia.
  unfold add128, u128. rewrite (proj2 (fits_iff U128MAX _)) by lia.
  unfold sub128, u128. rewrite (proj2 (fits_iff U128MAX _)) by lia.
  cbn [debit]. unfold sub128, u128. rewrite (proj2 (fits_iff U128MAX _)) by lia. eauto.
Qed.
(** Provide and then withdraw what was minted: the gain is at most the surplus of the pool. *)
Theorem c26_round_trip s u assets funds s1 o1 amount outs_assets s2 outs :
  reachable s -> step (Provide u assets funds) s = Some (s1, o1) ->
  amount = total (lp s1) - total (lp s) ->
  step (Withdraw u amount outs_assets) s1 = Some (s2, outs) ->
  worth (cfg s) outs <= worth (cfg s) funds + (reserves (cfg s) (pools s) - total (lp s)).
Proof.
  intros R H1 Ha H2. apply reachable_inv in R.
  pose proof (step_inv _ _ _ _ R H1) as I1. pose proof (step_worth _ _ _ _ R H1) as W1.
  pose proof (step_worth _ _ _ _ I1 H2) as W2. pose proof (step_inv _ _ _ _ I1 H2) as I2.
  assert (O : o1 = []). { simpl in H1. unguard H1 E1. unbind H1 as sh Es. congruence. }
  subst o1. pose proof (step_cfg _ _ _ _ H1) as C1. pose proof (step_cfg _ _ _ _ H2) as C2.
  rewrite C1 in W2. cbn [brought] in *. simpl (worth _ []) in *.
  assert (T2 : total (lp s) <= total (lp s2)).
  { simpl in H2. unguard H2 E1. unguard H2 E2. unbind H2 as [bu ou] Ew. unbind H2 as p Ep. injection H2 as <- <-.
    bools. cbn [lp]. rewrite total_set. pose proof (get_le_total _ u (i_lp _ I1)).
    assert (Fa : Forall (fun a => 0 <= snd a) outs_assets).
    { apply Forall_forall. intros a Hin. rewrite forallb_forall in E2. apply E2 in Hin. bools. lia. }
    apply withdraw_spec in Ew; auto; [|lia]. lia. }
  pose proof (i_back _ I2) as B2. rewrite C2, C1 in B2. lia.
Qed.
(** The surplus (donations, swap rounding) can indeed be taken this way, so the round trip can pay. *)
Theorem c26_round_trip_never_profitable_refuted :
  exists s u assets funds s1 o1 s2 outs,
    reachable s /\ step (Provide u assets funds) s = Some (s1, o1) /\
    step (Withdraw u (total (lp s1) - total (lp s)) []) s1 = Some (s2, outs) /\
    worth (cfg s) funds < worth (cfg s) outs.
Proof.
  exists (run ex0 [Provide 7 [(2, 1000)] [(2, 1000)]; Donate [(2, 1000)]]), 9, [(2, 1000000)], [(2, 1000000)].
  eexists. eexists. eexists. eexists.
  split; [exists ex_decs, ex0; eexists; split; [|split; [apply ex_init | reflexivity]]|].
  { unfold ex_decs. simpl. intros p H. repeat destruct H as [<-|H]; simpl; lia || tauto. }
  split; [vm_compute; reflexivity|]. split; [vm_compute; reflexivity|]. vm_compute. reflexivity.
Qed.
Example c26_example :
  total (lp ex) = 7999998999999999999 /\ reserves (cfg ex) (pools ex) = 7999999500000062582 /\
  exists s1, step (Withdraw 8 (10 ^ 18) [(1, 999999); (3, 1)]) ex = Some (s1, [(1, 999999); (3, 1)]) /\
  step (Withdraw 8 (10 ^ 18) [(1, 1000000); (3, 1)]) ex = None.
Proof. vm_compute. split; [reflexivity|]. split; [reflexivity|]. eexists. split; reflexivity. Qed.

(** C27: swaps are one to one in value, rounded down to one unit of the asked asset. *)
Theorem c27_swap_value s offer ask s' outs :
  reachable s -> step (Swap offer ask) s = Some (s', outs) ->
  exists ad a, outs = [(ad, a)] /\ in_pool (cfg s) ad = true /\ in_pool (cfg s) (fst offer) = true /\
    0 < unit_value (cfg s) ad /\
    unit_value (cfg s) ad * a <= unit_value (cfg s) (fst offer) * snd offer < unit_value (cfg s) ad * (a + 1) /\
    (ad <> fst offer -> a <= get (pools s) ad /\
       get (pools s') ad = get (pools s) ad - a /\ get (pools s') (fst offer) = get (pools s) (fst offer) + snd offer) /\
    (ad <> fst offer \/ (ask = Some ad /\ a = snd offer)) /\ lp s' = lp s.
Proof.
  intros R H. apply reachable_inv in R. cbn [step] in H. unguard H E1. unbind H as [ad a] Eo. unbind H as p Ep.
  injection H as <- <-. bools. pose proof Eo as Eo'. apply swap_out_spec in Eo; [|exact (i_cfg _ R)|lia].
  destruct Eo as (A1 & A2 & A3 & A4 & A5 & A6 & _).
  exists ad, a. destruct offer as [od oa]. cbn [fst snd credit debit pools lp cfg] in *.
  unbind Ep as v Ev. injection Ep as <-. num_inv.
  repeat (split; [solve [auto]|]). split; [|split; [|auto]].
  - intros N. rewrite get_set_other in * by auto. rewrite get_set_same, !get_set_other, get_set_same by auto. auto.
  - destruct (Z.eq_dec ad od) as [->|N]; [|auto]. right.
    assert (a = oa) by nia. split; [|auto].
    unfold swap_out in Eo'. unbind Eo' as n En. unbind Eo' as d Ed. unguard Eo' Ei. unbind Eo' as x Ex.
    unguard Eo' Eg. injection Eo' as -> ->.
    destruct (2 <? Z.of_nat (length (cfg s))); [auto|].
    destruct (List.find _ (cfg s)) as [q|] eqn:Q; [|discriminate]. simpl in Ed. injection Ed as Ed.
    apply List.find_some in Q. destruct Q as [_ Q]. simpl in Q. rewrite Ed, Z.eqb_refl in Q. discriminate.
Qed.
Theorem c27_there_and_back s d1 x d2 y s1 s2 z ask1 ask2 :
  reachable s -> step (Swap (d1, x) ask1) s = Some (s1, [(d2, y)]) ->
  step (Swap (d2, y) ask2) s1 = Some (s2, [(d1, z)]) -> z <= x.
Proof.
  intros R H1 H2.
  assert (R1 : reachable s1).
  { destruct R as (decs & s0 & l & D & I & ->). exists decs, s0, (l ++ [Swap (d1, x) ask1]).
    split; [|split]; auto. unfold run. rewrite fold_left_app. simpl. fold (run s0 l).
    unfold exec. rewrite H1. auto. }
  pose proof (step_cfg _ _ _ _ H1) as C.
  destruct (c27_swap_value _ _ _ _ _ R H1) as (ad & a & Eq & _ & _ & _ & V1 & _). injection Eq as <- <-.
  destruct (c27_swap_value _ _ _ _ _ R1 H2) as (ad & a & Eq & _ & _ & P & V2 & _). injection Eq as <- <-.
  rewrite C in *. simpl in *. nia.
Qed.
(** The simulation query (same function, before the offer arrives) predicts the swap, except that a
    swap into the offered asset itself also sees the arriving coins. *)
Theorem c27_simulation s offer ask out :
  reachable s -> 0 < snd offer <= U128MAX -> (forall d, get (pools s) d <= U128MAX) ->
  swap_out (cfg s) (pools s) offer ask = Some out -> fst out <> fst offer ->
  exists s', step (Swap offer ask) s = Some (s', [out]).
Proof.
  intros R Ho Hm H N. apply reachable_inv in R. destruct out as [ad a]. pose proof H as H0.
  apply swap_out_spec in H; [|exact (i_cfg _ R)|lia]. destruct H as (A1 & _ & _ & _ & _ & A6 & _).
  destruct offer as [od oa]. cbn [fst snd] in *. cbn [step fst snd].
  rewrite (proj2 (Z.ltb_lt 0 oa)) by lia. rewrite (proj2 (Z.leb_le oa U128MAX)) by lia.
  cbn [andb credit].
  assert (Q : swap_out (cfg s) (set (pools s) od (get (pools s) od + oa)) (od, oa) ask = Some (ad, a)).
  { unfold swap_out in *. unbind H0 as n En. unbind H0 as d Ed. unguard H0 Ei. unbind H0 as y Ey.
    unguard H0 Eg. injection H0 as -> ->. rewrite get_set_other by auto. rewrite Eg. auto. }
  rewrite Q. cbn [debit]. rewrite get_set_other by auto. unfold sub128, u128.
  specialize (Hm ad). rewrite (proj2 (fits_iff U128MAX _)) by lia. eauto.
Qed.
Example c27_example : exists s1 s2,
  step (Swap (2, 1234567890123) (Some 1)) ex = Some (s1, [(1, 1)]) /\
  step (Swap (1, 1) (Some 2)) s1 = Some (s2, [(2, 1000000000000)]).
Proof. wit. Qed.

(** C53: a provide credits exactly what it lists; that is everything sent iff all coins are listed. *)
Theorem c53_listed_coins_are_credited s u assets funds s' o :
  reachable s -> step (Provide u assets funds) s = Some (s', o) ->
  get (lp s') u = get (lp s) u + worth (cfg s) assets /\
  worth (cfg s) assets <= worth (cfg s) funds /\
  (forall a, In a assets -> get funds (fst a) = snd a) /\
  ((forall f, In f funds -> In (fst f) (map fst assets)) -> worth (cfg s) assets = worth (cfg s) funds).
Proof.
  intros R H. apply reachable_inv in R. simpl in H. unguard H E1. unbind H as sh Es. injection H as <- <-.
  pose proof Es as Es'. apply provide_share_eq in Es; [|exact (i_cfg _ R)|auto]. destruct Es as [S1 S2].
  cbn [lp]. rewrite get_set_same. split; [lia|]. split; [lia|].
  unfold provide_share in Es'. unguard Es' Eu. unguard Es' Ec. unfold coins_ok, funds_ok in *. bools.
  match goal with X : forallb (fun a => in_pool _ (fst a) && _) _ = true |- _ => rename X into M end.
  split.
  - intros a Ha. rewrite forallb_forall in M. apply M in Ha. unfold sent in Ha. bools. auto.
  - intros All. rewrite (assets_match _ _ _ M). apply worth_eq_funds; auto using unique_NoDup.
Qed.
(** Coins of a pool asset which are sent but not listed are taken without being credited. *)
Theorem c53_every_sent_coin_is_credited_refuted :
  exists s u assets funds s' o,
    reachable s /\ step (Provide u assets funds) s = Some (s', o) /\
    get (lp s') u = get (lp s) u + 1 /\ worth (cfg s) funds = 1000000000001.
Proof.
  exists ex, 5, [(2, 1)], [(1, 1); (2, 1)]. eexists. eexists. split; [apply ex_reachable|].
  split; [vm_compute; reflexivity|]. split; [vm_compute; reflexivity|]. vm_compute; reflexivity.
Qed.
Example c53_example : exists s1,
  step (Provide 5 [(3, 7); (1, 2)] [(1, 2); (3, 7)]) ex = Some (s1, []) /\ get (lp s1) 5 = 2070000000000.
Proof. wit. Qed.

(** C54: reverse simulation. Exact when the asked worth is a whole number of offer units... *)
Theorem c54_reverse_exact s od ask q :
  reachable s -> in_pool (cfg s) od = true -> 2 < Z.of_nat (length (cfg s)) ->
  reverse_swap (cfg s) (pools s) (Some od) ask = Some q -> 0 < q <= U128MAX -> od <> fst ask ->
  (forall d, get (pools s) d <= U128MAX) ->
  (unit_value (cfg s) od | unit_value (cfg s) (fst ask) * snd ask) ->
  exists s', step (Swap (od, q) (Some (fst ask))) s = Some (s', [ask]).
Proof.
  intros R Ho L H Hq N Hm Dv. pose proof (reachable_inv _ R) as I. unfold reverse_swap in H. rewrite Ho in H.
  unguard H Ei. unbind H as n En. unguard H Eg. unfold denormalize in H. unbind H as k Ek. unguard H Ez.
  injection H as <-. pose proof (coef_pos _ _ _ (i_cfg _ I) Ek) as Kp. pose proof (coef_unit _ _ _ Ek) as Eu.
  pose proof En as En'. apply normalize_eq in En'. rewrite Eu, <- En' in Dv. destruct Dv as [w Dw].
  assert (Q : n / k = w) by (rewrite Dw; apply Z.div_mul; lia). rewrite Q in *.
  unfold normalize in En. unbind En as ka Eka. apply mul128_Some in En. destruct En as [En Rn].
  pose proof (coef_pos _ _ _ (i_cfg _ I) Eka) as Kap. pose proof (coef_unit _ _ _ Eka) as Eua.
  assert (Sn : 0 <= snd ask) by nia. bools.
  destruct ask as [ad a]. cbn [fst snd] in *.
  apply (c27_simulation s (od, w) (Some ad) (ad, a)); auto.
  unfold swap_out. unfold normalize. cbn [fst snd]. rewrite Ek. unfold mul128, u128.
  rewrite (proj2 (fits_iff U128MAX _)) by lia. rewrite (proj2 (Z.ltb_lt 2 _)) by lia.
  rewrite Ei. unfold denormalize. rewrite Eka. destruct (Z.eqb_spec ka 0); [lia|]. cbn [negb].
  rewrite <- Dw, En, Z.div_mul by lia.
  rewrite (proj2 (Z.leb_le a _)); [reflexivity|]. nia.
Qed.
(** ... otherwise the quote is too low (even zero), and feasible requests are refused because the raw
    reserve is compared with the normalised amount. *)
Theorem c54_reverse_quote_suffices_refuted :
  exists s od ask,
    reachable s /\ reverse_swap (cfg s) (pools s) (Some od) ask = Some 0 /\ 0 < snd ask <= get (pools s) (fst ask).
Proof.
  exists ex, 1, (2, 5). split; [apply ex_reachable|]. split; [vm_compute; reflexivity|].
  vm_compute. split; [reflexivity|discriminate].
Qed.
Theorem c54_feasible_request_refused_refuted :
  exists s od x ask s',
    reachable s /\ step (Swap (od, x) (Some (fst ask))) s = Some (s', [ask]) /\
    reverse_swap (cfg s) (pools s) (Some od) ask = None.
Proof.
  exists ex, 2, (10 ^ 18), (1, 1000000). eexists. split; [apply ex_reachable|].
  split; [vm_compute; reflexivity|]. vm_compute. reflexivity.
Qed.
Example c54_example : exists s1,
  reverse_swap (cfg ex) (pools ex) (Some 1) (2, 3000000000000) = Some 3 /\
  step (Swap (1, 3) (Some 2)) ex = Some (s1, [(2, 3000000000000)]).
Proof. wit. Qed.

Print Assumptions c26_fully_backed.
Print Assumptions c26_no_value_extracted.
Print Assumptions c26_withdraw.
Print Assumptions c26_redeemable.
Print Assumptions c26_round_trip.
Print Assumptions c26_round_trip_never_profitable_refuted.
Print Assumptions c27_swap_value.
Print Assumptions c27_there_and_back.
Print Assumptions c27_simulation.
Print Assumptions c53_listed_coins_are_credited.
Print Assumptions c53_every_sent_coin_is_credited_refuted.
Print Assumptions c54_reverse_exact.
Print Assumptions c54_reverse_quote_suffices_refuted.
Print Assumptions c54_feasible_request_refused_refuted.
