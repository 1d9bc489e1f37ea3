(** C141: the maker sells its fees at the pairs' prices. *)
From Coq Require Import ZArith Bool List Lia Permutation.
From Verif Require Import Num Ledger MakerModel MakerSpec MakerProofs MakerPoolModel MakerPoolSpec MakerPoolProofs.
From Verif Require XykModel XykSpec XykProofs.
Import ListNotations.
Open Scope Z_scope.

(** ** C141 *)

(** Every collection over the pairs is a collection of the maker for some quotes, with the same effects: all that is proved of
    the maker for arbitrary quotes (C45-C47, C75-C79, C118) holds here. *)
Theorem c141_refines e sender l w w' os :
  reachable w -> env_ok e -> step e (Maker sender (Collect l)) w = Some (w', os) ->
  exists quotes, let e' := MakerModel.mkEnv (self e) (now e) (height e)
    (fun f a b => (f =? fac e) && match lookup (reg w) a b with Some _ => true | None => false end) quotes (order e) (zero_ok e) in
  sane e' /\ MakerModel.step e' sender (Collect l) (mk w) = Some (mk w', os).
Proof.
  intros R (_ & Od) H. apply reachable_inv in R. destruct R as [A _ _ _ _]. destruct (collect_story _ _ _ _ _ _ A H) as (_ & _ & C).
  exists (tape (swaps os)). cbv zeta. split; [|exact C]. split; [|exact Od]. intros f a. cbn [pool].
  destruct (lookup (reg w) a a) as [p|] eqn:L; [|apply andb_false_r]. exfalso.
  unfold lookup in L. apply find_some in L. destruct L as (I & L). bools. unfold is_pair in H0. apply (A _ I). apply orb_prop in H0. destruct H0 as [X|X]; bools; congruence.
Qed.

(** A collection's swaps are swaps of the listed pairs, one after the other; nothing else happens to any pair. *)
Theorem c141_story e sender l w w' os :
  reachable w -> step e (Maker sender (Collect l)) w = Some (w', os) ->
  reg w' = reg w /\ story e (reg w) (spread (cfg (mk w))) (sts w) os (sts w').
Proof. intros R H. apply reachable_inv in R. destruct R as [A _ _ _ _]. destruct (collect_story _ _ _ _ _ _ A H) as (B & C & _). auto. Qed.

(** Each sale gives at least the worth of the amount at the price that the pair has at that moment, less the configured maximal spread
    and the pair's fee. *)
Theorem c141_price e sender l w w' o1 a b v q o2 :
  reachable w -> env_ok e -> step e (Maker sender (Collect l)) w = Some (w', o1 ++ Swapped a b v q :: o2) ->
  exists f p one, story e (reg w) (spread (cfg (mk w))) (sts w) o1 f /\ trades_at (reg w) p a b one /\
  let x := offer_of (f (pid p)) one in let y := ask_of (f (pid p)) one in
  0 < v /\ 0 < x /\ 0 < y /\ q <= y /\
  worth v x y (spread (cfg (mk w))) (XykModel.total_fee (fees e (pid p))) q.
Proof.
  intros R Ok H. apply reachable_inv in R. destruct R as [A P Rc G NN]. destruct (collect_story _ _ _ _ _ _ A H) as (_ & S & _).
  destruct (story_split _ _ _ _ _ _ _ _ _ _ _ S) as (h & p & one & s' & so & S1 & T & Sw & Q & S2).
  exists h, p, one. split; [exact S1|]. split; [exact T|]. cbv zeta.
  pose proof (story_reach _ _ _ _ _ _ Ok S1 Rc (pid p)) as Rp. pose proof (proj1 Ok (pid p)) as Op. destruct G as (_ & G & _). unfold MAX_SPREAD in G.
  assert (G' : 0 <= spread (cfg (mk w)) <= 500000000000000000) by lia.
  destruct (sale_worth (XykModel.mkEnv (now e) (height e) (fees e (pid p)) (fowner e)) _ _ _ _ _ _ Rp Op G' Sw) as (A1 & A2 & A3 & A4 & A5 & A6 & A7 & A8).
  assert (A9 : 0 <= ask_of s' one).
  { assert (R' : XykSpec.reachable s').
    { assert (X : s' = XykModel.run (h (pid p)) [(XykModel.mkEnv (now e) (height e) (fees e (pid p)) (fowner e), XykModel.Swap one v None (Some (spread (cfg (mk w)))))]).
      { unfold XykModel.run. cbn [fold_left]. unfold XykModel.exec. cbn [fst snd]. rewrite Sw. reflexivity. }
      rewrite X. apply xyk_reach; [exact Rp|]. constructor; [exact Op|constructor]. }
    apply XykProofs.reachable_inv0 in R'. destruct R' as [J0 J1 _ _ _ _]. unfold ask_of. destruct one; assumption. }
  split; [exact A1|]. split; [exact A2|]. split; [exact A3|]. split; [rewrite Q; destruct (mine e); lia|].
  unfold worth in *. cbn [XykModel.fees] in A4. rewrite Q.
  assert (XykModel.so_return so * (DEC * DEC * DEC) * offer_of (h (pid p)) one <=
    (XykModel.so_return so + (if mine e then XykModel.so_maker so else 0)) * (DEC * DEC * DEC) * offer_of (h (pid p)) one).
  { pose proof DEC_pos. apply Z.mul_le_mono_nonneg_r; [lia|]. apply Z.mul_le_mono_nonneg_r; [nia|]. destruct (mine e); lia. }
  lia.
Qed.

(** To every pair a collection is a number of swaps that anybody could have made: holders of its LP tokens keep what they have, and all
    that is proved of the pair (C01-C10) holds. *)
Theorem c141_pairs e sender l w w' os :
  reachable w -> env_ok e -> step e (Maker sender (Collect l)) w = Some (w', os) -> forall i,
  XykSpec.reachable (sts w' i) /\ XykModel.supply (sts w' i) = XykModel.supply (sts w i) /\ XykModel.lp (sts w' i) = XykModel.lp (sts w i) /\
  exists h, sts w' i = XykModel.run (sts w i) h /\ XykSpec.envs_ok h /\
    Forall (fun em => exists one v, snd em = XykModel.Swap one v None (Some (spread (cfg (mk w))))) h.
Proof.
  intros R Ok H i. apply reachable_inv in R. destruct R as [A P Rc G NN]. destruct (collect_story _ _ _ _ _ _ A H) as (_ & S & _).
  split; [exact (story_reach _ _ _ _ _ _ Ok S Rc i)|]. destruct (story_pool _ _ _ _ _ _ S i) as (h & E & F).
  destruct (sells_lp _ _ _ h (sts w i) F) as (L1 & L2 & _). rewrite E. split; [exact L1|]. split; [exact L2|].
  exists h. split; [reflexivity|]. split; [eapply Forall_impl; [|exact F]; intros em (-> & _); unfold XykSpec.env_ok; apply Ok|].
  eapply Forall_impl; [|exact F]. intros em (_ & X). exact X.
Qed.

(** Of every asset the maker and the pairs together lose exactly what the collection pays out, but for the parts of the commissions
    that go to recipients of a fee share or to a fee address other than the maker; and never less. *)
Theorem c141_coins e sender l w w' os a :
  reachable w -> env_ok e -> step e (Maker sender (Collect l)) w = Some (w', os) ->
  total a w' + outgoing a os <= total a w /\ (no_leak e w -> total a w' + outgoing a os = total a w).
Proof.
  intros R Ok H. apply reachable_inv in R. destruct R as [A P Rc G NN]. destruct (collect_story _ _ _ _ _ _ A H) as (Rg & S & C).
  assert (St : MakerModel.step (menv e (reg w) (tape (swaps os))) sender (Collect l) (mk w) = Some (mk w', os)) by exact C.
  destruct (step_flow _ _ _ _ _ _ St ltac:(discriminate)) as (Fl & _). specialize (Fl a). rewrite spent_sold in Fl.
  destruct G as (_ & G & _). unfold MAX_SPREAD in G.
  assert (G' : 0 <= spread (cfg (mk w)) <= 500000000000000000) by lia.
  destruct (story_coins e (reg w) _ Ok G' A P _ _ _ S Rc a) as (B1 & B2). unfold total. rewrite Rg. split; [lia|].
  intros (M & F). specialize (B2 M F). lia.
Qed.

(** What the maker has to sell: a message to a pair adds exactly the maker's part of the commission, in the asset bought, while the maker
    is the fee address; nothing else about the maker changes. *)
Theorem c141_income e i m w w' os :
  step e (Pair i m) w = Some (w', os) ->
  exists p s' o, In p (pairs (reg w)) /\ pid p = i /\
    XykModel.step (XykModel.mkEnv (now e) (height e) (fees e i) (fowner e)) m (sts w i) = Some (s', o) /\
    (forall j, sts w' j = if j =? i then s' else sts w j) /\
    (forall a, holds (mk w') a = holds (mk w) a + (if mine e then maker_part p m o a else 0)) /\
    mk w' = set_bal (mk w) (bal (mk w')) /\ reg w' = reg w.
Proof.
  intros H. destruct (pair_step _ _ _ _ _ _ H) as (p & s' & o & s & I & Ei & St & Cr & -> & ->). exists p, s', o.
  split; [exact I|]. split; [exact Ei|]. unfold xenv in St. rewrite Ei in St. split; [exact St|]. cbn [sts mk reg].
  split; [intros j; reflexivity|]. split; [|split; [|reflexivity]].
  - intros a. unfold holds. unfold credit in Cr. unfold maker_part. destruct m; try (injection Cr as <-; destruct (mine e); lia).
    destruct o; try (injection Cr as <-; destruct (mine e); lia). destruct (mine e); [|injection Cr as <-; lia].
    unbind Cr as n E. injection Cr as <-. cbn [set_bal bal]. apply add128_Some in E. destruct E as (E & _).
    destruct (Z.eqb_spec a (if offer_ind then pa0 p else pa1 p)) as [X|X]; [rewrite X, get_set_same|rewrite get_set_other by auto]; lia.
  - destruct (credit_spec _ _ _ _ _ _ Cr) as (_ & b & E). rewrite E. reflexivity.
Qed.

(** *** A collection over a bridge and with a dev fund *)
Definition fi0 : XykModel.fee_info := XykModel.mkFees 3000000000000000 333300000000000000 true.
Definition pe (t : Z) : env := mkEnv 900 t t 800 1 (fun _ => fi0) true (fun l => l) false.
(** Assets: 7 a fee token, 8 a bridge, 9 the dev fund's asset, 100 ASTRO. *)
Definition pinst : inst := mkInst 1 None 100 800 (Some 11) (Some 12) (Some 20) None (Some (13, 10)) None.
Definition phist : list (env * msg) :=
  [ (pe 10, Open (mkP 1 7 8) false); (pe 10, Open (mkP 2 8 100) false); (pe 10, Open (mkP 3 9 100) true); (pe 10, Open (mkP 4 7 100) false);
    (pe 20, Pair 1 (XykModel.Provide 50 50 1000000000 2000000000 None None));
    (pe 20, Pair 2 (XykModel.Provide 50 50 1000000000 4000000000 None None));
    (pe 20, Pair 3 (XykModel.Provide 50 50 1000000000 1000000000 None None));
    (pe 20, Pair 4 (XykModel.Provide 50 50 1000000000 1000000000 None None));
    (pe 25, Maker 1 (UpdateConfig (mkUpd None None None None None None None None None (Some (Some (mkDev 14 100000000000000000 9))))));
    (pe 25, Maker 1 (UpdateBridges [(7, 8)] []));
    (pe 26, Maker 1 (Enable 10));
    (pe 30, Pair 1 (XykModel.Swap true 30000000 None (Some 50000000000000000)));
    (pe 30, Maker 77 (Receive 7 20000000)) ].
Definition pw0 : option world := init 5 pinst.
Lemma fi0_ok t : env_ok (pe t).
Proof.
  split; [intros i; unfold XykSpec.fees_ok; cbn [pe fees fi0 XykModel.total_fee XykModel.maker_rate]; unfold DEC; lia|].
  intros l. cbn [pe order]. apply Permutation_refl.
Qed.
Definition pstart : world := match pw0 with Some w => w | None => mkW (MakerModel.mkState (mkCfg (OwnershipModel.init 0) 0 None None None None 0 0 0 false 0 0 0 0 None None) 0 [] None [] []) (mkR [] []) (fun _ => XykModel.init false) end.
Definition pworld : world := run pstart phist.
Lemma pworld_reachable : reachable pworld.
Proof.
  exists 5, pinst, pstart, phist. split; [vm_compute; reflexivity|]. split; [|reflexivity].
  unfold phist. repeat (constructor; [apply fi0_ok|]). constructor.
Qed.
Example c141_example : exists w',
  step (pe 40) (Maker 77 (Collect [(7, None); (100, None)])) pworld =
  Some (w', [Swapped 7 8 20014776 40336319; Swapped 8 100 40336319 154779340; Paid 100 13 15477934; Paid 100 12 27860281;
             Swapped 100 9 15477934 15211533; Paid 9 14 15211533; Paid 100 11 95963191]).
Proof. eexists. vm_compute. reflexivity. Qed.
Example c141_no_leak : no_leak (pe 40) pworld.
Proof.
  split; [left; reflexivity|]. intros i. unfold pworld. assert (X : forall l w, (forall j, XykModel.fshare (sts w j) = None) ->
    Forall (fun em => match snd em with Open _ _ | Maker _ (UpdateConfig _) | Maker _ (UpdateBridges _ _) | Maker _ (Enable _) | Maker _ (Receive _ _)
      | Pair _ (XykModel.Provide _ _ _ _ _ _) | Pair _ (XykModel.Swap _ _ _ _) => True | _ => False end) l ->
    forall j, XykModel.fshare (sts (run w l) j) = None).
  { clear i. induction l as [|(e, m) l IH]; intros w H F; [exact H|]. inversion F as [|? ? F1 F2]; subst. unfold run. cbn [fold_left]. apply IH; [|exact F2].
    cbn [snd] in F1. unfold exec. cbn [fst snd]. destruct (step e m w) as [(w', os)|] eqn:E; [|exact H]. intros j.
    destruct m as [sender m|i m|p track|i]; cbn [step] in E.
    - destruct m; try contradiction; (unguard E G; unbind E as (s, os1) E1; injection E as <- <-; apply H).
    - unbind E as p E1. unbind E as (s', o) E2. unbind E as s E3. injection E as <- <-. cbn [sts]. unfold upd. destruct (j =? i); [|apply H].
      destruct m; try contradiction; cbn [XykModel.step] in E2.
      + apply XykProofs.provide_inv in E2. destruct E2 as (sh & _ & _ & _ & _ & _ & _ & _ & Fs & _). rewrite Fs. apply H.
      + unguard E2 G. apply XykProofs.swap_inv in E2. cbv zeta in E2. destruct E2 as (so & _ & _ & _ & _ & _ & _ & _ & Fs & _). rewrite Fs. apply H.
    - unguard E G. unguard E G2. injection E as <- <-. cbn [sts]. unfold upd. destruct (j =? pid p); [reflexivity|apply H].
    - contradiction. }
  apply X; [intros j; vm_compute; reflexivity|]. unfold phist. repeat (constructor; [exact Logic.I|]). constructor.
Qed.

(** *** Sales are not protected against the price of the moment *)
Definition shist : list (env * msg) :=
  [ (pe 10, Open (mkP 1 7 100) false); (pe 20, Pair 1 (XykModel.Provide 50 50 1000000000 1000000000 None None));
    (pe 20, Maker 1 (Enable 10)); (pe 30, Maker 77 (Receive 7 40000000)) ].
Definition sworld : world := run pstart shist.
Lemma sworld_reachable : reachable sworld.
Proof.
  exists 5, pinst, pstart, shist. split; [vm_compute; reflexivity|]. split; [|reflexivity].
  unfold shist. repeat (constructor; [apply fi0_ok|]). constructor.
Qed.

(** A trader who sells the fee token just before the collection and buys it back just after it, all in one block, ends with more than before,
    and the maker gets less than a third of what the collection would have given: the configured maximal spread (5%) is measured
    against the price of the moment, and anybody may collect. *)
Theorem c141_fair_price_refuted : exists w e x y z w1 w2 w3 got wh fair sender,
  reachable w /\ env_ok e /\ spread (cfg (mk w)) = 50000000000000000 /\
  (exists rest, step e (Maker sender (Collect [(7, None)])) w = Some (wh, Swapped 7 100 40000000 fair :: rest)) /\
  bought e w 1 false x (Some (10 * DEC)) None = Some y /\ step e (Pair 1 (XykModel.Swap false x (Some (10 * DEC)) None)) w = Some (w1, []) /\
  (exists rest, step e (Maker sender (Collect [(7, None)])) w1 = Some (w2, Swapped 7 100 40000000 got :: rest)) /\
  bought e w2 1 true y (Some (10 * DEC)) None = Some z /\ step e (Pair 1 (XykModel.Swap true y (Some (10 * DEC)) None)) w2 = Some (w3, []) /\
  3 * got < fair /\ x + 20000000 < z.
Proof.
  exists sworld, (pe 40), 1000000000, 498500000. do 7 eexists. exists 77.
  split; [exact sworld_reachable|]. split; [apply fi0_ok|]. split; [vm_compute; reflexivity|]. split; [eexists; vm_compute; reflexivity|].
  split; [vm_compute; reflexivity|]. split; [vm_compute; reflexivity|]. split; [eexists; vm_compute; reflexivity|].
  split; [vm_compute; reflexivity|]. split; [vm_compute; reflexivity|]. split; [vm_compute; reflexivity|vm_compute; reflexivity].
Qed.

Print Assumptions c141_refines.
Print Assumptions c141_story.
Print Assumptions c141_price.
Print Assumptions c141_pairs.
Print Assumptions c141_coins.
Print Assumptions c141_income.
Print Assumptions c141_fair_price_refuted.
