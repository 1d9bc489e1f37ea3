(** Proofs about the pair and the incentives contract together. *)
From Coq Require Import ZArith Lia Bool List Permutation.
From Verif Require Import Num Amap Ledger IncentivesModel IncentivesSpec IncentivesStep IncentivesProofs.
From Verif Require XykModel XykSpec XykProofs.
From Verif Require Import StakeWorldModel StakeWorldSpec.
Import ListNotations.
Open Scope Z_scope.

(** ** Balances of the incentives contract *)

(** Tokens [A] sent out by a message. *)
Definition sent (A : Z) (o : list IncentivesModel.out) : Z :=
  fold_right (fun x a => match x with
    | Pay b _ v | Back b _ v => if b =? A then v else 0
    | Fee b v => if b =? A then v else 0
    | _ => 0 end + a) 0 o.
Lemma sent_app A a b : sent A (a ++ b) = sent A a + sent A b.
Proof. unfold sent. induction a as [|x a IH]; cbn [app fold_right]; [lia|]. rewrite IH. lia. Qed.

Lemma pay_bal A e to s x : get (bal (fst (pay e to s x))) A = get (bal s) A - sent A (snd (pay e to s x)) /\
  astro (fst (pay e to s x)) = astro s.
Proof.
  destruct x as [a v]. unfold pay. destruct (v =? 0); [cbn; split; [lia|auto]|].
  destruct (_ && _); cbn -[get set]; (split; [|auto]); [|lia]. destruct (Z.eqb_spec a A) as [->|N].
  - rewrite get_set_same. lia.
  - rewrite get_set_other by auto. lia.
Qed.
Lemma pay_all_bal A e to l : forall s, get (bal (fst (pay_all e to s l))) A = get (bal s) A - sent A (snd (pay_all e to s l)).
Proof.
  induction l as [|x r IH]; intros s; [cbn; lia|]. cbn [pay_all]. pose proof (pay_bal A e to s x) as [P _].
  destruct (pay e to s x) as [s1 o1]. specialize (IH s1). destruct (pay_all e to s1 r) as [s2 o2]. cbn [fst snd] in *. rewrite sent_app. lia.
Qed.
Lemma save_bal e lp p rem s s' : save e lp p rem s = Some s' -> bal s' = bal s.
Proof. intros H. apply save_lps in H. destruct H as (f & _ & H). exact H. Qed.
Lemma touch_bal e c f lp s s' : touch e c f lp s = Some s' -> bal s' = bal s.
Proof. unfold touch. intros H. unbind H as p E. unbind H as [q rem] E1. unbind H as q' E2. eapply save_bal; eauto. Qed.
Lemma touch_all_bal e c f l : forall s s', touch_all e c f l s = Some s' -> bal s' = bal s.
Proof.
  induction l as [|[lp al] r IH]; intros s s' H; cbn in H; [injection H as <-; auto|]. unbind H as s1 E. apply touch_bal in E.
  apply IH in H. congruence.
Qed.
Lemma claim_each_bal e who l : forall s s' x v, claim_each e who l s = Some (s', x, v) -> bal s' = bal s.
Proof.
  induction l as [|lp r IH]; intros s s' x v H; cbn in H; [injection H as <- <- <-; auto|].
  unbind H as p Ep. unbind H as u Eu. unbind H as [q rem] E. unbind H as [x1 v1] E2. unbind H as s1 E3.
  unbind H as [[s2 x2] v2] E4. unbind H as pr E5. injection H as <- <- <-. apply save_bal in E3. apply IH in E4. congruence.
Qed.
Lemma pay_prot_sent A e to p o : pay_prot e to p = Some o -> sent A o = 0.
Proof. unfold pay_prot. destruct (p =? 0); intros H; [injection H as <-; auto|]. unguard H G. injection H as <-. reflexivity. Qed.

Lemma incentivize_bal A e lp a amt n s f s' f' o : 0 <= A -> incentivize e lp a amt n s f = Some (s', f', o) ->
  get (bal s') A = get (bal s) A - sent A o.
Proof.
  intros P H. unfold incentivize in H. unbind H as [[ne en] r] E. unguard H G. unbind H as [q rem] E1. unbind H as [rs sch] E2.
  unbind H as [[f1 s1] o1] E3. unbind H as [f2 s2] E4. unbind H as s3 E5. injection H as <- <- <-. apply save_bal in E5. rewrite E5.
  assert (S1 : get (bal s1) A = get (bal s) A - sent A o1).
  { destruct (fee s) as [[d v]|]; [|injection E3 as <- <- <-; cbn; lia]. destruct ((Z.of_nat (length (rewards q)) <? Z.of_nat (length rs)) && negb (a =? astro s)); [|injection E3 as <- <- <-; cbn; lia].
    unbind E3 as f0 E6. unguard E3 G3. injection E3 as <- <- <-. cbn -[get set]. destruct (Z.eqb_spec d A) as [->|N];
      [rewrite get_set_same|rewrite get_set_other by auto]; lia. }
  destruct (Z.leb_spec 0 a).
  - unbind E4 as f0 E6. injection E4 as <- <-. exact S1.
  - unguard E4 G4. injection E4 as <- <-. cbn -[get set]. rewrite get_set_other by lia. exact S1.
Qed.
Lemma incentivize_each_bal A e l : 0 <= A -> forall s f s' f' o, incentivize_each e l s f = Some (s', f', o) ->
  get (bal s') A = get (bal s) A - sent A o.
Proof.
  intros P. induction l as [|[lp [[a amt] n]] r IH]; intros s f s' f' o H; cbn in H; [injection H as <- <- <-; cbn; lia|].
  unbind H as [[s1 f1] o1] E. unbind H as [[s2 f2] o2] E2. injection H as <- <- <-. apply (incentivize_bal A) in E; [|exact P].
  apply IH in E2. rewrite sent_app. lia.
Qed.
Lemma receive_att A f : forall b, get (receive_coins f b) A = get b A + fold_right (fun x a => (if fst x =? A then snd x else 0) + a) 0 f.
Proof.
  unfold receive_coins. induction f as [|[x n] r IH]; intros b; cbn -[get set]; [lia|].
  rewrite IH. destruct (Z.eqb_spec x A) as [->|N]; [rewrite get_set_same|rewrite get_set_other by auto]; lia.
Qed.

(** The balance moves by exactly what came and what was sent. *)
Lemma step_bal A e sd m s s' o : 0 <= A -> IncentivesModel.step e sd m s = Some (s', o) ->
  get (bal s') A = get (bal s) A + attached A m + (match m with Donate a n => if a =? A then n else 0 | _ => 0 end) - sent A o.
Proof.
  intros P H. unfold IncentivesModel.step, silent in H. destruct m; cbn [attached].
  - unbind H as s1 E. injection H as <- <-. unfold setup_pools in E. unguard E G1. unguard E G2. unguard E G3.
    unbind E as s2 E1. unbind E as t E2. unbind E as s3 E3. injection E as <-. apply touch_all_bal in E1, E3. cbn. rewrite E3, E1. lia.
  - unfold claim in H. unguard H G. unbind H as [[s1 x] v] E. unbind H as o2 E2. pose proof (pay_all_bal A e sd x s1) as Q.
    destruct (pay_all e sd s1 x) as [s2 o1]. injection H as <- <-. apply claim_each_bal in E. apply (pay_prot_sent A) in E2.
    cbn [fst snd] in Q. rewrite sent_app, Q, E, E2. lia.
  - unfold deposit in H. unguard H G. unbind H as [q rem] E. unbind H as [ext prot] E1. unbind H as a E2. unbind H as t E3. unbind H as s1 E4.
    unbind H as o2 E5. match type of H with context [pay_all e ?w s1 ext] => pose proof (pay_all_bal A e w ext s1) as Q; destruct (pay_all e w s1 ext) as [s2 o1] end.
    injection H as <- <-. apply save_bal in E4. apply (pay_prot_sent A) in E5. cbn [fst snd] in Q. rewrite sent_app, Q, E4, E5. cbn [bal set_bal].
    destruct (Z.eqb_spec lp A) as [->|N]; [rewrite get_set_same|rewrite get_set_other by auto]; lia.
  - unfold withdraw in H. unbind H as p Ep. unbind H as u Eu. unguard H G. unbind H as [q rem] E. unbind H as [ext prot] E1. unbind H as a E2.
    unbind H as t E3. unbind H as s1 E4. unbind H as o2 E5. pose proof (pay_all_bal A e sd ext s1) as Q. destruct (pay_all e sd s1 ext) as [s2 o1].
    unguard H G2. injection H as <- <-. apply save_bal in E4. apply (pay_prot_sent A) in E5. cbn [fst snd] in Q. rewrite !sent_app, E5. cbn [bal set_bal sent fold_right].
    destruct (Z.eqb_spec lp A) as [->|N]; [rewrite get_set_same|rewrite get_set_other by auto]; rewrite Q, E4; lia.
  - unbind H as s1 E. injection H as <- <-. unfold set_tokens in E. unguard E G. unbind E as s2 E1. injection E as <-. apply touch_all_bal in E1.
    cbn. rewrite E1. lia.
  - unfold incentivize_many in H. unguard H G. unbind H as [[s1 f1] o1] E. unguard H G2. injection H as <- <-.
    apply (incentivize_each_bal A) in E; [|exact P]. rewrite E. cbn [bal set_bal]. rewrite receive_att. lia.
  - unfold remove_reward in H. unguard H G. unbind H as p Ep. unbind H as [q rem] E. unbind H as [[[q' x] sch] v] E1. unbind H as s1 E2.
    apply save_bal in E2. pose proof (pay_bal A e to s1 (a, v)) as [Q _]. destruct (pay e to s1 (a, v)). injection H as <- <-. cbn [fst snd] in Q. rewrite Q, E2. lia.
  - unfold claim_orphaned in H. unguard H G. cbv zeta in H. unguard H G2.
    match type of H with Some (pay_all e to ?s1 ?l) = _ => pose proof (pay_all_bal A e to l s1) as Q; destruct (pay_all e to s1 l) end.
    injection H as <- <-. cbn [fst snd bal set_lps] in Q. rewrite Q. lia.
  - unbind H as s1 E. injection H as <- <-. unfold update_config in E. unguard E G. unbind E as m E1. injection E as <-. cbn. lia.
  - unbind H as s1 E. injection H as <- <-. unfold update_blocked in E. unguard E G1. unguard E G2. unbind E as bl1 E1. unbind E as [dis bl2] E2.
    destruct dis as [|d0 dr]; [injection E as <-; cbn; lia|]. unbind E as s2 E3. unbind E as red E4. cbv zeta in E. unbind E as t E5. unbind E as s3 E6. injection E as <-.
    apply touch_all_bal in E3, E6. cbn. rewrite E6, E3. lia.
  - unbind H as s1 E. injection H as <- <-. unfold deactivate_pool in E. unguard E G. destruct (find lp (lps s)) as [p|]; [|injection E as <-; cbn; lia].
    destruct (is_active (pl p)); [|injection E as <-; cbn; lia]. unbind E as [n al] E1. cbv zeta in E. unbind E as s2 E2. unbind E as t E3. unbind E as s3 E4. injection E as <-.
    apply touch_bal in E2. apply touch_all_bal in E4. cbn. rewrite E4, E2. lia.
  - unbind H as s1 E. injection H as <- <-. unfold deactivate_blocked in E. cbv zeta in E. unbind E as s2 E1. unbind E as t E2. apply touch_all_bal in E1.
    match type of E with match ?b with _ => _ end = _ => destruct b as [|b0 br] end; [injection E as <-; cbn; rewrite E1; lia|].
    unbind E as s3 E3. injection E as <-. apply touch_all_bal in E3. cbn. rewrite E3, E1. lia.
  - injection H as <- <-. cbn -[get set]. destruct (Z.eqb_spec a A) as [->|N]; [rewrite get_set_same|rewrite get_set_other by auto]; lia.
Qed.

(** ** The LP ledger of the pair *)
Notation lpof := XykModel.lp.
Notation SELF := XykModel.SELF.

Lemma lptransfer_inv e s from to v s' o : XykModel.step e (XykModel.LpTransfer from to v) s = Some (s', o) ->
  from <> SELF /\ 0 <= v <= get (lpof s) from /\ lpof s' = move (lpof s) from to v /\ XykModel.supply s' = XykModel.supply s /\
  XykModel.r0 s' = XykModel.r0 s /\ XykModel.r1 s' = XykModel.r1 s /\ XykModel.last_t s' = XykModel.last_t s.
Proof. intros H. cbn [XykModel.step] in H. unguard H G. injection H as <- <-. cbn. bools. repeat split; auto; lia. Qed.
Lemma get_move l a b v x : get (move l a b v) x = get l x + (if x =? b then v else 0) - (if x =? a then v else 0).
Proof.
  destruct (Z.eqb_spec x b) as [->|Nb]; destruct (Z.eqb_spec b a) as [->|Na].
  - rewrite get_move_self. lia.
  - rewrite get_move_to by auto. lia.
  - destruct (Z.eqb_spec x a); [congruence|]. rewrite get_move_other by auto. lia.
  - destruct (Z.eqb_spec x a) as [->|]; [rewrite get_move_from by auto; lia|rewrite get_move_other by auto; lia].
Qed.

Lemma leaves_sent c o r : sent (lpd c) (o :: r) = (match leaves c o with Some (_, v) => v | None => 0 end) + sent (lpd c) r.
Proof. unfold sent. cbn [fold_right]. f_equal. destruct o; cbn; try reflexivity; destruct (_ =? _); reflexivity. Qed.
Lemma deliver_inv c e os : forall s s', deliver c e os s = Some s' ->
  XykModel.run s (moves c e os) = s' /\
  (forall a, get (lpof s') a = get (lpof s) a + received c a os - (if a =? gen c then sent (lpd c) os else 0)) /\
  received c (gen c) os = 0 /\
  XykModel.supply s' = XykModel.supply s /\ XykModel.r0 s' = XykModel.r0 s /\ XykModel.r1 s' = XykModel.r1 s /\ XykModel.last_t s' = XykModel.last_t s.
Proof.
  induction os as [|o r IH]; intros s s' H.
  - cbn in H. injection H as <-. cbn. split; [reflexivity|]. split; [intros a; destruct (_ =? _); lia|]. auto.
  - cbn [deliver] in H. rewrite leaves_sent. unfold received. cbn [fold_right]. fold (received c (gen c) r).
    change (moves c e (o :: r)) with ((match leaves c o with Some (to, v) => [(e, XykModel.LpTransfer (gen c) to v)] | None => [] end) ++ moves c e r).
    destruct (leaves c o) as [[to v]|].
    + unguard H G. bools. unbind H as [s1 o1] E. destruct (IH _ _ H) as (R & A & Z1 & S1 & S2 & S3 & S4).
      assert (E' := E). apply lptransfer_inv in E'. destruct E' as (_ & _ & El & T1 & T2 & T3 & T4).
      split. { cbn [app]. unfold XykModel.run. cbn [fold_left]. unfold XykModel.exec at 2. cbn [fst snd]. rewrite E. exact R. }
      split. { intros a. rewrite A, El, get_move. fold (received c a r). rewrite (Z.eqb_sym to a). destruct (a =? to), (a =? gen c); lia. }
      split. { destruct (Z.eqb_spec to (gen c)); [contradiction|]. fold (received c (gen c) r). lia. }
      repeat split; congruence.
    + destruct (IH _ _ H) as (R & A & Z1 & S1). split; [exact R|]. split; [intros a; rewrite A; fold (received c a r); destruct (a =? gen c); lia|].
      split; [exact Z1|exact S1].
Qed.
(** Delivery succeeds if the balance covers what is sent. *)
Lemma deliver_ok c e os : gen c <> SELF -> forall s,
  (forall o to v, In o os -> leaves c o = Some (to, v) -> to <> gen c /\ 0 <= v) -> sent (lpd c) os <= get (lpof s) (gen c) ->
  exists s', deliver c e os s = Some s'.
Proof.
  intros Ns. induction os as [|o r IH]; intros s F B; [eexists; reflexivity|]. cbn [deliver].
  assert (Fr : forall o to v, In o r -> leaves c o = Some (to, v) -> to <> gen c /\ 0 <= v) by (intros; eapply F; eauto; right; auto).
  assert (P : 0 <= sent (lpd c) r).
  { clear - Fr. induction r as [|x r IH]; [cbn; lia|]. rewrite leaves_sent. assert (0 <= sent (lpd c) r) by (apply IH; intros; eapply Fr; eauto; right; auto).
    destruct (leaves c x) as [[to v]|] eqn:E; [|lia]. destruct (Fr x to v (or_introl eq_refl) E). lia. }
  rewrite leaves_sent in B. destruct (leaves c o) as [[to v]|] eqn:E; [|apply IH; [exact Fr|lia]].
  destruct (F o to v (or_introl eq_refl) E) as [N V]. destruct (Z.eqb_spec to (gen c)); [contradiction|]. cbn [negb XykModel.step].
  destruct (Z.eqb_spec (gen c) SELF); [contradiction|]. rewrite (proj2 (Z.leb_le 0 v)), (proj2 (Z.leb_le v _)) by lia. cbn [negb andb].
  apply IH; [exact Fr|]. cbn [lpof]. rewrite get_move_from by auto. lia.
Qed.

(** ** Both contracts run their own code *)
Lemma step_parts c e m w w' o : step c e m w = Some (w', o) ->
  pair w' = XykModel.run (pair w) (seen_by_pair c e m o) /\ inc w' = IncentivesModel.run (inc w) (seen_by_inc c e m w w' o).
Proof.
  intros H. destruct m; cbn [step] in H.
  - unguard H G. unbind H as [p po] E. cbv zeta in H.
    assert (K : XykModel.run (pair w) [(xe e, m)] = p) by (unfold XykModel.run, XykModel.exec; cbn [fold_left fst snd]; rewrite E; reflexivity).
    destruct (get (lpof p) (gen c) - get (lpof (pair w)) (gen c) =? 0) eqn:Z0'; [|unbind H as [i io] E2]; injection H as <- <-; cbn [pair inc seen_by_pair seen_by_inc].
    + split; [symmetry; exact K|]. cbv zeta. rewrite Z0'. reflexivity.
    + split; [symmetry; exact K|]. cbv zeta. rewrite Z0'. cbn in E2. injection E2 as <- _. reflexivity.
  - unbind H as [p po] E. destruct po as [share| | |]; try discriminate. unguard H G. unbind H as [i os] E1. unbind H as p' E2. injection H as <- <-.
    cbn [pair inc seen_by_pair seen_by_inc]. apply deliver_inv in E2. destruct E2 as (E2 & _).
    split; [|unfold IncentivesModel.run, IncentivesModel.exec; cbn [fold_left]; rewrite E1; reflexivity].
    unfold XykModel.run in *. cbn [fold_left]. unfold XykModel.exec at 2. cbn [fst snd]. rewrite E. auto.
  - unguard H G. unbind H as [p po] E. unbind H as [i os] E1. unbind H as p' E2. injection H as <- <-. cbn [pair inc seen_by_pair seen_by_inc].
    apply deliver_inv in E2. destruct E2 as (E2 & _).
    split; [|unfold IncentivesModel.run, IncentivesModel.exec; cbn [fold_left]; rewrite E1; reflexivity].
    unfold XykModel.run in *. cbn [fold_left]. unfold XykModel.exec at 2. cbn [fst snd]. rewrite E. auto.
Qed.
Lemma run_parts c l : forall w, pair (run c w l) = XykModel.run (pair w) (pair_hist c w l) /\
  inc (run c w l) = IncentivesModel.run (inc w) (inc_hist c w l).
Proof.
  induction l as [|[e m] l IH]; intros w; [split; reflexivity|]. cbn [pair_hist inc_hist].
  change (run c w ((e, m) :: l)) with (run c (exec c w (e, m)) l). unfold exec. cbn [fst snd].
  destruct (step c e m w) as [[w' o]|] eqn:E; [|apply IH]. destruct (IH w') as [-> ->]. apply step_parts in E. destruct E as [-> ->].
  unfold XykModel.run, IncentivesModel.run. rewrite !fold_left_app. split; reflexivity.
Qed.

(** ** The account of the incentives contract *)
Lemma provide_lp e s who rcv d0 d1 tol ml s' o : XykModel.step e (XykModel.Provide who rcv d0 d1 tol ml) s = Some (s', o) ->
  exists share, o = XykModel.OProvide share /\ 0 <= share /\
    forall a, get (lpof s') a = get (lpof s) a + (if a =? rcv then share else 0) + (if (a =? SELF) && (XykModel.supply s =? 0) then 1000 else 0).
Proof.
  cbn [XykModel.step]. unfold XykModel.provide. intros H. unguard H G. unbind H as share E1. cbv zeta in H. unguard H G2. unbind H as n0 E2. unbind H as n1 E3.
  unbind H as [[c0' c1'] t'] E4. destruct (XykModel.track_save s (XykModel.height e) n0 n1). injection H as <- <-. exists share. split; [reflexivity|]. split.
  - unfold XykModel.calculate_shares in E1. destruct (XykModel.supply s =? 0).
    + unbind E1 as sh E5. unguard E1 G3. injection E1 as <-. apply sub128_Some in E5. lia.
    + unbind E1 as u E5. unbind E1 as x E6. unbind E1 as y E7. injection E1 as <-. apply muldiv128_Some in E6, E7. lia.
  - intros a. cbn [lpof]. unfold XykModel.MINIMUM_LIQUIDITY. destruct (XykModel.supply s =? 0); rewrite ?andb_true_r, ?andb_false_r.
    + set (l1 := set (lpof s) SELF (get (lpof s) SELF + 1000)). destruct (Z.eqb_spec a rcv) as [->|N].
      * rewrite get_set_same. unfold l1. destruct (Z.eqb_spec rcv SELF) as [->|N2]; [rewrite get_set_same|rewrite get_set_other by auto]; lia.
      * rewrite get_set_other by auto. unfold l1. destruct (Z.eqb_spec a SELF) as [->|N2]; [rewrite get_set_same|rewrite get_set_other by auto]; lia.
    + destruct (Z.eqb_spec a rcv) as [->|N]; [rewrite get_set_same|rewrite get_set_other by auto]; lia.
Qed.
Lemma direct_gen c e m s s' o : gen c <> SELF -> by_gen c m = false -> XykModel.step e m s = Some (s', o) -> get (lpof s) (gen c) <= get (lpof s') (gen c).
Proof.
  intros Ns B H. destruct m; cbn [by_gen] in B.
  - apply provide_lp in H. destruct H as (share & _ & P & A). rewrite A. destruct (_ =? receiver), (_ && _); lia.
  - cbn [XykModel.step] in H. unfold XykModel.withdraw in H. unguard H G. unbind H as a0 E1. unbind H as a1 E2. unguard H G2. unbind H as n0 E3. unbind H as n1 E4.
    unbind H as [[c0' c1'] t'] E5. cbv zeta in H. destruct (XykModel.track_save s (XykModel.height e) n0 n1). injection H as <- <-. cbn [lpof].
    apply Z.eqb_neq in B. rewrite get_set_other by auto. lia.
  - cbn [XykModel.step] in H. unguard H G. unfold XykModel.swap in H. cbv zeta in H. unbind H as so E1. unbind H as n0 E2. unbind H as k1 E3. unbind H as k2 E4. unbind H as na E5.
    unbind H as [[c0' c1'] t'] E6. destruct (XykModel.track_save s _ _ _). injection H as <- <-. cbn [lpof]. lia.
  - cbn [XykModel.step] in H. unguard H G. injection H as <- <-. cbn. lia.
  - cbn [XykModel.step] in H. unguard H G. injection H as <- <-. cbn. lia.
  - cbn [XykModel.step] in H. unguard H G. unbind H as n E1. injection H as <- <-. cbn. lia.
  - apply lptransfer_inv in H. destruct H as (_ & V & El & _). rewrite El, get_move. apply Z.eqb_neq in B.
    destruct (Z.eqb_spec (gen c) from); [congruence|]. destruct (_ =? to); lia.
Qed.
Definition coupled (c : cfg) (w : world) : Prop := get (lpof (pair w)) (gen c) = get (bal (inc w)) (lpd c).
Lemma step_coupled c e m w w' o : 0 <= lpd c -> gen c <> SELF -> step c e m w = Some (w', o) -> coupled c w -> coupled c w'.
Proof.
  unfold coupled. intros P Ns H C. destruct m; cbn [step] in H.
  - unguard H G. unbind H as [p po] E. cbv zeta in H. destruct (Z.eqb_spec (get (lpof p) (gen c) - get (lpof (pair w)) (gen c)) 0).
    + injection H as <- <-. cbn. lia.
    + unbind H as [i io] E2. injection H as <- <-. cbn -[get set] in E2. injection E2 as <- _. cbn -[get set]. rewrite get_set_same. lia.
  - unbind H as [p po] E. apply provide_lp in E. destruct E as (share & -> & _ & A). unguard H G. unbind H as [i os] E1. unbind H as p' E2. injection H as <- <-.
    cbn [pair inc]. apply deliver_inv in E2. destruct E2 as (_ & D & Z1 & _). rewrite D, A, Z1, !Z.eqb_refl.
    apply (step_bal (lpd c)) in E1; [|exact P]. rewrite E1. cbn [attached]. rewrite Z.eqb_refl. destruct (Z.eqb_spec (gen c) SELF); [contradiction|]. cbn [andb]. lia.
  - unguard H G. unbind H as [p po] E. unbind H as [i os] E1. unbind H as p' E2. injection H as <- <-. cbn [pair inc].
    apply lptransfer_inv in E. destruct E as (_ & _ & El & _). apply deliver_inv in E2. destruct E2 as (_ & D & Z1 & _). rewrite D, El, get_move, Z1, !Z.eqb_refl.
    apply andb_true_iff in G. destruct G as [G1 G2]. apply negb_true_iff in G1, G2. rewrite Z.eqb_sym, G1.
    apply (step_bal (lpd c)) in E1; [|exact P]. rewrite E1. destruct m; cbn [is_gift] in G2; try rewrite G2; lia.
Qed.
Lemma run_coupled c l : 0 <= lpd c -> gen c <> SELF -> forall w, coupled c w -> coupled c (run c w l).
Proof.
  intros P Ns. induction l as [|[e m] l IH]; intros w C; [exact C|]. change (run c w ((e, m) :: l)) with (run c (exec c w (e, m)) l). apply IH.
  unfold exec. cbn [fst snd]. destruct (step c e m w) as [[w' o]|] eqn:E; [eapply step_coupled; eauto|exact C].
Qed.

(** ** Histories seen by the two contracts *)
Lemma timed_weaken T T' h : T <= T' -> IncentivesSpec.timed T' h -> IncentivesSpec.timed T h.
Proof. destruct h as [|[[e sd] m] r]; cbn; [auto|]. intros L (A & B). split; [lia|exact B]. Qed.
Lemma timed_time T l : timed T l -> T <= time_after T l.
Proof. revert T. induction l as [|[e m] l IH]; intros T H; cbn in *; [lia|]. destruct H as (A & _ & B). apply IH in B. lia. Qed.
Lemma hist_timed c l : 0 <= lpd c -> gen c <> SELF -> forall T w, timed T l ->
  XykSpec.envs_ok (pair_hist c w l) /\ IncentivesSpec.timed T (inc_hist c w l) /\
  IncentivesSpec.time_after T (inc_hist c w l) <= time_after T l.
Proof.
  intros P Ns. induction l as [|[e m] l IH]; intros T w H; [cbn; split; [constructor|]; split; [auto|lia]|].
  cbn [timed] in H. destruct H as (L & (Ot & Ox & Oi & Ou) & H). cbn [pair_hist inc_hist time_after].
  destruct (step c e m w) as [[w' o]|] eqn:E.
  - destruct (IH _ w' H) as (A & B & C). split.
    { apply Forall_app. split; [|exact A]. unfold seen_by_pair.
      assert (M : forall os, XykSpec.envs_ok (moves c (xe e) os)).
      { intros os. unfold moves, XykSpec.envs_ok. apply Forall_flat_map. apply Forall_forall. intros x _. destruct (leaves c x) as [[to v]|]; [|constructor]. constructor; [exact Ox|constructor]. }
      destruct m, o; try (constructor; fail); constructor; try exact Ox; try (constructor; fail); apply M. }
    assert (K : forall i sd, IncentivesSpec.unsigned i -> IncentivesSpec.timed T ([(ie e, sd, i)] ++ inc_hist c w' l) /\
      IncentivesSpec.time_after T ([(ie e, sd, i)] ++ inc_hist c w' l) <= time_after (now (ie e)) l).
    { intros i sd U. cbn. split; [auto|exact C]. }
    assert (K0 : IncentivesSpec.timed T (inc_hist c w' l) /\ IncentivesSpec.time_after T (inc_hist c w' l) <= time_after (now (ie e)) l).
    { split; [eapply timed_weaken; eauto|]. clear - C H L. apply timed_time in H. destruct (inc_hist c w' l) as [|[[e1 s1] m1] r]; cbn in *; lia. }
    unfold seen_by_inc. destruct m.
    + cbv zeta. destruct (Z.eqb_spec (get (lpof (pair w')) (gen c) - get (lpof (pair w)) (gen c)) 0); [exact K0|]. apply K. cbn [IncentivesSpec.unsigned].
      cbn [step] in E. unguard E G. unbind E as [p po] E1. cbv zeta in E. apply negb_true_iff in G. pose proof (direct_gen _ _ _ _ _ _ Ns G E1) as Q.
      destruct (_ =? 0); [|unbind E as [i io] E2]; injection E as <- <-; cbn [pair] in *; lia.
    + cbn [step] in E. unbind E as [p po] E1. destruct po as [share| | |]; try discriminate. unguard E G. unbind E as [i os] E2. unbind E as p' E3. injection E as <- <-.
      apply K. cbn. bools. lia.
    + destruct o; apply K; exact Ou.
  - destruct (IH _ w H) as (A & B & C). split; [exact A|]. split; [eapply timed_weaken; eauto|].
    clear - C H L. apply timed_time in H. destruct (inc_hist c w l) as [|[[e1 s1] m1] r]; cbn in *; lia.
Qed.
