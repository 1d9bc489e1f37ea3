(** Proofs for C139. *)
From Coq Require Import ZArith Lia Bool List.
From Verif Require Import Num Amap Bytes.
From Verif Require FactoryModel FactoryProps XykModel XykSpec XykProofs.
From Verif Require Import FacPairModel FacPairSpec.
Import ListNotations.
Open Scope Z_scope.

Lemma born_create sd t l a n : born (FactoryModel.CreatePair sd t l a n) = (a, t) :: flat_map born n.
Proof. cbn [born]. f_equal. Qed.
Lemma inst_find e l : forall p a, find a (instantiate_all e l p) =
  match List.find (fun x => fst x =? a) l with Some (_, t) => Some (mkP t (XykModel.init (tracks e a))) | None => find a p end.
Proof.
  induction l as [|[b t] l IH]; intros p a; [reflexivity|]. cbn [instantiate_all List.find fst]. rewrite find_put, IH.
  destruct (Z.eqb_spec b a) as [->|]; reflexivity.
Qed.
Lemma fresh_find l p a : fresh_addrs l p = true -> find a p <> None -> List.find (fun x => fst x =? a) l = None.
Proof.
  induction l as [|[b t] l IH]; intros H N; [reflexivity|]. cbn [fresh_addrs List.find fst] in *. apply andb_true_iff in H. destruct H as (H & H3).
  apply andb_true_iff in H. destruct H as (H1 & _). destruct (Z.eqb_spec b a) as [->|]; [|auto]. destruct (find a p); [discriminate|congruence].
Qed.

(** Pair types are never forgotten, and pairs are made only of known types. *)
Definition known (t : Z) (f : FactoryModel.state) : Prop := find t (FactoryModel.cfgs f) <> None.
Lemma known_step t m f f' : known t f -> FactoryModel.step m f = Some f' -> known t f'.
Proof.
  revert m f f'. intros m f f' K H. revert K H. apply (FactoryProps.step_preserves (known t)); clear; unfold known; intros.
  - unfold FactoryModel.update_config in H0. unguard H0 G. injection H0 as <-. exact H.
  - unfold FactoryModel.update_pair_config in H0. unguard H0 G1. unguard H0 G2. injection H0 as <-. cbn. rewrite find_put. destruct (t0 =? t); [discriminate|exact H].
  - unfold FactoryModel.create_begin in H0. unguard H0 G1. unguard H0 G2. unbind H0 as c Ec. unguard H0 G3. unguard H0 G4. injection H0 as <-. exact H.
  - unfold FactoryModel.reply in H0. unbind H0 as k Ek. unguard H0 G. injection H0 as <-. exact H.
  - unfold FactoryModel.deregister in H0. unguard H0 G1. unguard H0 G2. unbind H0 as k Ek. injection H0 as <-. exact H.
  - unfold FactoryModel.update_tracker in H0. unguard H0 G1. unbind H0 as k Ek. injection H0 as <-. exact H.
  - unfold FactoryModel.ownership in H0. unbind H0 as k Ek. injection H0 as <-. exact H.
Qed.
Lemma known_steps t l : forall f f', known t f -> FactoryModel.steps l f = Some f' -> known t f'.
Proof. induction l as [|m l IH]; cbn; intros f f' K H; [congruence|]. unbind H as f1 E. eapply IH; [|exact H]. eapply known_step; eauto. Qed.
Lemma born_known m : forall f f' a t, FactoryModel.step m f = Some f' -> In (a, t) (born m) -> known t f'.
Proof.
  induction m using FactoryProps.msg_ind'; intros f f' a t' E I; try contradiction.
  rewrite born_create in I. rewrite FactoryProps.step_leaf in E. unbind E as f1 E1. unbind E as f2 E2.
  assert (Er : known t' f2 -> known t' f').
  { unfold FactoryModel.reply in E. unbind E as k Ek. unguard E G. injection E as <-. auto. }
  apply Er. clear E Er. destruct I as [[= _ ->]|I].
  - apply (known_steps t' nested f1); [|exact E2]. unfold FactoryModel.create_begin in E1. unguard E1 G1. unguard E1 G2. unbind E1 as c Ec. unguard E1 G3. unguard E1 G4. injection E1 as <-. unfold known. cbn. rewrite Ec. discriminate.
  - clear E1. revert f1 f2 E2 H I. induction nested as [|m n IH]; intros f1 f2 E2 H I; [destruct I|]. cbn [FactoryModel.steps flat_map] in *.
    unbind E2 as f3 E3. inversion H as [|? ? Hm Hn]; subst. apply in_app_or in I. destruct I as [I|I].
    + eapply known_steps; [|exact E2]. eapply Hm; eauto.
    + eapply IH; eauto.
Qed.

(** The factory's state is one that its own histories reach. *)
Definition inv (w : world) : Prop :=
  FactoryProps.reachable (fac w) /\
  forall a p, find a (prs w) = Some p -> known (ptype p) (fac w) /\ XykSpec.reachable (st p).
Lemma fee_ok f t fi : FactoryProps.reachable f -> fee_info f t = Some fi -> XykSpec.fees_ok fi.
Proof.
  intros R H. unfold fee_info in H. unbind H as [[a tot] mk] E. unbind H as rt E1. unbind H as rm E2. injection H as <-.
  apply FactoryProps.c23_reported_fees_bounded in E; [|exact R]. num_inv. unfold XykSpec.fees_ok. cbn [XykModel.total_fee XykModel.maker_rate]. subst.
  split; (split; [apply Z.div_pos; unfold DEC; lia|apply Z.div_le_upper_bound; unfold DEC; lia]).
Qed.
Lemma fee_exact f t c : FactoryProps.reachable f -> find t (FactoryModel.cfgs f) = Some c ->
  fee_info f t = Some (XykModel.mkFees (FactoryModel.total_fee_bps c * 10 ^ 14) (FactoryModel.maker_fee_bps c * 10 ^ 14)
    (match FactoryModel.fee_addr f with Some _ => true | None => false end)).
Proof.
  intros R H. pose proof (FactoryProps.c23_fees_bounded f t c R H) as (B1 & B2). unfold fee_info. rewrite (FactoryProps.c23_reported_exact f t c H).
  assert (D : forall b, 0 <= b <= 10000 -> dratio b 10000 = Some (b * 10 ^ 14)).
  { intros b Hb. apply dratio_Some. assert (Q : b * DEC / 10000 = b * 10 ^ 14). { replace (b * DEC) with (b * 10 ^ 14 * 10000) by (unfold DEC; lia). apply Z.div_mul. lia. }
    rewrite Q. unfold U128MAX. lia. }
  rewrite !D by assumption. reflexivity.
Qed.
Lemma reach_step f m f' : FactoryProps.reachable f -> FactoryModel.step m f = Some f' -> FactoryProps.reachable f'.
Proof.
  intros (o & fee & g & l & tr & s0 & ms & I & ->) E. exists o, fee, g, l, tr, s0, (ms ++ [m]). split; [exact I|].
  unfold FactoryModel.run in *. rewrite fold_left_app. cbn [fold_left]. unfold FactoryModel.exec at 1. rewrite E. reflexivity.
Qed.
Lemma xreach_init b : XykSpec.reachable (XykModel.init b).
Proof. exists b, []. split; [constructor|reflexivity]. Qed.
Lemma xreach_step e m s s' o : XykSpec.reachable s -> XykSpec.env_ok e -> XykModel.step e m s = Some (s', o) -> XykSpec.reachable s'.
Proof.
  intros (b & l & Ok & ->) He E. exists b, (l ++ [(e, m)]). split; [apply Forall_app; split; [exact Ok|constructor; [exact He|constructor]]|].
  unfold XykModel.run in *. rewrite fold_left_app. cbn [fold_left]. unfold XykModel.exec at 1. cbn [fst snd]. rewrite E. reflexivity.
Qed.
Lemma xenv_ok e f t x : FactoryProps.reachable f -> xenv e f t = Some x -> XykSpec.env_ok x.
Proof. intros R H. unfold xenv in H. unbind H as fi E. injection H as <-. unfold XykSpec.env_ok. cbn. eapply fee_ok; eauto. Qed.
Lemma step_inv e m w w' o : inv w -> step e m w = Some (w', o) -> inv w'.
Proof.
  intros (R & P) H. destruct m as [m|a m]; cbn [step] in H.
  - unguard H G. unbind H as f E. injection H as <- <-. split; [eapply reach_step; eauto|]. cbn [fac prs]. intros a p F. rewrite inst_find in F.
    destruct (List.find _ (born m)) as [[b t]|] eqn:Eb.
    + injection F as <-. cbn. apply find_some in Eb. split; [|apply xreach_init]. destruct Eb as (Eb & _). eapply born_known; eauto.
    + destruct (P a p F) as (A & B). split; [eapply known_step; eauto|exact B].
  - unbind H as p E1. unbind H as x E2. unbind H as [s o'] E3. injection H as <- <-. split; [exact R|]. cbn [fac prs]. intros b q F.
    rewrite find_put in F. destruct (a =? b); [|apply P with (1 := F)]. injection F as <-. cbn. destruct (P a p E1) as (A & B). split; [exact A|].
    eapply xreach_step; eauto. eapply xenv_ok; eauto.
Qed.
Lemma run_inv l : forall w, inv w -> inv (run w l).
Proof.
  induction l as [|[e m] l IH]; intros w I; [exact I|]. unfold run. cbn [fold_left]. apply IH. unfold exec. cbn [fst snd].
  destruct (step e m w) as [[w' o]|] eqn:E; [eapply step_inv; eauto|exact I].
Qed.
Lemma init_inv f : fresh f -> inv (init f).
Proof.
  intros (o & fee & g & l & tr & E). split; [exists o, fee, g, l, tr, f, []; split; [exact E|reflexivity]|]. cbn. discriminate.
Qed.
Lemma run_cons w x l : run w (x :: l) = run (exec w x) l.
Proof. reflexivity. Qed.
(** A pair keeps its type and handles its messages in order. *)
Lemma exec_pair a p w e m : inv w -> find a (prs w) = Some p ->
  find a (prs (exec w (e, m))) = Some (mkP (ptype p) (XykModel.run (st p)
    (match m with Pair b m' => if b =? a then match xenv e (fac w) (ptype p) with Some x => [(x, m')] | None => [] end else [] | Fac _ => [] end))).
Proof.
  intros I F. assert (Sm : find a (prs w) = Some (mkP (ptype p) (XykModel.run (st p) []))) by (rewrite F; destruct p; reflexivity).
  unfold exec. cbn [fst snd]. destruct m as [m|b m]; cbn [step].
  - destruct (fresh_addrs (born m) (prs w)) eqn:G; [|exact Sm]. destruct (FactoryModel.step m (fac w)) as [f|]; [|exact Sm].
    cbn [prs]. rewrite inst_find, (fresh_find _ _ _ G) by congruence. exact Sm.
  - destruct (find b (prs w)) as [q|] eqn:Fb.
    2:{ destruct (Z.eqb_spec b a) as [->|]; [congruence|exact Sm]. }
    destruct (Z.eqb_spec b a) as [->|Nb].
    + assert (q = p) by congruence. subst q. destruct (xenv e (fac w) (ptype p)) as [x|]; [|exact Sm]. cbn [XykModel.run fold_left]. unfold XykModel.exec. cbn [fst snd].
      destruct (XykModel.step x m (st p)) as [[s o]|]; [|exact Sm]. cbn [prs]. rewrite find_put, Z.eqb_refl. reflexivity.
    + destruct (xenv e (fac w) (ptype q)) as [x|]; [|exact Sm]. destruct (XykModel.step x m (st q)) as [[s o]|]; [|exact Sm]. cbn [prs]. rewrite find_put. destruct (Z.eqb_spec b a); [congruence|exact Sm].
Qed.
Lemma run_pair a l : forall w p, inv w -> find a (prs w) = Some p ->
  find a (prs (run w l)) = Some (mkP (ptype p) (XykModel.run (st p) (pair_hist a w l))) /\ XykSpec.envs_ok (pair_hist a w l).
Proof.
  induction l as [|[e m] l IH]; intros w p I F.
  - cbn [run fold_left pair_hist XykModel.run]. rewrite F. split; [destruct p; reflexivity|constructor].
  - rewrite run_cons. pose proof (exec_pair a p w e m I F) as Ex.
    assert (I' : inv (exec w (e, m))) by exact (run_inv [(e, m)] w I).
    destruct (IH _ _ I' Ex) as (A & B). cbn [ptype st] in A. cbn [pair_hist]. rewrite F. rewrite A. split.
    + f_equal. f_equal. unfold XykModel.run. rewrite fold_left_app. reflexivity.
    + unfold XykSpec.envs_ok in *. apply Forall_app. split; [|exact B]. destruct m as [m|b m]; [constructor|].
      destruct (b =? a); [|constructor]. destruct (xenv e (fac w) (ptype p)) as [x|] eqn:X; [|constructor]. constructor; [|constructor]. cbn [fst]. eapply xenv_ok; [apply I|exact X].
Qed.
Lemma xenv_some e w a p : inv w -> find a (prs w) = Some p -> exists x, xenv e (fac w) (ptype p) = Some x.
Proof.
  intros (R & P) F. destruct (P a p F) as (K & _). unfold known in K. destruct (find (ptype p) (FactoryModel.cfgs (fac w))) as [c|] eqn:C; [|congruence].
  unfold xenv. rewrite (fee_exact _ _ _ R C). eexists. reflexivity.
Qed.
(** What the factory lists was instantiated. *)
Lemma born_lists m : forall f f' k a, FactoryModel.step m f = Some f' -> In (k, a) (FactoryModel.pairs f') ->
  In (k, a) (FactoryModel.pairs f) \/ exists t, In (a, t) (born m).
Proof.
  induction m using FactoryProps.msg_ind'; intros f f' k b E I; rewrite FactoryProps.step_leaf in E.
  - unfold FactoryModel.update_config in E. unguard E G. injection E as <-. auto.
  - unfold FactoryModel.update_pair_config in E. unguard E G. unguard E G2. injection E as <-. auto.
  - rewrite born_create. unbind E as f1 E1. unbind E as f2 E2. unfold FactoryModel.reply in E. unbind E as k' Ek. unguard E G. injection E as <-.
    cbn [FactoryModel.set_pairs FactoryModel.pairs] in I. apply bput_in in I. destruct I as [[= -> ->]|I]; [right; exists t; left; reflexivity|].
    assert (Q1 : FactoryModel.pairs f1 = FactoryModel.pairs f).
    { unfold FactoryModel.create_begin in E1. unguard E1 G1. unguard E1 G2. unbind E1 as c Ec. unguard E1 G3. unguard E1 G4. injection E1 as <-. reflexivity. }
    rewrite <- Q1. clear Q1 E1 G Ek. assert (J : In (k, b) (FactoryModel.pairs f1) \/ exists t', In (b, t') (flat_map born nested)).
    { revert f1 E2. induction nested as [|m n IH]; intros f1 E2; cbn [FactoryModel.steps flat_map] in *; [left; congruence|].
      inversion H as [|? ? Hm Hn]; subst. unbind E2 as f3 E3. destruct (IH Hn f3 E2) as [J|(t' & J)].
      - destruct (Hm _ _ _ _ E3 J) as [J'|(t' & J')]; [left; exact J'|right; exists t'; apply in_or_app; auto].
      - right. exists t'. apply in_or_app. auto. }
    destruct J as [J|(t' & J)]; [auto|right; exists t'; right; exact J].
  - unfold FactoryModel.deregister in E. unguard E G1. unguard E G2. unbind E as c Ec. injection E as <-. left. cbn in I. apply bdel_in in I. exact I.
  - unfold FactoryModel.update_tracker in E. unguard E G. unbind E as tr Et. injection E as <-. auto.
  - unfold FactoryModel.ownership in E. unbind E as o Eo. injection E as <-. auto.
Qed.
Definition backed (w : world) : Prop := forall k a, In (k, a) (FactoryModel.pairs (fac w)) -> find a (prs w) <> None.
Lemma backed_run l : forall w, backed w -> backed (run w l).
Proof.
  induction l as [|[e m] l IH]; intros w B; [exact B|]. rewrite run_cons. apply IH. unfold exec. cbn [fst snd].
  destruct (step e m w) as [[w' o]|] eqn:E; [|exact B]. destruct m as [m|a m]; cbn [step] in E.
  - unguard E G. unbind E as f Ef. injection E as <- <-. intros k a I. cbn [fac prs] in *. rewrite inst_find.
    destruct (List.find (fun x => fst x =? a) (born m)) as [[b t]|] eqn:Eb; [discriminate|].
    destruct (born_lists _ _ _ _ _ Ef I) as [I'|(t & I')]; [apply (B k a I')|].
    apply find_none with (2 := I') in Eb. cbn in Eb. rewrite Z.eqb_refl in Eb. discriminate.
  - unbind E as p E1. unbind E as x E2. unbind E as [s o'] E3. injection E as <- <-. intros k b I. cbn [fac prs] in *. rewrite find_put.
    destruct (a =? b); [discriminate|apply (B k b I)].
Qed.
Lemma init_backed f : fresh f -> backed (init f).
Proof.
  intros (o & fee & g & l & tr & E) k a I. unfold FactoryModel.instantiate in E. unguard E G. unbind E as m Em. injection E as <-. destruct I.
Qed.
(** What a pair does depends on its own state and its terms only. *)
Lemma terms_xenv e f1 f2 t : FactoryProps.reachable f1 -> FactoryProps.reachable f2 -> terms f1 t = terms f2 t ->
  terms f1 t <> None -> xenv e f1 t = xenv e f2 t.
Proof.
  intros R1 R2 E N. unfold terms in *. destruct (find t (FactoryModel.cfgs f1)) as [c1|] eqn:C1; [|congruence].
  destruct (find t (FactoryModel.cfgs f2)) as [c2|] eqn:C2; [|congruence]. injection E as E1 E2 E3 E4.
  unfold xenv. rewrite (fee_exact _ _ _ R1 C1), (fee_exact _ _ _ R2 C2), E1, E2, E3, E4. reflexivity.
Qed.
