(** The factory and the incentives contract together: lemmas. *)
From Coq Require Import ZArith Lia Bool List Permutation.
From Verif Require Import Num Amap Bytes IncentivesModel IncentivesSpec IncentivesPool IncentivesExact IncentivesEmission IncentivesProofs.
From Verif Require FactoryModel FactoryProps IncentivesEmissionProps.
From Verif Require Import RegWorldModel RegWorldSpec.
Import ListNotations.
Open Scope Z_scope.

Notation fstate := FactoryModel.state.
Notation xstate := (FactoryModel.state * list Z * list note)%type.

(** ** The factory with its notes *)
Fixpoint many (l : list FactoryModel.msg) (x : xstate) : option xstate :=
  match l with [] => Some x | m :: r => do y <- logged m x; many r y end.
Lemma logged_create sd t l a nested x : logged (FactoryModel.CreatePair sd t l a nested) x =
  (do x1 <- plain x (FactoryModel.create_begin (fst (fst x)) sd t l); do x2 <- many nested x1; reply x2 a).
Proof. reflexivity. Qed.
Lemma creates_create sd t l a nested : creates (FactoryModel.CreatePair sd t l a nested) = a :: flat_map creates nested.
Proof. cbn [creates]. f_equal. Qed.

Lemma logged_step : forall m x y, logged m x = Some y -> FactoryModel.step m (fst (fst x)) = Some (fst (fst y)).
Proof.
  assert (P : forall x r y, plain x r = Some y -> r = Some (fst (fst y))).
  { intros x r y H. unfold plain in H. unbind H as s E. injection H as <-. reflexivity. }
  induction m using FactoryProps.msg_ind'; intros x y E; try (apply (P x); exact E).
  - rewrite logged_create in E. rewrite FactoryProps.step_create. unbind E as x1 E1. unbind E as x2 E2. apply P in E1. rewrite E1.
    assert (K : forall z1 z2, many nested z1 = Some z2 -> FactoryModel.steps nested (fst (fst z1)) = Some (fst (fst z2))).
    { clear - H. induction H as [|m r Hm Hr IH]; intros z1 z2 E; cbn [many FactoryModel.steps] in *; [injection E as <-; reflexivity|].
      unbind E as z3 E3. rewrite (Hm _ _ E3). auto. }
    rewrite (K _ _ E2). destruct x2 as [[s2 k2] n2]. cbn [reply fst] in *. unguard E G. unbind E as s3 E3. injection E as <-. reflexivity.
  - destruct x as [[s k] n]. cbn [logged deregister fst] in *. unbind E as s' E1. unbind E as a E2. injection E as <-. exact E1.
Qed.

(** Preservation by the primitive actions; [A] holds of all created addresses. *)
Lemma logged_pres (I : xstate -> Prop) (A : Z -> Prop)
  (H1 : forall s k n s', I (s, k, n) -> FactoryModel.pairs s' = FactoryModel.pairs s -> I (s', k, n))
  (H2 : forall x a y, I x -> A a -> reply x a = Some y -> I y)
  (H3 : forall x sd l y, I x -> deregister x sd l = Some y -> I y) :
  forall m x y, (forall a, In a (creates m) -> A a) -> I x -> logged m x = Some y -> I y.
Proof.
  assert (P : forall x r y, I x -> (forall s', r = Some s' -> FactoryModel.pairs s' = FactoryModel.pairs (fst (fst x))) -> plain x r = Some y -> I y).
  { intros [[s k] n] r y Ix Q H. unfold plain in H. unbind H as s' E. injection H as <-. cbn [fst snd] in *. eapply H1; eauto. }
  induction m using FactoryProps.msg_ind'; intros x y Ca Ix E.
  - eapply P; [exact Ix| |exact E]. intros s' K. unfold FactoryModel.update_config in K. unguard K G. injection K as <-. reflexivity.
  - eapply P; [exact Ix| |exact E]. intros s' K. unfold FactoryModel.update_pair_config in K. unguard K G. unguard K G2. injection K as <-. reflexivity.
  - rewrite creates_create in Ca. rewrite logged_create in E. unbind E as x1 E1. unbind E as x2 E2. assert (I1 : I x1).
    { eapply P; [exact Ix| |exact E1]. intros s' K. unfold FactoryModel.create_begin in K. unguard K G1. unguard K G2. unbind K as c Ec. unguard K G3. unguard K G4. injection K as <-. reflexivity. }
    assert (I2 : I x2).
    { assert (Cn : forall a, In a (flat_map creates nested) -> A a) by (intros a Ha; apply Ca; right; exact Ha).
      clear - H Cn I1 E2. revert x1 I1 E2. induction H as [|m r Hm Hr IH]; intros x1 I1 E2; cbn [many] in E2; [injection E2 as <-; exact I1|].
      unbind E2 as x3 E3. cbn [flat_map] in Cn. apply (IH ltac:(intros a Ha; apply Cn; apply in_or_app; auto) x3); [|exact E2].
      eapply Hm; [|exact I1|exact E3]. intros a Ha. apply Cn. apply in_or_app. auto. }
    eapply H2; [exact I2| |exact E]. apply Ca. left. reflexivity.
  - eapply H3; eauto.
  - eapply P; [exact Ix| |exact E]. intros s' K. unfold FactoryModel.update_tracker in K. unguard K G. unbind K as tr Et. injection K as <-. reflexivity.
  - eapply P; [exact Ix| |exact E]. intros s' K. unfold FactoryModel.ownership in K. unbind K as o Eo. injection K as <-. reflexivity.
Qed.

(** Keys are sorted; listed pairs are known; a pair is listed once. *)
Definition good (x : xstate) : Prop :=
  let '(s, k, _) := x in
  bsorted (FactoryModel.pairs s) /\
  (forall q a, bfind q (FactoryModel.pairs s) = Some a -> In a k) /\
  (forall q q' a, bfind q (FactoryModel.pairs s) = Some a -> bfind q' (FactoryModel.pairs s) = Some a -> q = q').
Lemma logged_good m x y : good x -> logged m x = Some y -> good y.
Proof.
  apply (logged_pres good (fun _ => True)); [| | |auto].
  - intros s k n s' G E. unfold good in *. rewrite E. exact G.
  - intros [[s k] n] a z (S & K & U) _ E. cbn [reply] in E. unguard E G. unbind E as s' E1. injection E as <-. unfold FactoryModel.reply in E1. unbind E1 as q Eq. unguard E1 G1. injection E1 as <-.
    apply negb_true_iff in G. assert (Na : ~ In a k).
    { intros Ha. assert (existsb (Z.eqb a) k = true); [|congruence]. apply existsb_exists. exists a. split; [exact Ha|apply Z.eqb_refl]. }
    cbn [good FactoryModel.pairs FactoryModel.set_pairs]. split; [apply bput_sorted; exact S|]. split.
    + intros q' a' F. rewrite bfind_bput in F. destruct (beq q q'); [injection F as <-; left; reflexivity|right; eauto].
    + intros q1 q2 a' F1 F2. rewrite bfind_bput in F1, F2. destruct (beq_spec q q1) as [<-|N1], (beq_spec q q2) as [<-|N2]; auto.
      * injection F1 as <-. exfalso. apply Na. eapply K; eauto.
      * injection F2 as <-. exfalso. apply Na. eapply K; eauto.
      * eapply U; eauto.
  - intros [[s k] n] sd l z (S & K & U) E. cbn [deregister] in E. unbind E as s' E1. unbind E as a E2. injection E as <-.
    unfold FactoryModel.deregister in E1. unguard E1 G1. unguard E1 G2. unbind E1 as b Eb. injection E1 as <-.
    cbn [good FactoryModel.pairs FactoryModel.set_pairs]. split; [apply bdel_sorted; exact S|]. split.
    + intros q b' F. rewrite bfind_bdel in F by exact S. destruct (beq _ _); [discriminate|eauto].
    + intros q1 q2 b' F1 F2. rewrite bfind_bdel in F1, F2 by exact S. destruct (beq _ q1), (beq _ q2); try discriminate. eauto.
Qed.
(** What was listed is still, or its deregistration was noted. *)
Lemma logged_keeps m s k s' k' n l a : bsorted (FactoryModel.pairs s) -> logged m (s, k, []) = Some (s', k', n) ->
  FactoryModel.query_pair s l = Some a -> FactoryModel.query_pair s' l = Some a \/ In a (map snd n).
Proof.
  intros S E Q. set (I := fun x : xstate => bsorted (FactoryModel.pairs (fst (fst x))) /\ (FactoryModel.query_pair (fst (fst x)) l = Some a \/ In a (map snd (snd x)))).
  assert (K : I (s', k', n)); [|apply K]. revert E. apply (logged_pres I (fun _ => True)); [| | |auto|].
  - intros s0 k0 n0 s1 (I1 & I2) E. unfold I, FactoryModel.query_pair in *. cbn [fst snd] in *. rewrite E. auto.
  - intros [[s0 k0] n0] b y (I1 & I2) _ E. cbn [reply] in E. unguard E G. unbind E as s1 E1. injection E as <-. unfold FactoryModel.reply in E1. unbind E1 as q Eq. unguard E1 G1. injection E1 as <-.
    unfold I, FactoryModel.query_pair in *. cbn [fst snd FactoryModel.pairs FactoryModel.set_pairs] in *. split; [apply bput_sorted; exact I1|]. destruct I2 as [I2|I2]; [|auto]. left.
    rewrite bfind_bput. destruct (beq_spec q (FactoryModel.pair_key l)) as [->|]; [rewrite I2 in G1; discriminate|exact I2].
  - intros [[s0 k0] n0] sd l0 y (I1 & I2) E. cbn [deregister] in E. unbind E as s1 E1. unbind E as b E2. injection E as <-.
    unfold FactoryModel.deregister in E1. unguard E1 G1. unguard E1 G2. unbind E1 as b' Eb. injection E1 as <-.
    unfold I, FactoryModel.query_pair in *. cbn [fst snd FactoryModel.pairs FactoryModel.set_pairs] in *. split; [apply bdel_sorted; exact I1|].
    rewrite map_app, in_app_iff. destruct I2 as [I2|I2]; [|auto]. rewrite bfind_bdel by exact I1. destruct (beq_spec (FactoryModel.pair_key l0) (FactoryModel.pair_key l)) as [Hq|]; [|auto].
    right. right. left. cbn [snd]. rewrite Hq in *. congruence.
  - unfold I. auto.
Qed.
(** What is listed was before, or was created. *)
Lemma logged_new m s k s' k' n l a : bsorted (FactoryModel.pairs s) -> logged m (s, k, []) = Some (s', k', n) ->
  FactoryModel.query_pair s' l = Some a -> FactoryModel.query_pair s l = Some a \/ In a (creates m).
Proof.
  intros S E. set (I := fun x : xstate => bsorted (FactoryModel.pairs (fst (fst x))) /\ (FactoryModel.query_pair (fst (fst x)) l = Some a -> FactoryModel.query_pair s l = Some a \/ In a (creates m))).
  assert (K : I (s', k', n)); [|apply K]. revert E. apply (logged_pres I (fun b => In b (creates m))); [| | |auto|].
  - intros s0 k0 n0 s1 (I1 & I2) E. unfold I, FactoryModel.query_pair in *. cbn [fst snd] in *. rewrite E. auto.
  - intros [[s0 k0] n0] b y (I1 & I2) Ib E. cbn [reply] in E. unguard E G. unbind E as s1 E1. injection E as <-. unfold FactoryModel.reply in E1. unbind E1 as q Eq. unguard E1 G1. injection E1 as <-.
    unfold I, FactoryModel.query_pair in *. cbn [fst snd FactoryModel.pairs FactoryModel.set_pairs] in *. split; [apply bput_sorted; exact I1|].
    rewrite bfind_bput. destruct (beq q _); [intros [= <-]; auto|exact I2].
  - intros [[s0 k0] n0] sd l0 y (I1 & I2) E. cbn [deregister] in E. unbind E as s1 E1. unbind E as b E2. injection E as <-.
    unfold FactoryModel.deregister in E1. unguard E1 G1. unguard E1 G2. unbind E1 as b' Eb. injection E1 as <-.
    unfold I, FactoryModel.query_pair in *. cbn [fst snd FactoryModel.pairs FactoryModel.set_pairs] in *. split; [apply bdel_sorted; exact I1|].
    rewrite bfind_bdel by exact I1. destruct (beq _ _); [discriminate|exact I2].
  - unfold I. auto.
Qed.

(** ** The incentives contract *)
Lemma deactivate_all_run c e l : forall i i', deactivate_all c e l i = Some i' ->
  i' = IncentivesModel.run i (map (fun lp => (e, fac_addr c, DeactivatePool lp)) l).
Proof.
  induction l as [|lp r IH]; intros i i' H; cbn [deactivate_all map] in *; [injection H as <-; reflexivity|].
  unbind H as [i1 o] E. apply IH in H. rewrite H. unfold IncentivesModel.run. cbn [fold_left IncentivesModel.exec]. rewrite E. reflexivity.
Qed.
Lemma run_split c l : forall w, inc (run c w l) = IncentivesModel.run (inc w) (inc_hist c w l) /\
  fac (run c w l) = FactoryModel.run (fac w) (fac_hist c w l).
Proof.
  induction l as [|[e m] r IH]; intros w; [split; reflexivity|]. unfold run. cbn [fold_left]. fold (run c (exec c w (e, m)) r).
  cbn [inc_hist fac_hist]. unfold exec. cbn [fst snd]. destruct (step c e m w) as [[w' o]|] eqn:E; [|apply IH].
  destruct (IH w') as (A & B). rewrite A, B. unfold IncentivesModel.run, FactoryModel.run. rewrite !fold_left_app. clear IH A B.
  destruct m; cbn [step inc_msgs] in *.
  - unbind E as [[f k] n] E1. unbind E as i E2. injection E as <- <-. cbn [inc fac]. apply deactivate_all_run in E2. rewrite E2. split; [reflexivity|].
    cbn [fold_left app]. unfold FactoryModel.exec. apply logged_step in E1. cbn [fst] in E1. rewrite E1. reflexivity.
  - unguard E G. unbind E as [i o'] E1. injection E as <- <-. cbn [inc fac fold_left IncentivesModel.exec]. rewrite E1. split; reflexivity.
Qed.

Definition emit (i : IncentivesModel.state) : Prop := 0 < aps i /\ talloc i <= 10 ^ 18.
Lemma emit_rate lp i : em_inv i -> emit i -> earns lp i -> rate lp i <> 0.
Proof.
  intros (N & F & T & A & _ & R) (P & Q) E. unfold earns in E. destruct (find lp (active i)) as [al|] eqn:Ef.
  2:{ exfalso. clear - E Ef. induction (active i) as [|[a b] r IH]; [destruct E|]. cbn [find map fst] in *. destruct (Z.eqb_spec a lp); [discriminate|].
      destruct E as [E|E]; [contradiction|auto]. }
  rewrite (R _ _ Ef). apply find_in in Ef. assert (Ha : 0 < al) by (rewrite Forall_forall in F; apply (F _ Ef)).
  assert (Ht : 0 < talloc i).
  { rewrite T. clear - F Ef. induction (active i) as [|[a b] r IH]; [destruct Ef|]. inversion F; subst. unfold points in *. cbn [sumf snd] in *.
    assert (0 <= sumf (fun v => v) r) by (clear - H2; induction H2; cbn [sumf]; [lia|destruct x; cbn in *; lia]).
    destruct Ef as [[= <- <-]|Ef]; [lia|]. specialize (IH H2 Ef). lia. }
  change DEC with (10 ^ 18). intros Z. pose proof (Z.div_str_pos (aps i * al * 10 ^ 18) (talloc i)). nia.
Qed.
Lemma deact_active e sd lp s s' o : em_inv s -> (earns lp s -> rate lp s <> 0) ->
  IncentivesModel.step e sd (DeactivatePool lp) s = Some (s', o) ->
  ~ earns lp s' /\ (forall k, earns k s' -> earns k s) /\ aps s' = aps s /\ talloc s' <= talloc s.
Proof.
  intros (N & F & _) R H. cbn [IncentivesModel.step] in H. unfold silent in H. unbind H as x E. injection H as <- <-. unfold deactivate_pool in E. unguard E G. unfold earns in *.
  rewrite rate_irate in R. destruct (find lp (lps s)) as [p|]; [|injection E as <-; split; [intros Q; apply (R Q); reflexivity|auto with zarith]].
  destruct (is_active (pl p)) eqn:A.
  - unbind E as [n al] E1. unbind E as s2 E2. unbind E as t E3. unbind E as s3 E4. injection E as <-. cbn [active aps talloc set_emission].
    pose proof (Permutation_map fst (position_swap _ _ _ _ E1)) as P. pose proof (Permutation_NoDup (Permutation_sym P) N) as N'. cbn [map fst] in N', P. inversion N'; subst.
    split; [exact H1|]. split; [intros k Hk; eapply Permutation_in; [exact P|right; exact Hk]|]. split; [reflexivity|].
    assert (Hal : 0 < al) by (rewrite Forall_forall in F; apply (F (lp, al)); eapply Permutation_in; [exact (position_swap _ _ _ _ E1)|left; reflexivity]). num_inv. lia.
  - injection E as <-. split; [|auto with zarith]. intros Q. apply (R Q). unfold irate. destruct (find_int (rewards (pl p))) as [x|] eqn:Ex; [|reflexivity].
    destruct (find_int_is _ _ Ex) as [Hx Hr]. destruct (Z.eqb_spec (rps x) 0) as [Hz|Hz]; [exact Hz|exfalso].
    unfold is_active in A. assert (existsb (fun x => negb (is_ext (rw x)) && negb (rps x =? 0)) (rewards (pl p)) = true); [|congruence].
    apply existsb_exists. exists x. split; [exact Hx|]. rewrite Hr. destruct (Z.eqb_spec (rps x) 0); [contradiction|reflexivity].
Qed.
Lemma all_active c e l : forall i i', em_inv i -> (l <> [] -> emit i) -> deactivate_all c e l i = Some i' ->
  em_inv i' /\ (forall k, earns k i' -> earns k i /\ ~ In k l).
Proof.
  induction l as [|lp r IH]; intros i i' M Em H; cbn [deactivate_all] in H; [injection H as <-; cbn; auto|].
  unbind H as [i1 o] E. destruct (Em ltac:(discriminate)) as (P & Q). destruct (deact_active _ _ _ _ _ _ M (emit_rate lp i M (conj P Q)) E) as (A & B & C & D).
  assert (M1 : em_inv i1) by (eapply step_em; eauto; exact Logic.I). assert (Em1 : r <> [] -> emit i1) by (intros _; unfold emit; lia).
  destruct (IH i1 i' M1 Em1 H) as (M' & K). split; [exact M'|]. intros k Hk. destruct (K k Hk) as (K1 & K2). split; [auto|].
  intros [<-|Hr]; [contradiction|contradiction].
Qed.

(** ** Both *)
Definition wgood (w : world) : Prop := good (fac w, known w, []).
Lemma step_good c e m w w' o : wgood w -> step c e m w = Some (w', o) -> wgood w'.
Proof.
  intros G H. destruct m; cbn [step] in H.
  - unbind H as [[f k] n] E1. unbind H as i E2. injection H as <- _. pose proof (logged_good _ _ _ G E1) as Q. exact Q.
  - unguard H G1. unbind H as [i o'] E1. injection H as <- _. exact G.
Qed.
Lemma run_good c l : forall w, wgood w -> wgood (run c w l).
Proof.
  induction l as [|[e m] r IH]; intros w G; [exact G|]. apply IH. unfold exec. cbn [fst snd]. destruct (step c e m w) as [[w' o]|] eqn:E; [|exact G]. eapply step_good; eauto.
Qed.
Lemma init_good c f own ast grd fe : fresh f -> wgood (init c f own ast grd fe).
Proof.
  intros (o & fee & g & l & tr & H). unfold FactoryModel.instantiate in H. unguard H G. unbind H as m Em. injection H as <-.
  unfold wgood, good. cbn. split; [constructor|]. split; discriminate.
Qed.
Lemma is_registered_listed c q f lp : is_registered c q f lp = true -> listed c f lp.
Proof.
  unfold is_registered. destruct (q lp) as [l|]; [|discriminate]. destruct (FactoryModel.query_pair f l) as [a|] eqn:E; [|discriminate].
  intros H. exists l, a. split; [exact E|]. lia.
Qed.
Lemma allowed_listed c e f l s : forallb (pool_allowed (seen c e f) s) l = true -> forall lp, In lp (map fst l) -> listed c f lp.
Proof.
  intros H lp Hl. apply in_map_iff in Hl. destruct Hl as (x & <- & Hx). rewrite forallb_forall in H. specialize (H x Hx). unfold pool_allowed in H.
  apply andb_true_iff in H. destruct H as [H _]. apply andb_true_iff in H. destruct H as [H _]. eapply is_registered_listed. exact H.
Qed.

Definition inv (c : cfg) (w : world) : Prop := wgood w /\ em_inv (inc w) /\ forall lp, earns lp (inc w) -> listed c (fac w) lp.
Lemma step_inv c e m w w' o : inv c w -> effective c m w -> 
  (forall e' sd' m', In (e', sd', m') (inc_msgs c e m w) -> emission_ok e' m' (inc w)) -> step c e m w = Some (w', o) -> inv c w'.
Proof.
  intros (G & M & L) Ef Ok H. pose proof (step_good _ _ _ _ _ _ G H) as G'. destruct m; cbn [step] in H.
  - unbind H as [[f k] n] E1. unbind H as i E2. injection H as <- _. cbn [effective] in Ef. specialize (Ef f k n E1).
    assert (Em : told c n <> [] -> emit (inc w)).
    { intros Nt. destruct Ef as (_ & A & B); [intros ->; apply Nt; reflexivity|]. split; auto. }
    destruct (all_active _ _ _ _ _ M Em E2) as (M' & K). split; [exact G'|]. split; [exact M'|]. cbn [inc fac]. intros lp Hl.
    destruct (K lp Hl) as (K1 & K2). destruct (L lp K1) as (l & a & Q & <-). destruct G as (S & _).
    destruct (logged_keeps _ _ _ _ _ _ l a S E1 Q) as [Q'|Q']; [exists l, a; auto|]. exfalso. apply K2. apply in_map_iff in Q'. destruct Q' as ([g a'] & Ha & Q'). cbn in Ha. subst a'.
    unfold told. apply in_flat_map. exists (g, a). split; [exact Q'|]. cbn [fst snd].
    destruct Ef as (A & _); [intros ->; destruct Q'|]. rewrite (A _ _ Q'), Z.eqb_refl. left. reflexivity.
  - unguard H Gs. unbind H as [i o'] E1. injection H as <- _. split; [exact G'|]. cbn [inc fac]. split; [eapply step_em; [exact M| |exact E1]; eapply Ok; left; reflexivity|].
    intros lp Hl. destruct (step_active _ _ _ _ _ _ _ E1 Hl) as [A|A]; [apply L; exact A|]. destruct m; cbn [lists] in A; try contradiction.
    cbn [IncentivesModel.step] in E1. unfold silent in E1. unbind E1 as x E. unfold setup_pools in E. unguard E G1. unguard E G2. unguard E G3. eapply allowed_listed; eauto.
Qed.
Lemma emissions_app h1 : forall h2 s, emissions_ok s (h1 ++ h2) -> emissions_ok (IncentivesModel.run s h1) h2.
Proof. induction h1 as [|[[e sd] m] r IH]; intros h2 s H; [exact H|]. cbn [app emissions_ok] in H. destruct H as (_ & H). apply IH in H. exact H. Qed.
Lemma run_inv c l : forall w, inv c w -> all_effective c w l -> emissions_ok (inc w) (inc_hist c w l) -> inv c (run c w l).
Proof.
  induction l as [|[e m] r IH]; intros w I Ef Ok; [exact I|]. cbn [all_effective inc_hist] in *. destruct Ef as (E1 & E2).
  unfold run. cbn [fold_left]. fold (run c (exec c w (e, m)) r). unfold exec in *. cbn [fst snd] in *.
  destruct (step c e m w) as [[w' o]|] eqn:E; [|apply IH; auto]. pose proof (emissions_app _ _ _ Ok) as Ok2.
  assert (Q : inc w' = IncentivesModel.run (inc w) (inc_msgs c e m w)).
  { destruct (run_split c [(e, m)] w) as (A & _). unfold run in A. cbn [fold_left inc_hist] in A. unfold exec in A. cbn [fst snd] in A. rewrite E, app_nil_r in A. exact A. }
  apply IH; [|exact E2|rewrite Q; exact Ok2]. eapply step_inv; eauto. intros e' sd' m' Hi. clear - Ok Hi. destruct m; cbn [inc_msgs] in *.
  - destruct (logged _ _) as [[[f k] n]|]; [|destruct Hi]. apply in_map_iff in Hi. destruct Hi as (lp & [= <- <- <-] & _). exact Logic.I.
  - destruct Hi as [[= <- <- <-]|[]]. cbn [app emissions_ok] in Ok. apply Ok.
Qed.
