(** C77: roles and blocked tokens of the incentives contract. *)
From Coq Require Import ZArith Lia Bool List.
From Verif Require Import Num Amap Ledger IncentivesModel IncentivesSpec IncentivesPay IncentivesStep IncentivesProps IncentivesEmissionProps.
Import ListNotations.
Open Scope Z_scope.

(** What the roles of the contract decide on. *)
Definition settings (s : state) :=
  (owner s, factory s, controller s, guardian s, astro s, aps s, fee s, blocked s).

Lemma save_set e lp p rem s s' : save e lp p rem s = Some s' -> settings s' = settings s /\ active s' = active s.
Proof. unfold save. intros H. unbind H as [fi o] E. injection H as <-. auto. Qed.
Lemma pay_set e to l : forall s s' o, pay_all e to s l = (s', o) -> settings s' = settings s /\ active s' = active s.
Proof.
  induction l as [|[a v] l IH]; intros s s' o H; simpl in H.
  - injection H as <- <-. auto.
  - destruct (v =? 0); [|destruct (xfer_ok e a && (v <=? get (bal s) a))];
      destruct (pay_all e to _ l) as [s2 o2] eqn:E; injection H as <- _; apply IH in E; exact E.
Qed.
Lemma touch_set e c f lp s s' : touch e c f lp s = Some s' -> settings s' = settings s /\ active s' = active s.
Proof.
  unfold touch. intros H. unbind H as p E1. unbind H as [q rem] E2. unbind H as q' E3. apply save_set in H. exact H.
Qed.
Lemma touch_all_set e c f l : forall s s', touch_all e c f l s = Some s' -> settings s' = settings s /\ active s' = active s.
Proof.
  induction l as [|[lp al] l IH]; intros s s' H; simpl in H; [injection H as <-; auto|].
  unbind H as s1 E1. apply touch_set in E1. apply IH in H. destruct E1, H. split; congruence.
Qed.
Lemma claim_each_set e sd l : forall s s' x, claim_each e sd l s = Some (s', x) -> True -> settings (fst s') = settings s /\ active (fst s') = active s.
Proof.
  induction l as [|lp l IH]; intros s s' x H _; simpl in H; [injection H as <- _; auto|].
  unbind H as p E1. unbind H as u E2. unbind H as [q rem] E3. unbind H as [ext prot] E4. unbind H as s1 E5.
  unbind H as [[s2 ext2] prot2] E6. unbind H as pr E7. injection H as <- _. apply save_set in E5.
  specialize (IH _ _ _ E6 I). simpl in *. destruct E5, IH. split; congruence.
Qed.
Lemma incentivize_set e lp a amt n s f s' f' o : incentivize e lp a amt n s f = Some (s', f', o) ->
  settings s' = settings s /\ active s' = active s /\ ~ In a (blocked s).
Proof.
  unfold incentivize. intros H. unbind H as [[ne en] r] E1. unguard H G. unbind H as [q rem] E2.
  unbind H as [rs sch] E3. unbind H as [[f1 s1] o1] E4. unbind H as [f2 s2] E5. unbind H as s3 E6.
  injection H as <- <- <-. apply save_set in E6.
  assert (A : settings s1 = settings s /\ active s1 = active s).
  { destruct (fee s) as [[d v]|]; [|injection E4 as <- <- <-; auto].
    match type of E4 with (if ?b then _ else _) = _ => destruct b end; [|injection E4 as <- <- <-; auto].
    unbind E4 as x E. unguard E4 G2. injection E4 as <- <- <-. auto. }
  assert (B : settings s2 = settings s1 /\ active s2 = active s1).
  { destruct (0 <=? a); [unbind E5 as x E; injection E5 as <- <-; auto|]. unguard E5 G2. injection E5 as <- <-. auto. }
  destruct A, B, E6. repeat split; try congruence.
  intros I. apply andb_true_iff in G. destruct G as (G & _). apply negb_true_iff in G.
  assert (X : mem a (blocked s) = true); [|congruence]. clear - I.
  induction (blocked s) as [|y l IH]; simpl in *; [tauto|]. destruct I as [->|I]; [rewrite Z.eqb_refl; reflexivity|].
  rewrite (IH I). apply orb_true_r.
Qed.
Lemma incentivize_each_set e l : forall s f s' f' o, incentivize_each e l s f = Some (s', f', o) ->
  settings s' = settings s /\ active s' = active s /\ forall lp a amt n, In (lp, (a, amt, n)) l -> ~ In a (blocked s).
Proof.
  induction l as [|[lp [[a amt] n]] l IH]; intros s f s' f' o H; simpl in H.
  - injection H as <- <- <-. repeat split; auto.
  - unbind H as [[s1 f1] o1] E1. unbind H as [[s2 f2] o2] E2. injection H as <- <- <-.
    apply incentivize_set in E1. apply IH in E2. destruct E1 as (A & B & C), E2 as (D & E & F).
    repeat split; try congruence. intros lp' a' amt' n' [I|I].
    + injection I as <- <- <- <-. exact C.
    + replace (blocked s) with (blocked s1) by (unfold settings in A; congruence). eauto.
Qed.

(** Who may send what. *)
Definition allowed (sd : Z) (m : msg) (s : state) : Prop :=
  match m with
  | SetTokensPerSecond _ | RemoveReward _ _ _ _ | ClaimOrphaned _ _ | UpdateConfig _ _ _ _ => sd = owner s
  | SetupPools _ => sd = owner s \/ controller s = Some sd
  | UpdateBlocked _ _ => sd = owner s \/ guardian s = Some sd
  | DeactivatePool _ => sd = factory s
  | _ => True
  end.
(** Messages open to everybody. *)
Definition open_to_all (m : msg) : Prop :=
  match m with
  | ClaimRewards _ | Deposit _ _ _ | Withdraw _ _ | Incentivize _ _ | DeactivateBlocked | Donate _ _ => True
  | _ => False
  end.

Theorem c77_roles e sd m s s' o : step e sd m s = Some (s', o) -> allowed sd m s.
Proof.
  assert (R : forall x, (sd =? owner s) || match x with Some c => sd =? c | None => false end = true ->
            sd = owner s \/ x = Some sd).
  { intros x H. apply orb_true_iff in H. destruct H as [H|H]; [left; apply Z.eqb_eq; exact H|].
    right. destruct x; [|discriminate]. apply Z.eqb_eq in H. congruence. }
  intros H. destruct m; simpl in *; auto.
  - silent H. unfold setup_pools in E. unguard E G. auto.
  - silent H. unfold set_tokens in E. unguard E G. apply Z.eqb_eq. exact G.
  - unfold remove_reward in H. unguard H G. apply Z.eqb_eq. exact G.
  - unfold claim_orphaned in H. unguard H G. apply Z.eqb_eq. exact G.
  - silent H. unfold update_config in E. unguard E G. apply Z.eqb_eq. exact G.
  - silent H. unfold update_blocked in E. unguard E G. auto.
  - silent H. unfold deactivate_pool in E. unguard E G. apply Z.eqb_eq. exact G.
Qed.

(** Nobody else can change any of the settings, by any history. *)
Theorem c77_settings h : forall s, (forall e sd m, In (e, sd, m) h -> open_to_all m) -> settings (run s h) = settings s.
Proof.
  induction h as [|[[e sd] m] h IH]; intros s O; simpl; auto. rewrite IH by (intros; eapply O; right; eauto).
  specialize (O e sd m (or_introl eq_refl)). clear IH.
  destruct (step e sd m s) as [[s' o]|] eqn:H; auto. destruct m; simpl in O; try tauto; simpl in H.
  - unfold claim in H. unguard H G. unbind H as [[s1 ext] prot] E1. unbind H as o2 E2.
    destruct (pay_all e sd s1 ext) as [s2 o1] eqn:E3. injection H as <- _. apply pay_set in E3.
    pose proof (claim_each_set _ _ _ _ _ _ E1 I) as X. simpl in X. destruct X, E3. congruence.
  - unfold deposit in H. unguard H G. unbind H as [q rem] E1. unbind H as [ext prot] E2. unbind H as a E3.
    unbind H as t E4. unbind H as s1 E5. unbind H as o2 E6. destruct (pay_all e _ s1 ext) as [s2 o1] eqn:E7.
    injection H as <- _. apply pay_set in E7. apply save_set in E5. destruct E5 as [E5 _]. destruct E7 as [E7 _].
    rewrite E7, E5. reflexivity.
  - unfold withdraw in H. unbind H as p E1. unbind H as u E2. unguard H G. unbind H as [q rem] E3. unbind H as [ext prot] E4.
    unbind H as a E5. unbind H as t E6. unbind H as s1 E7. unbind H as o2 E8. destruct (pay_all e sd s1 ext) as [s2 o1] eqn:E9.
    unguard H G2. injection H as <- _. apply pay_set in E9. apply save_set in E7. destruct E7 as [E7 _]. destruct E9 as [E9 _].
    rewrite <- E7, <- E9. reflexivity.
  - unfold incentivize_many in H. unguard H G. unbind H as [[s1 f] o1] E. unguard H G2. injection H as <- _.
    apply incentivize_each_set in E. destruct E as (E & _). rewrite E. reflexivity.
  - silent H. unfold deactivate_blocked in E. unbind E as s2 E1. unbind E as t E2. apply touch_all_set in E1.
    destruct E1 as (A & B).
    destruct (filter _ (active s)); [injection E as <-; exact A|]. unbind E as s3 E3. injection E as <-.
    apply touch_all_set in E3. destruct E3 as (C & _). rewrite A in C. unfold settings in *. simpl. congruence.
  - injection H as <- _. reflexivity.
Qed.

(** A blocked token cannot be offered as a reward, and incentives use up all attached coins. *)
Theorem c77_no_blocked_reward e sd l funds s s' o :
  step e sd (Incentivize l funds) s = Some (s', o) -> forall lp a amt n, In (lp, (a, amt, n)) l -> ~ In a (blocked s).
Proof.
  simpl. unfold incentivize_many. intros H. unguard H G. unbind H as [[s1 f] o1] E.
  apply incentivize_each_set in E. destruct E as (_ & _ & E). exact E.
Qed.

(** UpdateBlocked replaces the set of blocked tokens by exactly what it says. *)
Lemma mem_In a l : mem a l = true <-> In a l.
Proof.
  induction l as [|y l IH]; simpl; [split; [discriminate | tauto]|].
  rewrite orb_true_iff, IH, Z.eqb_eq. intuition congruence.
Qed.
Lemma unblock_spec rm : forall bl bl', NoDup rm -> unblock rm bl = Some bl' ->
  (forall a, In a rm -> In a bl) /\ forall a, In a bl' <-> In a bl /\ ~ In a rm.
Proof.
  induction rm as [|x rm IH]; intros bl bl' N H; simpl in H.
  - injection H as <-. split; [intros a []|]. intros a. tauto.
  - inversion N; subst. unguard H G. apply mem_In in G. destruct (IH _ _ H3 H) as (A & B). clear IH H. split.
    + intros a [<-|I]; auto. apply A in I. apply filter_In in I. tauto.
    + intros a. rewrite B, filter_In, negb_true_iff, Z.eqb_neq. simpl. intuition congruence.
Qed.
Lemma block_spec e ast ac add : forall bl dis bl', NoDup add -> block e ast ac add bl = Some (dis, bl') ->
  (forall a, In a add -> ~ In a bl /\ a <> ast) /\ forall a, In a bl' <-> In a add \/ In a bl.
Proof.
  induction add as [|x add IH]; intros bl dis bl' N H; simpl in H.
  - injection H as <- <-. split; [intros a []|]. intros a. simpl. tauto.
  - inversion N; subst. unguard H G. unbind H as [d b] E. injection H as <- <-. destruct (IH _ _ _ H3 E) as (A & B).
    apply andb_true_iff in G. destruct G as (G1 & G2). apply negb_true_iff in G1, G2. apply Z.eqb_neq in G2.
    assert (G3 : ~ In x bl) by (intros I; apply mem_In in I; congruence). split.
    + intros a [<-|I]; auto. apply A in I. simpl in I. tauto.
    + intros a. rewrite B. simpl. tauto.
Qed.
Lemma nodup_NoDup l : nodup l = true -> NoDup l.
Proof.
  induction l as [|x l IH]; simpl; intros H; constructor; apply andb_true_iff in H; destruct H as (H1 & H2); auto.
  intros I. apply mem_In in I. rewrite I in H1. discriminate.
Qed.
Theorem c77_blocked_set e sd add rm s s' o : step e sd (UpdateBlocked add rm) s = Some (s', o) ->
  (forall a, In a rm -> In a (blocked s)) /\ (forall a, In a add -> ~ In a (blocked s) /\ ~ In a rm /\ a <> astro s) /\
  forall a, In a (blocked s') <-> In a add \/ (In a (blocked s) /\ ~ In a rm).
Proof.
  simpl. intros H. silent H. unfold update_blocked in E. unguard E G1. unguard E G2. unbind E as bl1 E1.
  unbind E as [dis bl2] E2. apply nodup_NoDup in G2.
  assert (N1 : NoDup rm /\ NoDup add).
  { clear - G2. induction rm as [|x rm IH]; simpl in *; [split; [constructor | exact G2]|]. inversion G2; subst.
    destruct (IH H2) as (A & B). split; auto. constructor; auto. intros I. apply H1. apply in_or_app. auto. }
  destruct N1 as (N1 & N2).
  assert (N3 : forall a, In a add -> ~ In a rm).
  { clear - G2. induction rm as [|x rm IH]; simpl in *; [tauto|]. inversion G2; subst. intros a I [<-|J]; [|exact (IH H2 a I J)].
    apply H1. apply in_or_app. auto. }
  destruct (unblock_spec _ _ _ N1 E1) as (A & B). destruct (block_spec _ _ _ _ _ _ _ N2 E2) as (C & D).
  assert (Q : blocked s1 = bl2).
  { destruct dis; [injection E as <-; reflexivity|]. unbind E as sa Ea. unbind E as rd Eb. unbind E as tt Ec.
    unbind E as sb Ed. injection E as <-. reflexivity. }
  split; auto. split.
  - intros a I. destruct (C a I) as (C1 & C2). rewrite B in C1. specialize (N3 a I). tauto.
  - intros a. rewrite Q, D, B. tauto.
Qed.

(** A history where the roles act: speed, pools, and a blocked token. *)
Example k1_blocked : exists s' o, step (ate t0) 1 (UpdateBlocked [21] []) s_init = Some (s', o) /\
  blocked s' = [21] /\ step (ate t0) 5 (Incentivize [(100, (21, 2000000, 1))] [(21, 2000000)]) s' = None /\
  (exists s2 o2, step (ate t0) 5 (Incentivize [(100, (22, 2000000, 1))] [(22, 2000000)]) s' = Some (s2, o2)) /\
  step (ate t0) 1 (UpdateBlocked [21] []) s' = None.
Proof. do 2 eexists. split; [vm_compute; reflexivity|]. split; [vm_compute; reflexivity|]. split; [vm_compute; reflexivity|].
  split; [do 2 eexists; vm_compute; reflexivity | vm_compute; reflexivity]. Qed.
Example k1_roles : step (ate t0) 5 (SetTokensPerSecond 7) s_init = None /\
  option_map (fun x => aps (fst x)) (step (ate t0) 1 (SetTokensPerSecond 7) s_init) = Some 7.
Proof. split; vm_compute; reflexivity. Qed.
Example k1_open : settings (run s_init [(ate t0, 5, Incentivize [(100, (22, 2000000, 1))] [(22, 2000000)]);
   (ate (t0 + 5), 8, Deposit 100 500 None); (ate (t0 + 9), 8, ClaimRewards [100]); (ate (t0 + 10), 3, DeactivateBlocked)]) = settings s_init.
Proof. apply c77_settings. intros e sd m I. simpl in I. decompose [or] I; try tauto; match goal with H : _ = _ |- _ => injection H as <- <- <- end; simpl; auto. Qed.

Print Assumptions c77_roles.
Print Assumptions c77_settings.
Print Assumptions c77_no_blocked_reward.
Print Assumptions c77_blocked_set.
