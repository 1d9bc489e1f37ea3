(** Incentives: every message changes pools one at a time by one of five kinds of change. *)
From Coq Require Import ZArith Lia Bool List Permutation.
From Verif Require Import Num Amap Ledger IncentivesModel IncentivesSpec IncentivesSched IncentivesPool
  IncentivesPay IncentivesOps IncentivesInv IncentivesStep IncentivesProofs.
Import ListNotations.
Open Scope Z_scope.

(** Changes of an updated pool and its schedules. *)
Inductive chg (m : msg) (t ast : Z) : amap (list (Z * Z)) -> pool -> pool -> amap (list (Z * Z)) -> Prop :=
| c_same sc q n : chg m t ast sc q (mkPool n (rewards q) (last q)) sc
| c_set sc q q' a r tt al : set_astro a r tt al q = Some q' -> chg m t ast sc q q' sc
| c_off sc q q' : disable_astro q = Some q' -> chg m t ast sc q q' sc
| c_inc sc q l f lp a amt n ne en r rs sch :
    m = Incentivize l f -> In (lp, (a, amt, n)) l -> from_input t amt n = Some (ne, en, r) ->
    incentivize_pool ast a ne en r (rewards q) (sched_of a sc) = Some (rs, sch) ->
    chg m t ast sc q (mkPool (total_lp q) rs (last q)) (put a sch sc)
| c_del sc q q' lp a b to x sch v :
    m = RemoveReward lp a b to -> deregister a b q (sched_of a sc) = Some (q', x, sch, v) ->
    chg m t ast sc q q' (put a sch sc).

(** Only users whose rewards were computed are changed, and they are synced or leave. *)
Inductive uchg (e : env) (q q' : pool) (rem : removed) (p : lpst) : amap uinfo -> Prop :=
| u_same : total_lp q' = total_lp q -> uchg e q q' rem p (users p)
| u_put who u a d : u = match find who (users p) with Some u => u | None => mkU 0 [] (now e) end ->
    due q rem (fins p) u = Some d -> (0 <= amount u -> 0 <= a) -> total_lp q' = total_lp q - amount u + a ->
    uchg e q q' rem p (put who (sync a q') (users p))
| u_del who u d : find who (users p) = Some u -> due q rem (fins p) u = Some d ->
    total_lp q' = total_lp q - amount u -> uchg e q q' rem p (del who (users p)).
Lemma uchg_settled e q q' rem p us : uchg e q q' rem p us -> forall w, find w us = find w (users p) \/
    due q rem (fins p) (match find w (users p) with Some u => u | None => mkU 0 [] (now e) end) <> None.
Proof.
  intros [T|who u a d -> D _ _|who u d E D _] w; [left; auto| |].
  - rewrite find_put. destruct (Z.eqb_spec who w); [right; subst; congruence|left; auto].
  - destruct (Z.eqb_spec who w); [right; subst; rewrite E; congruence|]. left. apply find_del_other. auto.
Qed.
(** What is saved as finished: the rewards that ended, and the one that is removed. *)
Definition removes (m : msg) : bool := match m with RemoveReward _ _ _ _ => true | _ => false end.
Definition rchg (m : msg) (sc : amap (list (Z * Z))) (q q' : pool) (sc' : amap (list (Z * Z)))
    (rem rem' : removed) : Prop :=
  (removes m = false /\ rem' = rem) \/
  exists lp a b to x sch v, m = RemoveReward lp a b to /\ deregister a b q (sched_of a sc) = Some (q', x, sch, v) /\
    sc' = put a sch sc /\ rem' = x :: rem.

Inductive mv (m : msg) (e : env) (ast : Z) : state -> state -> Prop :=
| mv_eq s s' : lps s' = lps s -> mv m e ast s s'
| mv_commit lp s s' q rem q' us sch rem' :
    update_rewards (now e) (cur lp s) = Some (q, rem) -> chg m (now e) ast (scheds (cur lp s)) q q' sch ->
    uchg e q q' rem (cur lp s) us -> rchg m (scheds (cur lp s)) q q' sch rem rem' ->
    save e lp (mkLp q' us sch (fins (cur lp s))) rem' s = Some s' -> mv m e ast s s'
| mv_rel a s s' : relabel a (active s) (lps s) = Some (lps s') -> mv m e ast s s'
| mv_trans s1 s2 s3 : mv m e ast s1 s2 -> mv m e ast s2 s3 -> mv m e ast s1 s3.

Lemma save_astro e lp p rem s s' : save e lp p rem s = Some s' -> astro s' = astro s.
Proof. unfold save. intros H. unbind H as [f o] E. injection H as <-. auto. Qed.
Lemma touch_mv m e ast c f lp s s' : removes m = false ->
  (forall sc q q', f q = Some q' -> chg m (now e) ast sc q q' sc /\ total_lp q' = total_lp q) ->
  touch e c f lp s = Some s' -> mv m e ast s s' /\ astro s' = astro s.
Proof.
  intros Nr K H. unfold touch in H. unbind H as p Ep.
  assert (Ec : cur lp s = p).
  { unfold cur. destruct (find lp (lps s)); [congruence|]. destruct c; congruence. }
  subst p. unbind H as [q rem] E. unbind H as q' E2. split; [|eapply save_astro; eauto].
  destruct (K (scheds (cur lp s)) _ _ E2) as [K1 K2].
  eapply mv_commit; [exact E|exact K1|apply u_same; exact K2|left; auto|exact H].
Qed.
Lemma touch_all_mv m e ast c f l : removes m = false ->
  (forall t ast al sc q q', f al q = Some q' -> chg m t ast sc q q' sc /\ total_lp q' = total_lp q) ->
  forall s s', touch_all e c f l s = Some s' -> mv m e ast s s' /\ astro s' = astro s.
Proof.
  intros Nr K. induction l as [|[lp al] r IH]; intros s s' H; simpl in H.
  - injection H as <-. split; auto. apply mv_eq. auto.
  - unbind H as s1 E. destruct (touch_mv m e ast c (f al) lp s s1) as [M1 A1]; auto.
    { intros sc q q'. apply K. }
    destruct (IH _ _ H) as [M2 A2]. split; [eapply mv_trans; eauto|congruence].
Qed.
Lemma set_chg m a r tt t ast al sc q q' : set_astro a r tt al q = Some q' ->
  chg m t ast sc q q' sc /\ total_lp q' = total_lp q.
Proof. intros H. split; [eapply c_set; eauto|apply set_astro_keeps in H; tauto]. Qed.
Lemma off_chg m t ast (al : Z) sc q q' : (fun _ : Z => disable_astro) al q = Some q' ->
  chg m t ast sc q q' sc /\ total_lp q' = total_lp q.
Proof. intros H. split; [eapply c_off; eauto|apply disable_keeps in H; tauto]. Qed.
Lemma pay_all_mv m e ast to l s s1 : lps s1 = lps s -> mv m e ast s (fst (pay_all e to s1 l)).
Proof. intros E. apply mv_eq. rewrite pay_all_lps. auto. Qed.

Lemma claim_each_mv m e ast sender l : removes m = false -> forall s s' x v, claim_each e sender l s = Some (s', x, v) -> mv m e ast s s'.
Proof.
  intros Nr. induction l as [|lp r IH]; intros s s' x v H; simpl in H.
  - injection H as <- <- <-. apply mv_eq. auto.
  - unbind H as p Ep. unbind H as u Eu. unbind H as [q rem] E. unbind H as [x1 v1] E2. unbind H as s1 E3.
    unbind H as [[s2 x2] v2] E4. unbind H as pr E5. injection H as <- <- <-.
    eapply mv_trans; [|eapply IH; eauto].
    assert (Ec : cur lp s = p) by (unfold cur; rewrite Ep; auto). subst p.
    eapply mv_commit; [exact E| |eapply (u_put e q q rem (cur lp s) sender u (amount u)); [rewrite Eu; auto|exact E2|auto|lia]|left; auto|exact E3].
    pose proof (c_same m (now e) ast (scheds (cur lp s)) q (total_lp q)) as K. destruct q. exact K.
Qed.
Lemma incentivize_mv m e ast lp a amt n s f s' f' o l0 f0 : m = Incentivize l0 f0 -> In (lp, (a, amt, n)) l0 -> astro s = ast ->
  incentivize e lp a amt n s f = Some (s', f', o) -> mv m e ast s s' /\ astro s' = ast.
Proof.
  intros Em Hin Ha H. unfold incentivize in H. unbind H as [[ne en] r] E. unguard H G. fold (cur lp s) in H.
  unbind H as [q rem] E1. unbind H as [rs sch] E2. unbind H as [[f1 s1] o1] E3. unbind H as [f2 s2] E4.
  unbind H as s3 E5. injection H as <- <- <-.
  assert (L1 : lps s1 = lps s /\ astro s1 = astro s).
  { destruct (fee s) as [[d v]|]; [|injection E3 as <- <- <-; auto].
    destruct (_ && _) in E3; [|injection E3 as <- <- <-; auto].
    unbind E3 as g0 E6. unguard E3 G3. injection E3 as <- <- <-. auto. }
  destruct L1 as [L1 A1].
  assert (L2 : lps s2 = lps s1 /\ astro s2 = astro s1).
  { destruct (0 <=? a).
    - unbind E4 as g0 E6. injection E4 as <- <-. auto.
    - unguard E4 G4. injection E4 as <- <-. auto. }
  destruct L2 as [L2 A2].
  assert (Ec : cur lp s = cur lp s2) by (unfold cur; rewrite L2, L1; auto).
  split; [|apply save_astro in E5; congruence].
  eapply mv_trans; [apply (mv_eq m e ast s s2); congruence|].
  rewrite Ec in *. rewrite Ha in *. eapply mv_commit with (5 := E5); [exact E1| |apply u_same; auto|left; subst m; auto].
  eapply c_inc; eauto.
Qed.
Lemma incentivize_each_mv m e ast l l0 f0 : m = Incentivize l0 f0 -> (forall x, In x l -> In x l0) ->
  forall s f s' f' o, astro s = ast -> incentivize_each e l s f = Some (s', f', o) -> mv m e ast s s'.
Proof.
  intros Em. induction l as [|[lp [[a amt] n]] r IH]; intros Hin s f s' f' o Ha H; simpl in H.
  - injection H as <- <- <-. apply mv_eq. auto.
  - unbind H as [[s1 f1] o1] E. unbind H as [[s2 f2] o2] E2. injection H as <- <- <-.
    destruct (incentivize_mv m e ast lp a amt n s f s1 f1 o1 l0 f0 Em (Hin _ (or_introl eq_refl)) Ha E) as [M1 A1].
    eapply mv_trans; [exact M1|]. eapply IH; eauto. intros x Hx. apply Hin. right. auto.
Qed.

Theorem step_mv e sd m s s' o : step e sd m s = Some (s', o) -> mv m e (astro s) s s'.
Proof.
  intros H. destruct m; simpl in H.
  - silent H. unfold setup_pools in E. unguard E G1. unguard E G2. unguard E G3.
    unbind E as s2 E1. unbind E as t E2. unbind E as s3 E3. injection E as <-.
    apply (touch_all_mv (SetupPools l) e (astro s)) in E1; [|reflexivity|apply off_chg]. apply (touch_all_mv (SetupPools l) e (astro s)) in E3; [|reflexivity|apply set_chg].
    eapply mv_trans; [apply E1|]. eapply mv_trans; [apply E3|]. apply mv_eq. auto.
  - unfold claim in H. unguard H G. unbind H as [[s1 x] v] E. unbind H as o2 E2.
    destruct (pay_all e sd s1 x) as [s2 o1] eqn:E3. injection H as <- <-.
    eapply mv_trans; [eapply claim_each_mv; [reflexivity|eauto]|]. pose proof (pay_all_mv (ClaimRewards l) e (astro s) sd x s1 s1 eq_refl) as K.
    rewrite E3 in K. exact K.
  - unfold deposit in H. unguard H Hok.
    set (s0 := set_bal s (set (bal s) lp (get (bal s) lp + amt))) in *.
    set (who := match recipient with Some r => r | None => sd end) in *.
    change (match find lp (lps s0) with Some p => p | None => empty_lp end) with (cur lp s0) in H.
    unbind H as [q rem] E. unbind H as [ext prot] E2. unbind H as a E3. unbind H as t E4.
    apply add128_Some in E3, E4. destruct E3 as (Ea & Ba), E4 as (Et & _).
    unbind H as s1 E5. unbind H as o2 E6. destruct (pay_all e who s1 ext) as [s2 o1] eqn:E7. injection H as <- <-.
    eapply mv_trans; [apply (mv_eq _ e _ s s0); auto|].
    eapply mv_trans; [eapply mv_commit with (5 := E5); [exact E|apply c_same|eapply u_put; [reflexivity|exact E2|lia|simpl; lia]|left; auto]|].
    pose proof (pay_all_mv (Deposit lp amt recipient) e (astro s) who ext s1 s1 eq_refl) as K. rewrite E7 in K. exact K.
  - unfold withdraw in H. unbind H as p Ep.
    unbind H as u Eu. unguard H Hg. unbind H as [q rem] E. unbind H as [ext prot] E2.
    unbind H as a E3. unbind H as t E4. apply sub128_Some in E3, E4. destruct E3 as (Ea & Ba), E4 as (Et & _).
    unbind H as s1 E5. unbind H as o2 E6.
    destruct (pay_all e sd s1 ext) as [s2 o1] eqn:E7. unguard H Hx. injection H as <- <-.
    assert (Ec : cur lp s = p) by (unfold cur; rewrite Ep; auto). subst p.
    eapply mv_trans; [eapply mv_commit with (5 := E5); [exact E|apply c_same| |left; auto]|].
    { destruct (a =? 0) eqn:E0; [apply Z.eqb_eq in E0|].
      - eapply u_del; [exact Eu|exact E2|simpl; lia].
      - eapply (u_put e q _ rem (cur lp s) sd u); [rewrite Eu; auto|exact E2|lia|simpl; lia]. }
    apply mv_eq. pose proof (pay_all_lps e sd ext s1) as K. rewrite E7 in K. auto.
  - silent H. unfold set_tokens in E. unguard E G1. unbind E as s2 E1. injection E as <-.
    apply (touch_all_mv (SetTokensPerSecond amt) e (astro s)) in E1; [|reflexivity|apply set_chg].
    eapply mv_trans; [apply E1|]. apply mv_eq. auto.
  - unfold incentivize_many in H. unguard H G. unbind H as [[s1 f1] o1] E. unguard H G2. injection H as <- <-.
    eapply mv_trans; [apply (mv_eq _ e _ s (set_bal s (receive_coins funds (bal s)))); auto|].
    eapply incentivize_each_mv; eauto.
  - unfold remove_reward in H. unguard H G. unbind H as p Ep. unbind H as [q rem] E.
    unbind H as [[[q' x] sch] v] E2. unbind H as s1 E3. injection H as H.
    assert (Ec : cur lp s = p) by (unfold cur; rewrite Ep; auto). subst p.
    assert (Et : total_lp q' = total_lp q).
    { unfold deregister in E2. unbind E2 as y E4. unbind E2 as r0 E5. unbind E2 as [r1 s3] E6. unbind E2 as r2 E7.
      unbind E2 as v' E8. injection E2 as <- _ _ _. auto. }
    eapply mv_trans; [eapply mv_commit; [exact E| |apply u_same; exact Et|right; exists lp, a, bypass, to, x, sch, v; split; [reflexivity|split; [exact E2|split; reflexivity]]|exact E3]|].
    + eapply c_del; eauto.
    + apply mv_eq. unfold pay in H. destruct (v =? 0); [injection H as <- <-; auto|].
      destruct (_ && _) in H; injection H as <- <-; auto.
  - unfold claim_orphaned in H. unguard H G. unguard H G2. injection H as H.
    match type of H with pay_all _ _ ?s1 ?x = _ => pose proof (pay_all_lps e to x s1) as K end.
    rewrite H in K. apply mv_eq. auto.
  - silent H. unfold update_config in E. unguard E G. unbind E as m E1. injection E as <-.
    destruct ast as [a|]; [eapply mv_rel; simpl; eauto|]. injection E1 as <-. apply mv_eq. auto.
  - silent H. unfold update_blocked in E. unguard E G1. unguard E G2. unbind E as bl1 E1.
    unbind E as [dis bl2] E2. destruct dis as [|d0 dr]; [injection E as <-; apply mv_eq; auto|].
    unbind E as s2 E3. unbind E as red E4. unbind E as t E5. unbind E as s3 E6. injection E as <-.
    apply (touch_all_mv (UpdateBlocked add rm) e (astro s)) in E3; [|reflexivity|apply off_chg].
    apply (touch_all_mv (UpdateBlocked add rm) e (astro s)) in E6; [|reflexivity|apply set_chg].
    eapply mv_trans; [apply E3|]. eapply mv_trans; [apply E6|]. apply mv_eq. auto.
  - silent H. unfold deactivate_pool in E. unguard E G1.
    destruct (find lp (lps s)) as [p|] eqn:Ef; [|injection E as <-; apply mv_eq; auto].
    destruct (is_active (pl p)); [|injection E as <-; apply mv_eq; auto].
    unbind E as [n al] E0. unbind E as s2 E1. unbind E as t E2. unbind E as s3 E3. injection E as <-.
    apply (touch_mv (DeactivatePool lp) e (astro s)) in E1; [|reflexivity|intros sc q q'; apply (off_chg _ _ _ 0)].
    apply (touch_all_mv (DeactivatePool lp) e (astro s)) in E3; [|reflexivity|apply set_chg].
    eapply mv_trans; [apply E1|]. eapply mv_trans; [apply E3|]. apply mv_eq. auto.
  - silent H. unfold deactivate_blocked in E. unbind E as s2 E1. unbind E as t E2.
    apply (touch_all_mv (DeactivateBlocked) e (astro s)) in E1; [|reflexivity|apply off_chg].
    destruct (filter (fun x => mem (pair_type e (fst x)) (bad_types e)) (active s)); [injection E as <-; apply E1|].
    unbind E as s3 E3. injection E as <-.
    apply (touch_all_mv (DeactivateBlocked) e (astro s)) in E3; [|reflexivity|apply set_chg].
    eapply mv_trans; [apply E1|]. eapply mv_trans; [apply E3|]. apply mv_eq. auto.
  - injection H as <- <-. apply mv_eq. auto.
Qed.

(** Induction over messages for predicates of one pool's rewards and schedules. *)
Definition pools (Q : list rinfo -> amap (list (Z * Z)) -> Prop) (s : state) : Prop :=
  Forall (fun x => Q (rewards (pl (snd x))) (scheds (snd x))) (lps s).
Lemma pools_put Q lp p s s' : pools Q s -> Q (rewards (pl p)) (scheds p) -> lps s' = put lp p (lps s) -> pools Q s'.
Proof.
  intros H K E. unfold pools in *. rewrite E. clear E. induction (lps s) as [|[k v] r IH]; simpl.
  - constructor; auto.
  - inversion H; subst. destruct (k =? lp); constructor; auto.
Qed.
Lemma pools_cur (Q : list rinfo -> amap (list (Z * Z)) -> Prop) lp s : pools Q s -> Q [] [] ->
  Q (rewards (pl (cur lp s))) (scheds (cur lp s)).
Proof.
  intros H Q0. unfold cur. destruct (find lp (lps s)) as [p|] eqn:E; auto.
  unfold pools in H. rewrite Forall_forall in H. apply (H _ (find_in _ _ _ E)).
Qed.
Record pool_inv (m : msg) (ast t : Z) (Q : list rinfo -> amap (list (Z * Z)) -> Prop) : Prop := {
  pi_0 : Q [] [];
  pi_upd : forall l n sc rs rs' rem, Q rs sc -> upd_all t l n sc rs = Some (rs', rem) -> Q rs' sc;
  pi_chg : forall sc q q' sc', Q (rewards q) sc -> chg m t ast sc q q' sc' -> Q (rewards q') sc';
  pi_rel : forall a rs sc, Q rs sc ->
    Q (upd_int (fun x => mkR (RInt a) (rps x) (idx x) (orph x)) rs) sc
}.
Lemma relabel_pools (Q : list rinfo -> amap (list (Z * Z)) -> Prop) a l : (forall a rs sc, Q rs sc ->
    Q (upd_int (fun x => mkR (RInt a) (rps x) (idx x) (orph x)) rs) sc) ->
  forall m m', relabel a l m = Some m' -> Forall (fun x => Q (rewards (pl (snd x))) (scheds (snd x))) m ->
  Forall (fun x => Q (rewards (pl (snd x))) (scheds (snd x))) m'.
Proof.
  intros K. induction l as [|[lp al] r IH]; intros m m' H F; simpl in H.
  - injection H as <-. auto.
  - unbind H as p Ep. unguard H G. eapply IH; [exact H|].
    assert (Kp : Q (rewards (pl p)) (scheds p)) by (rewrite Forall_forall in F; apply (F _ (find_in _ _ _ Ep))).
    clear - K F Kp. induction m as [|[k v] s IH]; simpl.
    + constructor; [|constructor]. simpl. apply K. auto.
    + inversion F; subst. destruct (k =? lp); constructor; auto. simpl. apply K. auto.
Qed.
Lemma mv_pools m e ast s s' Q : mv m e ast s s' -> pool_inv m ast (now e) Q -> pools Q s -> pools Q s'.
Proof.
  intros M K. induction M as [s s' E|lp s s' q rem q' us sch rem' U C St R S|a s s' H|s1 s2 s3 M1 IH1 M2 IH2].
  - unfold pools. rewrite E. auto.
  - intros H. destruct K as [K0 K1 K2 K3].
    apply save_lps in S. destruct S as (fi & El & _). simpl in El.
    eapply pools_put; [exact H| |exact El]. simpl. eapply K2; [|exact C].
    pose proof (pools_cur Q lp s H K0) as Qc. unfold update_rewards in U.
    destruct (now e <=? last (pl (cur lp s))); [injection U as <- <-; auto|].
    unbind U as [rs rm] E. injection U as <- <-. simpl. eapply K1; eauto.
  - intros H2. unfold pools. eapply relabel_pools; [apply (pi_rel _ _ _ _ K)|exact H|exact H2].
  - auto.
Qed.
