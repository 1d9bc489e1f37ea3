(** Incentives: proofs behind the properties. *)
From Coq Require Import ZArith Lia Bool List Permutation.
From Verif Require Import Num Amap Ledger IncentivesModel IncentivesSpec IncentivesSched IncentivesPool
  IncentivesPay IncentivesOps IncentivesInv IncentivesStep.
Import ListNotations.
Open Scope Z_scope.

(** ** The invariant along histories *)
Lemma inv_init A own fac ast grd f : inv A 0 (init own fac ast grd f).
Proof. constructor; simpl; auto; try constructor. intros a. unfold oget. simpl. lia. Qed.
Lemma gap_init A own fac ast grd f : gap A (init own fac ast grd f) = 0.
Proof. reflexivity. Qed.

Lemma removal_clean A e m s : removal_ok A e m s -> clean A e m s.
Proof.
  destruct m; simpl; auto. intros H E. destruct (H (eq_sym E)) as [H1 H2]. split; auto.
  unfold orphaned_of in H2. unfold no_orphans, cur. intros q rem U.
  destruct (find lp (lps s)); [rewrite U in H2; auto|].
  unfold update_rewards in U. destruct (_ <=? _) in U; simpl in U; injection U as <- <-; auto.
Qed.
Lemma run_good A h : forall T s, inv A T s -> 0 <= T -> timed T h -> removals_ok A s h ->
  inv A (time_after T h) (run s h) /\ 0 <= time_after T h /\ gap A (run s h) <= gap A s.
Proof.
  induction h as [|[[e sd] m] r IH]; intros T s I T0 Ht Hr.
  - simpl. split; auto. split; auto. unfold run. simpl. lia.
  - destruct Ht as (H1 & H2 & H3 & H4). destruct Hr as [R1 R2].
    assert (Q : inv A (now e) (exec s (e, sd, m)) /\ gap A (exec s (e, sd, m)) <= gap A s).
    { unfold exec. destruct (step e sd m s) as [[s' o]|] eqn:E; [|split; [eapply inv_later; eauto|lia]].
      destruct (step_good A T e sd m s s' o I T0 H1 H2) as (G1 & G2 & _); auto.
      apply removal_clean. auto. }
    destruct Q as [Q1 Q2]. destruct (IH (now e) _ Q1 ltac:(lia) H4 R2) as (K1 & K2 & K3).
    split; auto. split; auto. change (run s ((e, sd, m) :: r)) with (run (exec s (e, sd, m)) r). lia.
Qed.

(** Some number is not among finitely many. *)
Lemma fresh (l : list Z) : exists A, ~ In A l.
Proof.
  exists (1 + fold_right Z.max 0 l). intros H.
  assert (K : forall x, In x l -> x <= fold_right Z.max 0 l); [|specialize (K _ H); lia].
  clear. induction l as [|y r IH]; simpl; [tauto|]. intros x [->|Hx]; [lia|]. specialize (IH _ Hx). lia.
Qed.
Definition removed_assets (h : list (env * Z * msg)) : list Z :=
  concat (map (fun x => match snd x with RemoveReward _ a _ _ => [a] | _ => [] end) h).
Lemma removals_fresh A h : ~ In A (removed_assets h) -> forall s, removals_ok A s h.
Proof.
  induction h as [|[[e sd] m] r IH]; simpl; auto. intros N s. unfold removed_assets in N. simpl in N.
  rewrite in_app_iff in N. split; [|apply IH; tauto].
  destruct m; simpl; auto. simpl in N. intros ->. tauto.
Qed.
(** For structural facts any unremoved asset will do. *)
Lemma run_struct h T s : (forall A, inv A T s) -> 0 <= T -> timed T h ->
  exists A, inv A (time_after T h) (run s h).
Proof.
  intros I T0 Ht. destruct (fresh (removed_assets h)) as [A NA]. exists A.
  apply (run_good A h T s (I A) T0 Ht). apply removals_fresh. auto.
Qed.

(** ** Sums *)
Lemma sum_of_paid A l : sum_of A l = paidA A l.
Proof. unfold paidA, fl. induction l as [|[a v] r IH]; simpl; auto. rewrite IH. destruct (a =? A); simpl; lia. Qed.
Lemma find_some_in {V} (m : amap V) k v : NoDup (keys m) -> In (k, v) m -> find k m = Some v.
Proof.
  induction m as [|[k' v'] r IH]; simpl; [tauto|]. intros N H. inversion N; subst.
  destruct H as [H|H].
  - injection H as -> ->. rewrite Z.eqb_refl. auto.
  - destruct (Z.eqb_spec k' k); auto. subst. exfalso. apply H2. apply in_map_iff. exists (k, v). auto.
Qed.

Lemma pend_user A T e s lp p q rem : inv A T s -> 0 <= T -> T <= now e -> In (lp, p) (lps s) ->
  update_rewards (now e) p = Some (q, rem) -> forall y, In y (users p) ->
  0 <= pend A e lp (fst y) s /\ pend A e lp (fst y) s * DEC <= owedM A q rem (fins p) (snd y).
Proof.
  intros I T0 L Hp U [w u] Hy.
  assert (Ep : find lp (lps s) = Some p) by (apply find_some_in; auto; apply (i_nd _ _ _ I)).
  assert (Ec : cur lp s = p) by (unfold cur; rewrite Ep; auto).
  rewrite <- Ec in U. destruct (update_cur A T lp s e q rem I T0 L U) as (W & Wq & Pq & Lq & Tq & Lr & Ll & _).
  rewrite Ec in *. simpl.
  pose proof (w_users _ _ W) as Qu. rewrite Forall_forall in Qu. pose proof (Qu _ Hy) as Ou. simpl in Ou.
  assert (Ev : vis u q rem = rem).
  { unfold vis. destruct rem as [|y r]; [destruct (_ <? _); auto|].
    destruct Ou as (_ & U2 & _). specialize (Lr ltac:(discriminate)).
    replace (claimed u <? last q) with true; auto. symmetry. apply Z.ltb_lt. lia. }
  pose proof (owed_nn A (with_pl p q) rem (w, u) Wq Hy) as On. simpl in On.
  unfold pend, pending. rewrite Ep.
  rewrite (find_some_in _ _ _ (w_nd _ _ W) Hy). rewrite U.
  destruct (due q rem (fins p) u) as [[ext prot]|] eqn:D; [|lia].
  rewrite sum_of_paid. split.
  - unfold paidA. apply zsum_nonneg. apply fl_nn. eapply due_nn; eauto.
  - unfold owedM. rewrite Ev. assert (Ou' : okU (last q) u) by (destruct Ou as (U1 & U2 & U3); repeat split; auto; simpl; lia). eapply due_paid with (t := last q); eauto.
    + apply (w_ext _ _ (m_wf _ _ _ Wq)).
    + apply (w_rw _ _ (m_wf _ _ _ Wq)).
    + apply unseen_nn; [eapply (wf_fins_nn A p); auto|]. eapply Forall_impl; [|exact (m_nn _ _ _ Wq)]. simpl. tauto.
Qed.

Lemma pend_pool A T e s lp p : inv A T s -> 0 <= T -> T <= now e -> In (lp, p) (lps s) ->
  fold_right (fun y b => pend A e lp (fst y) s + b) 0 (users p) * DEC <= P A p.
Proof.
  intros I T0 L Hp. pose proof (i_lps _ _ _ I) as Q. rewrite Forall_forall in Q.
  destruct (Q _ Hp) as [W Lw]. simpl in W, Lw. pose proof (P_nn _ _ W) as Pn.
  assert (Ep : find lp (lps s) = Some p) by (apply find_some_in; auto; apply (i_nd _ _ _ I)).
  destruct (update_rewards (now e) p) as [[q rem]|] eqn:U.
  - destruct (update_P A _ _ _ _ W U) as (U1 & U2 & U3 & U4 & U5 & U6).
    assert (K : fold_right (fun y b => pend A e lp (fst y) s + b) 0 (users p) * DEC <=
                sumf (owedM A q rem (fins p)) (users p)).
    { assert (G : forall y, In y (users p) -> pend A e lp (fst y) s * DEC <= owedM A q rem (fins p) (snd y)).
      { intros y Hy. eapply pend_user; eauto. }
      revert G. generalize (users p) as m. induction m as [|[w u] r IH]; intros G; simpl; [lia|].
      pose proof (G (w, u) (or_introl eq_refl)) as G0. simpl in G0.
      specialize (IH (fun y Hy => G y (or_intror Hy))). lia. }
    pose proof (orphA_nn _ _ (m_wf _ _ _ U1)) as Q1. pose proof (remaining_nn _ _ (m_wf _ _ _ U1)) as Q2.
    assert (Q3 : 0 <= rem_orph A rem).
    { apply rem_orph_nn. eapply Forall_impl; [|exact (m_nn _ _ _ U1)]. simpl. tauto. }
    unfold Pm, with_pl in *. simpl in *. lia.
  - assert (E0 : forall m : list (Z * uinfo), fold_right (fun y b => pend A e lp (fst y) s + b) 0 m = 0).
    { induction m as [|[w u] r IH]; simpl; auto. rewrite IH. unfold pend, pending. rewrite Ep, U.
      destruct (find w (users p)); auto. }
    rewrite E0. lia.
Qed.
Lemma pend_total A T e s : inv A T s -> 0 <= T -> T <= now e ->
  total_pending A e s * DEC <= sumf (P A) (lps s).
Proof.
  intros I T0 L. unfold total_pending.
  assert (G : forall x, In x (lps s) -> fold_right (fun y b => pend A e (fst x) (fst y) s + b) 0 (users (snd x)) * DEC <= P A (snd x)).
  { intros [lp p] Hx. simpl. eapply pend_pool; eauto. }
  revert G. generalize (lps s) as m. induction m as [|[lp p] r IH]; intros G; simpl; [lia|].
  pose proof (G (lp, p) (or_introl eq_refl)) as G0. simpl in G0.
  specialize (IH (fun y Hy => G y (or_intror Hy))). lia.
Qed.

Lemma solvent A T e s : inv A T s -> 0 <= T -> T <= now e -> gap A s <= 0 ->
  total_of A s + orphaned A s + total_pending A e s <= get (bal s) A.
Proof.
  intros I T0 L G. pose proof (pend_total A T e s I T0 L) as K. unfold gap, lia_ in G.
  change (staked A s) with (total_of A s) in G. change (oget (orphs s) A) with (orphaned A s) in G.
  pose proof DEC_pos. nia.
Qed.

(** ** Positions *)
Lemma save_lps e lp p rem s s' : save e lp p rem s = Some s' ->
  exists f, lps s' = put lp (mkLp (pl p) (users p) (scheds p) f) (lps s) /\ bal s' = bal s.
Proof. unfold save. intros H. unbind H as [f o] E. injection H as <-. exists f. auto. Qed.
Lemma pay_all_lps e to l : forall s, lps (fst (pay_all e to s l)) = lps s.
Proof.
  induction l as [|x r IH]; intros s; simpl; auto.
  destruct (pay e to s x) as [s1 o1] eqn:E. specialize (IH s1).
  destruct (pay_all e to s1 r) as [s2 o2]. simpl in *. rewrite IH.
  unfold pay in E. destruct x as [a v]. destruct (v =? 0); [injection E as <- <-; auto|].
  destruct (_ && _); injection E as <- <-; auto.
Qed.
Lemma pay_all_out e to l : forall s, forall lp, went_out lp (snd (pay_all e to s l)) = 0.
Proof.
  induction l as [|x r IH]; intros s lp; simpl; auto.
  destruct (pay e to s x) as [s1 o1] eqn:E. specialize (IH s1 lp).
  destruct (pay_all e to s1 r) as [s2 o2]. simpl in *.
  assert (K : forall a b, went_out lp (a ++ b) = went_out lp a + went_out lp b).
  { clear. induction a; simpl; intros; auto. unfold went_out in *. simpl. rewrite IHa. lia. }
  rewrite K, IH. unfold pay in E. destruct x as [a v]. destruct (v =? 0); [injection E as <- <-; auto|].
  destruct (_ && _); injection E as <- <-; auto.
Qed.
Lemma went_app lp a b : went_out lp (a ++ b) = went_out lp a + went_out lp b.
Proof. unfold went_out. induction a; simpl; intros; auto. rewrite IHa. lia. Qed.
Lemma prot_out e to prot o lp : pay_prot e to prot = Some o -> went_out lp o = 0.
Proof.
  unfold pay_prot. destruct (prot =? 0); intros H; [injection H as <-; auto|].
  unguard H G. injection H as <-. auto.
Qed.

(** Positions and totals of a pool, as a function. *)
Definition same (s s' : state) : Prop :=
  forall lp, total_of lp s' = total_of lp s /\ forall who, position_of lp who s' = position_of lp who s.
Lemma same_refl s s' : lps s' = lps s -> same s s'.
Proof. intros E lp. unfold total_of, position_of. rewrite E. auto. Qed.
Lemma same_trans s1 s2 s3 : same s1 s2 -> same s2 s3 -> same s1 s3.
Proof.
  intros A B lp. destruct (A lp) as [A1 A2]. destruct (B lp) as [B1 B2]. split; [congruence|].
  intros who. rewrite B2. auto.
Qed.
Lemma same_put lp p s s' : lps s' = put lp p (lps s) ->
  total_lp (pl p) = total_of lp s ->
  (forall who, match find who (users p) with Some u => amount u | None => 0 end = position_of lp who s) ->
  same s s'.
Proof.
  intros E T Q k. unfold total_of, position_of in *. rewrite E, find_put.
  destruct (Z.eqb_spec lp k); [subst; split; auto|split; auto].
Qed.
Lemma update_total n p q rem : update_rewards n p = Some (q, rem) -> total_lp q = total_lp (pl p).
Proof.
  unfold update_rewards. destruct (n <=? last (pl p)); intros H; [injection H as <- <-; auto|].
  unbind H as [rs r2] E. injection H as <- <-. auto.
Qed.
Lemma touch_same e c f lp s s' : (forall q q', f q = Some q' -> total_lp q' = total_lp q) ->
  touch e c f lp s = Some s' -> same s s'.
Proof.
  intros K H. unfold touch in H. unbind H as p Ep. unbind H as [q rem] E. unbind H as q' E2.
  apply save_lps in H. destruct H as (fi & El & _). simpl in El.
  apply (same_put lp _ s s' El); simpl.
  - rewrite (K _ _ E2), (update_total _ _ _ _ E). unfold total_of.
    destruct (find lp (lps s)); [injection Ep as ->; auto|]. destruct c; [|discriminate]. injection Ep as <-. auto.
  - intros who. unfold position_of.
    destruct (find lp (lps s)); [injection Ep as ->; auto|]. destruct c; [|discriminate]. injection Ep as <-. auto.
Qed.
Lemma touch_all_same e c f l : (forall al q q', f al q = Some q' -> total_lp q' = total_lp q) ->
  forall s s', touch_all e c f l s = Some s' -> same s s'.
Proof.
  intros K. induction l as [|[lp al] r IH]; intros s s' H; simpl in H.
  - injection H as <-. apply same_refl. auto.
  - unbind H as s1 E. eapply same_trans; [eapply touch_same; eauto|eauto].
Qed.
Lemma dis_tot (al : Z) q q' : (fun _ : Z => disable_astro) al q = Some q' -> total_lp q' = total_lp q.
Proof. intros H. apply disable_keeps in H. tauto. Qed.
Lemma set_tot ast r t (al : Z) q q' : set_astro ast r t al q = Some q' -> total_lp q' = total_lp q.
Proof. intros H. apply set_astro_keeps in H. tauto. Qed.
Lemma relabel_same a l : forall m m' s s', relabel a l m = Some m' -> lps s = m -> lps s' = m' -> same s s'.
Proof.
  induction l as [|[lp al] r IH]; intros m m' s s' H E E'; simpl in H.
  - injection H as <-. apply same_refl. congruence.
  - unbind H as p Ep. unguard H G.
    set (p2 := mkLp _ _ _ _) in H.
    apply same_trans with (s2 := set_lps s (put lp p2 m) []).
    + apply (same_put lp p2); [rewrite E; auto| |]; unfold p2, total_of, position_of; rewrite E, Ep; auto.
    + eapply IH; eauto.
Qed.

Lemma deposit_pos e lp amt who s s' o : deposit e lp amt who s = Some (s', o) ->
  (forall k, total_of k s' = total_of k s + if k =? lp then amt else 0) /\
  (forall k w, position_of k w s' = position_of k w s + if (k =? lp) && (w =? who) then amt else 0) /\
  (forall k, went_out k o = 0).
Proof.
  intros H. unfold deposit in H. unguard H Hok.
  unbind H as [q rem] E. unbind H as [ext prot] E2. unbind H as a E3. apply add128_Some in E3.
  destruct E3 as (-> & Ba). unbind H as t E3. apply add128_Some in E3. destruct E3 as (-> & Bt).
  unbind H as s1 E4. unbind H as o2 E5. destruct (pay_all e who s1 ext) as [s2 o1] eqn:E6.
  injection H as <- <-. pose proof (pay_all_lps e who ext s1) as L2. rewrite E6 in L2. simpl in L2.
  apply save_lps in E4. destruct E4 as (fi & El & _). cbn [lps pl users scheds fins set_bal] in *.
  split; [|split].
  - intros k. unfold total_of. rewrite L2, El, find_put. rewrite (Z.eqb_sym k lp).
    destruct (Z.eqb_spec lp k); [|lia]. subst. cbn [pl total_lp]. rewrite (update_total _ _ _ _ E).
    destruct (find k (lps s)); simpl; lia.
  - intros k w. unfold position_of. rewrite L2, El, find_put. rewrite (Z.eqb_sym k lp).
    destruct (Z.eqb_spec lp k); [|simpl; lia]. subst. cbn [users]. rewrite find_put. rewrite (Z.eqb_sym w who).
    destruct (find k (lps s)) as [p|]; simpl.
    + destruct (Z.eqb_spec who w); [|simpl; lia]. subst. simpl. destruct (find w (users p)); simpl; lia.
    + destruct (Z.eqb_spec who w); simpl; lia.
  - intros k. rewrite went_app. pose proof (pay_all_out e who ext s1 k) as K. rewrite E6 in K. simpl in K.
    rewrite K, (prot_out _ _ _ _ k E5). auto.
Qed.
Lemma withdraw_pos e sender lp amt s s' o : withdraw e sender lp amt s = Some (s', o) ->
  amt <= position_of lp sender s /\
  (forall k, total_of k s' = total_of k s - if k =? lp then amt else 0) /\
  (forall k w, position_of k w s' = position_of k w s - if (k =? lp) && (w =? sender) then amt else 0) /\
  (forall k, went_out k o = if k =? lp then amt else 0) /\ In (Back lp sender amt) o.
Proof.
  intros H. unfold withdraw in H. unbind H as p Ep.
  unbind H as u Eu. unguard H Hg. unbind H as [q rem] E. unbind H as [ext prot] E2.
  unbind H as a E3. apply sub128_Some in E3. destruct E3 as (-> & Ba).
  unbind H as t E3. apply sub128_Some in E3. destruct E3 as (-> & Bt).
  unbind H as s1 E4. unbind H as o2 E5. destruct (pay_all e sender s1 ext) as [s2 o1] eqn:E6.
  unguard H Hx. injection H as <- <-. pose proof (pay_all_lps e sender ext s1) as L2. rewrite E6 in L2. simpl in L2.
  apply save_lps in E4. destruct E4 as (fi & El & _). cbn [lps pl users scheds fins set_bal] in *.
  split; [unfold position_of; rewrite Ep, Eu; apply Z.leb_le; auto|]. split; [|split; [|split]].
  - intros k. unfold total_of. cbn [lps set_bal]. rewrite L2, El, find_put. rewrite (Z.eqb_sym k lp).
    destruct (Z.eqb_spec lp k); [|lia]. subst. rewrite Ep. cbn [pl total_lp]. rewrite (update_total _ _ _ _ E). auto.
  - intros k w. unfold position_of. cbn [lps set_bal]. rewrite L2, El, find_put. rewrite (Z.eqb_sym k lp).
    destruct (Z.eqb_spec lp k); [|simpl; lia]. subst. rewrite Ep. cbn [users].
    rewrite (Z.eqb_sym w sender). destruct (Z.eqb_spec (amount u - amt) 0).
    + destruct (Z.eqb_spec sender w).
      * subst. rewrite find_del_same, Eu. simpl. lia.
      * rewrite find_del_other by auto. simpl. lia.
    + rewrite find_put. destruct (Z.eqb_spec sender w); [|simpl; lia]. subst. rewrite Eu. simpl. lia.
  - intros k. rewrite !went_app. pose proof (pay_all_out e sender ext s1 k) as K. rewrite E6 in K. simpl in K.
    rewrite K, (prot_out _ _ _ _ k E5). simpl. rewrite (Z.eqb_sym lp k). destruct (k =? lp); lia.
  - apply in_app_iff. right. apply in_app_iff. right. left. auto.
Qed.
Lemma claim_each_same e sender l : forall s s' x v, claim_each e sender l s = Some (s', x, v) -> same s s'.
Proof.
  induction l as [|lp r IH]; intros s s' x v H; simpl in H.
  - injection H as <- <- <-. apply same_refl. auto.
  - unbind H as p Ep. unbind H as u Eu. unbind H as [q rem] E. unbind H as [x1 v1] E2. unbind H as s1 E3.
    unbind H as [[s2 x2] v2] E4. unbind H as pr E5. injection H as <- <- <-.
    eapply same_trans; [|eapply IH; eauto]. apply save_lps in E3. destruct E3 as (fi & El & _). simpl in El.
    apply (same_put lp _ s s1 El); simpl.
    + rewrite (update_total _ _ _ _ E). unfold total_of. rewrite Ep. auto.
    + intros who. unfold position_of. rewrite Ep, find_put. destruct (Z.eqb_spec sender who); auto. subst.
      rewrite Eu. auto.
Qed.
Lemma incentivize_same e lp a amt n s f s' f' o : incentivize e lp a amt n s f = Some (s', f', o) ->
  same s s' /\ forall k, went_out k o = 0.
Proof.
  intros H. unfold incentivize in H. unbind H as [[ne en] r] E. unguard H G.
  unbind H as [q rem] E1. unbind H as [rs sch] E2. unbind H as [[f1 s1] o1] E3. unbind H as [f2 s2] E4.
  unbind H as s3 E5. injection H as <- <- <-.
  assert (L1 : lps s1 = lps s /\ forall k, went_out k o1 = 0).
  { destruct (fee s) as [[d v]|]; [|injection E3 as <- <- <-; auto].
    destruct (_ && _) in E3; [|injection E3 as <- <- <-; auto].
    unbind E3 as f0 E6. unguard E3 G3. injection E3 as <- <- <-. auto. }
  destruct L1 as [L1 O1].
  assert (L2 : lps s2 = lps s1).
  { destruct (0 <=? a).
    - unbind E4 as f0 E6. injection E4 as <- <-. auto.
    - unguard E4 G4. injection E4 as <- <-. auto. }
  apply save_lps in E5. destruct E5 as (fi & El & _). simpl in El. rewrite L2, L1 in El. split; auto.
  apply (same_put lp _ s s3 El); simpl.
  - rewrite (update_total _ _ _ _ E1). unfold total_of. destruct (find lp (lps s)); auto.
  - intros who. unfold position_of. destruct (find lp (lps s)); auto.
Qed.
Lemma incentivize_each_same e l : forall s f s' f' o, incentivize_each e l s f = Some (s', f', o) ->
  same s s' /\ forall k, went_out k o = 0.
Proof.
  induction l as [|[lp [[a amt] n]] r IH]; intros s f s' f' o H; simpl in H.
  - injection H as <- <- <-. split; [apply same_refl|]; auto.
  - unbind H as [[s1 f1] o1] E. unbind H as [[s2 f2] o2] E2. injection H as <- <- <-.
    apply incentivize_same in E. destruct E as [E E']. apply IH in E2. destruct E2 as [E2 E2'].
    split; [eapply same_trans; eauto|]. intros k. rewrite went_app, E', E2'. auto.
Qed.
Lemma deregister_total a b q sch q' x sc v : deregister a b q sch = Some (q', x, sc, v) -> total_lp q' = total_lp q.
Proof.
  unfold deregister. intros H. unbind H as y E. unbind H as r0 E0. unbind H as [r1 s2] E1. unbind H as r2 E2.
  unbind H as w E3. injection H as <- <- <- <-. auto.
Qed.

(** All other messages leave positions and totals alone. *)
Definition moves_lp (m : msg) : bool := match m with Deposit _ _ _ | Withdraw _ _ => true | _ => false end.
Lemma step_same e sd m s s' o : moves_lp m = false -> step e sd m s = Some (s', o) ->
  same s s' /\ forall k, went_out k o = 0.
Proof.
  intros M H. destruct m; simpl in M, H; try discriminate.
  - silent H. split; auto. unfold setup_pools in E. unguard E G1. unguard E G2. unguard E G3.
    unbind E as s2 E1. unbind E as t E2. unbind E as s3 E3. injection E as <-.
    eapply same_trans; [eapply (touch_all_same e false); [exact dis_tot|eauto]|].
    eapply same_trans; [eapply (touch_all_same e true); [apply set_tot|eauto]|]. apply same_refl. auto.
  - unfold claim in H. unguard H G. unbind H as [[s1 x] v] E. unbind H as o2 E2.
    destruct (pay_all e sd s1 x) as [s2 o1] eqn:E3. injection H as <- <-. split.
    + eapply same_trans; [eapply claim_each_same; eauto|]. apply same_refl.
      pose proof (pay_all_lps e sd x s1) as K. rewrite E3 in K. auto.
    + intros k. rewrite went_app. pose proof (pay_all_out e sd x s1 k) as K. rewrite E3 in K. simpl in K.
      rewrite K. apply (prot_out _ _ _ _ k E2).
  - silent H. split; auto. unfold set_tokens in E. unguard E G1. unbind E as s2 E1. injection E as <-.
    eapply same_trans; [eapply (touch_all_same e false); [apply set_tot|eauto]|]. apply same_refl. auto.
  - unfold incentivize_many in H. unguard H G. unbind H as [[s1 f1] o1] E. unguard H G2. injection H as <- <-.
    apply incentivize_each_same in E. destruct E as [E1 E2]. split; auto.
  - unfold remove_reward in H. unguard H G. unbind H as p Ep. unbind H as [q rem] E.
    unbind H as [[[q' x] sch] v] E2. unbind H as s1 E3. injection H as H.
    pose proof (pay_all_lps e to [(a, v)] s1) as K. pose proof (pay_all_out e to [(a, v)] s1) as K2.
    assert (Hp : pay_all e to s1 [(a, v)] = (s', o)) by (cbn [pay_all]; unfold pay; rewrite H, app_nil_r; auto).
    rewrite Hp in K, K2. simpl in K, K2. split; auto.
    apply save_lps in E3. destruct E3 as (fi & El & _). simpl in El. rewrite <- K in El.
    apply (same_put lp _ s s' El); simpl.
    + rewrite (deregister_total _ _ _ _ _ _ _ _ E2), (update_total _ _ _ _ E). unfold total_of. rewrite Ep. auto.
    + intros who. unfold position_of. rewrite Ep. auto.
  - unfold claim_orphaned in H. unguard H G. unguard H G2. injection H as H.
    match type of H with pay_all _ _ ?s1 ?x = _ =>
      pose proof (pay_all_lps e to x s1) as K; pose proof (pay_all_out e to x s1) as K2 end.
    rewrite H in K, K2. split; auto. apply same_refl. auto.
  - silent H. split; auto. unfold update_config in E. unguard E G. unbind E as m E1. injection E as <-.
    destruct ast as [a|]; [eapply relabel_same; eauto|]. injection E1 as <-. apply same_refl. auto.
  - silent H. split; auto. unfold update_blocked in E. unguard E G1. unguard E G2. unbind E as bl1 E1.
    unbind E as [dis bl2] E2. destruct dis as [|d0 dr]; [injection E as <-; apply same_refl; auto|].
    unbind E as s2 E3. unbind E as red E4. unbind E as t E5. unbind E as s3 E6. injection E as <-.
    eapply same_trans; [eapply (touch_all_same e false); [exact dis_tot|eauto]|].
    eapply same_trans; [eapply (touch_all_same e false); [apply set_tot|eauto]|]. apply same_refl. auto.
  - silent H. split; auto. unfold deactivate_pool in E. unguard E G1.
    destruct (find lp (lps s)) as [p|] eqn:Ef; [|injection E as <-; apply same_refl; auto].
    destruct (is_active (pl p)); [|injection E as <-; apply same_refl; auto].
    unbind E as [n al] E0. unbind E as s2 E1. unbind E as t E2. unbind E as s3 E3. injection E as <-.
    eapply same_trans; [eapply (touch_same e false disable_astro); [intros q q' Hq; exact (dis_tot 0 q q' Hq)|eauto]|].
    eapply same_trans; [eapply (touch_all_same e false); [apply set_tot|eauto]|]. apply same_refl. auto.
  - silent H. split; auto. unfold deactivate_blocked in E. unbind E as s2 E1. unbind E as t E2.
    assert (S1 : same s s2) by (eapply (touch_all_same e false); [exact dis_tot|eauto]).
    destruct (filter (fun x => mem (pair_type e (fst x)) (bad_types e)) (active s)); [injection E as <-; auto|].
    unbind E as s3 E3. injection E as <-.
    eapply same_trans; [exact S1|].
    eapply same_trans; [eapply (touch_all_same e false); [apply set_tot|eauto]|]. apply same_refl. auto.
  - injection H as <- <-. split; [apply same_refl|]; auto.
Qed.

Lemma net_total lp h : forall s, total_of lp (run s h) = total_of lp s + net lp s h.
Proof.
  induction h as [|[[e sd] m] r IH]; intros s; simpl; [unfold run; simpl; lia|].
  change (run s ((e, sd, m) :: r)) with (run (exec s (e, sd, m)) r). rewrite IH. unfold exec.
  destruct (step e sd m s) as [[s' o]|] eqn:E; [|lia].
  assert (K : total_of lp s' = total_of lp s + came_in lp m - went_out lp o); [|lia].
  destruct (moves_lp m) eqn:M.
  - destruct m; try discriminate; simpl in E.
    + apply deposit_pos in E. destruct E as (E1 & _ & E2). rewrite E1, E2. simpl. rewrite Z.eqb_sym. lia.
    + apply withdraw_pos in E. destruct E as (_ & E1 & _ & E2 & _). rewrite E1, E2. simpl. lia.
  - destruct (step_same _ _ _ _ _ _ M E) as [S1 S2]. destruct (S1 lp) as [S3 _]. rewrite S3, S2.
    destruct m; simpl; try lia; discriminate.
Qed.
