(** Incentives: no message makes the contract owe more of an asset than it holds. *)
From Coq Require Import ZArith Lia Bool List Permutation.
From Verif Require Import Num Amap Ledger IncentivesModel IncentivesSched IncentivesPool IncentivesPay
  IncentivesOps.
Import ListNotations.
Open Scope Z_scope.

(** LP tokens staked in the pool of LP token [A]. *)
Definition staked (A : Z) (s : state) : Z :=
  match find A (lps s) with Some p => total_lp (pl p) | None => 0 end.
(** Everything owed in asset [A], times 10^18, and what is missing to cover it. *)
Definition lia_ (A : Z) (s : state) : Z :=
  sumf (P A) (lps s) + oget (orphs s) A * DEC + staked A s * DEC.
Definition gap (A : Z) (s : state) : Z := lia_ A s - get (bal s) A * DEC.

Record inv (A T : Z) (s : state) : Prop := {
  i_lps : Forall (fun x => wf A (snd x) /\ last (pl (snd x)) <= T) (lps s);
  i_nd : NoDup (keys (lps s));
  i_os : srt (orphs s);
  i_on : forall a, 0 <= oget (orphs s) a
}.
Definition env_ok (e : env) : Prop := forall rem, Permutation (ord e rem) rem.

Lemma inv_later A T T' s : inv A T s -> T <= T' -> inv A T' s.
Proof.
  intros [I1 I2 I3 I4] L. constructor; auto. eapply Forall_impl; [|exact I1].
  simpl. intros a [H1 H2]. split; auto. lia.
Qed.
Lemma inv_bal A T s b : inv A T s -> inv A T (set_bal s b).
Proof. intros [I1 I2 I3 I4]. constructor; auto. Qed.
Lemma inv_em A T s r t ac bl : inv A T s -> inv A T (set_emission s r t ac bl).
Proof. intros [I1 I2 I3 I4]. constructor; auto. Qed.

Lemma remaining_nn A p : wf A p -> 0 <= remaining A (pl p) (scheds p).
Proof.
  intros W. unfold remaining. destruct (find_ext A (rewards (pl p))) as [x|] eqn:E; [|lia].
  destruct (find_ext_in _ _ _ E) as (_ & n & R).
  destruct (find_ext_ok _ _ _ _ E (w_rw _ _ W)) as (O1 & O2 & O3 & O4). rewrite R in O4.
  specialize (O4 eq_refl). simpl in O4. destruct (w_sch _ _ W A) as [S1 S2]. unfold left_of. rewrite R. simpl.
  assert (0 <= rps x * (n - last (pl p))) by (apply Z.mul_nonneg_nonneg; lia).
  assert (0 <= tailZ n (after n (sched_of A (scheds p)))); [|lia].
  apply tailZ_nonneg.
  - apply srt_after. auto.
  - apply Forall_forall. intros y Hy. apply in_after in Hy. tauto.
  - apply Forall_forall. intros y Hy. apply in_after in Hy. rewrite Forall_forall in S2. apply S2. tauto.
Qed.
Lemma owed_nn A p rem u : wfm A p rem -> In u (users p) -> 0 <= owedM A (pl p) rem (fins p) (snd u).
Proof.
  intros W Hu. pose proof (m_wf _ _ _ W) as Wp. pose proof (w_users _ _ Wp) as Q. rewrite Forall_forall in Q.
  destruct (Q _ Hu) as (U1 & U2 & U3). unfold owedM. apply Z.mul_nonneg_nonneg; auto.
  apply clm_nonneg.
  - apply fl_nn. apply unseen_nn; [eapply wf_fins_nn; eauto|].
    unfold vis. destruct (_ <? _); [|constructor]. eapply Forall_impl; [|exact (m_nn _ _ _ W)]. simpl. tauto.
  - eapply actA_nn. apply (w_rw _ _ Wp).
Qed.
Lemma orphA_nn A p : wf A p -> 0 <= orphA A (rewards (pl p)).
Proof.
  intros W. unfold orphA. destruct (find_ext A (rewards (pl p))) as [x|] eqn:E; [|lia].
  destruct (find_ext_ok _ _ _ _ E (w_rw _ _ W)) as (O1 & O2 & O3 & O4). auto.
Qed.
Lemma P_nn A p : wf A p -> 0 <= P A p.
Proof.
  intros W. assert (Wm : wfm A p []) by (constructor; auto; constructor).
  assert (0 <= sumf (owedM A (pl p) [] (fins p)) (users p)).
  { apply sumf_Forall. apply Forall_forall. intros u Hu. apply (owed_nn A p [] u Wm Hu). }
  pose proof (orphA_nn _ _ W). pose proof (remaining_nn _ _ W).
  unfold P, Pm. unfold rem_orph. simpl. lia.
Qed.
Lemma staked_nn A T s : inv A T s -> 0 <= staked A s.
Proof.
  intros I. unfold staked. destruct (find A (lps s)) as [p|] eqn:E; [|lia].
  apply find_in in E. pose proof (i_lps _ _ _ I) as Q. rewrite Forall_forall in Q.
  destruct (Q _ E) as [W _]. eapply wf_total_nn; eauto.
Qed.
Lemma sumP_nn A T s : inv A T s -> 0 <= sumf (P A) (lps s).
Proof.
  intros I. apply sumf_Forall. eapply Forall_impl; [|exact (i_lps _ _ _ I)]. simpl. intros a [H _].
  apply P_nn. auto.
Qed.
Lemma lia_nn A T s : inv A T s -> 0 <= lia_ A s.
Proof.
  intros I. pose proof (staked_nn _ _ _ I). pose proof (i_on _ _ _ I A). pose proof DEC_pos.
  pose proof (sumP_nn _ _ _ I). unfold lia_. nia.
Qed.

Lemma gap_bal A s a v : gap A (set_bal s (set (bal s) a v)) =
  gap A s + (if A =? a then (get (bal s) a - v) * DEC else 0).
Proof.
  unfold gap, lia_, staked. simpl. rewrite (Z.eqb_sym A a). destruct (Z.eqb_spec a A).
  - subst. rewrite get_set_same. lia.
  - rewrite get_set_other by auto. lia.
Qed.
Lemma gap_em A s r t ac bl : gap A (set_emission s r t ac bl) = gap A s.
Proof. reflexivity. Qed.

(** ** Saving a pool *)
Definition cur (lp : Z) (s : state) : lpst :=
  match find lp (lps s) with Some p => p | None => empty_lp end.
Lemma wf_empty A : wf A empty_lp.
Proof.
  constructor; simpl; auto; try constructor; try lia.
  - simpl. auto.
  - constructor.
  - intros y [].
Qed.
Lemma cur_wf A T lp s : inv A T s -> 0 <= T -> wf A (cur lp s) /\ last (pl (cur lp s)) <= T.
Proof.
  intros I L. unfold cur. destruct (find lp (lps s)) as [p|] eqn:E.
  - apply find_in in E. pose proof (i_lps _ _ _ I) as Q. rewrite Forall_forall in Q. apply (Q _ E).
  - split; [apply wf_empty|simpl; lia].
Qed.
Lemma commit_gap A e lp p' rem s s' T : inv A T s -> T <= now e -> env_ok e ->
  wfm A p' rem -> last (pl p') <= now e -> save e lp p' rem s = Some s' ->
  inv A (now e) s' /\ bal s' = bal s /\
  gap A s' <= gap A s - P A (cur lp s) + Pm A p' rem
    + (if A =? lp then (total_lp (pl p') - total_lp (pl (cur lp s))) * DEC else 0).
Proof.
  intros I L Pe W Lp H.
  destruct (save_P A _ _ _ _ _ _ H W (Pe rem) (i_os _ _ _ I) (i_on _ _ _ I)) as
    (p2 & E & J1 & J2 & J3 & J4 & J5 & J6).
  assert (El : lps s' = put lp p2 (lps s)) by (rewrite E; auto).
  assert (Eb : bal s' = bal s) by (rewrite E; auto).
  split; [|split; [auto|]].
  - constructor; auto.
    + rewrite El. apply Forall_put; [|simpl; rewrite J4; auto].
      eapply Forall_impl; [|exact (i_lps _ _ _ I)]. simpl. intros a [H1 H2]. split; auto. lia.
    + rewrite El. apply keys_put. apply (i_nd _ _ _ I).
  - unfold gap, lia_, staked. rewrite Eb, El, sumf_put, find_put. rewrite (Z.eqb_sym A lp).
    assert (Ec : P A (cur lp s) = match find lp (lps s) with Some o => P A o | None => 0 end)
      by (unfold cur; destruct (find lp (lps s)); auto).
    destruct (Z.eqb_spec lp A).
    + subst. unfold cur in *. rewrite J4. destruct (find A (lps s)); simpl; lia.
    + unfold cur in *. destruct (find lp (lps s)); lia.
Qed.

(** ** Paying *)
Definition quiet (A : Z) (e : env) (g : Z) (o : list out) : Prop :=
  g <= 0 -> xfer_ok e A = true -> forall to v, ~ In (Lost A to v) o.

Lemma pay_all_gap A e to T l : forall s s' o g, inv A T s -> Forall (fun x => 0 <= snd x) l ->
  gap A s + paidA A l * DEC <= g -> pay_all e to s l = (s', o) ->
  inv A T s' /\ gap A s' <= g /\ quiet A e g o.
Proof.
  induction l as [|[a v] r IH]; intros s s' o g I F G H; cbn [pay_all] in H.
  - injection H as <- <-. unfold paidA in G. simpl in G. split; auto. split; [lia|]. intros _ _ t w [].
  - inversion F as [|? ? F1 F2]; subst. simpl in F1.
    assert (Ep : paidA A ((a, v) :: r) = (if a =? A then v else 0) + paidA A r).
    { unfold paidA, fl. simpl. destruct (a =? A); simpl; lia. }
    rewrite Ep in G.
    destruct (pay e to s (a, v)) as [s1 o1] eqn:E1. destruct (pay_all e to s1 r) as [s2 o2] eqn:E2.
    injection H as <- <-. unfold pay in E1.
    pose proof DEC_pos as Dp. pose proof (lia_nn _ _ _ I) as Ln.
    assert (Pn : 0 <= paidA A r).
    { unfold paidA. apply zsum_nonneg. apply fl_nn. auto. }
    destruct (Z.eqb_spec v 0).
    + injection E1 as <- <-. edestruct (fun G' => IH _ _ _ g I F2 G' E2) as (K1 & K2 & K3).
      * destruct (a =? A); lia.
      * split; auto.
    + destruct (xfer_ok e a && (v <=? get (bal s) a)) eqn:Ex.
      * injection E1 as <- <-. edestruct (fun G' => IH _ _ _ g (inv_bal _ _ _ _ I) F2 G' E2) as (K1 & K2 & K3).
        { rewrite gap_bal. rewrite (Z.eqb_sym A a). destruct (a =? A) eqn:Ea; [apply Z.eqb_eq in Ea; subst a|]; lia. }
        split; auto. split; auto. intros G0 X t w [Hc|Hc]; [discriminate|]. apply (K3 G0 X t w Hc).
      * injection E1 as <- <-. edestruct (fun G' => IH _ _ _ g I F2 G' E2) as (K1 & K2 & K3).
        { destruct (a =? A); nia. }
        split; auto. split; auto. intros G0 X t w [Hc|Hc]; [|apply (K3 G0 X t w Hc)].
        injection Hc as -> -> ->. rewrite X in Ex. simpl in Ex. apply Z.leb_gt in Ex.
        rewrite Z.eqb_refl in G. unfold gap in G. nia.
Qed.

Lemma pay_prot_out e to prot o A : pay_prot e to prot = Some o -> forall t w, ~ In (Lost A t w) o.
Proof.
  unfold pay_prot. destruct (prot =? 0); intros H t w.
  - injection H as <-. auto.
  - unguard H G. injection H as <-. intros [Hc|[]]. discriminate.
Qed.
Lemma quiet_app A e g o1 o2 : quiet A e g o1 -> (forall t w, ~ In (Lost A t w) o2) -> quiet A e g (o1 ++ o2).
Proof.
  intros Q H G X t w Hi. apply in_app_iff in Hi. destruct Hi as [Hi|Hi]; [apply (Q G X t w Hi)|apply (H t w Hi)].
Qed.

(** ** Updating one user's position *)
Lemma credit_nn i amt v : credit i amt = Some v -> 0 <= v.
Proof. unfold credit. intros H. unbind H as x E. apply u128_Some in H. lia. Qed.
Lemma claim_fin_nn amt ui l : forall seen o, claim_fin amt ui seen l = Some o -> Forall (fun x => 0 <= snd x) o.
Proof.
  induction l as [|[a f] r IH]; intros seen o H; simpl in H.
  - injection H as <-. constructor.
  - unbind H as v E. unbind H as t E2. injection H as <-. constructor; [|eauto]. simpl.
    destruct (mem a seen); [eapply credit_nn; eauto|]. unbind E as d E3. eapply credit_nn; eauto.
Qed.
Lemma calc_all_nn u rs : forall o, calc_all u rs = Some o -> Forall (fun x => 0 <= snd x) o.
Proof.
  induction rs as [|r t IH]; intros o H; simpl in H.
  - injection H as <-. constructor.
  - unbind H as v E. unbind H as w E2. injection H as <-. constructor; [|eauto]. simpl.
    unfold calc_one in E. destruct (u_find _ _) as [i|]; [destruct (_ <? i)|]; eapply credit_nn; eauto.
Qed.
Lemma due_nn q rem f u ext prot : due q rem f u = Some (ext, prot) -> Forall (fun x => 0 <= snd x) ext.
Proof.
  unfold due. intros H. unbind H as fin E. unbind H as act E2. unbind H as pr E3. injection H as <- <-.
  apply Forall_app. split; [eapply claim_fin_nn; eauto|].
  apply calc_all_nn in E2. apply Forall_forall. intros y Hy. apply in_map_iff in Hy.
  destruct Hy as (z & <- & Hz). apply filter_In in Hz. rewrite Forall_forall in E2. simpl. apply E2. tauto.
Qed.

Lemma settle A p q rem who u ext prot a t :
  wfm A (with_pl p q) rem -> wf A p ->
  (rem <> [] -> last (pl p) < last q) -> last (pl p) <= last q ->
  due q rem (fins p) u = Some (ext, prot) ->
  match find who (users p) with Some v => u = v | None => exists n, u = mkU 0 [] n /\ n <= last q end ->
  0 <= a -> t = total_lp q - amount u + a ->
  let q' := mkPool t (rewards q) (last q) in
  (forall us, us = put who (sync a q') (users p) \/ (a = 0 /\ us = del who (users p)) ->
   let p' := mkLp q' us (scheds p) (fins p) in
   wfm A p' rem /\ Pm A p' rem + paidA A ext * DEC <= Pm A (with_pl p q) rem).
Proof.
  intros W W0 Lr Ll D Hu Ha -> q' us Hus p'. pose proof (m_wf _ _ _ W) as Wq.
  assert (Wrw : Forall (okR (last q)) (rewards q)) by apply (w_rw _ _ Wq).
  assert (Wex : NoDup (exts (rewards q))) by apply (w_ext _ _ Wq).
  assert (Wnd : NoDup (keys (users p))) by apply (w_nd _ _ Wq).
  assert (Wtot : total_lp q = sumf amount (users p)) by apply (w_total _ _ Wq).
  assert (Wus : Forall (fun x => okU (last q) (snd x)) (users p)) by apply (w_users _ _ Wq).
  assert (Fl : Forall (fun x : Z * list (Z * Z) => fst x <= last q) (fins p)).
  { eapply Forall_impl; [|exact (w_fin _ _ Wq)]. simpl. tauto. }
  assert (Es : owedM A q' rem (fins p) (sync a q') = 0) by (apply owed_sync; auto).
  assert (NNu : Forall (fun y => 0 <= snd y) (unseen u (fins p) rem)).
  { apply unseen_nn; [eapply (wf_fins_nn A p); auto|]. eapply Forall_impl; [|exact (m_nn _ _ _ W)]. simpl. tauto. }
  assert (Pd : paidA A ext * DEC <= match find who (users p) with
               | Some v => owedM A q rem (fins p) v | None => 0 end).
  { destruct (find who (users p)) as [v|] eqn:Ef.
    - subst v. apply find_in in Ef. pose proof (w_users _ _ W0) as Q. rewrite Forall_forall in Q.
      pose proof (Q _ Ef) as Ou. simpl in Ou.
      assert (Ou2 : okU (last q) u) by (destruct Ou as (U1 & U2 & U3); repeat split; auto; lia).
      assert (Ev : vis u q rem = rem).
      { unfold vis. destruct rem as [|y r]; [destruct (_ <? _); auto|].
        destruct Ou as (_ & U2 & _). specialize (Lr ltac:(discriminate)).
        replace (claimed u <? last q) with true; auto. symmetry. apply Z.ltb_lt. lia. }
      unfold owedM. rewrite Ev. eapply due_paid; eauto.
    - destruct Hu as (n & -> & Ln). 
      pose proof (due_paid A _ _ _ _ _ _ (last q) D Wex Wrw) as K. simpl amount in K.
      assert (Hk : okU (last q) (mkU 0 [] n)) by (repeat split; simpl; auto; lia). specialize (K Hk NNu). lia. }
  assert (Su : sumf amount us = sumf amount (users p) - amount u + a /\
     sumf (owedM A q' rem (fins p)) us = sumf (owedM A q rem (fins p)) (users p) -
       match find who (users p) with Some v => owedM A q rem (fins p) v | None => 0 end /\
     NoDup (keys us) /\ Forall (fun x => okU (last q) (snd x)) us).
  { destruct Hus as [->|[-> ->]].
    - rewrite !sumf_put. rewrite Es. split; [|split; [|split]].
      + destruct (find who (users p)); [subst; simpl; lia|]. destruct Hu as (n & -> & _). simpl. lia.
      + change (owedM A q' rem (fins p)) with (owedM A q rem (fins p)). lia.
      + apply keys_put. auto.
      + apply Forall_put; auto. simpl. exact (sync_ok (last q) q' a Wrw Ha).
    - rewrite !sumf_del by auto. split; [|split; [|split]].
      + destruct (find who (users p)); [subst; simpl; lia|]. destruct Hu as (n & -> & _). simpl. lia.
      + change (owedM A q' rem (fins p)) with (owedM A q rem (fins p)). lia.
      + apply keys_del. auto.
      + apply Forall_forall. intros x Hx. apply in_del in Hx. rewrite Forall_forall in Wus. auto. }
  destruct Su as (S1 & S2 & S3 & S4). split.
  - constructor; [|apply (m_nd _ _ _ W)|apply (m_nn _ _ _ W)]. destruct Wq. constructor; simpl; auto.
    simpl in *. lia.
  - unfold Pm, p', with_pl. cbn [pl users fins scheds]. rewrite S2.
    change (orphA A (rewards q')) with (orphA A (rewards q)).
    change (remaining A q' (scheds p)) with (remaining A q (scheds p)). lia.
Qed.
