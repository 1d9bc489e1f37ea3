(** Incentives: every message keeps the contract solvent in an asset. *)
From Coq Require Import ZArith Lia Bool List Permutation.
From Verif Require Import Num Amap Ledger IncentivesModel IncentivesSched IncentivesPool IncentivesPay
  IncentivesOps IncentivesInv.
Import ListNotations.
Open Scope Z_scope.

Definition good (A : Z) (e : env) (s s' : state) (o : list out) : Prop :=
  inv A (now e) s' /\ gap A s' <= gap A s /\ quiet A e (gap A s) o.

Lemma update_cur A T lp s e q rem : inv A T s -> 0 <= T -> T <= now e ->
  update_rewards (now e) (cur lp s) = Some (q, rem) ->
  wf A (cur lp s) /\ wfm A (with_pl (cur lp s) q) rem /\ Pm A (with_pl (cur lp s) q) rem <= P A (cur lp s) /\
  last q = now e /\ total_lp q = total_lp (pl (cur lp s)) /\
  (rem <> [] -> last (pl (cur lp s)) < last q) /\ last (pl (cur lp s)) <= last q /\
  (forall a, In a (map fst rem) -> find_ext a (rewards q) = None).
Proof.
  intros I T0 L H. destruct (cur_wf _ _ lp _ I T0) as [W Lw].
  destruct (update_P A _ _ _ _ W H) as (U1 & U2 & U3 & U4 & U5 & U6).
  rewrite U3 in *. rewrite Z.max_l in * by lia. repeat (split; auto); lia.
Qed.

Lemma deposit_good A T e lp amt who s s' o : inv A T s -> 0 <= T -> T <= now e -> env_ok e -> 0 <= amt ->
  deposit e lp amt who s = Some (s', o) -> good A e s s' o.
Proof.
  intros I T0 L Eo Am H. unfold deposit in H. unguard H Hok.
  set (s0 := set_bal s (set (bal s) lp (get (bal s) lp + amt))) in *.
  change (match find lp (lps s0) with Some p => p | None => empty_lp end) with (cur lp s0) in H.
  assert (I0 : inv A T s0) by (apply inv_bal; auto).
  set (p := cur lp s0) in *. set (u := match find who (users p) with Some u => u | None => mkU 0 [] (now e) end) in *.
  unbind H as [q rem] E. unbind H as [ext prot] E2. unbind H as a E3. apply add128_Some in E3.
  destruct E3 as (-> & Ba). unbind H as t E3. apply add128_Some in E3. destruct E3 as (-> & Bt).
  unbind H as s1 E4. unbind H as o2 E5. destruct (pay_all e who s1 ext) as [s2 o1] eqn:E6.
  injection H as <- <-.
  destruct (update_cur A T lp s0 e q rem I0 T0 L E) as (W & Wq & Pq & Lq & Tq & Lr & Ll & _). fold p in W, Wq, Pq, Tq, Lr, Ll.
  assert (Hu : match find who (users p) with Some v => u = v | None => exists n, u = mkU 0 [] n /\ n <= last q end).
  { unfold u. destruct (find who (users p)); auto. exists (now e). split; auto. lia. }
  assert (Ua : 0 <= amount u).
  { unfold u. destruct (find who (users p)) eqn:Ef; [|simpl; lia]. apply find_in in Ef.
    pose proof (w_users _ _ W) as Q. rewrite Forall_forall in Q. destruct (Q _ Ef) as (Q1 & _). auto. }
  destruct (settle A p q rem who u ext prot (amount u + amt) (total_lp q + amt) Wq W Lr Ll E2 Hu
    ltac:(lia) ltac:(lia) _ (or_introl eq_refl)) as (Ws & Ps).
  edestruct (fun Hl => commit_gap A e lp _ rem s0 s1 T I0 L Eo Ws Hl E4) as (J1 & J2 & J3).
  { simpl. lia. }
  fold p in J3. cbn [pl total_lp] in J3.
  assert (G : gap A s1 + paidA A ext * DEC <= gap A s).
  { assert (Dt : total_lp q + amt - total_lp (pl p) = amt) by lia. rewrite Dt in J3.
    unfold s0 in J3. rewrite gap_bal in J3. destruct (Z.eqb_spec A lp); lia. }
  destruct (pay_all_gap A e who (now e) ext s1 s2 o1 (gap A s) J1 (due_nn _ _ _ _ _ _ E2) G E6) as (K1 & K2 & K3).
  split; auto. split; auto. apply quiet_app; auto. eapply pay_prot_out; eauto.
Qed.

Lemma withdraw_good A T e sender lp amt s s' o : inv A T s -> 0 <= T -> T <= now e -> env_ok e -> 0 <= amt ->
  withdraw e sender lp amt s = Some (s', o) -> good A e s s' o.
Proof.
  intros I T0 L Eo Am H. unfold withdraw in H. unbind H as p Ep.
  assert (Ec : cur lp s = p) by (unfold cur; rewrite Ep; auto).
  unbind H as u Eu. unguard H Hg. unbind H as [q rem] E. unbind H as [ext prot] E2.
  unbind H as a E3. apply sub128_Some in E3. destruct E3 as (-> & Ba).
  unbind H as t E3. apply sub128_Some in E3. destruct E3 as (-> & Bt).
  unbind H as s1 E4. unbind H as o2 E5. destruct (pay_all e sender s1 ext) as [s2 o1] eqn:E6.
  unguard H Hx. injection H as <- <-. rewrite <- Ec in E.
  destruct (update_cur A T lp s e q rem I T0 L E) as (W & Wq & Pq & Lq & Tq & Lr & Ll & _).
  rewrite Ec in *.
  assert (Hu : match find sender (users p) with Some v => u = v | None => exists n, u = mkU 0 [] n /\ n <= last q end)
    by (rewrite Eu; auto).
  destruct (settle A p q rem sender u ext prot (amount u - amt) (total_lp q - amt) Wq W Lr Ll E2 Hu
    ltac:(lia) ltac:(lia) (if amount u - amt =? 0 then del sender (users p) else put sender
      (sync (amount u - amt) (mkPool (total_lp q - amt) (rewards q) (last q))) (users p))) as (Ws & Ps).
  { destruct (Z.eqb_spec (amount u - amt) 0); auto. }
  edestruct (fun Hl => commit_gap A e lp _ rem s s1 T I L Eo Ws Hl E4) as (J1 & J2 & J3).
  { simpl. lia. }
  rewrite Ec in J3. cbn [pl total_lp] in J3.
  assert (G : gap A s1 + paidA A ext * DEC <= gap A s - (if A =? lp then amt * DEC else 0)).
  { assert (Dt : total_lp q - amt - total_lp (pl p) = - amt) by lia. rewrite Dt in J3.
    destruct (Z.eqb_spec A lp); lia. }
  destruct (pay_all_gap A e sender (now e) ext s1 s2 o1 _ J1 (due_nn _ _ _ _ _ _ E2) G E6) as (K1 & K2 & K3).
  split; [apply inv_bal; auto|]. split.
  - rewrite gap_bal. destruct (Z.eqb_spec A lp); lia.
  - rewrite app_assoc. apply quiet_app; [apply quiet_app|].
    + intros G0. apply K3. pose proof DEC_pos. destruct (A =? lp); nia.
    + eapply pay_prot_out; eauto.
    + intros t w [Hc|[]]. discriminate.
Qed.

Lemma claim_each_gap A e sender l : env_ok e -> forall T s s' ext prot, inv A T s -> 0 <= T -> T <= now e ->
  claim_each e sender l s = Some (s', ext, prot) ->
  (l = [] \/ inv A (now e) s') /\ inv A (now e) s' /\ gap A s' + paidA A ext * DEC <= gap A s /\ Forall (fun x => 0 <= snd x) ext.
Proof.
  intros Eo. induction l as [|lp r IH]; intros T s s' ext prot I T0 L H; simpl in H.
  - injection H as <- <- <-. split; auto. split; [eapply inv_later; eauto|]. split; [unfold paidA; simpl; lia|constructor].
  - unbind H as p Ep. assert (Ec : cur lp s = p) by (unfold cur; rewrite Ep; auto).
    unbind H as u Eu. unbind H as [q rem] E. unbind H as [x1 pr1] E2. unbind H as s1 E4.
    unbind H as [[s2 x2] pr2] E5. unbind H as pr E6. injection H as <- <- <-. rewrite <- Ec in E.
    destruct (update_cur A T lp s e q rem I T0 L E) as (W & Wq & Pq & Lq & Tq & Lr & Ll & _).
    rewrite Ec in *.
    assert (Hu : match find sender (users p) with Some v => u = v | None => exists n, u = mkU 0 [] n /\ n <= last q end)
      by (rewrite Eu; auto).
    assert (Ua : 0 <= amount u).
    { apply find_in in Eu. pose proof (w_users _ _ W) as Q. rewrite Forall_forall in Q.
      destruct (Q _ Eu) as (Q1 & _). auto. }
    destruct (settle A p q rem sender u x1 pr1 (amount u) (total_lp q) Wq W Lr Ll E2 Hu
      Ua ltac:(lia) _ (or_introl eq_refl)) as (Ws & Ps).
    assert (Eq : mkPool (total_lp q) (rewards q) (last q) = q) by (destruct q; auto). rewrite Eq in *.
    edestruct (fun Hl => commit_gap A e lp _ rem s s1 T I L Eo Ws Hl E4) as (J1 & J2 & J3).
    { simpl. lia. }
    rewrite Ec in J3. cbn [pl total_lp] in J3.
    destruct (IH (now e) s1 s2 x2 pr2 J1 ltac:(lia) ltac:(lia) E5) as (_ & K1 & K2 & K3).
    split; auto. split; auto. split; [|apply Forall_app; split; auto; eapply due_nn; eauto].
    rewrite paidA_app. assert (Dt : total_lp q - total_lp (pl p) = 0) by lia. rewrite Dt in J3. destruct (A =? lp); lia.
Qed.
Lemma claim_good A T e sender l s s' o : inv A T s -> 0 <= T -> T <= now e -> env_ok e ->
  claim e sender l s = Some (s', o) -> good A e s s' o.
Proof.
  intros I T0 L Eo H. unfold claim in H. unguard H Hn. unbind H as [[s1 ext] prot] E. unbind H as o2 E2.
  destruct (pay_all e sender s1 ext) as [s2 o1] eqn:E3. injection H as <- <-.
  destruct (claim_each_gap A e sender l Eo T s s1 ext prot I T0 L E) as (_ & J1 & J2 & J3).
  destruct (pay_all_gap A e sender (now e) ext s1 s2 o1 _ J1 J3 J2 E3) as (K1 & K2 & K3).
  split; auto. split; auto. apply quiet_app; auto. eapply pay_prot_out; eauto.
Qed.

(** ** Messages about ASTRO emissions *)
Lemma touch_gap A T e c f lp s s' : inv A T s -> 0 <= T -> T <= now e -> env_ok e ->
  (forall q q', f q = Some q' -> total_lp q' = total_lp q /\ last q' = last q /\ keeps (rewards q) (rewards q')) ->
  touch e c f lp s = Some s' -> inv A (now e) s' /\ gap A s' <= gap A s.
Proof.
  intros I T0 L Eo K H. unfold touch in H. unbind H as p Ep.
  assert (Ec : cur lp s = p).
  { unfold cur. destruct (find lp (lps s)); [congruence|]. destruct c; congruence. }
  unbind H as [q rem] E. unbind H as q' E2. rewrite <- Ec in E.
  destruct (update_cur A T lp s e q rem I T0 L E) as (W & Wq & Pq & Lq & Tq & Lr & Ll & _).
  destruct (K _ _ E2) as (K1 & K2 & K3).
  destruct (keeps_wfm A (with_pl (cur lp s) q) rem (rewards q') (total_lp q') Wq K3) as (W1 & P1).
  { rewrite K1. apply (w_total _ _ (m_wf _ _ _ Wq)). }
  simpl in W1, P1. rewrite <- K2 in W1, P1.
  assert (Eq : mkPool (total_lp q') (rewards q') (last q') = q') by (destruct q'; auto). rewrite Eq in *.
  rewrite <- Ec in H.
  edestruct (fun Hl => commit_gap A e lp _ rem s s' T I L Eo W1 Hl H) as (J1 & J2 & J3).
  { simpl. lia. }
  split; auto. cbn [pl] in J3. rewrite K1, Tq in J3. destruct (A =? lp); lia.
Qed.
Lemma touch_all_gap A e c f l : env_ok e ->
  (forall al q q', f al q = Some q' -> total_lp q' = total_lp q /\ last q' = last q /\ keeps (rewards q) (rewards q')) ->
  forall T s s', inv A T s -> 0 <= T -> T <= now e ->
  touch_all e c f l s = Some s' -> inv A (now e) s' /\ gap A s' <= gap A s.
Proof.
  intros Eo K. induction l as [|[lp al] r IH]; intros T s s' I T0 L H; simpl in H.
  - injection H as <-. split; [eapply inv_later; eauto|lia].
  - unbind H as s1 E. destruct (touch_gap A T e c (f al) lp s s1 I T0 L Eo (K al) E) as (J1 & J2).
    destruct (IH (now e) s1 s' J1 ltac:(lia) ltac:(lia) H). split; auto. lia.
Qed.
Lemma disable_ok (al : Z) q q' : (fun _ : Z => disable_astro) al q = Some q' ->
  total_lp q' = total_lp q /\ last q' = last q /\ keeps (rewards q) (rewards q').
Proof. apply disable_keeps. Qed.

Ltac silent H := unfold silent in H; unbind H as s1 E; injection H as <- <-.
Lemma good_silent A e s s' : inv A (now e) s' /\ gap A s' <= gap A s -> good A e s s' [].
Proof. intros [H1 H2]. split; auto. split; auto. intros _ _ t w []. Qed.

Lemma setup_good A T e sender l s s' : inv A T s -> 0 <= T -> T <= now e -> env_ok e ->
  setup_pools e sender l s = Some s' -> inv A (now e) s' /\ gap A s' <= gap A s.
Proof.
  intros I T0 L Eo H. unfold setup_pools in H. unguard H G1. unguard H G2. unguard H G3.
  unbind H as s1 E. unbind H as t E2. unbind H as s2 E3. injection H as <-.
  destruct (touch_all_gap A e false _ _ Eo disable_ok T s s1 I T0 L E) as (J1 & J2).
  destruct (touch_all_gap A e true _ _ Eo (fun al => set_astro_keeps (astro s) (aps s) t al) (now e) s1 s2 J1 ltac:(lia) ltac:(lia) E3) as (K1 & K2).
  split; [apply inv_em; auto|]. rewrite gap_em. lia.
Qed.
Lemma set_tokens_good A T e sender amt s s' : inv A T s -> 0 <= T -> T <= now e -> env_ok e ->
  set_tokens e sender amt s = Some s' -> inv A (now e) s' /\ gap A s' <= gap A s.
Proof.
  intros I T0 L Eo H. unfold set_tokens in H. unguard H G1. unbind H as s1 E. injection H as <-.
  destruct (touch_all_gap A e false _ _ Eo (fun al => set_astro_keeps (astro s) amt (talloc s) al) T s s1 I T0 L E) as (J1 & J2).
  split; [apply inv_em; auto|]. rewrite gap_em. lia.
Qed.
Lemma deactivate_pool_good A T e sender lp s s' : inv A T s -> 0 <= T -> T <= now e -> env_ok e ->
  deactivate_pool e sender lp s = Some s' -> inv A (now e) s' /\ gap A s' <= gap A s.
Proof.
  intros I T0 L Eo H. unfold deactivate_pool in H. unguard H G1.
  destruct (find lp (lps s)) as [p|] eqn:Ef; [|injection H as <-; split; [eapply inv_later; eauto|lia]].
  destruct (is_active (pl p)); [|injection H as <-; split; [eapply inv_later; eauto|lia]].
  unbind H as [n al] E. unbind H as s1 E1. unbind H as t E2. unbind H as s2 E3. injection H as <-.
  destruct (touch_gap A T e false _ _ s s1 I T0 L Eo disable_keeps E1) as (J1 & J2).
  destruct (touch_all_gap A e false _ _ Eo (fun al => set_astro_keeps (astro s) (aps s) t al) (now e) s1 s2 J1 ltac:(lia) ltac:(lia) E3) as (K1 & K2).
  split; [apply inv_em; auto|]. rewrite gap_em. lia.
Qed.
Lemma deactivate_blocked_good A T e s s' : inv A T s -> 0 <= T -> T <= now e -> env_ok e ->
  deactivate_blocked e s = Some s' -> inv A (now e) s' /\ gap A s' <= gap A s.
Proof.
  intros I T0 L Eo H. unfold deactivate_blocked in H. unbind H as s1 E. unbind H as t E2.
  destruct (touch_all_gap A e false _ _ Eo disable_ok T s s1 I T0 L E) as (J1 & J2).
  destruct (filter (fun x => mem (pair_type e (fst x)) (bad_types e)) (active s)) eqn:Eb.
  - injection H as <-. auto.
  - unbind H as s2 E3. injection H as <-.
    destruct (touch_all_gap A e false _ _ Eo (fun al => set_astro_keeps (astro s) (aps s) t al) (now e) s1 s2 J1 ltac:(lia) ltac:(lia) E3) as (K1 & K2).
    split; [apply inv_em; auto|]. rewrite gap_em. lia.
Qed.
Lemma update_blocked_good A T e sender add rm s s' : inv A T s -> 0 <= T -> T <= now e -> env_ok e ->
  update_blocked e sender add rm s = Some s' -> inv A (now e) s' /\ gap A s' <= gap A s.
Proof.
  intros I T0 L Eo H. unfold update_blocked in H. unguard H G1. unguard H G2. unbind H as bl1 E1.
  unbind H as [dis bl2] E2. destruct dis as [|d0 dr].
  - injection H as <-. split; [apply inv_em; eapply inv_later; eauto|rewrite gap_em; lia].
  - unbind H as s1 E3. unbind H as red E4. unbind H as t E5. unbind H as s2 E6. injection H as <-.
    destruct (touch_all_gap A e false _ _ Eo disable_ok T s s1 I T0 L E3) as (J1 & J2).
    destruct (touch_all_gap A e false _ _ Eo (fun al => set_astro_keeps (astro s) (aps s) t al) (now e) s1 s2 J1 ltac:(lia) ltac:(lia) E6) as (K1 & K2).
    split; [apply inv_em; auto|]. rewrite gap_em. lia.
Qed.

Lemma relabel_gap A T a l : forall m m', 
  Forall (fun x => wf A (snd x) /\ last (pl (snd x)) <= T) m -> NoDup (keys m) ->
  relabel a l m = Some m' ->
  Forall (fun x => wf A (snd x) /\ last (pl (snd x)) <= T) m' /\ NoDup (keys m') /\
  sumf (P A) m' = sumf (P A) m /\
  forall k, option_map (fun p => total_lp (pl p)) (find k m') = option_map (fun p => total_lp (pl p)) (find k m).
Proof.
  induction l as [|[lp al] r IH]; intros m m' F N H; simpl in H.
  - injection H as <-. auto.
  - unbind H as p Ep. unguard H G.
    assert (W : wf A p /\ last (pl p) <= T).
    { pose proof Ep as Ep'. apply find_in in Ep'. rewrite Forall_forall in F. apply (F _ Ep'). }
    destruct W as [W Lp].
    assert (K : keeps (rewards (pl p)) (upd_int (fun x => mkR (RInt a) (rps x) (idx x) (orph x)) (rewards (pl p)))).
    { apply upd_int_keeps. intros x Hx. split; auto. intros t (O1 & O2 & O3 & O4). unfold okR. simpl.
      split; [|split; [|split]]; auto. discriminate. }
    destruct (keeps_wfm A p [] _ (total_lp (pl p)) (Build_wfm A p [] W (NoDup_nil _) (Forall_nil _)) K (w_total _ _ W)) as (W1 & P1).
    apply IH in H.
    + destruct H as (H1 & H2 & H3 & H4). split; auto. split; auto. split.
      * rewrite H3, sumf_put, Ep. unfold P. rewrite P1. lia.
      * intros k. rewrite H4, find_put. destruct (Z.eqb_spec lp k); auto. subst. rewrite Ep. auto.
    + apply Forall_put; auto. simpl. split; [apply (m_wf _ _ _ W1)|auto].
    + apply keys_put. auto.
Qed.
Lemma update_config_good A T e sender ast ctl grd f s s' : inv A T s -> T <= now e ->
  update_config sender ast ctl grd f s = Some s' -> inv A (now e) s' /\ gap A s' <= gap A s.
Proof.
  intros I L H. unfold update_config in H. unguard H G. unbind H as m E. injection H as <-.
  assert (Q : Forall (fun x => wf A (snd x) /\ last (pl (snd x)) <= T) m /\ NoDup (keys m) /\
    sumf (P A) m = sumf (P A) (lps s) /\
    forall k, option_map (fun p => total_lp (pl p)) (find k m) = option_map (fun p => total_lp (pl p)) (find k (lps s))).
  { destruct ast as [a|].
    - eapply relabel_gap; eauto; [apply (i_lps _ _ _ I)|apply (i_nd _ _ _ I)].
    - injection E as <-. split; [apply (i_lps _ _ _ I)|]. split; [apply (i_nd _ _ _ I)|]. auto. }
  destruct Q as (Q1 & Q2 & Q3 & Q4). split.
  - constructor; simpl; auto; try apply I. eapply Forall_impl; [|exact Q1]. simpl. intros x [H1 H2].
    split; auto. lia.
  - unfold gap, lia_, staked. simpl. rewrite Q3. specialize (Q4 A).
    destruct (find A m); destruct (find A (lps s)); simpl in Q4; try discriminate; [injection Q4 as ->|]; lia.
Qed.

(** ** External rewards *)
Definition fsum (A : Z) (f : list (Z * Z)) : Z := paidA A f.
Lemma take_coin_sum A d v f f' : take_coin d v f = Some f' ->
  fsum A f' = fsum A f - (if A =? d then v else 0).
Proof.
  revert f'. induction f as [|[x n] r IH]; intros f' H; simpl in H; [discriminate|].
  unfold fsum, paidA, fl in *. rewrite (Z.eqb_sym A d) in *. destruct (Z.eqb_spec x d).
  - unbind H as m E. apply sub128_Some in E. destruct E as (-> & _). injection H as <-. subst. simpl.
    destruct (Z.eqb_spec d A); simpl; lia.
  - unbind H as r' E. injection H as <-. specialize (IH _ eq_refl). simpl. destruct (x =? A); simpl; lia.
Qed.
Lemma fsum_cons A x n r : fsum A ((x, n) :: r) = (if x =? A then n else 0) + fsum A r.
Proof. unfold fsum, paidA, fl. simpl. destruct (x =? A); simpl; lia. Qed.
Lemma receive_sum A f : forall b, get (receive_coins f b) A = get b A + fsum A f.
Proof.
  unfold receive_coins. induction f as [|[x n] r IH]; intros b; simpl.
  - unfold fsum, paidA. simpl. lia.
  - rewrite IH, fsum_cons. destruct (Z.eqb_spec x A).
    + subst. rewrite get_set_same. lia.
    + rewrite get_set_other by auto. lia.
Qed.

Lemma from_input_Some t amt n ne en r : from_input t amt n = Some (ne, en, r) -> 0 <= n ->
  1 <= n <= MAX_PERIODS /\ ne = EPOCHS_START + (t mod EPOCHS_START / EPOCH_LENGTH + 1) * EPOCH_LENGTH /\
  en = ne + n * EPOCH_LENGTH /\ t < en /\ r = amt * DEC / (en - t) /\ DEC <= r /\ r * (en - t) <= amt * DEC.
Proof.
  unfold from_input. intros H N. unguard H G. unbind H as ne' E. apply add64_Some in E. destruct E as (Ene & _).
  unbind H as en' E. apply add64_Some in E. destruct E as (Een & _).
  unbind H as dur E. apply sub64_Some in E. destruct E as (Ed & B).
  unbind H as r' E. apply dratio256_Some in E. destruct E as (B0 & Er & B1). unguard H G2.
  injection H as <- <- <-. apply Z.leb_le in G2. bools. subst dur.
  split; [lia|]. split; auto. split; auto. split; [lia|]. split; [congruence|]. split; [exact G2|].
  subst r'. rewrite Z.mul_comm. apply div_mul_le. lia.
Qed.

Lemma incentivize_good A T e lp a amt n s f s' f' o : inv A T s -> 0 <= T -> T <= now e -> env_ok e -> 0 <= n ->
  incentivize e lp a amt n s f = Some (s', f', o) ->
  inv A (now e) s' /\ gap A s' + fsum A f' * DEC <= gap A s + fsum A f * DEC /\ (forall t w, ~ In (Lost A t w) o).
Proof.
  intros I T0 L Eo N H. unfold incentivize in H. unbind H as [[ne en] r] E.
  destruct (from_input_Some _ _ _ _ _ _ E N) as (F1 & F2 & F3 & F4 & F5 & F6 & F7).
  unguard H G. fold (cur lp s) in H. unbind H as [q rem] E1. unbind H as [rs sch] E2.
  unbind H as [[f1 s1] o1] E3. unbind H as [f2 s2] E4. unbind H as s3 E5. injection H as <- <- <-.
  destruct (update_cur A T lp s e q rem I T0 L E1) as (W & Wq & Pq & Lq & Tq & Lr & Ll & _).
  assert (S1 : inv A T s1 /\ lps s1 = lps s /\ gap A s1 + fsum A f1 * DEC = gap A s + fsum A f * DEC /\ forall t w, ~ In (Lost A t w) o1).
  { destruct (fee s) as [[d v]|]; [|injection E3 as <- <- <-; repeat (split; auto)].
    destruct ((Z.of_nat (length (rewards q)) <? Z.of_nat (length rs)) && negb (a =? astro s));
      [|injection E3 as <- <- <-; repeat (split; auto)].
    unbind E3 as f0 E6. unguard E3 G3. injection E3 as <- <- <-. split; [apply inv_bal; auto|].
    split; auto. split.
    - rewrite gap_bal, (take_coin_sum A _ _ _ _ E6). destruct (Z.eqb_spec A d); subst; lia.
    - intros t w [Hc|[]]. discriminate. }
  destruct S1 as (I1 & El1 & G1 & O1).
  assert (S2 : inv A T s2 /\ lps s2 = lps s /\ gap A s2 + fsum A f2 * DEC = gap A s1 + fsum A f1 * DEC - (if A =? a then amt * DEC else 0)).
  { destruct (0 <=? a).
    - unbind E4 as f0 E6. injection E4 as <- <-. split; auto. split; auto.
      rewrite (take_coin_sum A _ _ _ _ E6). destruct (A =? a); lia.
    - unguard E4 G4. injection E4 as <- <-. split; [apply inv_bal; auto|]. split; auto.
      rewrite gap_bal. destruct (Z.eqb_spec A a); subst; lia. }
  destruct S2 as (I2 & El2 & G2).
  assert (Ec : cur lp s2 = cur lp s) by (unfold cur; rewrite El2; auto).
  destruct (incentivize_P A (astro s) a ne en r (with_pl (cur lp s) q) rem rs sch Wq E2) as (W1 & P1).
  { pose proof DEC_pos. lia. }
  { simpl. lia. }
  { unfold EPOCH_LENGTH in *. lia. }
  simpl in W1, P1.
  edestruct (fun Hl => commit_gap A e lp _ rem s2 s3 T I2 L Eo W1 Hl E5) as (J1 & J2 & J3).
  { simpl. lia. }
  split; auto. split; auto. rewrite Ec in J3. cbn [pl total_lp] in J3. rewrite Tq, Lq in *.
  destruct (A =? a); destruct (A =? lp); lia.
Qed.

Definition periods_ok (l : list (Z * (Z * Z * Z))) : Prop := Forall (fun x => 0 <= snd (snd x)) l.
Lemma incentivize_each_good A e l : env_ok e -> periods_ok l -> forall T s f s' f' o, inv A T s -> 0 <= T -> T <= now e ->
  incentivize_each e l s f = Some (s', f', o) ->
  inv A (now e) s' /\ gap A s' + fsum A f' * DEC <= gap A s + fsum A f * DEC /\ (forall t w, ~ In (Lost A t w) o).
Proof.
  intros Eo. induction l as [|[lp [[a amt] n]] r IH]; intros Po T s f s' f' o I T0 L H; simpl in H.
  - injection H as <- <- <-. split; [eapply inv_later; eauto|]. split; [lia|auto].
  - inversion Po as [|? ? P1 P2]; subst. simpl in P1.
    unbind H as [[s1 f1] o1] E. unbind H as [[s2 f2] o2] E2. injection H as <- <- <-.
    destruct (incentivize_good A T e lp a amt n s f s1 f1 o1 I T0 L Eo P1 E) as (J1 & J2 & J3).
    destruct (IH P2 (now e) s1 f1 s2 f2 o2 J1 ltac:(lia) ltac:(lia) E2) as (K1 & K2 & K3).
    split; auto. split; [lia|]. intros t w Hi. apply in_app_iff in Hi. destruct Hi as [Hi|Hi]; [apply (J3 t w Hi)|apply (K3 t w Hi)].
Qed.
Lemma incentivize_many_good A T e l f s s' o : inv A T s -> 0 <= T -> T <= now e -> env_ok e -> periods_ok l ->
  incentivize_many e l f s = Some (s', o) -> good A e s s' o.
Proof.
  intros I T0 L Eo Po H. unfold incentivize_many in H. unguard H G. unbind H as [[s1 f1] o1] E.
  unguard H G2. injection H as <- <-.
  destruct (incentivize_each_good A e l Eo Po T _ _ _ _ _ (inv_bal _ _ _ _ I) T0 L E) as (J1 & J2 & J3).
  split; auto.
  assert (E1 : fsum A f1 = 0).
  { clear - G2. unfold fsum, paidA, fl. induction f1 as [|[x n] r IH]; simpl in *; auto.
    apply andb_true_iff in G2. destruct G2 as [G1 G2]. apply Z.eqb_eq in G1.
    destruct (x =? A); simpl; rewrite ?IH; auto. lia. }
  assert (E2 : gap A (set_bal s (receive_coins f (bal s))) = gap A s - fsum A f * DEC).
  { unfold gap, lia_, staked. simpl. rewrite receive_sum. lia. }
  split; [lia|]. intros _ _. auto.
Qed.

(** The reward being removed has no orphaned part. *)
Definition no_orphans (e : env) (lp a : Z) (s : state) : Prop :=
  forall q rem, update_rewards (now e) (cur lp s) = Some (q, rem) -> orphA a (rewards q) = 0.

Lemma remove_good A T e sender lp a b to s s' o : inv A T s -> 0 <= T -> T <= now e -> env_ok e ->
  (A = a -> b = false /\ no_orphans e lp a s) ->
  remove_reward e sender lp a b to s = Some (s', o) -> good A e s s' o.
Proof.
  intros I T0 L Eo Hc H. unfold remove_reward in H. unguard H G. unbind H as p Ep.
  assert (Ec : cur lp s = p) by (unfold cur; rewrite Ep; auto).
  unbind H as [q rem] E. unbind H as [[[q' x] sch] v] E2. unbind H as s1 E3. injection H as H.
  rewrite <- Ec in E.
  destruct (update_cur A T lp s e q rem I T0 L E) as (W & Wq & Pq & Lq & Tq & Lr & Ll & Gn).
  rewrite Ec in *.
  destruct (deregister_P A a b (with_pl p q) rem q' x sch v Wq E2) as (W1 & V0 & L1 & T1 & P1).
  { intros Hi. apply Gn in Hi. unfold deregister in E2. simpl in E2. rewrite Hi in E2. discriminate. }
  { intros Ea. apply (Hc Ea). }
  simpl in W1, L1, T1, P1.
  edestruct (fun Hl => commit_gap A e lp _ _ s s1 T I L Eo W1 Hl E3) as (J1 & J2 & J3).
  { simpl. lia. }
  rewrite Ec in J3. cbn [pl] in J3. rewrite T1, Tq in J3.
  assert (Gp : gap A s1 + paidA A [(a, v)] * DEC <= gap A s).
  { unfold paidA, fl. simpl. rewrite (Z.eqb_sym a A). destruct (Z.eqb_spec A a).
    - subst. destruct (Hc eq_refl) as [_ Hn]. unfold no_orphans in Hn.
      rewrite (Hn _ _ E) in P1. simpl. destruct (a =? lp); lia.
    - simpl. destruct (A =? lp); lia. }
  edestruct (fun H1 H2 => pay_all_gap A e to (now e) [(a, v)] s1 s' o _ J1 H1 Gp H2) as (K1 & K2 & K3).
  { constructor; auto. }
  { cbn [pay_all]. unfold pay. rewrite H. rewrite app_nil_r. auto. }
  split; auto.
Qed.

Lemma oget_notin A (l : list (Z * Z)) : ~ In A (map fst l) -> oget l A = 0.
Proof.
  unfold oget. induction l as [|[k v] r IH]; simpl; auto. intros H. destruct (Z.eqb_spec k A); [tauto|]. auto.
Qed.
Lemma srt_notin k (v : Z) l : srt ((k, v) :: l) -> ~ In k (map fst l).
Proof.
  intros [F _] Hi. apply in_map_iff in Hi. destruct Hi as (y & E & Hy). rewrite Forall_forall in F.
  specialize (F _ Hy). simpl in F. lia.
Qed.
Lemma page_spec A n : forall l : list (Z * Z), srt l ->
  let page := firstn n l in let rest := filter (fun x => snd x =? 0) page ++ skipn n l in
  srt rest /\ (forall x, In x rest -> In x l) /\ paidA A page + oget rest A = oget l A.
Proof.
  induction n as [|n IH]; intros l S.
  - simpl. unfold paidA. simpl. repeat split; auto.
  - destruct l as [|[k v] r]; [simpl; repeat split; auto|].
    pose proof (srt_notin _ _ _ S) as Nk. destruct S as [F S]. specialize (IH r S). simpl in *.
    destruct IH as (I1 & I2 & I3).
    assert (Ep : paidA A ((k, v) :: firstn n r) = (if k =? A then v else 0) + paidA A (firstn n r)).
    { unfold paidA, fl. simpl. destruct (k =? A); simpl; lia. }
    rewrite Ep.
    assert (Fr : Forall (fun p : Z * Z => k < fst p) (filter (fun x => snd x =? 0) (firstn n r) ++ skipn n r)).
    { apply Forall_forall. intros x Hx. rewrite Forall_forall in F. auto. }
    assert (Z0 : k = A -> paidA A (firstn n r) + oget (filter (fun x => snd x =? 0) (firstn n r) ++ skipn n r) A = 0).
    { intros ->. rewrite I3. apply oget_notin. auto. }
    assert (Z1 : k = A -> oget (filter (fun x => snd x =? 0) (firstn n r) ++ skipn n r) A = 0).
    { intros ->. apply oget_notin. intros Hi. apply in_map_iff in Hi. destruct Hi as (y & E & Hy).
      rewrite Forall_forall in Fr. specialize (Fr _ Hy). simpl in Fr. lia. }
    destruct (Z.eqb_spec v 0); simpl.
    + split; [auto|]. split; [intros x [<-|Hx]; auto|].
      unfold oget at 1 2. simpl. destruct (Z.eqb_spec k A); [specialize (Z0 e0); specialize (Z1 e0); lia|].
      fold (oget (filter (fun x => snd x =? 0) (firstn n r) ++ skipn n r) A). fold (oget r A). lia.
    + split; auto. split; [intros x Hx; auto|].
      unfold oget at 2. simpl. destruct (Z.eqb_spec k A); [specialize (Z0 e); specialize (Z1 e); lia|].
      fold (oget r A). lia.
Qed.
Lemma oget_in l A : srt l -> forall v, In (A, v) l -> oget l A = v.
Proof.
  induction l as [|[k w] r IH]; intros S v H; [contradiction|]. pose proof (srt_notin _ _ _ S) as Nk.
  destruct S as [F S]. unfold oget. simpl. destruct H as [H|H].
  - injection H as -> ->. rewrite Z.eqb_refl. auto.
  - destruct (Z.eqb_spec k A); [|apply IH; auto]. subst. exfalso. apply Nk. apply in_map_iff. exists (A, v). auto.
Qed.

Lemma claim_orphaned_good A T e sender lim to s s' o : inv A T s -> T <= now e ->
  claim_orphaned e sender lim to s = Some (s', o) -> good A e s s' o.
Proof.
  intros I L H. unfold claim_orphaned in H. unguard H G.
  set (n := Z.to_nat _) in H. unguard H G2. injection H as H.
  set (page := firstn n (orphs s)) in *. set (rest := filter (fun x => snd x =? 0) page ++ skipn n (orphs s)) in *.
  destruct (page_spec A n (orphs s) (i_os _ _ _ I)) as (S1 & S2 & S3). fold page rest in S1, S2, S3.
  assert (Nl : forall x, In x (orphs s) -> 0 <= snd x).
  { intros [k v] Hx. rewrite <- (oget_in _ _ (i_os _ _ _ I) _ Hx). apply (i_on _ _ _ I). }
  assert (J1 : inv A (now e) (set_lps s (lps s) rest)).
  { constructor; simpl.
    - eapply Forall_impl; [|exact (i_lps _ _ _ I)]. simpl. intros x [H1 H2]. split; auto. lia.
    - apply (i_nd _ _ _ I).
    - auto.
    - intros a. unfold oget. destruct (find a rest) as [v|] eqn:E; [|lia]. apply find_in in E.
      apply S2 in E. apply (Nl _ E). }
  assert (Fp : Forall (fun x => 0 <= snd x) page).
  { apply Forall_forall. intros x Hx. apply Nl. unfold page in Hx.
    rewrite <- (firstn_skipn n (orphs s)). apply in_app_iff. auto. }
  assert (Gp : gap A (set_lps s (lps s) rest) + paidA A page * DEC <= gap A s).
  { unfold gap, lia_, staked. simpl. lia. }
  exact (pay_all_gap A e to (now e) page _ _ _ _ J1 Fp Gp H).
Qed.

(** ** All messages *)

(** Amounts are unsigned integers in the message types. *)
Definition msg_ok (m : msg) : Prop :=
  match m with
  | Deposit _ amt _ | Withdraw _ amt | Donate _ amt => 0 <= amt
  | Incentivize l _ => periods_ok l
  | _ => True
  end.
(** Removal of reward [A]: upcoming schedules are not bypassed and nothing is orphaned. *)
Definition clean (A : Z) (e : env) (m : msg) (s : state) : Prop :=
  match m with
  | RemoveReward lp a b _ => A = a -> b = false /\ no_orphans e lp a s
  | _ => True
  end.

Theorem step_good A T e sender m s s' o : inv A T s -> 0 <= T -> T <= now e -> env_ok e ->
  msg_ok m -> clean A e m s -> step e sender m s = Some (s', o) -> good A e s s' o.
Proof.
  intros I T0 L Eo Mo Cl H. destruct m; simpl in H, Mo, Cl.
  - silent H. apply good_silent. eapply setup_good; eauto.
  - eapply claim_good; eauto.
  - eapply deposit_good; eauto.
  - eapply withdraw_good; eauto.
  - silent H. apply good_silent. eapply set_tokens_good; eauto.
  - eapply incentivize_many_good; eauto.
  - eapply remove_good; eauto.
  - eapply claim_orphaned_good; eauto.
  - silent H. apply good_silent. eapply update_config_good; eauto.
  - silent H. apply good_silent. eapply update_blocked_good; eauto.
  - silent H. apply good_silent. eapply deactivate_pool_good; eauto.
  - silent H. apply good_silent. eapply deactivate_blocked_good; eauto.
  - injection H as <- <-. apply good_silent. split; [apply inv_bal; eapply inv_later; eauto|].
    rewrite gap_bal. pose proof DEC_pos. destruct (Z.eqb_spec A a); subst; nia.
Qed.
