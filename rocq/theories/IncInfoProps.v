(** C151: what the incentives contract says about the rewards of a pool. *)
From Coq Require Import ZArith Lia Bool List.
From Verif Require Import Num Amap Ledger IncentivesModel IncentivesSpec IncentivesSched IncentivesPool
  IncentivesPay IncentivesOps IncentivesInv IncentivesStep IncentivesProofs IncentivesLock IncentivesProps IncInfoModel.
Import ListNotations.
Open Scope Z_scope.

(** The pools a staker's message is about. *)
Definition about (m : msg) : option (list Z) :=
  match m with
  | Deposit lp _ _ | Withdraw lp _ => Some [lp]
  | ClaimRewards l => Some l
  | _ => None
  end.
(** The reward rows the pool query shows. *)
Definition rows (lp : Z) (s : state) : option (list rinfo) := option_map rewards (pool_info lp s).

Lemma update_last t p q rem : update_rewards t p = Some (q, rem) -> t <= last q.
Proof.
  unfold update_rewards. intros H. destruct (Z.leb_spec t (last (pl p))); [injection H as <- <-; lia|].
  unbind H as [rs r] E. injection H as <- <-. simpl. lia.
Qed.
Lemma info_stored e lp s p : find lp (lps s) = Some p -> now e <= last (pl p) ->
  rows lp s = Some (rewards (pl p)) /\ reward_info e lp s = Some (rewards (pl p)).
Proof.
  intros F L. unfold rows, pool_info, reward_info. rewrite F. unfold update_rewards.
  rewrite (proj2 (Z.leb_le _ _) L). auto.
Qed.
Lemma info_same lp s s' e : find lp (lps s') = find lp (lps s) ->
  pool_info lp s' = pool_info lp s /\ reward_info e lp s' = reward_info e lp s.
Proof. intros F. unfold pool_info, reward_info. rewrite F. auto. Qed.

Lemma claim_each_info e who l : forall s s' x v, claim_each e who l s = Some (s', x, v) -> NoDup l -> forall lp,
  (~ In lp l -> find lp (lps s') = find lp (lps s)) /\
  (In lp l -> exists p, find lp (lps s') = Some p /\ now e <= last (pl p) /\
     reward_info e lp s = Some (rewards (pl p)) /\
     option_map total_lp (pool_info lp s) = Some (total_lp (pl p))).
Proof.
  induction l as [|k r IH]; intros s s' x v H N lp; simpl in *.
  - injection H as <- <- <-. split; [auto|intros []].
  - unbind H as p Ep. unbind H as u Eu. unbind H as [q rem] E. unbind H as [x1 v1] E2. unbind H as s1 E3.
    unbind H as [[s2 x2] v2] E4. unbind H as pr E5. injection H as <- <- <-. inversion N as [|? ? N1 N2]; subst.
    destruct (save_lps _ _ _ _ _ _ E3) as (f & El & _). cbn [pl users scheds] in El.
    destruct (IH _ _ _ _ E4 N2 lp) as (I1 & I2). split.
    + intros Hn. rewrite I1 by tauto. rewrite El, find_put_other by tauto. reflexivity.
    + intros [<-|Hin].
      * exists (mkLp q (put who (sync (amount u) q) (users p)) (scheds p) f).
        rewrite (I1 N1), El, find_put_same. split; [reflexivity|]. cbn [pl]. split; [eapply update_last; eauto|].
        unfold reward_info, pool_info. rewrite Ep, E. split; [reflexivity|]. cbn.
        unfold update_rewards in E. destruct (now e <=? last (pl p)); [injection E as <- <-; auto|].
        unbind E as [rs rm] E6. injection E as <- <-. reflexivity.
      * destruct (I2 Hin) as (p' & K1 & K2 & K3 & K4). exists p'.
        assert (k <> lp) by congruence.
        unfold reward_info, pool_info in *. rewrite El, find_put_other in K3, K4 by auto. auto.
Qed.

Lemma step_info e sd m s s' o l : step e sd m s = Some (s', o) -> about m = Some l -> forall lp,
  (~ In lp l -> find lp (lps s') = find lp (lps s)) /\
  (In lp l -> exists p, find lp (lps s') = Some p /\ now e <= last (pl p) /\
     (find lp (lps s) <> None -> reward_info e lp s = Some (rewards (pl p))) /\
     (find lp (lps s) = None -> rewards (pl p) = [])).
Proof.
  intros H B lp. destruct m; try discriminate B; cbn in B; injection B as <-; cbn [step] in H.
  - unfold claim in H. unguard H G. unbind H as [[s1 ext] prot] E. unbind H as o2 E2.
    pose proof (pay_all_lps e sd ext s1) as PL. destruct (pay_all e sd s1 ext) as [s2 o1]. injection H as <- <-. simpl in PL.
    destruct (claim_each_info _ _ _ _ _ _ _ E (nodup_NoDup' _ G) lp) as (I1 & I2). rewrite PL. split; auto.
    intros Hin. destruct (I2 Hin) as (p & K1 & K2 & K3 & K4). exists p. repeat split; auto.
    intros Hn. unfold pool_info in K4. rewrite Hn in K4. discriminate K4.
  - unfold deposit in H. unguard H G. cbn [lps set_bal] in H. unbind H as [q rem] E. unbind H as [ext prot] E2.
    unbind H as a Ea. unbind H as t Et. unbind H as s1 E3. unbind H as o2 E4.
    match type of H with context [pay_all e ?w s1 ext] => pose proof (pay_all_lps e w ext s1) as PL;
      destruct (pay_all e w s1 ext) as [s2 o1] end. injection H as <- <-. simpl in PL.
    destruct (save_lps _ _ _ _ _ _ E3) as (f & El & _). cbn [pl users scheds lps set_bal] in El. rewrite PL, El. split.
    + intros Hn. rewrite find_put_other; [reflexivity|]. intros ->. apply Hn. left. reflexivity.
    + intros [<-|[]]. rewrite find_put_same. eexists. split; [reflexivity|]. cbn [pl last rewards].
      split; [eapply update_last; eauto|]. unfold reward_info. destruct (find lp0 (lps s)) as [p|].
      * rewrite E. split; [auto|discriminate].
      * split; [congruence|]. intros _. unfold update_rewards in E. cbn in E.
        destruct (now e <=? 0); injection E as <- <-; reflexivity.
  - unfold withdraw in H. unbind H as p Ep. unbind H as u Eu. unguard H G. unbind H as [q rem] E.
    unbind H as [ext prot] E2. unbind H as a Ea. unbind H as t Et. cbv zeta in H. unbind H as s1 E3. unbind H as o2 E4.
    pose proof (pay_all_lps e sd ext s1) as PL. destruct (pay_all e sd s1 ext) as [s2 o1]. unguard H G2.
    injection H as <- <-. simpl in PL. cbn [lps set_bal].
    destruct (save_lps _ _ _ _ _ _ E3) as (f & El & _). cbn [pl users scheds] in El. rewrite PL, El. split.
    + intros Hn. rewrite find_put_other; [reflexivity|]. intros ->. apply Hn. left. reflexivity.
    + intros [<-|[]]. rewrite find_put_same. eexists. split; [reflexivity|]. cbn [pl last rewards].
      split; [eapply update_last; eauto|]. unfold reward_info. rewrite Ep, E. split; [auto|discriminate].
Qed.

(** A deposit, withdrawal or claim stores for its pools exactly what the reward query announced just before, and the
    query repeats it for the rest of the block. *)
Theorem c151_touched e sd m s s' o l lp : step e sd m s = Some (s', o) -> about m = Some l -> In lp l ->
  pool_info lp s <> None -> exists rs, reward_info e lp s = Some rs /\ rows lp s' = Some rs /\
  forall e', now e' = now e -> reward_info e' lp s' = Some rs.
Proof.
  intros H B Hin Hp. destruct (step_info _ _ _ _ _ _ _ H B lp) as (_ & K). destruct (K Hin) as (p & K1 & K2 & K3 & _).
  exists (rewards (pl p)). split; [|split].
  - apply K3. intros Hn. apply Hp. unfold pool_info. rewrite Hn. reflexivity.
  - apply (info_stored e); auto.
  - intros e' Ee. apply info_stored; [auto|lia].
Qed.
(** A first deposit opens the pool without rewards. *)
Theorem c151_opened e sd m s s' o l lp : step e sd m s = Some (s', o) -> about m = Some l -> In lp l ->
  pool_info lp s = None -> rows lp s' = Some [] /\ reward_info e lp s' = Some [].
Proof.
  intros H B Hin Hp. destruct (step_info _ _ _ _ _ _ _ H B lp) as (_ & K). destruct (K Hin) as (p & K1 & K2 & _ & K4).
  destruct (info_stored e lp s' p K1 K2) as (R1 & R2). rewrite R1, R2, K4; auto.
  unfold pool_info in Hp. destruct (find lp (lps s)); [discriminate Hp|reflexivity].
Qed.
(** What stakers do in other pools shows in neither answer, at no later time. *)
Theorem c151_idle e sd m s s' o l lp : step e sd m s = Some (s', o) -> about m = Some l -> ~ In lp l ->
  pool_info lp s' = pool_info lp s /\ forall e', reward_info e' lp s' = reward_info e' lp s.
Proof.
  intros H B Hn. destruct (step_info _ _ _ _ _ _ _ H B lp) as (K & _).
  split; [apply (info_same lp s s' e); auto|]. intros e'. apply (info_same lp s s' e'); auto.
Qed.

(** Whatever happened before, the reward query lists each external reward once and only while it runs, at most one
    protocol reward, and no negative figure. *)
Theorem c151_running own fac ast grd f h e lp rs : timed 0 h -> time_after 0 h <= now e ->
  reward_info e lp (run (init own fac ast grd f) h) = Some rs ->
  (forall x, In x rs -> 0 <= rps x /\ 0 <= idx x /\ 0 <= orph x) /\
  (forall x a t, In x rs -> rw x = RExt a t -> now e < t) /\
  (forall x y a t t', In x rs -> In y rs -> rw x = RExt a t -> rw y = RExt a t' -> x = y) /\
  (forall x y a b, In x rs -> In y rs -> rw x = RInt a -> rw y = RInt b -> x = y).
Proof.
  intros Ht L H. destruct (run_struct h 0 (init own fac ast grd f)) as (A & I); [intros A; apply inv_init|lia|auto|].
  unfold reward_info in H. unbind H as p Ep. unbind H as [q rem] E. injection H as <-.
  pose proof (i_lps _ _ _ I) as FA. rewrite Forall_forall in FA.
  destruct (FA _ (find_in _ _ _ Ep)) as (W & Lp). cbn in W, Lp.
  destruct (update_P A _ _ _ _ W E) as (Wm & _ & Lq & _). destruct Wm as [Wq _ _].
  assert (Eq : last q = now e) by lia. destruct Wq as [_ _ _ w_ext w_int w_rw _ _ _ _]. cbn [pl with_pl] in *.
  rewrite Forall_forall in w_rw. split; [|split; [|split]].
  - intros x Hx. destruct (w_rw x Hx) as (? & ? & ? & _). auto.
  - intros x a t Hx R. destruct (w_rw x Hx) as (_ & _ & _ & K). rewrite R in K. cbn in K. specialize (K eq_refl). lia.
  - clear - w_ext. unfold exts in w_ext. induction (rewards q) as [|z r IH]; [intros x y a t t' []|].
    intros x y a t t' Hx Hy Rx Ry.
    assert (T : forall w n, In w r -> rw w = RExt a n ->
       In a (map (fun x => asset_of (rw x)) (filter (fun x => is_ext (rw x)) r))).
    { intros w n Hw Rw. apply in_map_iff. exists w. rewrite Rw. split; [reflexivity|]. apply filter_In. rewrite Rw. auto. }
    cbn [filter] in w_ext. destruct Hx as [->|Hx], Hy as [->|Hy]; auto.
    + rewrite Rx in w_ext. cbn in w_ext. rewrite Rx in w_ext. inversion w_ext; subst. exfalso. eauto.
    + rewrite Ry in w_ext. cbn in w_ext. rewrite Ry in w_ext. inversion w_ext; subst. exfalso. eauto.
    + apply (IH ltac:(destruct (is_ext (rw z)); [inversion w_ext; auto|auto]) x y a t t' Hx Hy Rx Ry).
  - clear - w_int. induction (rewards q) as [|z r IH]; [intros x y a b []|].
    intros x y a b Hx Hy Rx Ry.
    assert (T : forall w n, In w r -> rw w = RInt n -> In w (filter (fun x => negb (is_ext (rw x))) r)).
    { intros w n Hw Rw. apply filter_In. rewrite Rw. auto. }
    assert (T0 : forall w n, In w r -> rw w = RInt n -> (1 <= length (filter (fun x => negb (is_ext (rw x))) r))%nat).
    { intros w n Hw Rw. specialize (T w n Hw Rw). destruct (filter _ r); [destruct T|cbn; lia]. }
    cbn [filter] in w_int. destruct Hx as [->|Hx], Hy as [->|Hy]; auto.
    + rewrite Rx in w_int. cbn in w_int. specialize (T0 _ _ Hy Ry). lia.
    + rewrite Ry in w_int. cbn in w_int. specialize (T0 _ _ Hx Rx). lia.
    + apply (IH ltac:(destruct (is_ext (rw z)); cbn in w_int; lia) x y a b Hx Hy Rx Ry).
Qed.

(** The pool query alone promises less: it goes on listing a reward that has ended until somebody touches the pool. *)
Definition hi : list (env * Z * msg) :=
  [(at_ t0, 9, Incentivize [(100, (5, 2000000, 1))] [(5, 2000000)]);
   (at_ t0, 7, Deposit 100 1000 None);
   (at_ (t0 + 1000), 8, Deposit 200 3000 None)].
Definition si : state := Eval vm_compute in run s_init hi.
Example si_run : run s_init hi = si.
Proof. vm_compute. reflexivity. Qed.
Example hi_timed : timed 0 hi.
Proof. cbn. unfold unsigned. repeat split; try apply at_order; try (vm_compute; congruence); constructor; try constructor; vm_compute; congruence. Qed.
Theorem c151_stale_refuted : exists h e lp rs x a t, timed 0 h /\ time_after 0 h <= now e /\
  rows lp (run s_init h) = Some rs /\ In x rs /\ rw x = RExt a t /\ t <= now e /\
  reward_info e lp (run s_init h) = Some [].
Proof.
  exists hi, (at_ (t0 + 2000000)), 100. rewrite si_run.
  eexists _, _, 5, _. split; [|split; [|split; [vm_compute; reflexivity|split; [left; reflexivity|]]]].
  - exact hi_timed.
  - vm_compute. congruence.
  - split; [vm_compute; reflexivity|]. split; [vm_compute; congruence|vm_compute; reflexivity].
Qed.

(** The claim of staker 7 a thousand seconds later stores what the query announced. *)
Example c151_example : exists s' o rs x, step (at_ (t0 + 2000)) 7 (ClaimRewards [100]) si = Some (s', o) /\
  pool_info 100 si <> None /\ reward_info (at_ (t0 + 2000)) 100 si = Some rs /\ rs = [x] /\ 0 < idx x /\
  rows 100 si <> Some rs /\ rows 100 s' = Some rs /\ pool_info 200 s' = pool_info 200 si.
Proof.
  eexists _, _, _, _. split; [vm_compute; reflexivity|]. split; [vm_compute; congruence|].
  split; [vm_compute; reflexivity|]. split; [reflexivity|]. split; [reflexivity|]. split; [vm_compute; congruence|].
  split; vm_compute; reflexivity.
Qed.

Print Assumptions c151_touched.
Print Assumptions c151_opened.
Print Assumptions c151_idle.
Print Assumptions c151_running.
Print Assumptions c151_stale_refuted.
