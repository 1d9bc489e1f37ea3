(** Incentives: adding and removing rewards. *)
From Coq Require Import ZArith Lia Bool List Permutation.
From Verif Require Import Num Amap Ledger IncentivesModel IncentivesSched IncentivesPool IncentivesPay.
Import ListNotations.
Open Scope Z_scope.

Definition ints (rs : list rinfo) : nat := length (filter (fun x => negb (is_ext (rw x))) rs).

(** ** Editing the reward list *)
Lemma upd_ext_find a f rs b : (forall x n, rw x = RExt a n -> exists m, rw (f x) = RExt a m) ->
  find_ext b (upd_ext a f rs) = if b =? a then option_map f (find_ext a rs) else find_ext b rs.
Proof.
  intros K. induction rs as [|r t IH]; simpl.
  - destruct (b =? a); auto.
  - destruct (rw r) as [c|c n] eqn:E; simpl.
    + rewrite E. auto.
    + destruct (Z.eqb_spec c a).
      * subst. simpl. destruct (K _ _ E) as (m & ->). rewrite (Z.eqb_sym b a). destruct (Z.eqb_spec a b); auto.
      * simpl. rewrite E. rewrite IH. destruct (Z.eqb_spec b a); destruct (Z.eqb_spec c b); auto; congruence.
Qed.
Lemma upd_ext_exts a f rs : (forall x n, rw x = RExt a n -> exists m, rw (f x) = RExt a m) ->
  exts (upd_ext a f rs) = exts rs.
Proof.
  intros K. induction rs as [|r t IH]; simpl; auto. destruct (rw r) as [c|c n] eqn:E.
  - unfold exts in *. simpl. rewrite E. simpl. auto.
  - destruct (Z.eqb_spec c a).
    + subst. destruct (K _ _ E) as (m & Em). unfold exts. simpl. rewrite E, Em. simpl. rewrite E, Em. auto.
    + unfold exts in *. simpl. rewrite E. simpl. rewrite IH. auto.
Qed.
Lemma upd_ext_ints a f rs : (forall x n, rw x = RExt a n -> exists m, rw (f x) = RExt a m) ->
  ints (upd_ext a f rs) = ints rs.
Proof.
  unfold ints. intros K. induction rs as [|r t IH]; simpl; auto. destruct (rw r) as [c|c n] eqn:E.
  - simpl. rewrite E. simpl. rewrite IH. auto.
  - destruct (Z.eqb_spec c a).
    + subst. destruct (K _ _ E) as (m & Em). simpl. rewrite Em. auto.
    + simpl. rewrite E. auto.
Qed.
Lemma upd_ext_ok t a f rs : Forall (okR t) rs ->
  (forall x, find_ext a rs = Some x -> okR t (f x)) -> Forall (okR t) (upd_ext a f rs).
Proof.
  intros F K. induction rs as [|r s IH]; simpl; auto. inversion F; subst. simpl in K.
  destruct (rw r) as [c|c n] eqn:E; [constructor; auto|].
  destruct (Z.eqb_spec c a); constructor; auto.
Qed.

Lemma del_ext_find a rs b : NoDup (exts rs) ->
  find_ext b (del_ext a rs) = if b =? a then None else find_ext b rs.
Proof.
  induction rs as [|r t IH]; simpl; intros N.
  - destruct (b =? a); auto.
  - unfold exts in N. simpl in N. destruct (rw r) as [c|c n] eqn:E; simpl in N.
    + simpl. rewrite E. auto.
    + rewrite E in N. simpl in N. inversion N; subst. destruct (Z.eqb_spec c a).
      * subst. rewrite (Z.eqb_sym b a). destruct (Z.eqb_spec a b); auto. subst. apply find_ext_exts. auto.
      * simpl. rewrite E. rewrite IH by auto.
        destruct (Z.eqb_spec b a); destruct (Z.eqb_spec c b); auto; congruence.
Qed.
Lemma del_ext_in a rs x : In x (del_ext a rs) -> In x rs.
Proof.
  induction rs as [|r t IH]; simpl; auto. destruct (rw r) as [c|c n]; simpl; [tauto|].
  destruct (c =? a); simpl; tauto.
Qed.
Lemma del_ext_exts a rs : NoDup (exts rs) -> NoDup (exts (del_ext a rs)).
Proof.
  assert (S : forall b, In b (exts (del_ext a rs)) -> In b (exts rs)).
  { intros b Hb. unfold exts in *. apply in_map_iff in Hb. destruct Hb as (x & <- & Hx).
    apply filter_In in Hx. destruct Hx as [Hx Hb]. apply in_map_iff. exists x. split; auto.
    apply filter_In. split; auto. eapply del_ext_in; eauto. }
  clear S. induction rs as [|r t IH]; simpl; auto. intros N. unfold exts in *. simpl in N.
  destruct (rw r) as [c|c n] eqn:E; simpl in N.
  - simpl. rewrite E. simpl. auto.
  - inversion N; subst. destruct (c =? a); auto. simpl. rewrite E. simpl. constructor; auto.
    rewrite E in *. simpl in *. intros Hx. apply H1. apply in_map_iff in Hx. destruct Hx as (x & Ex & Hx).
    apply filter_In in Hx. destruct Hx as [Hx Hb]. apply in_map_iff. exists x. split; auto.
    apply filter_In. split; auto. eapply del_ext_in; eauto.
Qed.
Lemma del_ext_ints a rs : ints (del_ext a rs) = ints rs.
Proof.
  unfold ints. induction rs as [|r t IH]; simpl; auto. destruct (rw r) as [c|c n] eqn:E.
  - simpl. rewrite E. simpl. rewrite IH. auto.
  - destruct (c =? a); simpl; auto. rewrite E. auto.
Qed.

Lemma sched_put a l m b : sched_of b (put a l m) = if a =? b then l else sched_of b m.
Proof. unfold sched_of. rewrite find_put. destruct (a =? b); auto. Qed.

(** ** Changes that do not touch the external rewards *)
Record keeps (rs rs' : list rinfo) : Prop := {
  k_find : forall a, find_ext a rs' = find_ext a rs;
  k_exts : exts rs' = exts rs;
  k_ok : forall t, Forall (okR t) rs -> Forall (okR t) rs';
  k_int : (ints rs <= 1)%nat -> (ints rs' <= 1)%nat
}.

Lemma keeps_wfm A p rem rs' t : wfm A p rem -> keeps (rewards (pl p)) rs' ->
  t = sumf amount (users p) ->
  wfm A (mkLp (mkPool t rs' (last (pl p))) (users p) (scheds p) (fins p)) rem /\
  Pm A (mkLp (mkPool t rs' (last (pl p))) (users p) (scheds p) (fins p)) rem = Pm A p rem.
Proof.
  intros W K ->. destruct K. split.
  - destruct W as [W N NN]. destruct W. constructor; simpl; auto.
    constructor; simpl; auto.
    + rewrite k_exts0. auto.
    + intros x Hx Lx. rewrite k_find0. auto.
  - assert (E : forall u, owedM A (mkPool (sumf amount (users p)) rs' (last (pl p))) rem (fins p) u =
                owedM A (pl p) rem (fins p) u).
    { intros u. unfold owedM, vis, actA. cbn [last rewards]. rewrite k_find0. auto. }
    assert (S : sumf (owedM A (mkPool (sumf amount (users p)) rs' (last (pl p))) rem (fins p)) (users p) =
                sumf (owedM A (pl p) rem (fins p)) (users p)).
    { clear - E. set (m := users p) at 2 3. clearbody m. induction m as [|[k v] r IH]; simpl; auto.
      rewrite E, IH. auto. }
    unfold Pm, orphA, remaining. cbn [pl users fins scheds rewards last]. rewrite k_find0. lia.
Qed.

Lemma upd_int_keeps f rs : (forall x, is_ext (rw x) = false -> is_ext (rw (f x)) = false /\
    forall t, okR t x -> okR t (f x)) -> keeps rs (upd_int f rs).
Proof.
  intros K. induction rs as [|r s IH].
  - constructor; auto.
  - cbn [upd_int]. change ((fix go (l : list rinfo) : list rinfo := match l with | [] => [] | r0 :: t0 => if is_ext (rw r0) then r0 :: go t0 else f r0 :: t0 end) s) with (upd_int f s).
    destruct (is_ext (rw r)) eqn:E.
    + destruct IH. destruct (rw r) as [a|a n] eqn:Er; [discriminate|]. constructor.
      * intros b. simpl. rewrite Er. rewrite k_find0. auto.
      * unfold exts in *. simpl. rewrite Er. simpl. rewrite k_exts0. auto.
      * intros t F. inversion F; subst. constructor; auto.
      * unfold ints in *. simpl. rewrite Er. simpl. auto.
    + destruct (K r E) as [K1 K2]. constructor.
      * intros b. simpl. destruct (rw r); [|discriminate]. destruct (rw (f r)); [auto|discriminate].
      * unfold exts. simpl. rewrite E, K1. auto.
      * intros t F. inversion F; subst. constructor; auto.
      * unfold ints. simpl. rewrite E, K1. auto.
Qed.

Lemma ints_exists rs : existsb (fun x => negb (is_ext (rw x))) rs = false -> ints rs = O.
Proof.
  unfold ints. induction rs as [|r t IH]; simpl; auto. destruct (is_ext (rw r)); simpl; [auto|discriminate].
Qed.

Lemma set_astro_keeps ast rate total al p q : set_astro ast rate total al p = Some q ->
  total_lp q = total_lp p /\ last q = last p /\ keeps (rewards p) (rewards q).
Proof.
  unfold set_astro. intros H. unbind H as n E. unbind H as r E2. injection H as <-. simpl.
  split; auto. split; auto. apply dratio256_Some in E2. destruct E2 as (_ & -> & B).
  destruct (existsb (fun x => negb (is_ext (rw x))) (rewards p)) eqn:Ex.
  - apply upd_int_keeps. intros x Hx. split; auto. intros t (O1 & O2 & O3 & O4). unfold okR. simpl. 
    split; [lia|auto].
  - apply ints_exists in Ex. constructor.
    + intros a. rewrite find_ext_app. simpl. destruct (find_ext a (rewards p)); auto.
    + rewrite exts_app. unfold exts at 2. simpl. apply app_nil_r.
    + intros t F. apply Forall_app. split; auto. constructor; [|constructor]. unfold okR. simpl.
      repeat split; try lia.
    + intros _. unfold ints in *. rewrite filter_app, app_length. simpl. lia.
Qed.
Lemma disable_keeps p q : disable_astro p = Some q ->
  total_lp q = total_lp p /\ last q = last p /\ keeps (rewards p) (rewards q).
Proof.
  unfold disable_astro. intros [= <-]. simpl. split; auto. split; auto.
  apply upd_int_keeps. intros x Hx. split; auto. intros t (O1 & O2 & O3 & O4). unfold okR. simpl.
  split; [lia|auto].
Qed.

(** ** A new external reward *)
Lemma NoDup_app_snoc (l : list Z) a : NoDup l -> ~ In a l -> NoDup (l ++ [a]).
Proof.
  induction 1 as [|x r H N IH]; simpl; intros Ha.
  - constructor; auto. constructor.
  - constructor; [|apply IH; tauto]. rewrite in_app_iff. simpl. intuition.
Qed.

(** Same claims, more to be emitted. *)
Lemma Pm_change A p rem rs sch a : 
  (forall u fs, In u (users p) -> clm fs (uix A (snd u)) (actA A rs) = clm fs (uix A (snd u)) (actA A (rewards (pl p)))) ->
  orphA A rs = orphA A (rewards (pl p)) ->
  Pm A (mkLp (mkPool (total_lp (pl p)) rs (last (pl p))) (users p) (put a sch (scheds p)) (fins p)) rem =
  Pm A p rem - remaining A (pl p) (scheds p)
  + remaining A (mkPool (total_lp (pl p)) rs (last (pl p))) (put a sch (scheds p)).
Proof.
  intros C O. unfold Pm. cbn [pl users fins scheds rewards last]. rewrite O.
  assert (S : sumf (owedM A (mkPool (total_lp (pl p)) rs (last (pl p))) rem (fins p)) (users p) =
              sumf (owedM A (pl p) rem (fins p)) (users p)); [|lia].
  assert (E : forall u, In u (users p) -> owedM A (mkPool (total_lp (pl p)) rs (last (pl p))) rem (fins p) (snd u) =
                owedM A (pl p) rem (fins p) (snd u)).
  { intros u Hu. unfold owedM, vis. cbn [last rewards]. rewrite C by auto. auto. }
  revert E. generalize (users p). intros m; induction m as [|[k v] r IH]; simpl; intros E; auto.
  pose proof (E (k, v) (or_introl eq_refl)) as E0. simpl in E0. rewrite E0. rewrite IH; auto.
Qed.

Lemma incentivize_P A ast a ne en r p rem rs sch : wfm A p rem ->
  incentivize_pool ast a ne en r (rewards (pl p)) (sched_of a (scheds p)) = Some (rs, sch) ->
  0 <= r -> last (pl p) < en -> ne < en ->
  let p' := mkLp (mkPool (total_lp (pl p)) rs (last (pl p))) (users p) (put a sch (scheds p)) (fins p) in
  wfm A p' rem /\
  Pm A p' rem <= Pm A p rem + (if A =? a then r * (en - last (pl p)) else 0).
Proof.
  intros W H R L1 L2 p'. pose proof (m_wf _ _ _ W) as Wp.
  assert (Ui : forall u, In u (users p) -> 0 <= uix A (snd u)).
  { intros u Hu. pose proof (w_users _ _ Wp) as Q. rewrite Forall_forall in Q.
    eapply uix_nn. apply Q. auto. }
  destruct (w_sch _ _ Wp a) as [S1 S2].
  unfold incentivize_pool in H. destruct (find_ext a (rewards (pl p))) as [x|] eqn:Ex.
  - unbind H as r' E. apply add256_Some in E. destruct E as (-> & B).
    destruct (find_ext_in _ _ _ Ex) as (Hin & nx & Rx). rewrite Rx in H. cbn [next_of] in H.
    pose proof (find_ext_ok _ _ _ _ Ex (w_rw _ _ Wp)) as (O1 & O2 & O3 & O4).
    rewrite Rx in O4. specialize (O4 eq_refl). cbn [next_of] in O4.
    assert (Lv : A = a -> forall y, In y (sched_of a (scheds p)) -> last (pl p) < fst y -> nx <= fst y).
    { intros -> y Hy Ly. destruct (w_live _ _ Wp y Hy Ly) as (x2 & E2 & L). rewrite Ex in E2.
      injection E2 as <-. rewrite Rx in L. auto. }
    assert (G : exists f, rs = upd_ext a f (rewards (pl p)) /\
       (forall y n, rw y = RExt a n -> exists m, rw (f y) = RExt a m) /\ okR (last (pl p)) (f x) /\
       idx (f x) = idx x /\ orph (f x) = orph x /\ ok_sch sch /\
       (A = a -> (forall y, In y sch -> last (pl p) < fst y -> next_of (rw (f x)) <= fst y) /\
                 left_of (last (pl p)) (f x) sch <= left_of (last (pl p)) x (sched_of a (scheds p)) + r * (en - last (pl p)))).
    { destruct (Z.leb_spec en nx) as [Le|Le].
      - injection H as <- <-. eexists. split; [reflexivity|]. split; [intros y n Hy; eexists; cbn [rw]; first [reflexivity|exact Hy]|]. split.
        { unfold okR. simpl. repeat split; auto; lia. }
        split; [reflexivity|]. split; [reflexivity|]. split.
        { destruct (en <? nx); [|split; auto]. split; [apply srt_ins; auto|].
          apply Forall_forall. intros y Hy. apply ins_in in Hy. rewrite Forall_forall in S2.
          destruct Hy as [->|Hy]; auto. }
        intros Ea. specialize (Lv Ea). unfold left_of. rewrite Rx. cbn [rw rps next_of].
        destruct (Z.ltb_spec en nx).
        + split.
          { intros y Hy Ly. apply ins_in in Hy. destruct Hy as [->|Hy]; [simpl; lia|].
            specialize (Lv y Hy Ly). lia. }
          rewrite after_ins_gt by lia. rewrite ins_front.
          * rewrite after_after by lia. simpl. lia.
          * apply Forall_forall. intros y Hy. apply in_after in Hy. apply Lv; [tauto|lia].
          * apply srt_after. auto.
        + assert (en = nx) by lia. subst en. split; [auto|]. lia.
      - unbind H as sv E. injection H as <- <-. eexists. split; [reflexivity|]. split; [intros y n Hy; eexists; cbn [rw]; first [exact Hy|reflexivity]|]. split.
        { unfold okR. cbn [rw rps idx orph]. rewrite Rx. simpl. repeat split; auto; lia. }
        split; [reflexivity|]. split; [reflexivity|].
        assert (Nsv : Forall (fun y => 0 <= snd y) sv).
        { eapply overlap_nonneg; eauto. apply Forall_forall. intros y Hy. apply in_after in Hy.
          rewrite Forall_forall in S2. apply S2. tauto. }
        split.
        { split; [apply srt_ins_all; auto|]. apply Forall_forall. intros y Hy.
          apply in_ins_all in Hy. rewrite Forall_forall in *. destruct Hy; auto. }
        intros Ea. specialize (Lv Ea). split.
        { cbn [rw]. rewrite Rx. cbn [next_of]. intros y Hy Ly. apply in_ins_all in Hy. destruct Hy as [Hy|Hy]; [|auto].
          destruct (overlap_keys _ _ _ _ E y Hy) as [[K|K] _]; [lia|].
          apply in_map_iff in K. destruct K as (z & Ez & Hz). apply in_after in Hz. rewrite <- Ez.
          apply Lv; [tauto|lia]. }
        unfold left_of. cbn [rw rps]. rewrite Rx. cbn [next_of].
        pose proof (tail_overlap nx ne en r _ _ S1 R Le L2 E). lia. }
    destruct G as (f & -> & K & Of & If & Orf & Os & Ql).
    assert (Ff : forall b, find_ext b (upd_ext a f (rewards (pl p))) =
      if b =? a then Some (f x) else find_ext b (rewards (pl p))).
    { intros b. rewrite upd_ext_find by auto. rewrite Ex. auto. }
    split.
    + constructor; [|apply (m_nd _ _ _ W)|apply (m_nn _ _ _ W)]. destruct Wp. constructor; simpl; auto.
      * rewrite upd_ext_exts; auto.
      * fold (ints (upd_ext a f (rewards (pl p)))). rewrite upd_ext_ints; auto.
      * apply upd_ext_ok; auto. intros y Hy. rewrite Ex in Hy. injection Hy as <-. auto.
      * intros b. rewrite sched_put. destruct (a =? b); auto.
      * unfold live. rewrite sched_put, Ff. rewrite (Z.eqb_sym a A). destruct (Z.eqb_spec A a).
        -- intros y Hy Ly. exists (f x). split; auto. apply Ql; auto.
        -- intros y Hy Ly. auto.
    + unfold p'. rewrite Pm_change.
      * unfold remaining. cbn [rewards last]. rewrite Ff, sched_put, (Z.eqb_sym a A).
        destruct (Z.eqb_spec A a).
        -- subst. rewrite Ex. destruct (Ql eq_refl) as [_ Q]. lia.
        -- lia.
      * intros u fs Hu. unfold actA. rewrite Ff. destruct (Z.eqb_spec A a); auto. subst. rewrite Ex.
        simpl. rewrite If. auto.
      * unfold orphA. rewrite Ff. destruct (Z.eqb_spec A a); auto. subst. rewrite Ex. auto.
  - unguard H Hg. injection H as <- <-.
    assert (Ff : forall b, find_ext b (rewards (pl p) ++ [mkR (RExt a en) r 0 0]) =
      if b =? a then Some (mkR (RExt a en) r 0 0) else find_ext b (rewards (pl p))).
    { intros b. rewrite find_ext_app. simpl. rewrite (Z.eqb_sym b a). destruct (Z.eqb_spec a b).
      - subst. rewrite Ex. auto.
      - destruct (find_ext b (rewards (pl p))); auto. }
    assert (Sl : A = a -> Forall (fun y => fst y <= last (pl p)) (sched_of a (scheds p))).
    { intros ->. apply Forall_forall. intros y Hy. destruct (Z.le_gt_cases (fst y) (last (pl p))); auto.
      destruct (w_live _ _ Wp y Hy ltac:(lia)) as (x & E & _). congruence. }
    split.
    + constructor; [|apply (m_nd _ _ _ W)|apply (m_nn _ _ _ W)]. destruct Wp. constructor; simpl; auto.
      * rewrite exts_app. unfold exts at 2. simpl. apply NoDup_app_snoc; auto. apply find_ext_exts. auto.
      * rewrite filter_app, app_length. simpl. lia.
      * apply Forall_app. split; auto. constructor; [|constructor]. unfold okR. simpl. repeat split; auto; lia.
      * intros b. rewrite sched_put. destruct (a =? b) eqn:E; auto.
      * unfold live. rewrite sched_put, Ff. rewrite (Z.eqb_sym a A). destruct (Z.eqb_spec A a).
        -- intros y Hy Ly. specialize (Sl e). rewrite Forall_forall in Sl. specialize (Sl y Hy). lia.
        -- intros y Hy Ly. auto.
    + unfold p'. rewrite Pm_change.
      * unfold remaining. cbn [rewards last]. rewrite Ff, sched_put, (Z.eqb_sym a A).
        destruct (Z.eqb_spec A a).
        -- subst. rewrite Ex. unfold left_of. cbn [rw rps next_of]. rewrite after_none; [simpl; lia|].
           eapply Forall_impl; [|apply (Sl eq_refl)]. simpl. intros. lia.
        -- lia.
      * intros u fs Hu. unfold actA. rewrite Ff. destruct (Z.eqb_spec A a); auto. subst. rewrite Ex.
        simpl. apply clm_zero. auto.
      * unfold orphA. rewrite Ff. destruct (Z.eqb_spec A a); auto. subst. rewrite Ex. auto.
Qed.

(** ** Removing a reward: without the upcoming schedules bypassed, what is sent is the reward not
    yet emitted, plus the orphaned part. *)
Lemma deregister_P A a bypass p rem q x sch v : wfm A p rem ->
  deregister a bypass (pl p) (sched_of a (scheds p)) = Some (q, x, sch, v) ->
  ~ In a (map fst rem) -> (A = a -> bypass = false) ->
  let p' := mkLp q (users p) (put a sch (scheds p)) (fins p) in
  wfm A p' (x :: rem) /\ 0 <= v /\ last q = last (pl p) /\ total_lp q = total_lp (pl p) /\
  Pm A p' (x :: rem) + (if A =? a then v * DEC else 0)
    <= Pm A p rem + (if A =? a then orphA a (rewards (pl p)) else 0).
Proof.
  intros W H Nr By p'. pose proof (m_wf _ _ _ W) as Wp. destruct (w_sch _ _ Wp a) as [S1 S2].
  unfold deregister in H. unbind H as y Ex. destruct (find_ext_in _ _ _ Ex) as (Hin & nx & Rx).
  rewrite Rx in H. cbn [next_of] in H.
  pose proof (find_ext_ok _ _ _ _ Ex (w_rw _ _ Wp)) as (O1 & O2 & O3 & O4).
  rewrite Rx in O4. specialize (O4 eq_refl). cbn [next_of] in O4.
  unbind H as r0 E. apply per_Some in E. subst r0. unbind H as [r1 sch2] E. unbind H as r2 E2.
  apply add256_Some in E2. destruct E2 as (-> & B). unbind H as v' E2. apply u128_Some in E2.
  destruct E2 as (-> & Bv). injection H as <- <- <- <-.
  assert (Ff : forall b, find_ext b (del_ext a (rewards (pl p))) =
      if b =? a then None else find_ext b (rewards (pl p)))
    by (intros b; apply del_ext_find; apply (w_ext _ _ Wp)).
  assert (Sub : forall z, In z sch2 -> In z (sched_of a (scheds p))).
  { destruct bypass; [injection E as _ <-|unbind E as r3 E3; injection E as _ <-]; intros z Hz;
      apply filter_In in Hz; destruct Hz as [Hz _]; auto. apply filter_In in Hz. tauto. }
  assert (Os : ok_sch sch2).
  { split.
    - destruct bypass; [injection E as _ <-|unbind E as r3 E3; injection E as _ <-]; repeat apply srt_filter; auto.
    - apply Forall_forall. intros z Hz. rewrite Forall_forall in S2. auto. }
  assert (Gd : A = a -> r1 = left_of (last (pl p)) y (sched_of a (scheds p)) /\
              Forall (fun z => fst z <= last (pl p)) sch2).
  { intros Ea. rewrite (By Ea) in E. unbind E as r3 E3. injection E as <- <-.
    apply tail_sum_Some in E3. split.
    - subst r3. unfold left_of. rewrite Rx. cbn [next_of]. unfold ssub. rewrite Z.max_r by lia.
      f_equal. f_equal. unfold after. clear. induction (sched_of a (scheds p)) as [|z t IH]; simpl; auto.
      destruct (Z.eqb_spec (fst z) nx); simpl.
      + replace (nx <? fst z) with false by (symmetry; apply Z.ltb_ge; lia). auto.
      + rewrite IH. auto.
    - apply Forall_forall. intros z Hz. apply filter_In in Hz. destruct Hz as [Hz B1].
      apply filter_In in Hz. destruct Hz as [Hz B2]. apply Z.leb_le in B1.
      destruct (Z.le_gt_cases (fst z) (last (pl p))); auto. subst A.
      destruct (w_live _ _ Wp z Hz ltac:(lia)) as (x2 & E2 & L). rewrite Ex in E2. injection E2 as <-.
      rewrite Rx in L. simpl in L. destruct (Z.eqb_spec (fst z) nx); [discriminate|lia]. }
  split; [|split; [lia|split; [reflexivity|split; [reflexivity|]]]].
  - constructor; simpl.
    + destruct Wp. constructor; simpl; auto.
      * apply del_ext_exts. auto.
      * fold (ints (del_ext a (rewards (pl p)))). rewrite del_ext_ints. auto.
      * apply Forall_forall. intros z Hz. rewrite Forall_forall in w_rw. apply w_rw.
        eapply del_ext_in; eauto.
      * intros b. rewrite sched_put. destruct (a =? b); auto.
      * unfold live. rewrite sched_put, Ff. rewrite (Z.eqb_sym a A). destruct (Z.eqb_spec A a).
        -- intros z Hz Lz. destruct (Gd e) as [_ Q]. rewrite Forall_forall in Q. specialize (Q z Hz). lia.
        -- intros z Hz Lz. auto.
    + constructor; auto. apply (m_nd _ _ _ W).
    + constructor; auto. apply (m_nn _ _ _ W).
  - assert (M : sumf (owedM A (mkPool (total_lp (pl p)) (del_ext a (rewards (pl p))) (last (pl p)))
                 ((a, (idx y, orph y)) :: rem) (fins p)) (users p) <= sumf (owedM A (pl p) rem (fins p)) (users p)).
    { apply sumf_le. apply Forall_forall. intros u Hu. pose proof (w_users _ _ Wp) as Q.
      rewrite Forall_forall in Q. pose proof (Q _ Hu) as Ou. pose proof (uix_nn _ A _ Ou) as Ui.
      destruct Ou as (U1 & U2 & U3). unfold owedM. apply Z.mul_le_mono_nonneg_l; auto.
      unfold actA, vis. cbn [rewards last]. rewrite Ff.
      assert (NN : nn (fl A (unseen (snd u) (fins p) []))).
      { apply fl_nn. apply unseen_nn; [eapply wf_fins_nn; eauto|constructor]. }
      destruct (claimed (snd u) <? last (pl p)).
      - rewrite (unseen_app _ _ (_ :: rem)), (unseen_app _ _ rem), !fl_app, !fl_rem. simpl.
        rewrite (Z.eqb_sym a A). destruct (Z.eqb_spec A a); [|lia]. subst. rewrite Ex. simpl.
        assert (filter (fun z => fst z =? a) rem = []) as ->.
        { destruct (filter (fun z => fst z =? a) rem) as [|z t] eqn:Ef; auto. exfalso. apply Nr.
          assert (Hz : In z (z :: t)) by (left; auto). rewrite <- Ef in Hz. apply filter_In in Hz.
          destruct Hz as [Hz Hb]. apply Z.eqb_eq in Hb. rewrite <- Hb. apply in_map. auto. }
        simpl. rewrite app_nil_r. apply clm_fin; auto.
      - destruct (Z.eqb_spec A a); [|lia]. subst. rewrite Ex. simpl. apply clm_none; auto. }
    unfold Pm, p'. cbn [pl users fins scheds]. unfold orphA, remaining, rem_orph. cbn [rewards last filter fst].
    rewrite Ff, sched_put, (Z.eqb_sym a A). destruct (Z.eqb_spec A a).
    + subst. rewrite Ex. destruct (Gd eq_refl) as [Er _]. rewrite Er. cbn [map zsum fold_right snd].
      fold (zsum (map (fun x => snd (snd x)) (filter (fun x => fst x =? a) rem))).
      pose proof (div_mul_le (left_of (last (pl p)) y (sched_of a (scheds p)) + orph y) DEC DEC_pos). lia.
    + lia.
Qed.
