(** Incentives: funding of external rewards. *)
From Coq Require Import ZArith Lia Bool List Permutation.
From Verif Require Import Num Amap Ledger IncentivesModel IncentivesSpec IncentivesSched IncentivesPool
  IncentivesPay IncentivesOps IncentivesInv IncentivesStep IncentivesProofs IncentivesExact IncentivesMove.
Import ListNotations.
Open Scope Z_scope.

(** ** Ends of schedules are week boundaries *)
Definition ends_ok (rs : list rinfo) (sc : amap (list (Z * Z))) : Prop :=
  Forall (fun x => is_ext (rw x) = true -> boundary (next_of (rw x))) rs /\
  forall a, Forall (fun y => boundary (fst y)) (sched_of a sc).

Lemma scan_in t l : forall next coll c nx ts r, scan t next coll l = Some (c, nx, Some (ts, r)) -> In (ts, r) l.
Proof.
  induction l as [|[k v] l IH]; intros next coll c nx ts r H; simpl in H; [discriminate|].
  destruct (t <? k); [injection H as <- <- <- <-; left; auto|].
  unbind H as d E. unbind H as c1 E2. unbind H as c2 E3. right. eapply IH; eauto.
Qed.
Lemma accrue_rw t x c x' : accrue t x c = Some x' -> rw x' = rw x /\ rps x' = rps x.
Proof.
  unfold accrue. intros H. unbind H as a E. destruct (t =? 0); [injection H as <-; auto|].
  unbind H as b E2. unbind H as d E3. unbind H as i E4. injection H as <-. auto.
Qed.
Lemma upd_one_rw t lst n sch x x' gone : upd_one t lst n sch x = Some (x', gone) ->
  (rw x' = rw x /\ (gone = false -> rps x' = rps x)) \/
  exists a nx ts r, rw x = RExt a nx /\ In (ts, r) sch /\ rw x' = RExt a ts.
Proof.
  unfold upd_one. intros H.
  assert (St : (do c <- per (rps x) (t - lst); do y <- accrue n x c; Some (y, false)) = Some (x', gone) ->
               rw x' = rw x /\ (gone = false -> rps x' = rps x)).
  { intros K. unbind K as c E. unbind K as y E2. injection K as <- <-. apply accrue_rw in E2. tauto. }
  destruct (rw x) as [a|a nx] eqn:Er; auto. destruct (nx <=? t); auto.
  unbind H as d E. unbind H as c0 E2. unbind H as [[c1 n1] act] E3. destruct act as [[ts r]|].
  - unbind H as c2 E4. unbind H as c E5. unbind H as y E6. injection H as <- <-. apply accrue_rw in E6. simpl in E6.
    right. exists a, nx, ts, r. split; auto. split; [|tauto]. apply scan_in in E3. apply in_after in E3. tauto.
  - unbind H as y E6. injection H as <- <-. apply accrue_rw in E6. simpl in E6. left. split; [tauto|discriminate].
Qed.
Lemma upd_all_ends t l n sc rs : forall rs' rem, ends_ok rs sc -> upd_all t l n sc rs = Some (rs', rem) -> ends_ok rs' sc.
Proof.
  induction rs as [|x r IH]; intros rs' rem [H1 H2] H; simpl in H.
  - injection H as <- <-. split; auto.
  - inversion H1; subst. unbind H as [y g] E. unbind H as [k rm] E2. injection H as H.
    destruct (IH _ _ (conj H5 H2) eq_refl) as [I1 _].
    destruct g; injection H as <- <-; split; auto. constructor; auto. intros Hy.
    destruct (upd_one_rw _ _ _ _ _ _ _ E) as [[K1 K2]|(a & nx & ts & v & K1 & K2 & K3)].
    + rewrite K1 in *. auto.
    + rewrite K3. simpl. specialize (H2 a). rewrite K1 in K2. simpl in K2. rewrite Forall_forall in H2. apply (H2 _ K2).
Qed.
Lemma boundary_from t amt n ne en r : from_input t amt n = Some (ne, en, r) -> boundary ne /\ boundary en.
Proof.
  unfold from_input. intros H. unguard H G. unbind H as ne' E. apply add64_Some in E. destruct E as (Ene & _).
  unbind H as en' E. apply add64_Some in E. destruct E as (Een & _). unbind H as dur E. unbind H as r' E2. unguard H G2.
  injection H as <- <- <-. unfold boundary. change 1696809600 with EPOCHS_START. change 604800 with EPOCH_LENGTH.
  split.
  - replace (ne' - EPOCHS_START) with ((t mod EPOCHS_START / EPOCH_LENGTH + 1) * EPOCH_LENGTH) by lia.
    apply Z.mod_mul. discriminate.
  - replace (en' - EPOCHS_START) with ((t mod EPOCHS_START / EPOCH_LENGTH + 1 + n) * EPOCH_LENGTH) by lia.
    apply Z.mod_mul. discriminate.
Qed.
Lemma upd_int_forall (Q : rinfo -> Prop) f rs : Forall Q rs ->
  (forall x, is_ext (rw x) = false -> Q (f x)) -> Forall Q (upd_int f rs).
Proof.
  intros F K. induction rs as [|x r IH]; [constructor|]. inversion F; subst.
  cbn [upd_int]. destruct (is_ext (rw x)) eqn:E; constructor; auto.
Qed.
Lemma upd_ext_forall (Q : rinfo -> Prop) a f rs : Forall Q rs ->
  (forall x n, In x rs -> rw x = RExt a n -> Q (f x)) -> Forall Q (upd_ext a f rs).
Proof.
  intros F K. induction rs as [|x r IH]; simpl; [constructor|]. inversion F; subst.
  assert (IH' := IH H2 (fun y n Hy => K y n (or_intror Hy))).
  destruct (rw x) as [b|b n] eqn:E; [constructor; auto|]. destruct (Z.eqb_spec b a); constructor; auto.
  subst. eapply K; [left; auto|eauto].
Qed.
Lemma set_astro_rewards ast r tt al q q' (Q : rinfo -> Prop) : set_astro ast r tt al q = Some q' ->
  Forall Q (rewards q) -> (forall x, is_ext (rw x) = false -> Q x) -> Forall Q (rewards q').
Proof.
  unfold set_astro. intros H F K. unbind H as n E. unbind H as d E2. injection H as <-. simpl.
  destruct (existsb _ _).
  - apply upd_int_forall; auto.
  - apply Forall_app. split; auto.
Qed.
Lemma sched_forall (Q : Z * Z -> Prop) a sch sc : (forall b, Forall Q (sched_of b sc)) -> Forall Q sch ->
  forall b, Forall Q (sched_of b (put a sch sc)).
Proof. intros H K b. rewrite sched_put. destruct (a =? b); auto. Qed.

Lemma ends_inv m ast t : pool_inv m ast t ends_ok.
Proof.
  constructor.
  - split; [constructor|]. intros a. constructor.
  - intros. eapply upd_all_ends; eauto.
  - intros sc q q' sc' [H1 H2] C. destruct C as [sc q n|sc q q' a r tt al E|sc q q' E|sc q l f lp a amt n ne en r rs sch Em Hin Ef E|sc q q' lp a b to x sch v Em E].
    + split; auto.
    + split; auto. eapply set_astro_rewards; eauto. intros x Hx Hx'. congruence.
    + split; auto. unfold disable_astro in E. injection E as <-. simpl. apply upd_int_forall; auto.
      simpl. intros x Hx Hx'. congruence.
    + destruct (boundary_from _ _ _ _ _ _ Ef) as [B1 B2]. specialize (H2 a) as H2a.
      unfold incentivize_pool in E. destruct (find_ext a (rewards q)) as [x|] eqn:Ex.
      * destruct (find_ext_in _ _ _ Ex) as [Hx [nx Er]].
        assert (Bx : boundary nx).
        { rewrite Forall_forall in H1. specialize (H1 _ Hx). rewrite Er in H1. auto. }
        rewrite Er in E. cbn [next_of] in E. unbind E as r' E1. destruct (en <=? nx).
        -- injection E as <- <-. split; [apply upd_ext_forall; simpl; auto|].
           apply sched_forall; auto. destruct (en <? nx); auto. apply Forall_forall. intros y Hy. apply ins_in in Hy.
           destruct Hy as [->|Hy]; auto. rewrite Forall_forall in H2a. auto.
        -- unbind E as sv E2. injection E as <- <-. simpl. split.
           ++ apply upd_ext_forall; simpl; auto. intros y k Hy Ry _. rewrite Ry. simpl.
              rewrite Forall_forall in H1. specialize (H1 _ Hy). rewrite Ry in H1. auto.
           ++ apply sched_forall; auto. apply Forall_forall. intros y Hy. apply in_ins_all in Hy.
              rewrite Forall_forall in H2a. destruct Hy as [Hy|Hy]; auto.
              destruct (overlap_keys _ _ _ _ E2 y Hy) as [[K|K] _]; [congruence|].
              apply in_map_iff in K. destruct K as (z & <- & Hz). apply in_after in Hz. apply H2a. tauto.
      * unguard E G. injection E as <- <-. simpl. split; [|apply sched_forall; auto].
        apply Forall_app. split; auto.
    + unfold deregister in E. unbind E as y Ey. unbind E as r0 E0. unbind E as [r1 s2] E1. unbind E as r2 E2.
      unbind E as w E3. injection E as <- <- <- <-. simpl. split.
      * rewrite Forall_forall in *. intros z Hz. apply H1. eapply del_ext_in; eauto.
      * apply sched_forall; auto. specialize (H2 a). rewrite Forall_forall in *. intros z Hz.
        destruct b; [injection E1 as <- <-|unbind E1 as r3 E4; injection E1 as <- <-].
        -- apply filter_In in Hz. apply H2. tauto.
        -- apply filter_In in Hz. destruct Hz as [Hz _]. apply filter_In in Hz. apply H2. tauto.
  - intros a rs sc [H1 H2]. split; auto. apply upd_int_forall; simpl; auto. intros x Hx Hx'. discriminate.
Qed.
Lemma run_pools (Q : list rinfo -> amap (list (Z * Z)) -> Prop) h : (forall m ast t, pool_inv m ast t Q) ->
  forall s, pools Q s -> pools Q (run s h).
Proof.
  intros K. induction h as [|[[e sd] m] r IH]; intros s H; auto.
  change (run s ((e, sd, m) :: r)) with (run (exec s (e, sd, m)) r). apply IH. unfold exec.
  destruct (step e sd m s) as [[s' o]|] eqn:E; auto. eapply mv_pools; [eapply step_mv; eauto|apply K|auto].
Qed.
Lemma run_ends own fac ast grd f h : pools ends_ok (run (init own fac ast grd f) h).
Proof. apply run_pools; [apply ends_inv|]. constructor. Qed.

(** ** Emission and what is left *)
Lemma pieces_tail prev l : pieces prev l = tailZ prev l.
Proof. revert prev. induction l as [|[ts r] l IH]; intros prev; simpl; rewrite ?IH; auto. Qed.
Lemma left_over_of t x sch : left_over t (rps x) (next_of (rw x)) sch = left_of t x sch.
Proof. unfold left_over, left_of. fold (after (next_of (rw x)) sch). rewrite pieces_tail. auto. Qed.

Lemma upd_one_left t lst n sch x a nx x' gone : upd_one t lst n sch x = Some (x', gone) -> rw x = RExt a nx ->
  lst < t -> okR lst x -> ok_sch sch ->
  emitted lst t (rps x) nx sch + (if gone : bool then 0 else left_of t x' sch) = left_of lst x sch.
Proof.
  intros H R L (O1 & O2 & O3 & O4) [S N]. rewrite R in O4. specialize (O4 eq_refl). cbn [next_of] in O4.
  assert (SA : srt (after nx sch)) by (apply srt_after; auto).
  assert (FA : Forall (fun p => nx < fst p) (after nx sch))
    by (apply Forall_forall; intros p Hp; apply in_after in Hp; tauto).
  unfold emitted, left_of. fold (after nx sch). rewrite R. cbn [next_of].
  unfold upd_one in H. rewrite R in H. destruct (Z.leb_spec nx t).
  - unbind H as d E. apply sub64_Some in E. destruct E as (-> & _). unbind H as c0 E. apply per_Some in E. subst c0.
    unbind H as [[c1 n1] act] E. pose proof (scan_emitted _ _ _ _ _ _ _ E SA FA ltac:(auto)) as Q.
    destruct (scan_spec _ _ _ _ _ _ _ E SA FA ltac:(auto)) as [B Q2].
    rewrite Z.min_r by lia. destruct act as [[ts r]|].
    + unbind H as c2 E2. unbind H as c E3. unbind H as y E4. injection H as <- <-. apply accrue_rw in E4.
      simpl in E4. destruct E4 as [-> ->]. cbn [next_of]. destruct Q2 as (Q2 & Q3 & Q4 & _).
      apply in_after in Q3. simpl in Q3. rewrite after_after in Q4 by lia. lia.
    + unbind H as y E4. injection H as <- <-. lia.
  - unbind H as c E. unbind H as y E2. injection H as <- <-. apply accrue_rw in E2. destruct E2 as [-> ->].
    rewrite R. cbn [next_of]. rewrite Z.min_l by lia. rewrite pieces_future; [lia|lia|].
    eapply Forall_impl; [|exact FA]. simpl. intros. lia.
Qed.
Lemma update_future A p t q rem : wf A p -> last (pl p) <= t -> update_rewards t p = Some (q, rem) ->
  match find_ext A (rewards (pl p)) with
  | None => 0
  | Some x => let sch := sched_of A (scheds p) in
     left_over (last (pl p)) (rps x) (next_of (rw x)) sch - emitted (last (pl p)) t (rps x) (next_of (rw x)) sch
  end = remaining A q (scheds p).
Proof.
  intros W L U. unfold update_rewards in U. unfold remaining. destruct (Z.leb_spec t (last (pl p))).
  - injection U as <- <-. destruct (find_ext A (rewards (pl p))) as [x|] eqn:Ex; auto. cbv zeta.
    rewrite left_over_of. assert (t = last (pl p)) as -> by lia.
    destruct (find_ext_in _ _ _ Ex) as [Hx [nx Er]]. pose proof (w_rw _ _ W) as F. rewrite Forall_forall in F.
    destruct (F _ Hx) as (_ & _ & _ & O). rewrite Er in O. specialize (O eq_refl). rewrite Er. cbn [next_of] in *.
    unfold emitted. rewrite Z.min_l by lia. rewrite pieces_future; [lia|lia|].
    apply Forall_forall. intros y Hy. apply filter_In in Hy. destruct Hy as [_ Hy]. apply Z.ltb_lt in Hy. lia.
  - unbind U as [rs rm] E. injection U as <- <-. cbn [rewards last].
    destruct (upd_all_spec _ _ _ _ _ _ _ E ltac:(lia)) as (I1 & I2 & I3 & I4 & I5 & I6 & I7 & I8 & I9);
      [eapply wf_total_nn; eauto|apply (w_ext _ _ W)|apply (w_rw _ _ W)|apply (w_sch _ _ W)|].
    specialize (I9 A). destruct (find_ext A (rewards (pl p))) as [x|] eqn:Ex; [|destruct I9 as [-> _]; auto].
    destruct I9 as (x' & gone & U1 & U2). destruct (find_ext_in _ _ _ Ex) as [Hx [nx Er]].
    cbv zeta. rewrite left_over_of, Er. cbn [next_of]. 
    pose proof (upd_one_left _ _ _ _ _ _ _ _ _ U1 Er ltac:(lia)) as K.
    rewrite <- K; [|pose proof (w_rw _ _ W) as F; rewrite Forall_forall in F; auto|apply (w_sch _ _ W)].
    destruct gone; destruct U2 as [-> _]; lia.
Qed.

Lemma tail_overlap_eq nx ne en r sch sv :
  srt sch -> nx < en -> ne <= nx -> overlap en r (after ne sch) = Some sv ->
  tailZ nx (after nx (ins_all sv sch)) = tailZ nx (after nx sch) + r * (en - nx).
Proof.
  intros S L1 L2 H. rewrite after_ins_all.
  pose proof (overlap_after nx _ _ _ _ H L1 (srt_after _ _ S)) as H2.
  rewrite after_after in H2 by lia. 
  assert (SL : srt (after nx sch)) by (apply srt_after; auto).
  rewrite (overlap_mrg _ _ _ _ H2 SL). rewrite tailZ_mrg; auto; [|lia].
  apply Forall_forall. intros p Hp. apply in_after in Hp. tauto.
Qed.

(** Schedules of one Incentivize. *)
Lemma epochs t amt n ne en r : from_input t amt n = Some (ne, en, r) -> 0 <= n -> EPOCHS_START <= t ->
  t < 2 * EPOCHS_START /\ t < ne <= t + EPOCH_LENGTH.
Proof.
  intros H N L. destruct (from_input_Some _ _ _ _ _ _ H N) as (F1 & F2 & F3 & F4 & _).
  pose proof (Z.mod_pos_bound t EPOCHS_START eq_refl) as B. pose proof (Z.div_mod t EPOCHS_START ltac:(discriminate)) as D.
  set (m := t mod EPOCHS_START) in *.
  pose proof (Z.mod_pos_bound m EPOCH_LENGTH eq_refl) as B2. pose proof (Z.div_mod m EPOCH_LENGTH ltac:(discriminate)) as D2.
  set (k := t / EPOCHS_START) in *.
  assert (K : k = 1).
  { assert (1 <= k) by (apply Z.div_le_lower_bound; [reflexivity|lia]).
    destruct (Z.le_gt_cases k 1); [lia|]. exfalso.
    assert (2 * EPOCHS_START <= EPOCHS_START * k) by nia. unfold EPOCH_LENGTH, EPOCHS_START, MAX_PERIODS in *. lia. }
  rewrite K in *. split; [lia|]. lia.
Qed.
Lemma boundary_le a b t : boundary a -> boundary b -> t < a -> b <= t + EPOCH_LENGTH -> b <= a.
Proof.
  unfold boundary. intros A B L1 L2. apply Z.mod_divide in A; [|lia]. apply Z.mod_divide in B; [|lia].
  destruct A as [x A]. destruct B as [y B]. unfold EPOCH_LENGTH in *.
  assert (y < x + 1) by (apply (Z.mul_lt_mono_pos_r 604800); lia). nia.
Qed.
Lemma incentivize_left A ast ne en r p rem rs sch amt n : wfm A p rem -> ends_ok (rewards (pl p)) (scheds p) ->
  incentivize_pool ast A ne en r (rewards (pl p)) (sched_of A (scheds p)) = Some (rs, sch) ->
  from_input (last (pl p)) amt n = Some (ne, en, r) -> 0 <= n -> EPOCHS_START <= last (pl p) ->
  remaining A (mkPool (total_lp (pl p)) rs (last (pl p))) (put A sch (scheds p)) =
  remaining A (pl p) (scheds p) + r * (en - last (pl p)).
Proof.
  intros W [B1 B2] H Fi N Lt. pose proof (m_wf _ _ _ W) as Wp. destruct (w_sch _ _ Wp A) as [S1 S2].
  destruct (from_input_Some _ _ _ _ _ _ Fi N) as (F1 & F2 & F3 & F4 & F5 & F6 & F7).
  destruct (epochs _ _ _ _ _ _ Fi N Lt) as [E1 E2]. destruct (boundary_from _ _ _ _ _ _ Fi) as [Bn Be].
  unfold remaining. cbn [rewards last]. rewrite sched_put, Z.eqb_refl.
  unfold incentivize_pool in H. destruct (find_ext A (rewards (pl p))) as [x|] eqn:Ex.
  - destruct (find_ext_in _ _ _ Ex) as [Hx [nx Rx]].
    pose proof (find_ext_ok _ _ _ _ Ex (w_rw _ _ Wp)) as (O1 & O2 & O3 & O4).
    rewrite Rx in O4. specialize (O4 eq_refl). cbn [next_of] in O4. rewrite Rx in H. cbn [next_of] in H.
    assert (Bx : boundary nx) by (rewrite Forall_forall in B1; specialize (B1 _ Hx); rewrite Rx in B1; auto).
    assert (Ln : ne <= nx) by (eapply boundary_le; eauto; lia).
    assert (Lv : forall y, In y (sched_of A (scheds p)) -> last (pl p) < fst y -> nx <= fst y).
    { intros y Hy Ly. destruct (w_live _ _ Wp y Hy Ly) as (x2 & E & L). rewrite Ex in E.
      injection E as <-. rewrite Rx in L. auto. }
    unbind H as r' E. apply add256_Some in E. destruct E as (-> & B).
    destruct (Z.leb_spec en nx) as [Le|Le].
    + injection H as <- <-. rewrite upd_ext_find by (intros; eexists; reflexivity). rewrite Ex, Z.eqb_refl.
      unfold left_of. cbn [option_map rw rps next_of]. rewrite Rx. cbn [next_of]. destruct (Z.ltb_spec en nx).
      * rewrite after_ins_gt by lia. rewrite ins_front.
        -- rewrite after_after by lia. simpl. lia.
        -- apply Forall_forall. intros y Hy. apply in_after in Hy. apply Lv; [tauto|lia].
        -- apply srt_after. auto.
      * assert (en = nx) as Een by lia. rewrite Een. lia.
    + unbind H as sv E. injection H as <- <-.
      rewrite upd_ext_find by (intros ? ? Hy; eexists; cbn [rw]; exact Hy). rewrite Ex, Z.eqb_refl.
      unfold left_of. cbn [option_map rw rps next_of]. rewrite Rx. cbn [next_of].
      rewrite (tail_overlap_eq nx ne en r _ _ S1 Le Ln E). lia.
  - unguard H G. injection H as <- <-. rewrite find_ext_app, Ex. simpl. rewrite Z.eqb_refl.
    unfold left_of. cbn [rw rps next_of]. rewrite after_none; [simpl; lia|].
    apply Forall_forall. intros y Hy. destruct (Z.le_gt_cases (fst y) (last (pl p))); [lia|].
    destruct (w_live _ _ Wp y Hy ltac:(lia)) as (x & E & _). congruence.
Qed.

(** ** Incentivize messages *)
Lemma get_set b k v A : get (set b k v) A = if k =? A then v else get b A.
Proof. destruct (Z.eqb_spec k A); [subst; apply get_set_same|apply get_set_other; auto]. Qed.
Lemma cur_future A T e lp s q rem : inv A T s -> 0 <= T -> T <= now e -> update_rewards (now e) (cur lp s) = Some (q, rem) ->
  future A lp (now e) s = remaining A q (scheds (cur lp s)).
Proof.
  intros I T0 L U. destruct (cur_wf _ _ lp _ I T0) as [W Lw].
  pose proof (update_future A (cur lp s) (now e) q rem W ltac:(lia) U) as K. rewrite <- K. unfold future, cur.
  destruct (find lp (lps s)); reflexivity.
Qed.
Lemma last_future A t lp s : last (pl (cur lp s)) = t -> wf A (cur lp s) ->
  future A lp t s = remaining A (pl (cur lp s)) (scheds (cur lp s)).
Proof.
  intros E W. assert (U : update_rewards t (cur lp s) = Some (pl (cur lp s), [])).
  { unfold update_rewards. destruct (Z.leb_spec t (last (pl (cur lp s)))); [auto|lia]. }
  pose proof (update_future A (cur lp s) t _ _ W ltac:(lia) U) as K. rewrite <- K. unfold future, cur.
  destruct (find lp (lps s)); reflexivity.
Qed.
Lemma from_input_spec t amt n ne en r : from_input t amt n = Some (ne, en, r) -> 0 <= n -> EPOCHS_START <= t ->
  ne = next_boundary t /\ en = end_of t n /\ r = rate_of t amt n.
Proof.
  intros H N L. destruct (from_input_Some _ _ _ _ _ _ H N) as (F1 & F2 & F3 & F4 & F5 & _).
  destruct (epochs _ _ _ _ _ _ H N L) as [E1 E2].
  assert (M : t mod EPOCHS_START = t - EPOCHS_START).
  { symmetry. apply (Z.mod_unique_pos _ _ 1); lia. }
  rewrite M in F2. unfold rate_of, end_of, next_boundary. unfold EPOCHS_START, EPOCH_LENGTH in *.
  split; [lia|]. assert (En : en = 1696809600 + ((t - 1696809600) / 604800 + 1) * 604800 + n * 604800) by lia.
  split; [lia|]. rewrite <- En. exact F5.
Qed.
Lemma incentivize_fund A k T e lp a amt n s f s' f' o : inv A T s -> 0 <= T -> T <= now e -> order_ok e -> 0 <= n ->
  EPOCHS_START <= now e -> pools ends_ok s -> incentivize e lp a amt n s f = Some (s', f', o) ->
  future A k (now e) s' = future A k (now e) s + (if (lp =? k) && (a =? A) then promised (now e) amt n else 0) /\
  get (bal s') A - fsum A f' = get (bal s) A - fsum A f + (if a =? A then amt else 0).
Proof.
  intros I T0 L Eo N Ls Pe H. destruct (incentivize_good A T e lp a amt n s f s' f' o I T0 L Eo N H) as (Ig & _).
  unfold incentivize in H. unbind H as [[ne en] r] E.
  unguard H G. fold (cur lp s) in H. unbind H as [q rem] E1. unbind H as [rs sch] E2.
  unbind H as [[f1 s1] o1] E3. unbind H as [f2 s2] E4. unbind H as s3 E5. injection H as <- <- <-.
  destruct (update_cur A T lp s e q rem I T0 L E1) as (W & Wq & Pq & Lq & Tq & Lr & Ll & _).
  assert (S1 : lps s1 = lps s /\ get (bal s1) A - fsum A f1 = get (bal s) A - fsum A f).
  { destruct (fee s) as [[d v]|]; [|injection E3 as <- <- <-; auto].
    destruct ((Z.of_nat (length (rewards q)) <? Z.of_nat (length rs)) && negb (a =? astro s)); [|injection E3 as <- <- <-; auto].
    unbind E3 as f0 E6. unguard E3 G3. injection E3 as <- <- <-. split; auto. cbn [bal set_bal].
    rewrite get_set, (take_coin_sum A _ _ _ _ E6), (Z.eqb_sym A d). destruct (Z.eqb_spec d A); subst; lia. }
  destruct S1 as (El1 & B1).
  assert (S2 : lps s2 = lps s /\ get (bal s2) A - fsum A f2 = get (bal s1) A - fsum A f1 + if a =? A then amt else 0).
  { destruct (0 <=? a).
    - unbind E4 as f0 E6. injection E4 as <- <-. split; auto.
      rewrite (take_coin_sum A _ _ _ _ E6), (Z.eqb_sym A a). destruct (a =? A); lia.
    - unguard E4 G4. injection E4 as <- <-. split; auto. cbn [bal set_bal].
      rewrite get_set. destruct (Z.eqb_spec a A); subst; lia. }
  destruct S2 as (El2 & B2). apply save_lps in E5. destruct E5 as (fi & El & Eb). cbn [pl users scheds fins] in El.
  split; [|rewrite Eb; lia]. rewrite El2 in El.
  destruct (Z.eqb_spec lp k).
  - subst k. rewrite (cur_future A T e lp s q rem I T0 L E1).
    assert (Ec : cur lp s3 = mkLp (mkPool (total_lp q) rs (last q)) (users (cur lp s)) (put a sch (scheds (cur lp s))) fi)
      by (unfold cur at 1; rewrite El, find_put_same; auto).
    rewrite last_future; [|rewrite Ec; auto|destruct (cur_wf A (now e) lp s3 Ig ltac:(lia)); auto].
    rewrite Ec. cbn [pl scheds andb]. destruct (Z.eqb_spec a A).
    + subst a. assert (Eq : ends_ok (rewards q) (scheds (cur lp s))).
      { pose proof (pools_cur ends_ok lp s Pe) as K. specialize (K (pi_0 _ _ _ _ (ends_inv (Deposit 0 0 None) 0 0))).
        unfold update_rewards in E1. destruct (_ <=? _) in E1; [injection E1 as <- <-; auto|].
        unbind E1 as [r0 r1] E0. injection E1 as <- <-. simpl. eapply upd_all_ends; eauto. }
      pose proof (incentivize_left A (astro s) ne en r (with_pl (cur lp s) q) rem rs sch amt n Wq Eq E2) as K.
      cbn [pl scheds with_pl] in K. rewrite Lq in *. rewrite (K E N Ls).
      destruct (from_input_spec _ _ _ _ _ _ E N Ls) as (_ & -> & ->). reflexivity.
    + unfold remaining. cbn [rewards last]. rewrite sched_put. destruct (Z.eqb_spec a A); [contradiction|].
      assert (find_ext A rs = find_ext A (rewards q)) as ->; [|lia].
      unfold incentivize_pool in E2. destruct (find_ext a (rewards q)) as [x|] eqn:Ex.
      * unbind E2 as r' E0. destruct (_ <=? _) in E2.
        -- injection E2 as <- <-. rewrite upd_ext_find by (intros; eexists; reflexivity).
           destruct (Z.eqb_spec A a); [congruence|auto].
        -- unbind E2 as sv E6. injection E2 as <- <-. rewrite upd_ext_find by (intros ? ? Hy; eexists; cbn [rw]; exact Hy).
           destruct (Z.eqb_spec A a); [congruence|auto].
      * unguard E2 G6. injection E2 as <- <-. rewrite find_ext_app. simpl. destruct (Z.eqb_spec a A); [contradiction|].
        destruct (find_ext A (rewards q)); auto.
  - cbn [andb]. unfold future. rewrite El, find_put_other by congruence. lia.
Qed.
Lemma incentivize_each_fund A k e l : order_ok e -> Forall (fun x => 0 <= snd (snd x)) l -> EPOCHS_START <= now e ->
  forall m0 (f0 : list (Z * Z)), (forall x, In x l -> In x m0) ->
  forall T s f s' f' o, inv A T s -> 0 <= T -> T <= now e -> pools ends_ok s ->
  incentivize_each e l s f = Some (s', f', o) ->
  future A k (now e) s' = future A k (now e) s + promised_all A k (now e) l /\
  get (bal s') A - fsum A f' = get (bal s) A - fsum A f + amounts A l.
Proof.
  intros Eo Po Ls m0 f0. induction l as [|[lp [[a amt] n]] r IH]; intros Sub T s f s' f' o I T0 L Pe H; simpl in H.
  - injection H as <- <- <-. simpl. lia.
  - inversion Po as [|? ? P1 P2]; subst. simpl in P1.
    unbind H as [[s1 f1] o1] E. unbind H as [[s2 f2] o2] E2. injection H as <- <- <-.
    destruct (incentivize_good A T e lp a amt n s f s1 f1 o1 I T0 L Eo P1 E) as (J1 & _).
    destruct (incentivize_fund A k T e lp a amt n s f s1 f1 o1 I T0 L Eo P1 Ls Pe E) as (J2 & J3).
    assert (Pe1 : pools ends_ok s1).
    { eapply mv_pools; [eapply (incentivize_mv (Incentivize m0 f0) e (astro s) lp a amt n s f s1 f1 o1 m0 f0 eq_refl); eauto|apply ends_inv|auto].
      apply Sub. left. auto. }
    destruct (IH P2 (fun x Hx => Sub x (or_intror Hx)) (now e) s1 f1 s2 f2 o2 J1 ltac:(lia) ltac:(lia) Pe1 E2) as (K1 & K2).
    cbn [promised_all amounts]. lia.
Qed.
Lemma incentivize_many_fund A k T e sd l f s s' o : inv A T s -> 0 <= T -> T <= now e -> order_ok e ->
  Forall (fun x => 0 <= snd (snd x)) l -> EPOCHS_START <= now e -> pools ends_ok s ->
  step e sd (Incentivize l f) s = Some (s', o) ->
  future A k (now e) s' = future A k (now e) s + promised_all A k (now e) l /\
  get (bal s') A = get (bal s) A + amounts A l.
Proof.
  intros I T0 L Eo Po Ls Pe H. simpl in H. unfold incentivize_many in H. unguard H G. unbind H as [[s1 f1] o1] E.
  unguard H G2. injection H as <- <-.
  destruct (incentivize_each_fund A k e l Eo Po Ls l f ltac:(auto) T _ _ _ _ _ (inv_bal _ _ _ _ I) T0 L Pe E) as (J1 & J2).
  assert (E1 : fsum A f1 = 0).
  { clear - G2. unfold fsum, paidA, fl. induction f1 as [|[x n] r IH]; simpl in *; auto.
    apply andb_true_iff in G2. destruct G2 as [G1 G2]. apply Z.eqb_eq in G1.
    destruct (x =? A); simpl; rewrite ?IH; auto. lia. }
  simpl in J2. rewrite receive_sum in J2. split; [exact J1|lia].
Qed.

(** ** Removal *)
Lemma remove_pays T e sd lp a to s s' o : inv a T s -> 0 <= T -> T <= now e ->
  step e sd (RemoveReward lp a false to) s = Some (s', o) ->
  paid_out a o + lost_out a o = (future a lp (now e) s + orphaned_of e lp a s) / DEC /\
  sd = owner s /\ (forall x, In x o -> exists v, x = Pay a to v \/ x = Lost a to v).
Proof.
  intros I T0 L H. simpl in H. unfold remove_reward in H. unguard H G. unbind H as p Ep.
  assert (Ec : cur lp s = p) by (unfold cur; rewrite Ep; auto).
  unbind H as [q rem] E. unbind H as [[[q' x] sch] v] E2. unbind H as s1 E3. injection H as H.
  rewrite <- Ec in E. destruct (update_cur a T lp s e q rem I T0 L E) as (W & Wq & Pq & Lq & _).
  unfold orphaned_of. rewrite Ep. rewrite (cur_future a T e lp s q rem I T0 L E).
  rewrite Ec in E. rewrite E. unfold deregister in E2. unbind E2 as y Ey. unbind E2 as r0 E0.
  unbind E2 as [r1 s2] E1. unbind E1 as r3 E4. injection E1 as <- <-. unbind E2 as r2 E5. unbind E2 as w E6.
  injection E2 as <- <- <- <-. unfold remaining. cbv iota beta. rewrite !Ey. rewrite Ec in *.
  apply per_Some in E0. subst r0. apply tail_sum_Some in E4. subst r3. apply add256_Some in E5. destruct E5 as (-> & _).
  apply u128_Some in E6. destruct E6 as (-> & _).
  assert (EL : left_of (last q) y (sched_of a (scheds p)) =
     rps y * ssub (next_of (rw y)) (last q) +
     tailZ (next_of (rw y)) (after (next_of (rw y)) (filter (fun z => negb (fst z =? next_of (rw y))) (sched_of a (scheds p))))).
  { pose proof (m_wf _ _ _ Wq) as Wp. cbn [pl with_pl] in Wp.
    destruct (find_ext_in _ _ _ Ey) as (Hin & nx & Rx).
    pose proof (find_ext_ok _ _ _ _ Ey (w_rw _ _ Wp)) as (_ & _ & _ & O4). cbn [pl with_pl] in O4.
    rewrite Rx in O4. specialize (O4 eq_refl). cbn [next_of] in O4. unfold left_of. rewrite Rx. cbn [next_of].
    unfold ssub. rewrite Z.max_r by lia. f_equal. f_equal. unfold after. clear.
    induction (sched_of a (scheds p)) as [|z t IH]; simpl; auto. destruct (Z.eqb_spec (fst z) nx); simpl.
    - replace (nx <? fst z) with false by (symmetry; apply Z.ltb_ge; lia). auto.
    - rewrite IH. auto. }
  rewrite EL. set (V := _ / DEC) in *. split; [|split; [apply Z.eqb_eq; auto|]].
  - unfold pay in H. destruct (Z.eqb_spec V 0).
    + injection H as <- <-. simpl. lia.
    + destruct (_ && _) in H; injection H as <- <-; unfold paid_out, lost_out; simpl; rewrite Z.eqb_refl; lia.
  - unfold pay in H. destruct (Z.eqb_spec V 0); [injection H as <- <-; intros z []|].
    destruct (_ && _) in H; injection H as <- <-; intros z [<-|[]]; exists V; auto.
Qed.
(** Somebody has staked for the whole time since the last update: nothing is orphaned. *)
Lemma no_orphan e lp a s : (forall p, find lp (lps s) = Some p -> 0 < total_lp (pl p) /\ last (pl p) < now e) ->
  orphaned_of e lp a s = 0.
Proof.
  intros H. unfold orphaned_of. destruct (find lp (lps s)) as [p|]; auto. destruct (H p eq_refl) as [Tp L].
  unfold update_rewards. destruct (Z.leb_spec (now e) (last (pl p))); [lia|].
  destruct (upd_all _ _ _ _ _) as [[rs rem]|] eqn:E; auto. cbv iota beta. cbn [rewards].
  assert (F : Forall (fun x => orph x = 0) rs).
  { revert rs rem E. induction (rewards (pl p)) as [|x r IH]; intros rs rem E; simpl in E.
    - injection E as <- <-. constructor.
    - unbind E as [y g] E1. unbind E as [k rm] E2. injection E as E.
      assert (O : orph y = 0).
      { assert (Ac : forall x c x', accrue (total_lp (pl p)) x c = Some x' -> orph x' = 0).
        { intros z c z' Hz. unfold accrue in Hz. unbind Hz as d D1. destruct (Z.eqb_spec (total_lp (pl p)) 0); [lia|].
          unbind Hz as d2 D2. unbind Hz as d3 D3. unbind Hz as d4 D4. injection Hz as <-. auto. }
        unfold upd_one in E1.
        assert (St : (do c <- per (rps x) (now e - last (pl p)); do y <- accrue (total_lp (pl p)) x c; Some (y, false)) = Some (y, g) -> orph y = 0).
        { intros K. unbind K as c C1. unbind K as y' C2. injection K as <- <-. eauto. }
        destruct (rw x); auto. destruct (_ <=? _); auto. unbind E1 as d D1. unbind E1 as c0 D2.
        unbind E1 as [[c1 n1] act] D3. destruct act as [[ts v]|].
        - unbind E1 as c2 D4. unbind E1 as c3 D5. unbind E1 as y' D6. injection E1 as <- <-. eauto.
        - unbind E1 as y' D6. injection E1 as <- <-. eauto. }
      specialize (IH _ _ eq_refl). destruct g; injection E as <- <-; auto. }
  destruct (find_ext a rs) as [x|] eqn:Ex; auto. destruct (find_ext_in _ _ _ Ex) as [Hx _].
  rewrite Forall_forall in F. auto.
Qed.
