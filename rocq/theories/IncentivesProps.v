(** Incentives: properties C34-C37, C68, C69, C72. *)
From Coq Require Import ZArith Lia Bool List Permutation.
From Verif Require Import Num Amap Ledger IncentivesModel IncentivesSpec IncentivesSched IncentivesPool
  IncentivesPay IncentivesOps IncentivesInv IncentivesStep IncentivesProofs IncentivesExact IncentivesPending
  IncentivesMove IncentivesFund IncentivesLock.
Import ListNotations.
Open Scope Z_scope.

(** A quiet environment at time [t]. *)
Definition at_ (t : Z) : env :=
  mkEnv t (fun r => r) (fun _ => true) (fun _ => []) (fun _ => 0) [] (fun _ => true) true.
Lemma at_order t : order_ok (at_ t).
Proof. intros r. apply Permutation_refl. Qed.
Definition t0 : Z := 1700000000.
(** Owner 1, factory 2, ASTRO 3. *)
Definition s_init : state := init 1 2 3 None None.

Section Reach.
  Variables (own fac ast : Z) (grd : option Z) (f : option (Z * Z)) (h : list (env * Z * msg)).
  Hypothesis Ht : timed 0 h.
  Let s := run (init own fac ast grd f) h.

  Lemma reach_any : exists A, inv A (time_after 0 h) s /\ 0 <= time_after 0 h.
  Proof.
    destruct (fresh (removed_assets h)) as [A NA]. exists A.
    destruct (run_good A h 0 _ (inv_init A own fac ast grd f) ltac:(lia) Ht (removals_fresh _ _ NA _)) as (I & T0 & _).
    auto.
  Qed.
  Lemma reach_ok A : removals_ok A (init own fac ast grd f) h ->
    inv A (time_after 0 h) s /\ 0 <= time_after 0 h /\ gap A s <= 0.
  Proof. intros R. apply (run_good A h 0 _ (inv_init A own fac ast grd f) ltac:(lia) Ht R). Qed.

  (** ** C34 *)

  (** In every reachable state the recorded total of a pool is the sum of the positions. *)
  Theorem c34_total lp : total_of lp s = sum_positions lp s.
  Proof.
    destruct reach_any as (A & I & T0). unfold total_of, sum_positions.
    destruct (find lp (lps s)) as [p|] eqn:E; auto.
    pose proof (i_lps _ _ _ I) as Q. rewrite Forall_forall in Q. destruct (Q _ (find_in _ _ _ E)) as [W _].
    simpl in W. rewrite (w_total _ _ W). clear. induction (users p) as [|[k u] r IH]; simpl; rewrite ?IH; auto.
  Qed.
  (** It equals LP tokens received minus LP tokens returned. *)
  Theorem c34_net lp : total_of lp s = net lp (init own fac ast grd f) h.
  Proof. unfold s. rewrite net_total. reflexivity. Qed.
  (** The contract holds all staked LP tokens, the orphaned rewards and everything pending, in
      every token whose removals were regular. *)
  Theorem c35_solvent A e : removals_ok A (init own fac ast grd f) h -> time_after 0 h <= now e ->
    total_of A s + orphaned A s + total_pending A e s <= get (bal s) A.
  Proof. intros R L. destruct (reach_ok A R) as (I & T0 & G). eapply solvent; eauto. Qed.
  (** No reward payment fails for lack of funds. *)
  Theorem c35_no_loss A e sd m s' o : removals_ok A (init own fac ast grd f) h -> time_after 0 h <= now e ->
    order_ok e -> unsigned m -> removal_ok A e m s -> xfer_ok e A = true ->
    step e sd m s = Some (s', o) -> forall to v, ~ In (Lost A to v) o.
  Proof.
    intros R L Eo Um Rm X H. destruct (reach_ok A R) as (I & T0 & G).
    destruct (step_good A _ e sd m s s' o I T0 L Eo Um (removal_clean _ _ _ _ Rm) H) as (_ & _ & Q).
    apply Q; auto.
  Qed.

  (** ** C36 *)
  Theorem c36_future A lp e sd l fs s' o : removals_ok A (init own fac ast grd f) h -> time_after 0 h <= now e ->
    order_ok e -> unsigned (Incentivize l fs) -> 1696809600 <= now e ->
    step e sd (Incentivize l fs) s = Some (s', o) ->
    future A lp (now e) s' = future A lp (now e) s + promised_all A lp (now e) l /\
    get (bal s') A = get (bal s) A + amounts A l.
  Proof.
    intros R L Eo Um Ls H. destruct (reach_ok A R) as (I & T0 & G).
    eapply incentivize_many_fund; eauto. apply run_ends.
  Qed.

  (** ** C37 *)
  Theorem c37_removal a lp to e sd s' o : removals_ok a (init own fac ast grd f) h -> time_after 0 h <= now e ->
    step e sd (RemoveReward lp a false to) s = Some (s', o) ->
    sd = owner s /\ (forall x, In x o -> exists v, x = Pay a to v \/ x = Lost a to v) /\
    paid_out a o + lost_out a o = (future a lp (now e) s + orphaned_of e lp a s) / 10 ^ 18.
  Proof.
    intros R L H. destruct (reach_ok a R) as (I & T0 & G).
    destruct (remove_pays _ _ _ _ _ _ _ _ _ I T0 L H) as (K1 & K2 & K3). auto.
  Qed.

  (** ** C68 *)
  Lemma ext_find A rs : List.find (is_of A) rs = find_ext A rs.
  Proof.
    unfold is_of. induction rs as [|x r IH]; simpl; auto. destruct (rw x); auto. destruct (a =? A); auto.
  Qed.
  Lemma int_find rs : List.find is_protocol rs = find_int rs.
  Proof.
    unfold is_protocol, find_int. induction rs as [|x r IH]; simpl; auto. destruct (rw x); simpl; auto.
  Qed.
  Theorem c68_exact A e lp who p u ext prot : time_after 0 h <= now e ->
    find lp (lps s) = Some p -> find who (users p) = Some u -> up_to_date lp who s ->
    last (pl p) < now e -> 0 < total_of lp s -> pending e lp who s = Some (ext, prot) ->
    sum_of A ext = position_of lp who s * (accrued_ext A (now e) p / total_of lp s) / 10 ^ 18 /\
    prot = position_of lp who s * (accrued_prot (now e) p / total_of lp s) / 10 ^ 18.
  Proof.
    intros L Ep Eu (p1 & u1 & E1 & E2 & Ec & Ei) Ll Tp H. rewrite Ep in E1. injection E1 as <-.
    rewrite Eu in E2. injection E2 as <-. destruct reach_any as (B & I & T0).
    unfold total_of, position_of in *. rewrite Ep in *. rewrite Eu.
    assert (Ia : inv B (time_after 0 h) s) by exact I.
    rewrite (prot_exact B _ e s lp who p u ext prot Ia T0 Ep Eu Ec Ei Ll Tp H).
    unfold accrued_ext, accrued_prot. rewrite ext_find, int_find. change (10 ^ 18) with DEC. split.
    - rewrite (pending_exact A B _ e s lp who p u ext prot Ia T0 Ep Eu Ec Ei Ll Tp H).
      destruct (find_ext A (rewards (pl p))); auto. rewrite Z.div_0_l by lia. rewrite Z.mul_0_r. reflexivity.
    - destruct (find_int (rewards (pl p))); auto. rewrite Z.div_0_l by lia. rewrite Z.mul_0_r. reflexivity.
  Qed.

  (** ** C72 *)

  (** A message of somebody else, at the same time, leaves the pending rewards alone. *)
  Theorem c72_others me lp e sd m s' o : time_after 0 h <= now e -> order_ok e -> unsigned m -> not_mine me sd m ->
    step e sd m s = Some (s', o) -> 0 < position_of lp me s ->
    same_due (pending e lp me s) (pending e lp me s').
  Proof.
    intros L Eo Um N H P. destruct reach_any as (A & I & T0). eapply step_untouched; eauto.
  Qed.
End Reach.
Print Assumptions c34_total.
Print Assumptions c34_net.
Print Assumptions c35_solvent.
Print Assumptions c35_no_loss.
Print Assumptions c36_future.
Print Assumptions c37_removal.
Print Assumptions c68_exact.
Print Assumptions c72_others.

(** ** C34: effect of single messages *)
Theorem c34_deposit e sd lp amt to s s' o : step e sd (Deposit lp amt to) s = Some (s', o) ->
  let who := match to with Some w => w | None => sd end in
  (forall k, total_of k s' = total_of k s + if k =? lp then amt else 0) /\
  (forall k w, position_of k w s' = position_of k w s + if (k =? lp) && (w =? who) then amt else 0) /\
  (forall k, went_out k o = 0).
Proof. intros H who. apply (deposit_pos e lp amt who). exact H. Qed.
Print Assumptions c34_deposit.
(** A withdrawal takes at most the position and returns it in full to the sender. *)
Theorem c34_withdraw e sd lp amt s s' o : step e sd (Withdraw lp amt) s = Some (s', o) ->
  amt <= position_of lp sd s /\
  (forall k, total_of k s' = total_of k s - if k =? lp then amt else 0) /\
  (forall k w, position_of k w s' = position_of k w s - if (k =? lp) && (w =? sd) then amt else 0) /\
  (forall k, went_out k o = if k =? lp then amt else 0) /\ In (Back lp sd amt) o.
Proof. apply withdraw_pos. Qed.
Print Assumptions c34_withdraw.
(** No other message changes a position or returns LP tokens. *)
Theorem c34_others e sd m s s' o : (match m with Deposit _ _ _ | Withdraw _ _ => false | _ => true end) = true ->
  step e sd m s = Some (s', o) ->
  (forall k w, position_of k w s' = position_of k w s) /\ (forall k, total_of k s' = total_of k s) /\
  (forall k, went_out k o = 0).
Proof.
  intros M H. destruct (step_same e sd m s s' o) as [S1 S3]; auto; [destruct m; auto; discriminate|].
  split; [intros k w; apply S1|]. split; [intros k; apply S1|]. auto.
Qed.
Print Assumptions c34_others.

(** ** C36: schedules *)

(** The reward runs from now to a week boundary, 1 to 25 weeks after the next one; its rate is the
    largest that the amount pays for, and at least one unit per second. *)
Theorem c36_schedule e sd lp a amt n fs s s' o : 1696809600 <= now e -> 0 <= n ->
  step e sd (Incentivize [(lp, (a, amt, n))] fs) s = Some (s', o) ->
  let t := now e in
  1 <= n <= 25 /\ boundary (next_boundary t) /\ t < next_boundary t <= t + 604800 /\
  end_of t n = next_boundary t + n * 604800 /\ 10 ^ 18 <= rate_of t amt n /\
  promised t amt n <= amt * 10 ^ 18 < promised t amt n + (end_of t n - t).
Proof.
  intros Ls N H t. simpl in H. unfold incentivize_many in H. unguard H G. unbind H as [[s1 f1] o1] E. clear H.
  simpl in E. unbind E as [[s2 f2] o2] E1. unfold incentivize in E1. unbind E1 as [[ne en] r] E2. clear E1 E.
  fold t in E2. destruct (from_input_Some _ _ _ _ _ _ E2 N) as (F1 & F2 & F3 & F4 & F5 & F6 & F7).
  destruct (epochs _ _ _ _ _ _ E2 N Ls) as [K1 K2]. destruct (boundary_from _ _ _ _ _ _ E2) as [B1 B2].
  destruct (from_input_spec _ _ _ _ _ _ E2 N Ls) as (Q1 & Q2 & Q3). rewrite <- Q1.
  split; [exact F1|]. split; [exact B1|]. split; [exact K2|]. split; [unfold end_of; lia|].
  change (10 ^ 18) with DEC. unfold promised. rewrite <- Q2, <- Q3. split; [exact F6|]. split; [exact F7|].
  rewrite F5. pose proof (Z.mul_succ_div_gt (amt * DEC) (en - t) ltac:(lia)). lia.
Qed.
Print Assumptions c36_schedule.

(** From 2077-07-18 on ([2 * EPOCHS_START]) no incentive is accepted: the remainder of the time
    modulo the start date is used where the difference was meant. *)
Theorem c36_available_refuted : forall e sd x l fs s, 2 * 1696809600 <= now e -> 0 <= snd (snd x) ->
  step e sd (Incentivize (x :: l) fs) s = None.
Proof.
  intros e sd [lp [[a amt] n]] l fs s L N. simpl in N. destruct (step _ _ _ _) as [[s' o]|] eqn:H; auto. exfalso.
  simpl in H. unfold incentivize_many in H. unguard H G. unbind H as [[s1 f1] o1] E. clear H.
  simpl in E. unbind E as [[s2 f2] o2] E1. unfold incentivize in E1. unbind E1 as [[ne en] r] E2.
  destruct (epochs _ _ _ _ _ _ E2 N) as [K1 _]; unfold EPOCHS_START in *; lia.
Qed.
Print Assumptions c36_available_refuted.

(** ** C37: nothing is orphaned while somebody stakes *)
Theorem c37_no_orphans e lp a s : 0 < total_of lp s ->
  (forall p, find lp (lps s) = Some p -> last (pl p) < now e) -> orphaned_of e lp a s = 0.
Proof.
  intros Tp L. apply no_orphan. intros p Ep. unfold total_of in Tp. rewrite Ep in Tp. auto.
Qed.
Print Assumptions c37_no_orphans.

(** ** C72: payments are what the query says *)
Theorem c72_claim A e who l s s' o : step e who (ClaimRewards l) s = Some (s', o) ->
  paid_out A o + lost_out A o = fold_right (fun lp a => pend A e lp who s + a) 0 l /\
  prot_out_sum o = fold_right (fun lp a => pend_prot e lp who s + a) 0 l /\
  forall lp, In lp l -> pending e lp who s <> None.
Proof.
  intros H. simpl in H. unfold claim in H. unguard H G. unbind H as [[s1 x] v] E. unbind H as o2 E2.
  destruct (pay_all e who s1 x) as [s2 o1] eqn:E3. injection H as <- <-.
  destruct (claim_each_sum A e who l s s1 x v (nodup_NoDup _ G) E) as [K1 K2].
  pose proof (pay_all_sum A e who x s1) as K3. rewrite E3 in K3. cbv zeta in K3. simpl snd in K3. destruct K3 as [K3 K4].
  destruct (pay_prot_sum A _ _ _ _ E2) as (K5 & K6 & K7). destruct (outs_app A o1 o2) as (-> & -> & ->).
  split; [lia|]. split; [lia|]. intros lp Hl. eapply claim_each_in; eauto. apply nodup_NoDup. auto.
Qed.
Print Assumptions c72_claim.
Theorem c72_withdraw A e who lp amt s s' o : step e who (Withdraw lp amt) s = Some (s', o) ->
  paid_out A o + lost_out A o = pend A e lp who s /\ prot_out_sum o = pend_prot e lp who s.
Proof.
  intros H. simpl in H. unfold withdraw in H. unbind H as p Ep.
  unbind H as u Eu. unguard H Hg. unbind H as [q rem] E. unbind H as [ext prot] E2.
  unbind H as a E3. unbind H as t E4. unbind H as s1 E5. unbind H as o2 E6.
  destruct (pay_all e who s1 ext) as [s2 o1] eqn:E7. unguard H Hx. injection H as <- <-.
  pose proof (pay_all_sum A e who ext s1) as K3. rewrite E7 in K3. cbv zeta in K3. simpl snd in K3. destruct K3 as [K3 K4].
  destruct (pay_prot_sum A _ _ _ _ E6) as (K5 & K6 & K7).
  destruct (outs_app A o1 (o2 ++ [Back lp who amt])) as (-> & -> & ->).
  destruct (outs_app A o2 [Back lp who amt]) as (-> & -> & ->).
  unfold pend, pend_prot, pending. rewrite Ep, Eu, E, E2. unfold paid_out, lost_out, prot_out_sum in *. simpl. lia.
Qed.
Print Assumptions c72_withdraw.
Theorem c72_deposit A e sd who lp amt s s' o : step e sd (Deposit lp amt (Some who)) s = Some (s', o) ->
  0 < position_of lp who s ->
  paid_out A o + lost_out A o = pend A e lp who s /\ prot_out_sum o = pend_prot e lp who s.
Proof.
  intros H P. simpl in H. unfold deposit in H. unguard H Hok. cbn [lps set_bal] in H.
  unfold position_of in P. destruct (find lp (lps s)) as [p|] eqn:Ep; [|lia].
  destruct (find who (users p)) as [u|] eqn:Eu; [|lia].
  unbind H as [q rem] E. unbind H as [ext prot] E2.
  unbind H as a E3. unbind H as t E4. unbind H as s1 E5. unbind H as o2 E6.
  destruct (pay_all e who s1 ext) as [s2 o1] eqn:E7. injection H as <- <-.
  pose proof (pay_all_sum A e who ext s1) as K3. rewrite E7 in K3. cbv zeta in K3. simpl snd in K3. destruct K3 as [K3 K4].
  destruct (pay_prot_sum A _ _ _ _ E6) as (K5 & K6 & K7).
  destruct (outs_app A o1 o2) as (-> & -> & ->).
  unfold pend, pend_prot, pending. rewrite Ep, Eu, E, E2. lia.
Qed.
Print Assumptions c72_deposit.

(** ** Cases *)

(** A pool 100 with reward 5 for a week, two stakers. *)
Definition h1 : list (env * Z * msg) :=
  [(at_ t0, 9, Incentivize [(100, (5, 2000000, 1))] [(5, 2000000)]);
   (at_ t0, 7, Deposit 100 1000 None);
   (at_ (t0 + 1000), 8, Deposit 100 3000 (Some 8))].
Definition s1 : state := run s_init h1.
Example h1_timed : timed 0 h1.
Proof. simpl. unfold unsigned. repeat split; try apply at_order; try (vm_compute; congruence). constructor; [|constructor]. vm_compute. congruence. Qed.
Example h1_removals A : removals_ok A s_init h1.
Proof. repeat split. Qed.
Example h1_values :
  (total_of 100 s1, position_of 100 7 s1, get (bal s1) 5, total_pending 5 (at_ (t0 + 2000)) s1) = (4000, 1000, 2000000, 3833).
Proof. vm_compute. reflexivity. Qed.
Example h1_net : net 100 s_init h1 = 4000.
Proof. vm_compute. reflexivity. Qed.
Example h1_claim : option_map snd (step (at_ (t0 + 2000)) 7 (ClaimRewards [100]) s1) = Some [Pay 5 7 2396] /\
  pend 5 (at_ (t0 + 2000)) 100 7 s1 = 2396.
Proof. split; vm_compute; reflexivity. Qed.
Example h1_withdraw : option_map snd (step (at_ (t0 + 2000)) 7 (Withdraw 100 400) s1) = Some [Pay 5 7 2396; Back 100 7 400].
Proof. vm_compute. reflexivity. Qed.
Example h1_deposit : option_map snd (step (at_ (t0 + 2000)) 3 (Deposit 100 400 (Some 7)) s1) = Some [Pay 5 7 2396].
Proof. vm_compute. reflexivity. Qed.
Example h1_remove : option_map snd (step (at_ (t0 + 2000)) 1 (RemoveReward 100 5 false 1) s1) = Some [Pay 5 1 1996165] /\
  future 5 100 (t0 + 2000) s1 = 1996165644171779140216400 /\ orphaned_of (at_ (t0 + 2000)) 100 5 s1 = 0.
Proof. repeat split; vm_compute; reflexivity. Qed.
(** User 8 is up to date: 3000 of 4000 shares of what accrued in 1000 seconds. *)
Example h1_up_to_date : up_to_date 100 8 s1 /\ pend 5 (at_ (t0 + 2000)) 100 8 s1 = 1437.
Proof.
  split; [|vm_compute; reflexivity].
  do 2 eexists. split; [vm_compute; reflexivity|]. split; [vm_compute; reflexivity|].
  split; vm_compute; reflexivity.
Qed.
Example h1_others : not_mine 7 8 (Withdraw 100 3000) /\
  option_map snd (step (at_ (t0 + 2000)) 8 (Withdraw 100 3000) s1) = Some [Pay 5 8 1437; Back 100 8 3000] /\
  pend 5 (at_ (t0 + 2000)) 100 7 (exec s1 (at_ (t0 + 2000), 8, Withdraw 100 3000)) = 2396.
Proof. split; [simpl; congruence|]. split; vm_compute; reflexivity. Qed.
(** A second schedule for two weeks on top of the first. *)
Example h1_incentivize :
  option_map snd (step (at_ (t0 + 2000)) 9 (Incentivize [(100, (5, 5000000, 2))] [(5, 5000000)]) s1) = Some [] /\
  promised_all 5 100 (t0 + 2000) [(100, (5, 5000000, 2))] = promised (t0 + 2000) 5000000 2 /\
  rate_of (t0 + 2000) 5000000 2 = 3037667071688942891 /\
  future 5 100 (t0 + 2000) (exec s1 (at_ (t0 + 2000), 9, Incentivize [(100, (5, 5000000, 2))] [(5, 5000000)])) =
    1996165644171779140216400 + promised (t0 + 2000) 5000000 2.
Proof. repeat split; vm_compute; reflexivity. Qed.

(** ** C37: refuted in general *)

(** A reward is removed while nobody stakes: what was orphaned is paid to the receiver and can be
    claimed once more; the second payment comes out of the tokens that user 7 staked. *)
Definition h2 : list (env * Z * msg) :=
  [(at_ t0, 7, Deposit 5 1000000 None);
   (at_ t0, 9, Incentivize [(100, (5, 2000000, 1))] [(5, 2000000)]);
   (at_ (t0 + 100000), 1, RemoveReward 100 5 false 1);
   (at_ (t0 + 100000), 1, ClaimOrphaned None 1)].
Theorem c37_once_refuted : exists h, timed 0 h /\
  (forall e sd lp a b to, In (e, sd, RemoveReward lp a b to) h -> b = false) /\
  get (bal (run s_init h)) 5 < total_of 5 (run s_init h).
Proof.
  exists h2. split; [|split].
  - simpl. repeat split; try apply at_order; try (vm_compute; congruence). constructor; [|constructor]. vm_compute. congruence.
  - intros e sd lp a b to H. simpl in H. repeat (destruct H as [H|H]; [congruence|]). destruct H.
  - vm_compute. reflexivity.
Qed.
Print Assumptions c37_once_refuted.

(** Upcoming schedules left in place by a removal can be stretched by the next incentive: the
    pending rewards exceed the balance. *)
Definition h3 : list (env * Z * msg) :=
  [(at_ t0, 7, Deposit 100 1000 None);
   (at_ t0, 9, Incentivize [(100, (5, 2000000, 2)); (100, (5, 3000000, 3))] [(5, 5000000)]);
   (at_ (t0 + 1), 1, RemoveReward 100 5 true 1);
   (at_ (t0 + 2), 9, Incentivize [(100, (5, 2000000, 1))] [(5, 2000000)])].
Theorem c37_bypass_refuted : exists h e, timed 0 h /\ time_after 0 h <= now e /\
  get (bal (run s_init h)) 5 < total_pending 5 e (run s_init h).
Proof.
  exists h3, (at_ (t0 + 5000000)). split; [|split].
  - simpl. repeat split; try apply at_order; try (vm_compute; congruence); repeat constructor; vm_compute; congruence.
  - vm_compute. congruence.
  - vm_compute. reflexivity.
Qed.
Print Assumptions c37_bypass_refuted.

(** ** C72: refuted for two removals in the same second: the accrued reward of user 7 is lost. *)
Definition h5 : list (env * Z * msg) :=
  [(at_ t0, 9, Incentivize [(100, (5, 2000000, 1)); (100, (6, 2000000, 1))] [(5, 2000000); (6, 2000000)]);
   (at_ t0, 7, Deposit 100 1000 None);
   (at_ (t0 + 1000), 1, RemoveReward 100 5 false 1)].
Theorem c72_removal_refuted : exists h e s' o, timed 0 h /\ time_after 0 h <= now e /\
  step e 1 (RemoveReward 100 6 false 1) (run s_init h) = Some (s', o) /\
  pend 5 e 100 7 (run s_init h) = 1917 /\ pend 5 e 100 7 s' = 0.
Proof.
  exists h5, (at_ (t0 + 1000)). do 2 eexists. split; [|split; [|split]].
  - simpl. repeat split; try apply at_order; try (vm_compute; congruence); repeat constructor; vm_compute; congruence.
  - vm_compute. congruence.
  - unfold run. vm_compute. reflexivity.
  - split; vm_compute; reflexivity.
Qed.
Print Assumptions c72_removal_refuted.

(** ** C69: a staker can always leave - refuted *)

(** Somebody else deposits one unit for user 7 in the second in which the owner removes reward 5;
    when the reward is set up again and finishes with a smaller index, user 7 can never withdraw,
    claim or be deposited for, whatever happens later. *)
Definition h4 : list (env * Z * msg) :=
  [(at_ t0, 9, Incentivize [(100, (5, 2000000, 1))] [(5, 2000000)]);
   (at_ t0, 7, Deposit 100 1000 None);
   (at_ (t0 + 1000), 9, Deposit 100 1 (Some 7));
   (at_ (t0 + 1000), 1, RemoveReward 100 5 false 1);
   (at_ (t0 + 2000), 9, Deposit 100 1000000000 None);
   (at_ (t0 + 2000), 9, Incentivize [(100, (5, 2000000, 1))] [(5, 2000000)]);
   (at_ (t0 + 3000000), 9, Withdraw 100 1000000000)].
Theorem c69_exit_refuted : exists h, timed 0 h /\ position_of 100 7 (run s_init h) = 1001 /\
  forall h', timed (time_after 0 h + 1) h' -> forall e sd,
    let s := run (run s_init h) h' in
    (forall amt, step e 7 (Withdraw 100 amt) s = None) /\
    (forall l, In 100 l -> step e 7 (ClaimRewards l) s = None) /\
    (forall amt, step e sd (Deposit 100 amt (Some 7)) s = None).
Proof.
  exists h4. split; [|split].
  - simpl. repeat split; try apply at_order; try (vm_compute; congruence); repeat constructor; vm_compute; congruence.
  - vm_compute. reflexivity.
  - intros h' Ht e sd s. eapply stuck_fails with (T := time_after 0 h4 + 1). unfold s. apply run_stuck; auto.
    apply stuck_b_ok. vm_compute. reflexivity.
Qed.
Print Assumptions c69_exit_refuted.
