(** C40: the oracle's average price. *)
From Coq Require Import ZArith Lia Bool List.
From Verif Require Import Num Hist Ledger XykModel XykSpec XykProofs XykProps.
From Verif Require OracleModel.
Import OracleModel.
Import ListNotations.
Open Scope Z_scope.

Lemma average_val p lp el v : average p lp el = Some v -> v = (p - lp) mod 2 ^ 128 * DEC / el.
Proof. unfold average, wsub128. intros H. num_inv. reflexivity. Qed.

Lemma inner_in a b lp el : forall fresh r x, inner a b lp fresh el = Some r ->
  (In x r <-> exists p, In (a, b, p) fresh /\ x = (a, b, (p - lp) mod 2 ^ 128 * DEC / el)).
Proof.
  induction fresh as [|[[a' b'] p] fresh IH]; intros r x H; cbn [inner] in H.
  - injection H as <-. split; [intros [] | intros (p & [] & _)].
  - unbind H as rest E. destruct ((a' =? a) && (b' =? b)) eqn:Q.
    + bools. subst. unbind H as v Ev. injection H as <-. apply average_val in Ev. subst v. cbn [In]. rewrite (IH _ x eq_refl).
      split.
      * intros [<-|(p0 & I & ->)]; [exists p; auto | exists p0; auto].
      * intros (p0 & [Eq|I] & ->); [injection Eq as ->; auto | right; exists p0; auto].
    + injection H as <-. cbn [In]. rewrite (IH _ x eq_refl). split.
      * intros (p0 & I & ->). exists p0; auto.
      * intros (p0 & [Eq|I] & ->); [|exists p0; auto].
        injection Eq as -> -> ->. rewrite !Z.eqb_refl in Q. discriminate.
Qed.

Lemma averages_in fresh el : forall stored r x, averages stored fresh el = Some r ->
  (In x r <-> exists a b lp p, In (a, b, lp) stored /\ In (a, b, p) fresh /\
                x = (a, b, (p - lp) mod 2 ^ 128 * DEC / el)).
Proof.
  induction stored as [|[[a b] lp] stored IH]; intros r x H; cbn [averages] in H.
  - injection H as <-. split; [intros [] | intros (a & b & lp & p & [] & _)].
  - unbind H as h Eh. unbind H as t Et. injection H as <-. rewrite in_app_iff, (inner_in _ _ _ _ _ _ x Eh), (IH _ x eq_refl). cbn [In].
    split.
    + intros [(p & I & ->)|(a0 & b0 & lp0 & p & I1 & I2 & ->)]; [exists a, b, lp, p; auto | exists a0, b0, lp0, p; auto].
    + intros (a0 & b0 & lp0 & p & [Eq|I1] & I2 & ->).
      * injection Eq as <- <- <-. left. exists p; auto.
      * right. exists a0, b0, lp0, p; auto.
Qed.

(** An update succeeds at least one period after the previous one, and stores for every ordered pair
    of assets exactly the average of the change of the (wrapping) accumulator. *)
Theorem c40_update_exact s now fresh s' :
  update s now fresh = Some s' ->
  let elapsed := now - OracleModel.last_t s in
  86400 <= elapsed /\ cum s' = fresh /\ OracleModel.last_t s' = now /\
  forall x, In x (avg s') <->
    exists a b lp p, In (a, b, lp) (cum s) /\ In (a, b, p) fresh /\
      x = (a, b, (p - lp) mod 2 ^ 128 * 10 ^ 18 / elapsed).
Proof.
  intros H elapsed. unfold update in H. unbind H as el E. unguard H G. unbind H as av Ea. injection H as <-.
  unfold PERIOD in *. bools. num_inv. subst elapsed. split; [lia|]. split; [reflexivity|]. split; [reflexivity|].
  intros x. rewrite (averages_in _ _ _ _ x Ea). change DEC with (10 ^ 18). reflexivity.
Qed.

(** Wrap-around of the 128-bit accumulators between two updates does not matter. *)
Theorem c40_wraparound P L elapsed v :
  0 < elapsed -> 0 <= P - L < 2 ^ 128 ->
  average (P mod 2 ^ 128) (L mod 2 ^ 128) elapsed = Some v -> v = (P - L) * 10 ^ 18 / elapsed.
Proof.
  intros He Hb H. apply average_val in H. rewrite <- Zminus_mod, Z.mod_small in H by exact Hb. exact H.
Qed.

(** Until a full period has passed nothing changes, whatever the pair reports; so consultations
    keep their answers. *)
Theorem c40_frozen_within_period s l :
  0 <= OracleModel.last_t s ->
  Forall (fun x => fst x < OracleModel.last_t s + 86400) l -> OracleModel.run s l = s.
Proof.
  intros H0 F. induction F as [|[t p] l Hx Hl IH]; [reflexivity|]. simpl in *.
  assert (E : OracleModel.exec s (t, p) = s); [|rewrite E; exact IH].
  unfold OracleModel.exec, update. simpl. destruct (sub64 t (OracleModel.last_t s)) as [el|] eqn:E; auto.
  num_inv. unfold PERIOD. destruct (Z.leb_spec 86400 (t - OracleModel.last_t s)); [lia|reflexivity].
Qed.

(** Times of successful updates are at least a period apart. *)
Fixpoint update_times (s : OracleModel.state) (l : list (Z * price_list)) : list Z :=
  match l with
  | [] => []
  | (t, p) :: r =>
      match update s t p with
      | Some s' => t :: update_times s' r
      | None => update_times s r
      end
  end.
Fixpoint spaced (prev : Z) (l : list Z) : Prop :=
  match l with [] => True | t :: r => prev + 86400 <= t /\ spaced t r end.
Theorem c40_once_per_period s l : spaced (OracleModel.last_t s) (update_times s l).
Proof.
  revert s. induction l as [|[t p] l IH]; intros s; simpl; auto.
  destruct (update s t p) as [s'|] eqn:E; auto. simpl.
  apply c40_update_exact in E. cbv zeta in E. destruct E as (E1 & _ & E2 & _). split; [lia|].
  rewrite <- E2 at 1. apply IH.
Qed.

(** Consultation: amount times the stored average, in the pair's 10^-6 price units. *)
Theorem c40_consult spot s token one amount l :
  consult spot s token one amount = Some l -> 
  Forall2 (fun p r => fst r = snd (fst p) /\
             (snd p <> 0 -> snd r = amount * snd p / 10 ^ 18 / 10 ^ 6) /\
             (snd p = 0 -> exists q, spot (snd (fst p)) = Some q /\ snd r = q * amount / one))
          (filter (fun p => fst (fst p) =? token) (avg s)) l.
Proof.
  unfold consult, from_token. set (F := filter _ (avg s)). clearbody F. intros H.
  assert (K : consult_all spot one amount (map (fun p => (snd (fst p), snd p)) F) = Some l).
  { destruct (map _ F); [discriminate|exact H]. }
  clear H. revert l K. induction F as [|[[a b] v] F IH]; simpl; intros l K.
  - injection K as <-. constructor.
  - unbind K as x Ex. unbind K as rest Er. injection K as <-. constructor; [|auto]. simpl.
    unfold consult_one in Ex. destruct (Z.eqb_spec v 0) as [->|Nv].
    + unbind Ex as q Eq. unbind Ex as r E2. injection Ex as <-. num_inv. simpl.
      split; [reflexivity|]. split; [congruence|]. intros _. exists q. auto.
    + unbind Ex as r E2. injection Ex as <-. num_inv. simpl. change (10 ^ 18) with DEC. change (10 ^ 6) with 1000000.
      split; [reflexivity|]. split; [reflexivity|congruence].
Qed.

(** ** End to end with the constant-product pair *)
Lemma contrib_nonneg dt x y : 0 <= dt -> 0 <= x -> 0 <= y -> 0 <= contrib dt x y.
Proof.
  intros. unfold contrib. destruct (Z.eqb_spec x 0); simpl; [lia|]. destruct (Z.eqb_spec y 0); simpl; [lia|].
  apply Z.div_pos; nia.
Qed.
Lemma contrib_mono dt dt' x y : 0 <= dt <= dt' -> 0 <= x -> 0 <= y -> contrib dt x y <= contrib dt' x y.
Proof.
  intros. unfold contrib. destruct (Z.eqb_spec x 0); simpl; [lia|]. destruct (Z.eqb_spec y 0); simpl; [lia|].
  apply Z.div_le_mono; nia.
Qed.
Definition ev_ok (p : Z * Z * Z) : Prop := let '(t, x, y) := p in 0 <= x /\ 0 <= y.
Definition etime (p : Z * Z * Z) : Z := fst (fst p).

Lemma integral_nonneg evs : forall t x y T, 0 <= x -> 0 <= y -> Forall ev_ok evs ->
  Forall (fun p => t <= etime p) evs -> nondecr etime evs -> t <= T -> Forall (fun p => etime p <= T) evs ->
  0 <= integral t x y evs T.
Proof.
  induction evs as [|[[t1 x1] y1] evs IH]; simpl; intros t x y T Hx Hy Ho Ht Hn HT HTs.
  - apply contrib_nonneg; lia.
  - inversion Ho; subst. inversion Ht; subst. inversion HTs; subst. destruct Hn as [Hn1 Hn2].
    unfold etime in *; simpl in *. destruct H1.
    pose proof (contrib_nonneg (t1 - t) x y ltac:(lia) Hx Hy).
    assert (0 <= integral t1 x1 y1 evs T) by (apply IH; auto). lia.
Qed.

Lemma integral_extend evs : forall evs2 t x y T1 T2, 0 <= x -> 0 <= y ->
  Forall ev_ok (evs ++ evs2) -> Forall (fun p => t <= etime p) (evs ++ evs2) -> nondecr etime (evs ++ evs2) ->
  t <= T1 <= T2 -> Forall (fun p => etime p <= T1) evs -> Forall (fun p => T1 <= etime p <= T2) evs2 ->
  integral t x y evs T1 <= integral t x y (evs ++ evs2) T2.
Proof.
  induction evs as [|[[t1 x1] y1] evs IH]; simpl; intros evs2 t x y T1 T2 Hx Hy Ho Ht Hn HT H1 H2.
  - destruct evs2 as [|[[t1 x1] y1] r]; simpl.
    + apply contrib_mono; lia.
    + apply Forall_cons_iff in Ho. destruct Ho as [Ho1 Ho]. apply Forall_cons_iff in H2. destruct H2 as [H21 H2].
      destruct Hn as [Hn1 Hn2]. unfold ev_ok, etime in *; cbn in Ho1, H21, Hn1. destruct Ho1.
      pose proof (contrib_mono (T1 - t) (t1 - t) x y ltac:(lia) Hx Hy).
      assert (0 <= integral t1 x1 y1 r T2).
      { apply integral_nonneg; auto; try lia. eapply Forall_impl; [|exact H2]. simpl. unfold etime. intros; lia. }
      lia.
  - apply Forall_cons_iff in Ho. destruct Ho as [Ho1 Ho]. apply Forall_cons_iff in H1. destruct H1 as [H11 H1].
    destruct Hn as [Hn1 Hn2]. unfold ev_ok, etime in *; cbn in Ho1, H11, Hn1. destruct Ho1.
    specialize (IH evs2 t1 x1 y1 T1 T2). assert (integral t1 x1 y1 evs T1 <= integral t1 x1 y1 (evs ++ evs2) T2).
    { apply IH; auto. lia. }
    lia.
Qed.

Lemma events_reserves l : forall s, envs_ok l -> inv0 s ->
  Forall (fun p => 0 <= r0 (snd p) /\ 0 <= r1 (snd p)) (events s l).
Proof.
  induction l as [|[e m] l IH]; intros s He I; simpl; [constructor|]. inversion He; subst. simpl in *.
  destruct (step e m s) as [[s' o]|] eqn:E; [|auto].
  pose proof (step_inv0 _ _ _ _ _ H1 I E) as I'. destruct (touching m); [|auto].
  constructor; [split; apply I' | auto].
Qed.

Lemma events_times l : forall s P, Forall (fun em : env * msg => P (now (fst em))) l ->
  Forall (fun p => P (now (fst p))) (events s l).
Proof.
  induction l as [|[e m] l IH]; intros s P F; simpl; [constructor|]. inversion F; subst. simpl in *.
  destruct (step e m s) as [[s' o]|]; [|auto]. destruct (touching m); auto.
Qed.
Lemma events_nondecr l : forall s, nondecr (fun em : env * msg => now (fst em)) l ->
  nondecr (fun p : env * XykModel.state => now (fst p)) (events s l).
Proof.
  induction l as [|[e m] l IH]; intros s N; simpl; [constructor|]. simpl in N. destruct N as [N1 N2].
  destruct (step e m s) as [[s' o]|]; [|auto]. destruct (touching m); auto. simpl. split; [|auto].
  apply (events_times l s' (fun t => now e <= t)). exact N1.
Qed.
Lemma nondecr_map {A B} (g : A -> B) f l : nondecr (fun x => f (g x)) l -> nondecr f (map g l).
Proof.
  induction l as [|x l IH]; simpl; auto. intros [H1 H2]. split; auto. apply Forall_map. exact H1.
Qed.

(** The price-time integral of the pool between two moments, first asset priced in the second. *)
Definition window0 (l1 l2 : list (env * msg)) (e1 e2 : env) : Z :=
  integral 0 0 0 (map ev_time (events (init true) (l1 ++ l2))) (now e2)
  - integral 0 0 0 (map ev_time (events (init true) l1)) (now e1).

(** Oracle created after pair history [l1] at time [now e1], updated after [l1 ++ l2] at [now e2]:
    the stored average is the exact time average of the pool price over the window. *)
Theorem c40_end_to_end l1 l2 e1 e2 a0 a1 b0 b1 s' :
  nondecr (fun em => now (fst em)) (l1 ++ [(e1, DisableFeeShare 0)] ++ l2 ++ [(e2, DisableFeeShare 0)]) ->
  Forall (fun em => 0 <= now (fst em)) (l1 ++ [(e1, DisableFeeShare 0)] ++ l2 ++ [(e2, DisableFeeShare 0)]) ->
  envs_ok (l1 ++ l2) ->
  Forall (fun em => not_donation (snd em) = true) (l1 ++ l2) ->
  query_cumulative e1 (XykModel.run (init true) l1) = Some (a0, a1) ->
  query_cumulative e2 (XykModel.run (init true) (l1 ++ l2)) = Some (b0, b1) ->
  window0 l1 l2 e1 e2 < 2 ^ 128 ->
  update (instantiate (now e1) [(0, 1, a0); (1, 0, a1)]) (now e2) [(0, 1, b0); (1, 0, b1)] = Some s' ->
  0 <= window0 l1 l2 e1 e2 /\
  In (0, 1, window0 l1 l2 e1 e2 * 10 ^ 18 / (now e2 - now e1)) (avg s').
Proof.
  intros N F He D Q1 Q2 W U.
  assert (N' : nondecr (fun em : env * msg => now (fst em)) (l1 ++ l2 ++ [(e2, DisableFeeShare 0)]) /\
    nondecr (fun em : env * msg => now (fst em)) (l1 ++ [(e1, DisableFeeShare 0)]) /\
    Forall (fun em => now (fst em) <= now e1) l1 /\
    Forall (fun em => now e1 <= now (fst em)) (l2 ++ [(e2, DisableFeeShare 0)])).
  { clear - N. induction l1 as [|x l1 IH]; simpl in *.
    - destruct N as [N1 N2]. repeat split; auto.
    - destruct N as [N1 N2]. destruct (IH N2) as (A & B & C & E).
      apply Forall_app in N1. destruct N1 as [N1 N3]. inversion N3; subst.
      repeat split; auto. + apply Forall_app; auto. + apply Forall_app; split; auto. }
  destruct N' as (N2 & N1 & L1 & L2).
  apply Forall_app in F. destruct F as [F1 F2]. inversion F2; subst.
  rewrite app_assoc in N2.
  assert (I1 : a0 = integral 0 0 0 (map ev_time (events (init true) l1)) (now e1) mod 2 ^ 128).
  { apply Forall_app in D. destruct D as [D1 D2].
    apply (c10_proof l1 e1 true a0 a1); auto. apply Forall_app; split; auto. }
  assert (I2 : b0 = integral 0 0 0 (map ev_time (events (init true) (l1 ++ l2))) (now e2) mod 2 ^ 128).
  { apply (c10_proof (l1 ++ l2) e2 true b0 b1); auto. rewrite <- app_assoc. apply Forall_app; split; auto. }
  assert (W0 : 0 <= window0 l1 l2 e1 e2).
  { unfold window0. apply Zle_minus_le_0.
    rewrite events_app, map_app.
    apply Forall_app in L2. destruct L2 as [L2 L3]. inversion L3; subst. simpl in *.
    assert (N12 : nondecr (fun em : env * msg => now (fst em)) (l1 ++ l2)).
    { clear - N2. apply nondecr_app_one in N2. tauto. }
    assert (LE : Forall (fun em : env * msg => now (fst em) <= now e2) (l1 ++ l2)).
    { clear - N2. apply nondecr_app_one in N2. destruct N2 as [_ N2]. exact N2. }
    apply Forall_app in LE. destruct LE as [_ LE2].
    assert (Z0 : Forall (fun p => 0 <= etime p) (map ev_time (events (init true) l1) ++ map ev_time (events (XykModel.run (init true) l1) l2))).
    { rewrite <- map_app, <- events_app. apply Forall_map. unfold etime, ev_time. simpl.
      apply (events_times _ _ (fun t => 0 <= t)). apply Forall_app. split; auto.
      eapply Forall_impl; [|exact L2]. simpl. intros. lia. }
    apply integral_extend; auto; try lia.
    - rewrite <- map_app, <- events_app. apply Forall_map.
      eapply Forall_impl; [|apply (events_reserves (l1 ++ l2) (init true) He (init_inv0 true))].
      unfold ev_ok, ev_time. auto.
    - rewrite <- map_app, <- events_app. apply nondecr_map.
      apply (events_nondecr (l1 ++ l2) (init true)). exact N12.
    - apply Forall_map. unfold etime, ev_time. simpl. apply (events_times _ _ (fun t => t <= now e1)). exact L1.
    - apply Forall_map. unfold etime, ev_time. simpl. apply (events_times _ _ (fun t => now e1 <= t <= now e2)).
      apply Forall_and; auto. }
  split; [exact W0|].
  pose proof U as U'. apply c40_update_exact in U. cbv zeta in U. destruct U as (Ue & _ & _ & K).
  apply K. simpl. exists 0, 1, a0, b0. split; [auto|]. split; [auto|].
  rewrite I1, I2, <- Zminus_mod. fold (window0 l1 l2 e1 e2). rewrite Z.mod_small by lia. reflexivity.
Qed.

Example c40_end_to_end_example :
  let l1 := [(ex_env 100 10, Provide 1 1 1000000000 2000000000 None None)] in
  let l2 := [(ex_env 40000 20, Swap false 500000000 None (Some 500000000000000000))] in
  let e1 := ex_env 1000 12 in let e2 := ex_env 101000 30 in
  exists a0 a1 b0 b1 s',
    query_cumulative e1 (XykModel.run (init true) l1) = Some (a0, a1) /\
    query_cumulative e2 (XykModel.run (init true) (l1 ++ l2)) = Some (b0, b1) /\
    window0 l1 l2 e1 e2 = 132276447182 /\
    update (instantiate (now e1) [(0, 1, a0); (1, 0, a1)]) (now e2) [(0, 1, b0); (1, 0, b1)] = Some s' /\
    avg s' <> [].
Proof.
  cbv zeta. do 5 eexists. split; [vm_compute; reflexivity|]. split; [vm_compute; reflexivity|].
  split; [vm_compute; reflexivity|]. split; [vm_compute; reflexivity|]. discriminate.
Qed.
Example c40_example :
  let s := instantiate 1000 [(0, 1, 2 ^ 128 - 50); (1, 0, 7)] in
  exists s', update s 87400 [(0, 1, 172799950); (1, 0, 43207)] = Some s' /\
    avg s' = [(0, 1, 2000 * 10 ^ 18); (1, 0, 5 * 10 ^ 17)] /\
    update s 87399 [(0, 1, 172799950); (1, 0, 43207)] = None /\
    consult (fun _ => None) s' 0 1000000 3000000 = Some [(1, 6000)] /\
    consult (fun _ => Some 1990000) s 0 1000000 3000000 = Some [(1, 5970000)].
Proof. eexists. split; [vm_compute; reflexivity|]. vm_compute. auto. Qed.

Print Assumptions c40_update_exact.
Print Assumptions c40_wraparound.
Print Assumptions c40_frozen_within_period.
Print Assumptions c40_once_per_period.
Print Assumptions c40_consult.
Print Assumptions c40_end_to_end.
