From Coq Require Import ZArith Lia Bool List.
From Verif Require Import Num Amap Hist VestingModel VestingSpec.
Import ListNotations.
Open Scope Z_scope.

(** ** One schedule *)
Lemma lin_bounds p d n : 0 <= p <= n -> 0 < n -> 0 <= d -> 0 <= p * d / n <= d.
Proof.
  intros. split; [apply Z.div_pos; nia|]. apply Z.div_le_upper_bound; nia.
Qed.

Lemma unlocked_bounds s t : wf s ->
  0 <= unlocked s t <= end_amount s /\
  (time (start s) <= t -> amt (start s) <= unlocked s t).
Proof.
  intros (H1 & H2 & H3). unfold unlocked, end_amount, is_u64, is_u128 in *.
  destruct (fin s) as [e|].
  - destruct H3 as (H3 & H4 & H5 & H6). destruct (Z.ltb_spec t (time (start s))); [lia|].
    destruct (Z.leb_spec (time e) t); [lia|].
    pose proof (lin_bounds (t - time (start s)) (amt e - amt (start s)) (time e - time (start s))). lia.
  - destruct (Z.ltb_spec t (time (start s))); lia.
Qed.

Lemma unlocked_mono s t t' : wf s -> t <= t' -> unlocked s t <= unlocked s t'.
Proof.
  intros W Ht. pose proof (unlocked_bounds s t W) as B. pose proof (unlocked_bounds s t' W) as B'.
  destruct W as (H1 & H2 & H3). unfold unlocked, end_amount, is_u64, is_u128 in *.
  destruct (fin s) as [e|].
  - destruct H3 as (H3 & H4 & H5 & H6). destruct (Z.ltb_spec t (time (start s))); [lia|].
    destruct (Z.ltb_spec t' (time (start s))); [lia|].
    destruct (Z.leb_spec (time e) t'); [lia|].
    destruct (Z.leb_spec (time e) t); [lia|].
    apply Z.add_le_mono_l. apply Z.div_le_mono; nia.
  - destruct (Z.ltb_spec t (time (start s))); destruct (Z.ltb_spec t' (time (start s))); lia.
Qed.

Lemma sched_unlocked_eq s t u : wf s -> is_u64 t -> time (start s) <= t ->
  sched_unlocked s t = Some u -> u = unlocked s t.
Proof.
  intros (H1 & H2 & H3) Ht Hs H. unfold sched_unlocked, unlocked, is_u64, is_u128 in *.
  destruct (Z.ltb_spec t (time (start s))); [lia|].
  destruct (fin s) as [e|]; [|congruence]. destruct H3 as (H3 & H4 & H5 & H6).
  unbind H as p Ep. unbind H as n En. num_inv.
  destruct (Z.eqb_spec (Z.min t (time e) - time (start s)) 0).
  - injection H as <-. destruct (Z.leb_spec (time e) t); [lia|].
    replace (t - time (start s)) with 0 by lia. rewrite Z.mul_0_l, Z.div_0_l by lia. lia.
  - unbind H as d Ed. unbind H as r Er. num_inv.
    destruct (Z.leb_spec (time e) t).
    + rewrite Z.min_r by lia. rewrite Z.mul_comm, Z.div_mul by lia. lia.
    + rewrite Z.min_l by lia. reflexivity.
Qed.

Lemma sched_unlocked_total s t : wf s -> is_u64 t -> time (start s) <= t ->
  sched_unlocked s t = Some (unlocked s t).
Proof.
  intros W Ht Hs. pose proof (unlocked_bounds s t W) as B.
  destruct (sched_unlocked s t) as [u|] eqn:E.
  - rewrite (sched_unlocked_eq _ _ _ W Ht Hs E). auto.
  - exfalso. destruct W as (H1 & H2 & H3). unfold sched_unlocked, is_u64, is_u128 in *.
    destruct (fin s) as [e|]; [|discriminate]. destruct H3 as (H3 & H4 & H5 & H6).
    unfold sub64, u64 in E.
    rewrite (proj2 (fits_iff U64MAX (Z.min t (time e) - time (start s)))) in E by lia.
    rewrite (proj2 (fits_iff U64MAX (time e - time (start s)))) in E by lia.
    destruct (Z.eqb_spec (Z.min t (time e) - time (start s)) 0); [discriminate|].
    unfold sub128, u128 in E. rewrite (proj2 (fits_iff U128MAX (amt e - amt (start s)))) in E by lia.
    pose proof (lin_bounds (Z.min t (time e) - time (start s)) (amt e - amt (start s))
      (time e - time (start s)) ltac:(lia) ltac:(lia) ltac:(lia)) as L.
    unfold muldiv128 in E. destruct (Z.eqb_spec (time e - time (start s)) 0); [lia|].
    unfold u128 in E. rewrite (proj2 (fits_iff U128MAX _)) in E by lia.
    unfold add128, u128 in E. rewrite (proj2 (fits_iff U128MAX _)) in E by lia. discriminate.
Qed.

(** ** Lists of schedules *)
Lemma unlocked_before s t : t < time (start s) -> unlocked s t = 0.
Proof. intros. unfold unlocked. destruct (Z.ltb_spec t (time (start s))); [auto|lia]. Qed.

Lemma unlocked_all_bounds l t : Forall wf l -> 0 <= unlocked_all l t <= full_all l.
Proof.
  induction 1 as [|s l W _ IH]; simpl; [lia|]. pose proof (unlocked_bounds s t W). lia.
Qed.
Lemma unlocked_all_mono l t t' : Forall wf l -> t <= t' -> unlocked_all l t <= unlocked_all l t'.
Proof.
  intros H Ht. induction H as [|s l W _ IH]; simpl; [lia|]. pose proof (unlocked_mono s t t' W Ht). lia.
Qed.
Lemma full_all_nonneg l : Forall wf l -> 0 <= full_all l.
Proof. intros H. pose proof (unlocked_all_bounds l 0 H). lia. Qed.
Lemma unlocked_all_app l1 l2 t : unlocked_all (l1 ++ l2) t = unlocked_all l1 t + unlocked_all l2 t.
Proof. induction l1; simpl; lia. Qed.
Lemma full_all_app l1 l2 : full_all (l1 ++ l2) = full_all l1 + full_all l2.
Proof. induction l1; simpl; lia. Qed.

Lemma sum_unlocked_eq l t : forall a r, Forall wf l -> is_u64 t ->
  sum_unlocked l t a = Some r -> r = a + unlocked_all l t.
Proof.
  induction l as [|s l IH]; simpl; intros a r W Ht H; [injection H as <-; lia|].
  inversion W; subst. destruct (Z.ltb_spec t (time (start s))).
  - rewrite (unlocked_before s t) by lia. apply IH in H; auto; lia.
  - unbind H as u Eu. unbind H as a' Ea. apply sched_unlocked_eq in Eu; auto. num_inv.
    apply IH in H; auto. lia.
Qed.
Lemma sum_unlocked_total l t : forall a, Forall wf l -> is_u64 t -> 0 <= a ->
  a + unlocked_all l t <= U128MAX -> sum_unlocked l t a = Some (a + unlocked_all l t).
Proof.
  induction l as [|s l IH]; simpl; intros a W Ht Ha HM; [f_equal; lia|].
  inversion W; subst. pose proof (unlocked_bounds s t H1). pose proof (unlocked_all_bounds l t H2).
  destruct (Z.ltb_spec t (time (start s))).
  - rewrite (unlocked_before s t) in * by lia. rewrite IH; auto; try lia; f_equal; lia.
  - rewrite sched_unlocked_total by auto. unfold add128, u128.
    rewrite (proj2 (fits_iff U128MAX _)) by lia. rewrite IH; auto; try lia. f_equal. lia.
Qed.
Lemma available_eq t v r : Forall wf (schedules v) -> is_u64 t ->
  available t v = Some r -> r = unlocked_all (schedules v) t - released v /\ 0 <= r.
Proof.
  intros W Ht H. unfold available in H. unbind H as a Ea. apply sum_unlocked_eq in Ea; auto.
  num_inv. simpl in *. lia.
Qed.

(** ** Cutting a schedule *)
Lemma cut_spec t a s s' : wf s -> is_u64 t -> active t s = true -> 0 < a -> cut t a s = Some s' ->
  wf s' /\ end_amount s' = end_amount s - a /\ unlocked s' t = unlocked s t /\
  (forall t', t <= t' -> unlocked s' t' <= unlocked s t').
Proof.
  intros W Ht Ha Pa H. unfold cut, active in *. destruct (fin s) as [e|] eqn:Ef; [|discriminate].
  apply andb_true_iff in Ha. destruct Ha as [A1 A2]. apply Z.leb_le in A1. apply Z.ltb_lt in A2.
  unbind H as u Eu. unbind H as lft El. unguard H Eg. unbind H as e' Ee. injection H as <-.
  apply sched_unlocked_eq in Eu; auto. pose proof (unlocked_bounds s t W) as B.
  num_inv. bools. unfold end_amount in *. rewrite Ef in *. simpl.
  set (u := unlocked s t) in *.
  assert (W' : wf (mkSch (mkPt t u) (Some (mkPt (time e) (amt e - a))))).
  { destruct W as (W1 & W2 & W3). rewrite Ef in W3. unfold wf, is_u64, is_u128 in *. simpl. lia. }
  split; auto. split; [lia|]. split.
  - unfold unlocked. simpl. destruct (Z.ltb_spec t t); [lia|]. destruct (Z.leb_spec (time e) t); [lia|].
    rewrite Z.sub_diag, Z.mul_0_l, Z.div_0_l by lia. lia.
  - intros t' Ht'. destruct W as (W1 & W2 & W3). rewrite Ef in W3. destruct W3 as (W3 & W4 & W5 & W6).
    unfold unlocked at 1. simpl. destruct (Z.ltb_spec t' t); [lia|].
    unfold unlocked. rewrite Ef. destruct (Z.ltb_spec t' (time (start s))); [lia|].
    destruct (Z.leb_spec (time e) t'); [lia|].
    assert (Hu : u = amt (start s) + (t - time (start s)) * (amt e - amt (start s)) / (time e - time (start s))).
    { unfold u, unlocked. rewrite Ef. destruct (Z.ltb_spec t (time (start s))); [lia|].
      destruct (Z.leb_spec (time e) t); [lia|]. auto. }
    clearbody u.
    set (S := amt (start s)) in *. set (E := amt e) in *. set (ts := time (start s)) in *. set (te := time e) in *.
    pose proof (div_mul_le ((t - ts) * (E - S)) (te - ts) ltac:(lia)) as D1.
    set (q := (t - ts) * (E - S) / (te - ts)) in *.
    assert (D1' : (te - ts) * (u - S) <= (t - ts) * (E - S)) by (rewrite Hu; lia).
    (* goal: u + floor((t'-t)(E-a-u)/(te-t)) <= S + floor((t'-ts)(E-S)/(te-ts)) *)
    assert (G : u - S + (t' - t) * (E - a - u) / (te - t) <= (t' - ts) * (E - S) / (te - ts)); [|lia].
    apply div_ge_iff; [lia|].
    pose proof (div_mul_le ((t' - t) * (E - a - u)) (te - t) ltac:(lia)) as D2.
    set (x := (t' - t) * (E - a - u) / (te - t)) in *. clearbody x q. clear Hu.
    (* multiply by (te - t) *)
    apply (Zmult_le_reg_r _ _ (te - t)); [lia|].
    assert (X1 : (te - ts) * ((te - t) * x) <= (te - ts) * ((t' - t) * (E - a - u)))
      by (apply Z.mul_le_mono_nonneg_l; lia).
    assert (X2 : (te - t') * ((te - ts) * (u - S)) <= (te - t') * ((t - ts) * (E - S)))
      by (apply Z.mul_le_mono_nonneg_l; lia).
    assert (X3 : 0 <= (te - ts) * ((t' - t) * a)) by (repeat apply Z.mul_nonneg_nonneg; lia).
    nia.
Qed.

Lemma cut_active_spec t a l : forall l', Forall wf l -> is_u64 t -> 0 < a -> cut_active t a l = Some l' ->
  Forall wf l' /\ full_all l' = full_all l - a /\ unlocked_all l' t = unlocked_all l t /\
  (forall t', t <= t' -> unlocked_all l' t' <= unlocked_all l t').
Proof.
  induction l as [|s l IH]; simpl; intros l' W Ht Pa H; [discriminate|]. inversion W; subst.
  destruct (active t s) eqn:A.
  - unguard H Eg. unbind H as s' Es. injection H as <-.
    apply cut_spec in Es; auto. destruct Es as (C1 & C2 & C3 & C4). simpl.
    repeat split; auto; try lia. intros t' Ht'. specialize (C4 t' Ht'). lia.
  - unbind H as r Er. injection H as <-. destruct (IH r H3 Ht Pa eq_refl) as (C1 & C2 & C3 & C4). simpl.
    repeat split; auto; try lia. intros t' Ht'. specialize (C4 t' Ht'). lia.
Qed.

(** ** State invariant at time [t] *)
Definition acc_ok (t : Z) (p : Z * vinfo) : Prop :=
  Forall wf (schedules (snd p)) /\ 0 <= released (snd p) <= unlocked_all (schedules (snd p)) t.
Record inv (t : Z) (s : state) : Prop := mkInv
  { i_acc : Forall (acc_ok t) (accs s); i_sol : sumf owed (accs s) <= bal s; i_bal : bal s <= U128MAX }.

Lemma acc_ok_mono t t' p : t <= t' -> acc_ok t p -> acc_ok t' p.
Proof.
  intros Ht (W & H). split; auto. pose proof (unlocked_all_mono _ t t' W Ht). lia.
Qed.
Lemma inv_mono t t' s : t <= t' -> inv t s -> inv t' s.
Proof.
  intros Ht [I1 I2 I3]. constructor; auto. eapply Forall_impl; [|exact I1]. intros. eapply acc_ok_mono; eauto.
Qed.
Lemma find_ok t s a v : inv t s -> find a (accs s) = Some v -> acc_ok t (a, v).
Proof. intros I H. apply find_in in H. pose proof (i_acc _ _ I) as F. rewrite Forall_forall in F. auto. Qed.
Lemma acc_owed t p : acc_ok t p -> 0 <= owed (snd p).
Proof. intros (W & H). unfold owed. pose proof (unlocked_all_bounds _ t W). lia. Qed.
Lemma inv_owed t s : inv t s -> Forall (fun p => 0 <= owed (snd p)) (accs s).
Proof. intros I. eapply Forall_impl; [|exact (i_acc _ _ I)]. intros. eapply acc_owed; eauto. Qed.

Lemma sched_wf now s : sch_ok s -> sched_ok now s = true -> wf s.
Proof.
  intros [[P1 P2] P3] H. unfold sched_ok in H. unfold wf, pt_ok in *. destruct (fin s) as [e|].
  - bools. tauto.
  - tauto.
Qed.
Lemma scheds_wf now l : Forall sch_ok l -> forallb (sched_ok now) l = true -> Forall wf l.
Proof.
  intros H F. rewrite forallb_forall in F. rewrite Forall_forall in *. intros s Hs.
  apply (sched_wf now); auto.
Qed.
Lemma sum_deposit_eq l : forall a r, sum_deposit l a = Some r -> r = a + full_all l.
Proof.
  induction l as [|s l IH]; simpl; intros a r H; [injection H as <-; lia|].
  unbind H as b Eb. num_inv. apply IH in H. lia.
Qed.

Lemma register_loop_spec now l : forall m dep m' dep',
  Forall (fun p => Forall sch_ok (snd p)) l -> Forall (acc_ok now) m ->
  register_loop now l m dep = Some (m', dep') ->
  Forall (acc_ok now) m' /\ sumf owed m' - sumf owed m = dep' - dep.
Proof.
  induction l as [|[a ss] l IH]; simpl; intros m dep m' dep' Hl Hm H; [injection H as <- <-; split; auto; lia|].
  inversion Hl; subst. simpl in *.
  unguard H E1. unbind H as d Ed. apply sum_deposit_eq in Ed.
  pose proof (scheds_wf _ _ H2 E1) as W.
  destruct (find a m) as [old|] eqn:Ef.
  - unguard H E2.
    assert (Ho : acc_ok now (a, old)).
    { apply find_in in Ef. rewrite Forall_forall in Hm. auto. }
    destruct Ho as [Wo Ro]. simpl in *.
    apply IH in H; auto.
    + destruct H as [H H']. split; auto. rewrite sumf_put, Ef in H'. unfold owed in *. simpl in *.
      rewrite full_all_app in H'. lia.
    + apply Forall_put; auto. split; simpl.
      * apply Forall_app; auto.
      * rewrite unlocked_all_app. pose proof (unlocked_all_bounds ss now W). lia.
  - apply IH in H; auto.
    + destruct H as [H H']. split; auto. rewrite sumf_put, Ef in H'. unfold owed in *. simpl in *. lia.
    + apply Forall_put; auto. split; simpl; auto. pose proof (unlocked_all_bounds ss now W). lia.
Qed.

Lemma claim_inv now s a amount s' o : inv now s -> is_u64 now ->
  claim now s a amount = Some (s', o) -> (match amount with Some x => 0 <= x | None => True end) ->
  exists v, find a (accs s) = Some v /\
    let av := unlocked_all (schedules v) now - released v in
    0 <= o <= av /\ (match amount with Some x => o = x | None => o = av end) /\
    owner s' = owner s /\ bal s' = bal s - o /\
    (s' = s /\ o = 0 \/ accs s' = put a (mkInfo (schedules v) (released v + o)) (accs s)).
Proof.
  intros I Ht H Hx. unfold claim in H. unbind H as v Ev. unbind H as av Ea. unbind H as c Ec.
  exists v. split; auto. cbv zeta. destruct (find_ok _ _ _ _ I Ev) as [W R]. simpl in *.
  apply available_eq in Ea; auto. destruct Ea as [Ea Ea'].
  assert (Hc : 0 <= c <= av /\ match amount with Some x => c = x | None => c = av end).
  { destruct amount as [x|].
    - unguard Ec Eg. injection Ec as <-. bools. lia.
    - injection Ec as <-. lia. }
  destruct Hc as [Hc1 Hc2]. rewrite Ea in *.
  destruct (Z.eqb_spec c 0).
  - injection H as <- <-. repeat split; try lia; auto. destruct amount; lia.
  - unbind H as rel Er. unbind H as b Eb. injection H as <- <-. num_inv. simpl.
    repeat split; try lia; auto.
Qed.

Lemma step_inv now m s s' o : inv now s -> is_u64 now -> msg_ok m -> step now m s = Some (s', o) -> inv now s'.
Proof.
  intros I Ht Hm H. pose proof (inv_owed _ _ I) as NO. destruct I as [I1 I2 I3]. destruct m; simpl in H.
  - unguard H Eg. unbind H as [m' dep] El. unguard H Ed. unbind H as b Eb. injection H as <- <-.
    apply register_loop_spec in El; auto. destruct El as [L1 L2]. bools. num_inv.
    constructor; simpl; auto; lia.
  - unguard H Eg. apply claim_inv in H; auto; [|constructor; auto|destruct amount; bools; auto].
    destruct H as (v & Ev & Ho & _ & _ & Hb & [[-> ->]|Ha]); [constructor; auto|].
    destruct (find_ok now s sender v ltac:(constructor; auto) Ev) as [W R]. simpl in *.
    constructor; [| |lia].
    + rewrite Ha. apply Forall_put; auto. split; simpl; auto. lia.
    + rewrite Ha, sumf_put, Ev. unfold owed at 2 3. simpl. unfold owed in *. lia.
  - unguard H Eg. unbind H as v Ev. unbind H as l El. unbind H as b Eb. injection H as <- <-.
    destruct (find_ok now s account v ltac:(constructor; auto) Ev) as [W R]. simpl in *. bools. num_inv.
    apply cut_active_spec in El; auto. destruct El as (C1 & C2 & C3 & _).
    constructor; simpl; [| |lia].
    + apply Forall_put; auto. split; simpl; auto. lia.
    + rewrite sumf_put, Ev. unfold owed at 2 3. simpl. unfold owed in *. lia.
  - unguard H Eg. unbind H as b Eb. injection H as <- <-. bools. num_inv. constructor; simpl; auto. lia.
Qed.

Lemma exec_inv t tm s : inv t s -> t <= fst tm -> is_u64 (fst tm) -> msg_ok (snd tm) -> inv (fst tm) (exec s tm).
Proof.
  intros I Ht H1 H2. unfold exec. destruct (step (fst tm) (snd tm) s) as [[s' o]|] eqn:E.
  - eapply step_inv; [| | |exact E]; auto. eapply inv_mono; eauto.
  - eapply inv_mono; eauto.
Qed.

Lemma run_inv l : forall t t' s, inv t s -> hist_ok l ->
  Forall (fun tm => t <= fst tm) l -> t <= t' -> Forall (fun tm => fst tm <= t') l -> inv t' (run s l).
Proof.
  induction l as [|tm l IH]; simpl; intros t t' s I Ho Hb Ht Hb'; [eapply inv_mono; eauto|].
  destruct Ho as [[N1 N2] F]. inversion F; subst. inversion Hb; subst. inversion Hb'; subst.
  apply (IH (fst tm)); auto.
  - apply (exec_inv t); tauto.
  - split; auto.
Qed.

Lemma init_inv t o : inv t (init o).
Proof. constructor; simpl; [constructor|lia|unfold U128MAX; lia]. Qed.

(** Released = total paid by claims. *)
Definition rel_of (s : state) (a : Z) : Z := match find a (accs s) with Some v => released v | None => 0 end.

Lemma register_loop_rel now l : forall m dep m' dep' a,
  register_loop now l m dep = Some (m', dep') ->
  match find a m' with Some v => released v | None => 0 end =
  match find a m with Some v => released v | None => 0 end.
Proof.
  induction l as [|[b ss] l IH]; simpl; intros m dep m' dep' a H; [injection H as <- <-; auto|].
  unguard H E1. unbind H as d Ed. destruct (find b m) as [old|] eqn:Ef.
  - unguard H E2. apply (IH _ _ _ _ a) in H. rewrite H, find_put.
    destruct (Z.eqb_spec b a); auto. subst. rewrite Ef. auto.
  - apply (IH _ _ _ _ a) in H. rewrite H, find_put.
    destruct (Z.eqb_spec b a); auto. subst. rewrite Ef. auto.
Qed.

Lemma step_rel now m s s' o a : inv now s -> is_u64 now -> step now m s = Some (s', o) ->
  rel_of s' a = rel_of s a + (match m with Claim b _ => if b =? a then o else 0 | _ => 0 end).
Proof.
  intros I Ht H. unfold rel_of. destruct m; simpl in H.
  - unguard H Eg. unbind H as [m' dep] El. unguard H Ed. unbind H as b Eb. injection H as <- <-. simpl.
    rewrite (register_loop_rel _ _ _ _ _ _ a El). lia.
  - unguard H Eg. apply claim_inv in H; auto; [|destruct amount; bools; auto].
    destruct H as (v & Ev & Ho & _ & _ & Hb & [[-> ->]|Ha]).
    + destruct (sender =? a); lia.
    + rewrite Ha, find_put. destruct (Z.eqb_spec sender a); [subst; rewrite Ev; simpl; lia | lia].
  - unguard H Eg. unbind H as v Ev. unbind H as l El. unbind H as b Eb. injection H as <- <-. simpl.
    rewrite find_put. destruct (Z.eqb_spec account a); [subst; rewrite Ev; simpl; lia|lia].
  - unguard H Eg. unbind H as b Eb. injection H as <- <-. simpl. lia.
Qed.

Lemma run_claimed l : forall t s a, inv t s -> hist_ok l -> Forall (fun tm => t <= fst tm) l ->
  rel_of (run s l) a = rel_of s a + claimed s l a.
Proof.
  induction l as [|[tm m] l IH]; simpl; intros t s a I Ho Hb; [lia|].
  destruct Ho as [[N1 N2] F]. inversion F; subst. inversion Hb; subst. simpl in *.
  unfold exec. simpl. destruct H1 as [U M].
  pose proof (inv_mono _ _ _ H3 I) as I'.
  destruct (step tm m s) as [[s' o]|] eqn:E.
  - rewrite (IH tm); auto; [|eapply step_inv; eauto|split; auto].
    rewrite (step_rel _ _ _ _ _ a I' U E). lia.
  - apply (IH tm); auto. split; auto.
Qed.
