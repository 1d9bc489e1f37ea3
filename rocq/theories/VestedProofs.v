(** Lemmas for the incentives contract paid from vesting. *)
From Coq Require Import ZArith Lia Bool List.
From Verif Require Import Num Amap VestedModel VestedSpec.
From Verif Require IncentivesModel IncentivesSpec IncentivesBudget IncentivesExit VestingModel VestingSpec VestingProofs.
Import ListNotations.
Open Scope Z_scope.

(** ** Amounts of protocol reward in the outputs of a message *)
Definition prot_pos (x : IncentivesModel.out) : Prop :=
  match x with IncentivesModel.Prot _ v => 0 < v | _ => True end.

Section Outs.
  Import IncentivesModel IncentivesSpec.
  Lemma pay_pos e to s x : Forall prot_pos (snd (IncentivesModel.pay e to s x)).
  Proof.
    unfold IncentivesModel.pay. destruct x as [a v]. destruct (v =? 0); [constructor|].
    destruct (_ && _); repeat constructor.
  Qed.
  Lemma pay_all_pos e to l : forall s, Forall prot_pos (snd (pay_all e to s l)).
  Proof.
    induction l as [|x r IH]; intros s; cbn [pay_all]; [constructor|].
    pose proof (pay_pos e to s x) as P. destruct (IncentivesModel.pay e to s x) as [s1 o1].
    specialize (IH s1). destruct (pay_all e to s1 r) as [s2 o2]. apply Forall_app. auto.
  Qed.
  Lemma pay_prot_pos e to v o : 0 <= v -> pay_prot e to v = Some o -> Forall prot_pos o.
  Proof.
    intros V H. unfold pay_prot in H. destruct (Z.eqb_spec v 0); [injection H as <-; constructor|].
    unguard H G. injection H as <-. repeat constructor. simpl. lia.
  Qed.
  Lemma incentivize_each_pos e l : forall s f s' f' o, incentivize_each e l s f = Some (s', f', o) -> Forall prot_pos o.
  Proof.
    induction l as [|[lp [[a amt] n]] r IH]; intros s f s' f' o H; simpl in H; [injection H as _ _ <-; constructor|].
    unbind H as [[s1 f1] o1] E. unbind H as [[s2 f2] o2] E2. injection H as <- <- <-. apply Forall_app.
    split; [|apply (IH _ _ _ _ _ E2)].
    unfold incentivize in E. unbind E as [[ne en] rr] E0. unguard E G.
    unbind E as [q rem] E1. unbind E as [rs sch] E3. unbind E as [[f3 s3] o3] E4. unbind E as [f4 s4] E5.
    unbind E as s5 E6. injection E as <- <- <-.
    destruct (fee s) as [[d v]|]; [|injection E4 as <- <- <-; constructor].
    destruct (_ && _) in E4; [|injection E4 as <- <- <-; constructor].
    unbind E4 as g0 E7. unguard E4 G3. injection E4 as <- <- <-. repeat constructor.
  Qed.
  Lemma step_pos e sd m s s' o : IncentivesModel.step e sd m s = Some (s', o) -> Forall prot_pos o.
  Proof.
    assert (Q : forall r : option IncentivesModel.state, silent r = Some (s', o) -> Forall prot_pos o).
    { intros r H. unfold silent in H. unbind H as x E. injection H as _ <-. constructor. }
    destruct m; cbn [IncentivesModel.step]; intros H; try (apply Q in H; exact H).
    - unfold claim in H. unguard H G. unbind H as [[s1 ext] prot] E. unbind H as o2 E2.
      pose proof (pay_all_pos e sd ext s1) as P. destruct (pay_all e sd s1 ext) as [s2 o1]. injection H as <- <-.
      apply Forall_app. split; [exact P|]. apply (pay_prot_pos _ _ _ _) in E2; [exact E2|].
      destruct l as [|lp r]; cbn [claim_each] in E; [injection E as _ _ <-; lia|].
      unbind E as p F1. unbind E as u F2. unbind E as [q rem] F3. unbind E as [e1 p1] F4. unbind E as s3 F5.
      unbind E as [[s4 e2] p2] F6. unbind E as pr F7. injection E as _ _ <-. apply add128_Some in F7. lia.
    - unfold deposit in H. unguard H G. unbind H as [q rem] E1. unbind H as [ext prot] E2. unbind H as a E3.
      unbind H as t E4. unbind H as s1 E5. unbind H as o2 E6.
      match type of H with context [pay_all ?x ?y ?z ?w] => pose proof (pay_all_pos x y w z) as P; destruct (pay_all x y z w) as [s2 o1] end.
      injection H as <- <-. apply Forall_app. split; [exact P|]. apply (pay_prot_pos _ _ _ _) in E6; [exact E6|].
      apply (IncentivesExit.due_nn _ _ _ _ _ _ E2).
    - unfold withdraw in H. unbind H as p E1. unbind H as u E2. unguard H G. unbind H as [q rem] E3.
      unbind H as [ext prot] E4. unbind H as a E5. unbind H as t E6. unbind H as s1 E7. unbind H as o2 E8.
      match type of H with context [pay_all ?x ?y ?z ?w] => pose proof (pay_all_pos x y w z) as P; destruct (pay_all x y z w) as [s2 o1] end.
      unguard H G2. injection H as <- <-. rewrite !Forall_app. split; [exact P|]. split; [|repeat constructor].
      apply (pay_prot_pos _ _ _ _) in E8; [exact E8|]. apply (IncentivesExit.due_nn _ _ _ _ _ _ E4).
    - unfold incentivize_many in H. unguard H G. unbind H as [[s1 f1] o1] E. unguard H G2. injection H as <- <-.
      apply (incentivize_each_pos _ _ _ _ _ _ _ E).
    - unfold remove_reward in H. unguard H G. unbind H as p Ep. unbind H as [q rem] E.
      unbind H as [[[q' x] sch] v] E2. unbind H as s1 E3. injection H as H.
      unfold IncentivesModel.pay in H. destruct (v =? 0); [injection H as <- <-; constructor|].
      destruct (_ && _) in H; injection H as <- <-; repeat constructor.
    - unfold claim_orphaned in H. unguard H G. unguard H G2. injection H as H.
      match type of H with pay_all ?x ?y ?z ?w = _ => pose proof (pay_all_pos x y w z) as P end. rewrite H in P. exact P.
    - injection H as <- <-. constructor.
  Qed.
End Outs.

Lemma pos_nn o : Forall prot_pos o -> 0 <= IncentivesSpec.prot_out_sum o.
Proof.
  induction 1 as [|x r H _ IH]; unfold IncentivesSpec.prot_out_sum in *; simpl; [lia|]. destruct x; simpl in H; lia.
Qed.
Lemma sum_cons x o : IncentivesSpec.prot_out_sum (x :: o) =
  match x with IncentivesModel.Prot _ v => v | _ => 0 end + IncentivesSpec.prot_out_sum o.
Proof. reflexivity. Qed.

(** ** Claims from the vesting account *)
Section Claims.
  Import VestingModel VestingSpec VestingProofs.
  Lemma claim_ok t v self w x : inv t v -> is_u64 t -> find self (accs v) = Some w -> full_all (schedules w) <= U128MAX ->
    0 < x <= unlocked_all (schedules w) t - released w ->
    exists v', VestingModel.step t (Claim self (Some x)) v = Some (v', x) /\
      find self (accs v') = Some (mkInfo (schedules w) (released w + x)).
  Proof.
    intros I U E M X. destruct (find_ok _ _ _ _ I E) as [W Q]. simpl in Q, W.
    pose proof (unlocked_all_bounds (schedules w) t W) as B.
    pose proof (sumf_find_le owed _ _ _ (inv_owed _ _ I) E) as L. pose proof (i_sol _ _ I). pose proof (i_bal _ _ I).
    unfold owed in L at 1. cbn [VestingModel.step]. unfold claim. rewrite E. unfold available.
    replace (0 <=? x) with true by (symmetry; apply Z.leb_le; lia).
    rewrite sum_unlocked_total; auto; try lia. cbn [Z.add].
    assert (S1 : sub128 (unlocked_all (schedules w) t) (released w) = Some (unlocked_all (schedules w) t - released w))
      by (apply sub128_Some; lia).
    replace (0 + unlocked_all (schedules w) t) with (unlocked_all (schedules w) t) by lia. rewrite S1.
    replace (x <=? unlocked_all (schedules w) t - released w) with true by (symmetry; apply Z.leb_le; lia).
    replace (x =? 0) with false by (symmetry; apply Z.eqb_neq; lia).
    assert (S2 : add128 (released w) x = Some (released w + x)) by (apply add128_Some; lia).
    assert (S3 : sub128 (bal v) x = Some (bal v - x)) by (apply sub128_Some; lia).
    rewrite S2, S3. eexists. split; [reflexivity|]. cbn [accs]. rewrite find_put, Z.eqb_refl. reflexivity.
  Qed.
  Lemma claim_fact t v self x v' o : inv t v -> is_u64 t -> 0 < x -> VestingModel.step t (Claim self (Some x)) v = Some (v', o) ->
    inv t v' /\ rel_of v' self = rel_of v self + x.
  Proof.
    intros I U X H. split; [eapply step_inv; eauto; exact Logic.I|]. rewrite (step_rel _ _ _ _ _ self I U H), Z.eqb_refl.
    cbn [VestingModel.step] in H. unguard H G. destruct (claim_inv _ _ _ _ _ _ I U H) as (w & _ & _ & -> & _); lia.
  Qed.
  Lemma pay_fact self t o : forall v v', inv t v -> is_u64 t -> Forall prot_pos o -> pay self t o v = Some v' ->
    inv t v' /\ rel_of v' self = rel_of v self + IncentivesSpec.prot_out_sum o.
  Proof.
    induction o as [|x r IH]; intros v v' I U P H; cbn [pay] in H.
    - injection H as <-. split; auto. unfold IncentivesSpec.prot_out_sum. simpl. lia.
    - inversion P as [|? ? P1 P2]; subst. rewrite sum_cons. destruct x as [a to y|a to y|to y|a to y|?]; cbn [prot_pos] in P1;
        try (destruct (IH _ _ I U P2 H) as [K1 K2]; split; auto; lia).
      unbind H as [v1 o1] E. destruct (claim_fact _ _ _ _ _ _ I U P1 E) as [I1 R1].
      destruct (IH _ _ I1 U P2 H) as [K1 K2]. split; auto. lia.
  Qed.
  Lemma pay_ok self t o : forall v, inv t v -> is_u64 t -> Forall prot_pos o -> forall w, find self (accs v) = Some w ->
    full_all (schedules w) <= U128MAX -> IncentivesSpec.prot_out_sum o <= unlocked_all (schedules w) t - released w ->
    exists v', pay self t o v = Some v'.
  Proof.
    induction o as [|x r IH]; intros v I U P w E M L; cbn [pay]; [eauto|].
    inversion P as [|? ? P1 P2]; subst. rewrite sum_cons in L. pose proof (pos_nn _ P2).
    destruct x as [a to y|a to y|to y|a to y|?]; cbn [prot_pos] in P1; try (apply (IH _ I U P2 w E M); lia).
    destruct (claim_ok _ _ _ _ y I U E M ltac:(lia)) as (v1 & S1 & F1). rewrite S1.
    destruct (claim_fact _ _ _ _ _ _ I U P1 S1) as [I1 R1]. apply (IH _ I1 U P2 _ F1); cbn [schedules released]; auto. lia.
  Qed.
  Lemma pay_sched self t o : forall v v', pay self t o v = Some v' ->
    IncentivesSpec.prot_out_sum o = 0 \/ exists w w', find self (accs v) = Some w /\ find self (accs v') = Some w' /\ schedules w' = schedules w.
  Proof.
    assert (One : forall v v' x y, VestingModel.step t (Claim self (Some x)) v = Some (v', y) ->
      exists w w', find self (accs v) = Some w /\ find self (accs v') = Some w' /\ schedules w' = schedules w).
    { intros v v' x y H. cbn [VestingModel.step] in H. unguard H G. unfold claim in H. unbind H as w E. unbind H as av E1.
      unbind H as k E2. exists w. destruct (k =? 0); [injection H as <- <-; eauto|]. unbind H as rl E3. unbind H as b E4.
      injection H as <- <-. cbn [accs]. rewrite find_put, Z.eqb_refl. eauto. }
    induction o as [|x r IH]; intros v v' H; cbn [pay] in H; [left; reflexivity|].
    rewrite sum_cons. destruct x as [a to y|a to y|to y|a to y|?]; try (apply IH in H; exact H).
    right. unbind H as [v1 o1] E. destruct (One _ _ _ _ E) as (w & w1 & W1 & W2 & W3).
    assert (K : forall l v2 v3 w2, find self (accs v2) = Some w2 -> pay self t l v2 = Some v3 -> exists w3, find self (accs v3) = Some w3 /\ schedules w3 = schedules w2).
    { clear - One. induction l as [|x l IHl]; intros v2 v3 w2 F Q; cbn [pay] in Q; [injection Q as <-; eauto|].
      destruct x as [a to y|a to y|to y|a to y|?]; try (eapply IHl; eauto; fail). unbind Q as [v4 o4] E.
      destruct (One _ _ _ _ E) as (x1 & x2 & X1 & X2 & X3). rewrite F in X1. injection X1 as <-.
      destruct (IHl _ _ _ X2 Q) as (w3 & Y1 & Y2). exists w3. split; auto. congruence. }
    destruct (K _ _ _ _ W2 H) as (w3 & Y1 & Y2). exists w, w3. split; auto. split; auto. congruence.
  Qed.
  Lemma pay_none self t o v : Forall prot_pos o -> IncentivesSpec.prot_out_sum o <= 0 -> pay self t o v = Some v.
  Proof.
    intros P. induction P as [|x r P1 P2 IH]; intros L; cbn [pay]; auto. rewrite sum_cons in L. pose proof (pos_nn _ P2).
    destruct x as [a to y|a to y|to y|a to y|?]; cbn [prot_pos] in P1; try (apply IH; lia). lia.
  Qed.
End Claims.
