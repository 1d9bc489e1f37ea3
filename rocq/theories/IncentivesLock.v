(** Incentives: a user whose finished index is below their own index can never leave. *)
From Coq Require Import ZArith Lia Bool List Permutation.
From Verif Require Import Num Amap Ledger IncentivesModel IncentivesSpec IncentivesSched IncentivesPool
  IncentivesPay IncentivesOps IncentivesInv IncentivesStep IncentivesProofs IncentivesMove.
Import ListNotations.
Open Scope Z_scope.

Definition stuck (T lp who : Z) (s : state) : Prop :=
  exists p u a f i ts r1 r2, find lp (lps s) = Some p /\ find who (users p) = Some u /\
    after (claimed u) (fins p) = (ts, (a, f) :: r1) :: r2 /\ u_find (RExt a 0) (uidx u) = Some i /\
    f < i /\ ts < T.

Lemma stuck_due q rem p u a f i ts r1 r2 : after (claimed u) (fins p) = (ts, (a, f) :: r1) :: r2 ->
  u_find (RExt a 0) (uidx u) = Some i -> f < i -> due q rem (fins p) u = None.
Proof.
  intros Ea Ei L. unfold due, unseen. rewrite Ea. simpl. rewrite Ei.
  destruct (sub256 f i) as [d|] eqn:E; auto. apply sub256_Some in E. lia.
Qed.
Lemma after_ins_keep {V} c k (v : V) l ts x r : after c l = (ts, x) :: r -> ts < k ->
  exists r', after c (ins k v l) = (ts, x) :: r'.
Proof.
  intros H L. induction l as [|[k' v'] t IH]; simpl in H; [discriminate|]. simpl.
  destruct (Z.ltb_spec c k').
  - injection H as -> -> Hr. destruct (Z.ltb_spec k ts); [lia|]. destruct (Z.eqb_spec k ts); [lia|].
    simpl. destruct (Z.ltb_spec c ts); [eauto|lia].
  - assert (c < ts).
    { assert (Hi : In (ts, x) (after c t)) by (rewrite H; left; auto). apply in_after in Hi. simpl in Hi. lia. }
    destruct (Z.ltb_spec k k'); [lia|]. destruct (Z.eqb_spec k k'); [lia|]. simpl.
    destruct (Z.ltb_spec c k'); [lia|]. auto.
Qed.
Lemma runs_keep c k l : forall f o f' o' ts x r, save_runs k l f o = Some (f', o') -> after c f = (ts, x) :: r -> ts < k ->
  exists r', after c f' = (ts, x) :: r'.
Proof.
  induction l as [|[b g] t IH]; intros f o f' o' ts x r H Ha L; simpl in H.
  - injection H as <- <-. eauto.
  - destruct b.
    + destruct (after_ins_keep c k (map (fun x => (fst x, fst (snd x))) g) f ts x r Ha L) as [r' Hr].
      eapply IH; eauto.
    + unbind H as o2 E. eapply IH; eauto.
Qed.
Lemma chg_last m t ast sc q q' sc' : chg m t ast sc q q' sc' -> last q' = last q.
Proof.
  intros C. destruct C as [sc q n|sc q q' a r tt al E|sc q q' E|sc q l f lp a amt n ne en r rs sch Em Hin Ef E|sc q q' lp a b to x sch v Em E]; auto.
  - unfold set_astro in E. unbind E as n E1. unbind E as d E2. injection E as <-. auto.
  - unfold disable_astro in E. injection E as <-. auto.
  - unfold deregister in E. unbind E as y Ey. unbind E as r0 E0. unbind E as [r1 s2] E1. unbind E as r2 E2.
    unbind E as w E3. injection E as <- <- <- <-. auto.
Qed.
Lemma update_last_ge t p q rem : update_rewards t p = Some (q, rem) -> t <= last q.
Proof.
  unfold update_rewards. destruct (Z.leb_spec t (last (pl p))); intros H0; [injection H0 as <- <-; auto|].
  unbind H0 as [rs rm] E. injection H0 as <- <-. simpl. lia.
Qed.
Lemma relabel_keep a l lp : forall m m' p, relabel a l m = Some m' -> find lp m = Some p ->
  exists p', find lp m' = Some p' /\ users p' = users p /\ fins p' = fins p.
Proof.
  induction l as [|[k al] r IH]; intros m m' p H Ep; simpl in H.
  - injection H as <-. eauto.
  - unbind H as p0 E. unguard H G. destruct (Z.eqb_spec k lp).
    + subst. rewrite Ep in E. injection E as <-.
      edestruct IH as (p' & K1 & K2 & K3); [exact H|apply find_put_same|]. exists p'. split; auto.
    + eapply IH; [exact H|]. rewrite find_put_other by auto. auto.
Qed.
Lemma mv_stuck m e ast s s' T lp who : mv m e ast s s' -> T <= now e -> stuck T lp who s -> stuck T lp who s'.
Proof.
  intros M L. induction M as [s s' E|k s s' q rem q' us sch rem' U C St R S|a s s' H|s1 s2 s3 M1 IH1 M2 IH2]; auto.
  - unfold stuck. rewrite E. auto.
  - intros (p & u & a & f & i & ts & r1 & r2 & Ep & Eu & Ea & Ei & Lf & Lt).
    pose proof S as S'. unfold save in S. unbind S as [fi o] Es. injection S as S.
    cbn [pl users scheds fins] in *. rewrite (chg_last _ _ _ _ _ _ _ C) in Es.
    pose proof (update_last_ge _ _ _ _ U) as Lq.
    destruct (Z.eqb_spec k lp).
    + subst k. assert (Ec : cur lp s = p) by (unfold cur; rewrite Ep; auto). rewrite Ec in *.
      destruct (runs_keep _ _ _ _ _ _ _ _ _ _ Es Ea ltac:(lia)) as [r' Ha].
      exists (mkLp q' us sch fi), u, a, f, i, ts, r1, r'. subst s'. cbn [lps set_lps].
      rewrite find_put_same. split; auto. cbn [users fins].
      split; [|auto]. destruct (uchg_settled _ _ _ _ _ _ St who) as [Hw|Hw]; [rewrite Hw; auto|]. exfalso. apply Hw. rewrite Eu.
      eapply stuck_due; eauto.
    + exists p, u, a, f, i, ts, r1, r2. subst s'. cbn [lps set_lps]. rewrite find_put_other by auto. auto 10.
  - intros (p & u & b & f & i & ts & r1 & r2 & Ep & Eu & Ea & Ei & Lf & Lt).
    destruct (relabel_keep _ _ lp _ _ _ H Ep) as (p' & K1 & K2 & K3).
    exists p', u, b, f, i, ts, r1, r2. rewrite K2, K3. auto 10.
Qed.
Lemma run_stuck h : forall T s lp who, timed T h -> stuck T lp who s -> stuck T lp who (run s h).
Proof.
  induction h as [|[[e sd] m] r IH]; intros T s lp who Ht H; auto.
  destruct Ht as (H1 & H2 & H3 & H4). change (run s ((e, sd, m) :: r)) with (run (exec s (e, sd, m)) r).
  apply IH.
  - clear - H1 H4. revert H4. generalize (now e) H1. intros T' L. destruct r as [|[[e2 sd2] m2] r]; simpl; auto.
    intros (K1 & K2). split; auto. lia.
  - unfold exec. destruct (step e sd m s) as [[s' o]|] eqn:E; auto.
    eapply mv_stuck; [eapply step_mv; eauto|auto|auto].
Qed.
Lemma claim_each_in e who l : forall s s' x v lp, claim_each e who l s = Some (s', x, v) -> In lp l -> NoDup l ->
  pending e lp who s <> None.
Proof.
  induction l as [|k r IH]; intros s s' x v lp H Hin N; simpl in *; [tauto|].
  unbind H as p Ep. unbind H as u Eu. unbind H as [q rem] E. unbind H as [x1 v1] E2. unbind H as s1 E3.
  unbind H as [[s2 x2] v2] E4. unbind H as pr E5. injection H as <- <- <-. inversion N; subst.
  destruct Hin as [<-|Hin].
  - unfold pending. rewrite Ep, Eu, E. congruence.
  - specialize (IH _ _ _ _ _ E4 Hin H2). intros Hn. apply IH. rewrite <- Hn. unfold pending.
    apply save_lps in E3. destruct E3 as (fi & El & _). rewrite El, find_put_other by congruence. auto.
Qed.
Lemma nodup_NoDup' l : nodup l = true -> NoDup l.
Proof.
  induction l as [|x r IH]; simpl; [constructor|]. intros H. apply andb_true_iff in H. destruct H as [H1 H2].
  constructor; auto. apply negb_true_iff, mem_nIn in H1. auto.
Qed.
Lemma stuck_fails T lp who s e sd : stuck T lp who s ->
  (forall amt, step e who (Withdraw lp amt) s = None) /\
  (forall l, In lp l -> step e who (ClaimRewards l) s = None) /\
  (forall amt, step e sd (Deposit lp amt (Some who)) s = None).
Proof.
  intros (p & u & a & f & i & ts & r1 & r2 & Ep & Eu & Ea & Ei & Lf & _).
  assert (D : forall q rem, due q rem (fins p) u = None) by (intros; eapply stuck_due; eauto).
  split; [|split].
  - intros amt. simpl. unfold withdraw. rewrite Ep, Eu. destruct (_ <=? _); auto.
    destruct (update_rewards (now e) p) as [[q rem]|]; auto. rewrite D. auto.
  - intros l Hl. simpl. unfold claim. destruct (nodup l) eqn:N; auto.
    destruct (claim_each e who l s) as [[[s1 x] v]|] eqn:E; auto. exfalso.
    apply (claim_each_in _ _ _ _ _ _ _ _ E Hl (nodup_NoDup' _ N)). unfold pending. rewrite Ep, Eu.
    destruct (update_rewards (now e) p) as [[q rem]|]; auto.
  - intros amt. simpl. unfold deposit. destruct (lp_ok e lp); auto. cbn [lps set_bal]. rewrite Ep, Eu.
    destruct (update_rewards (now e) p) as [[q rem]|]; auto. rewrite D. auto.
Qed.
(** A check by computation. *)
Definition stuck_b (T lp who : Z) (s : state) : bool :=
  match find lp (lps s) with
  | Some p =>
      match find who (users p) with
      | Some u =>
          match after (claimed u) (fins p) with
          | (ts, (a, f) :: _) :: _ =>
              match u_find (RExt a 0) (uidx u) with Some i => (f <? i) && (ts <? T) | None => false end
          | _ => false
          end
      | None => false
      end
  | None => false
  end.
Lemma stuck_b_ok T lp who s : stuck_b T lp who s = true -> stuck T lp who s.
Proof.
  unfold stuck_b. destruct (find lp (lps s)) as [p|] eqn:E1; [|discriminate].
  destruct (find who (users p)) as [u|] eqn:E2; [|discriminate].
  destruct (after (claimed u) (fins p)) as [|[ts [|[a f] r1]] r2] eqn:E3; try discriminate.
  destruct (u_find (RExt a 0) (uidx u)) as [i|] eqn:E4; [|discriminate]. intros H.
  apply andb_true_iff in H. destruct H as [H1 H2]. apply Z.ltb_lt in H1, H2.
  exists p, u, a, f, i, ts, r1, r2. auto 10.
Qed.
