(** C120: the ASTRO rewards of the incentives contract are paid from its vesting account. *)
From Coq Require Import ZArith Lia Bool List Permutation.
From Verif Require Import Num Amap VestedModel VestedSpec VestedProofs.
From Verif Require IncentivesModel IncentivesSpec IncentivesPool IncentivesInv IncentivesStep IncentivesProofs
  IncentivesMove IncentivesEmission IncentivesBudget IncentivesExitSpec IncentivesExit IncentivesProps IncentivesExitProps
  VestingModel VestingSpec VestingProofs.
Import ListNotations.
Open Scope Z_scope.

Lemma budget_snoc h x : forall T s t, IncentivesModel.now (fst (fst x)) = t ->
  IncentivesSpec.budget T s (h ++ [x]) t = IncentivesSpec.budget T s h t.
Proof.
  induction h as [|[[e sd] m] r IH]; intros T s t E; cbn [app IncentivesSpec.budget].
  - destruct x as [[e sd] m]. simpl in E. cbn [IncentivesSpec.budget]. rewrite E. lia.
  - rewrite IH by auto. reflexivity.
Qed.
Lemma paid_snoc h e sd m : forall s s' o, IncentivesModel.step e sd m (IncentivesModel.run s h) = Some (s', o) ->
  IncentivesSpec.prot_paid s (h ++ [(e, sd, m)]) = IncentivesSpec.prot_paid s h + IncentivesSpec.prot_out_sum o.
Proof.
  induction h as [|[[e1 sd1] m1] r IH]; intros s s' o H; cbn [app IncentivesSpec.prot_paid].
  - simpl in H. rewrite H. lia.
  - unfold IncentivesModel.run in H. cbn [fold_left] in H. unfold IncentivesModel.exec in H at 2.
    destruct (IncentivesModel.step e1 sd1 m1 s) as [[s1 o1]|]; rewrite (IH _ _ _ H); lia.
Qed.
Lemma emissions_snoc h e sd m : forall s, IncentivesSpec.emissions_ok s h ->
  IncentivesSpec.emission_ok e m (IncentivesModel.run s h) -> IncentivesSpec.emissions_ok s (h ++ [(e, sd, m)]).
Proof.
  induction h as [|[[e1 sd1] m1] r IH]; intros s H1 H2; cbn [app IncentivesSpec.emissions_ok] in *; [auto|].
  destruct H1 as [A B]. split; auto.
Qed.
Lemma timed_snoc h e sd m : forall T, IncentivesSpec.timed T h -> IncentivesSpec.time_after T h <= IncentivesModel.now e ->
  IncentivesSpec.order_ok e -> IncentivesSpec.unsigned m ->
  IncentivesSpec.timed T (h ++ [(e, sd, m)]) /\ IncentivesSpec.time_after T (h ++ [(e, sd, m)]) = IncentivesModel.now e.
Proof.
  induction h as [|[[e1 sd1] m1] r IH]; intros T H L O U; cbn [app IncentivesSpec.timed IncentivesSpec.time_after] in *; [tauto|].
  destruct H as (A & B & C & D). destruct (IH _ D L O U). tauto.
Qed.

(** ** Histories of both contracts *)
Lemma run_fact self h : forall T c, VestingProofs.inv T (snd c) -> 0 <= T -> clocked T h ->
  let r := run self c h in let g := served self c h in
  fst r = IncentivesModel.run (fst c) g /\ IncentivesSpec.timed T g /\ IncentivesSpec.time_after T g <= clock_after T h /\
  0 <= clock_after T h /\ VestingProofs.inv (clock_after T h) (snd r) /\
  drawn self r = drawn self c + IncentivesSpec.prot_paid (fst c) g.
Proof.
  induction h as [|x h IH]; intros T c I T0 K; cbv zeta.
  - simpl. repeat (split; [auto; lia|]). lia.
  - destruct K as (B & F & K). cbn [run fold_left served clock_after]. fold (run self (exec self c x) h).
    pose proof (VestingProofs.inv_mono _ _ _ (proj1 B) I) as I'.
    assert (Ut : is_u64 (time_of x)) by (unfold is_u64; lia).
    unfold exec. destruct (step self x c) as [[c' o]|] eqn:E.
    + assert (J : VestingProofs.inv (time_of x) (snd c') /\
        drawn self c' = drawn self c + match x with Inc _ _ _ => IncentivesSpec.prot_out_sum o | Vest _ _ => 0 end /\
        match x with Inc e sd m => IncentivesModel.step (granted e) sd m (fst c) = Some (fst c', o) | Vest _ _ => fst c' = fst c end).
      { destruct x as [e sd m|t m]; cbn [step time_of] in *.
        - unbind E as [s1 o1] E1. unbind E as v1 E2. injection E as <- <-. cbn [fst snd].
          destruct (pay_fact _ _ _ _ _ I' Ut (step_pos _ _ _ _ _ _ E1) E2) as [K1 K2]. auto.
        - unguard E G. unbind E as [v1 o1] E1. injection E as <- <-. cbn [fst snd].
          split; [eapply VestingProofs.step_inv; eauto; exact F|]. split; auto.
          pose proof (VestingProofs.step_rel _ _ _ _ _ self I' Ut E1) as R. unfold VestingProofs.rel_of in R.
          unfold drawn. cbn [snd]. rewrite R. destruct m; simpl in G; auto. bools.
          destruct (Z.eqb_spec sender self); [congruence|lia]. }
      destruct J as (J1 & J2 & J3). destruct (IH _ _ J1 ltac:(lia) K) as (R1 & R2 & R3 & R4 & R5 & R6).
      destruct x as [e sd m|t m]; cbn [app time_of] in *.
      * unfold IncentivesModel.run. cbn [fold_left IncentivesSpec.timed IncentivesSpec.time_after IncentivesSpec.prot_paid].
        unfold IncentivesModel.exec at 2. rewrite J3. destruct F as [F1 F2].
        split; [exact R1|]. split; [split; [apply B|]; split; [exact F1|]; split; auto|]. split; [exact R3|].
        split; auto. split; auto. lia.
      * rewrite J3 in *. split; auto. assert (W : forall T' g, IncentivesSpec.timed t g -> T' <= t -> IncentivesSpec.timed T' g /\
          IncentivesSpec.time_after T' g <= Z.max t (IncentivesSpec.time_after t g)).
        { intros T' [|[[e1 s1] m1] g]; simpl; intros; [lia|]. split; [intuition lia|lia]. }
        assert (Ca : forall l T1, clocked T1 l -> T1 <= clock_after T1 l).
        { clear. induction l as [|y l IHl]; intros T1 H; simpl in *; [lia|]. destruct H as (H1 & _ & H2). specialize (IHl _ H2). lia. }
        specialize (Ca _ _ K). destruct (W T _ R2 ltac:(lia)) as [W1 W2]. split; auto. split; [lia|]. split; auto. split; auto. lia.
    + destruct (IH _ c I' ltac:(lia) K) as (R1 & R2 & R3 & R4 & R5 & R6).
      assert (Ca : forall l T1, clocked T1 l -> T1 <= clock_after T1 l).
      { clear. induction l as [|y l IHl]; intros T1 H; simpl in *; [lia|]. destruct H as (H1 & _ & H2). specialize (IHl _ H2). lia. }
      specialize (Ca _ _ K). split; auto.
      assert (W : IncentivesSpec.timed T (served self c h) /\ IncentivesSpec.time_after T (served self c h) <= clock_after (time_of x) h).
      { destruct (served self c h) as [|[[e1 s1] m1] g]; simpl in *; [split; auto; lia|]. split; [intuition lia|auto]. }
      destruct W as [W1 W2]. repeat (split; [assumption|]). auto.
Qed.

Section Reach.
  Variables (own fac ast : Z) (grd : option Z) (f : option (Z * Z)) (vown self : Z) (h : list msg).
  Let c0 := init own fac ast grd f vown.
  Let i := IncentivesModel.init own fac ast grd f.
  Let c := run self c0 h.
  Let g := served self c0 h.
  Hypothesis Hc : clocked 0 h.

  (** What left the vesting account is exactly what the incentives contract paid to stakers. *)
  Theorem c120_drawn : drawn self c = IncentivesSpec.prot_paid i g.
  Proof.
    destruct (run_fact self h 0 c0 (VestingProofs.init_inv _ _) ltac:(lia) Hc) as (_ & _ & _ & _ & _ & R). exact R.
  Qed.

  (** Any later message. *)
  Variable e : IncentivesModel.env.
  Hypotheses (He : IncentivesSpec.emissions_ok i g) (Ht : clock_after 0 h <= IncentivesModel.now e <= U64MAX)
    (Ho : IncentivesSpec.order_ok e) (Hf : fits self c)
    (Hb : IncentivesSpec.budget 0 i g (IncentivesModel.now e) <= vested self (IncentivesModel.now e) c).

  (** While the vesting account has released at least the speed times the time, no message to the
      incentives contract fails for lack of ASTRO. *)
  Theorem c120_paid : forall sd m s' o, IncentivesSpec.unsigned m -> IncentivesSpec.emission_ok e m (fst c) ->
    IncentivesModel.step (granted e) sd m (fst c) = Some (s', o) ->
    exists v', step self (Inc e sd m) c = Some ((s', v'), o).
  Proof.
    intros sd m s' o Hu Hm S.
    destruct (run_fact self h 0 c0 (VestingProofs.init_inv _ _) ltac:(lia) Hc) as (R1 & R2 & R3 & R4 & R5 & R6).
    fold c g in R1, R2, R3, R4, R5, R6. cbn [fst c0 init] in R1. fold i in R1.
    assert (O' : IncentivesSpec.order_ok (granted e)) by exact Ho.
    destruct (timed_snoc g (granted e) sd m 0 R2 ltac:(simpl; lia) O' Hu) as [Q1 Q2].
    set (g' := g ++ [(granted e, sd, m)]) in *.
    assert (Q3 : IncentivesSpec.emissions_ok i g').
    { apply emissions_snoc; auto. rewrite <- R1. destruct m; exact Hm. }
    destruct (IncentivesProofs.fresh (IncentivesProofs.removed_assets g')) as [A NA].
    pose proof (IncentivesProofs.removals_fresh A g' NA i) as Rm.
    destruct (IncentivesBudget.jall_init own fac ast grd f) as [J1 J2].
    destruct (IncentivesBudget.run_J A g' 0 i (IncentivesProofs.inv_init A _ _ _ _ _) ltac:(lia) Q1 Rm
      (IncentivesEmission.em_init _ _ _ _ _) Q3 J1 (IncentivesModel.now e) ltac:(simpl in Q2; lia)) as [[_ K1] K2].
    fold i in J2. rewrite J2 in K2.
    assert (Jn : 0 <= IncentivesBudget.J (IncentivesModel.now e) (IncentivesModel.run i g')).
    { apply sumf_Forall. eapply Forall_impl; [|exact K1]. simpl. intros y Hy. pose proof (IncentivesExit.JP_nn _ _ _ Hy). lia. }
    assert (L : IncentivesSpec.prot_paid i g' <= IncentivesSpec.budget 0 i g' (IncentivesModel.now e)).
    { pose proof DEC_pos. apply Z.mul_le_mono_pos_r with (p := DEC); auto. lia. }
    unfold g' in L. rewrite budget_snoc in L by reflexivity. rewrite R1 in S. rewrite (paid_snoc _ _ _ _ _ _ _ S) in L.
    pose proof (step_pos _ _ _ _ _ _ S) as P. rewrite <- R1 in S.
    assert (U : is_u64 (IncentivesModel.now e)) by (unfold is_u64; lia).
    pose proof (VestingProofs.inv_mono _ _ _ (proj1 Ht) R5) as I.
    cbn [step]. rewrite S. assert (D0 : drawn self c0 = 0) by reflexivity. rewrite D0 in R6. cbn [fst c0 init] in R6. fold i in R6.
    assert (G : exists v', pay self (IncentivesModel.now e) o (snd c) = Some v').
    { unfold vested, drawn, fits in *. destruct (find self (VestingModel.accs (snd c))) as [w|] eqn:E.
      - eapply pay_ok; eauto. lia.
      - exists (snd c). apply pay_none; auto. lia. }
    destruct G as [v' ->]. eauto.
  Qed.

  (** ... so, in a regular history, every staker can leave. *)
  Theorem c120_exit : forall lp who amt, IncentivesExitSpec.regular i g ->
    IncentivesSpec.budget 0 i g (IncentivesModel.now e) <= U128MAX -> IncentivesExitSpec.in_range e lp (fst c) ->
    IncentivesModel.xfer_ok e lp = true -> 0 < IncentivesSpec.position_of lp who (fst c) ->
    0 <= amt <= IncentivesSpec.position_of lp who (fst c) ->
    exists c' o, step self (Inc e who (IncentivesModel.Withdraw lp amt)) c = Some (c', o) /\
      In (IncentivesModel.Back lp who amt) o /\
      IncentivesSpec.position_of lp who (fst c') = IncentivesSpec.position_of lp who (fst c) - amt.
  Proof.
    intros lp who amt Hr Hbu R X P0 Pa.
    destruct (run_fact self h 0 c0 (VestingProofs.init_inv _ _) ltac:(lia) Hc) as (R1 & R2 & R3 & R4 & R5 & R6).
    fold c g in R1, R2, R3, R4, R5, R6. cbn [fst c0 init] in R1. fold i in R1.
    assert (S : exists s' o, IncentivesModel.step (granted e) who (IncentivesModel.Withdraw lp amt) (fst c) = Some (s', o) /\
      In (IncentivesModel.Back lp who amt) o /\ IncentivesSpec.position_of lp who s' = IncentivesSpec.position_of lp who (fst c) - amt).
    { rewrite R1 in *. apply (IncentivesExitProps.c69_exit own fac ast grd f g (granted e) lp who R2 Hr He); auto. simpl. lia. }
    destruct S as (s' & o & S & B & Q).
    destruct (c120_paid who (IncentivesModel.Withdraw lp amt) s' o (proj1 Pa) Logic.I S) as [v' K].
    exists (s', v'), o. auto.
  Qed.

  (** The other direction: a staker whose pending ASTRO exceeds what the vesting account can pay at
      that time cannot withdraw anything, cannot claim, and nobody can deposit for them. *)
  Theorem c120_short : forall lp who ext prot, IncentivesModel.pending e lp who (fst c) = Some (ext, prot) ->
    vested self (IncentivesModel.now e) c - drawn self c < prot -> 0 < prot ->
    (forall amt, step self (Inc e who (IncentivesModel.Withdraw lp amt)) c = None) /\
    step self (Inc e who (IncentivesModel.ClaimRewards [lp])) c = None /\
    (forall sd amt, step self (Inc e sd (IncentivesModel.Deposit lp amt (Some who))) c = None).
  Proof.
    clear He Ho Hf Hb. intros lp who ext prot Hp L P0.
    destruct (run_fact self h 0 c0 (VestingProofs.init_inv _ _) ltac:(lia) Hc) as (_ & _ & _ & _ & R5 & _). fold c in R5.
    pose proof (VestingProofs.inv_mono _ _ _ (proj1 Ht) R5) as I.
    assert (U : is_u64 (IncentivesModel.now e)).
    { unfold is_u64. assert (Ca : forall l T1, clocked T1 l -> T1 <= clock_after T1 l).
      { clear. induction l as [|y l IHl]; intros T1 H; simpl in *; [lia|]. destruct H as (H1 & _ & H2). specialize (IHl _ H2). lia. }
      specialize (Ca _ _ Hc). lia. }
    assert (N : forall sd m s' o v', IncentivesModel.step (granted e) sd m (fst c) = Some (s', o) ->
      pay self (IncentivesModel.now e) o (snd c) = Some v' -> IncentivesSpec.prot_out_sum o = prot -> False).
    { intros sd m s' o v' S K E. pose proof (step_pos _ _ _ _ _ _ S) as P.
      destruct (pay_sched _ _ _ _ _ K) as [Z|(w & w' & W1 & W2 & W3)]; [lia|].
      destruct (pay_fact _ _ _ _ _ I U P K) as [I' R]. unfold VestingProofs.rel_of in R.
      unfold vested, drawn in L. rewrite W1 in R, L. rewrite W2 in R.
      destruct (VestingProofs.find_ok _ _ _ _ I' W2) as [_ Q]. simpl in Q. rewrite W3 in Q. lia. }
    unfold IncentivesModel.pending in Hp. unbind Hp as p E1. unbind Hp as u E2. unbind Hp as [q rem] E3.
    split; [|split].
    - intros amt. cbn [step]. destruct (IncentivesModel.step (granted e) who (IncentivesModel.Withdraw lp amt) (fst c)) as [[s' o]|] eqn:S; auto.
      destruct (pay self (IncentivesModel.now e) o (snd c)) as [v'|] eqn:K; auto. exfalso. apply (N _ _ _ _ _ S K).
      cbn [IncentivesModel.step] in S. unfold IncentivesModel.withdraw in S. rewrite E1, E2 in S. unguard S G.
      cbn [IncentivesModel.now granted] in S. rewrite E3, Hp in S. unbind S as a F1. unbind S as t F2. unbind S as s1 F3. unbind S as o2 F4.
      match type of S with context [IncentivesModel.pay_all ?x ?y ?z ?w] => pose proof (IncentivesBudget.pay_all_prot x y w z) as Q; destruct (IncentivesModel.pay_all x y z w) as [s2 o1] end.
      unguard S G2. injection S as <- <-. simpl in Q.
      rewrite !IncentivesBudget.prot_app, Q, (IncentivesBudget.pay_prot_sum _ _ _ _ F4). simpl. lia.
    - cbn [step]. destruct (IncentivesModel.step (granted e) who (IncentivesModel.ClaimRewards [lp]) (fst c)) as [[s' o]|] eqn:S; auto.
      destruct (pay self (IncentivesModel.now e) o (snd c)) as [v'|] eqn:K; auto. exfalso. apply (N _ _ _ _ _ S K).
      cbn [IncentivesModel.step] in S. unfold IncentivesModel.claim in S. unguard S G. cbn [IncentivesModel.claim_each] in S.
      rewrite E1, E2 in S. cbn [IncentivesModel.now granted] in S. rewrite E3, Hp in S.
      unbind S as [[s1 x1] pr] F0. unbind F0 as s2 F1. unbind F0 as pr1 F2. injection F0 as <- <- <-. apply add128_Some in F2 as [-> _].
      unbind S as o2 F3.
      match type of S with context [IncentivesModel.pay_all ?x ?y ?z ?w] => pose proof (IncentivesBudget.pay_all_prot x y w z) as Q; destruct (IncentivesModel.pay_all x y z w) as [s3 o1] end.
      injection S as <- <-. simpl in Q. rewrite IncentivesBudget.prot_app, Q, (IncentivesBudget.pay_prot_sum _ _ _ _ F3). lia.
    - intros sd amt. cbn [step]. destruct (IncentivesModel.step (granted e) sd (IncentivesModel.Deposit lp amt (Some who)) (fst c)) as [[s' o]|] eqn:S; auto.
      destruct (pay self (IncentivesModel.now e) o (snd c)) as [v'|] eqn:K; auto. exfalso. apply (N _ _ _ _ _ S K).
      cbn [IncentivesModel.step] in S. unfold IncentivesModel.deposit in S. unguard S G.
      cbn [IncentivesModel.lps IncentivesModel.set_bal] in S. rewrite E1, E2 in S.
      cbn [IncentivesModel.now granted] in S. rewrite E3, Hp in S. unbind S as a F1. unbind S as t F2. unbind S as s1 F3. unbind S as o2 F4.
      match type of S with context [IncentivesModel.pay_all ?x ?y ?z ?w] => pose proof (IncentivesBudget.pay_all_prot x y w z) as Q; destruct (IncentivesModel.pay_all x y z w) as [s2 o1] end.
      injection S as <- <-. simpl in Q. rewrite IncentivesBudget.prot_app, Q, (IncentivesBudget.pay_prot_sum _ _ _ _ F4). lia.
  Qed.
End Reach.
Print Assumptions c120_short.
Print Assumptions c120_drawn.
Print Assumptions c120_paid.
Print Assumptions c120_exit.

(** ** Cases *)
Definition at_ := IncentivesProps.at_.
Definition t0 := IncentivesProps.t0.
(** The vesting contract of owner 2 releases [n] ASTRO per second to the incentives contract 50, which
    emits 1000 per second to pool 100, where 7 and 8 stake. *)
Definition hist (n : Z) : list msg :=
  [Vest (t0 - 10) (VestingModel.Register 2 [(50, [VestingModel.mkSch (VestingModel.mkPt t0 0) (Some (VestingModel.mkPt (t0 + 10000000) (n * 10000000)))])] (n * 10000000));
   Inc (at_ t0) 1 (IncentivesModel.SetTokensPerSecond 1000);
   Inc (at_ t0) 1 (IncentivesModel.SetupPools [(100, 10)]);
   Inc (at_ t0) 7 (IncentivesModel.Deposit 100 1000 None);
   Inc (at_ (t0 + 500)) 8 (IncentivesModel.Deposit 100 3000 None);
   Vest (t0 + 600) (VestingModel.Claim 50 None);
   Vest (t0 + 700) (VestingModel.WithdrawActive 2 50 1);
   Inc (at_ (t0 + 1000)) 8 (IncentivesModel.ClaimRewards [100])].
Definition start := init 1 2 3 None None 2.
Example c120_example : let c := run 50 start (hist 1001) in let g := served 50 start (hist 1001) in
  length g = 5%nat /\ drawn 50 c = 375000 /\ IncentivesSpec.position_of 100 7 (fst c) = 1000 /\
  IncentivesSpec.budget 0 (fst start) g (t0 + 1500) = 1500000 /\ vested 50 (t0 + 1500) c = 1501499 /\
  option_map snd (step 50 (Inc (at_ (t0 + 1500)) 7 (IncentivesModel.Withdraw 100 1000)) c) =
    Some [IncentivesModel.Prot 7 750000; IncentivesModel.Back 100 7 1000].
Proof. vm_compute. auto 10. Qed.

Lemma hist_fields n : 0 <= n <= 10000 -> clocked 0 (hist n).
Proof.
  intros N. unfold hist. cbn [clocked fields time_of at_ IncentivesProps.at_ IncentivesModel.now].
  assert (O : forall t, IncentivesSpec.order_ok (IncentivesProps.at_ t)) by (intros t; apply IncentivesProps.at_order).
  split; [split; vm_compute; discriminate|]. split.
  { repeat constructor; cbn; unfold is_u64, is_u128, U64MAX, U128MAX, t0, IncentivesProps.t0; lia. }
  repeat (split; [split; vm_compute; discriminate|]; split; [first [exact Logic.I | split; [apply O|cbn; first [exact Logic.I|lia]]]|]).
  exact Logic.I.
Qed.
Definition gs : list (IncentivesModel.env * Z * IncentivesModel.msg) :=
  [(granted (at_ t0), 1, IncentivesModel.SetTokensPerSecond 1000);
   (granted (at_ t0), 1, IncentivesModel.SetupPools [(100, 10)]);
   (granted (at_ t0), 7, IncentivesModel.Deposit 100 1000 None);
   (granted (at_ (t0 + 500)), 8, IncentivesModel.Deposit 100 3000 None);
   (granted (at_ (t0 + 1000)), 8, IncentivesModel.ClaimRewards [100])].
Lemma gs_ok s : IncentivesSpec.emissions_ok s gs /\ IncentivesExitSpec.regular s gs.
Proof.
  unfold gs. cbn [IncentivesSpec.emissions_ok IncentivesSpec.emission_ok IncentivesExitSpec.regular IncentivesExitSpec.regular_removal].
  split; [|auto 10]. split; [lia|]. split; [repeat constructor; simpl; lia|]. auto.
Qed.
Lemma gs_fast : served 50 start (hist 1001) = gs. Proof. vm_compute. reflexivity. Qed.
Lemma gs_slow : served 50 start (hist 500) = gs. Proof. vm_compute. reflexivity. Qed.
(** The hypotheses of [c120_paid] and [c120_exit] hold in the example. *)
Example c120_hypotheses : let c := run 50 start (hist 1001) in let g := served 50 start (hist 1001) in
  clocked 0 (hist 1001) /\ IncentivesSpec.emissions_ok (fst start) g /\ IncentivesExitSpec.regular (fst start) g /\
  clock_after 0 (hist 1001) <= t0 + 1500 <= U64MAX /\ fits 50 c /\
  IncentivesExitSpec.in_range (at_ (t0 + 1500)) 100 (fst c).
Proof.
  cbv zeta. split; [apply hist_fields; lia|].
  rewrite gs_fast. destruct (gs_ok (fst start)) as [G1 G2]. split; [exact G1|]. split; [exact G2|].
  split; [split; vm_compute; discriminate|]. split; [vm_compute; discriminate|].
  split; [split; vm_compute; discriminate|]. split.
  - assert (B : IncentivesModel.bal (fst (run 50 start (hist 1001))) = [(100, 4000)]) by (vm_compute; reflexivity).
    intros A. rewrite B. cbn [Ledger.get]. destruct (100 =? A); vm_compute; discriminate.
  - assert (Q : exists p, find 100 (IncentivesModel.lps (fst (run 50 start (hist 1001)))) = Some p /\
      Forall (fun x => IncentivesModel.idx x < 2 ^ 255) (IncentivesModel.rewards (IncentivesModel.pl p))).
    { eexists. split; [vm_compute; reflexivity|]. repeat constructor; vm_compute; reflexivity. }
    destruct Q as (p & -> & Q). rewrite Forall_forall in Q. exact Q.
Qed.

(** A vesting account that releases less than is emitted locks the stakers: user 7 cannot withdraw any
    part of the position. *)
Theorem c120_refuted : exists h e, clocked 0 h /\ IncentivesExitSpec.regular (fst start) (served 50 start h) /\
  IncentivesSpec.emissions_ok (fst start) (served 50 start h) /\ clock_after 0 h <= IncentivesModel.now e <= U64MAX /\
  (forall lp, IncentivesModel.xfer_ok e lp = true) /\ IncentivesSpec.position_of 100 7 (fst (run 50 start h)) = 1000 /\
  forall amt, step 50 (Inc e 7 (IncentivesModel.Withdraw 100 amt)) (run 50 start h) = None.
Proof.
  exists (hist 500), (at_ (t0 + 1500)). split; [apply hist_fields; lia|].
  rewrite gs_slow. destruct (gs_ok (fst start)) as [G1 G2]. split; [exact G2|]. split; [exact G1|].
  split; [split; vm_compute; discriminate|]. split; [reflexivity|]. split; [vm_compute; reflexivity|].
  assert (Lt : clock_after 0 (hist 500) <= IncentivesModel.now (at_ (t0 + 1500)) <= U64MAX) by (split; vm_compute; discriminate).
  assert (P1 : IncentivesModel.pending (at_ (t0 + 1500)) 100 7 (fst (run 50 start (hist 500))) = Some ([], 750000)) by (vm_compute; reflexivity).
  assert (P2 : vested 50 (IncentivesModel.now (at_ (t0 + 1500))) (run 50 start (hist 500)) - drawn 50 (run 50 start (hist 500)) < 750000)
    by (vm_compute; reflexivity).
  destruct (c120_short 1 2 3 None None 2 50 (hist 500) (hist_fields 500 ltac:(lia)) (at_ (t0 + 1500)) Lt 100 7 [] 750000 P1 P2 ltac:(lia)) as [Q _].
  exact Q.
Qed.
Print Assumptions c120_refuted.
