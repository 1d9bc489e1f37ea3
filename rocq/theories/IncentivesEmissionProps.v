(** Incentives: properties C70, C71, C73, C74 (emission of the protocol reward). *)
From Coq Require Import ZArith Lia Bool List Permutation.
From Verif Require Import Num Amap Ledger IncentivesModel IncentivesSpec IncentivesSched IncentivesPool
  IncentivesPay IncentivesOps IncentivesInv IncentivesStep IncentivesProofs IncentivesExact IncentivesPending
  IncentivesMove IncentivesEmission IncentivesBudget IncentivesProps.
Import ListNotations.
Open Scope Z_scope.

Section Reach.
  Variables (own fac ast : Z) (grd : option Z) (f : option (Z * Z)) (h : list (env * Z * msg)).
  Let i := init own fac ast grd f.
  Let s := run i h.

  (** ** C70 *)

  (** Every pool emits its share of the speed, in proportion to its allocation points. *)
  Theorem c70_rates : emissions_ok i h ->
    talloc s = fold_right (fun x a => snd x + a) 0 (active s) /\ NoDup (map fst (active s)) /\
    forall lp, rate lp s = match find lp (active s) with Some al => aps s * al * 10 ^ 18 / talloc s | None => 0 end.
  Proof.
    intros O. destruct (run_em h i (em_init _ _ _ _ _) O) as (N & F & T & A0 & Id & K). fold s in N, F, T, A0, Id, K.
    split; [|split]; auto.
    - rewrite T. unfold points. clear. induction (active s) as [|[k v] r IH]; simpl; lia.
    - intros lp. destruct (find lp (active s)) as [al|] eqn:E; [exact (K _ _ E)|]. apply Id. apply find_none. auto.
  Qed.
  (** Any set of pools together emits at most the speed, and the active pools emit all of it up to
      rounding. *)
  Theorem c70_total : emissions_ok i h -> timed 0 h ->
    (forall l, NoDup l -> fold_right (fun k a => rate k s + a) 0 l <= aps s * 10 ^ 18) /\
    (active s <> [] -> aps s * 10 ^ 18 <=
       fold_right (fun k a => rate k s + a) 0 (map fst (active s)) + Z.of_nat (length (active s))).
  Proof.
    intros O Ht. pose proof (run_em h i (em_init _ _ _ _ _) O) as Em. fold s in Em.
    pose proof Em as (N & F & T & A0 & Id & K).
    assert (Tp : active s <> [] -> 0 < talloc s).
    { intros Ne. rewrite T. destruct (active s) as [|[k v] r]; [congruence|].
      assert (0 < v <= points ((k, v) :: r)) by (apply (points_in k); simpl; auto). lia. }
    assert (E : forall l, fold_right (fun k a => rate k s + a) 0 l = ksum (fun k => rate k s) l).
    { intros l. unfold ksum. induction l; simpl; auto. lia. }
    split.
    - intros l Nl. rewrite E. destruct (fresh (removed_assets h)) as [A NA].
      destruct (jall_init own fac ast grd f) as [J1 J2].
      destruct (run_J A h 0 i (inv_init A _ _ _ _ _) ltac:(lia) Ht (removals_fresh _ _ NA _) (em_init _ _ _ _ _) O J1
                  (time_after 0 h) ltac:(lia)) as [[_ Q] _]. fold s in Q.
      eapply Z.le_trans; [apply (ksum_sub _ _ (map fst (active s)))|]; auto.
      + intros k. rewrite rate_irate. destruct (find k (lps s)) as [p|] eqn:Ep; [|lia].
        apply (Forall_find _ _ _ _ Q Ep).
      + intros k _ Nz. destruct (in_dec Z.eq_dec k (map fst (active s))); auto. exfalso. apply Nz. apply Id. auto.
      + destruct (active s) as [|x r] eqn:Ea.
        * unfold ksum. simpl. lia.
        * rewrite <- Ea in *. specialize (Tp ltac:(congruence)).
          assert (M := rates_sum s (active s) A0 F Tp ltac:(intros k al Hk; apply K; apply find_nodup; auto)).
          rewrite <- T in M. unfold ksum. apply Z.mul_le_mono_pos_r with (p := talloc s); auto.
    - intros Ne. specialize (Tp Ne).
      assert (G : forall l, (forall k al, In (k, al) l -> rate k s = aps s * al * DEC / talloc s) ->
        aps s * DEC * points l <= (fold_right (fun k a => rate k s + a) 0 (map fst l) + Z.of_nat (length l)) * talloc s).
      { induction l as [|[k v] r IH]; intros Hl; [unfold points; simpl; lia|].
        specialize (IH ltac:(intros; apply Hl; simpl; auto)). cbn [map fst fold_right length]. rewrite (Hl k v) by (simpl; auto).
        unfold points in *. cbn [sumf]. pose proof (Z.mod_pos_bound (aps s * v * DEC) (talloc s) Tp) as B.
        pose proof (Z.div_mod (aps s * v * DEC) (talloc s) ltac:(lia)) as D. rewrite Nat2Z.inj_succ. nia. }
      specialize (G (active s) ltac:(intros k al Hk; apply K; apply find_nodup; auto)). rewrite <- T in G.
      apply Z.mul_le_mono_pos_r with (p := talloc s); auto.
  Qed.

  (** ** C73 *)

  (** What was paid and what could be claimed now never exceeds the speed times the time. *)
  Theorem c73_budget e : timed 0 h -> emissions_ok i h -> time_after 0 h <= now e ->
    prot_paid i h + total_pend_prot e s <= budget 0 i h (now e).
  Proof.
    intros Ht O L. destruct (fresh (removed_assets h)) as [A NA]. pose proof (removals_fresh A h NA i) as R.
    destruct (jall_init own fac ast grd f) as [J1 J2].
    destruct (run_J A h 0 i (inv_init A _ _ _ _ _) ltac:(lia) Ht R (em_init _ _ _ _ _) O J1 (now e) L) as [Q1 Q2].
    destruct (run_good A h 0 i (inv_init A _ _ _ _ _) ltac:(lia) Ht R) as (I & _ & _). fold s in I, Q1, Q2.
    pose proof (pending_J e s Q1 (i_nd _ _ _ I)) as P. fold i in J2. rewrite J2 in Q2.
    assert (D : DEC = 10 ^ 18) by reflexivity. rewrite D in *. lia.
  Qed.

  (** ** C71 *)

  (** A pool has at most five external rewards, if ASTRO is not one of them. *)
  Theorem c71_limit lp : never_astro i h -> (ext_rewards lp s <= 5)%nat.
  Proof.
    intros Na. rewrite ext_rewards_ecount. destruct (find lp (lps s)) as [p|] eqn:E; [|lia].
    assert (P : pools (fun rs _ => (ecount rs <= 5)%nat) s) by (apply run_few; auto; constructor).
    apply (Forall_find _ _ _ _ P E).
  Qed.

  (** ** C74 *)

  (** A pool outside the list of active pools emits nothing, whatever happened. *)
  Theorem c74_inactive lp : ~ In lp (map fst (active s)) -> rate lp s = 0.
  Proof. apply run_idle. intros k _. reflexivity. Qed.
  (** A pool that no SetupPools message listed since it was inactive stays inactive. *)
  Theorem c74_stays lp h2 : ~ In lp (map fst (active s)) -> (forall e sd m, In (e, sd, m) h2 -> ~ lists lp m) ->
    ~ In lp (map fst (active (run s h2))) /\ rate lp (run s h2) = 0.
  Proof.
    intros N L. pose proof (run_active h2 lp s N L) as Q. split; auto. apply run_idle; auto. apply run_idle. intros k _. reflexivity.
  Qed.
  (** No active pool holds a blocked token. *)
  Theorem c74_blocked pa lp a : assets_fixed pa h -> In a (blocked s) -> In a (pa lp) ->
    ~ In lp (map fst (active s)) /\ rate lp s = 0.
  Proof.
    intros F B P. assert (C : clean pa s) by (apply run_clean; auto; intros k b []).
    assert (N : ~ In lp (map fst (active s))) by (intros I; apply (C _ _ I B P)). split; auto. apply c74_inactive. auto.
  Qed.
  (** The factory's DeactivatePool stops a pool that is emitting. *)
  Theorem c74_deactivate e sd lp s' o : emissions_ok i h -> step e sd (DeactivatePool lp) s = Some (s', o) -> rate lp s <> 0 ->
    sd = factory s /\ ~ In lp (map fst (active s')) /\ rate lp s' = 0 /\ aps s' = aps s.
  Proof.
    intros O H R. pose proof (run_em h i (em_init _ _ _ _ _) O) as (N & _ & _ & _ & Id & _). fold s in N, Id.
    pose proof (step_idle _ _ _ _ _ _ Id H) as Id'. simpl in H. silent H. unfold deactivate_pool in E. unguard E G1.
    apply Z.eqb_eq in G1. rewrite rate_irate in R. destruct (find lp (lps s)) as [p|]; [|congruence].
    assert (A : is_active (pl p) = true).
    { unfold is_active. apply existsb_exists. unfold irate in R. destruct (find_int (rewards (pl p))) as [x|] eqn:Ex; [|congruence].
      exists x. destruct (find_int_is _ _ Ex) as [Hx Hr]. split; auto. rewrite Hr. simpl. apply negb_true_iff. apply Z.eqb_neq. auto. }
    rewrite A in E. unbind E as [n al] E1. unbind E as s2 E2. unbind E as t E3. unbind E as s3 E4. injection E as <-.
    assert (Q : ~ In lp (map fst (swap_remove n (active s)))).
    { pose proof (Permutation_map fst (position_swap _ _ _ _ E1)) as P. apply Permutation_sym in P.
      apply (Permutation_NoDup P) in N. simpl in N. inversion N. auto. }
    split; auto.
  Qed.
End Reach.
(** DeactivateBlockedPools leaves no active pool of a blacklisted pair type. *)
Theorem c74_types e sd s s' o : step e sd DeactivateBlocked s = Some (s', o) ->
  forall lp, In lp (map fst (active s')) -> ~ In (pair_type e lp) (bad_types e).
Proof.
  intros H lp I. simpl in H. silent H. unfold deactivate_blocked in E. unbind E as s2 E1. unbind E as t E2.
  set (Q := fun k => mem (pair_type e k) (bad_types e)).
  change (filter (fun x => mem (pair_type e (fst x)) (bad_types e)) (active s)) with (filter (fun x => Q (fst x)) (active s)) in *.
  assert (G : forall x, In x (active s) -> ~ In x (filter (fun x => Q (fst x)) (active s)) -> ~ In (pair_type e (fst x)) (bad_types e)).
  { intros x Hx N B. apply N. apply filter_In. split; auto. unfold Q. apply mem_In. auto. }
  destruct (filter (fun x => Q (fst x)) (active s)) as [|d0 dis0] eqn:Eb.
  - simpl in E1. injection E1 as ->. injection E as ->. apply in_map_iff in I. destruct I as (x & <- & Hx). apply G; auto.
  - rewrite <- Eb in *. unbind E as s3 E3. injection E as <-. apply in_map_iff in I. destruct I as (x & <- & Hx).
    cbn [active set_emission] in Hx. apply filter_In in Hx. destruct Hx as [Hx Hn]. apply G; auto. intros B.
    apply negb_true_iff in Hn. apply mem_notIn in Hn. apply Hn. apply in_map. auto.
Qed.

(** ** Examples and counterexamples *)

(** Pool 100 holds tokens 11 and 12, pool 200 tokens 13 and 14. *)
Definition pa0 (lp : Z) : list Z := if lp =? 100 then [11; 12] else if lp =? 200 then [13; 14] else [].
Definition ate (t : Z) : env := mkEnv t (fun r => r) (fun _ => true) pa0 (fun lp => lp) [300] (fun _ => true) true.
Lemma ate_order t : order_ok (ate t).
Proof. intros r. apply Permutation_refl. Qed.
Definition g1 : list (env * Z * msg) :=
  [(ate t0, 1, SetTokensPerSecond 1000);
   (ate t0, 1, SetupPools [(100, 10); (200, 20)]);
   (ate t0, 7, Deposit 100 4000 None);
   (ate t0, 8, Deposit 200 1000 None);
   (ate (t0 + 500), 7, ClaimRewards [100]);
   (ate (t0 + 1000), 1, SetTokensPerSecond 600)].
Example g1_timed : timed 0 g1.
Proof. simpl. unfold unsigned. repeat split; try apply ate_order; vm_compute; congruence. Qed.
Example g1_ok : emissions_ok s_init g1.
Proof. simpl. repeat split; try lia. repeat constructor; simpl; lia. Qed.
Example g1_rates : let s := run s_init g1 in
  (rate 100 s, rate 200 s, talloc s) = (200 * 10 ^ 18, 400 * 10 ^ 18, 30) /\
  prot_paid s_init g1 = 166666 /\ total_pend_prot (ate (t0 + 2000)) s = 1433332 /\
  budget 0 s_init g1 (t0 + 2000) = 1600000.
Proof. vm_compute. repeat split; reflexivity. Qed.
Example g1_deactivate : let s := run s_init g1 in
  option_map (fun x => (active (fst x), rate 200 (fst x))) (step (ate (t0 + 2000)) 2 (DeactivatePool 100) s)
  = Some ([(200, 20)], 600 * 10 ^ 18).
Proof. vm_compute. reflexivity. Qed.
Example g1_block : let s := run s_init (g1 ++ [(ate (t0 + 2000), 1, UpdateBlocked [11] [])]) in
  assets_fixed pa0 (g1 ++ [(ate (t0 + 2000), 1, UpdateBlocked [11] [])]) /\ blocked s = [11] /\ In 11 (pa0 100) /\
  active s = [(200, 20)] /\ rate 100 s = 0 /\ rate 200 s = 600 * 10 ^ 18.
Proof.
  split; [|vm_compute; repeat split; auto]. repeat constructor.
Qed.
Example g1_types : option_map (fun x => active (fst x))
  (step (mkEnv (t0 + 2000) (fun r => r) (fun _ => true) pa0 (fun lp => lp) [200] (fun _ => true) true) 5
        DeactivateBlocked (run s_init g1)) = Some [(100, 10)].
Proof. vm_compute. reflexivity. Qed.

(** Blocking both tokens of an active pool takes its points off twice; the others then emit more
    than the speed. *)
Definition g2 : list (env * Z * msg) :=
  [(ate t0, 1, SetTokensPerSecond 1000);
   (ate t0, 1, SetupPools [(100, 10); (200, 20)]);
   (ate t0, 8, Deposit 200 1000 None);
   (ate (t0 + 1), 1, UpdateBlocked [11; 12] []);
   (ate (t0 + 1001), 8, ClaimRewards [200])].
Theorem c70_refuted : exists h lp, timed 0 h /\ aps (run s_init h) * 10 ^ 18 < rate lp (run s_init h).
Proof.
  exists g2, 200. split.
  - simpl. unfold unsigned. repeat split; try apply ate_order; vm_compute; congruence.
  - vm_compute. reflexivity.
Qed.
Theorem c73_refuted : exists h t, timed 0 h /\ time_after 0 h <= t /\ budget 0 s_init h t < prot_paid s_init h.
Proof.
  exists g2, (t0 + 1001). split; [|split].
  - simpl. unfold unsigned. repeat split; try apply ate_order; vm_compute; congruence.
  - vm_compute. congruence.
  - vm_compute. reflexivity.
Qed.
(** ASTRO is exempt from the limit, and the limit is only checked at exactly five. *)
Definition g3 : list (env * Z * msg) :=
  [(ate t0, 9, Incentivize [(100, (21, 2000000, 1)); (100, (22, 2000000, 1)); (100, (23, 2000000, 1));
      (100, (24, 2000000, 1)); (100, (25, 2000000, 1)); (100, (3, 2000000, 1)); (100, (26, 2000000, 1)); (100, (27, 2000000, 1))]
      [(3, 2000000); (21, 2000000); (22, 2000000); (23, 2000000); (24, 2000000); (25, 2000000); (26, 2000000); (27, 2000000)])].
Theorem c71_refuted : exists h lp, timed 0 h /\ (ext_rewards lp (run s_init h) = 8)%nat.
Proof.
  exists g3, 100. split; [|vm_compute; reflexivity]. simpl. unfold unsigned. repeat split; try apply ate_order; try (vm_compute; congruence).
  repeat constructor; vm_compute; congruence.
Qed.
Example g3_limit : never_astro s_init [(ate t0, 9, Incentivize [(100, (21, 2000000, 1))] [(21, 2000000)])] /\
  ext_rewards 100 (run s_init [(ate t0, 9, Incentivize [(100, (21, 2000000, 1))] [(21, 2000000)])]) = 1%nat.
Proof.
  split; [|vm_compute; reflexivity]. split; [|simpl; auto]. intros lp a amt n [E|[]]. injection E as <- <- <- <-. simpl. lia.
Qed.
(** While the speed is zero the factory cannot deactivate a pool: it emits again as soon as the
    speed is set. *)
Definition g4 : list (env * Z * msg) :=
  [(ate t0, 1, SetupPools [(100, 10); (200, 20)]);
   (ate (t0 + 1), 2, DeactivatePool 100);
   (ate (t0 + 2), 1, SetTokensPerSecond 300)].
Theorem c74_deactivate_refuted : exists h1 e h2 s' o, emissions_ok s_init (h1 ++ h2) /\
  step e 2 (DeactivatePool 100) (run s_init h1) = Some (s', o) /\
  (forall e sd m, In (e, sd, m) h2 -> ~ lists 100 m) /\ rate 100 (run s' h2) = 100 * 10 ^ 18.
Proof.
  exists [(ate t0, 1, SetupPools [(100, 10); (200, 20)])], (ate (t0 + 1)), [(ate (t0 + 2), 1, SetTokensPerSecond 300)].
  do 2 eexists. split; [|split; [vm_compute; reflexivity|split]].
  - simpl. repeat split; try lia. repeat constructor; simpl; lia.
  - intros e sd m [E|[]]. injection E as <- <- <-. simpl. auto.
  - vm_compute. reflexivity.
Qed.

Print Assumptions c70_rates.
Print Assumptions c70_total.
Print Assumptions c70_refuted.
Print Assumptions c71_limit.
Print Assumptions c71_refuted.
Print Assumptions c73_budget.
Print Assumptions c73_refuted.
Print Assumptions c74_inactive.
Print Assumptions c74_stays.
Print Assumptions c74_blocked.
Print Assumptions c74_deactivate.
Print Assumptions c74_types.
Print Assumptions c74_deactivate_refuted.
