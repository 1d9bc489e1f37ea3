(** C137: only pairs that the factory lists earn ASTRO; the factory and the incentives contract together. *)
From Coq Require Import ZArith Lia Bool List Permutation.
From Verif Require Import Num Amap Bytes IncentivesModel IncentivesSpec IncentivesEmission IncentivesProofs IncentivesProps.
From Verif Require FactoryModel FactoryProps.
From Verif Require Import RegWorldModel RegWorldSpec RegWorldProofs.
Import ListNotations.
Open Scope Z_scope.

(** Each contract runs its own code on the messages it handles. *)
Theorem c137_parts c f own ast grd fe l : let i := init c f own ast grd fe in let w := run c i l in
  fac w = FactoryModel.run f (fac_hist c i l) /\
  inc w = IncentivesModel.run (IncentivesModel.init own (fac_addr c) ast grd fe) (inc_hist c i l).
Proof. intros i w. destruct (run_split c l i). auto. Qed.
Print Assumptions c137_parts.

(** Deposits, incentives and shares in the emission are for listed pairs only, whatever the LP token's minter answers. *)
Theorem c137_needs c e sd m w w' o lp : step c e (Inc sd m) w = Some (w', o) -> needs lp m -> listed c (fac w) lp.
Proof.
  intros H N. cbn [step] in H. unguard H G. unbind H as [i o'] E. clear H. destruct m; cbn [needs] in N; try contradiction; cbn [IncentivesModel.step] in E.
  - unfold silent in E. unbind E as x E1. unfold setup_pools in E1. unguard E1 G1. unguard E1 G2. unguard E1 G3. eapply allowed_listed; eauto.
  - subst lp0. unfold deposit in E. unguard E G1. eapply is_registered_listed. exact G1.
  - unfold incentivize_many in E. unguard E G1. unbind E as [[s1 f1] o1] E1. clear E. revert E1. generalize (set_bal (inc w) (receive_coins funds (bal (inc w)))) as s0. revert funds f1 s1 o1 G1 N.
    induction l as [|[lp0 [[a amt] per]] r IH]; intros funds f1 s1 o1 G1 N s0 E1; cbn [incentivize_each map fst] in *; [destruct N|].
    unbind E1 as [[s2 f2] o2] E2. unbind E1 as [[s3 f3] o3] E3. destruct N as [<-|N]; [|].
    + clear - E2. unfold incentivize in E2. unbind E2 as [[ne en] rr] E4. unguard E2 G2. apply andb_true_iff in G2. eapply is_registered_listed. apply G2.
    + clear E1 E2 G1. revert f3 s3 o3 f2 s2 E3 N IH. clear. intros f3 s3 o3 f2 s2 E3 N IH.
      revert f2 s2 f3 s3 o3 E3. clear IH. induction r as [|[lp0 [[a amt] per]] r IH]; intros f2 s2 f3 s3 o3 E3; cbn [incentivize_each map fst] in *; [destruct N|].
      unbind E3 as [[s4 f4] o4] E4. unbind E3 as [[s5 f5] o5] E5. destruct N as [<-|N]; [|eapply IH; eauto].
      clear - E4. unfold incentivize in E4. unbind E4 as [[ne en] rr] E6. unguard E4 G2. apply andb_true_iff in G2. eapply is_registered_listed. apply G2.
Qed.
Print Assumptions c137_needs.

Section Reach.
  Variables (c : cfg) (f : FactoryModel.state) (own ast : Z) (grd : option Z) (fe : option (Z * Z)) (l : list (wenv * msg)).
  Let i := init c f own ast grd fe.
  Let w := run c i l.
  Hypothesis Hf : fresh f.

  (** Every pool that shares in the emission of ASTRO belongs to a listed pair; others get nothing. *)
  Theorem c137_active : all_effective c i l -> emissions_ok (inc i) (inc_hist c i l) ->
    forall lp, (earns lp (inc w) -> listed c (fac w) lp) /\ (~ listed c (fac w) lp -> rate lp (inc w) = 0).
  Proof.
    intros Ef Ok. assert (I : inv c w).
    { apply run_inv; auto. split; [apply init_good; exact Hf|]. split; [apply em_init|]. intros lp []. }
    destruct I as (_ & (_ & _ & _ & _ & Id & _) & L). intros lp. split; [apply L|]. intros N. apply Id. intros E. apply N. apply L. exact E.
  Qed.

  (** A deregistration is the owner's; afterwards the pair is not listed under any assets; nobody's position is
      touched. If it was told to the incentives contract while ASTRO was emitted, the pool stops at once. *)
  Theorem c137_deregister e sd assets a w' o : (forall x y, lp_of c x = lp_of c y -> x = y) ->
    FactoryModel.query_pair (fac w) assets = Some a -> step c e (Fac (FactoryModel.Deregister sd assets)) w = Some (w', o) ->
    sd = FactoryModel.owner (fac w) /\ ~ listed c (fac w') (lp_of c a) /\
    (forall assets', FactoryModel.pair_key assets' <> FactoryModel.pair_key assets ->
       FactoryModel.query_pair (fac w') assets' = FactoryModel.query_pair (fac w) assets') /\
    (forall lp who, position_of lp who (inc w') = position_of lp who (inc w)) /\
    (emissions_ok (inc i) (inc_hist c i l) -> FactoryModel.generator (fac w) = Some (gen c) ->
     0 < aps (inc w) -> talloc (inc w) <= 10 ^ 18 -> ~ earns (lp_of c a) (inc w') /\ rate (lp_of c a) (inc w') = 0) /\
    (FactoryModel.generator (fac w) <> Some (gen c) -> inc w' = inc w).
  Proof.
    intros Inj Q H. assert (G : wgood w) by (apply run_good, init_good, Hf). cbn [step] in H. unbind H as [[f' k] n] E1. unbind H as i' E2. injection H as <- <-. cbn [fac inc].
    cbn [logged deregister] in E1. unbind E1 as s' E3. rewrite Q in E1. injection E1 as <- <- <-. cbn [app] in E2.
    unfold FactoryModel.deregister in E3. unguard E3 G1. unguard E3 G2. unbind E3 as b Eb. injection E3 as <-. destruct G as (S & K & U).
    split; [lia|]. split; [|split; [|split; [|split]]].
    - intros (l' & a' & Q' & La). apply Inj in La. subst a'. unfold FactoryModel.query_pair in *. cbn [FactoryModel.pairs FactoryModel.set_pairs] in Q'. rewrite bfind_bdel in Q' by exact S.
      destruct (beq_spec (FactoryModel.pair_key assets) (FactoryModel.pair_key l')) as [|N]; [discriminate|]. apply N. apply (U _ _ a Q Q').
    - intros l' N. unfold FactoryModel.query_pair. cbn [FactoryModel.pairs FactoryModel.set_pairs]. rewrite bfind_bdel by exact S.
      destruct (beq_spec (FactoryModel.pair_key assets) (FactoryModel.pair_key l')); [congruence|reflexivity].
    - intros lp who. unfold told in E2. cbn [flat_map fst snd] in E2. destruct (FactoryModel.generator (fac w)) as [g|]; [destruct (g =? gen c)|]; cbn [app deactivate_all] in E2; try (injection E2 as <-; reflexivity).
      unbind E2 as [i1 o1] E4. injection E2 as <-. destruct (fun M => c34_others _ _ (DeactivatePool (lp_of c a)) _ _ _ M E4) as (K' & _); [reflexivity|]. apply K'.
    - intros Ok Hg P T. assert (M : em_inv (inc w)).
      { unfold w. destruct (run_split c l i) as (-> & _). apply run_em; [apply em_init|exact Ok]. }
      unfold told in E2. cbn [flat_map fst snd] in E2. rewrite Hg, Z.eqb_refl in E2. cbn [app] in E2.
      destruct (all_active _ _ _ _ _ M (fun _ => conj P T) E2) as ((_ & _ & _ & _ & Id & _) & K'). assert (Ne : ~ earns (lp_of c a) i') by (intros X; apply K' in X; apply X; left; reflexivity).
      split; [exact Ne|]. apply Id. exact Ne.
    - intros Ng. unfold told in E2. cbn [flat_map fst snd] in E2. destruct (FactoryModel.generator (fac w)) as [g|]; [destruct (Z.eqb_spec g (gen c)); [congruence|]|]; injection E2 as <-; reflexivity.
  Qed.

  (** A pair that is not listed stays so, and gets no deposits, incentives or shares, unless the chain puts a new pair
      at its address (which it never does). If it does not share in the emission it never will. *)
  Theorem c137_gone lp l2 : ~ listed c (fac w) lp ->
    (forall e m a, In (e, Fac m) l2 -> In a (creates m) -> lp_of c a <> lp) ->
    let w2 := run c w l2 in
    ~ listed c (fac w2) lp /\ (forall e sd m, needs lp m -> step c e (Inc sd m) w2 = None) /\
    (~ earns lp (inc w) -> ~ earns lp (inc w2) /\ rate lp (inc w2) = 0).
  Proof.
    intros N C w2. assert (K : ~ listed c (fac w2) lp /\ (~ earns lp (inc w) -> ~ earns lp (inc w2))).
    { assert (G : wgood w) by (apply run_good, init_good, Hf). unfold w2. clearbody w. revert w N C G w2. clear. 
      induction l2 as [|[e m] r IH]; intros w N C G w2; [auto|]. unfold run. cbn [fold_left]. fold (run c (exec c w (e, m)) r).
      assert (Cr : forall e m a, In (e, Fac m) r -> In a (creates m) -> lp_of c a <> lp) by (intros; eapply C; [right; eassumption|assumption]).
      unfold exec. cbn [fst snd]. destruct (step c e m w) as [[w' o]|] eqn:E; [|apply (IH w N Cr G)].
      assert (N' : ~ listed c (fac w') lp /\ (~ earns lp (inc w) -> ~ earns lp (inc w'))).
      { destruct m as [m|sd m]; pose proof E as E'; cbn [step] in E.
        - unbind E as [[f' k] n] E1. unbind E as i' E2. injection E as <- <-. cbn [fac inc]. split.
          + intros (l' & a & Q & La). destruct G as (S & _). destruct (logged_new _ _ _ _ _ _ l' a S E1 Q) as [Q'|Q']; [apply N; exists l', a; auto|].
            apply (C e m a (or_introl eq_refl) Q' La).
          + intros Ne X. apply Ne. apply deactivate_all_run in E2. subst i'. clear - X. revert X. generalize (inc w) as s. induction (told c n) as [|x t IH]; intros s X; [exact X|].
            apply IH in X. cbn [map IncentivesModel.exec] in X. destruct (IncentivesModel.step _ _ _ s) as [[s' o]|] eqn:E; [|exact X]. destruct (step_active _ _ _ _ _ _ _ E X) as [A|[]]; exact A.
        - unguard E Gs. unbind E as [i' o'] E1. injection E as <- <-. cbn [fac inc]. split; [exact N|]. intros Ne X. destruct (step_active _ _ _ _ _ _ _ E1 X) as [A|A]; [auto|].
          apply N. eapply c137_needs; [exact E'|]. destruct m; cbn [lists needs] in *; tauto. }
      destruct N' as (N1 & N2). destruct (IH w' N1 Cr (step_good _ _ _ _ _ _ G E)) as (A & B). auto. }
    destruct K as (A & B). split; [exact A|]. split.
    - intros e sd m Hn. destruct (step c e (Inc sd m) w2) as [[w' o]|] eqn:E; [|reflexivity]. exfalso. apply A. eapply c137_needs; eauto.
    - intros Ne. split; [auto|]. assert (Id : idle (inc w2)).
      { unfold w2, w. rewrite <- (proj1 (run_split c l2 (run c i l))) || idtac. destruct (run_split c l2 (run c i l)) as (-> & _). apply run_idle. destruct (run_split c l i) as (-> & _). apply run_idle. intros k _. reflexivity. }
      apply Id. auto.
  Qed.
End Reach.
Print Assumptions c137_active.
Print Assumptions c137_deregister.
Print Assumptions c137_gone.

(** Leaving and claiming do not depend on what the factory lists. *)
Theorem c137_leave c e f f' who m s : match m with Withdraw _ _ | ClaimRewards _ => True | _ => False end ->
  IncentivesModel.step (seen c e f) who m s = IncentivesModel.step (seen c e f') who m s.
Proof.
  assert (Pa : forall l s who, pay_all (seen c e f) who s l = pay_all (seen c e f') who s l).
  { induction l as [|x r IH]; intros s0 w0; cbn [pay_all]; [reflexivity|]. change (pay (seen c e f) w0 s0 x) with (pay (seen c e f') w0 s0 x).
    destruct (pay (seen c e f') w0 s0 x). rewrite IH. reflexivity. }
  destruct m; intros []; cbn [IncentivesModel.step].
  - assert (Ce : forall l s, claim_each (seen c e f) who l s = claim_each (seen c e f') who l s).
    { induction l0 as [|x r IH]; intros s0; cbn [claim_each]; [reflexivity|].
      destruct (find x (lps s0)) as [p|]; [|reflexivity]. destruct (find who (users p)) as [u|]; [|reflexivity].
      change (now (seen c e f)) with (now (seen c e f')). destruct (update_rewards _ p) as [[q rem]|]; [|reflexivity].
      destruct (due q rem (fins p) u) as [[ext prot]|]; [|reflexivity]. change (save (seen c e f)) with (save (seen c e f')).
      destruct (save _ _ _ _ _) as [s1|]; [|reflexivity]. rewrite IH. reflexivity. }
    unfold claim. rewrite Ce. destruct (nodup l); [|reflexivity]. destruct (claim_each (seen c e f') who l s) as [[[s1 ext] prot]|]; [|reflexivity]. rewrite Pa. reflexivity.
  - unfold withdraw. destruct (find lp (lps s)) as [p|]; [|reflexivity]. destruct (find who (users p)) as [u|]; [|reflexivity]. destruct (amt <=? amount u); [|reflexivity].
    change (now (seen c e f)) with (now (seen c e f')). destruct (update_rewards _ p) as [[q rem]|]; [|reflexivity].
    destruct (due q rem (fins p) u) as [[ext prot]|]; [|reflexivity].
    change (save (seen c e f)) with (save (seen c e f')). change (pay_prot (seen c e f)) with (pay_prot (seen c e f')). change (xfer_ok (seen c e f)) with (xfer_ok (seen c e f')).
    destruct (sub128 (amount u) amt) as [a|]; [|reflexivity]. destruct (sub128 (total_lp q) amt) as [t|]; [|reflexivity]. destruct (save _ _ _ _ _) as [s1|]; [|reflexivity].
    destruct (pay_prot _ _ _) as [o2|]; [|reflexivity]. rewrite Pa. reflexivity.
Qed.
Print Assumptions c137_leave.

(** ** Cases: two pairs (LP tokens 1100 and 1200) share the emission, the first is deregistered. *)
Definition cr : cfg := mkCfg 2 70 (fun a => 1000 + a).
Definition fr (g : option Z) : FactoryModel.state := FactoryModel.mkState 7 (Some 8) g [(1, FactoryProps.ex_cfg)] [] None None None.
Definition asks (lp : Z) : option (list FactoryModel.asset) :=
  if lp =? 1100 then Some FactoryProps.ex_A else if lp =? 1200 then Some FactoryProps.ex_B
  else if lp =? 1300 then Some FactoryProps.ex_A (* a token whose minter poses as the first pair *) else None.
Definition rat (t : Z) : wenv := mkE (at_ t) asks.
Definition setup : list (wenv * msg) :=
  [(rat t0, Fac (FactoryModel.CreatePair 5 1 FactoryProps.ex_A 100 []));
   (rat t0, Fac (FactoryModel.CreatePair 5 1 FactoryProps.ex_B 200 []));
   (rat t0, Inc 1 (SetupPools [(1100, 10); (1200, 30)]));
   (rat t0, Inc 9 (Deposit 1100 1000 None))].
Definition hr : list (wenv * msg) := (rat t0, Inc 1 (SetTokensPerSecond 400)) :: setup ++
  [(rat (t0 + 10), Fac (FactoryModel.Deregister 7 (rev FactoryProps.ex_A)))].
Definition ir (g : option Z) : world := init cr (fr g) 1 3 None None.
Lemma fr_fresh g : fresh (fr g).
Proof. exists 7, (Some 8), g, [(1, FactoryProps.ex_cfg)], None. reflexivity. Qed.
Example hr_meets : all_effective cr (ir (Some 70)) hr /\ emissions_ok (inc (ir (Some 70))) (inc_hist cr (ir (Some 70)) hr) /\
  rate 1100 (inc (run cr (ir (Some 70)) (firstn 5 hr))) = 100 * 10 ^ 18 /\ rate 1100 (inc (run cr (ir (Some 70)) hr)) = 0 /\
  rate 1200 (inc (run cr (ir (Some 70)) hr)) = 400 * 10 ^ 18 /\ position_of 1100 9 (inc (run cr (ir (Some 70)) hr)) = 1000.
Proof.
  split; [|split].
  - assert (No : forall m w f k, logged m (fac w, known w, []) = Some (f, k, []) -> effective cr (Fac m) w).
    { intros m w f k E f' k' n E' N. rewrite E in E'. injection E' as <- <- <-. exfalso. apply N. reflexivity. }
    unfold hr, setup. cbn [app all_effective]. split; [exact Logic.I|]. split; [eapply No; vm_compute; reflexivity|]. split; [eapply No; vm_compute; reflexivity|].
    split; [exact Logic.I|]. split; [exact Logic.I|]. split; [|exact Logic.I].
    intros f k n E N. vm_compute in E. injection E as <- <- <-. split; [|vm_compute; split; [reflexivity|discriminate]]. intros g a [[= <- <-]|[]]. reflexivity.
  - vm_compute. repeat split; try discriminate. repeat constructor; discriminate.
  - vm_compute. auto.
Qed.
(** The poser gets nothing, the first pair nothing after deregistration. *)
Example hr_needs : step cr (rat (t0 + 1)) (Inc 9 (Deposit 1300 1000 None)) (run cr (ir (Some 70)) (firstn 5 hr)) = None /\
  step cr (rat (t0 + 1)) (Inc 9 (Deposit 1100 1000 None)) (run cr (ir (Some 70)) (firstn 5 hr)) <> None /\
  step cr (rat (t0 + 20)) (Inc 9 (Deposit 1100 1000 None)) (run cr (ir (Some 70)) hr) = None /\
  option_map snd (step cr (rat (t0 + 20)) (Inc 9 (Withdraw 1100 1000)) (run cr (ir (Some 70)) hr)) = Some [Prot 9 1000; Back 1100 9 1000].
Proof. split; [vm_compute; reflexivity|]. split; [vm_compute; discriminate|]. split; vm_compute; reflexivity. Qed.

Lemma bfind_one (k k' : bytes) (v a : Z) : bfind k [(k', v)] = Some a -> a = v.
Proof. intros H. apply bfind_in in H. destruct H as [H|[]]. congruence. Qed.
(** Deregistered while the emission is paused (and told so), the pair earns as soon as the emission resumes. *)
Definition hp : list (wenv * msg) := setup ++
  [(rat (t0 + 10), Fac (FactoryModel.Deregister 7 FactoryProps.ex_A)); (rat (t0 + 20), Inc 1 (SetTokensPerSecond 400))].
Theorem c137_paused_refuted : exists c f l lp, fresh f /\ (forall x y, lp_of c x = lp_of c y -> x = y) /\ FactoryModel.generator f = Some (gen c) /\
  let i := init c f 1 3 None None in
  emissions_ok (inc i) (inc_hist c i l) /\ ~ listed c (fac (run c i l)) lp /\ rate lp (inc (run c i l)) = 100 * 10 ^ 18.
Proof.
  exists cr, (fr (Some 70)), hp, 1100. split; [apply fr_fresh|]. split; [intros x y; cbn [cr lp_of]; lia|]. split; [reflexivity|]. cbv zeta.
  split; [vm_compute; repeat split; try discriminate; repeat constructor; discriminate|]. split; [|vm_compute; reflexivity].
  assert (Q : FactoryModel.pairs (fac (run cr (init cr (fr (Some 70)) 1 3 None None) hp)) = [(FactoryModel.pair_key FactoryProps.ex_B, 200)]) by (vm_compute; reflexivity).
  intros (l & a & F & La). unfold FactoryModel.query_pair in F. rewrite Q in F. apply bfind_one in F. subst a. discriminate.
Qed.
Print Assumptions c137_paused_refuted.
(** So does a pair that was deregistered before the factory knew the incentives contract. *)
Theorem c137_untold_refuted : exists c f l lp, fresh f /\ (forall x y, lp_of c x = lp_of c y -> x = y) /\
  let i := init c f 1 3 None None in
  emissions_ok (inc i) (inc_hist c i l) /\ 0 < aps (inc (run c i l)) /\ ~ listed c (fac (run c i l)) lp /\ rate lp (inc (run c i l)) = 100 * 10 ^ 18.
Proof.
  exists cr, (fr None), hr, 1100. split; [apply fr_fresh|]. split; [intros x y; cbn [cr lp_of]; lia|]. cbv zeta.
  split; [vm_compute; repeat split; try discriminate; repeat constructor; discriminate|]. split; [vm_compute; reflexivity|]. split; [|vm_compute; reflexivity].
  assert (Q : FactoryModel.pairs (fac (run cr (init cr (fr None) 1 3 None None) hr)) = [(FactoryModel.pair_key FactoryProps.ex_B, 200)]) by (vm_compute; reflexivity).
  intros (l & a & F & La). unfold FactoryModel.query_pair in F. rewrite Q in F. apply bfind_one in F. subst a. discriminate.
Qed.
Print Assumptions c137_untold_refuted.
