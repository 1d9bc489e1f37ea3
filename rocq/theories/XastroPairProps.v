(** C50, C85: the ASTRO-xASTRO pair. *)
From Coq Require Import ZArith Lia Bool List.
From Verif Require Import Num Ledger StakingModel StakingProofs StakingProps XastroPairModel.
Import ListNotations.
Open Scope Z_scope.

(** The state in which the pair's prediction is wrong: ASTRO was donated before anybody staked. *)
Definition donated_first (s : state) : Prop := supply s = 0 /\ dep s <> 0.

Lemma xtransfer s from to a t : step (XTransfer from to a) s = Some t ->
  dep (fst t) = dep s /\ supply (fst t) = supply s /\ xb (fst t) = move (xb s) from to a /\
  from <> SELF /\ 0 <= a <= get (xb s) from.
Proof.
  simpl. intros H. unguard H G. injection H as <-. bools. cbn. repeat split; auto; lia.
Qed.

(** ** C50 *)

(** The reported amount is the paid amount, except for the very first stake after a donation. The paid
    amount comes straight from staking: xASTRO minted to the receiver, or ASTRO taken out of the deposit; the
    pair keeps nothing. *)
Theorem c50_swap s self who offer amount attached to s' r :
  reachable s -> self <> SELF -> who <> self ->
  swap s self who offer amount attached to = Some (s', r) ->
  attached = amount /\ payee r = match to with Some t => t | None => who end /\
  ((offer = ASTRO /\ (~ donated_first s -> reported r = paid r) /\
      enter s (payee r) amount = Some (s', paid r)) \/
   (offer = XASTRO /\ reported r = paid r /\
      dep s' = dep s - paid r /\ supply s' = supply s - amount /\
      get (xb s') who = get (xb s) who - amount /\ get (xb s') self = get (xb s) self)).
Proof.
  intros R Ns Nw H. unfold swap in H. unguard H G. apply Z.eqb_eq in G. cbv zeta in H.
  set (rc := match to with Some t => t | None => who end) in *. destruct offer; [| |discriminate].
  - unbind H as p P. unbind H as [s1 m] E. injection H as <- <-. cbn. split; [exact G|]. split; [reflexivity|].
    left. split; [reflexivity|]. split; [|exact E]. intros Nd.
    destruct (enter_inv _ _ _ _ _ E (reachable_inv _ R)) as (_ & _ & _ & E1 & E2).
    destruct (inv_supply _ (reachable_inv _ R)) as (_ & Hs). unfold predict_stake in P. unfold donated_first in Nd.
    destruct (Z.eq_dec (supply s) 0) as [Z0|Z0].
    + assert (D : dep s = 0) by lia. rewrite D, Z.eqb_refl in P. unguard P Gp. apply sub128_Some in P.
      destruct P as (-> & _). destruct (E1 Z0) as (-> & _). reflexivity.
    + destruct (Hs Z0). destruct (Z.eqb_spec (dep s) 0); [lia|]. apply muldiv128_Some in P.
      destruct P as (_ & -> & _). destruct (E2 Z0) as (-> & _). reflexivity.
  - unbind H as t T. unbind H as p P. unbind H as [s1 m] E. injection H as <- <-. cbn. split; [exact G|]. split; [reflexivity|].
    right. split; [reflexivity|]. destruct (xtransfer _ _ _ _ _ T) as (T1 & T2 & T3 & T4 & T5).
    unfold predict_unstake in P. unguard P Gp. apply muldiv128_Some in P. destruct P as (_ & -> & _).
    unfold leave in E. unguard E G1. unbind E as ret E1. unbind E as d E2. unguard E G2. injection E as <- <-.
    apply muldiv128_Some in E1. destruct E1 as (_ & -> & _). apply sub128_Some in E2. destruct E2 as (-> & _).
    cbn. rewrite T1, T2, T3. split; [reflexivity|]. split; [reflexivity|]. split; [reflexivity|].
    rewrite get_set_other by congruence. rewrite get_set_same, get_move_from, get_move_to by congruence. lia.
Qed.
(** In the excepted state the report is wrong: 0 reported, 1000 received. *)
Theorem c50_refuted : exists s self who amount s' r, reachable s /\ self <> SELF /\ who <> self /\
  swap s self who ASTRO amount amount None = Some (s', r) /\ reported r = 0 /\ paid r = 1000.
Proof.
  exists (run init [Donate 5]), 7, 8, 2000. eexists. eexists.
  split; [eexists; reflexivity|]. split; [discriminate|]. split; [discriminate|]. split; [vm_compute; reflexivity|]. vm_compute. auto.
Qed.
(** The pair never stands in the way: what staking accepts goes through, for both directions. *)
Theorem c50_open_stake s self who amount to s' m : reachable s ->
  enter s (match to with Some t => t | None => who end) amount = Some (s', m) ->
  exists p, swap s self who ASTRO amount amount to = Some (s', mkRes p (match to with Some t => t | None => who end) m).
Proof.
  intros R E. unfold swap. rewrite Z.eqb_refl. cbv zeta. rewrite E.
  assert (P : exists p, predict_stake s amount = Some p); [|destruct P as (p & ->); eexists; reflexivity].
  unfold enter in E. unguard E E1. unguard E E2. unbind E as mint E3. clear E. unfold predict_stake.
  destruct (inv_supply _ (reachable_inv _ R)) as (_ & Hs).
  destruct (Z.eqb_spec (dep s) 0) as [D|D].
  - rewrite orb_true_r in *. simpl in E2. rewrite E2. eauto.
  - destruct (Z.eqb_spec (supply s) 0) as [S0|S0].
    + rewrite S0. exists 0. apply muldiv128_Some. rewrite Z.mul_0_r, Z.div_0_l by exact D. unfold U128MAX. lia.
    + simpl in E3. eauto.
Qed.
Theorem c50_open_unstake s self who amount to : reachable s -> self <> SELF -> who <> SELF -> who <> self ->
  0 < amount <= get (xb s) who ->
  exists s' r, swap s self who XASTRO amount amount to = Some (s', r).
Proof.
  intros R Ns Nw N A. unfold swap. rewrite Z.eqb_refl. cbv zeta.
  assert (T : step (XTransfer who self amount) s = Some (mkState (dep s) (supply s) (move (xb s) who self amount), 0)).
  { simpl. rewrite (proj2 (Z.eqb_neq who SELF)), (proj2 (Z.leb_le 0 amount)), (proj2 (Z.leb_le amount _)) by lia. reflexivity. }
  rewrite T. cbn [fst]. set (s1 := mkState _ _ _).
  assert (R1 : reachable s1).
  { destruct R as (l & ->). exists (l ++ [XTransfer who self amount]). rewrite run_app. unfold exec. rewrite T. reflexivity. }
  assert (A1 : 0 < amount <= get (xb s1) self).
  { unfold s1. cbn. rewrite get_move_to by congruence. pose proof (nonneg_get (xb s) self (i_nn _ (reachable_inv _ R))). lia. }
  destruct (c60_leave_always_possible s1 self amount R1 Ns A1) as (s2 & r & L). rewrite L.
  pose proof (get_le_total _ who (i_nn _ (reachable_inv _ R))) as Le. rewrite (i_tot _ (reachable_inv _ R)) in Le.
  unfold predict_unstake. rewrite (proj2 (Z.leb_le amount (supply s1))) by (unfold s1; cbn; lia).
  unfold leave in L. unguard L G1. unbind L as ret E1. eexists. eexists. reflexivity.
Qed.
(** The simulation quotes exactly what the swap reports and (outside the excepted state) pays. *)
Theorem c50_simulation s self who offer amount to s' r : reachable s -> self <> SELF -> who <> self ->
  swap s self who offer amount amount to = Some (s', r) ->
  simulate s offer amount = Some (reported r).
Proof.
  intros R Ns N H. unfold swap in H. rewrite Z.eqb_refl in H. cbv zeta in H. destruct offer; [| |discriminate].
  - unbind H as p P. unbind H as x E. injection H as _ <-. exact P.
  - unbind H as t T. unbind H as p P. unbind H as x E. injection H as _ <-. cbn.
    destruct (xtransfer _ _ _ _ _ T) as (T1 & T2 & _). unfold predict_unstake in *. rewrite T1, T2 in P. exact P.
Qed.

(** ** C85: reverse simulation *)

(** Offering the quoted amount never pays more than asked, and one unit more always pays at least
    what was asked. *)
Theorem c85_reverse s ask amount q : 0 < dep s -> 0 < supply s -> 0 <= amount ->
  reverse s ask amount = Some q ->
  let back := match ask with ASTRO => fun x => x * dep s / supply s | _ => fun x => x * supply s / dep s end in
  back q <= amount <= back (q + 1).
Proof.
  intros D S A H. unfold reverse, predict_stake, predict_unstake in H.
  assert (Gen : forall n d, 0 < n -> 0 < d -> (amount * n / d) * d / n <= amount <= (amount * n / d + 1) * d / n).
  { intros n d Hn Hd. pose proof (Z.mul_div_le (amount * n) d Hd). pose proof (Z.mul_succ_div_gt (amount * n) d Hd). split.
    - apply Z.div_le_upper_bound; nia.
    - apply Z.div_le_lower_bound; nia. }
  destruct ask; [| |discriminate].
  - destruct (Z.eqb_spec (dep s) 0); [lia|]. apply muldiv128_Some in H. destruct H as (_ & -> & _). apply Gen; lia.
  - unguard H G. apply muldiv128_Some in H. destruct H as (_ & -> & _). apply Gen; lia.
Qed.
(** But offering exactly the quoted amount pays less than asked for: asking 100 ASTRO is quoted 66 xASTRO,
    which pays 99. *)
Theorem c85_refuted : exists s, reachable s /\ reverse s ASTRO 100 = Some 66 /\
  exists self who s' r, swap s self who XASTRO 66 66 None = Some (s', r) /\ paid r = 99 /\ reported r = 99.
Proof.
  exists ex. split; [apply ex_reachable|]. split; [reflexivity|]. exists 7, 1. eexists. eexists.
  split; [vm_compute; reflexivity|]. vm_compute. auto.
Qed.

(** ** Concrete case *)
Example k_swap : exists s1 s2,
  swap ex 7 5 ASTRO 1000 1000 (Some 6) = Some (s1, mkRes 666 6 666) /\ get (xb s1) 6 = 666 /\
  swap s1 7 6 XASTRO 600 600 None = Some (s2, mkRes 900 6 900) /\ get (xb s2) 6 = 66 /\ get (xb s2) 7 = 0 /\
  swap ex 7 5 ASTRO 1000 999 (Some 6) = None /\ ~ donated_first ex /\ simulate ex ASTRO 1000 = Some 666.
Proof.
  eexists. eexists. split; [vm_compute; reflexivity|]. split; [reflexivity|]. split; [vm_compute; reflexivity|].
  split; [reflexivity|]. split; [reflexivity|]. split; [reflexivity|]. split; [|reflexivity].
  intros (A & _). vm_compute in A. discriminate.
Qed.

Print Assumptions c50_swap.
Print Assumptions c50_refuted.
Print Assumptions c50_open_stake.
Print Assumptions c50_open_unstake.
Print Assumptions c50_simulation.
Print Assumptions c85_reverse.
Print Assumptions c85_refuted.
