(** C58, C59: exact LP accounting, user minimums, fee split and who controls it. *)
From Coq Require Import ZArith Lia Bool List.
From Verif Require Import Num Ledger Hist SnapshotModel XykModel XykSpec XykProofs.
Import ListNotations.
Open Scope Z_scope.

(** ** C58 *)

(** The LP supply is exactly what the holders (and the locked account) own. *)
Theorem c58_supply_is_sum_of_balances s :
  reachable s -> total (lp s) = supply s /\ (forall a, 0 <= get (lp s) a <= supply s).
Proof.
  intros R. apply reachable_inv0 in R. split; [apply R|].
  intros a. split; [apply nonneg_get, R|]. rewrite <- (j_tot _ R). apply get_le_total, R.
Qed.

Lemma muldiv_val a b c v : muldiv128 a b c = Some v -> v = a * b / c.
Proof. intros H. num_inv. reflexivity. Qed.

(** Providing: pulls exactly the two deposits, credits exactly the receiver with the pro-rata share
    (the smaller of the two ratios; the geometric mean less 1000 locked units the first time),
    leaves all other holders alone, and honours the requested minimum. *)
Theorem c58_provide e s who rcv d0 d1 tol ml s' o :
  reachable s -> step e (Provide who rcv d0 d1 tol ml) s = Some (s', o) ->
  exists share, o = OProvide share /\
    share = (if supply s =? 0 then Z.sqrt (d0 * d1) - 1000
             else Z.min (d0 * supply s / r0 s) (d1 * supply s / r1 s)) /\
    r0 s' = r0 s + d0 /\ r1 s' = r1 s + d1 /\
    supply s' = supply s + share + (if supply s =? 0 then 1000 else 0) /\
    (forall m, ml = Some m -> m <= share) /\
    (forall a, get (lp s') a = get (lp s) a + (if a =? rcv then share else 0)
                 + (if (supply s =? 0) && (a =? SELF) then 1000 else 0)).
Proof.
  intros R H. simpl in H. apply provide_inv in H.
  destruct H as (share & -> & Hd0 & Hd1 & Hc & Hm & R0 & R1 & _ & _ & _ & _ & H1 & H2).
  exists share. split; [reflexivity|]. unfold calculate_shares in Hc.
  destruct (Z.eqb_spec (supply s) 0) as [E|E].
  - unbind Hc as sh Es. unguard Hc Eg. injection Hc as <-. num_inv.
    destruct (H1 E) as [Hs Hl]. change MINIMUM_LIQUIDITY with 1000 in *.
    split; [lia|]. split; [exact R0|]. split; [exact R1|]. split; [lia|]. split; [exact Hm|].
    intros a. rewrite Hl. cbv zeta. rewrite andb_true_l.
    destruct (Z.eqb_spec a rcv) as [->|N].
    + rewrite get_set_same. destruct (Z.eqb_spec rcv SELF) as [->|N2].
      * rewrite get_set_same. lia.
      * rewrite get_set_other by congruence. lia.
    + rewrite get_set_other by congruence. destruct (Z.eqb_spec a SELF) as [->|N2].
      * rewrite get_set_same. lia.
      * rewrite get_set_other by congruence. lia.
  - unbind Hc as u Eu. unbind Hc as x0 E0. unbind Hc as x1 E1. injection Hc as <-.
    apply muldiv_val in E0. apply muldiv_val in E1. subst x0 x1.
    destruct (H2 E) as [Hs Hl].
    split; [reflexivity|]. split; [exact R0|]. split; [exact R1|]. split; [lia|]. split; [exact Hm|].
    intros a. rewrite Hl, andb_false_l. destruct (Z.eqb_spec a rcv) as [->|N].
    + rewrite get_set_same. lia.
    + rewrite get_set_other by congruence. lia.
Qed.

(** Withdrawing: burns exactly the tokens sent, pays the pro-rata part of both assets (18-digit
    share ratio, rounded down; within one ratio step of the exact part), honours the minimums. *)
Theorem c58_withdraw e s who amount mins s' o :
  reachable s -> step e (Withdraw who amount mins) s = Some (s', o) ->
  exists a0 a1, o = OWithdraw a0 a1 /\ 0 < amount <= get (lp s) who /\
    a0 = r0 s * (amount * DEC / supply s) / DEC /\ a1 = r1 s * (amount * DEC / supply s) / DEC /\
    a0 * supply s <= r0 s * amount /\ a1 * supply s <= r1 s * amount /\
    (forall m0 m1, mins = Some (m0, m1) -> m0 <= a0 /\ m1 <= a1) /\
    r0 s' = r0 s - a0 /\ r1 s' = r1 s - a1 /\ 0 <= r0 s' /\ 0 <= r1 s' /\
    supply s' = supply s - amount /\
    (forall a, get (lp s') a = get (lp s) a - (if a =? who then amount else 0)).
Proof.
  intros R H. pose proof (reachable_inv0 _ R) as I. simpl in H. apply withdraw_inv in H.
  destruct H as (a0 & a1 & -> & Hw & Ha & E0 & E1 & Hm & R0 & R1 & Hs & Hl & _ & _ & _ & _ & P0 & P1).
  pose proof (get_le_total (lp s) who (j_nn _ I)) as T. rewrite (j_tot _ I) in T.
  pose proof (share_of_bounds _ _ _ _ E0 (j_r0 _ I) ltac:(lia) ltac:(lia)) as B0.
  pose proof (share_of_bounds _ _ _ _ E1 (j_r1 _ I) ltac:(lia) ltac:(lia)) as B1.
  exists a0, a1. split; [reflexivity|]. split; [exact Ha|].
  unfold share_of, share_ratio in E0, E1.
  destruct (Z.eqb_spec (supply s) 0) as [Z0|_]; [lia|].
  unbind E0 as q0 Q0. num_inv.
  repeat (split; [first [assumption | lia | reflexivity | nia]|]).
  intros a. rewrite Hl. destruct (Z.eqb_spec a who) as [->|N].
  - rewrite get_set_same. reflexivity.
  - rewrite get_set_other by congruence. lia.
Qed.

(** Swaps, fee-share messages and donations never touch LP tokens. *)
Theorem c58_only_liquidity_messages_move_lp e m s s' o :
  step e m s = Some (s', o) ->
  match m with
  | Swap _ _ _ _ | EnableFeeShare _ _ | DisableFeeShare _ | Donate _ _ => lp s' = lp s /\ supply s' = supply s
  | LpTransfer _ _ _ => supply s' = supply s
  | _ => True
  end.
Proof.
  intros H. destruct m; auto; simpl in H.
  - unguard H G. apply swap_inv in H. cbv zeta in H.
    destruct H as (so & _ & _ & _ & _ & _ & A & B & _). auto.
  - unguard H G. inversion H; subst; auto.
  - unguard H G. inversion H; subst; auto.
  - unguard H G. destruct asset; unbind H as v Ev; inversion H; subst; auto.
  - unguard H G. inversion H; subst; auto.
Qed.

(** ** C59 *)

(** Exact split of the commission: the fee share is [bps/10000] of it, the maker gets the
    configured part of the rest. *)
Theorem c59_exact_split e s one offer belief ms s' so :
  reachable s -> env_ok e -> 0 < offer ->
  swap e s one offer belief ms = Some (s', OSwap so) ->
  so_share so = match fshare s with Some b => so_commission so * b / 10000 | None => 0 end /\
  so_maker so = (if maker_on (fees e)
                 then (so_commission so - so_share so) * maker_rate (fees e) / DEC else 0) /\
  10 * so_share so <= so_commission so.
Proof.
  intros R He Ho H. pose proof (reachable_inv0 _ R) as I.
  pose proof H as H0. apply swap_amounts_bounds in H0; auto.
  apply swap_inv in H. cbv zeta in H. destruct H as (so' & Eo & Ha & _).
  injection Eo as <-. unfold swap_amounts in Ha.
  unbind Ha as [[ret spread] comm] Ec. unbind Ha as gross Eg. unbind Ha as u Ea.
  unbind Ha as shr Es. unbind Ha as maker Em. injection Ha as <-.
  cbn [so_return so_spread so_commission so_maker so_share] in *.
  assert (Hc : 0 <= comm) by (destruct one; apply compute_swap_inv in Ec; try tauto; try apply I; lia).
  assert (S : shr = match fshare s with Some b => comm * b / 10000 | None => 0 end /\ 10 * shr <= comm).
  { pose proof (j_bps _ I) as Hb. destruct (fshare s) as [b|]; [|injection Es as <-; lia].
    simpl in Hb. unbind Es as rate Er. num_inv.
    assert (Q : b * DEC / 10000 = b * 100000000000000).
    { unfold DEC. replace (b * 1000000000000000000) with (b * 100000000000000 * 10000) by ring.
      apply Z.div_mul. lia. }
    rewrite Q. assert (Q2 : comm * (b * 100000000000000) / DEC = comm * b / 10000).
    { unfold DEC. replace (comm * (b * 100000000000000)) with (comm * b * 100000000000000) by ring.
      change 1000000000000000000 with (10000 * 100000000000000). apply Z.div_mul_cancel_r; lia. }
    rewrite Q2. split; [reflexivity|].
    assert (comm * b / 10000 <= comm / 10).
    { replace (comm / 10) with (comm * 1000 / 10000).
      - apply Z.div_le_mono; [lia|]. nia.
      - change 10000 with (10 * 1000). apply Z.div_mul_cancel_r; lia. }
    pose proof (Z.mul_div_le comm 10 ltac:(lia)). lia. }
  destruct S as [S1 S2]. split; [exact S1|]. split; [|exact S2].
  assert (0 <= shr).
  { rewrite S1. pose proof (j_bps _ I) as Hb. destruct (fshare s); [|lia].
    simpl in Hb. apply Z.div_pos; nia. }
  destruct (maker_on (fees e)); [|injection Em as <-; reflexivity].
  clear S1 Es H0. num_inv. unfold ssub. replace (Z.max 0 (comm - shr)) with (comm - shr) by lia. reflexivity.
Qed.

(** Only the factory owner can change the fee share, and it is always absent or 1..1000 bps. *)
Theorem c59_fee_share_control e m s s' o :
  step e m s = Some (s', o) -> fshare s' <> fshare s ->
  (exists b, m = EnableFeeShare (factory_owner e) b /\ fshare s' = Some b /\ 1 <= b <= 1000) \/
  (m = DisableFeeShare (factory_owner e) /\ fshare s' = None).
Proof.
  intros H N. destruct m; simpl in H.
  - apply provide_inv in H. destruct H as (share & _ & _ & _ & _ & _ & _ & _ & E & _). congruence.
  - apply withdraw_inv in H.
    destruct H as (a0 & a1 & _ & _ & _ & _ & _ & _ & _ & _ & _ & _ & E & _). congruence.
  - unguard H G. apply swap_inv in H. cbv zeta in H.
    destruct H as (so & _ & _ & _ & _ & _ & _ & _ & E & _). congruence.
  - unguard H G. inversion H; subst. simpl. unfold MAX_FEE_SHARE_BPS in *. bools. subst.
    left. exists bps. repeat split; lia.
  - unguard H G. inversion H; subst. simpl. bools. subst. right. auto.
  - unguard H G. destruct asset; unbind H as v Ev; inversion H; subst; simpl in N; congruence.
  - unguard H G. inversion H; subst; simpl in N; congruence.
Qed.

Theorem c59_fee_share_capped s b : reachable s -> fshare s = Some b -> 1 <= b <= 1000.
Proof.
  intros R E. apply reachable_inv0 in R. pose proof (j_bps _ R) as Hb. rewrite E in Hb. exact Hb.
Qed.

Definition ex_e : env := mkEnv 100 10 (mkFees 3000000000000000 333300000000000000 true) 99.
Definition ex_s : state := run (init false) [(ex_e, Provide 1 2 4000000 9000000 None None)].
Example c58_example : exists s1 s2,
  supply ex_s = 6000000 /\ get (lp ex_s) SELF = 1000 /\ get (lp ex_s) 2 = 5999000 /\
  step ex_e (Provide 3 4 40000 90100 None (Some 60000)) ex_s = Some (s1, OProvide 60000) /\
  step ex_e (Provide 3 4 40000 90100 None (Some 60001)) ex_s = None /\
  step ex_e (Withdraw 2 1000000 (Some (666666, 1499999))) ex_s = Some (s2, OWithdraw 666666 1499999) /\
  step ex_e (Withdraw 2 1000000 (Some (666667, 1499999))) ex_s = None.
Proof. wit. Qed.
Example c59_example : exists s1 s2 so,
  step ex_e (EnableFeeShare 99 1000) ex_s = Some (s1, ONone) /\
  step ex_e (EnableFeeShare 98 1000) ex_s = None /\ step ex_e (EnableFeeShare 99 1001) ex_s = None /\
  swap ex_e s1 false 10000 None None = Some (s2, OSwap so) /\
  so_commission so = 67 /\ so_share so = 6 /\ so_maker so = 20.
Proof. wit. Qed.

Print Assumptions c58_supply_is_sum_of_balances.
Print Assumptions c58_provide.
Print Assumptions c58_withdraw.
Print Assumptions c58_only_liquidity_messages_move_lp.
Print Assumptions c59_exact_split.
Print Assumptions c59_fee_share_control.
Print Assumptions c59_fee_share_capped.
