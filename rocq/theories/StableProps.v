(** C28-C30, C63-C66: the stable pair. *)
From Coq Require Import ZArith Lia Bool List.
From Verif Require Import Num Ledger StableMath StableModel StableProofs StableAcc StablePair.
From Verif Require XykModel XykProofs OwnershipModel.
Import ListNotations.
Open Scope Z_scope.

(** ** C28: the amplification ramp *)

(** The effective amplification exists at every time after the ramp began and lies between its ends;
    it is the target from the end time on. *)
Theorem c28_between s t : reachable s -> init_t (amp s) <= t ->
  exists a, current_amp (amp s) t = Some a /\
    Z.min (init_amp (amp s)) (next_amp (amp s)) <= a <= Z.max (init_amp (amp s)) (next_amp (amp s)) /\
    (next_t (amp s) <= t -> a = next_amp (amp s)).
Proof.
  intros R Ht. apply reachable_inv in R. destruct (current_amp_spec _ t (i_amp s R) Ht) as (a & E & _ & N & B).
  exists a. auto.
Qed.
(** It starts at the initial value and moves towards the target without turning back. *)
Theorem c28_monotone s t1 t2 a1 a2 : reachable s -> init_t (amp s) <= t1 <= t2 ->
  current_amp (amp s) t1 = Some a1 -> current_amp (amp s) t2 = Some a2 ->
  (init_amp (amp s) <= next_amp (amp s) -> a1 <= a2) /\
  (next_amp (amp s) <= init_amp (amp s) -> a2 <= a1) /\
  (t1 = init_t (amp s) -> t1 < next_t (amp s) -> a1 = init_amp (amp s)).
Proof.
  intros R [H1 H2] E1 E2. apply reachable_inv in R. pose proof (i_amp s R) as K. set (r := amp s) in *. clearbody r.
  destruct (current_amp_spec r t1 K H1) as (b1 & F1 & A1 & N1 & B1).
  destruct (current_amp_spec r t2 K ltac:(lia)) as (b2 & F2 & A2 & N2 & B2).
  rewrite E1 in F1. rewrite E2 in F2. injection F1 as <-. injection F2 as <-.
  destruct (Z.lt_ge_cases t1 (next_t r)) as [L1|L1].
  2: { rewrite N1, N2 by lia. lia. }
  destruct (A1 L1) as (W & X & Y). clear A1. cbv zeta in *.
  destruct (Z.lt_ge_cases t2 (next_t r)) as [L2|L2].
  2: { rewrite (N2 L2) in *. split; [lia|]. split; [lia|]. intros E _. rewrite Y, E, Z.sub_diag, !Z.mul_0_r, !Z.div_0_l by lia.
       destruct (init_amp r <? next_amp r); lia. }
  destruct (A2 L2) as (_ & X2 & Y2). cbv zeta in *.
  assert (M : forall d, 0 <= d -> d * (t1 - init_t r) / (next_t r - init_t r) <= d * (t2 - init_t r) / (next_t r - init_t r)).
  { intros d Hd. apply Z.div_le_mono; [lia|]. apply Z.mul_le_mono_nonneg_l; lia. }
  split; [|split].
  - intros O. destruct (Z.ltb_spec (init_amp r) (next_amp r)) as [Q|Q].
    + specialize (M (next_amp r - init_amp r) ltac:(lia)). lia.
    + replace (init_amp r - next_amp r) with 0 in * by lia. cbn in Y, Y2. lia.
  - intros O. destruct (Z.ltb_spec (init_amp r) (next_amp r)) as [Q|Q]; [lia|].
    specialize (M (init_amp r - next_amp r) ltac:(lia)). lia.
  - intros E _. rewrite Y, E, Z.sub_diag, !Z.mul_0_r, !Z.div_0_l by lia. destruct (init_amp r <? next_amp r); lia.
Qed.
(** Forever within [1, 10^6] (stored with two digits). *)
Theorem c28_range s t a : reachable s -> current_amp (amp s) t = Some a -> 100 <= a <= 100000000.
Proof. intros R. apply reachable_inv in R. apply current_amp_range. apply R. Qed.
(** Starting a ramp: only the owner, at least a day after the previous change, for at least a day, by at
    most a factor of ten; the value does not jump and the requested one is reached at the requested time. *)
Theorem c28_start e s sender next time s' o : reachable s -> env_ok e -> time <= U64MAX -> 
  step e (StartAmp sender next time) s = Some (s', o) ->
  sender = eff_owner e s /\
  exists cur, current_amp (amp s) (now e) = Some cur /\
    init_t (amp s) + 86400 <= now e /\ now e + 86400 <= time /\ 1 <= next <= 1000000 /\
    cur <= 10 * (100 * next) /\ 100 * next <= 10 * cur /\
    current_amp (amp s') (now e) = Some cur /\
    (forall t, time <= t -> current_amp (amp s') t = Some (100 * next)) /\
    init_t (amp s') = now e /\ r0 s' = r0 s /\ r1 s' = r1 s /\ lp s' = lp s /\ supply s' = supply s.
Proof.
  intros R He Hm H. apply reachable_inv in R. pose proof (i_amp s R) as K. cbn [step] in H. unguard H G.
  unbind H as r Er. injection H as <- <-. apply Z.eqb_eq in G. split; [exact G|].
  pose proof (start_amp_ok _ _ _ _ _ K (proj1 (proj1 He)) Hm Er) as K'.
  apply start_amp_inv in Er. destruct Er as (cur & Ec & -> & H1 & H2 & H3 & H4 & H5).
  exists cur. cbn [amp set_amp r0 r1 lp supply init_t].
  destruct (current_amp_spec _ (now e) K' ltac:(cbn; lia)) as (a & Ea & Ba & _). cbn [init_t next_t init_amp next_amp] in *.
  destruct (Ba ltac:(lia)) as (_ & _ & Va). cbv zeta in Va. rewrite Z.sub_diag, !Z.mul_0_r, !Z.div_0_l in Va by lia.
  split; [exact Ec|]. repeat (split; [lia|]). split.
  { rewrite Ea. f_equal. destruct (cur <? 100 * next); lia. }
  split. { intros t Ht. unfold current_amp. cbn [next_t next_amp]. rewrite (proj2 (Z.ltb_ge t time)) by lia. reflexivity. }
  auto.
Qed.
(** Stopping freezes the current value for all later times. *)
Theorem c28_stop e s sender s' o : reachable s -> step e (StopAmp sender) s = Some (s', o) ->
  sender = eff_owner e s /\
  exists cur, current_amp (amp s) (now e) = Some cur /\ forall t, now e <= t -> current_amp (amp s') t = Some cur.
Proof.
  intros R H. cbn [step] in H. unguard H G. unbind H as r Er. injection H as <- <-. apply Z.eqb_eq in G.
  split; [exact G|]. unfold stop_amp in Er. unbind Er as cur Ec. injection Er as <-. exists cur. split; [reflexivity|].
  intros t Ht. cbn [amp set_amp]. unfold current_amp. cbn [next_t next_amp]. rewrite (proj2 (Z.ltb_ge t (now e))) by lia. reflexivity.
Qed.
(** The owner can stop at any time, and start when the conditions hold. *)
Theorem c28_stop_succeeds e s : reachable s -> init_t (amp s) <= now e -> step e (StopAmp (eff_owner e s)) s <> None.
Proof.
  intros R Ht. destruct (c28_between s (now e) R Ht) as (a & E & _). cbn [step]. rewrite Z.eqb_refl.
  unfold stop_amp. rewrite E. discriminate.
Qed.
(** Nothing else changes the ramp. *)
Theorem c28_only_owner e m s s' o : step e m s = Some (s', o) -> amp s' <> amp s ->
  (exists next time, m = StartAmp (eff_owner e s) next time) \/ m = StopAmp (eff_owner e s).
Proof.
  intros H N. destruct m; cbn [step] in H.
  - apply provide_inv in H. destruct H as (a & sh & H). exfalso. apply N. tauto.
  - apply withdraw_inv in H. destruct H as (a & sh & H). exfalso. apply N. tauto.
  - unguard H G. exfalso. apply N. unfold swap in H. unbind H as [[ret spread] comm] Eq.
    unbind H as gross Eg. unbind H as u Eu.
    unbind H as shr Es. unbind H as maker Em. unbind H as no E1. unbind H as k1 E2. unbind H as k2 E3. unbind H as na E4.
    unbind H as x Ex. unbind H as y Ey. unbind H as c Ec. injection H as <- _. destruct c as [[? ?] ?]. reflexivity.
  - unguard H G. apply Z.eqb_eq in G. subst sender. left. exists next, time. reflexivity.
  - unguard H G. apply Z.eqb_eq in G. subst sender. right. reflexivity.
  - unguard H G. injection H as <- _. exfalso. apply N. reflexivity.
  - unguard H G. injection H as <- _. exfalso. apply N. reflexivity.
  - unbind H as ow Eo. injection H as <- _. exfalso. apply N. reflexivity.
  - unguard H G. unbind H as n En. injection H as <- _. exfalso. apply N. reflexivity.
  - unguard H G. injection H as <- _. exfalso. apply N. reflexivity.
Qed.

(** A concrete pair: amplification 1, six decimals, native assets, 0.1 % commission. *)
Definition ex_fee := XykModel.mkFees 1000000000000000 0 false.
Definition ex_e (t : Z) : env := mkEnv t ex_fee 7.
Definition ex_s0 : state := mkState 0 0 6 6 true true 0 [] 0 0 0 (mkRamp 100 100 100 100) None None None.
Definition ex_l : list (env * msg) := [(ex_e 200, Provide 1 1000000 3000000 None)].
Definition ex_t : state := run ex_s0 ex_l.
Lemma ex_env_ok t : is_u64 t -> env_ok (ex_e t).
Proof. intros H. split; [exact H|]. cbn. unfold DEC. lia. Qed.
Lemma ex_reach l : hist_ok l -> reachable (run ex_s0 l).
Proof.
  intros H. exists 100, 1, None, 6, 6, true, true, ex_s0, l. split; [unfold is_u64, U64MAX; lia|].
  split; [lia|]. split; [reflexivity|]. auto.
Qed.
Ltac hist := repeat (apply Forall_cons; [split; [apply ex_env_ok; unfold is_u64, U64MAX; lia|cbn; unfold U64MAX; lia || exact I]|]);
  apply Forall_nil.
Definition ex_ramp : list (env * msg) := [(ex_e 90000, StartAmp 7 5 290000)].
Example c28_example :
  reachable (run ex_s0 ex_ramp) /\
  current_amp (amp (run ex_s0 ex_ramp)) 90000 = Some 100 /\
  current_amp (amp (run ex_s0 ex_ramp)) 190000 = Some 300 /\
  current_amp (amp (run ex_s0 ex_ramp)) 300000 = Some 500 /\
  step (ex_e 90000) (StartAmp 7 11 290000) ex_s0 = None /\
  step (ex_e 80000) (StartAmp 7 5 290000) ex_s0 = None /\
  step (ex_e 90000) (StartAmp 8 5 290000) ex_s0 = None.
Proof. split; [apply ex_reach; hist|]. wit. Qed.

(** ** C29: withdrawals *)
Theorem c29_withdraw e s who amount mins s' o : reachable s ->
  step e (Withdraw who amount mins) s = Some (s', o) ->
  exists a0 a1, o = OWithdraw a0 a1 /\
    (* at most the proportional part, at least that less one ratio step *)
    0 <= a0 /\ 0 <= a1 /\
    a0 * supply s <= r0 s * amount /\ a1 * supply s <= r1 s * amount /\
    r0 s * (amount * DEC / supply s) < (a0 + 1) * DEC /\ r1 s * (amount * DEC / supply s) < (a1 + 1) * DEC /\
    r0 s' = r0 s - a0 /\ r1 s' = r1 s - a1 /\ supply s' = supply s - amount /\
    (* so nobody else's part shrinks *)
    r0 s' * supply s >= r0 s * supply s' /\ r1 s' * supply s >= r1 s * supply s' /\
    (forall m0 m1, mins = Some (m0, m1) -> m0 <= a0 /\ m1 <= a1) /\
    (forall a, get (lp s') a = get (lp s) a - (if a =? who then amount else 0)).
Proof.
  intros R H. apply reachable_inv in R. destruct R as [I0 I1 In It Il Ia If]. cbn [step] in H. apply withdraw_inv in H.
  destruct H as (a0 & a1 & -> & Hw & Ha & S0 & S1 & Hm & R0 & R1 & P0 & P1 & Hs & Hl & _).
  pose proof (get_le_total (lp s) who In) as Hg. assert (SP : 0 < supply s) by lia.
  destruct (XykProofs.share_of_bounds _ _ _ _ S0) as (B0 & C0 & _); [lia..|].
  destruct (XykProofs.share_of_bounds _ _ _ _ S1) as (B1 & C1 & _); [lia..|].
  exists a0, a1. split; [reflexivity|]. split; [exact B0|]. split; [exact B1|]. split; [exact C0|]. split; [exact C1|].
  assert (K : forall r v, XykModel.share_of r amount (supply s) = Some v -> r * (amount * DEC / supply s) < (v + 1) * DEC).
  { intros r v E. unfold XykModel.share_of in E. unbind E as q Eq. unfold XykModel.share_ratio in Eq.
    destruct (Z.eqb_spec (supply s) 0); [lia|]. apply dratio_Some in Eq. apply umul_Some in E.
    destruct Eq as (_ & -> & _), E as (-> & _). pose proof (floor_bounds (r * (amount * DEC / supply s)) DEC DEC_pos). lia. }
  split; [apply K; exact S0|]. split; [apply K; exact S1|]. split; [exact R0|]. split; [exact R1|]. split; [exact Hs|].
  rewrite R0, R1, Hs. split; [lia|]. split; [lia|]. split; [exact Hm|].
  intros a. rewrite Hl. destruct (Z.eqb_spec a who) as [->|N].
  - rewrite get_set_same. lia.
  - rewrite get_set_other by congruence. lia.
Qed.
(** LP tokens are exactly accounted for; once there is liquidity 1000 units are locked for good. *)
Theorem c29_supply s : reachable s ->
  total (lp s) = supply s /\ (forall a, 0 <= get (lp s) a) /\
  (supply s = 0 \/ 1000 <= get (lp s) SELF) /\ (supply s = 0 \/ 1000 <= supply s).
Proof.
  intros R. apply reachable_inv in R. destruct R as [I0 I1 In It Il Ia If]. change MINIMUM_LIQUIDITY with 1000 in Il.
  pose proof (get_le_total (lp s) SELF In).
  split; [exact It|]. split; [intros a; apply nonneg_get; exact In|]. split; [exact Il|]. destruct Il; [auto|lia].
Qed.
Lemma step_supply_stays e m s s' o : inv s -> 0 < supply s -> step e m s = Some (s', o) -> 1000 <= get (lp s) SELF -> 
  inv s' -> 1000 <= supply s'.
Proof.
  intros I P H L I'. destruct (Z.le_gt_cases 1000 (supply s')) as [|C]; [assumption|exfalso].
  destruct (i_lock _ I') as [Z0|K].
  2: { pose proof (get_le_total (lp s') SELF (i_nn _ I')). rewrite (i_tot _ I') in *. change MINIMUM_LIQUIDITY with 1000 in K. lia. }
  destruct m; cbn [step] in H.
  - apply provide_inv in H. destruct H as (a & sh & H). destruct H as (_ & _ & _ & Hp & _ & _ & _ & _ & _ & _ & Hs & _).
    destruct (supply s =? 0); unfold MINIMUM_LIQUIDITY in *; lia.
  - apply withdraw_inv in H. destruct H as (a0 & a1 & _ & Hw & Ha & _ & _ & _ & _ & _ & _ & _ & Hs & _).
    pose proof (get2_le_total (lp s) who SELF (i_nn _ I) Hw). rewrite (i_tot _ I) in *. lia.
  - unguard H G. unfold swap in H. unbind H as [[ret spread] comm] Eq. unbind H as gross Eg. unbind H as u Eu.
    unbind H as shr Es. unbind H as maker Em. unbind H as no E1. unbind H as k1 E2. unbind H as k2 E3. unbind H as na E4.
    unbind H as x Ex. unbind H as y Ey. unbind H as c Ec. injection H as <- _. destruct c as [[? ?] ?]. cbn in Z0. lia.
  - unguard H G. unbind H as r Er. injection H as <- <-. cbn in Z0. lia.
  - unguard H G. unbind H as r Er. injection H as <- <-. cbn in Z0. lia.
  - unguard H G. injection H as <- _. cbn in Z0. lia.
  - unguard H G. injection H as <- _. cbn in Z0. lia.
  - unbind H as ow Eo. injection H as <- _. cbn in Z0. lia.
  - unguard H G. unbind H as n En. injection H as <- _. cbn in Z0. lia.
  - unguard H G. injection H as <- _. cbn in Z0. lia.
Qed.
Theorem c29_supply_never_returns_to_zero s l : reachable s -> 0 < supply s -> hist_ok l -> 1000 <= supply (run s l).
Proof.
  intros R. apply reachable_inv in R. revert s R. induction l as [|em l IH]; intros s I P Hl.
  - cbn. destruct (i_lock _ I) as [Z0|K]; [lia|]. pose proof (get_le_total (lp s) SELF (i_nn _ I)).
    rewrite (i_tot _ I) in *. change MINIMUM_LIQUIDITY with 1000 in K. lia.
  - inversion Hl as [|x y H1 H2]; subst. cbn. unfold exec. destruct (step (fst em) (snd em) s) as [[s' o]|] eqn:E; [|apply IH; auto].
    assert (I' : inv s') by (eapply step_inv; eauto; tauto). apply IH; auto.
    destruct (i_lock _ I) as [Z0|K]; [lia|]. change MINIMUM_LIQUIDITY with 1000 in K.
    pose proof (step_supply_stays _ _ _ _ _ I P E K I'). lia.
Qed.
(** Withdrawals never empty the pool. *)
Theorem c29_withdraw_keeps_reserves e s who amount mins s' o : reachable s ->
  step e (Withdraw who amount mins) s = Some (s', o) ->
  (0 < r0 s -> 0 < r0 s') /\ (0 < r1 s -> 0 < r1 s').
Proof.
  intros R H. pose proof (reachable_inv _ R) as I.
  destruct (c29_withdraw _ _ _ _ _ _ _ R H) as (a0 & a1 & _ & A0 & A1 & B0 & B1 & _ & _ & E0 & E1 & Es & F0 & F1 & _).
  cbn [step] in H. apply withdraw_inv in H. destruct H as (b0 & b1 & _ & Hw & Ha & _).
  assert (Sp : 0 < supply s - amount).
  { destruct (i_lock _ I) as [Z0|K]; unfold MINIMUM_LIQUIDITY in *.
    - pose proof (get_le_total (lp s) who (i_nn _ I)). rewrite (i_tot _ I) in *. lia.
    - pose proof (get2_le_total (lp s) who SELF (i_nn _ I) Hw). rewrite (i_tot _ I) in *. lia. }
  rewrite Es in *. split; intros P.
  - destruct (Z.le_gt_cases (r0 s') 0); [exfalso|assumption]. nia.
  - destruct (Z.le_gt_cases (r1 s') 0); [exfalso|assumption]. nia.
Qed.
(** But a swap can: in a dust pool a large offer takes the whole other reserve, after which neither swaps
    nor deposits are possible. *)
Definition ex_dust : list (env * msg) :=
  [(ex_e 200, Provide 1 501 501 None);
   (ex_e 200, Swap false 20000 (Some 100000000000000000000) (Some 500000000000000000))].
Theorem c29_reserves_positive_refuted : exists s,
  reachable s /\ supply s = 1002 /\ r0 s = 20501 /\ r1 s = 0 /\
  step (ex_e 200) (Provide 1 501 501 None) s = None /\
  step (ex_e 200) (Swap true 1000 None None) s = None /\ step (ex_e 200) (Swap false 1000 None None) s = None.
Proof.
  exists (run ex_s0 ex_dust). split; [apply ex_reach; hist|].
  remember (run ex_s0 ex_dust) as s eqn:E. vm_compute in E. subst s. wit.
Qed.
Example c29_example : reachable ex_t /\ r0 ex_t = 1000000 /\ r1 ex_t = 3000000 /\ supply ex_t = 3717778 /\
  option_map snd (step (ex_e 200) (Withdraw 1 1000000 (Some (268977, 806933))) ex_t) = Some (OWithdraw 268977 806933) /\
  step (ex_e 200) (Withdraw 1 1000000 (Some (268978, 806933))) ex_t = None.
Proof. split; [apply ex_reach; hist|]. wit. Qed.

(** ** C30: swap amounts *)
Lemma with_prec_inv v p r : with_prec v p = Some r -> 0 <= p <= 18 /\ r = v * 10 ^ (18 - p).
Proof. unfold with_prec. intros H. unguard H G. apply u256_Some in H. bools. lia. Qed.
Lemma to_prec_inv v p r : to_prec v p = Some r -> 0 <= p <= 18 /\ r = v / 10 ^ (18 - p) /\ 0 <= r.
Proof. unfold to_prec. intros H. unguard H G. apply u128_Some in H. bools. lia. Qed.
Lemma unit_pos p : 0 <= p <= 18 -> 0 < 10 ^ (18 - p).
Proof. intros. apply Z.pow_pos_nonneg; lia. Qed.
Lemma compute_swap_inv a off opool k x y p gross spread : 0 <= k -> 0 <= p <= 18 ->
  compute_swap a off opool (k * 10 ^ (18 - p)) x y p = Some (gross, spread) ->
  exists r, y_raw a (opool + off) x y = Some r /\ 0 <= gross <= k /\ k - gross = r / 10 ^ (18 - p) /\
    spread = Z.max 0 (off / 10 ^ (18 - p) - gross) /\ 0 <= opool + off.
Proof.
  intros Hk Hp H. unfold compute_swap in H. unbind H as na E1. unbind H as nk E2. unbind H as ask E3. unbind H as g E4.
  unbind H as of E5. injection H as <- <-. apply add256_Some in E1. destruct E1 as (-> & E1). unfold calc_y in E2.
  unbind E2 as r Er. apply to_prec_inv in E2, E3, E5. apply sub128_Some in E4.
  destruct E3 as (_ & E3 & _), E5 as (_ & -> & _), E2 as (_ & -> & E2), E4 as (-> & E4).
  rewrite Z.div_mul in E3 by (pose proof (unit_pos p Hp); lia). subst ask.
  exists r. split; [reflexivity|]. split; [lia|]. split; [lia|]. split; [reflexivity|lia].
Qed.
(** Everything a swap pays out. [gross] is what the curve gives. *)
Theorem c30_amounts e s one offer belief ms s' o : reachable s -> env_ok e ->
  step e (Swap one offer belief ms) s = Some (s', o) ->
  exists ret spread comm maker shr, o = OSwap ret spread comm maker shr /\
    let ask s := if one then r0 s else r1 s in let off s := if one then r1 s else r0 s in
    let gross := ret + comm in
    0 <= gross <= ask s /\ 0 <= ret /\
    comm = gross * total_fee (fees e) / DEC /\
    shr = (match fshare s with Some b => comm * (b * DEC / 10000) / DEC | None => 0 end) /\
    maker = (if maker_on (fees e) then (comm - shr) * maker_rate (fees e) / DEC else 0) /\
    0 <= maker /\ 0 <= shr /\ maker + shr <= comm /\
    ret + maker + shr <= ask s /\
    off s' = off s + offer /\ ask s' = ask s - (ret + maker + shr) /\
    supply s' = supply s /\ lp s' = lp s.
Proof.
  intros R He H. apply reachable_inv in R. cbn [step] in H. unguard H G. apply swap_inv in H; [|exact He|apply R].
  destruct H as (ret & spread & comm & maker & shr & -> & Hq & _ & A & B & C & D & E & (F1 & F2 & F3 & _) & Hs & Hl & _).
  exists ret, spread, comm, maker, shr. split; [reflexivity|]. cbv zeta.
  apply quote_inv in Hq; [|exact He].
  destruct Hq as (gross & a & x & y & off & Hx & Hy & Ho & Ha & N0 & N1 & N2 & Hc & Hcm & Hr & R0 & C0 & G0).
  apply with_prec_inv in Hx, Hy, Ho. destruct Hx as (X1 & ->), Hy as (Y1 & ->), Ho as (O1 & ->).
  replace (ret + comm) with gross by lia.
  assert (K : 0 <= gross <= if one then r0 s else r1 s).
  { destruct one.
    - apply compute_swap_inv in Hc; [|apply R|exact X1]. destruct Hc as (r & _ & Hc & _). exact Hc.
    - apply compute_swap_inv in Hc; [|apply R|exact Y1]. destruct Hc as (r & _ & Hc & _). exact Hc. }
  split; [exact K|]. split; [exact R0|]. split; [exact Hcm|]. split; [exact D|]. split; [exact E|].
  repeat (split; [lia|]). auto.
Qed.
(** The simulation query announces exactly what the swap does. *)
Theorem c30_simulation e s one offer belief ms s' ret spread comm maker shr :
  step e (Swap one offer belief ms) s = Some (s', OSwap ret spread comm maker shr) -> env_ok e -> reachable s ->
  query_simulation e s one offer = Some (ret, spread, comm).
Proof.
  intros H He R. apply reachable_inv in R. cbn [step] in H. unguard H G. apply swap_inv in H; [|exact He|apply R].
  destruct H as (ret' & spread' & comm' & maker' & shr' & E & Hq & _). injection E as -> -> -> -> ->.
  pose proof (quote_inv _ _ _ _ _ _ _ He Hq) as (gr & a & x & y & off & _ & _ & _ & _ & N0 & N1 & N2 & _).
  unfold query_simulation. rewrite (proj2 (Z.eqb_neq _ _) N0), (proj2 (Z.eqb_neq _ _) N1), (proj2 (Z.eqb_neq _ _) N2). exact Hq.
Qed.
(** The spread limit the caller chose (5% if none) is enforced on the gross output. *)
Theorem c30_spread_enforced e s one offer ms s' ret spread comm maker shr :
  step e (Swap one offer None (Some ms)) s = Some (s', OSwap ret spread comm maker shr) -> env_ok e -> reachable s ->
  0 < ret + comm + spread -> spread * DEC / (ret + comm + spread) <= ms.
Proof.
  intros H He R P. apply reachable_inv in R. cbn [step] in H. unguard H G. apply swap_inv in H; [|exact He|apply R].
  destruct H as (ret' & spread' & comm' & maker' & shr' & E & Hq & Hm & _). injection E as -> -> -> -> ->.
  unfold XykModel.assert_max_spread in Hm.
  repeat match type of Hm with
  | (if ?b then None else _) = _ => let E := fresh in destruct b eqn:E; [discriminate|]
  | (if ?b then _ else None) = _ => let E := fresh in destruct b eqn:E; [|discriminate]
  | match ?m with Some _ => _ | None => None end = _ => let E := fresh in destruct m eqn:E; [|discriminate]
  end; num_inv; bools; lia.
Qed.
Definition ex_e2 : env := mkEnv 200 (XykModel.mkFees 3000000000000000 500000000000000000 true) 7.
Example c30_example : reachable ex_t /\ env_ok ex_e2 /\
  option_map snd (step ex_e2 (Swap true 300000 None (Some 500000000000000000)) ex_t) =
    Some (OSwap 149862 149688 450 225 0) /\
  query_simulation ex_e2 ex_t true 300000 = Some (149862, 149688, 450) /\
  step ex_e2 (Swap true 300000 None (Some 490000000000000000)) ex_t = None.
Proof.
  split; [apply ex_reach; hist|].
  split; [split; [unfold is_u64, U64MAX; cbn; lia|cbn; unfold DEC; lia]|]. wit.
Qed.

(** ** C63: accuracy of the numerical core *)

(** The computed invariant, against the exact curve for amplification [amp] (the sign of [Gam] tells on which
    side of the exact invariant a value lies; [P] is the product of the doubled reserves): off by at most 5
    units of 10^-18 downwards and 1.3 * 10^-11 upwards. *)
Theorem c63_invariant amp x y D : 100 <= amp -> 0 <= x -> 0 <= y -> compute_d amp x y = Some D -> DEC <= D ->
  exists P, DEC * P <= 4 * x * y < DEC * P + DEC /\
    (forall D0, Gam P (lev amp) (x + y) D0 <= 0 -> D0 <= D + 5) /\
    (forall D0, 0 <= D0 -> 0 <= Gam P (lev amp) (x + y) D0 -> D <= D0 + 13000000).
Proof.
  intros Ha Hx Hy H HD.
  assert (S : 0 < x + y).
  { destruct (Z.eq_dec (x + y) 0) as [Z0|]; [|lia]. exfalso. unfold compute_d in H.
    repeat (let E := fresh "E" in unbind H as ? E). apply add256_Some in E3. destruct E3 as (-> & _).
    rewrite Z0 in H. cbn in H. injection H as <-. unfold DEC in HD. lia. }
  destruct (compute_d_inv amp x y D ltac:(lia) Hx Hy H S) as (P & d & dp & rv & HP & P0 & d0 & D0' & Hab & F).
  pose proof (lev_ge amp Ha) as HL. exists P. split; [exact HP|]. unfold Gam. split.
  - intros D0 HG. pose proof (d_lower DEC TOL _ _ _ _ _ _ _ D0 F DEC_pos eq_refl HL P0 d0 Hab
      ltac:(unfold TOL, DEC in *; lia) HG) as B.
    destruct (Z.le_gt_cases D0 (D + 5)) as [|C]; [assumption|exfalso].
    assert (3 * DEC <= (D0 - D - 3) * D) by (apply Z.mul_le_mono_nonneg; unfold DEC in *; lia).
    unfold DEC in *. lia.
  - intros D0 HD0 HG. pose proof (d_upper DEC TOL _ _ _ _ _ _ _ D0 F DEC_pos eq_refl HL P0 d0 Hab
      ltac:(unfold TOL, DEC in *; lia) HD0 HG) as B.
    destruct (Z.le_gt_cases D (D0 + 13000000)) as [|C]; [assumption|exfalso].
    assert (12999994 * D ^ 2 <= (D - D0 - 6) * D ^ 2) as B1 by (apply Z.mul_le_mono_nonneg_r; [apply sq_nonneg|lia]).
    assert (DEC * D <= D * D) as B2 by (apply Z.mul_le_mono_nonneg_r; unfold DEC in *; lia).
    assert (DEC * DEC <= DEC * D) as B3 by (apply Z.mul_le_mono_nonneg_l; unfold DEC in *; lia).
    rewrite !Z.pow_2_r in *. unfold TOL, DEC in *. lia.
Qed.

(** The computed new reserve for a given other reserve [x'], against the exact curve of the computed
    invariant ([Hy] has the sign of "Y minus the exact reserve"). *)
Theorem c63_reserve amp x' x y D r k : 100 <= amp -> 0 <= x -> 0 <= y -> 0 <= x' ->
  compute_d amp x y = Some D -> y_raw amp x' x y = Some r -> DEC <= r -> 0 <= k -> D + DEC <= 2 * k * x' ->
  (forall Y, Hy (lev amp) x' D Y <= 0 -> Y <= r + 10 + k) /\
  (forall Y, 0 < Y -> 0 <= Hy (lev amp) x' D Y -> r <= Y + 1000001).
Proof.
  intros Ha Hx Hy' Hx' HD H Hr Hk HK.
  destruct (y_raw_inv amp x' x y r ltac:(lia) Hx Hy' Hx' H) as (D' & b & c & yl & ED & X0 & D0 & C0 & R0 & Co & Hab & Hq & Lo & Hi).
  rewrite HD in ED. injection ED as <-. pose proof (lev_ge amp Ha) as HL. unfold Hy. split.
  - intros Y HY.
    pose proof (y_lower DEC TOL (lev amp) x' D b c yl r Y Co DEC_pos eq_refl ltac:(discriminate) HL X0 D0 C0
      ltac:(unfold TOL, DEC in *; lia) Hab Hq Lo Hi HY) as B.
    destruct (Z.le_gt_cases Y (r + 10 + k)) as [|C]; [assumption|exfalso].
    assert (B1 : (9 + k) * (2 * x' * r) <= (Y - r - 2) * (2 * x' * r)).
    { apply Z.mul_le_mono_nonneg_r; [|lia]. apply Z.mul_nonneg_nonneg; lia. }
    assert (B2 : (9 + k) * (2 * x') * DEC <= (9 + k) * (2 * x') * r).
    { apply Z.mul_le_mono_nonneg_l; [|lia]. apply Z.mul_nonneg_nonneg; lia. }
    assert (B3 : DEC * (D + DEC) <= DEC * (2 * k * x')) by (apply Z.mul_le_mono_nonneg_l; [discriminate|lia]).
    assert (0 < x' * DEC) by (apply Z.mul_pos_pos; [lia|reflexivity]). lia.
  - intros Y Y0 HY.
    pose proof (y_upper DEC TOL (lev amp) x' D b c yl r Y Co DEC_pos eq_refl ltac:(unfold DEC in *; lia) X0 D0 R0 Hab Lo Hi Y0 HY) as B.
    destruct (Z.le_gt_cases r (Y + 1000001)) as [|C]; [assumption|exfalso].
    assert (1000001 * r <= (r - Y - 1) * r) by (apply Z.mul_le_mono_nonneg_r; lia).
    unfold TOL, DEC in *. rewrite Z.pow_2_r in B. lia.
Qed.

(** A swap: the ask reserve it leaves (before fees are even kept) is below the exact curve of the pool's
    invariant by less than one base unit of the ask asset plus 11 + k units of 10^-18 (D + 10^18 at most 2 k
    times the new offer reserve); and it is above it by at most 10^6 + 1 units of 10^-18. *)
Theorem c63_swap e s one offer belief ms s' ret spread comm maker shr a D k : reachable s -> env_ok e ->
  step e (Swap one offer belief ms) s = Some (s', OSwap ret spread comm maker shr) ->
  let u0 := 10 ^ (18 - p0 s) in let u1 := 10 ^ (18 - p1 s) in
  let x' := if one then (r1 s + offer) * u1 else (r0 s + offer) * u0 in
  let left := (if one then r0 s else r1 s) - (ret + comm) in let u := if one then u0 else u1 in
  current_amp (amp s) (now e) = Some a -> compute_d a (r0 s * u0) (r1 s * u1) = Some D ->
  DEC <= left * u -> 0 <= k -> D + DEC <= 2 * k * x' ->
  (forall Y, Hy (lev a) x' D Y <= 0 -> Y < (left + 1) * u + 10 + k) /\
  (forall Y, 0 < Y -> 0 <= Hy (lev a) x' D Y -> left * u <= Y + 1000001).
Proof.
  intros R He H u0 u1 x' lft u Ha HD HL Hk HK.
  pose proof (c28_range _ _ _ R Ha) as RA. pose proof (reachable_inv _ R) as I.
  cbn [step] in H. unguard H G. bools. apply swap_inv in H; [|exact He|apply I].
  destruct H as (ret' & spread' & comm' & maker' & shr' & E & Hq & _). injection E as <- <- <- <- <-.
  apply quote_inv in Hq; [|exact He].
  destruct Hq as (gross & a' & x & y & off & Hx & Hy' & Ho & Ha' & N0 & N1 & N2 & Hc & Hcm & Hr & _).
  rewrite Ha in Ha'. injection Ha' as <-.
  apply with_prec_inv in Hx, Hy', Ho. destruct Hx as (X1 & ->), Hy' as (Y1 & ->), Ho as (O1 & ->).
  fold u0 u1 in Hc. destruct I as [I0 I1 _ _ _ _ _].
  assert (U0 : 0 < u0) by (apply unit_pos; exact X1). assert (U1 : 0 < u1) by (apply unit_pos; exact Y1).
  assert (EL : lft = (if one then r0 s else r1 s) - gross) by (unfold lft; lia).
  assert (K : exists r, y_raw a x' (r0 s * u0) (r1 s * u1) = Some r /\ lft = r / u).
  { destruct one.
    - apply compute_swap_inv in Hc; [|exact I0|exact X1]. destruct Hc as (r & Hc & _ & Hl & _ & _).
      exists r. split; [|rewrite EL; exact Hl]. rewrite <- Hc. f_equal. unfold x', u1. ring.
    - apply compute_swap_inv in Hc; [|exact I1|exact Y1]. destruct Hc as (r & Hc & _ & Hl & _ & _).
      exists r. split; [|rewrite EL; exact Hl]. rewrite <- Hc. f_equal. unfold x', u0. ring. }
  destruct K as (r & Hy2 & El). assert (U : 0 < u) by (unfold u; destruct one; assumption).
  pose proof (floor_bounds r u U) as FB. rewrite <- El in FB.
  assert (X0 : 0 <= x') by (unfold x'; destruct one; apply Z.mul_nonneg_nonneg; lia).
  destruct (c63_reserve a x' (r0 s * u0) (r1 s * u1) D r k) as [A B]; auto; try lia.
  split.
  - intros Y HY. specialize (A Y HY). lia.
  - intros Y Y0 HY. specialize (B Y Y0 HY). lia.
Qed.

Lemma compute_d_nonneg amp x y D : 0 <= amp -> 0 <= x -> 0 <= y -> compute_d amp x y = Some D -> 0 <= D.
Proof.
  intros Ha Hx Hy H. destruct (Z.eq_dec (x + y) 0) as [Z0|NZ].
  - unfold compute_d in H. unbind H as a E1. unbind H as L E2. unbind H as x2 E3. unbind H as y2 E4. unbind H as sum E5.
    apply add256_Some in E5. destruct E5 as (-> & _). rewrite Z0 in H. cbn in H. injection H as <-. lia.
  - destruct (compute_d_inv amp x y D Ha Hx Hy H) as (ab & d & dp & rv & _ & _ & _ & K & _); [lia|exact K].
Qed.

(** ** C64: provided liquidity is paid at the pool's invariant per share *)
Theorem c64_shares e s receiver d0 d1 min_lp s' o : reachable s -> 0 < supply s ->
  step e (Provide receiver d0 d1 min_lp) s = Some (s', o) ->
  let u0 := 10 ^ (18 - p0 s) in let u1 := 10 ^ (18 - p1 s) in
  exists a share D0 D1, o = OProvide share /\ current_amp (amp s) (now e) = Some a /\
    compute_d a (r0 s * u0) (r1 s * u1) = Some D0 /\ compute_d a (r0 s' * u0) (r1 s' * u1) = Some D1 /\
    0 < D0 < D1 /\
    share = supply s * (D1 - D0) / D0 /\
    D0 * supply s' <= D1 * supply s /\
    r0 s' = r0 s + d0 /\ r1 s' = r1 s + d1 /\ supply s' = supply s + share /\
    (forall m, min_lp = Some m -> m <= share) /\
    (forall b, get (lp s') b = get (lp s) b + (if b =? receiver then share else 0)).
Proof.
  intros R HS H u0 u1. pose proof (reachable_inv _ R) as [I0 I1 _ _ _ _ _]. cbn [step] in H. apply provide_inv in H.
  destruct H as (a & share & -> & Hd0 & Hd1 & Hp & Ha & Hc & Hm & R0 & R1 & _ & Hs & Hl & _).
  assert (E0 : (supply s =? 0) = false) by (apply Z.eqb_neq; lia). rewrite E0 in Hs, Hl.
  unfold calculate_shares in Hc. rewrite E0 in Hc.
  unbind Hc as dd0 F1. unbind Hc as dd1 F2. unbind Hc as dx F3. unbind Hc as dy F4. unbind Hc as nx F5. unbind Hc as ny F6.
  unbind Hc as D1 F7. unbind Hc as D0 F8. unbind Hc as t F9. unbind Hc as m F10. unbind Hc as sh F11. unguard Hc G. injection Hc as ->.
  apply with_prec_inv in F1, F2, F3, F4, F9. apply add256_Some in F5, F6.
  destruct F1 as (P0 & ->), F2 as (P1 & ->), F3 as (_ & ->), F4 as (_ & ->), F9 as (PG & ->).
  destruct F5 as (-> & _), F6 as (-> & _). fold u0 u1 in F7, F8.
  assert (GP := unit_pos _ PG). set (ug := 10 ^ (18 - greatest s)) in *.
  apply muldiv256_Some in F10. destruct F10 as (ND & -> & F10). apply to_prec_inv in F11. fold ug in F11. destruct F11 as (_ & -> & _).
  assert (D0' : 0 <= D0).
  { pose proof (unit_pos _ P0). pose proof (unit_pos _ P1). pose proof (c28_range _ _ _ R Ha).
    apply (compute_d_nonneg a (r0 s * u0) (r1 s * u1)); [lia| | |exact F8]; apply Z.mul_nonneg_nonneg; unfold u0, u1; lia. }
  exists a, (supply s * ug * ssub D1 D0 / D0 / ug), D0, D1.
  assert (LT : D0 < D1).
  { unfold ssub in Hp. destruct (Z.lt_ge_cases D0 D1) as [|C]; [assumption|exfalso].
    rewrite Z.max_l, Z.mul_0_r, Z.div_0_l in Hp by lia. cbn in Hp. lia. }
  assert (SE : supply s * ug * ssub D1 D0 / D0 / ug = supply s * (D1 - D0) / D0).
  { unfold ssub. rewrite Z.max_r by lia. rewrite Z.div_div by lia. rewrite Z.mul_comm with (n := D0).
    replace (supply s * ug * (D1 - D0)) with (ug * (supply s * (D1 - D0))) by ring.
    rewrite Z.div_mul_cancel_l by lia. reflexivity. }
  split; [reflexivity|]. split; [exact Ha|]. split; [exact F8|].
  split. { rewrite <- F7, R0, R1. f_equal; unfold u0, u1; ring. }
  split; [lia|]. split; [exact SE|].
  pose proof (floor_bounds (supply s * (D1 - D0)) D0 ltac:(lia)) as FB. rewrite <- SE in FB.
  split. { rewrite Hs. lia. }
  split; [exact R0|]. split; [exact R1|]. split; [lia|]. split; [exact Hm|].
  intros b. rewrite Hl. cbv zeta. destruct (Z.eqb_spec b receiver) as [->|N].
  - rewrite get_set_same. lia.
  - rewrite get_set_other by congruence. lia.
Qed.
(** The first deposit: the invariant in LP units, less 1000 locked units. *)
Theorem c64_first e s receiver d0 d1 min_lp s' o : reachable s -> supply s = 0 ->
  step e (Provide receiver d0 d1 min_lp) s = Some (s', o) ->
  exists a share D, o = OProvide share /\ current_amp (amp s) (now e) = Some a /\
    compute_d a (r0 s' * 10 ^ (18 - p0 s)) (r1 s' * 10 ^ (18 - p1 s)) = Some D /\
    share = D / 10 ^ (18 - Z.max (p0 s) (p1 s)) - 1000 /\ 0 < share /\ supply s' = share + 1000 /\
    (receiver <> SELF -> get (lp s') SELF = get (lp s) SELF + 1000 /\ get (lp s') receiver = get (lp s) receiver + share).
Proof.
  intros R HS H. cbn [step] in H. apply provide_inv in H.
  destruct H as (a & share & -> & Hd0 & Hd1 & Hp & Ha & Hc & Hm & R0 & R1 & _ & Hs & Hl & _).
  assert (E0 : (supply s =? 0) = true) by (apply Z.eqb_eq; lia). rewrite E0 in Hs, Hl.
  unfold calculate_shares in Hc. rewrite E0 in Hc.
  unbind Hc as dd0 F1. unbind Hc as dd1 F2. unbind Hc as dx F3. unbind Hc as dy F4. unbind Hc as nx F5. unbind Hc as ny F6.
  unbind Hc as D F7. unbind Hc as v F8. unbind Hc as sh F9. unguard Hc G. injection Hc as ->.
  apply with_prec_inv in F1, F2, F3, F4. apply add256_Some in F5, F6. apply to_prec_inv in F8. apply sub128_Some in F9.
  destruct F1 as (P0 & ->), F2 as (P1 & ->), F3 as (_ & ->), F4 as (_ & ->), F5 as (-> & _), F6 as (-> & _).
  destruct F8 as (_ & -> & _), F9 as (-> & _). change MINIMUM_LIQUIDITY with 1000 in *. unfold greatest in *.
  exists a, (D / 10 ^ (18 - Z.max (p0 s) (p1 s)) - 1000), D.
  split; [reflexivity|]. split; [exact Ha|]. split; [rewrite <- F7, R0, R1; f_equal; ring|].
  split; [reflexivity|]. split; [lia|]. split; [lia|]. intros N. rewrite Hl. cbv zeta.
  split.
  - rewrite get_set_other by congruence. apply get_set_same.
  - rewrite get_set_same, get_set_other by congruence. lia.
Qed.

(** The pool of the examples (1 and 3 tokens, amplification 1). *)
Example c63_example :
  compute_d 100 1000000000000000000 3000000000000000000 = Some 3717778143742483626 /\
  Gam 12000000000000000000 (lev 100) 4000000000000000000 3717778143742483621 <= 0 /\
  0 <= Gam 12000000000000000000 (lev 100) 4000000000000000000 3717778143742483631 /\
  y_raw 100 1300000000000000000 1000000000000000000 3000000000000000000 = Some 2519782561194967180 /\
  Hy (lev 100) 1300000000000000000 3717778143742483626 2519782561194967170 <= 0 /\
  0 <= Hy (lev 100) 1300000000000000000 3717778143742483626 2519782561194967190.
Proof. wit. Qed.
Example c64_example : reachable ex_t /\ 0 < supply ex_t /\
  option_map snd (step (ex_e 200) (Provide 2 500000 0 (Some 650714)) ex_t) = Some (OProvide 650714) /\
  step (ex_e 200) (Provide 2 500000 0 (Some 650715)) ex_t = None.
Proof. split; [apply ex_reach; hist|]. split; [vm_compute; reflexivity|]. wit. Qed.

(** ** C65: trading back and forth *)
(** Outputs are rounded in the trader's favour and the commission on a few units is zero, so a trader can
    take a unit out of the pool for nothing: one unit of asset 0 buys two of asset 1, one of which buys it back. *)
Theorem c65_round_trip_refuted : exists s s1 s2,
  reachable s /\ total_fee ex_fee = DEC / 1000 /\
  option_map fst (step (ex_e 200) (Swap false 1 None None) s) = Some s1 /\
  option_map fst (step (ex_e 200) (Swap true 1 None None) s1) = Some s2 /\
  r0 s2 = r0 s /\ r1 s2 = r1 s - 1 /\ supply s2 = supply s.
Proof.
  remember ex_t as s eqn:E.
  remember (exec s (ex_e 200, Swap false 1 None None)) as s1 eqn:E1.
  remember (exec s1 (ex_e 200, Swap true 1 None None)) as s2 eqn:E2.
  exists s, s1, s2. split. { rewrite E. apply ex_reach. hist. }
  vm_compute in E. subst s. vm_compute in E1. subst s1. vm_compute in E2. subst s2. wit.
Qed.
(** A swap alone never gives more than one unit and a hair above the exact curve: see [c63_swap]. *)

(** ** C66: cumulative prices *)
(** Swaps and withdrawals: the accumulators grow by the elapsed time times the fee-free output for one whole
    token, computed from the reserves before the operation. *)
Definition accumulated (e : env) (s s' : state) (x y : Z) : Prop :=
  (now e <= last_t s -> c01 s' = c01 s /\ c10 s' = c10 s /\ last_t s' = last_t s) /\
  (last_t s < now e -> last_t s' = now e /\
    (x = 0 \/ y = 0 -> c01 s' = c01 s /\ c10 s' = c10 s) /\
    (x <> 0 -> y <> 0 -> exists a g01 g10 sp01 sp10 v01 v10, current_amp (amp s) (now e) = Some a /\
       compute_swap a DEC x y x y (p1 s) = Some (g01, sp01) /\ adjust_precision g01 (p1 s) 6 = Some v01 /\
       compute_swap a DEC y x x y (p0 s) = Some (g10, sp10) /\ adjust_precision g10 (p0 s) 6 = Some v10 /\
       c01 s' = (c01 s + (now e - last_t s) * v01) mod 2 ^ 128 /\
       c10 s' = (c10 s + (now e - last_t s) * v10) mod 2 ^ 128)).
Lemma accumulate_spec e s s' x y c : accumulate_prices e s x y = Some c -> (c01 s', c10 s', last_t s') = c ->
  accumulated e s s' x y.
Proof.
  intros H E. unfold accumulate_prices in H. unfold accumulated. destruct (Z.leb_spec (now e) (last_t s)) as [L|L].
  - injection H as <-. injection E as -> -> ->. split; [auto|lia].
  - split; [lia|]. intros _. destruct (Z.eqb_spec x 0) as [X|X]; cbn [negb andb] in H.
    { injection H as <-. injection E as -> -> ->. split; [reflexivity|]. split; [auto|]. intros; contradiction. }
    destruct (Z.eqb_spec y 0) as [Y|Y]; cbn [negb andb] in H.
    { injection H as <-. injection E as -> -> ->. split; [reflexivity|]. split; [auto|]. intros; contradiction. }
    unbind H as a Ea. unbind H as [g01 sp01] E1. unbind H as v01 E2. unbind H as i01 E3. unbind H as [g10 sp10] E4.
    unbind H as v10 E5. unbind H as i10 E6. injection H as <-. injection E as -> -> ->.
    apply mul128_Some in E3, E6. destruct E3 as (-> & _), E6 as (-> & _).
    split; [reflexivity|]. split; [intros [?|?]; contradiction|]. intros _ _.
    exists a, g01, g10, sp01, sp10, v01, v10. unfold TWAP_PRECISION in *. unfold wadd128. rewrite TWO128_eq. auto 10.
Qed.
Theorem c66_swap_withdraw e m s s' o : reachable s -> env_ok e ->
  (exists one offer b ms, m = Swap one offer b ms) \/ (exists who amount mins, m = Withdraw who amount mins) ->
  step e m s = Some (s', o) ->
  accumulated e s s' (r0 s * 10 ^ (18 - p0 s)) (r1 s * 10 ^ (18 - p1 s)).
Proof.
  intros R He [(one & offer & b & ms & ->)|(who & amount & mins & ->)] H; cbn [step] in H.
  - unguard H G. apply swap_inv in H; [|exact He|apply (reachable_inv _ R)].
    destruct H as (? & ? & ? & ? & ? & _ & _ & _ & _ & _ & _ & _ & _ & _ & _ & _ & _ & _ & _ & _ & (x & y & c & Hx & Hy & Hc & E) & _).
    apply with_prec_inv in Hx, Hy. destruct Hx as (_ & ->), Hy as (_ & ->). eapply accumulate_spec; eauto.
  - apply withdraw_inv in H.
    destruct H as (? & ? & _ & _ & _ & _ & _ & _ & _ & _ & _ & _ & _ & _ & _ & _ & _ & _ & (x & y & c & Hx & Hy & Hc & E) & _).
    apply with_prec_inv in Hx, Hy. destruct Hx as (_ & ->), Hy as (_ & ->). eapply accumulate_spec; eauto.
Qed.
(** Deposits of token contracts too; deposits of native assets count as if they had been there all the time. *)
Theorem c66_provide e receiver d0 d1 min_lp s s' o : reachable s ->
  step e (Provide receiver d0 d1 min_lp) s = Some (s', o) ->
  accumulated e s s' ((if nat0 s then r0 s + d0 else r0 s) * 10 ^ (18 - p0 s))
    ((if nat1 s then r1 s + d1 else r1 s) * 10 ^ (18 - p1 s)).
Proof.
  intros R H. cbn [step] in H. apply provide_inv in H.
  destruct H as (? & ? & _ & _ & _ & _ & _ & _ & _ & _ & _ & (x & y & c & Hx & Hy & Hc & E) & _).
  apply with_prec_inv in Hx, Hy. destruct Hx as (_ & ->), Hy as (_ & ->). eapply accumulate_spec; eauto.
Qed.
(** So a depositor can shift the average price of a period that is already over: 100 seconds at a price of
    1.277 are recorded as 1.277 by a withdrawal and as 2.496 by a deposit. *)
Theorem c66_past_price_fixed_refuted : exists s s1 s2,
  reachable s /\ last_t s = 200 /\
  option_map fst (step (ex_e 300) (Withdraw 1 1 None) s) = Some s1 /\
  option_map fst (step (ex_e 300) (Provide 2 0 5000000 None) s) = Some s2 /\
  last_t s1 = 300 /\ last_t s2 = 300 /\
  c01 s1 - c01 s = 100 * 1277055 /\ c01 s2 - c01 s = 100 * 2496046.
Proof.
  remember ex_t as s eqn:E.
  remember (exec s (ex_e 300, Withdraw 1 1 None)) as s1 eqn:E1.
  remember (exec s (ex_e 300, Provide 2 0 5000000 None)) as s2 eqn:E2.
  exists s, s1, s2. split. { rewrite E. apply ex_reach. hist. }
  vm_compute in E. subst s. vm_compute in E1. subst s1. vm_compute in E2. subst s2. wit.
Qed.
Example c66_example : accumulated (ex_e 200) ex_s0 ex_t 1000000000000000000 3000000000000000000.
Proof.
  destruct (step (ex_e 200) (Provide 1 1000000 3000000 None) ex_s0) as [[s' o]|] eqn:E; [|vm_compute in E; discriminate].
  assert (ex_t = s') as ->. { unfold ex_t, ex_l, run, fold_left, exec, fst, snd. rewrite E. reflexivity. }
  pose proof (c66_provide _ _ _ _ _ _ _ _ (ex_reach [] (Forall_nil _)) E) as K. exact K.
Qed.

(** ** C67: the commission can be avoided *)
(** A pool with 1000 tokens of each asset, amplification 100, 0.1 % commission.  Depositing one token of asset 0
    and withdrawing at once exchanges 499752 units of it for 499748 of asset 1; a swap of the same amount pays
    499251. *)
Definition ex_a0 : state := mkState 0 0 6 6 true true 0 [] 0 0 0 (mkRamp 10000 100 10000 100) None None None.
Lemma ex_reach_a l : hist_ok l -> reachable (run ex_a0 l).
Proof.
  intros H. exists 100, 100, None, 6, 6, true, true, ex_a0, l. split; [unfold is_u64, U64MAX; lia|].
  split; [lia|]. split; [reflexivity|]. auto.
Qed.
Theorem c67_commission_unavoidable_refuted : exists s s1 s2 s3,
  reachable s /\
  option_map fst (step (ex_e 200) (Provide 2 1000000 0 None) s) = Some s1 /\
  step (ex_e 200) (Withdraw 2 (get (lp s1) 2) None) s1 = Some (s2, OWithdraw (1000000 - 499752) 499748) /\
  get (lp s2) 2 = get (lp s) 2 /\
  step (ex_e 200) (Swap false 499752 None None) s = Some (s3, OSwap 499251 2 499 0 0).
Proof.
  remember (run ex_a0 [(ex_e 200, Provide 1 1000000000 1000000000 None)]) as s eqn:E.
  remember (exec s (ex_e 200, Provide 2 1000000 0 None)) as s1 eqn:E1.
  remember (exec s1 (ex_e 200, Withdraw 2 (get (lp s1) 2) None)) as s2 eqn:E2.
  remember (exec s (ex_e 200, Swap false 499752 None None)) as s3 eqn:E3.
  exists s, s1, s2, s3. split. { rewrite E. apply ex_reach_a. hist. }
  vm_compute in E. subst s. vm_compute in E1. subst s1. vm_compute in E2. subst s2. vm_compute in E3. subst s3. wit.
Qed.

Print Assumptions c28_between.
Print Assumptions c28_monotone.
Print Assumptions c28_range.
Print Assumptions c28_start.
Print Assumptions c28_stop.
Print Assumptions c28_stop_succeeds.
Print Assumptions c28_only_owner.
Print Assumptions c29_withdraw.
Print Assumptions c29_supply.
Print Assumptions c29_supply_never_returns_to_zero.
Print Assumptions c29_withdraw_keeps_reserves.
Print Assumptions c29_reserves_positive_refuted.
Print Assumptions c30_amounts.
Print Assumptions c30_simulation.
Print Assumptions c30_spread_enforced.
Print Assumptions c63_invariant.
Print Assumptions c63_reserve.
Print Assumptions c63_swap.
Print Assumptions c64_shares.
Print Assumptions c64_first.
Print Assumptions c65_round_trip_refuted.
Print Assumptions c66_swap_withdraw.
Print Assumptions c66_provide.
Print Assumptions c66_past_price_fixed_refuted.
Print Assumptions c67_commission_unavoidable_refuted.
