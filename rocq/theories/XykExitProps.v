(** C134: liquidity of the constant-product pair can be taken out, as long as the price accumulators fit. *)
From Coq Require Import ZArith Lia Bool List.
From Verif Require Import Num Ledger Hist SnapshotModel XykModel XykSpec XykProofs XykProps XykLpProps.
From Verif Require SaleTaxModel.
Import ListNotations.
Open Scope Z_scope.

(** ** Specification *)

(** At time [t] the price accumulators can be brought up to date: elapsed seconds times 10^6 times the price fit 128
    bits in both directions. *)
Definition accrues (t : Z) (s : state) : Prop :=
  t <= last_t s \/ r0 s = 0 \/ r1 s = 0 \/
  let x := (t - last_t s) * 10 ^ 6 in x < 2 ^ 128 /\ x * r1 s / r0 s < 2 ^ 128 /\ x * r0 s / r1 s < 2 ^ 128.
(** Messages that touch the pool: deposits, withdrawals and swaps. *)
Definition trades (m : msg) : bool := match m with Provide _ _ _ _ _ _ | Withdraw _ _ _ | Swap _ _ _ _ => true | _ => false end.
Definition gift (m : msg) : bool := match m with Donate _ _ => true | _ => false end.

(** ** Proofs *)

Lemma accrues_upd e s : reachable s -> (accrues (now e) s <-> upd_prices e s <> None).
Proof.
  intros R. pose proof (j_r0 _ (reachable_inv0 _ R)) as P0. pose proof (j_r1 _ (reachable_inv0 _ R)) as P1.
  unfold accrues, upd_prices, accumulate_prices. destruct (Z.leb_spec (now e) (last_t s)); [split; [discriminate|auto]|].
  destruct (Z.eqb_spec (r0 s) 0) as [Z0'|N0]; [cbn; split; [discriminate|auto]|].
  destruct (Z.eqb_spec (r1 s) 0) as [Z1'|N1]; [cbn; split; [discriminate|auto]|]. cbn [negb andb].
  set (x := (now e - last_t s) * 10 ^ 6). assert (Px : 0 <= x) by (unfold x; lia).
  assert (Q0 : 0 <= x * r1 s / r0 s) by (apply Z.div_pos; nia). assert (Q1 : 0 <= x * r0 s / r1 s) by (apply Z.div_pos; nia).
  split.
  - intros [A|[A|[A|A]]]; try lia. cbv zeta in A. fold x in A. destruct A as (A1 & A2 & A3).
    assert (E1 : mul128 (now e - last_t s) TWAP_UNIT = Some x). { apply mul128_Some. unfold x, TWAP_UNIT, U128MAX in *. lia. }
    rewrite E1. assert (E2 : muldiv128 x (r1 s) (r0 s) = Some (x * r1 s / r0 s)). { apply muldiv128_Some. unfold U128MAX. lia. }
    assert (E3 : muldiv128 x (r0 s) (r1 s) = Some (x * r0 s / r1 s)). { apply muldiv128_Some. unfold U128MAX. lia. }
    rewrite E2, E3. discriminate.
  - intros A. right. right. right. cbv zeta. fold x.
    destruct (mul128 (now e - last_t s) TWAP_UNIT) as [y|] eqn:E1; [|congruence]. apply mul128_Some in E1.
    destruct (muldiv128 y (r1 s) (r0 s)) as [i0|] eqn:E2; [|congruence]. apply muldiv128_Some in E2.
    destruct (muldiv128 y (r0 s) (r1 s)) as [i1|] eqn:E3; [|congruence]. apply muldiv128_Some in E3.
    assert (y = x) by (unfold x, TWAP_UNIT in *; lia). subst y. unfold U128MAX in *. lia.
Qed.
Lemma accrues_mono t t' s : 0 <= r0 s -> 0 <= r1 s -> t <= t' -> accrues t' s -> accrues t s.
Proof.
  unfold accrues. cbv zeta. intros P0 P1 L [A|[A|[A|(A1 & A2 & A3)]]]; [left; lia|auto|auto|].
  destruct (Z_le_gt_dec t (last_t s)); [left; lia|]. destruct (Z.eq_dec (r0 s) 0); [auto|]. destruct (Z.eq_dec (r1 s) 0); [auto|].
  right. right. right. split; [lia|]. split.
  - eapply Z.le_lt_trans; [|exact A2]. apply Z.div_le_mono; nia.
  - eapply Z.le_lt_trans; [|exact A3]. apply Z.div_le_mono; nia.
Qed.

Definition small (s : state) : Prop := r0 s <= U128MAX /\ r1 s <= U128MAX.
Lemma step_small e m s s' o : small s -> step e m s = Some (s', o) -> small s'.
Proof.
  intros B H. unfold small in *. destruct m; cbn [step] in H.
  - unfold provide in H. unguard H G. unbind H as share E1. cbv zeta in H. unguard H G2. unbind H as n0 E2. unbind H as n1 E3.
    unbind H as [[c0' c1'] t'] E4. destruct (track_save s (height e) n0 n1). injection H as <- <-. cbn. num_inv. lia.
  - unfold withdraw in H. unguard H G. unbind H as a0 E1. unbind H as a1 E2. unguard H G2. unbind H as n0 E3. unbind H as n1 E4.
    unbind H as [[c0' c1'] t'] E5. cbv zeta in H. destruct (track_save s (height e) n0 n1). injection H as <- <-. cbn. num_inv. lia.
  - unguard H G. unfold swap in H. cbv zeta in H. unbind H as so E1. unbind H as n0 E2. unbind H as k1 E3. unbind H as k2 E4. unbind H as na E5.
    unbind H as [[c0' c1'] t'] E6. destruct (track_save s _ _ _). injection H as <- <-. cbn. num_inv. destruct offer_ind; lia.
  - unguard H G. injection H as <- <-. exact B.
  - unguard H G. injection H as <- <-. exact B.
  - unguard H G. unbind H as n E1. injection H as <- <-. cbn. num_inv. destruct asset; lia.
  - unguard H G. injection H as <- <-. exact B.
Qed.
Lemma reachable_small s : reachable s -> small s.
Proof.
  intros (b & l & _ & ->). assert (K : small (init b)) by (unfold small, init, U128MAX; cbn; lia). revert K. generalize (init b). 
  induction l as [|[e m] l IH]; intros s0 K; [exact K|]. cbn [run fold_left]. apply IH. unfold exec. cbn [fst snd].
  destruct (step e m s0) as [[s' o]|] eqn:E; [eapply step_small; eauto|exact K].
Qed.
Lemma share_ok pool n sup : 0 <= pool <= U128MAX -> 0 < n <= sup ->
  share_of pool n sup = Some (pool * (n * DEC / sup) / DEC) /\ 0 <= pool * (n * DEC / sup) / DEC <= pool.
Proof.
  intros P N. unfold share_of, share_ratio. destruct (Z.eqb_spec sup 0); [lia|].
  assert (B : 0 <= n * DEC / sup <= DEC). { split; [apply Z.div_pos; unfold DEC; lia|apply Z.div_le_upper_bound; unfold DEC; lia]. }
  assert (E : dratio n sup = Some (n * DEC / sup)). { apply dratio_Some. unfold U128MAX, DEC in *. lia. }
  rewrite E. assert (C : 0 <= pool * (n * DEC / sup) / DEC <= pool).
  { split; [apply Z.div_pos; unfold DEC in *; nia|apply Z.div_le_upper_bound; unfold DEC in *; nia]. }
  split; [apply umul_Some; lia|exact C].
Qed.

(** C134: whoever holds LP tokens can redeem any part of them for the proportional share of both reserves, if the
    accumulators can be brought up to date. *)
Theorem c134_exit e s who n mins : reachable s -> accrues (now e) s -> who <> SELF -> 0 < n <= get (lp s) who ->
  let a0 := r0 s * (n * 10 ^ 18 / supply s) / 10 ^ 18 in
  let a1 := r1 s * (n * 10 ^ 18 / supply s) / 10 ^ 18 in
  match mins with Some (m0, m1) => m0 <= a0 /\ m1 <= a1 | None => True end ->
  exists s', step e (Withdraw who n mins) s = Some (s', OWithdraw a0 a1).
Proof.
  intros R A W N a0 a1 M. destruct (reachable_small _ R) as (B0 & B1). pose proof (reachable_inv0 _ R) as I.
  pose proof (c58_supply_is_sum_of_balances s R) as (_ & Sb). specialize (Sb who).
  destruct (share_ok (r0 s) n (supply s)) as (S0 & C0); [pose proof (j_r0 _ I); lia|lia|].
  destruct (share_ok (r1 s) n (supply s)) as (S1 & C1); [pose proof (j_r1 _ I); lia|lia|].
  cbn [step]. unfold withdraw. destruct (Z.eqb_spec who SELF); [contradiction|].
  rewrite (proj2 (Z.ltb_lt 0 n)), (proj2 (Z.leb_le n (get (lp s) who))) by lia. cbn [negb andb].
  change (10 ^ 18) with DEC in a0, a1. fold a0 in S0, C0. fold a1 in S1, C1. rewrite S0, S1.
  assert (G : match mins with Some (m0, m1) => (m0 <=? a0) && (m1 <=? a1) | None => true end = true).
  { destruct mins as [[m0 m1]|]; [|reflexivity]. rewrite (proj2 (Z.leb_le m0 a0)), (proj2 (Z.leb_le m1 a1)) by apply M. reflexivity. }
  rewrite G. assert (E0 : sub128 (r0 s) a0 = Some (r0 s - a0)) by (apply sub128_Some; lia).
  assert (E1 : sub128 (r1 s) a1 = Some (r1 s - a1)) by (apply sub128_Some; lia). rewrite E0, E1.
  apply (accrues_upd e s R) in A. destruct (upd_prices e s) as [[[c0' c1'] t']|]; [|congruence].
  destruct (track_save s (height e) (r0 s - a0) (r1 s - a1)). eexists. reflexivity.
Qed.
Print Assumptions c134_exit.
(** In particular while neither reserve is more than 10^18 times the other and the pool was used within a
    million years of 365 days. *)
Theorem c134_ordinary e s who n : reachable s -> who <> SELF -> 0 < n <= get (lp s) who ->
  r0 s <= 10 ^ 18 * r1 s -> r1 s <= 10 ^ 18 * r0 s -> now e - last_t s <= 10 ^ 6 * 365 * 86400 ->
  exists s' a0 a1, step e (Withdraw who n None) s = Some (s', OWithdraw a0 a1) /\
    r0 s * n < (a0 + 2 + r0 s / 10 ^ 18) * supply s /\ r1 s * n < (a1 + 2 + r1 s / 10 ^ 18) * supply s.
Proof.
  intros R W N L0 L1 T. pose proof (reachable_inv0 _ R) as I. pose proof (j_r0 _ I) as P0. pose proof (j_r1 _ I) as P1.
  assert (A : accrues (now e) s).
  { unfold accrues. destruct (Z_le_gt_dec (now e) (last_t s)); [auto|]. destruct (Z.eq_dec (r0 s) 0); [auto|]. destruct (Z.eq_dec (r1 s) 0); [auto|].
    right. right. right. cbv zeta. set (x := (now e - last_t s) * 10 ^ 6). assert (Bx : 0 <= x <= 10 ^ 6 * 365 * 86400 * 10 ^ 6) by (unfold x; lia).
    split; [lia|]. split; (apply Z.le_lt_trans with (x * 10 ^ 18); [apply Z.div_le_upper_bound; nia|lia]). }
  destruct (c134_exit e s who n None R A W N Logic.I) as (s' & H). exists s'. do 2 eexists. split; [exact H|].
  pose proof (c58_supply_is_sum_of_balances s R) as (_ & Sb). specialize (Sb who).
  assert (K : forall r, 0 <= r -> r * n < (r * (n * 10 ^ 18 / supply s) / 10 ^ 18 + 2 + r / 10 ^ 18) * supply s).
  { intros r Hr. set (S := supply s) in *. assert (PS : 0 < S) by lia. set (q := n * 10 ^ 18 / S). 
    assert (Q : n * 10 ^ 18 < (q + 1) * S). { unfold q. pose proof (Z.mod_pos_bound (n * 10 ^ 18) S PS). pose proof (Z.div_mod (n * 10 ^ 18) S). nia. }
    pose proof (Z.div_mod (r * q) (10 ^ 18) ltac:(lia)). pose proof (Z.mod_pos_bound (r * q) (10 ^ 18) ltac:(lia)).
    pose proof (Z.div_mod r (10 ^ 18) ltac:(lia)). pose proof (Z.mod_pos_bound r (10 ^ 18) ltac:(lia)).
    set (u := r * q / 10 ^ 18) in *. set (v := r / 10 ^ 18) in *.
    assert (r * (n * 10 ^ 18) <= r * ((q + 1) * S)) by nia.
    assert (r * q < (u + 1) * 10 ^ 18) by lia. assert (r < (v + 1) * 10 ^ 18) by lia. nia. }
  split; apply K; assumption.
Qed.
Print Assumptions c134_ordinary.

(** Otherwise the pool is frozen: from then on no deposit, withdrawal or swap succeeds, whatever else is sent, until
    somebody gives it tokens. *)
Theorem c134_frozen T s l : reachable s -> ~ accrues T s ->
  Forall (fun em => T <= now (fst em) /\ gift (snd em) = false) l ->
  let s' := run s l in
  r0 s' = r0 s /\ r1 s' = r1 s /\ supply s' = supply s /\
  forall e m, T <= now e -> trades m = true -> step e m s' = None.
Proof.
  intros R A. pose proof (reachable_inv0 _ R) as I. pose proof (j_r0 _ I) as P0. pose proof (j_r1 _ I) as P1. clear I R.
  assert (Fail : forall s1 e m, r0 s1 = r0 s -> r1 s1 = r1 s -> last_t s1 = last_t s -> T <= now e -> trades m = true -> step e m s1 = None).
  { intros s1 e m E0 E1 Et L Tr.
    assert (U : upd_prices e s1 = None).
    { unfold upd_prices, accumulate_prices. rewrite E0, E1, Et.
      assert (A' : ~ accrues (now e) s) by (intros X; apply A; eapply accrues_mono; eauto).
      unfold accrues in A'. cbv zeta in A'. destruct (Z.leb_spec (now e) (last_t s)); [exfalso; apply A'; auto|].
      destruct (Z.eqb_spec (r0 s) 0); [exfalso; apply A'; auto|]. destruct (Z.eqb_spec (r1 s) 0); [exfalso; apply A'; auto|]. cbn [negb andb].
      destruct (mul128 (now e - last_t s) TWAP_UNIT) as [x|] eqn:M; [|reflexivity]. apply mul128_Some in M.
      destruct (muldiv128 x (r1 s) (r0 s)) as [i0|] eqn:M0; [|reflexivity]. apply muldiv128_Some in M0.
      destruct (muldiv128 x (r0 s) (r1 s)) as [i1|] eqn:M1; [|reflexivity]. apply muldiv128_Some in M1.
      exfalso. apply A'. right. right. right. destruct M as (-> & M). unfold TWAP_UNIT, U128MAX in *. 
      change (10 ^ 6) with 1000000. lia. }
    destruct m; try discriminate Tr; cbn [step].
    - unfold provide. destruct (_ && _); [|reflexivity]. destruct (calculate_shares _ _ _ _ _ _); [|reflexivity]. cbv zeta.
      destruct (_ <=? _); [|reflexivity]. destruct (add128 _ d0); [|reflexivity]. destruct (add128 _ d1); [|reflexivity]. rewrite U. reflexivity.
    - unfold withdraw. destruct (_ && _ && _); [|reflexivity]. destruct (share_of (r0 s1) _ _); [|reflexivity]. destruct (share_of (r1 s1) _ _); [|reflexivity].
      destruct (match mins with Some _ => _ | None => true end); [|reflexivity]. destruct (sub128 (r0 s1) _); [|reflexivity]. destruct (sub128 (r1 s1) _); [|reflexivity]. rewrite U. reflexivity.
    - destruct (0 <? offer); [|reflexivity]. unfold swap. cbv zeta. destruct (swap_amounts _ _ _ _ _ _ _); [|reflexivity].
      destruct (add128 _ offer); [|reflexivity]. destruct (sub128 _ _); [|reflexivity]. destruct (sub128 _ _); [|reflexivity]. destruct (sub128 _ _); [|reflexivity].
      rewrite U. reflexivity. }
  intros F. cbv zeta. assert (K : r0 (run s l) = r0 s /\ r1 (run s l) = r1 s /\ supply (run s l) = supply s /\ last_t (run s l) = last_t s).
  { assert (G : forall l s1, Forall (fun em => T <= now (fst em) /\ gift (snd em) = false) l ->
      r0 s1 = r0 s /\ r1 s1 = r1 s /\ supply s1 = supply s /\ last_t s1 = last_t s ->
      r0 (run s1 l) = r0 s /\ r1 (run s1 l) = r1 s /\ supply (run s1 l) = supply s /\ last_t (run s1 l) = last_t s).
    { clear l F. induction l as [|[e m] l IH]; intros s1 F K; [exact K|]. inversion F as [|? ? (F1 & F2) F3]; subst. cbn [fst snd] in F1, F2.
      change (run s1 ((e, m) :: l)) with (run (exec s1 (e, m)) l). apply IH; [exact F3|]. unfold exec. cbn [fst snd].
      destruct (trades m) eqn:Tr; [rewrite (Fail s1 e m) by (try exact Tr; try apply K; exact F1); exact K|].
      destruct (step e m s1) as [[s2 o]|] eqn:E; [|exact K]. destruct m; try discriminate Tr; try discriminate F2; cbn [step] in E; unguard E G; injection E as <- <-; exact K. }
    apply G; auto. }
  destruct K as (K0 & K1 & K2 & K3). repeat (split; [assumption|]). intros e m L Tr. apply Fail; auto.
Qed.
Print Assumptions c134_frozen.

(** The sale-tax pair redeems in the same way. *)
Theorem c134_tax_exit e s who n mins : reachable (SaleTaxModel.base s) -> accrues (now e) (SaleTaxModel.base s) -> who <> SELF ->
  0 < n <= get (lp (SaleTaxModel.base s)) who ->
  exists s' o, SaleTaxModel.step e (SaleTaxModel.Withdraw who n mins) s = Some (s', o).
Proof.
  intros R A W N. destruct (c134_exit e (SaleTaxModel.base s) who n None R A W N Logic.I) as (s' & H). cbn [step] in H.
  cbn [SaleTaxModel.step]. unfold SaleTaxModel.lift. rewrite H. eexists. eexists. reflexivity.
Qed.
Print Assumptions c134_tax_exit.

(** ** Cases *)

(** 10^15 whole tokens of 18 decimals against one whole token of 6 decimals. *)
Definition meme : state := Eval vm_compute in run (init true) [(ex_env 1700000000 10, Provide 1 1 1000000 (10 ^ 33) None None)].
Example meme_exit : get (lp meme) 1 = 31622776601683792319 /\ last_t meme = 1700000000 /\
  (exists s' a0 a1, step (ex_env (1700000000 + 340000) 20) (Withdraw 1 31622776601683792319 None) meme = Some (s', OWithdraw a0 a1) /\ (a0, a1) = (999999, 999999999999999968000000000000000)).
Proof. split; [reflexivity|]. split; [reflexivity|]. do 3 eexists. split; vm_compute; reflexivity. Qed.
(** Unused for four days it is frozen: nothing comes out any more. *)
Theorem c134_refuted : exists s who n T, reachable s /\ who <> SELF /\ 0 < n <= get (lp s) who /\ T - last_t s < 4 * 86400 /\
  forall l, Forall (fun em => T <= now (fst em) /\ gift (snd em) = false) l ->
  forall e m, T <= now e -> trades m = true -> step e m (run s l) = None.
Proof.
  assert (R : reachable meme).
  { exists true, [(ex_env 1700000000 10, Provide 1 1 1000000 (10 ^ 33) None None)]. split; [constructor; [apply ex_env_ok|constructor]|vm_compute; reflexivity]. }
  exists meme, 1, 1000000, (1700000000 + 345000). split; [exact R|]. split; [discriminate|]. split; [vm_compute; intuition congruence|]. split; [vm_compute; reflexivity|].
  intros l F. apply (c134_frozen (1700000000 + 345000) meme l R); [|exact F].
  unfold accrues. cbv zeta. intros [A|[A|[A|(_ & A & _)]]]; vm_compute in A; try discriminate A. apply A. reflexivity.
Qed.
Print Assumptions c134_refuted.
(** A gift as large as the smaller reserve brings it back for as long again. *)
Example meme_gift : (exists s' a0 a1, step (ex_env (1700000000 + 345000) 20) (Withdraw 1 31622776601683792319 None)
    (exec meme (ex_env (1700000000 + 345000) 20, Donate false 1000000)) = Some (s', OWithdraw a0 a1) /\ a0 = 1999999).
Proof. do 3 eexists. split; vm_compute; reflexivity. Qed.
