(** C144: ordinary stable pools never get stuck. *)
From Coq Require Import ZArith Lia Bool List.
From Verif Require Import Num Ledger StableMath StableModel StablePair StableProofs StableAcc StableProps StableExitProps StableConv2 StableConv5.
From Verif Require XykModel OwnershipModel.
Import ListNotations.
Open Scope Z_scope.

(** ** Specification *)

(** Pools of at least one whole token of each asset, not more than 10^12 together, neither worth 10^9 times the other.
    Amounts are counted in units of 10^-18. *)
Definition ordinary_pool (s : state) : Prop :=
  let x := r0 s * 10 ^ (18 - p0 s) in
  let y := r1 s * 10 ^ (18 - p1 s) in
  10 ^ 18 <= x /\ 10 ^ 18 <= y /\ x <= 10 ^ 9 * y /\ y <= 10 ^ 9 * x /\ x + y <= 10 ^ 30.
(** Between one and 10^12 whole tokens. *)
Definition ordinary_amount (v p : Z) : Prop := 10 ^ p <= v <= 10 ^ (p + 12).

(** ** Proofs *)

Lemma amount_range v p : 0 <= p <= 18 -> ordinary_amount v p -> DEC <= v * 10 ^ (18 - p) <= 10 ^ 30 /\ v <= 10 ^ 30.
Proof.
  intros Hp (A & B). pose proof (pow_le18 p Hp) as (t0 & _). set (t := 10 ^ (18 - p)) in *.
  assert (E1 : 10 ^ p * t = DEC) by (unfold t; rewrite <- Z.pow_add_r by lia; replace (p + (18 - p)) with 18 by lia; reflexivity).
  assert (E2 : 10 ^ (p + 12) * t = 10 ^ 30) by (unfold t; rewrite <- Z.pow_add_r by lia; f_equal; lia).
  assert (10 ^ p * t <= v * t) by (apply Z.mul_le_mono_nonneg_r; lia). assert (v * t <= 10 ^ (p + 12) * t) by (apply Z.mul_le_mono_nonneg_r; lia).
  assert (0 < 10 ^ p) by (apply Z.pow_pos_nonneg; lia). assert (v * 1 <= v * t) by (apply Z.mul_le_mono_nonneg_l; lia). lia.
Qed.

(** C144: every offer of at least one whole token has a price, within the other reserve. *)
Lemma priced e s (one : bool) offer : reachable s -> env_ok e -> 0 <= p0 s <= 18 -> 0 <= p1 s <= 18 -> ordinary_pool s -> init_t (amp s) <= now e ->
  ordinary_amount offer (if one then p1 s else p0 s) ->
  exists ret spread comm, quote e s one offer = Some (ret, spread, comm) /\ 0 <= spread <= 10 ^ 30 /\ 0 <= ret /\ 0 <= comm /\ ret + comm <= (if one then r0 s else r1 s).
Proof.
  intros R He P0 P1 O T HA. destruct (reachable_small _ R) as (B0 & B1). pose proof (reachable_inv _ R) as I. pose proof (i_r0 _ I) as Q0. pose proof (i_r1 _ I) as Q1.
  destruct (c28_between s (now e) R T) as (a & Ea & _). pose proof (c28_range s (now e) a R Ea) as Ha.
  pose proof (pow_le18 _ P0) as (t0 & _). pose proof (pow_le18 _ P1) as (t1 & _). assert (HQ : DEC = 1000000000000000000) by reflexivity.
  set (x := r0 s * 10 ^ (18 - p0 s)) in *. set (y := r1 s * 10 ^ (18 - p1 s)) in *.
  assert (Od : ordinary x y) by exact O. destruct O as (X & Y & _ & _ & Su). fold x y in X, Y, Su.
  assert (Hp : 0 <= (if one then p1 s else p0 s) <= 18) by (destruct one; assumption). assert (Hp' : 0 <= (if one then p0 s else p1 s) <= 18) by (destruct one; assumption).
  destruct (amount_range offer _ Hp HA) as (F1 & F2). set (off := offer * 10 ^ (18 - (if one then p1 s else p0 s))) in *.
  assert (Sm : forall z q, 0 <= z <= 10 ^ 30 -> 1 <= q -> 0 <= z / q <= U128MAX).
  { intros z q Hz Hq. split; [apply Z.div_pos; lia|]. apply Z.div_le_upper_bound; [lia|]. assert (1 * U128MAX <= q * U128MAX) by (apply Z.mul_le_mono_nonneg_r; unfold U128MAX; lia). unfold U128MAX in *. lia. }
  assert (Tp : 1 <= 10 ^ (18 - (if one then p0 s else p1 s))) by (destruct one; assumption).
  destruct (swap_some a off one x y (if one then p0 s else p1 s) Ha Od ltac:(lia) Hp') as (g & sp & C & G0 & G1).
  { apply Sm; [destruct one; lia|exact Tp]. }
  { apply Sm; [lia|exact Tp]. }
  assert (N0 : r0 s <> 0) by (intros K; unfold x in X; rewrite K in X; lia). assert (N1 : r1 s <> 0) by (intros K; unfold y in Y; rewrite K in Y; lia).
  assert (N2 : offer <> 0) by (intros K; unfold off in F1; rewrite K in F1; lia).
  assert (GA : g <= (if one then r0 s else r1 s)).
  { destruct one; [unfold x in G1|unfold y in G1]; rewrite Z.div_mul in G1 by lia; exact G1. }
  assert (Of : 0 <= offer). { destruct HA as (A & _). assert (0 < 10 ^ (if one then p1 s else p0 s)) by (apply Z.pow_pos_nonneg; lia). lia. }
  unfold quote. rewrite (with_prec_ok (r0 s)), (with_prec_ok (r1 s)) by lia. fold x y.
  destruct (Z.eqb_spec (r0 s) 0); [contradiction|]. destruct (Z.eqb_spec (r1 s) 0); [contradiction|]. destruct (Z.eqb_spec offer 0); [contradiction|]. cbn [negb andb].
  rewrite with_prec_ok by (unfold U128MAX; lia). fold off. rewrite Ea, C.
  destruct He as (_ & He & _). assert (F : 0 <= g * total_fee (fees e) / DEC <= g).
  { split; [apply Z.div_pos; unfold DEC in *; nia|apply Z.div_le_upper_bound; unfold DEC in *; nia]. }
  assert (Gm : g <= U128MAX) by (destruct one; lia).
  assert (U : umul g (total_fee (fees e)) = Some (g * total_fee (fees e) / DEC)) by (apply umul_Some; lia). rewrite U.
  exists (ssub g (g * total_fee (fees e) / DEC)), sp, (g * total_fee (fees e) / DEC). split; [reflexivity|].
  assert (Sp : 0 <= sp <= 10 ^ 30).
  { unfold compute_swap in C. unbind C as na E1. unbind C as nk E2. unbind C as ask E3. unbind C as r E4. unbind C as of E5. injection C as <- <-.
    unfold to_prec in E5. unguard E5 Gp. apply u128_Some in E5. destruct E5 as (-> & E5 & _).
    assert (off / 10 ^ (18 - (if one then p0 s else p1 s)) <= off) by (apply Z.div_le_upper_bound; [lia|]; assert (1 * off <= 10 ^ (18 - (if one then p0 s else p1 s)) * off) by (apply Z.mul_le_mono_nonneg_r; lia); lia).
    unfold ssub. lia. }
  split; [exact Sp|]. unfold ssub. lia.
Qed.
Theorem c144_simulation e s (one : bool) offer : reachable s -> env_ok e -> 0 <= p0 s <= 18 -> 0 <= p1 s <= 18 -> ordinary_pool s -> init_t (amp s) <= now e ->
  ordinary_amount offer (if one then p1 s else p0 s) ->
  exists ret spread comm, query_simulation e s one offer = Some (ret, spread, comm) /\ 0 <= ret /\ 0 <= comm /\ ret + comm <= (if one then r0 s else r1 s).
Proof.
  intros R He P0 P1 O T HA. destruct (priced e s one offer R He P0 P1 O T HA) as (ret & sp & comm & E & _ & K). exists ret, sp, comm. split; [|exact K].
  unfold query_simulation. unfold quote in E. unbind E as x E1. unbind E as y E2. unguard E G. apply andb_prop in G. destruct G as (G & G3). apply andb_prop in G. destruct G as (G1 & G2).
  apply negb_true_iff in G1, G2, G3. rewrite G1, G2, G3. cbn [orb]. unfold quote. rewrite E1, E2, G1, G2, G3. exact E.
Qed.
Print Assumptions c144_simulation.

Lemma whole_ordinary p : 0 <= p -> ordinary_amount (10 ^ p) p.
Proof. intros P. split; [lia|apply Z.pow_le_mono_r; lia]. Qed.
Lemma six_le g p : 0 <= p <= 18 -> 0 <= g -> g * 10 ^ (18 - p) <= 10 ^ 30 -> 0 <= six g p <= 10 ^ 18.
Proof.
  intros P G H. unfold six. destruct (Z.leb_spec p 6) as [K|K].
  - assert (0 < 10 ^ (6 - p)) by (apply Z.pow_pos_nonneg; lia). split; [apply Z.mul_nonneg_nonneg; lia|].
    replace (18 - p) with (12 + (6 - p)) in H by lia. rewrite Z.pow_add_r in H by lia. change (10 ^ 30) with (10 ^ 12 * 10 ^ 18) in H.
    apply Z.mul_le_mono_pos_l with (10 ^ 12); [reflexivity|]. lia.
  - assert (T : 0 < 10 ^ (p - 6)) by (apply Z.pow_pos_nonneg; lia). split; [apply Z.div_pos; lia|]. apply Z.div_le_upper_bound; [exact T|].
    assert (T' : 0 < 10 ^ (18 - p)) by (apply Z.pow_pos_nonneg; lia). apply Z.mul_le_mono_pos_r with (10 ^ (18 - p)); [exact T'|].
    replace (10 ^ (p - 6) * 10 ^ 18 * 10 ^ (18 - p)) with (10 ^ (p - 6) * 10 ^ (18 - p) * 10 ^ 18) by ring. rewrite <- Z.pow_add_r by lia. replace (p - 6 + (18 - p)) with 12 by lia. exact H.
Qed.
Lemma acc_last e s x y c0 c1 t : 0 <= last_t s -> 0 <= now e -> accumulate_prices e s x y = Some (c0, c1, t) -> 0 <= t.
Proof.
  intros L N H. unfold accumulate_prices in H. destruct (_ <=? _); [injection H as _ _ <-; exact L|]. cbv zeta in H. destruct (_ && _).
  - unbind H as a E1. unbind H as [q1 q2] E2. unbind H as v E3. unbind H as i E4. unbind H as [q3 q4] E5. unbind H as w E6. unbind H as j E7. injection H as _ _ <-. exact N.
  - injection H as _ _ <-. exact N.
Qed.
Lemma step_last e m s s' o : env_ok e -> 0 <= last_t s -> step e m s = Some (s', o) -> 0 <= last_t s'.
Proof.
  intros ((N & _) & _) B H. destruct m; cbn [step] in H.
  - unfold provide in H. unguard H G. unguard H G0. unbind H as a E0. unbind H as share E1. cbv zeta in H. unguard H G2. unbind H as n0 E2. unbind H as n1 E3.
    unbind H as x E4. unbind H as y E5. unbind H as [[c0' c1'] t'] E6. injection H as <- <-. cbn. eapply acc_last; eauto.
  - unfold withdraw in H. unguard H G. unbind H as a0 E1. unbind H as a1 E2. unguard H G2. unbind H as n0 E3. unbind H as n1 E4.
    unbind H as x E6. unbind H as y E7. unbind H as [[c0' c1'] t'] E5. injection H as <- <-. cbn. eapply acc_last; eauto.
  - unguard H G. unfold swap in H. cbv zeta in H. unbind H as [[ret spread] comm] E1. unbind H as gross E0. unbind H as ok E2. unbind H as shr E3.
    unbind H as mk E4. unbind H as no E5. unbind H as k1 E6. unbind H as k2 E7. unbind H as na E8. unbind H as x E9. unbind H as y E10. unbind H as [[c0' c1'] t'] E11.
    injection H as <- <-. cbn. eapply acc_last; eauto.
  - unguard H G. unbind H as r E. injection H as <- <-. exact B.
  - unguard H G. unbind H as r E. injection H as <- <-. exact B.
  - unguard H G. injection H as <- <-. exact B.
  - unguard H G. injection H as <- <-. exact B.
  - unbind H as r E. injection H as <- <-. exact B.
  - unguard H G. unbind H as n E1. injection H as <- <-. exact B.
  - unguard H G. injection H as <- <-. exact B.
Qed.
Lemma reachable_last s : reachable s -> 0 <= last_t s.
Proof.
  intros (t & a & o & q0 & q1 & n0 & n1 & s0 & l & _ & _ & E & Hl & ->).
  assert (K : 0 <= last_t s0) by (unfold instantiate in E; unguard E G; injection E as <-; cbn; lia).
  clear E. revert s0 K. unfold hist_ok in Hl. induction l as [|[e m] l IH]; intros s0 K; [exact K|]. inversion Hl as [|? ? (F1 & F2) F3]; subst. cbn [run fold_left]. apply IH; [exact F3|]. unfold exec. cbn [fst snd].
  destruct (step e m s0) as [[s' o']|] eqn:E; [eapply step_last; eauto|exact K].
Qed.
Lemma ordinary_accrues e s : reachable s -> env_ok e -> 0 <= p0 s <= 18 -> 0 <= p1 s <= 18 -> ordinary_pool s -> init_t (amp s) <= now e -> accrues e s.
Proof.
  intros R He P0 P1 O T. pose proof (reachable_last _ R) as L0. destruct (Z.le_gt_cases (now e) (last_t s)) as [|L]; [left; assumption|]. right. right. right.
  destruct (c144_simulation e s false (10 ^ p0 s) R He P0 P1 O T (whole_ordinary (p0 s) (proj1 P0))) as (ret & sp & comm & E & A1 & A2 & A3).
  destruct (c144_simulation e s true (10 ^ p1 s) R He P0 P1 O T (whole_ordinary (p1 s) (proj1 P1))) as (ret' & sp' & comm' & E' & A1' & A2' & A3').
  exists (ret + comm), (ret' + comm'). unfold price. rewrite E, E'. split; [reflexivity|]. split; [reflexivity|].
  pose proof (pow_le18 _ P0) as (t0 & _). pose proof (pow_le18 _ P1) as (t1 & _). destruct O as (X & Y & _ & _ & Su). destruct He as ((_ & Hn) & _). unfold U64MAX in Hn.
  assert (K : 0 <= six (ret + comm) (p1 s) <= 10 ^ 18).
  { apply six_le; [exact P1|lia|]. assert ((ret + comm) * 10 ^ (18 - p1 s) <= r1 s * 10 ^ (18 - p1 s)) by (apply Z.mul_le_mono_nonneg_r; lia). lia. }
  assert (K' : 0 <= six (ret' + comm') (p0 s) <= 10 ^ 18).
  { apply six_le; [exact P0|lia|]. assert ((ret' + comm') * 10 ^ (18 - p0 s) <= r0 s * 10 ^ (18 - p0 s)) by (apply Z.mul_le_mono_nonneg_r; lia). lia. }
  set (w := six (ret + comm) (p1 s)) in *. set (w' := six (ret' + comm') (p0 s)) in *. clearbody w w'. clear - K K' Hn L L0.
  assert (B : forall u, 0 <= u <= 10 ^ 18 -> (now e - last_t s) * u < 2 ^ 128); [|split; apply B; assumption].
  intros u Hu. apply Z.le_lt_trans with (18446744073709551615 * 10 ^ 18); [apply Z.mul_le_mono_nonneg; lia|reflexivity].
Qed.

(** C144: liquidity of an ordinary pool can be redeemed at any time. *)
Theorem c144_exit e s who n mins : reachable s -> env_ok e -> 0 <= p0 s <= 18 -> 0 <= p1 s <= 18 -> ordinary_pool s -> init_t (amp s) <= now e ->
  who <> SELF -> 0 < n <= get (lp s) who ->
  let a0 := r0 s * (n * 10 ^ 18 / supply s) / 10 ^ 18 in
  let a1 := r1 s * (n * 10 ^ 18 / supply s) / 10 ^ 18 in
  match mins with Some (m0, m1) => m0 <= a0 /\ m1 <= a1 | None => True end ->
  exists s', step e (Withdraw who n mins) s = Some (s', OWithdraw a0 a1).
Proof.
  intros R He P0 P1 O T W N a0 a1 M. apply (proj1 (c143_exit e s who n mins R He P0 P1 W N M)). apply ordinary_accrues; assumption.
Qed.
Print Assumptions c144_exit.

(** C144: and traded against, at the simulated price, by whoever accepts the spread. *)
Theorem c144_swap e s (one : bool) offer ms : reachable s -> env_ok e -> 0 <= p0 s <= 18 -> 0 <= p1 s <= 18 -> ordinary_pool s -> init_t (amp s) <= now e ->
  ordinary_amount offer (if one then p1 s else p0 s) -> 0 <= ms <= 10 ^ 18 / 2 ->
  exists ret spread comm, query_simulation e s one offer = Some (ret, spread, comm) /\
    (0 < ret + comm + spread -> spread * 10 ^ 18 <= ms * (ret + comm + spread) ->
     exists s' maker share, step e (Swap one offer None (Some ms)) s = Some (s', OSwap ret spread comm maker share)).
Proof.
  intros R He P0 P1 O T HA Hms. destruct (priced e s one offer R He P0 P1 O T HA) as (ret & sp & comm & E & S0 & K0 & K1 & K2).
  destruct (c144_simulation e s one offer R He P0 P1 O T HA) as (ret' & sp' & comm' & E' & _). exists ret, sp, comm.
  destruct (reachable_small _ R) as (B0 & B1). pose proof (reachable_inv _ R) as I. pose proof (i_r0 _ I) as Q0. pose proof (i_r1 _ I) as Q1.
  assert (Hp : 0 <= (if one then p1 s else p0 s) <= 18) by (destruct one; assumption). destruct (amount_range offer _ Hp HA) as (F1 & F2).
  assert (Of : 0 < offer). { destruct HA as (A & _). assert (0 < 10 ^ (if one then p1 s else p0 s)) by (apply Z.pow_pos_nonneg; lia). lia. }
  split.
  { unfold query_simulation in E'. unfold query_simulation. destruct ((r0 s =? 0) || (r1 s =? 0) || (offer =? 0)) eqn:Z'; [|exact E].
    exfalso. apply orb_prop in Z'. destruct Z' as [Z'|Z']; [apply orb_prop in Z'; destruct Z' as [Z'|Z']|]; apply Z.eqb_eq in Z'; [| |lia].
    all: destruct O as (X & Y & _); rewrite Z' in *; lia. }
  intros Pos Sp. cbn [step]. rewrite (proj2 (Z.ltb_lt 0 offer)) by lia. unfold swap. rewrite E.
  pose proof O as (X & Y & _ & _ & Su). pose proof (pow_le18 _ P0) as (t0 & _). pose proof (pow_le18 _ P1) as (t1 & _).
  assert (W0 : r0 s <= 10 ^ 30). { assert (r0 s * 1 <= r0 s * 10 ^ (18 - p0 s)) by (apply Z.mul_le_mono_nonneg_l; lia). lia. }
  assert (W1 : r1 s <= 10 ^ 30). { assert (r1 s * 1 <= r1 s * 10 ^ (18 - p1 s)) by (apply Z.mul_le_mono_nonneg_l; lia). lia. }
  assert (U : 10 ^ 31 <= U128MAX) by (vm_compute; discriminate). assert (Am : (if one then r0 s else r1 s) <= 10 ^ 30) by (destruct one; assumption).
  assert (E1 : add128 ret comm = Some (ret + comm)) by (apply add128_Some; lia). rewrite E1.
  assert (E2 : XykModel.assert_max_spread None (Some ms) offer (ret + comm) sp = Some tt).
  { unfold XykModel.assert_max_spread. assert (G1 : (ms <=? XykModel.MAX_ALLOWED_SLIPPAGE) = true) by (apply Z.leb_le; change (10 ^ 18 / 2) with XykModel.MAX_ALLOWED_SLIPPAGE in Hms; lia). rewrite G1.
    assert (G2 : add128 (ret + comm) sp = Some (ret + comm + sp)) by (apply add128_Some; lia). rewrite G2.
    change (10 ^ 18) with DEC in Sp. assert (D : 0 <= sp * DEC / (ret + comm + sp) <= ms).
    { split; [apply Z.div_pos; [apply Z.mul_nonneg_nonneg; [lia|discriminate]|lia]|]. apply Z.div_le_upper_bound; lia. }
    assert (G3 : dratio sp (ret + comm + sp) = Some (sp * DEC / (ret + comm + sp))).
    { apply dratio_Some. split; [lia|]. split; [reflexivity|]. assert (10 ^ 18 / 2 <= U128MAX) by (vm_compute; discriminate). lia. }
    rewrite G3, (proj2 (Z.leb_le _ _) (proj2 D)). reflexivity. }
  rewrite E2.
  assert (E3 : exists shr, match fshare s with Some b => do rate <- dratio b 10000; umul comm rate | None => Some 0 end = Some shr /\ 0 <= shr <= comm).
  { pose proof (i_share _ I) as Hs. destruct (fshare s) as [b|]; [|exists 0; split; [reflexivity|lia]]. unfold MAX_FEE_SHARE_BPS in Hs.
    assert (D : 0 <= b * DEC / 10000 <= DEC) by (split; [apply Z.div_pos; unfold DEC; lia|apply Z.div_le_upper_bound; unfold DEC; lia]).
    assert (G : dratio b 10000 = Some (b * DEC / 10000)) by (apply dratio_Some; split; [lia|]; split; [reflexivity|]; assert (DEC <= U128MAX) by (vm_compute; discriminate); lia).
    rewrite G. set (rt := b * DEC / 10000) in *. assert (V : 0 <= comm * rt / DEC <= comm).
    { split; [apply Z.div_pos; [apply Z.mul_nonneg_nonneg; lia|reflexivity]|]. apply Z.div_le_upper_bound; [reflexivity|]. rewrite (Z.mul_comm DEC). apply Z.mul_le_mono_nonneg_l; lia. }
    exists (comm * rt / DEC). split; [apply umul_Some; lia|exact V]. }
  destruct E3 as (shr & E3 & V3). rewrite E3.
  assert (E4 : exists mk, (if maker_on (fees e) then umul (ssub comm shr) (maker_rate (fees e)) else Some 0) = Some mk /\ 0 <= mk <= comm - shr).
  { destruct (maker_on (fees e)); [|exists 0; split; [reflexivity|lia]]. destruct He as (_ & _ & Hm). unfold ssub. rewrite Z.max_r by lia.
    assert (V : 0 <= (comm - shr) * maker_rate (fees e) / DEC <= comm - shr).
    { split; [apply Z.div_pos; [apply Z.mul_nonneg_nonneg; lia|reflexivity]|]. apply Z.div_le_upper_bound; [reflexivity|]. rewrite (Z.mul_comm DEC). apply Z.mul_le_mono_nonneg_l; lia. }
    eexists. split; [apply umul_Some; split; [reflexivity|lia]|exact V]. }
  destruct E4 as (mk & E4 & V4). rewrite E4. cbv zeta.
  assert (E5 : add128 (if one then r1 s else r0 s) offer = Some ((if one then r1 s else r0 s) + offer)) by (apply add128_Some; destruct one; lia). rewrite E5.
  set (ap := if one then r0 s else r1 s) in *.
  assert (E6 : sub128 ap ret = Some (ap - ret)) by (apply sub128_Some; lia). rewrite E6.
  assert (E7 : sub128 (ap - ret) mk = Some (ap - ret - mk)) by (apply sub128_Some; lia). rewrite E7.
  assert (E8 : sub128 (ap - ret - mk) shr = Some (ap - ret - mk - shr)) by (apply sub128_Some; lia). rewrite E8.
  rewrite (with_prec_ok (r0 s)), (with_prec_ok (r1 s)) by lia.
  pose proof (acc_ok e s He ltac:(lia) ltac:(lia) P0 P1) as A. destruct (accumulate_prices _ _ _ _) as [c|]; [do 3 eexists; reflexivity|].
  exfalso. apply (proj1 A); [|reflexivity]. apply ordinary_accrues; assumption.
Qed.
Print Assumptions c144_swap.

(** ** Cases *)

(** One whole token against three, of six decimals. *)
Example c144_example : reachable ex_t /\ ordinary_pool ex_t /\ init_t (amp ex_t) <= 1000 /\ ordinary_amount 2000000 (p0 ex_t) /\
  exists s' maker share, step (ex_e 1000) (Swap false 2000000 None (Some (10 ^ 17))) ex_t = Some (s', OSwap 1998000 0 2000 maker share).
Proof.
  split; [apply ex_reach; hist|]. split; [vm_compute; intuition congruence|]. split; [vm_compute; discriminate|]. split; [vm_compute; intuition congruence|].
  do 3 eexists. vm_compute. reflexivity.
Qed.
(** A thousand million tokens against one, of 18 decimals, amplification 1000. *)
Definition wide : state := Eval vm_compute in run dust0 [(ex_e 200, Provide 1 (10 ^ 27) (10 ^ 18) None)].
Lemma wide_reach : reachable wide.
Proof.
  exists 100, 1000, None, 18, 18, false, false, dust0, [(ex_e 200, Provide 1 (10 ^ 27) (10 ^ 18) None)]. split; [unfold is_u64, U64MAX; lia|].
  split; [lia|]. split; [reflexivity|]. split; [hist|vm_compute; reflexivity].
Qed.
Example c144_wide : ordinary_pool wide /\ price (ex_e 300) wide false = Some 2020259077 /\ exists s' a0 a1, step (ex_e 300) (Withdraw 1 (10 ^ 20) None) wide = Some (s', OWithdraw a0 a1).
Proof. split; [vm_compute; intuition congruence|]. split; [vm_compute; reflexivity|]. do 3 eexists. vm_compute. reflexivity. Qed.
