(** C149: in an ordinary stable pool a larger offer returns more, up to rounding. *)
From Coq Require Import ZArith Lia Bool List.
From Verif Require Import StableValueProps StableTradeProps StableConv4 StableConv6.
From Verif Require Import Num Ledger StableMath StableModel StablePair StableProofs StableAcc StableProps StableExitProps StableConv StableConv2 StableConv5 StableLiveProps StableReverseProps.
Import ListNotations.
Open Scope Z_scope.

(** Commission never turns a larger gross amount into a smaller net one. *)
Lemma net_more f g1 g2 : 0 <= f <= DEC -> (g1 - g1 * f / DEC) - (g2 - g2 * f / DEC) <= Z.max 0 (g1 - g2).
Proof.
  intros Hf. assert (HQ : 0 < DEC) by reflexivity. pose proof (floor_bounds (g1 * f) DEC HQ) as F1. pose proof (floor_bounds (g2 * f) DEC HQ) as F2.
  set (c1 := g1 * f / DEC) in *. set (c2 := g2 * f / DEC) in *. clearbody c1 c2. destruct (Z.le_gt_cases g1 g2) as [L|L].
  - assert (A : (g2 - g1) * f <= (g2 - g1) * DEC) by (apply Z.mul_le_mono_nonneg_l; lia). assert (DEC * (c2 - c1 - 1) < DEC * (g2 - g1)) by lia.
    apply Z.mul_lt_mono_pos_l in H; [|exact HQ]. lia.
  - assert (A : 0 <= (g1 - g2) * f) by (apply Z.mul_nonneg_nonneg; lia). assert (DEC * (c2 - c1) < DEC * 1) by lia.
    apply Z.mul_lt_mono_pos_l in H; [|exact HQ]. lia.
Qed.

(** An offer that is no smaller returns less by at most one base unit and 1.1 * 10^-9 of a token. [one]: the second
    asset is asked for. *)
Theorem c149_more e s (one : bool) o1 o2 ret1 sp1 cm1 ret2 sp2 cm2 : reachable s -> env_ok e -> 0 <= p0 s <= 18 -> 0 <= p1 s <= 18 -> ordinary_pool s ->
  0 < o1 <= o2 -> query_simulation e s (negb one) o1 = Some (ret1, sp1, cm1) -> query_simulation e s (negb one) o2 = Some (ret2, sp2, cm2) ->
  10 ^ 18 <= (ask_reserve s one - ret1 - cm1) * ask_unit s one -> 10 ^ 18 <= (ask_reserve s one - ret2 - cm2) * ask_unit s one ->
  (ret1 - ret2) * ask_unit s one < ask_unit s one + 1100000000.
Proof.
  intros R He P0 P1 O Ho H1 H2 Hl1 Hl2. change (10 ^ 18) with DEC in *. assert (HQ : DEC = 1000000000000000000) by reflexivity.
  assert (Uo : 1 <= offer_unit s one) by (unfold offer_unit; apply (pow_le18 (if one then p0 s else p1 s)); destruct one; assumption).
  assert (Ua : 1 <= ask_unit s one) by (unfold ask_unit; apply (pow_le18 (if one then p1 s else p0 s)); destruct one; assumption).
  set (u := ask_unit s one) in *. set (uo := offer_unit s one) in *.
  assert (Po1 : 0 < o1) by lia. assert (Po2 : 0 < o2) by lia.
  destruct (forward_inv _ _ _ _ _ _ _ R He P0 P1 O Po1 H1) as (a & q1 & Ea & Er1 & G1 & Gr1 & Gc1).
  destruct (forward_inv _ _ _ _ _ _ _ R He P0 P1 O Po2 H2) as (a' & q2 & Ea' & Er2 & G2 & Gr2 & Gc2). rewrite Ea in Ea'. injection Ea' as <-.
  pose proof (c28_range s (now e) a R Ea) as Ha. fold u in Gr1, Gr2. fold uo in Er1, Er2. pose proof O as (X0 & Y0 & XY & YX & Su).
  set (x := r0 s * 10 ^ (18 - p0 s)) in *. set (y := r1 s * 10 ^ (18 - p1 s)) in *. change (10 ^ 18) with DEC in X0, Y0.
  set (op := if one then x else y) in *. assert (Ox : DEC <= op /\ x + y <= (10 ^ 9 + 1) * op) by (unfold op; destruct one; lia).
  destruct (compute_d_some a x y Ha O) as (D & ED & Hd).
  pose proof (d_le a x y D Ha ltac:(lia) ltac:(lia) ED) as Dl. pose proof (compute_d_nonneg a x y D ltac:(lia) ltac:(lia) ltac:(lia) ED) as Dn.
  set (k := 10 ^ 9 + 3). assert (k0 : 0 <= k) by (unfold k; lia).
  set (X1 := op + o1 * uo) in *. set (X2 := op + o2 * uo) in *.
  assert (XX : op <= X1 <= X2). { unfold X1, X2. assert (0 <= o1 * uo) by (apply Z.mul_nonneg_nonneg; lia). assert (o1 * uo <= o2 * uo) by (apply Z.mul_le_mono_nonneg_r; lia). lia. }
  assert (K1 : D + DEC <= 2 * k * X1) by (unfold k; lia). assert (K2 : D + DEC <= 2 * k * X2) by (unfold k; lia).
  pose proof (floor_bounds q1 u ltac:(lia)) as F1. rewrite <- Gr1 in F1. pose proof (floor_bounds q2 u ltac:(lia)) as F2. rewrite <- Gr2 in F2.
  replace (ask_reserve s one - ret1 - cm1) with (ask_reserve s one - (ret1 + cm1)) in Hl1 by ring. replace (ask_reserve s one - ret2 - cm2) with (ask_reserve s one - (ret2 + cm2)) in Hl2 by ring.
  assert (Q1 : DEC <= q1) by lia. assert (Q2 : DEC <= q2) by lia.
  destruct (c63_reserve a X1 x y D q1 k ltac:(lia) ltac:(lia) ltac:(lia) ltac:(lia) ED Er1 Q1 k0 K1) as (L1 & _).
  destruct (c63_reserve a X2 x y D q2 k ltac:(lia) ltac:(lia) ltac:(lia) ltac:(lia) ED Er2 Q2 k0 K2) as (_ & L2).
  assert (Hp : 0 < Hy (lev a) X1 D (q1 + 11 + k)). { destruct (Z.lt_ge_cases 0 (Hy (lev a) X1 D (q1 + 11 + k))) as [|N]; [assumption|]. specialize (L1 _ N). lia. }
  pose proof (lev_ge a ltac:(lia)) as HL.
  assert (Hx : 0 < Hy (lev a) X2 D (q1 + 11 + k)) by (apply (Hy_up (lev a) X1); try assumption; lia).
  specialize (L2 (q1 + 11 + k) ltac:(lia) ltac:(lia)). set (g1 := ret1 + cm1) in *. set (g2 := ret2 + cm2) in *.
  assert (Gg : (g1 - g2) * u < u + 1100000000) by (unfold k in L2; lia).
  destruct He as (_ & He & _). change (total_fee (fees e)) with (fee e) in He.
  pose proof (net_more (fee e) g1 g2 ltac:(lia)) as Nm. rewrite <- Gc1, <- Gc2 in Nm. replace (g1 - cm1) with ret1 in Nm by (unfold g1; ring). replace (g2 - cm2) with ret2 in Nm by (unfold g2; ring).
  assert (Nu : (ret1 - ret2) * u <= Z.max 0 (g1 - g2) * u) by (apply Z.mul_le_mono_nonneg_r; lia). destruct (Z.max_spec 0 (g1 - g2)) as [(_ & E)|(_ & E)]; rewrite E in Nu; lia.
Qed.
Print Assumptions c149_more.

(** With assets of up to 8 decimals that is one base unit. *)
Theorem c149_unit e s (one : bool) o1 o2 ret1 sp1 cm1 ret2 sp2 cm2 : reachable s -> env_ok e -> 0 <= p0 s <= 8 -> 0 <= p1 s <= 8 -> ordinary_pool s ->
  0 < o1 <= o2 -> query_simulation e s (negb one) o1 = Some (ret1, sp1, cm1) -> query_simulation e s (negb one) o2 = Some (ret2, sp2, cm2) ->
  10 ^ 18 <= (ask_reserve s one - ret1 - cm1) * ask_unit s one -> 10 ^ 18 <= (ask_reserve s one - ret2 - cm2) * ask_unit s one ->
  ret1 - 1 <= ret2.
Proof.
  intros R He P0 P1 O Ho H1 H2 Hl1 Hl2. pose proof (c149_more e s one o1 o2 ret1 sp1 cm1 ret2 sp2 cm2 R He ltac:(lia) ltac:(lia) O Ho H1 H2 Hl1 Hl2) as M.
  assert (U : 10 ^ 10 <= ask_unit s one) by (unfold ask_unit; apply Z.pow_le_mono_r; destruct one; lia). set (u := ask_unit s one) in *. clearbody u.
  destruct (Z.le_gt_cases (ret1 - 1) ret2) as [|N]; [assumption|exfalso]. assert (2 * u <= (ret1 - ret2) * u) by (apply Z.mul_le_mono_nonneg_r; lia). lia.
Qed.
Print Assumptions c149_unit.

(** Exactly it does not hold: in a pool of 18 decimals with 1 and 10 tokens, one base unit more returns 70512 units less
    before commission: the iteration stops one step earlier. *)
Definition big0 : state := mkState 0 0 18 18 true true 0 [] 0 0 0 (mkRamp 100 100 100 100) None None None.
Definition big_l : list (env * msg) := [(ex_e 200, Provide 1 (10 ^ 18) (10 ^ 19) None)].
Lemma big_reach l : hist_ok l -> reachable (run big0 l).
Proof.
  intros H. exists 100, 1, None, 18, 18, true, true, big0, l. split; [unfold is_u64, U64MAX; lia|].
  split; [lia|]. split; [reflexivity|]. auto.
Qed.
Theorem c149_exact_refuted : exists e s o1 o2 ret1 sp1 cm1 ret2 sp2 cm2, reachable s /\ env_ok e /\ ordinary_pool s /\ o1 < o2 /\
  query_simulation e s false o1 = Some (ret1, sp1, cm1) /\ query_simulation e s false o2 = Some (ret2, sp2, cm2) /\ ret2 < ret1.
Proof.
  exists (ex_e 1000), (run big0 big_l), 422837347680806001, 422837347680806002. do 6 eexists. split; [apply big_reach; hist|]. split; [apply ex_env_ok; unfold is_u64, U64MAX; lia|].
  split; [vm_compute; intuition congruence|]. split; [lia|]. split; [vm_compute; reflexivity|]. split; [vm_compute; reflexivity|reflexivity].
Qed.
Print Assumptions c149_exact_refuted.

(** ** Case: half a token against one token, in a pool of 1 and 3 tokens of six decimals. *)
Example c149_example : ordinary_pool ex_t /\ query_simulation (ex_e 1000) ex_t false 500000 = Some (742694, 0, 743) /\
  query_simulation (ex_e 1000) ex_t false 1000000 = Some (1275778, 0, 1277) /\ ask_reserve ex_t true = 3000000 /\ ask_unit ex_t true = 10 ^ 12.
Proof. repeat (split; [vm_compute; intuition congruence|]). vm_compute. reflexivity. Qed.
