(** C148: larger offers and split offers in the constant-product pair. *)
From Coq Require Import ZArith Lia Bool List.
From Verif Require Import Num Ledger Hist SnapshotModel XykModel XykSpec XykProofs XykProps.
Import ListNotations.
Open Scope Z_scope.

(** ** Proofs *)
Lemma net_up c g g' : 0 <= c <= DEC -> 0 <= g <= g' -> g * c / DEC <= g' * c / DEC /\ g - g * c / DEC <= g' - g' * c / DEC.
Proof.
  intros Hc Hg. split; [apply Z.div_le_mono; [reflexivity|apply Z.mul_le_mono_nonneg_r; lia]|].
  assert (A : g' * c <= g * c + (g' - g) * DEC). { assert ((g' - g) * c <= (g' - g) * DEC) by (apply Z.mul_le_mono_nonneg_l; lia). lia. }
  apply (Z.div_le_mono _ _ DEC) in A; [|reflexivity]. rewrite Z.div_add in A by discriminate. lia.
Qed.
Lemma gross_up o x a a' : 0 < o -> 0 < x -> 0 < a <= a' -> (x * DEC - o * x * DEC / (o + a)) / DEC <= (x * DEC - o * x * DEC / (o + a')) / DEC.
Proof.
  intros Ho Hx Ha. apply Z.div_le_mono; [reflexivity|]. assert (o * x * DEC / (o + a') <= o * x * DEC / (o + a)); [|lia].
  apply Z.div_le_compat_l; [|lia]. repeat apply Z.mul_nonneg_nonneg; try lia. discriminate.
Qed.
(** The amount before commission is the exact one up to rounding. *)
Lemma gross_near o x a : 0 < o -> 0 < x -> 0 < a -> let g := (x * DEC - o * x * DEC / (o + a)) / DEC in
  0 <= g /\ DEC * (g * (o + a)) <= DEC * (x * a) + (o + a) /\ x * a <= (g + 1) * (o + a).
Proof. intros Ho Hx Ha g. destruct (swap_core o x a Ho Hx Ha) as (A & B & C). cbv zeta in *. fold g in A, B, C. lia. Qed.
Lemma net_near c g : 0 <= c <= DEC -> 0 <= g -> g * (DEC - c) <= DEC * (g - g * c / DEC) < g * (DEC - c) + DEC.
Proof. intros Hc Hg. pose proof (Z.mul_div_le (g * c) DEC eq_refl). pose proof (Z.mul_succ_div_gt (g * c) DEC eq_refl). lia. Qed.

Lemma reserves_ok s : reachable s -> 0 <= r0 s /\ 0 <= r1 s /\ bps_ok (fshare s).
Proof. intros R. destruct (reachable_inv0 s R). auto. Qed.

(** Whoever offers more gets no less, and pays no less commission. *)
Theorem c148_more e s one a a' ret sp cm ret' sp' cm' : reachable s -> env_ok e -> 0 < a <= a' ->
  query_simulation e s one a = Some (ret, sp, cm) -> query_simulation e s one a' = Some (ret', sp', cm') -> ret <= ret' /\ cm <= cm'.
Proof.
  intros R (He & _) Ha H H'. destruct (reserves_ok s R) as (Q0 & Q1 & _). unfold query_simulation in *.
  set (o := if one then r1 s else r0 s) in *. set (x := if one then r0 s else r1 s) in *. assert (Ho : 0 <= o) by (unfold o; destruct one; assumption). assert (Hx : 0 <= x) by (unfold x; destruct one; assumption).
  apply compute_swap_inv in H, H'; try lia. cbv zeta in H, H'. destruct H as (O & X & A & _ & G & C & _), H' as (_ & _ & A' & _ & G' & C' & _).
  pose proof (gross_up o x a a' O X Ha) as U. destruct (gross_near o x a O X A) as (N & _). cbv zeta in N. rewrite <- G, <- G' in *. destruct (net_up (total_fee (fees e)) (ret + cm) (ret' + cm') He ltac:(lia)) as (V & W). lia.
Qed.
Print Assumptions c148_more.

(** But on worse terms, up to rounding: per unit offered, no more before commission. *)
Theorem c148_diminishing e s one a a' ret sp cm ret' sp' cm' : reachable s -> env_ok e -> 0 < a <= a' ->
  query_simulation e s one a = Some (ret, sp, cm) -> query_simulation e s one a' = Some (ret', sp', cm') ->
  10 ^ 18 * ((ret' + cm') * a) <= (10 ^ 18 * (ret + cm + 1) + 1) * a'.
Proof.
  intros R (He & _) Ha H H'. destruct (reserves_ok s R) as (Q0 & Q1 & _). unfold query_simulation in *. change (10 ^ 18) with DEC.
  set (o := if one then r1 s else r0 s) in *. set (x := if one then r0 s else r1 s) in *. assert (Ho : 0 <= o) by (unfold o; destruct one; assumption). assert (Hx : 0 <= x) by (unfold x; destruct one; assumption).
  apply compute_swap_inv in H, H'; try lia. cbv zeta in H, H'. destruct H as (O & X & A & _ & G & C & _), H' as (_ & _ & A' & _ & G' & C' & _).
  destruct (gross_near o x a O X A) as (N0 & _ & N2). destruct (gross_near o x a' O X A') as (M0 & M1 & _). cbv zeta in *. rewrite <- G, <- G' in *.
  set (g := ret + cm) in *. set (g' := ret' + cm') in *. clearbody g g' o x. clear - O A A' Ha N0 N2 M1 X. assert (HQ : DEC = 1000000000000000000) by reflexivity.
  apply Z.mul_le_mono_pos_r with (o + a'); [lia|].
  assert (K1 : a * (DEC * (g' * (o + a'))) <= a * (DEC * (x * a') + (o + a'))) by (apply Z.mul_le_mono_nonneg_l; lia).
  assert (K2 : DEC * a' * (x * a) <= DEC * a' * ((g + 1) * (o + a))) by (apply Z.mul_le_mono_nonneg_l; lia).
  assert (K3 : DEC * a' * (g + 1) * (o + a) <= DEC * a' * (g + 1) * (o + a')) by (apply Z.mul_le_mono_nonneg_l; [apply Z.mul_nonneg_nonneg; lia|lia]).
  assert (K4 : a * (o + a') <= a' * (o + a')) by (apply Z.mul_le_mono_nonneg_r; lia). lia.
Qed.
Print Assumptions c148_diminishing.

(** Two swaps in a row against one of the same size: at most two units less, and at most three units and a part of the
    commission that the first left in the pool more. *)
Theorem c148_split e1 e2 s one a1 a2 b1 m1 s1 so1 b2 m2 s2 so2 ret sp cm : reachable s -> env_ok e1 -> fees e2 = fees e1 -> 0 < a1 -> 0 < a2 ->
  swap e1 s one a1 b1 m1 = Some (s1, OSwap so1) -> swap e2 s1 one a2 b2 m2 = Some (s2, OSwap so2) ->
  query_simulation e1 s one (a1 + a2) = Some (ret, sp, cm) ->
  ret - 2 <= so_return so1 + so_return so2 /\
  (so_return so1 + so_return so2 - ret - 3) * ((if one then r1 s else r0 s) + a1 + a2) <= (so_commission so1 - so_maker so1 - so_share so1) * a2.
Proof.
  intros R He Ef A1 A2 H1 H2 H. pose proof He as (Hc & _). destruct (reserves_ok s R) as (Q0 & Q1 & Hb). unfold query_simulation in H.
  apply swap_inv in H1. cbv zeta in H1. destruct H1 as (so & E & H1 & I1 & J1 & K1 & _ & _ & F1 & _). injection E as <-.
  apply swap_inv in H2. cbv zeta in H2. destruct H2 as (so & E & H2 & _). injection E as <-. rewrite Ef, F1, I1, J1 in H2. rewrite J1 in K1.
  set (o := if one then r1 s else r0 s) in *. set (x := if one then r0 s else r1 s) in *. assert (Ho : 0 <= o) by (unfold o; destruct one; assumption). assert (Hx : 0 <= x) by (unfold x; destruct one; assumption). clearbody o x.
  apply swap_amounts_inv in H1; try assumption; try lia. apply swap_amounts_inv in H2; try assumption; try lia. apply compute_swap_inv in H; try lia. cbv zeta in *.
  destruct H1 as (O & X & _ & G1 & C1 & _ & _ & S1 & M1 & SM & _), H2 as (O2 & X2 & _ & G2 & C2 & _), H as (_ & _ & _ & _ & G & C & _).
  destruct (gross_near o x a1 O X A1) as (N0 & N1 & N2). destruct (gross_near (o + a1) (x - so_return so1 - so_maker so1 - so_share so1) a2 O2 X2 A2) as (L0 & L1 & L2).
  destruct (gross_near o x (a1 + a2) O X ltac:(lia)) as (P0 & P1 & P2). cbv zeta in *. rewrite <- G1, <- G2, <- G in *. rewrite Z.add_assoc in *.
  set (k := so_commission so1 - so_maker so1 - so_share so1). replace (x - so_return so1 - so_maker so1 - so_share so1) with (x - (so_return so1 + so_commission so1) + k) in * by (unfold k; ring).
  assert (k0 : 0 <= k) by (unfold k; lia). clearbody k.
  pose proof (net_near _ _ Hc N0) as R1. pose proof (net_near _ _ Hc L0) as R2. pose proof (net_near _ _ Hc P0) as R0. rewrite <- C1 in R1. rewrite <- C2 in R2. rewrite <- C in R0.
  replace (so_return so1 + so_commission so1 - so_commission so1) with (so_return so1) in R1 by ring. replace (so_return so2 + so_commission so2 - so_commission so2) with (so_return so2) in R2 by ring. replace (ret + cm - cm) with ret in R0 by ring.
  set (g1 := so_return so1 + so_commission so1) in *. set (g2 := so_return so2 + so_commission so2) in *. set (g := ret + cm) in *. set (N := o + a1 + a2) in *. set (c := total_fee (fees e1)) in *.
  set (q1 := so_return so1) in *. set (q2 := so_return so2) in *.
  assert (HQ : DEC = 1000000000000000000) by reflexivity. assert (HN : N = o + a1 + a2) by reflexivity. clearbody g1 g2 g N c q1 q2. clear - R0 R1 R2 N0 N1 N2 L0 L1 L2 P0 P1 P2 k0 HQ HN Hc A1 A2 O X.
  assert (Np : 0 < N) by lia. split.
  - assert (B : g <= g1 + g2 + 2).
    { assert (T : 0 < N * (DEC * (g1 + g2 + 3 - g))).
      { assert (0 <= k * a2) by (apply Z.mul_nonneg_nonneg; lia). assert (E1 : x * (a1 + a2) <= N * (g1 + g2 + 2)) by (subst N; lia). assert (DEC * (x * (a1 + a2)) <= DEC * (N * (g1 + g2 + 2))) by (apply Z.mul_le_mono_nonneg_l; lia). lia. }
      apply Z.mul_pos_cancel_l in T; lia. }
    assert (V : (DEC - c) * (g - g1 - g2) <= DEC * 2).
    { destruct (Z.le_gt_cases (g - g1 - g2) 0); [assert ((DEC - c) * (g - g1 - g2) <= 0) by (apply Z.mul_nonneg_nonpos; lia); lia|apply Z.mul_le_mono_nonneg; lia]. }
    lia.
  - assert (B : DEC * (N * (g1 + g2 - g - 1)) <= DEC * (k * a2) + 2 * N) by (subst N; lia).
    assert (V : (DEC - c) * (g1 + g2 - g) * N <= DEC * (N * (g1 + g2 - g)) \/ g1 + g2 - g <= 0).
    { destruct (Z.le_gt_cases (g1 + g2 - g) 0); [right; assumption|left]. assert ((DEC - c) * ((g1 + g2 - g) * N) <= DEC * ((g1 + g2 - g) * N)) by (apply Z.mul_le_mono_nonneg_r; [apply Z.mul_nonneg_nonneg; lia|lia]). lia. }
    assert (U : DEC * (q1 + q2 - ret) <= (DEC - c) * (g1 + g2 - g) + 2 * DEC - 2) by lia.
    assert (k2 : 0 <= k * a2) by (apply Z.mul_nonneg_nonneg; lia).
    destruct V as [V|V].
    + apply Z.mul_le_mono_pos_l with DEC; [lia|]. assert (DEC * (q1 + q2 - ret) * N <= ((DEC - c) * (g1 + g2 - g) + 2 * DEC - 2) * N) by (apply Z.mul_le_mono_nonneg_r; lia). lia.
    + assert ((DEC - c) * (g1 + g2 - g) <= 0) by (apply Z.mul_nonneg_nonpos; lia). assert (W : q1 + q2 - ret - 3 <= 0) by lia.
      assert ((q1 + q2 - ret - 3) * N <= 0) by (apply Z.mul_nonpos_nonneg; lia). lia.
Qed.
Print Assumptions c148_split.

(** A split offer can bring more: the commission left in the pool improves the price of the second part. *)
Definition tenth : env := mkEnv 200 20 (mkFees 100000000000000000 0 false) 99.
Theorem c148_split_refuted : exists e s one a1 a2 s1 so1 s2 so2 ret sp cm, reachable s /\ env_ok e /\ 0 < a1 /\ 0 < a2 /\
  swap e s one a1 None (Some 500000000000000000) = Some (s1, OSwap so1) /\ swap e s1 one a2 None (Some 500000000000000000) = Some (s2, OSwap so2) /\
  query_simulation e s one (a1 + a2) = Some (ret, sp, cm) /\ ret < so_return so1 + so_return so2.
Proof.
  exists tenth, ex_pool, false, 100000000, 100000000. do 7 eexists. split; [apply ex_pool_reachable|]. split; [unfold env_ok, fees_ok, tenth, DEC; cbn; lia|]. split; [reflexivity|]. split; [reflexivity|].
  split; [vm_compute; reflexivity|]. split; [vm_compute; reflexivity|]. split; [vm_compute; reflexivity|vm_compute; reflexivity].
Qed.
Print Assumptions c148_split_refuted.

(** Half a million twice against a million at once, at the usual fee. *)
Example c148_example : exists s1 so1 s2 so2 sp1 sp cm1 cm,
  swap (ex_env 200 20) ex_pool false 500000 None None = Some (s1, OSwap so1) /\ swap (ex_env 200 20) s1 false 500000 None None = Some (s2, OSwap so2) /\
  query_simulation (ex_env 200 20) ex_pool false 500000 = Some (996502, sp1, cm1) /\ query_simulation (ex_env 200 20) ex_pool false 1000000 = Some (1992007, sp, cm) /\
  so_return so1 = 996502 /\ so_return so2 = 995507 /\ so_commission so1 - so_maker so1 - so_share so1 = 1999.
Proof. wit. Qed.
