(** C119: what an LP token of a stable pool is worth on the exact curve never falls, but for dust. *)
From Coq Require Import ZArith Lia Bool List.
From Verif Require Import Num Ledger StableMath StableProofs StableAcc StableModel StablePair StableProps StableTradeProps.
From Verif Require XykModel OwnershipModel.
Import ListNotations.
Open Scope Z_scope.

(** One LP token is worth more than [v]/[w]: the exact invariant of the reserves, for amplification [a], is above [v]/[w] times the supply. *)
Definition token_above (a : Z) (s : state) (v w : Z) : Prop := 0 < Hy (lev a) (d0 s * w) (v * supply s) (d1 s * w).

(** What is asked of the messages: deposits and swaps happen at amplification [a] in a pool with at least a token of both assets; a swap leaves
    at least a token of the asset it takes and a commission of at least one unit and 10 + [k] units of 10^-18. Nothing is asked of the rest. *)
Definition fair (a k : Z) (e : env) (m : msg) (s s' : state) (o : out) : Prop :=
  let big D := current_amp (amp s) (now e) = Some a /\ compute_d a (d0 s) (d1 s) = Some D /\ DEC <= D /\ DEC <= d0 s /\ DEC <= d1 s in
  match m with
  | Swap one _ _ _ => exists D ret spread comm maker shr, big D /\ o = OSwap ret spread comm maker shr /\
      let u := 10 ^ (18 - if one then p0 s else p1 s) in
      DEC <= ((if one then r0 s else r1 s) - (ret + comm)) * u /\ u + 10 + k <= (comm - maker - shr) * u /\
      D + DEC <= 2 * k * (if one then d1 s' else d0 s')
  | Provide _ _ _ _ => exists D, big D
  | _ => True
  end.
Definition cost (m : msg) : nat := match m with Swap _ _ _ _ | Provide _ _ _ _ => 1 | _ => 0 end.
(** A history with [n] swaps and deposits. *)
Inductive held (a k : Z) : nat -> state -> state -> Prop :=
| held_none s : held a k 0 s s
| held_step n s s1 s2 e m o : held a k n s s1 -> env_ok e -> msg_ok m -> step e m s1 = Some (s2, o) -> fair a k e m s1 s2 o ->
    held a k (n + cost m) s s2.

(** ** The exact curve *)
Lemma Hy_scale L x D y c : Hy L (x * c) (D * c) (y * c) = c ^ 3 * Hy L x D y.
Proof. unfold Hy. ring. Qed.
Lemma Hy_scale_pos L x D y c : 0 < c -> (0 < Hy L (x * c) (D * c) (y * c) <-> 0 < Hy L x D y).
Proof.
  intros Hc. rewrite Hy_scale. assert (0 < c ^ 3) by (apply Z.pow_pos_nonneg; lia). split; intros H1.
  - apply (Z.mul_pos_cancel_l (c ^ 3)); assumption.
  - apply Z.mul_pos_pos; assumption.
Qed.
Lemma Hy_grow L x x' y y' D : 0 <= D -> 0 <= x <= x' -> 0 <= y <= y' -> 0 <= L -> 0 < Hy L x D y -> 0 < Hy L x' D y'.
Proof.
  unfold Hy. intros HD Hx Hy_ HL A. set (Z1 := L * (x + y) - (L - DEC) * D) in *. set (Z2 := L * (x' + y') - (L - DEC) * D).
  assert (0 <= DEC * D ^ 3) by (apply Z.mul_nonneg_nonneg; [pose proof DEC_pos; lia|apply Z.pow_nonneg; lia]).
  assert (P1 : 0 <= 4 * x * y) by (apply Z.mul_nonneg_nonneg; lia).
  assert (P2 : 4 * x * y <= 4 * x' * y') by (apply Z.mul_le_mono_nonneg; lia).
  assert (Z0 : 0 < Z1). { destruct (Z.le_gt_cases Z1 0) as [N|]; [exfalso|assumption]. assert (4 * x * y * Z1 <= 0) by (apply Z.mul_nonneg_nonpos; assumption). lia. }
  assert (Z12 : Z1 <= Z2) by (unfold Z1, Z2; assert (L * (x + y) <= L * (x' + y')) by (apply Z.mul_le_mono_nonneg_l; lia); lia).
  assert (4 * x * y * Z1 <= 4 * x' * y' * Z2) by (apply Z.mul_le_mono_nonneg; lia). lia.
Qed.
(** [p]/[q] may be replaced by a smaller fraction. *)
Lemma Hy_less L x y p q p' q' : 0 < q -> 0 < q' -> 0 <= p' -> p' * q <= p * q' -> 0 <= x -> 0 <= y -> DEC <= L ->
  0 < Hy L (x * q) p (y * q) -> 0 < Hy L (x * q') p' (y * q').
Proof.
  intros Q Q' P' C X Y HL A. apply (Hy_scale_pos _ _ _ _ q Q). apply (Hy_scale_pos _ _ _ _ q' Q') in A.
  replace (x * q' * q) with (x * q * q') by ring. replace (y * q' * q) with (y * q * q') by ring.
  apply (Hy_antitone _ _ (p * q')); [|repeat apply Z.mul_nonneg_nonneg; lia|repeat apply Z.mul_nonneg_nonneg; lia|exact HL|exact A].
  split; [apply Z.mul_nonneg_nonneg; lia|exact C].
Qed.
(** The computed invariant is below any value the exact one exceeds by at most 7 units, and above it by at most 13000001. *)
Lemma frac_low a x y D p q : 100 <= a <= 100000000 -> DEC <= x -> DEC <= y -> compute_d a x y = Some D -> DEC <= D -> 0 <= p -> 0 < q ->
  0 < Hy (lev a) (x * q) p (y * q) -> p < (D + 7) * q.
Proof.
  intros Ha X Y HD DD P Q A. pose proof DEC_pos. pose proof (lev_ge a ltac:(lia)). pose proof (Z.div_mod p q ltac:(lia)) as E. pose proof (Z.mod_pos_bound p q Q) as M.
  assert (P0 : 0 <= p / q) by (apply Z.div_pos; lia).
  assert (B : 0 < Hy (lev a) (x * 1) (p / q) (y * 1)) by (apply (Hy_less _ _ _ p q); try lia; exact A).
  rewrite !Z.mul_1_r in B. pose proof (computed_low a x y D (p / q) Ha X Y HD DD P0 B) as C.
  assert (q * (p / q) <= q * (D + 6)) by (apply Z.mul_le_mono_nonneg_l; lia). lia.
Qed.
Lemma computed_high a x y D : 100 <= a -> 0 <= x -> 0 <= y -> compute_d a x y = Some D -> DEC <= D -> 0 < Hy (lev a) x (D - 13000001) y.
Proof.
  intros Ha X Y HD DD. destruct (c63_invariant a x y D Ha X Y HD DD) as (P & HP & _ & HI). pose proof DEC_pos as Q0.
  set (E := D - 13000001). assert (E0 : 0 < E) by (unfold E; unfold DEC in DD; lia).
  assert (G : Gam P (lev a) (x + y) E < 0).
  { destruct (Z.lt_ge_cases (Gam P (lev a) (x + y) E) 0) as [|N]; [assumption|]. specialize (HI E ltac:(lia) N). unfold E in HI. lia. }
  unfold Gam in G. unfold Hy. set (W := lev a * (x + y) - (lev a - DEC) * E). assert (E3 : 0 < E ^ 3) by (apply Z.pow_pos_nonneg; lia).
  assert (G2 : E ^ 3 < P * W) by (unfold W; lia).
  assert (P0 : 0 <= P). { destruct (Z.le_gt_cases 0 P) as [|N]; [assumption|exfalso].
    assert (0 <= 4 * x * y) by (apply Z.mul_nonneg_nonneg; lia). assert (DEC * P <= DEC * (-1)) by (apply Z.mul_le_mono_nonneg_l; lia). lia. }
  assert (W0 : 0 < W). { destruct (Z.le_gt_cases W 0) as [N|]; [exfalso|assumption]. assert (P * W <= 0) by (apply Z.mul_nonneg_nonpos; assumption). lia. }
  assert (DEC * P * W <= 4 * x * y * W) by (apply Z.mul_le_mono_nonneg_r; lia).
  assert (DEC * E ^ 3 < DEC * (P * W)) by (apply Z.mul_lt_mono_pos_l; assumption). lia.
Qed.

(** The dust: one part in 3 * 10^10 per deposit or swap. *)
Definition DUST : Z := 30000000000.

Lemma nonneg_d s : inv s -> 0 <= d0 s /\ 0 <= d1 s.
Proof. intros [I0 I1 _ _ _ _ _]. unfold d0, d1. split; apply Z.mul_nonneg_nonneg; try assumption; apply Z.pow_nonneg; lia. Qed.
Lemma supply_pos e m s s' o : reachable s -> 0 < supply s -> env_ok e -> msg_ok m -> step e m s = Some (s', o) -> 0 < supply s'.
Proof.
  intros R P He Hm H. pose proof (c29_supply_never_returns_to_zero s [(e, m)] R P) as X.
  assert (Hl : hist_ok [(e, m)]) by (constructor; [split; assumption|constructor]). specialize (X Hl).
  cbn in X. unfold exec in X. cbn in X. rewrite H in X. lia.
Qed.

Lemma step_value a k e m s s' o v w : reachable s -> 0 < supply s -> env_ok e -> msg_ok m -> step e m s = Some (s', o) -> fair a k e m s s' o ->
  0 <= k -> 100 <= a -> 0 <= v -> 0 < w -> token_above a s v w -> token_above a s' (v * (DUST - 1) ^ Z.of_nat (cost m)) (w * DUST ^ Z.of_nat (cost m)).
Proof.
  intros R Sp He Hm H Fr Hk Ha Hv Hw A. unfold token_above in *. pose proof DEC_pos as Q0. pose proof (lev_ge a Ha) as HL.
  pose proof (supply_pos _ _ _ _ _ R Sp He Hm H) as Sp'. pose proof (reachable_inv _ R) as I. pose proof (nonneg_d _ I) as (N0 & N1).
  pose proof (reachable_inv _ (reachable_step _ _ _ _ _ R He Hm H)) as I'. pose proof (nonneg_d _ I') as (N0' & N1').
  assert (VS : 0 <= v * supply s) by (apply Z.mul_nonneg_nonneg; lia).
  assert (same : r0 s' = r0 s -> r1 s' = r1 s -> p0 s' = p0 s -> p1 s' = p1 s -> supply s' = supply s -> cost m = 0%nat ->
    0 < Hy (lev a) (d0 s' * (w * DUST ^ Z.of_nat (cost m))) (v * (DUST - 1) ^ Z.of_nat (cost m) * supply s') (d1 s' * (w * DUST ^ Z.of_nat (cost m)))).
  { intros E0 E1 E2 E3 E4 ->. cbn [Z.of_nat]. rewrite !Z.pow_0_r, !Z.mul_1_r. unfold d0, d1. rewrite E0, E1, E2, E3, E4. exact A. }
  destruct m as [rc x0 x1 ml|who am mins|one of b ms|sd nx tm|sd|sd bps|sd|sd wh|one am|fr to am].
  - (* deposit *)
    cbn [fair] in Fr. destruct Fr as (D & Ca & HD & DD & X0 & Y0).
    destruct (c64_shares _ _ _ _ _ _ _ _ R Sp H) as (a' & sh & D0 & D1 & _ & Ca' & HD0 & HD1 & DL & _ & HS & E0 & E1 & _).
    rewrite Ca in Ca'. injection Ca' as <-. unfold d0, d1 in HD. rewrite HD in HD0. injection HD0 as <-.
    assert (PP : p0 s' = p0 s /\ p1 s' = p1 s) by (cbn [step] in H; apply provide_inv in H; destruct H as (? & ? & H); decompose [and] H; auto).
    destruct PP as (Q1 & Q2). pose proof (c28_range _ _ _ R Ca) as RA.
    pose proof (frac_low a (d0 s) (d1 s) D (v * supply s) w RA X0 Y0 HD DD VS Hw A) as B1.
    assert (HD1' : compute_d a (d0 s') (d1 s') = Some D1) by (unfold d0, d1; rewrite Q1, Q2; exact HD1).
    pose proof (computed_high a (d0 s') (d1 s') D1 Ha N0' N1' HD1' ltac:(lia)) as B2.
    cbn [cost]. change (Z.of_nat 1) with 1. rewrite !Z.pow_1_r. assert (T0 : 0 < DUST) by reflexivity.
    apply (Hy_less _ _ _ (D1 - 13000001) 1); [lia|apply Z.mul_pos_pos; lia| |  |exact N0'|exact N1'|lia|rewrite !Z.mul_1_r; exact B2].
    + repeat apply Z.mul_nonneg_nonneg; (lia || (unfold DUST; lia)).
    + rewrite Z.mul_1_r. apply (Z.mul_le_mono_pos_l _ _ (D * supply s)); [apply Z.mul_pos_pos; lia|].
      assert (C1 : v * supply s * (D * supply s' * (DUST - 1)) <= (D + 7) * w * (D * supply s' * (DUST - 1))).
      { apply Z.mul_le_mono_nonneg_r; [|lia]. repeat apply Z.mul_nonneg_nonneg; (lia || (unfold DUST; lia)). }
      assert (C2 : D * supply s' * ((D + 7) * w * (DUST - 1)) <= D1 * supply s * ((D + 7) * w * (DUST - 1))).
      { apply Z.mul_le_mono_nonneg_r; [|exact HS]. repeat apply Z.mul_nonneg_nonneg; (lia || (unfold DUST; lia)). }
      assert (C3 : (D + 7) * (DUST - 1) * D1 <= (D1 - 13000001) * DUST * D).
      { unfold DUST. assert (DEC * D1 <= D * D1) by (apply Z.mul_le_mono_nonneg_r; lia). assert (D * DEC <= D * D1) by (apply Z.mul_le_mono_nonneg_l; lia).
        unfold DEC in *. lia. }
      assert (C4 : (D + 7) * (DUST - 1) * D1 * (w * supply s) <= (D1 - 13000001) * DUST * D * (w * supply s)).
      { apply Z.mul_le_mono_nonneg_r; [apply Z.mul_nonneg_nonneg; lia|exact C3]. }
      lia.
  - (* withdrawal *)
    destruct (c29_withdraw _ _ _ _ _ _ _ R H) as (a0 & a1 & _ & _ & _ & _ & _ & _ & _ & E0 & E1 & Es & F0 & F1 & _).
    assert (PP : p0 s' = p0 s /\ p1 s' = p1 s) by (cbn [step] in H; apply withdraw_inv in H; destruct H as (? & ? & H); decompose [and] H; auto).
    destruct PP as (Q1 & Q2). cbn [cost Z.of_nat]. rewrite !Z.pow_0_r, !Z.mul_1_r. clear same.
    apply (Hy_scale_pos _ _ _ _ (supply s) Sp). apply (Hy_scale_pos _ _ _ _ (supply s') Sp') in A.
    replace (v * supply s * supply s') with (v * supply s' * supply s) in A by ring.
    assert (G0 : d0 s * supply s' <= d0 s' * supply s).
    { unfold d0. rewrite Q1. assert (0 <= 10 ^ (18 - p0 s)) by (apply Z.pow_nonneg; lia).
      assert (r0 s * supply s' * 10 ^ (18 - p0 s) <= r0 s' * supply s * 10 ^ (18 - p0 s)) by (apply Z.mul_le_mono_nonneg_r; lia). lia. }
    assert (G1 : d1 s * supply s' <= d1 s' * supply s).
    { unfold d1. rewrite Q2. assert (0 <= 10 ^ (18 - p1 s)) by (apply Z.pow_nonneg; lia).
      assert (r1 s * supply s' * 10 ^ (18 - p1 s) <= r1 s' * supply s * 10 ^ (18 - p1 s)) by (apply Z.mul_le_mono_nonneg_r; lia). lia. }
    eapply Hy_grow; [| | | |exact A].
    + repeat apply Z.mul_nonneg_nonneg; lia.
    + split; [apply Z.mul_nonneg_nonneg; [apply Z.mul_nonneg_nonneg|]; lia|].
      assert (d0 s * supply s' * w <= d0 s' * supply s * w) by (apply Z.mul_le_mono_nonneg_r; lia). lia.
    + split; [apply Z.mul_nonneg_nonneg; [apply Z.mul_nonneg_nonneg|]; lia|].
      assert (d1 s * supply s' * w <= d1 s' * supply s * w) by (apply Z.mul_le_mono_nonneg_r; lia). lia.
    + lia.
  - (* swap *)
    cbn [fair] in Fr. destruct Fr as (D & ret & sp & cm & mk & sh & (Ca & HD & DD & X0 & Y0) & -> & U). cbv zeta in U. destruct U as (U1 & U2 & U3).
    pose proof (c28_range _ _ _ R Ca) as RA.
    pose proof (swap_above _ _ _ _ _ _ _ _ _ _ _ _ _ _ _ R He H Ca HD Hk (conj U1 U2) U3) as B2.
    pose proof (frac_low a (d0 s) (d1 s) D (v * supply s) w RA X0 Y0 HD DD VS Hw A) as B1.
    destruct (c30_amounts _ _ _ _ _ _ _ _ R He H) as (? & ? & ? & ? & ? & _ & Bm). cbv zeta in Bm.
    destruct Bm as (_ & _ & _ & _ & _ & _ & _ & _ & _ & _ & _ & Es & _).
    cbn [cost]. change (Z.of_nat 1) with 1. rewrite !Z.pow_1_r, Es. assert (T0 : 0 < DUST) by reflexivity.
    apply (Hy_less _ _ _ D 1); [lia|apply Z.mul_pos_pos; lia| |  |exact N0'|exact N1'|lia|rewrite !Z.mul_1_r; exact B2].
    + repeat apply Z.mul_nonneg_nonneg; (lia || (unfold DUST; lia)).
    + rewrite Z.mul_1_r. assert (v * supply s * (DUST - 1) <= (D + 7) * w * (DUST - 1)) by (apply Z.mul_le_mono_nonneg_r; [|]; (lia || (unfold DUST; lia))).
      assert ((D + 7) * (DUST - 1) * w <= D * DUST * w) by (apply Z.mul_le_mono_nonneg_r; [lia|unfold DUST, DEC in *; lia]). lia.
  - cbn [step] in H. unguard H G. unbind H as r E. injection H as <- _. apply same; reflexivity.
  - cbn [step] in H. unguard H G. unbind H as r E. injection H as <- _. apply same; reflexivity.
  - cbn [step] in H. unguard H G. injection H as <- _. apply same; reflexivity.
  - cbn [step] in H. unguard H G. injection H as <- _. apply same; reflexivity.
  - cbn [step] in H. unbind H as r E. injection H as <- _. apply same; reflexivity.
  - cbn [step] in H. unguard H G. unbind H as n E. injection H as <- _. apply add128_Some in E. destruct E as (En & _).
    cbn [cost Z.of_nat]. rewrite !Z.pow_0_r, !Z.mul_1_r. clear same. unfold d0, d1 in *. cbn [r0 r1 p0 p1 supply set_core] in *. bools.
    assert (0 <= 10 ^ (18 - p0 s)) by (apply Z.pow_nonneg; lia). assert (0 <= 10 ^ (18 - p1 s)) by (apply Z.pow_nonneg; lia).
    eapply Hy_grow; [exact VS| | | |exact A]; [| |lia].
    + split; [apply Z.mul_nonneg_nonneg; lia|]. apply Z.mul_le_mono_nonneg_r; [lia|]. apply Z.mul_le_mono_nonneg_r; [assumption|]. destruct one; lia.
    + split; [apply Z.mul_nonneg_nonneg; lia|]. apply Z.mul_le_mono_nonneg_r; [lia|]. apply Z.mul_le_mono_nonneg_r; [assumption|]. destruct one; lia.
  - cbn [step] in H. unguard H G. injection H as <- _. apply same; reflexivity.
Qed.

(** ** Theorems *)
(** In every history with [n] deposits and swaps, and any number of withdrawals, donations, transfers and administration, an LP token that was
    worth more than [v]/[w] is worth more than that less at most one part in 3 * 10^10 for each deposit and swap. *)
Theorem c119_value : forall a k n s s' v w, reachable s -> 0 < supply s -> held a k n s s' -> 0 <= k -> 100 <= a -> 0 <= v -> 0 < w ->
  token_above a s v w -> token_above a s' (v * (DUST - 1) ^ Z.of_nat n) (w * DUST ^ Z.of_nat n).
Proof.
  intros a k n s s' v w R Sp Hh Hk Ha Hv Hw A.
  assert (reachable s' /\ 0 < supply s' /\ token_above a s' (v * (DUST - 1) ^ Z.of_nat n) (w * DUST ^ Z.of_nat n)) as (_ & _ & X); [|exact X].
  induction Hh as [s|n s s1 s2 e m o Hh IH He Hm H Fr].
  - cbn [Z.of_nat]. rewrite !Z.pow_0_r, !Z.mul_1_r. auto.
  - destruct (IH R Sp A) as (R1 & S1 & A1). split; [exact (reachable_step _ _ _ _ _ R1 He Hm H)|].
    split; [exact (supply_pos _ _ _ _ _ R1 S1 He Hm H)|].
    assert (T0 : 0 < DUST ^ Z.of_nat n) by (apply Z.pow_pos_nonneg; [reflexivity|lia]).
    assert (T1 : 0 <= (DUST - 1) ^ Z.of_nat n) by (apply Z.pow_nonneg; discriminate).
    assert (V0 : 0 <= v * (DUST - 1) ^ Z.of_nat n) by (apply Z.mul_nonneg_nonneg; assumption).
    assert (W0 : 0 < w * DUST ^ Z.of_nat n) by (apply Z.mul_pos_pos; assumption).
    pose proof (step_value _ _ _ _ _ _ _ _ _ R1 S1 He Hm H Fr Hk Ha V0 W0 A1) as B.
    rewrite Nat2Z.inj_add, !Z.pow_add_r by lia. rewrite !Z.mul_assoc. exact B.
Qed.

(** Depositing, exchanging, withdrawing: the pool of the examples of C65, with an intermediate deposit and withdrawal by account 2. *)
Definition va_1 : state := Eval vm_compute in exec tr_s (ex_e 200, Provide 2 5000000 0 None).
Definition va_2 : state := Eval vm_compute in exec va_1 (ex_e 200, Swap false 10000000 None None).
Definition va_3 : state := Eval vm_compute in exec va_2 (ex_e 200, Withdraw 2 (get (lp va_2) 2) None).
Example c119_example : reachable tr_s /\ supply tr_s = 2000000000 /\ held 10000 2 2 tr_s va_3 /\ supply va_3 = 2000000000 /\
  token_above 10000 tr_s 999999999999 1000 /\ token_above 10000 va_3 1000004987429 1000.
Proof.
  split; [exact (proj1 c65_example)|]. split; [reflexivity|]. split; [|split; [reflexivity|split; vm_compute; reflexivity]].
  apply (held_step 10000 2 2 tr_s va_2 va_3 (ex_e 200) (Withdraw 2 4999938 None) (OWithdraw 2531140 2468826));
    [|apply ex_env_ok; unfold is_u64, U64MAX; lia|exact Logic.I|vm_compute; reflexivity|exact Logic.I].
  apply (held_step 10000 2 1 tr_s va_1 va_2 (ex_e 200) (Swap false 10000000 None None) (OSwap 9988521 1481 9998 0 0));
    [|apply ex_env_ok; unfold is_u64, U64MAX; lia|exact Logic.I|vm_compute; reflexivity|].
  2: { exists 2004999938272750857870, 9988521, 1481, 9998, 0, 0. split; [|split; [reflexivity|]].
       - split; [vm_compute; reflexivity|]. split; [vm_compute; reflexivity|]. split; [|split]; vm_compute; discriminate.
       - cbv zeta. split; [|split]; vm_compute; discriminate. }
  apply (held_step 10000 2 0 tr_s tr_s va_1 (ex_e 200) (Provide 2 5000000 0 None) (OProvide 4999938));
    [apply held_none|apply ex_env_ok; unfold is_u64, U64MAX; lia|exact Logic.I|vm_compute; reflexivity|].
  exists 2000000000000000000000. split; [vm_compute; reflexivity|]. split; [vm_compute; reflexivity|]. split; [|split]; vm_compute; discriminate.
Qed.
Print Assumptions c119_value.
