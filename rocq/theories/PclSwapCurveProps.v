(** Concentrated pair: what a swap returns and the curve (C121). *)
From Coq Require Import ZArith QArith Qabs Lia Lqa Bool List.
From Verif Require Import Num Ledger PclMath PclModel PclParamProps PclProofs PclLpProps PclSwapProps PclTradeProps PclRoundProps.
From Verif Require Import PclCurveSpec PclApprox PclAccuracy PclCurveExists PclApproxY PclAccuracyY PclCurveProps.
Import ListNotations.
Open Scope Q_scope.

(** Asset [one] is offered. The reserve of the offered asset after the offer, the reserve of the other asset before the
    trade, and the value of one smallest unit of the other asset; all valued in asset 0 at the price scale. *)
Definition paid (s : state) (one : bool) (offer : Z) : Z :=
  if one then (y_of s + offer * 10 ^ (18 - p1 s) * scale (pst s) / 10 ^ 18)%Z else (x_of s + offer * 10 ^ (18 - p0 s))%Z.
Definition asked (s : state) (one : bool) : Z := if one then x_of s else y_of s.
Definition piece (s : state) (one : bool) : Q :=
  if one then val (10 ^ (18 - p0 s)) else val (10 ^ (18 - p1 s)) * val (scale (pst s)).

(** With D given, the curve determines the other reserve: a reserve for which D is too large is less than any for which it
    is too small, *)
Theorem c121_unique : forall A g x D z1 z2, 0 < A -> 0 < g -> 0 < x -> 0 < z1 -> 0 < z2 ->
  above A g x z1 D -> below A g x z2 D -> z1 <= z2.
Proof.
  intros A g x D z1 z2 HA Hg Hx H1 H2 ((P1 & L1 & S1) & E1) ((_ & L2 & S2) & E2). apply Qnot_lt_le. intros L.
  pose proof (F_mono_y A g x D z2 z1 HA Hg Hx P1 H2 L L1 S2). lra.
Qed.
(** and both come arbitrarily close. *)
Theorem c121_exists : forall A g x D e, 0 < A -> 0 < g -> 0 < x -> 0 < D -> 0 < e ->
  exists z1 z2, 0 < z1 /\ above A g x z1 D /\ below A g x z2 D /\ z2 - z1 <= e.
Proof.
  intros A g x D e HA Hg Hx HD He. destruct (solution_z A g HA Hg x D e Hx HD He) as (z1 & z2 & Z & U & B & _ & W).
  exists z1, z2. split; [exact Z|]. split; [exact U|]. split; [exact B|lra].
Qed.

Lemma to_uint_both v p x : (0 <= p <= 18)%Z -> to_uint v p = Some x -> (x * 10 ^ (18 - p) <= v < (x + 1) * 10 ^ (18 - p))%Z.
Proof.
  intros P H. apply to_uint_inv in H as (-> & B & _); [|exact P]. destruct (pow_split _ P) as (_ & W & _).
  pose proof (Z.mul_succ_div_gt v _ W). pose proof (Z.mul_div_le v _ W). lia.
Qed.

(** What leaves the pool as return and commission is the difference of the reserve and the solution of the curve for the
    pair's D and the increased other reserve. *)
Theorem c121_swap : forall c s e one offer ret spread comm D a g, reach c s -> (c <= now e)%Z ->
  query_simulation e s one offer = Some (ret, spread, comm) -> query_compute_d (now e) s = Some D ->
  amp_gamma (rmp s) (now e) = Some (a, g) ->
  exists R, let out := inject_Z (ret + comm) * piece s one in
    out <= val (asked s one) - R /\ val (asked s one) - R <= out + 2 * piece s one /\
    let X := val (paid s one offer) in
    ((1 # 10000) <= val g -> 1 <= val D -> 1 <= X -> (101 # 100) <= R -> (1 # 1000) <= val g * val D -> (1 # 1000) <= val g * R ->
     (X + R) * (X + R) <= 1000000000 * (X * R) ->
     4 * (X * R) <= val D * val D * (1 + (1 # 1000000000)) -> val D <= X + R * (1 + (1 # 1000000000)) ->
     forall z, 0 < z -> (above (val a) (val g) X z (val D) -> z <= R + ((4 # 100000) + (1 # 100000000) * R)) /\
                        (below (val a) (val g) X z (val D) -> R - ((4 # 100000) + (1 # 100000000) * R) <= z)).
Proof.
  intros c s e one offer ret spread comm D a g R0 T H Q Ag. apply query_d_inv in Q as (a' & g' & E & N).
  rewrite E in Ag. injection Ag as -> ->.
  destruct (rinv_value _ _ _ _ _ (reach_rinv _ _ R0) T E) as ((Aa & Ab) & (Ga & Gb)). pose proof (reach_inv _ _ R0) as I.
  pose proof (i_scale _ I) as Sc. pose proof (i_p0 _ I) as I0. pose proof (i_p1 _ I) as I1. pose proof (i_r0 _ I) as (Ra & _). pose proof (i_r1 _ I) as (Rb & _).
  unfold query_simulation in H. unbind H as off Eo. unbind H as x0 E0. unbind H as x1 E1. cbv zeta in H. unguard H G0.
  unbind H as fs Ef. unbind H as res Er. unbind H as rt Ert. unbind H as sp Esp. unbind H as cm Ecm. injection H as -> -> ->.
  apply with_prec_inv in E0 as (-> & Bx0). apply with_prec_inv in E1 as (-> & Bx1). apply with_prec_inv in Eo as (-> & Bo).
  unfold compute_swap in Er. unbind Er as y1 F1. unbind Er as [a'' g''] F2. unbind Er as d F3. unbind Er as of' F4.
  unbind Er as n_off F5. unbind Er as ny F6. unbind Er as dyi F7. unbind Er as gross F8. unbind Er as expct F9. unbind Er as rate F10.
  unbind Er as tf F11. unbind Er as rr F12. unbind Er as sf F13. unbind Er as rest F14. unbind Er as mf F15. injection Er as <-.
  cbn [dy total_fee spread_fee] in *.
  injection E as -> ->. apply dmul256_Some in F1 as (-> & By1). fold (x_of s) in F3, F5, F7.
  change (r1 s * 10 ^ (18 - p1 s) * scale (pst s) / DEC)%Z with (y_of s) in *.
  rewrite N in F3. injection F3 as <-. apply sub256_Some in F12 as (-> & B12). apply add256_Some in F5 as (-> & B5).
  assert (Fo : of' = if one then (offer * 10 ^ (18 - p1 s) * scale (pst s) / DEC)%Z else (offer * 10 ^ (18 - p0 s))%Z).
  { destruct one; [apply dmul256_Some in F4 as (-> & _); reflexivity|congruence]. }
  assert (Ex : ((if one then y_of s else x_of s) + of' = paid s one offer)%Z) by (subst of'; unfold paid, DEC; destruct one; reflexivity).
  rewrite Ex in F6. apply sub256_Some in F7 as (-> & B7).
  assert (Ea : (if one then x_of s else y_of s) = asked s one) by reflexivity. rewrite Ea in F8, B7. clear Ea.
  (* what leaves the pool *)
  assert (Out : inject_Z (ret + comm) * piece s one <= val (asked s one) - val ny /\
                val (asked s one) - val ny <= inject_Z (ret + comm) * piece s one + 2 * piece s one).
  { destruct one.
    - injection F8 as <-. apply to_uint_both in Ert; [|exact I0]. apply to_uint_both in Ecm; [|exact I0].
      change (asked s true) with (x_of s) in *. set (m := (x_of s - ny)%Z) in *. rewrite <- val_sub. fold m. unfold piece. rewrite <- val_scale.
      assert (V2 : forall q, 2 * val q == val (2 * q)) by (intros; rewrite val_scale; reflexivity). rewrite V2, <- val_add.
      set (w := (10 ^ (18 - p0 s))%Z) in *. clearbody w m. clear - Ecm Ert.
      split; apply (proj1 (val_le _ _)); lia.
    - apply ddiv256_Some in F8 as (_ & -> & B8). apply to_uint_both in Ert; [|exact I1]. apply to_uint_both in Ecm; [|exact I1].
      change (asked s false) with (y_of s) in *. set (m := (y_of s - ny)%Z) in *. rewrite <- val_sub. fold m. unfold piece.
      set (gr := (m * DEC / scale (pst s))%Z) in *.
      assert (M0 : (0 <= m)%Z) by lia.
      destruct (floor_div m (scale (pst s)) gr M0 Sc) as (G0' & L1 & L2).
      { unfold gr. rewrite Z.quot_div_nonneg; [reflexivity|unfold DEC; lia|exact Sc]. }
      set (P := val (scale (pst s))) in *. assert (P0 : 0 <= P) by (apply (proj1 (val_nonneg _)); lia).
      set (w := (10 ^ (18 - p1 s))%Z) in *.
      assert (A1 : val ((ret + comm) * w) <= val gr) by (clearbody w gr; clear - Ecm Ert; apply (proj1 (val_le _ _)); lia).
      assert (A2 : val gr + u <= val ((ret + comm) * w) + 2 * val w).
      { assert (Z2 : (gr + 1 <= (ret + comm) * w + 2 * w)%Z) by (clearbody w gr; clear - Ecm Ert; lia). apply val_le in Z2. rewrite !val_add in Z2.
        assert (E1' : val 1 == u) by reflexivity. assert (E2' : val (2 * w) == 2 * val w) by (rewrite val_scale; reflexivity). rewrite E1', E2' in Z2. exact Z2. }
      rewrite val_scale in A1, A2.
      assert (A3 : inject_Z (ret + comm) * val w * P <= val gr * P) by (apply Qmult_le_compat_r; assumption).
      assert (A4 : (val gr + u) * P <= (inject_Z (ret + comm) * val w + 2 * val w) * P) by (apply Qmult_le_compat_r; assumption).
      split; lra. }
  exists (val ny). cbv zeta. destruct Out as (Out1 & Out2). split; [exact Out1|]. split; [exact Out2|].
  intros G1 D1 X1 R1 GD GR SK LR UR z Z0.
  assert (Z1 : (100000000000000000 <= a)%Z) by exact Aa. assert (Z2 : (a <= 100000000000000000000000)%Z) by exact Ab.
  assert (Z3 : (g <= 20000000000000000)%Z) by exact Gb.
  assert (A1 : (1 # 10) <= val a) by (clear - Z1; unfold val, Qle; cbn [Qnum Qden]; lia).
  assert (A2 : val a <= 100000) by (clear - Z2; unfold val, Qle; cbn [Qnum Qden]; lia).
  assert (G2 : val g <= 1 # 50) by (clear - Z3; unfold val, Qle; cbn [Qnum Qden]; lia).
  assert (Ha : (0 <= a)%Z) by lia. assert (Hg : (0 <= g)%Z) by lia.
  assert (Hd : (0 <= D)%Z) by (apply val_nonneg; lra). assert (Hx : (0 <= paid s one offer)%Z) by (apply val_nonneg; lra).
  exact (newton_y_close D (paid s one offer) a g ny Hd Hx Ha Hg D1 X1 R1 A1 A2 G1 G2 GD GR SK LR UR z (negb one) F6 Z0).
Qed.

(** One token of asset 0 offered to the pool of 8 and 2.5 tokens: the pool keeps 2.069476437 tokens of asset 1 before fees,
    and the solution of the curve lies between 2.069476436 and 2.069476438. *)
Example c121_example : exists R, reach 1000 s116 /\ query_simulation (at_ 1200) s116 false 1000000 = Some (428586, 569476, 1937)%Z /\
  query_compute_d 1200 s116 = Some 9999999999999993931%Z /\
  amp_gamma (rmp s116) 1200 = Some (151250000000000000000, 20000000000000000)%Z /\
  let out := inject_Z (428586 + 1937) * piece s116 false in let X := val (paid s116 false 1000000) in
  let D := val 9999999999999993931 in let g := val 20000000000000000 in
  out <= val (asked s116 false) - R /\ val (asked s116 false) - R <= out + 2 * piece s116 false /\
  (1 # 10000) <= g /\ 1 <= D /\ 1 <= X /\ (101 # 100) <= R /\ (1 # 1000) <= g * D /\ (1 # 1000) <= g * R /\
  (X + R) * (X + R) <= 1000000000 * (X * R) /\ 4 * (X * R) <= D * D * (1 + (1 # 1000000000)) /\ D <= X + R * (1 + (1 # 1000000000)) /\
  above (val 151250000000000000000) g X (2069476436 # 1000000000) D /\ below (val 151250000000000000000) g X (2069476438 # 1000000000) D.
Proof.
  exists (val 2069476437373247933). split; [destruct c116_example as (D & H & _); exact H|]. split; [vm_compute; reflexivity|].
  split; [vm_compute; reflexivity|]. split; [vm_compute; reflexivity|]. cbv zeta.
  repeat (split; [vm_compute; discriminate|]).
  assert (R1 : ranged (val (paid s116 false 1000000)) (2069476436 # 1000000000) (val 9999999999999993931)) by (split; [reflexivity|split; vm_compute; discriminate]).
  assert (R2 : ranged (val (paid s116 false 1000000)) (2069476438 # 1000000000) (val 9999999999999993931)) by (split; [reflexivity|split; vm_compute; discriminate]).
  split; (split; [assumption|vm_compute; discriminate]).
Qed.

Print Assumptions c121_unique.
Print Assumptions c121_exists.
Print Assumptions c121_swap.
