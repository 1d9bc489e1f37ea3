(** C65: trading back and forth in a stable pool, as far as it is unprofitable: any sequence of swaps each of which leaves a commission of at
    least one unit (and a hair) in the pool. *)
From Coq Require Import ZArith Lia Bool List.
From Verif Require Import Num Ledger StableMath StableProofs StableAcc StableModel StablePair StableProps.
From Verif Require XykModel.
Import ListNotations.
Open Scope Z_scope.

(** Reserves as decimals. *)
Definition d0 (s : state) : Z := r0 s * 10 ^ (18 - p0 s).
Definition d1 (s : state) : Z := r1 s * 10 ^ (18 - p1 s).

(** [n] swaps, by anybody and in any direction, at amplification [a]. Each finds at least a token of both assets, leaves at least a token of
    the asset it takes, keeps a commission of at least one unit and 10 + [k] units of 10^-18 in the pool; [k] bounds how skewed the pool gets. *)
Inductive traded (a k : Z) : nat -> state -> state -> Prop :=
| traded_none s : traded a k 0 s s
| traded_swap n s s1 s2 e (one : bool) offer belief ms ret spread comm maker shr D :
    traded a k n s s1 -> env_ok e -> step e (Swap one offer belief ms) s1 = Some (s2, OSwap ret spread comm maker shr) ->
    current_amp (amp s1) (now e) = Some a -> compute_d a (d0 s1) (d1 s1) = Some D -> DEC <= D -> DEC <= d0 s1 -> DEC <= d1 s1 ->
    (let u := 10 ^ (18 - if one then p0 s1 else p1 s1) in
     DEC <= ((if one then r0 s1 else r1 s1) - (ret + comm)) * u /\ u + 10 + k <= (comm - maker - shr) * u) ->
    D + DEC <= 2 * k * (if one then d1 s2 else d0 s2) ->
    traded a k (S n) s s2.

(** ** The exact curve *)
(** [0 < Hy L x D y]: the exact invariant of reserves [x], [y] is above [D]. *)
Lemma Hy_sym L x D y : Hy L x D y = Hy L y D x.
Proof. unfold Hy. ring. Qed.
Lemma Hy_antitone L x D D' y : 0 <= D' <= D -> 0 <= x -> 0 <= y -> DEC <= L -> 0 < Hy L x D y -> 0 < Hy L x D' y.
Proof.
  unfold Hy. intros H Hx Hy HL A.
  assert (C : D' ^ 3 <= D ^ 3) by (apply Z.pow_le_mono_l; exact H).
  assert (B : (L - DEC) * D' <= (L - DEC) * D) by (apply Z.mul_le_mono_nonneg_l; lia).
  assert (P : 0 <= 4 * x * y) by (apply Z.mul_nonneg_nonneg; lia).
  assert (E : 4 * x * y * (L * (x + y) - (L - DEC) * D) <= 4 * x * y * (L * (x + y) - (L - DEC) * D')) by (apply Z.mul_le_mono_nonneg_l; lia).
  pose proof DEC_pos. assert (DEC * D' ^ 3 <= DEC * D ^ 3) by (apply Z.mul_le_mono_nonneg_l; lia). lia.
Qed.
Lemma computed_low a x y D D' : 100 <= a <= 100000000 -> DEC <= x -> DEC <= y -> compute_d a x y = Some D -> DEC <= D -> 0 <= D' ->
  0 < Hy (lev a) x D' y -> D' - 6 <= D.
Proof.
  intros Ha Hx Hy_ HD DD DP H. pose proof DEC_pos as Q0. destruct (Z.le_gt_cases (D' - 6) D) as [|C]; [assumption|exfalso].
  destruct (c63_invariant a x y D ltac:(lia) ltac:(lia) ltac:(lia) HD DD) as (P & HP & LO & _).
  pose proof (lev_ge a ltac:(lia)) as HL. assert (LU : lev a <= 2000000 * DEC) by (unfold lev, DEC; lia).
  set (E := D + 6). assert (E <= D + 5); [|unfold E in *; lia]. apply LO.
  apply (Hy_antitone _ _ _ (E + 1)) in H; [|unfold E; lia|lia|lia|lia]. unfold Hy in H. unfold Gam.
  set (L := lev a) in *. set (s := x + y) in *. set (W := L * s - (L - DEC) * (E + 1)) in *.
  assert (E0 : DEC <= E) by (unfold E; lia).
  assert (W0 : 0 < W). { destruct (Z.le_gt_cases W 0) as [N|]; [exfalso|assumption].
    assert (4 * x * y * W <= 0) by (apply Z.mul_nonneg_nonpos; [apply Z.mul_nonneg_nonneg; lia|exact N]).
    assert (0 <= DEC * (E + 1) ^ 3) by (apply Z.mul_nonneg_nonneg; [lia|apply Z.pow_nonneg; lia]). lia. }
  assert (S2 : 2 * s <= P).
  { assert (2 * DEC * s <= 4 * x * y).
    { assert (DEC * y <= x * y) by (apply Z.mul_le_mono_nonneg_r; lia). assert (x * DEC <= x * y) by (apply Z.mul_le_mono_nonneg_l; lia). unfold s. lia. }
    assert (DEC * (2 * s) < DEC * (P + 1)) by lia. apply Z.mul_lt_mono_pos_l in H1; lia. }
  assert (K1 : (E + 1) ^ 3 < (P + 1) * W).
  { apply (Z.mul_lt_mono_pos_l DEC); [exact Q0|].
    assert (4 * x * y * W <= (DEC * P + DEC) * W) by (apply Z.mul_le_mono_nonneg_r; lia). lia. }
  assert (K2 : W <= L * s) by (unfold W; assert (0 <= (L - DEC) * (E + 1)) by (apply Z.mul_nonneg_nonneg; lia); lia).
  assert (K3 : L * s <= P * (L - DEC)).
  { assert (2 * s * (L - DEC) <= P * (L - DEC)) by (apply Z.mul_le_mono_nonneg_r; lia).
    assert (s * L <= s * (2 * (L - DEC))) by (apply Z.mul_le_mono_nonneg_l; unfold s; lia). lia. }
  assert (K4 : E ^ 3 <= (E + 1) ^ 3) by (apply Z.pow_le_mono_l; lia).
  assert (EW : (L - DEC) * E - L * s = - (W + (L - DEC))) by (unfold W; ring). rewrite EW. lia.
Qed.
(** Reserves of which one has not grown and the other has shrunk lie on a lower curve. *)
Lemma shrunk L P n x0 y0 x y D K : 2 * DEC <= L -> DEC <= x0 -> DEC <= y0 -> DEC <= D -> 1 <= n <= 10 ^ 15 ->
  DEC * P <= 4 * x0 * y0 < DEC * P + DEC -> 0 < Gam P L (x0 + y0) (D + 6) ->
  0 <= x -> 0 <= y -> y <= y0 -> 0 < Hy L x (D - 6 * (n - 1)) y -> 2 * x0 <= K * D -> x0 <= x + 24 * n * K.
Proof.
  intros HL Hx0 Hy0 HD Hn HP G Hx Hy1 Hy2 A HK. pose proof DEC_pos as Q0. destruct (Z.le_gt_cases x0 (x + 24 * n * K)) as [|C]; [assumption|exfalso].
  assert (K1 : 1 <= K). { destruct (Z.le_gt_cases K 0) as [N|]; [|lia]. assert (K * D <= 0) by (apply Z.mul_nonpos_nonneg; lia). lia. }
  set (d := D - 6 * (n - 1)) in *. set (m := x0 - x). set (dl := 6 * n).
  assert (Ed : D + 6 = d + dl) by (unfold d, dl; ring).
  assert (d1 : 36 * n <= d). { unfold d. unfold DEC in HD. change (10 ^ 15) with 1000000000000000 in Hn. lia. }
  assert (Kd : x0 <= K * d). { assert (K * D <= K * (2 * d)) by (apply Z.mul_le_mono_nonneg_l; [lia|unfold d in *; lia]). lia. }
  assert (Hm : 4 * dl * K + 1 <= m) by (unfold dl, m; lia).
  assert (Hm2 : dl <= m). { assert (dl * 1 <= dl * K) by (apply Z.mul_le_mono_nonneg_l; unfold dl; lia). lia. }
  rewrite Ed in G. unfold Gam in G. unfold Hy in A. set (Z' := L * (x + y) - (L - DEC) * d) in *.
  assert (D3 : 0 < d ^ 3) by (apply Z.pow_pos_nonneg; lia).
  assert (Z0 : 0 < Z'). { destruct (Z.le_gt_cases Z' 0) as [N|]; [exfalso|assumption].
    assert (4 * x * y * Z' <= 0) by (apply Z.mul_nonneg_nonpos; [apply Z.mul_nonneg_nonneg; lia|exact N]).
    assert (0 < DEC * d ^ 3) by (apply Z.mul_pos_pos; lia). lia. }
  assert (P0 : 0 <= P). { destruct (Z.le_gt_cases 0 P) as [|N]; [assumption|exfalso].
    assert (0 <= 4 * x0 * y0) by (apply Z.mul_nonneg_nonneg; lia). assert (DEC * P <= DEC * (-1)) by (apply Z.mul_le_mono_nonneg_l; lia). lia. }
  set (T := (d + dl) ^ 3) in *. assert (T0 : 0 < T) by (apply Z.pow_pos_nonneg; unfold dl; lia).
  assert (W1 : P * Z' < T).
  { assert (Z' <= L * (x0 + y0) - (L - DEC) * (d + dl)).
    { unfold Z'. assert (L * dl <= L * m) by (apply Z.mul_le_mono_nonneg_l; lia). assert (0 <= DEC * dl) by (apply Z.mul_nonneg_nonneg; unfold dl; lia).
      assert (L * y <= L * y0) by (apply Z.mul_le_mono_nonneg_l; lia). replace x0 with (x + m) by (unfold m; ring). lia. }
    assert (P * Z' <= P * (L * (x0 + y0) - (L - DEC) * (d + dl))) by (apply Z.mul_le_mono_nonneg_l; lia). lia. }
  assert (W2 : (4 * x0 * y0 - DEC) * d ^ 3 < 4 * x * y * T).
  { apply (Z.mul_lt_mono_pos_l Z'); [exact Z0|].
    assert (B1 : (4 * x0 * y0 - DEC) * (Z' * d ^ 3) <= DEC * P * (Z' * d ^ 3)) by (apply Z.mul_le_mono_nonneg_r; [apply Z.mul_nonneg_nonneg; lia|lia]).
    assert (B2 : DEC * d ^ 3 * (P * Z') <= DEC * d ^ 3 * T) by (apply Z.mul_le_mono_nonneg_l; [apply Z.mul_nonneg_nonneg; lia|lia]).
    assert (B3 : DEC * d ^ 3 * T < 4 * x * y * Z' * T) by (apply Z.mul_lt_mono_pos_r; [exact T0|lia]). lia. }
  assert (W3 : 4 * x * y * T <= 4 * x * y0 * T).
  { apply Z.mul_le_mono_nonneg_r; [lia|]. apply Z.mul_le_mono_nonneg_l; lia. }
  assert (W4 : T <= d ^ 2 * (d + 4 * dl)).
  { assert (4 * dl * dl <= d * dl) by (apply Z.mul_le_mono_nonneg_r; unfold dl; lia).
    assert (dl * dl * (dl + 3 * d) <= dl * d * d).
    { assert (dl * (4 * dl) * d <= dl * d * d) by (apply Z.mul_le_mono_nonneg_r; lia).
      assert (dl * dl * (dl + 3 * d) <= dl * dl * (4 * d)) by (apply Z.mul_le_mono_nonneg_l; unfold dl in *; lia). lia. }
    unfold T. lia. }
  assert (W5 : (4 * x0 * y0 - DEC) * d < 4 * x * y0 * (d + 4 * dl)).
  { apply (Z.mul_lt_mono_pos_l (d ^ 2)); [apply Z.pow_pos_nonneg; lia|].
    assert (4 * x * y0 * T <= 4 * x * y0 * (d ^ 2 * (d + 4 * dl))) by (apply Z.mul_le_mono_nonneg_l; [apply Z.mul_nonneg_nonneg; lia|exact W4]). lia. }
  assert (W6 : 4 * m * d < 16 * dl * x0 + d).
  { apply (Z.mul_lt_mono_pos_l y0); [lia|]. assert (DEC * d <= y0 * d) by (apply Z.mul_le_mono_nonneg_r; lia).
    assert (4 * x * y0 * (4 * dl) <= 4 * x0 * y0 * (4 * dl)).
    { apply Z.mul_le_mono_nonneg_r; [unfold dl; lia|]. apply Z.mul_le_mono_nonneg_r; unfold m, dl in *; lia. }
    replace (4 * x * y0 * (d + 4 * dl)) with (4 * x0 * y0 * d - 4 * m * y0 * d + 4 * x * y0 * (4 * dl)) in W5 by (unfold m; ring). lia. }
  assert (W7 : 16 * dl * x0 <= 16 * dl * (K * d)) by (apply Z.mul_le_mono_nonneg_l; unfold dl; lia).
  assert (W8 : (4 * dl * K + 1) * d <= m * d) by (apply Z.mul_le_mono_nonneg_r; lia). lia.
Qed.

(** ** One swap and a sequence *)
Lemma reachable_step e m s s' o : reachable s -> env_ok e -> msg_ok m -> step e m s = Some (s', o) -> reachable s'.
Proof.
  intros (t & a & ow & q0 & q1 & n0 & n1 & s0 & l & A & B & C & Hl & ->) He Hm H.
  exists t, a, ow, q0, q1, n0, n1, s0, (l ++ [(e, m)]). split; [exact A|]. split; [exact B|]. split; [exact C|]. split.
  - apply Forall_app. split; [exact Hl|]. constructor; [split; assumption|constructor].
  - unfold run. rewrite fold_left_app. cbn [fold_left]. change (s' = exec (run s0 l) (e, m)). unfold exec. cbn [fst snd]. rewrite H. reflexivity.
Qed.
Lemma swap_keeps e one offer belief ms s s' o : step e (Swap one offer belief ms) s = Some (s', o) -> p0 s' = p0 s /\ p1 s' = p1 s.
Proof.
  intros H. cbn [step] in H. unguard H G. unfold swap in H. unbind H as ((ret, spread), comm) E1. unbind H as gr E2. unbind H as ok E3.
  unbind H as shr E4. unbind H as mk E5. cbv zeta in H. unbind H as no E6. unbind H as k1 E7. unbind H as k2 E8. unbind H as na E9.
  unbind H as x E10. unbind H as y E11. unbind H as c E12. injection H as <- _. destruct c as ((c1, c2), c3). split; reflexivity.
Qed.
Lemma swap_above e s one offer belief ms s' ret spread comm maker shr a D k : reachable s -> env_ok e ->
  step e (Swap one offer belief ms) s = Some (s', OSwap ret spread comm maker shr) -> current_amp (amp s) (now e) = Some a ->
  compute_d a (d0 s) (d1 s) = Some D -> 0 <= k ->
  (let u := 10 ^ (18 - if one then p0 s else p1 s) in
   DEC <= ((if one then r0 s else r1 s) - (ret + comm)) * u /\ u + 10 + k <= (comm - maker - shr) * u) ->
  D + DEC <= 2 * k * (if one then d1 s' else d0 s') ->
  0 < Hy (lev a) (d0 s') D (d1 s').
Proof.
  intros R He H Ha HD Hk Hu HK. cbv zeta in Hu. destruct Hu as (HL & HC). destruct (swap_keeps _ _ _ _ _ _ _ _ H) as (Q0 & Q1).
  destruct (c30_amounts _ _ _ _ _ _ _ _ R He H) as (ret' & sp' & cm' & mk' & sh' & E & B). injection E as <- <- <- <- <-. cbv zeta in B.
  destruct B as (_ & _ & _ & _ & _ & _ & _ & _ & _ & Bo & Ba & _ & _).
  pose proof (c63_swap _ _ _ _ _ _ _ _ _ _ _ _ _ _ k R He H Ha HD) as X. cbv zeta in X. unfold d0, d1 in *. rewrite Q0, Q1 in *.
  destruct one.
  - specialize (X HL Hk). rewrite Bo in HK. specialize (X HK). destruct X as (X & _). rewrite Hy_sym. rewrite Bo, Ba.
    destruct (Z.le_gt_cases (Hy (lev a) ((r1 s + offer) * 10 ^ (18 - p1 s)) D ((r0 s - (ret + maker + shr)) * 10 ^ (18 - p0 s))) 0) as [N|]; [|lia].
    specialize (X _ N). exfalso. lia.
  - specialize (X HL Hk). rewrite Bo in HK. specialize (X HK). destruct X as (X & _). rewrite Bo, Ba.
    destruct (Z.le_gt_cases (Hy (lev a) ((r0 s + offer) * 10 ^ (18 - p0 s)) D ((r1 s - (ret + maker + shr)) * 10 ^ (18 - p1 s))) 0) as [N|]; [|lia].
    specialize (X _ N). exfalso. lia.
Qed.

Lemma traded_inv a k n s s' D : 0 <= k -> reachable s -> compute_d a (d0 s) (d1 s) = Some D -> traded a k n s s' ->
  Z.of_nat n <= 10 ^ 15 -> DEC <= D -> reachable s' /\ p0 s' = p0 s /\ p1 s' = p1 s /\
  (n = 0%nat /\ s' = s \/ (1 <= Z.of_nat n /\ 100 <= a <= 100000000 /\ 0 < Hy (lev a) (d0 s') (D - 6 * (Z.of_nat n - 1)) (d1 s'))).
Proof.
  intros Hk R HD T Hn DD.
  induction T as [s|n s s1 s2 e one offer belief ms ret spread comm maker shr D1 T IH He H Ha HD1 DD1 X1 Y1 Hu HK].
  - split; [exact R|]. auto.
  - destruct (IH R HD ltac:(lia)) as (R1 & Q0 & Q1 & J). destruct (swap_keeps _ _ _ _ _ _ _ _ H) as (Q2 & Q3).
    pose proof (reachable_step _ (Swap one offer belief ms) _ _ _ R1 He Logic.I H) as R2. split; [exact R2|]. split; [congruence|]. split; [congruence|]. right.
    pose proof (c28_range _ _ _ R1 Ha) as RA. split; [lia|]. split; [exact RA|].
    pose proof (swap_above _ _ _ _ _ _ _ _ _ _ _ _ _ _ _ R1 He H Ha HD1 Hk Hu HK) as A. 
    pose proof (reachable_inv _ R2) as [I0 I1 _ _ _ _ _].
    apply (Hy_antitone _ _ D1); [|apply Z.mul_nonneg_nonneg; [exact I0|apply Z.pow_nonneg; lia]|apply Z.mul_nonneg_nonneg; [exact I1|apply Z.pow_nonneg; lia]
      |pose proof (lev_ge a ltac:(lia)); pose proof DEC_pos; lia|exact A].
    change (10 ^ 15) with 1000000000000000 in Hn. unfold DEC in DD. split; [lia|]. destruct J as [(-> & ->)|(N1 & _ & J)].
    + rewrite HD in HD1. injection HD1 as ->. lia.
    + pose proof (computed_low a _ _ D1 (D - 6 * (Z.of_nat n - 1)) RA X1 Y1 HD1 DD1 ltac:(lia) J). lia.
Qed.

(** ** Theorems *)
(** Whatever [n] such swaps are made: they never take some of one asset and leave the other no larger, but for 24 [n] [k] units of 10^-18. *)
Theorem c65_sequence : forall a k n s s' D, reachable s -> traded a k n s s' -> Z.of_nat n <= 10 ^ 15 -> 0 <= k ->
  compute_d a (d0 s) (d1 s) = Some D -> DEC <= D -> DEC <= d0 s -> DEC <= d1 s -> 2 * d0 s <= k * D -> 2 * d1 s <= k * D ->
  (r1 s' <= r1 s -> d0 s <= d0 s' + 24 * Z.of_nat n * k) /\ (r0 s' <= r0 s -> d1 s <= d1 s' + 24 * Z.of_nat n * k).
Proof.
  intros a k n s s' D R T Hn Hk HD DD X0 Y0 KX KY.
  destruct (traded_inv _ _ _ _ _ _ Hk R HD T Hn DD) as (R' & Q0 & Q1 & [(-> & ->)|(N1 & RA & A)]); [lia|].
  pose proof DEC_pos as DP. destruct (c63_invariant a (d0 s) (d1 s) D ltac:(lia) ltac:(lia) ltac:(lia) HD DD) as (P & HP & LO & _).
  assert (G : 0 < Gam P (lev a) (d0 s + d1 s) (D + 6)).
  { destruct (Z.le_gt_cases (Gam P (lev a) (d0 s + d1 s) (D + 6)) 0) as [N|]; [|assumption]. apply LO in N. lia. }
  pose proof (lev_ge a ltac:(lia)) as HL. pose proof (reachable_inv _ R') as [I0 I1 _ _ _ _ _].
  assert (V0 : 0 <= 10 ^ (18 - p0 s)) by (apply Z.pow_nonneg; lia). assert (V1 : 0 <= 10 ^ (18 - p1 s)) by (apply Z.pow_nonneg; lia).
  assert (Z0 : 0 <= d0 s') by (unfold d0; rewrite Q0; apply Z.mul_nonneg_nonneg; assumption).
  assert (Z1 : 0 <= d1 s') by (unfold d1; rewrite Q1; apply Z.mul_nonneg_nonneg; assumption).
  split; intros Hr.
  - assert (L1 : d1 s' <= d1 s) by (unfold d1; rewrite Q1; apply Z.mul_le_mono_nonneg_r; assumption).
    exact (shrunk (lev a) P (Z.of_nat n) (d0 s) (d1 s) (d0 s') (d1 s') D k HL X0 Y0 DD (conj N1 Hn) HP G Z0 Z1 L1 A KX).
  - assert (L1 : d0 s' <= d0 s) by (unfold d0; rewrite Q0; apply Z.mul_le_mono_nonneg_r; assumption).
    rewrite Hy_sym in A. rewrite (Z.add_comm (d0 s)) in G.
    exact (shrunk (lev a) P (Z.of_nat n) (d1 s) (d0 s) (d1 s') (d0 s') D k HL Y0 X0 DD (conj N1 Hn) ltac:(lia) G Z1 Z0 L1 A KY).
Qed.
(** With units coarser than that, the pool never loses of one asset without gaining of the other: trading there and back does not pay. *)
Theorem c65_no_profit : forall a k n s s' D, reachable s -> traded a k n s s' -> Z.of_nat n <= 10 ^ 15 -> 0 <= k ->
  compute_d a (d0 s) (d1 s) = Some D -> DEC <= D -> DEC <= d0 s -> DEC <= d1 s -> 2 * d0 s <= k * D -> 2 * d1 s <= k * D ->
  24 * Z.of_nat n * k < 10 ^ (18 - p0 s) -> 24 * Z.of_nat n * k < 10 ^ (18 - p1 s) ->
  (r1 s' <= r1 s -> r0 s <= r0 s') /\ (r0 s' <= r0 s -> r1 s <= r1 s').
Proof.
  intros a k n s s' D R T Hn Hk HD DD X0 Y0 KX KY U0 U1.
  destruct (traded_inv _ _ _ _ _ _ Hk R HD T Hn DD) as (R' & Q0 & Q1 & _).
  destruct (c65_sequence _ _ _ _ _ _ R T Hn Hk HD DD X0 Y0 KX KY) as (A & B).
  assert (K : 0 <= 24 * Z.of_nat n * k) by (apply Z.mul_nonneg_nonneg; lia). unfold d0, d1 in A, B. rewrite Q0, Q1 in *.
  remember (10 ^ (18 - p0 s)) as u. remember (10 ^ (18 - p1 s)) as v. remember (24 * Z.of_nat n * k) as w. split; intros H.
  - specialize (A H). destruct (Z.le_gt_cases (r0 s) (r0 s')) as [|C]; [assumption|exfalso].
    assert ((r0 s' + 1) * u <= r0 s * u) by (apply Z.mul_le_mono_nonneg_r; lia). lia.
  - specialize (B H). destruct (Z.le_gt_cases (r1 s) (r1 s')) as [|C]; [assumption|exfalso].
    assert ((r1 s' + 1) * v <= r1 s * v) by (apply Z.mul_le_mono_nonneg_r; lia). lia.
Qed.

(** A pool of 1000 tokens each; ten tokens are swapped there and the proceeds back: two such swaps, and the pool has gained. *)
Definition tr_s : state := Eval vm_compute in run ex_a0 [(ex_e 200, Provide 1 1000000000 1000000000 None)].
Definition tr_1 : state := Eval vm_compute in exec tr_s (ex_e 200, Swap false 10000000 None None).
Definition tr_2 : state := Eval vm_compute in exec tr_1 (ex_e 200, Swap true 9989011 None None).
Example c65_example : reachable tr_s /\ traded 10000 2 2 tr_s tr_2 /\ r1 tr_2 = r1 tr_s /\ r0 tr_2 = r0 tr_s + 19989.
Proof.
  split; [change tr_s with (run ex_a0 [(ex_e 200, Provide 1 1000000000 1000000000 None)]); apply ex_reach_a; hist|]. split; [|split; reflexivity].
  apply (traded_swap 10000 2 1 tr_s tr_1 tr_2 (ex_e 200) true 9989011 None None 9980011 0 9990 0 0 2000009999896804586755);
    [|apply ex_env_ok; unfold is_u64, U64MAX; lia|vm_compute; reflexivity|vm_compute; reflexivity|vm_compute; reflexivity
     |vm_compute; discriminate|vm_compute; discriminate|vm_compute; discriminate|split; vm_compute; discriminate|vm_compute; discriminate].
  apply (traded_swap 10000 2 0 tr_s tr_s tr_1 (ex_e 200) false 10000000 None None 9989011 990 9999 0 0 2000000000000000000000);
    [apply traded_none|apply ex_env_ok; unfold is_u64, U64MAX; lia|vm_compute; reflexivity|vm_compute; reflexivity|vm_compute; reflexivity
     |vm_compute; discriminate|vm_compute; discriminate|vm_compute; discriminate|split; vm_compute; discriminate|vm_compute; discriminate].
Qed.
Print Assumptions c65_sequence.
Print Assumptions c65_no_profit.
