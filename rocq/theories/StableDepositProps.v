(** C145: deposits into ordinary stable pools go through and are credited at least proportionally. *)
From Coq Require Import ZArith Lia Bool List.
From Verif Require Import Num Ledger StableMath StableModel StablePair StableProofs StableAcc StableProps StableExitProps StableConv StableConv2 StableConv5 StableLiveProps.
From Verif Require XykModel OwnershipModel.
Import ListNotations.
Open Scope Z_scope.

(** ** Specification *)

(** The pool stays ordinary with the deposit, and with either half of it. *)
Definition roomy (s : state) (d0 d1 : Z) : Prop :=
  let x := r0 s * 10 ^ (18 - p0 s) in let y := r1 s * 10 ^ (18 - p1 s) in
  let x' := (r0 s + d0) * 10 ^ (18 - p0 s) in let y' := (r1 s + d1) * 10 ^ (18 - p1 s) in
  x' <= 10 ^ 9 * y /\ y' <= 10 ^ 9 * x /\ x' + y' <= 10 ^ 30.

(** ** Proofs *)

(** Reserves that grow by the factor [m]/10^18 at least carry the invariant with them. *)
Lemma grow_gam L P P' s s' E m : 0 <= L - DEC -> 3 * DEC <= P -> DEC <= m -> 0 <= E -> Gam P L s E < 0 ->
  m ^ 2 * P < DEC ^ 2 * (P' + 1) -> m * s <= DEC * s' -> Gam P' L s' (m * E * (DEC - 1) / DEC ^ 2) <= 0.
Proof.
  intros HL HP Hm HE G HP' Hs. assert (HQ : DEC = 1000000000000000000) by reflexivity. set (q := DEC - 1). assert (q0 : 0 < q < DEC) by (unfold q; lia).
  set (F := m * E * q / DEC ^ 2). assert (ME : 0 <= m * E) by (apply Z.mul_nonneg_nonneg; lia). assert (MEq : 0 <= m * E * q) by (apply Z.mul_nonneg_nonneg; lia).
  assert (D2 : 0 < DEC ^ 2) by (rewrite HQ; reflexivity).
  assert (F0 : 0 <= F) by (apply Z.div_pos; lia). assert (F1 : DEC ^ 2 * F <= m * E * q) by (apply Z.mul_div_le; exact D2). clearbody F.
  set (W := L * s - (L - DEC) * E). assert (GW : E ^ 3 < P * W) by (unfold Gam in G; unfold W; lia).
  assert (E3 : 0 <= E ^ 3) by (apply Z.pow_nonneg; lia). assert (W0 : 0 < W). { destruct (Z.lt_ge_cases 0 W) as [|N]; [assumption|]. assert (P * W <= P * 0) by (apply Z.mul_le_mono_nonneg_l; lia). lia. }
  assert (F2 : DEC * F <= m * E). { apply Z.mul_le_mono_pos_l with DEC; [lia|]. assert (m * E * q <= m * E * DEC) by (apply Z.mul_le_mono_nonneg_l; lia). rewrite Z.pow_2_r in F1. lia. }
  set (V := L * s' - (L - DEC) * F). assert (V1 : m * W <= DEC * V).
  { unfold V, W. assert (L * (m * s) <= L * (DEC * s')) by (apply mulm; lia). assert ((L - DEC) * (DEC * F) <= (L - DEC) * (m * E)) by (apply mulm; lia). lia. }
  assert (A1 : m ^ 2 * P * q <= DEC ^ 3 * P').
  { assert (DEC ^ 2 * (3 * DEC) <= m ^ 2 * P) by (apply Z.mul_le_mono_nonneg; [lia|apply Z.pow_le_mono_l; lia|lia|lia]).
    assert (DEC * (m ^ 2 * P) <= DEC * (DEC ^ 2 * (P' + 1))) by (apply mulm; lia). replace (DEC ^ 3) with (DEC * DEC ^ 2) by ring. unfold q. lia. }
  assert (M2 : 0 <= m ^ 2 * P * q) by (apply Z.mul_nonneg_nonneg; [apply Z.mul_nonneg_nonneg; [apply sq_nonneg|lia]|lia]).
  assert (MW : 0 <= m * W) by (apply Z.mul_nonneg_nonneg; lia).
  assert (A2 : (m ^ 2 * P * q) * (m * W) <= (DEC ^ 3 * P') * (DEC * V)) by (apply Z.mul_le_mono_nonneg; assumption).
  assert (m0 : 0 <= m) by (clear - Hm HQ; lia). assert (q1 : 0 <= q <= DEC) by (clear - q0; lia). assert (GW' : E ^ 3 <= P * W) by (clear - GW; lia).
  assert (m3 : 0 <= m ^ 3) by (apply Z.pow_nonneg; exact m0). assert (mq : 0 <= m ^ 3 * q) by (apply Z.mul_nonneg_nonneg; [exact m3|apply q1]).
  assert (A3 : m ^ 3 * q * E ^ 3 <= m ^ 3 * q * (P * W)) by (apply mulm; assumption).
  assert (A4 : q ^ 2 * (m ^ 3 * q * E ^ 3) <= DEC ^ 2 * (m ^ 3 * q * E ^ 3)).
  { apply Z.mul_le_mono_nonneg_r; [apply Z.mul_nonneg_nonneg; assumption|apply Z.pow_le_mono_l; exact q1]. }
  assert (A5 : (DEC ^ 2 * F) ^ 3 <= (m * E * q) ^ 3) by (apply Z.pow_le_mono_l; split; [apply Z.mul_nonneg_nonneg; [apply Z.lt_le_incl; exact D2|exact F0]|exact F1]).
  assert (A6 : DEC ^ 2 * (m ^ 3 * q * (P * W)) <= DEC ^ 2 * ((DEC ^ 3 * P') * (DEC * V))).
  { apply mulm; [|apply Z.lt_le_incl; exact D2]. replace (m ^ 3 * q * (P * W)) with ((m ^ 2 * P * q) * (m * W)) by ring. exact A2. }
  assert (A7 : DEC ^ 2 * (m ^ 3 * q * E ^ 3) <= DEC ^ 2 * (m ^ 3 * q * (P * W))) by (apply mulm; [exact A3|apply Z.lt_le_incl; exact D2]).
  assert (A8 : DEC ^ 6 * F ^ 3 <= DEC ^ 6 * (P' * V)).
  { replace (DEC ^ 6 * F ^ 3) with ((DEC ^ 2 * F) ^ 3) by ring. replace (DEC ^ 6 * (P' * V)) with (DEC ^ 2 * ((DEC ^ 3 * P') * (DEC * V))) by ring.
    replace ((m * E * q) ^ 3) with (q ^ 2 * (m ^ 3 * q * E ^ 3)) in A5 by ring.
    eapply Z.le_trans; [exact A5|]. eapply Z.le_trans; [exact A4|]. eapply Z.le_trans; [exact A7|exact A6]. }
  apply Z.mul_le_mono_pos_l in A8; [|rewrite HQ; reflexivity]. unfold Gam. unfold V in A8. clear - A8. set (f3 := F ^ 3) in *. clearbody f3. lia.
Qed.
Lemma grow a x y x' y' D D' m : 100 <= a <= 100000000 -> ordinary x y -> ordinary x' y' -> compute_d a x y = Some D -> compute_d a x' y' = Some D' ->
  DEC <= m -> m * x <= DEC * x' -> m * y <= DEC * y' -> m * (D - 13000001) * (DEC - 1) <= DEC ^ 2 * (D' + 6).
Proof.
  intros Ha O O' HD HD' Hm Hx Hy. assert (HQ : DEC = 1000000000000000000) by reflexivity.
  destruct (compute_d_range a x y D Ha O HD) as (Hd & _). destruct (compute_d_range a x' y' D' Ha O' HD') as (Hd' & _).
  pose proof O as (X & Y & _). pose proof O' as (X' & Y' & _). change (10 ^ 18) with DEC in X, Y, X', Y'.
  destruct (c63_invariant a x y D ltac:(lia) ltac:(lia) ltac:(lia) HD Hd) as (P & HP & _ & H2).
  destruct (c63_invariant a x' y' D' ltac:(lia) ltac:(lia) ltac:(lia) HD' Hd') as (P' & HP' & H1' & _).
  destruct (ordinary_P x y P O HP) as (P1 & _). pose proof (lev_range a Ha) as HL. set (L := lev a) in *. clearbody L. set (E := D - 13000001) in *.
  assert (E0 : 0 <= E) by (unfold E; lia). assert (G : Gam P L (x + y) E < 0). { destruct (Z.lt_ge_cases (Gam P L (x + y) E) 0) as [|N]; [assumption|]. specialize (H2 E E0 N). unfold E in H2. lia. }
  assert (K : m * E * (DEC - 1) / DEC ^ 2 <= D' + 5).
  { apply H1'. apply (grow_gam L P P' (x + y)); try assumption; try lia.
    assert (B : (m * x) * (m * y) <= (DEC * x') * (DEC * y')) by (apply Z.mul_le_mono_nonneg; try assumption; apply Z.mul_nonneg_nonneg; lia).
    assert (B1 : m ^ 2 * (DEC * P) <= m ^ 2 * (4 * x * y)) by (apply mulm; [lia|apply sq_nonneg]).
    assert (B2 : DEC ^ 2 * (4 * x' * y') < DEC ^ 2 * (DEC * P' + DEC)) by (apply Z.mul_lt_mono_pos_l; [rewrite HQ; reflexivity|lia]).
    apply Z.mul_lt_mono_pos_l with DEC; [lia|]. clear - B B1 B2. replace (m ^ 2 * (4 * x * y)) with (4 * ((m * x) * (m * y))) in B1 by ring.
    replace (DEC ^ 2 * (4 * x' * y')) with (4 * ((DEC * x') * (DEC * y'))) in B2 by ring. lia. }
  assert (D2 : 0 < DEC ^ 2) by (rewrite HQ; reflexivity). pose proof (Z.mod_pos_bound (m * E * (DEC - 1)) (DEC ^ 2) D2) as B. pose proof (Z.div_mod (m * E * (DEC - 1)) (DEC ^ 2) ltac:(lia)) as B'.
  assert (DEC ^ 2 * (m * E * (DEC - 1) / DEC ^ 2) <= DEC ^ 2 * (D' + 5)) by (apply mulm; lia). lia.
Qed.

(** What the deposit is credited: no less than 10^-10 of the new total below the share of its smaller part. *)
Lemma credited a x y x' y' D D' l t : 100 <= a <= 100000000 -> ordinary x y -> ordinary x' y' -> compute_d a x y = Some D -> compute_d a x' y' = Some D' ->
  0 <= l -> (DEC + l) * x <= DEC * x' -> (DEC + l) * y <= DEC * y' -> 0 <= t ->
  t * (10 ^ 10 * l - (DEC + l)) <= (t * ssub D' D / D + 1) * 10 ^ 10 * DEC.
Proof.
  intros Ha O O' HD HD' Hl Hx Hy Ht. assert (HQ : DEC = 1000000000000000000) by reflexivity.
  destruct (compute_d_range a x y D Ha O HD) as (Hd & _). pose proof (grow a x y x' y' D D' (DEC + l) Ha O O' HD HD' ltac:(lia) Hx Hy) as G.
  set (v := t * ssub D' D / D).
  assert (V : t * (D' - D) <= D * (v + 1)).
  { assert (t * (D' - D) <= t * ssub D' D) by (apply mulm; [unfold ssub; lia|exact Ht]). pose proof (Z.mod_pos_bound (t * ssub D' D) D ltac:(lia)). pose proof (Z.div_mod (t * ssub D' D) D ltac:(lia)). unfold v. lia. }
  clearbody v.
  assert (K : (10 ^ 10 * l - (DEC + l)) * D <= 10 ^ 10 * DEC * (D' - D)).
  { apply Z.mul_le_mono_pos_l with DEC; [lia|]. set (m := DEC + l) in *. replace l with (m - DEC) by (unfold m; ring). assert (M : DEC <= m) by (unfold m; lia). clearbody m.
    assert (MD : DEC * D <= m * D) by (apply Z.mul_le_mono_nonneg_r; lia). assert (DM : m * DEC <= m * D) by (apply Z.mul_le_mono_nonneg_l; lia).
    replace (m * (D - 13000001) * (DEC - 1)) with (m * D * DEC - m * D - 13000001 * (m * DEC) + 13000001 * m) in G by ring. rewrite Z.pow_2_r in G.
    assert (MM : DEC * (m * D) >= 1000000000000000000 * (m * D)) by (rewrite HQ; lia).
    assert (M0 : DEC * DEC <= m * DEC) by (apply Z.mul_le_mono_nonneg_r; lia).
    set (u := m * D) in *. set (w := m * DEC) in *. clear - G MM DM MD M0 HQ M. 
    replace (DEC * ((10 ^ 10 * (m - DEC) - m) * D)) with (10 ^ 10 * (u * DEC) - 10 ^ 10 * (DEC * DEC * D) - DEC * u) by (unfold u; ring).
    replace (DEC * (10 ^ 10 * DEC * (D' - D))) with (10 ^ 10 * (DEC * DEC * D') - 10 ^ 10 * (DEC * DEC * D)) by ring.
    assert (G' : u * DEC - u - 13000001 * w + 13000001 * m - 6 * (DEC * DEC) <= DEC * DEC * D') by lia.
    rewrite HQ in *. lia. }
  apply Z.mul_le_mono_pos_l with D; [lia|]. assert (A : t * ((10 ^ 10 * l - (DEC + l)) * D) <= t * (10 ^ 10 * DEC * (D' - D))) by (apply mulm; assumption).
  assert (B : 10 ^ 10 * DEC * (t * (D' - D)) <= 10 ^ 10 * DEC * (D * (v + 1))) by (apply mulm; [exact V|rewrite HQ; lia]). clear - A B. lia.
Qed.

Lemma reachable_exec s e m : reachable s -> env_ok e -> msg_ok m -> reachable (exec s (e, m)).
Proof.
  intros (t & a & o & q0 & q1 & n0 & n1 & s0 & l & A & B & C & Hl & ->) He Hm. exists t, a, o, q0, q1, n0, n1, s0, (l ++ [(e, m)]).
  split; [exact A|]. split; [exact B|]. split; [exact C|]. split; [apply Forall_app; split; [exact Hl|constructor; [split; assumption|constructor]]|].
  unfold run. rewrite fold_left_app. reflexivity.
Qed.
Lemma given s e (one : bool) d : reachable s -> env_ok e -> 0 <= d -> (if one then r1 s else r0 s) + d <= U128MAX ->
  reachable (set_core s (if one then r0 s else r0 s + d) (if one then r1 s + d else r1 s) (supply s) (lp s) (c01 s, c10 s, last_t s)).
Proof.
  intros R He D U. pose proof (reachable_exec s e (Donate one d) R He Logic.I) as K. unfold exec in K. cbn [fst snd step] in K.
  rewrite (proj2 (Z.leb_le 0 d) D) in K. pose proof (reachable_inv _ R) as I. pose proof (i_r0 _ I). pose proof (i_r1 _ I).
  assert (A : add128 (if one then r1 s else r0 s) d = Some ((if one then r1 s else r0 s) + d)) by (apply add128_Some; destruct one; lia). rewrite A in K.
  destruct one; exact K.
Qed.
(** The accumulators can be updated at the reserves a deposit computes with. *)
Lemma provide_accrues e s d0 d1 : reachable s -> env_ok e -> 0 <= p0 s <= 18 -> 0 <= p1 s <= 18 -> 0 <= d0 -> 0 <= d1 ->
  ordinary ((r0 s + d0) * 10 ^ (18 - p0 s)) ((r1 s + d1) * 10 ^ (18 - p1 s)) -> init_t (amp s) <= now e ->
  accumulate_prices e s ((r0 s + d0) * 10 ^ (18 - p0 s)) ((r1 s + d1) * 10 ^ (18 - p1 s)) <> None.
Proof.
  intros R He P0 P1 D0 D1 O T. pose proof (reachable_inv _ R) as I. pose proof (i_r0 _ I). pose proof (i_r1 _ I).
  pose proof (pow_le18 _ P0) as (t0 & _). pose proof (pow_le18 _ P1) as (t1 & _). pose proof O as (X & Y & _ & _ & Su).
  assert (W0 : r0 s + d0 <= 10 ^ 30). { assert ((r0 s + d0) * 1 <= (r0 s + d0) * 10 ^ (18 - p0 s)) by (apply Z.mul_le_mono_nonneg_l; lia). lia. }
  assert (W1 : r1 s + d1 <= 10 ^ 30). { assert ((r1 s + d1) * 1 <= (r1 s + d1) * 10 ^ (18 - p1 s)) by (apply Z.mul_le_mono_nonneg_l; lia). lia. }
  assert (U : 10 ^ 31 <= U128MAX) by (vm_compute; discriminate).
  assert (Z1 : r0 s + d0 <= U128MAX) by lia. assert (Z2 : r1 s + d1 <= U128MAX) by lia.
  pose proof (given s e false d0 R He D0 Z1) as R1. cbv iota in R1. set (s1 := set_core s (r0 s + d0) (r1 s) _ _ _) in R1.
  pose proof (given s1 e true d1 R1 He D1 Z2) as R2. cbv iota in R2. set (s2 := set_core s1 _ _ _ _ _) in R2.
  assert (A : accrues e s2) by (apply ordinary_accrues; assumption).
  apply (acc_ok e s2 He) in A; [exact A|cbn; lia|cbn; lia|exact P0|exact P1].
Qed.

Lemma roomy_all s d0 d1 (n0 n1 : bool) : 0 <= p0 s <= 18 -> 0 <= p1 s <= 18 -> 0 <= r0 s -> 0 <= r1 s -> ordinary_pool s -> roomy s d0 d1 -> 0 <= d0 -> 0 <= d1 ->
  ordinary ((r0 s + (if n0 then d0 else 0)) * 10 ^ (18 - p0 s)) ((r1 s + (if n1 then d1 else 0)) * 10 ^ (18 - p1 s)).
Proof.
  intros P0 P1 Q0 Q1 (X & Y & XY & YX & Su) (A & B & C) D0 D1. pose proof (pow_le18 _ P0) as (t0 & _). pose proof (pow_le18 _ P1) as (t1 & _).
  set (u0 := 10 ^ (18 - p0 s)) in *. set (u1 := 10 ^ (18 - p1 s)) in *. clearbody u0 u1. rewrite Z.mul_add_distr_r in A, B, C. rewrite (Z.mul_add_distr_r (r1 s)) in C. 
  assert (0 <= d0 * u0) by (apply Z.mul_nonneg_nonneg; lia). assert (0 <= d1 * u1) by (apply Z.mul_nonneg_nonneg; lia).
  rewrite !Z.mul_add_distr_r. unfold ordinary. destruct n0, n1; cbv iota; rewrite ?Z.mul_0_l; lia.
Qed.

(** C145: a deposit of at least a hundredth of each reserve goes through, and is credited at least the part of the
    supply that its smaller half is of the reserve, less 10^-10. *)
Theorem c145_provide e s who d0 d1 l min_lp : reachable s -> env_ok e -> 0 <= p0 s <= 18 -> 0 <= p1 s <= 18 -> ordinary_pool s -> roomy s d0 d1 ->
  init_t (amp s) <= now e -> 0 < supply s <= 10 ^ (Z.max (p0 s) (p1 s) + 12) ->
  10 ^ 16 <= l -> l * r0 s <= 10 ^ 18 * d0 <= 10 ^ 18 * (999 * r0 s) -> l * r1 s <= 10 ^ 18 * d1 <= 10 ^ 18 * (999 * r1 s) ->
  match min_lp with Some m => 10 ^ 28 * (m + 1) <= supply s * (10 ^ 10 * l - (10 ^ 18 + l)) | None => True end ->
  exists s' share, step e (Provide who d0 d1 min_lp) s = Some (s', OProvide share) /\
    supply s * (10 ^ 10 * l - (10 ^ 18 + l)) <= 10 ^ 28 * (share + 1).
Proof.
  intros R He P0 P1 O Ro T Sp Hl L0 L1 Mn. change (10 ^ 18) with DEC in L0, L1, Mn |- *. change (10 ^ 16) with 10000000000000000 in Hl. assert (HQ : DEC = 1000000000000000000) by reflexivity.
  pose proof (reachable_inv _ R) as I. pose proof (i_r0 _ I) as Q0. pose proof (i_r1 _ I) as Q1. pose proof (c29_supply s R) as (_ & _ & _ & [S0|S1]); [lia|].
  assert (D0 : 0 <= d0). { assert (0 <= l * r0 s) by (apply Z.mul_nonneg_nonneg; lia). lia. } assert (D1 : 0 <= d1). { assert (0 <= l * r1 s) by (apply Z.mul_nonneg_nonneg; lia). lia. }
  pose proof (fun n0 n1 => roomy_all s d0 d1 n0 n1 P0 P1 Q0 Q1 O Ro D0 D1) as OO.
  destruct (c28_between s (now e) R T) as (a & Ea & _). pose proof (c28_range s (now e) a R Ea) as Ha.
  pose proof (OO false false) as O0. pose proof (OO true true) as O1. cbv iota in O0, O1. rewrite !Z.add_0_r in O0.
  destruct (compute_d_some a _ _ Ha O0) as (DD0 & E0 & B0). destruct (compute_d_some a _ _ Ha O1) as (DD1 & E1 & B1).
  destruct (compute_d_range a _ _ _ Ha O0 E0) as (_ & RX & RY). destruct (d_facts a _ _ _ Ha O1 E1 B1) as (_ & _ & UB & _).
  pose proof (pow_le18 _ P0) as (t0 & t0'). pose proof (pow_le18 _ P1) as (t1 & t1').
  set (u0 := 10 ^ (18 - p0 s)) in *. set (u1 := 10 ^ (18 - p1 s)) in *.
  assert (K0 : (DEC + l) * (r0 s * u0) <= DEC * ((r0 s + d0) * u0)).
  { replace ((DEC + l) * (r0 s * u0)) with (((DEC + l) * r0 s) * u0) by ring. rewrite Z.mul_assoc. apply Z.mul_le_mono_nonneg_r; lia. }
  assert (K1 : (DEC + l) * (r1 s * u1) <= DEC * ((r1 s + d1) * u1)).
  { replace ((DEC + l) * (r1 s * u1)) with (((DEC + l) * r1 s) * u1) by ring. rewrite Z.mul_assoc. apply Z.mul_le_mono_nonneg_r; lia. }
  pose proof (credited a _ _ _ _ DD0 DD1 l (supply s) Ha O0 O1 E0 E1 ltac:(lia) K0 K1 ltac:(lia)) as Cr.
  set (g := Z.max (p0 s) (p1 s)) in *. assert (Hg : 0 <= g <= 18) by (unfold g; lia). pose proof (pow_le18 _ Hg) as (tg & tg'). set (ug := 10 ^ (18 - g)) in *.
  assert (SG : supply s * ug <= 10 ^ 30). { assert (supply s * ug <= 10 ^ (g + 12) * ug) by (apply Z.mul_le_mono_nonneg_r; lia). unfold ug in *. rewrite <- Z.pow_add_r in H by lia. replace (g + 12 + (18 - g)) with 30 in H by ring. exact H. }
  assert (X1 : (r0 s + d0) * u0 <= 1000 * (r0 s * u0)). { replace (1000 * (r0 s * u0)) with ((1000 * r0 s) * u0) by ring. apply Z.mul_le_mono_nonneg_r; lia. }
  assert (Y1 : (r1 s + d1) * u1 <= 1000 * (r1 s * u1)). { replace (1000 * (r1 s * u1)) with ((1000 * r1 s) * u1) by ring. apply Z.mul_le_mono_nonneg_r; lia. }
  set (share := supply s * ssub DD1 DD0 / DD0) in *.
  assert (Dp : 0 < DD0) by lia. assert (Sd : 0 <= ssub DD1 DD0 <= 100000000 * DD0) by (unfold ssub; lia).
  assert (Ep : 0 <= supply s * ug) by (apply Z.mul_nonneg_nonneg; lia).
  set (mm := supply s * ug * ssub DD1 DD0 / DD0).
  assert (Mm : 0 <= mm <= 10 ^ 30 * 100000000).
  { split; [apply Z.div_pos; [apply Z.mul_nonneg_nonneg; lia|lia]|]. apply Z.div_le_upper_bound; [lia|].
    assert (supply s * ug * ssub DD1 DD0 <= 10 ^ 30 * (100000000 * DD0)) by (apply Z.mul_le_mono_nonneg; lia). lia. }
  assert (Sh : mm / ug = share).
  { unfold mm, share. rewrite Z.div_div by lia. replace (supply s * ug * ssub DD1 DD0) with (supply s * ssub DD1 DD0 * ug) by ring. apply Z.div_mul_cancel_r; lia. }
  assert (U : 10 ^ 30 * 100000000 <= U128MAX) by (vm_compute; discriminate). assert (U' : 10 ^ 40 <= U256MAX) by (vm_compute; discriminate).
  assert (MU : mm / ug <= mm) by (apply Z.div_le_upper_bound; [lia|]; assert (1 * mm <= ug * mm) by (apply Z.mul_le_mono_nonneg_r; lia); lia).
  assert (Sn : 1 <= share).
  { assert (1000 * (10 ^ 10 * l - (DEC + l)) <= supply s * (10 ^ 10 * l - (DEC + l))) by (apply Z.mul_le_mono_nonneg_r; lia). rewrite HQ in *. clear - Cr H Hl. lia. }
  pose proof O1 as (_ & _ & _ & _ & Su1). pose proof O0 as (Xm & Ym & _).
  assert (V0 : r0 s + d0 <= 10 ^ 30). { assert ((r0 s + d0) * 1 <= (r0 s + d0) * u0) by (apply Z.mul_le_mono_nonneg_l; lia). assert (0 <= (r1 s + d1) * u1) by (apply Z.mul_nonneg_nonneg; lia). lia. }
  assert (V1 : r1 s + d1 <= 10 ^ 30). { assert ((r1 s + d1) * 1 <= (r1 s + d1) * u1) by (apply Z.mul_le_mono_nonneg_l; lia). assert (0 <= (r0 s + d0) * u0) by (apply Z.mul_nonneg_nonneg; lia). lia. }
  assert (R0 : 0 < r0 s). { destruct (Z.eq_dec (r0 s) 0) as [E|]; [rewrite E in Xm; lia|lia]. } assert (R1 : 0 < r1 s). { destruct (Z.eq_dec (r1 s) 0) as [E|]; [rewrite E in Ym; lia|lia]. }
  assert (D0' : 0 < d0). { assert (0 < l * r0 s) by (apply Z.mul_pos_pos; lia). lia. } assert (D1' : 0 < d1). { assert (0 < l * r1 s) by (apply Z.mul_pos_pos; lia). lia. }
  assert (CS : calculate_shares a d0 d1 (r0 s) (r1 s) (p0 s) (p1 s) (greatest s) (supply s) = Some share).
  { unfold calculate_shares. change (greatest s) with g. assert (UU : 10 ^ 30 <= U128MAX) by (vm_compute; discriminate).
    assert (W : forall v p, 0 <= v <= 10 ^ 30 -> 0 <= p <= 18 -> with_prec v p = Some (v * 10 ^ (18 - p))) by (intros v p Hv Hp; apply with_prec_ok; [lia|exact Hp]).
    rewrite !W by (clear - D0 D1 R0 R1 V0 V1 P0 P1; lia). fold u0 u1.
    assert (A0 : add256 (r0 s * u0) (d0 * u0) = Some ((r0 s + d0) * u0)) by (apply add256_Some; rewrite Z.mul_add_distr_r in *; split; [reflexivity|]; assert (0 <= d0 * u0) by (apply Z.mul_nonneg_nonneg; lia); assert (0 <= (r1 s + d1) * u1) by (apply Z.mul_nonneg_nonneg; lia); lia).
    assert (A1 : add256 (r1 s * u1) (d1 * u1) = Some ((r1 s + d1) * u1)) by (apply add256_Some; rewrite (Z.mul_add_distr_r (r1 s)) in *; split; [reflexivity|]; assert (0 <= d1 * u1) by (apply Z.mul_nonneg_nonneg; lia); assert (0 <= (r0 s + d0) * u0) by (apply Z.mul_nonneg_nonneg; lia); lia).
    rewrite A0, A1, E1, E0. destruct (Z.eqb_spec (supply s) 0) as [Z'|_]; [lia|].
    assert (SW : with_prec (supply s) g = Some (supply s * ug)) by (apply with_prec_ok; [assert (supply s * 1 <= supply s * ug) by (apply Z.mul_le_mono_nonneg_l; lia); lia|exact Hg]). rewrite SW.
    assert (MD : muldiv256 (supply s * ug) (ssub DD1 DD0) DD0 = Some mm) by (apply muldiv256_Some; split; [lia|]; split; [reflexivity|]; fold mm; lia). rewrite MD.
    assert (TP : to_prec mm g = Some share).
    { unfold to_prec. rewrite (proj2 (Z.leb_le 0 g)), (proj2 (Z.leb_le g 18)) by lia. cbn [andb]. fold ug. rewrite Sh. apply u128_Some. lia. }
    rewrite TP. destruct (Z.eqb_spec share 0) as [Z'|_]; [lia|]. reflexivity. }
  pose proof (provide_accrues e s (if nat0 s then d0 else 0) (if nat1 s then d1 else 0) R He P0 P1 ltac:(destruct (nat0 s); lia) ltac:(destruct (nat1 s); lia) (OO (nat0 s) (nat1 s)) T) as Ac.
  cbn [step]. unfold provide. rewrite (proj2 (Z.leb_le 0 d0)), (proj2 (Z.leb_le 0 d1)) by lia. destruct (Z.eqb_spec d0 0) as [|_]; [lia|]. destruct (Z.eqb_spec d1 0) as [|_]; [lia|]. cbn [andb negb].
  rewrite Ea, CS. cbv zeta. assert (Gm : ((match min_lp with Some m => m | None => 0 end) <=? share) = true).
  { apply Z.leb_le. destruct min_lp as [m|]; [|lia]. rewrite HQ in *. clear - Cr Mn. lia. }
  rewrite Gm. assert (N0 : add128 (r0 s) d0 = Some (r0 s + d0)) by (apply add128_Some; unfold U128MAX; lia). assert (N1 : add128 (r1 s) d1 = Some (r1 s + d1)) by (apply add128_Some; unfold U128MAX; lia).
  rewrite N0, N1.
  replace (if nat0 s then r0 s + d0 else r0 s) with (r0 s + (if nat0 s then d0 else 0)) by (destruct (nat0 s); lia).
  replace (if nat1 s then r1 s + d1 else r1 s) with (r1 s + (if nat1 s then d1 else 0)) by (destruct (nat1 s); lia).
  assert (M0 : 0 <= r0 s + (if nat0 s then d0 else 0) <= U128MAX) by (unfold U128MAX; destruct (nat0 s); lia). assert (M1 : 0 <= r1 s + (if nat1 s then d1 else 0) <= U128MAX) by (unfold U128MAX; destruct (nat1 s); lia).
  rewrite !with_prec_ok by assumption. destruct (accumulate_prices _ _ _ _) as [c|]; [|contradiction].
  do 2 eexists. split; [reflexivity|]. rewrite HQ in *. clear - Cr. lia.
Qed.
Print Assumptions c145_provide.

(** C145: whatever its size, a deposit that goes through is credited at least that. *)
Theorem c145_credited e s who d0 d1 l min_lp s' share : reachable s -> env_ok e -> 0 <= p0 s <= 18 -> 0 <= p1 s <= 18 -> ordinary_pool s -> ordinary_pool s' ->
  0 < supply s -> 0 <= l -> l * r0 s <= 10 ^ 18 * d0 -> l * r1 s <= 10 ^ 18 * d1 -> step e (Provide who d0 d1 min_lp) s = Some (s', OProvide share) ->
  supply s * (10 ^ 10 * l - (10 ^ 18 + l)) <= 10 ^ 28 * (share + 1).
Proof.
  intros R He P0 P1 O O' Sp Hl L0 L1 H. change (10 ^ 18) with DEC in L0, L1 |- *. assert (HQ : DEC = 1000000000000000000) by reflexivity.
  destruct (c64_shares e s who d0 d1 min_lp s' _ R Sp H) as (a & sh & D0 & D1 & [= <-] & Ea & E0 & E1 & Hd & Hs & _ & R0 & R1 & _).
  pose proof (c28_range s (now e) a R Ea) as Ha. cbn [step] in H. unfold provide in H. unguard H G. unguard H G0. unbind H as a' F0. unbind H as share' F1. cbv zeta in H. unguard H G2. unbind H as n0 F2. unbind H as n1 F3.
  unbind H as x F4. unbind H as y F5. unbind H as [[c0' c1'] t'] F6. injection H as <- _. unfold ordinary_pool in O'. cbn [set_core r0 r1 p0 p1] in O', R0, R1, E1. subst n0 n1.
  pose proof (pow_le18 _ P0) as (t0 & _). pose proof (pow_le18 _ P1) as (t1 & _). set (u0 := 10 ^ (18 - p0 s)) in *. set (u1 := 10 ^ (18 - p1 s)) in *.
  assert (K0 : (DEC + l) * (r0 s * u0) <= DEC * ((r0 s + d0) * u0)).
  { replace ((DEC + l) * (r0 s * u0)) with (((DEC + l) * r0 s) * u0) by ring. rewrite Z.mul_assoc. apply Z.mul_le_mono_nonneg_r; lia. }
  assert (K1 : (DEC + l) * (r1 s * u1) <= DEC * ((r1 s + d1) * u1)).
  { replace ((DEC + l) * (r1 s * u1)) with (((DEC + l) * r1 s) * u1) by ring. rewrite Z.mul_assoc. apply Z.mul_le_mono_nonneg_r; lia. }
  pose proof (credited a _ _ _ _ D0 D1 l (supply s) Ha O O' E0 E1 Hl K0 K1 ltac:(lia)) as Cr.
  replace (ssub D1 D0) with (D1 - D0) in Cr by (unfold ssub; lia). rewrite <- Hs in Cr. rewrite HQ in *. clear - Cr. lia.
Qed.
Print Assumptions c145_credited.

(** C145: the first deposit of an ordinary pool of more than three decimals goes through; depositor and lock together get
    the invariant, at least one whole LP token. *)
Theorem c145_first e s who d0 d1 min_lp : reachable s -> env_ok e -> 0 <= p0 s <= 18 -> 0 <= p1 s <= 18 -> 3 < Z.max (p0 s) (p1 s) ->
  r0 s = 0 -> r1 s = 0 -> supply s = 0 -> init_t (amp s) <= now e ->
  ordinary (d0 * 10 ^ (18 - p0 s)) (d1 * 10 ^ (18 - p1 s)) -> match min_lp with Some m => m <= 10 ^ Z.max (p0 s) (p1 s) - 1000 | None => True end ->
  exists s' share, step e (Provide who d0 d1 min_lp) s = Some (s', OProvide share) /\ 10 ^ Z.max (p0 s) (p1 s) <= share + 1000.
Proof.
  intros R He P0 P1 H3 Z0' Z1' Sp T O Mn. assert (HQ : DEC = 1000000000000000000) by reflexivity.
  destruct (c28_between s (now e) R T) as (a & Ea & _). pose proof (c28_range s (now e) a R Ea) as Ha.
  destruct (compute_d_some a _ _ Ha O) as (D & E & B). destruct (d_facts a _ _ _ Ha O E B) as (_ & _ & UB & _). pose proof O as (X & Y & _ & _ & Su).
  pose proof (pow_le18 _ P0) as (t0 & _). pose proof (pow_le18 _ P1) as (t1 & _). set (u0 := 10 ^ (18 - p0 s)) in *. set (u1 := 10 ^ (18 - p1 s)) in *.
  set (g := Z.max (p0 s) (p1 s)) in *. assert (Hg : 0 <= g <= 18) by (unfold g; lia). pose proof (pow_le18 _ Hg) as (tg & tg'). 
  assert (D0 : 0 < d0). { destruct (Z.lt_ge_cases 0 d0) as [|N]; [assumption|]. assert (d0 * u0 <= 0 * u0) by (apply Z.mul_le_mono_nonneg_r; lia). lia. }
  assert (D1 : 0 < d1). { destruct (Z.lt_ge_cases 0 d1) as [|N]; [assumption|]. assert (d1 * u1 <= 0 * u1) by (apply Z.mul_le_mono_nonneg_r; lia). lia. }
  assert (V0 : d0 <= 10 ^ 30). { assert (d0 * 1 <= d0 * u0) by (apply Z.mul_le_mono_nonneg_l; lia). lia. }
  assert (V1 : d1 <= 10 ^ 30). { assert (d1 * 1 <= d1 * u1) by (apply Z.mul_le_mono_nonneg_l; lia). lia. }
  assert (U : 10 ^ 31 <= U128MAX) by (vm_compute; discriminate). assert (U' : 10 ^ 40 <= U256MAX) by (vm_compute; discriminate).
  assert (G1 : 10 ^ g * 10 ^ (18 - g) = DEC) by (rewrite <- Z.pow_add_r by lia; replace (g + (18 - g)) with 18 by lia; reflexivity).
  assert (G4 : 10 ^ 4 <= 10 ^ g) by (apply Z.pow_le_mono_r; lia). change (10 ^ 4) with 10000 in G4. set (ug := 10 ^ (18 - g)) in *. set (ig := 10 ^ g) in *.
  set (v := D / ug). assert (Vl : ig <= v). { apply Z.div_le_lower_bound; [lia|]. lia. }
  assert (Vu : v <= 10 ^ 31). { apply Z.div_le_upper_bound; [lia|]. assert (1 * 10 ^ 31 <= ug * 10 ^ 31) by (apply Z.mul_le_mono_nonneg_r; lia). lia. }
  assert (W : forall w p, 0 <= w <= 10 ^ 30 -> 0 <= p <= 18 -> with_prec w p = Some (w * 10 ^ (18 - p))) by (intros w p Hv Hp; apply with_prec_ok; [lia|exact Hp]).
  assert (CS : calculate_shares a d0 d1 0 0 (p0 s) (p1 s) (greatest s) 0 = Some (v - 1000)).
  { unfold calculate_shares. change (greatest s) with g. rewrite !W by (clear - D0 D1 V0 V1 P0 P1; lia). fold u0 u1. rewrite !Z.mul_0_l.
    assert (A0 : add256 0 (d0 * u0) = Some (d0 * u0)) by (apply add256_Some; lia). assert (A1 : add256 0 (d1 * u1) = Some (d1 * u1)) by (apply add256_Some; lia).
    rewrite A0, A1, E. cbn [Z.eqb]. assert (TP : to_prec D g = Some v).
    { unfold to_prec. rewrite (proj2 (Z.leb_le 0 g)), (proj2 (Z.leb_le g 18)) by lia. cbn [andb]. fold ug. apply u128_Some. fold v. lia. }
    rewrite TP. assert (SB : sub128 v MINIMUM_LIQUIDITY = Some (v - 1000)) by (apply sub128_Some; unfold MINIMUM_LIQUIDITY; lia). rewrite SB.
    destruct (Z.eqb_spec (v - 1000) 0) as [Z'|_]; [lia|reflexivity]. }
  assert (Ac : forall x y, (x, y) = (d0 * u0, d1 * u1) \/ x = 0 \/ y = 0 -> accumulate_prices e s x y <> None).
  { intros x y [[= -> ->]|Q].
    - pose proof (provide_accrues e s d0 d1 R He P0 P1 ltac:(lia) ltac:(lia)) as K. rewrite Z0', Z1', !Z.add_0_l in K. exact (K O T).
    - unfold accumulate_prices. destruct (_ <=? _); [discriminate|]. destruct Q as [->| ->]; [discriminate|]. cbn [Z.eqb negb]. rewrite andb_false_r. discriminate. }
  cbn [step]. unfold provide. rewrite Z0', Z1', Sp. rewrite (proj2 (Z.leb_le 0 d0)), (proj2 (Z.leb_le 0 d1)) by lia. destruct (Z.eqb_spec d0 0) as [|_]; [lia|]. destruct (Z.eqb_spec d1 0) as [|_]; [lia|]. cbn [andb negb].
  rewrite Ea, CS. cbv zeta. assert (Gm : ((match min_lp with Some m => m | None => 0 end) <=? v - 1000) = true) by (apply Z.leb_le; destruct min_lp; lia). rewrite Gm.
  assert (N0 : add128 0 d0 = Some d0) by (apply add128_Some; lia). assert (N1 : add128 0 d1 = Some d1) by (apply add128_Some; lia). rewrite N0, N1.
  rewrite (W (if nat0 s then d0 else 0)), (W (if nat1 s then d1 else 0)) by (try assumption; try (destruct (nat0 s); lia); destruct (nat1 s); lia). fold u0 u1.
  specialize (Ac ((if nat0 s then d0 else 0) * u0) ((if nat1 s then d1 else 0) * u1)).
  assert (Q : accumulate_prices e s ((if nat0 s then d0 else 0) * u0) ((if nat1 s then d1 else 0) * u1) <> None) by (apply Ac; destruct (nat0 s), (nat1 s); auto).
  destruct (accumulate_prices _ _ _ _) as [c|]; [|contradiction]. do 2 eexists. split; [reflexivity|lia].
Qed.
Print Assumptions c145_first.

(** ** Cases *)

(** One and three tokens, of six decimals: adding one and two is worth two thirds of the supply at least, and can be
    asked for. *)
Example c145_example : let l := 666666666666666666 in let m := 2478517 in
  reachable ex_t /\ ordinary_pool ex_t /\ roomy ex_t 1000000 2000000 /\ init_t (amp ex_t) <= 1000 /\ 0 < supply ex_t <= 10 ^ (Z.max (p0 ex_t) (p1 ex_t) + 12) /\
  10 ^ 16 <= l /\ l * r0 ex_t <= 10 ^ 18 * 1000000 <= 10 ^ 18 * (999 * r0 ex_t) /\ l * r1 ex_t <= 10 ^ 18 * 2000000 <= 10 ^ 18 * (999 * r1 ex_t) /\
  10 ^ 28 * (m + 1) <= supply ex_t * (10 ^ 10 * l - (10 ^ 18 + l)) /\ supply ex_t = 3717778 /\
  exists s', step (ex_e 1000) (Provide 5 1000000 2000000 (Some m)) ex_t = Some (s', OProvide 2931760).
Proof.
  cbv zeta. split; [apply ex_reach; hist|]. do 9 (split; [vm_compute; intuition congruence|]). eexists. vm_compute. reflexivity.
Qed.
(** The first deposit of the pool above. *)
Example c145_first_example : reachable ex_s0 /\ ordinary (1000000 * 10 ^ 12) (3000000 * 10 ^ 12) /\
  exists s', step (ex_e 200) (Provide 1 1000000 3000000 (Some (10 ^ 6 - 1000))) ex_s0 = Some (s', OProvide 3716778).
Proof.
  split; [apply (ex_reach nil); constructor|]. split; [vm_compute; intuition congruence|]. eexists. vm_compute. reflexivity.
Qed.
