(** Swaps in an ordinary pool can always be computed. *)
From Coq Require Import ZArith Lia Bool List.
From Verif Require Import Num StableMath StableProofs StableAcc StableConv StableConv2 StableConv3.
Open Scope Z_scope.

(** The discriminant is not small. *)
Lemma sigma_low L x D b c : 2 * DEC <= L <= 2000000 * DEC -> DEC <= x -> DEC <= D -> coef_ok DEC L x D b c -> 0 <= c ->
  let sg := Z.sqrt ((b - D) ^ 2 + 4 * (c * DEC)) in
  sg ^ 2 <= (b - D) ^ 2 + 4 * (c * DEC) < (sg + 1) ^ 2 /\ b - D <= sg /\ D <= 3000000 * sg /\ 0 <= sg.
Proof.
  intros HL Hx HD ((C1 & C2) & C3 & C4) Hc sg. assert (HQ : DEC = 1000000000000000000) by reflexivity.
  set (be := b - D) in *. set (C := c * DEC) in *. assert (C0 : 0 <= C) by (unfold C; apply Z.mul_nonneg_nonneg; lia).
  pose proof (sq_nonneg be) as B0. pose proof (Z.sqrt_spec (be ^ 2 + 4 * C) ltac:(lia)) as S0. cbv zeta in S0. fold sg in S0.
  pose proof (Z.sqrt_nonneg (be ^ 2 + 4 * C)) as S1. fold sg in S1. clearbody sg.
  assert (S2 : sg ^ 2 <= be ^ 2 + 4 * C < (sg + 1) ^ 2) by (rewrite !Z.pow_2_r in *; lia).
  split; [exact S2|].
  assert (Bs : be <= sg). { destruct (Z.le_gt_cases be sg) as [|K]; [assumption|exfalso]. assert ((sg + 1) ^ 2 <= be ^ 2) by (apply Z.pow_le_mono_l; lia). lia. }
  split; [exact Bs|]. split; [|exact S1].
  destruct (Z.le_gt_cases x D) as [K|K].
  - assert (A1 : DEC * D ^ 3 < 4 * x * L * C + DEC * (DEC * D + DEC ^ 2 + 4 * x * L)).
    { assert (DEC * D ^ 3 < DEC * (4 * x * L * c + DEC * D + DEC ^ 2 + 4 * x * L)) by (apply Z.mul_lt_mono_pos_l; [lia|exact C4]). unfold C. lia. }
    assert (A2 : x * L <= D * (2000000 * DEC)) by (apply Z.mul_le_mono_nonneg; lia).
    assert (A3 : x * L * (4 * C + 4 * DEC) <= D * (2000000 * DEC) * (4 * C + 4 * DEC)) by (apply Z.mul_le_mono_nonneg_r; lia).
    assert (A4 : DEC * (D * D ^ 2) < DEC * (D * (2000000 * (4 * C + 4 * DEC) + 2 * DEC))).
    { assert (DEC ^ 2 <= DEC * D) by (rewrite Z.pow_2_r; apply Z.mul_le_mono_nonneg_l; lia).
      assert (DEC * DEC ^ 2 <= DEC * (DEC * D)) by (apply Z.mul_le_mono_nonneg_l; lia). lia. }
    apply Z.mul_lt_mono_pos_l in A4; [|lia]. apply Z.mul_lt_mono_pos_l in A4; [|lia].
    assert (A5 : DEC * D <= D ^ 2) by (rewrite Z.pow_2_r; apply Z.mul_le_mono_nonneg_r; lia).
    assert (A6 : D ^ 2 <= 3000000 * (4 * C)) by lia.
    destruct (Z.le_gt_cases D (3000000 * sg)) as [|N]; [assumption|exfalso].
    assert (A7 : D ^ 2 < 3000000 * (sg + 1) ^ 2) by lia.
    assert (A8 : (3000000 * sg + 1) ^ 2 <= D ^ 2) by (apply Z.pow_le_mono_l; lia).
    destruct (Z.eq_dec sg 0) as [Z1|N1]; [rewrite Z1 in A7; rewrite HQ in HD; assert (10 ^ 18 * 10 ^ 18 <= D ^ 2) by (rewrite Z.pow_2_r; apply Z.mul_le_mono_nonneg; lia); lia|].
    rewrite !Z.pow_2_r in *. clear - A7 A8 S1 N1. nia.
  - assert (A1 : DEC * D < 2000000 * DEC * (b - x + 1)).
    { assert (0 <= b - x). { destruct (Z.le_gt_cases 0 (b - x)) as [|W]; [assumption|exfalso].
        assert (L * (b - x + 1) <= L * 0) by (apply Z.mul_le_mono_nonneg_l; lia). assert (0 < DEC * D) by (apply Z.mul_pos_pos; lia). lia. }
      assert (L * (b - x + 1) <= 2000000 * DEC * (b - x + 1)) by (apply Z.mul_le_mono_nonneg_r; lia). lia. }
    replace (2000000 * DEC * (b - x + 1)) with (DEC * (2000000 * (b - x + 1))) in A1 by ring. apply Z.mul_lt_mono_pos_l in A1; [|lia].
    unfold be in Bs. lia.
Qed.

Ltac flat t := t; repeat match goal with H : ?P |- _ => match P with context [_ ^ 2] => clear H | context [_ ^ 3] => clear H end end; lia.
Tactic Notation "flat" tactic3(t) := flat t.

(** The potential after the first step, the other reserve not exceeding the invariant. *)
Lemma pot_a D sg m r be G : DEC <= D <= 11 * 10 ^ 29 -> D <= 3000000 * sg -> be <= sg -> 0 <= r -> r <= 2 * D -> 0 <= G ->
  G <= ETA * (2 * D + be) + (r + ETA - D) ^ 2 -> 0 <= 2 * (r + ETA) + be -> sg ^ 2 <= 5 * m ^ 2 ->
  G * (2 * (r + ETA) + be) <= 18 * 10 ^ 48 * (4 * m ^ 2).
Proof.
  intros HD S3 S2 R0 R2 G0 G2 G1 Ms. assert (HQ : DEC = 1000000000000000000) by reflexivity. assert (HE : ETA = 10000001) by reflexivity.
  assert (Sq : (r + ETA - D) ^ 2 <= (D + ETA) ^ 2).
      { clear - R0 R2 HE HD HQ. assert (0 <= (D + ETA - (r + ETA - D)) * (D + ETA + (r + ETA - D))) by (apply Z.mul_nonneg_nonneg; lia). lia. }
      assert (Gs : G <= 8000000 * (D * sg)).
      { assert (A1 : ETA * (2 * D + be) <= ETA * (6000001 * sg)) by (flat apply Z.mul_le_mono_nonneg_l).
        assert (A2 : (D + ETA) ^ 2 <= 2 * D ^ 2) by (rewrite HE; clear - HD HQ; nia).
        assert (A3 : D * D <= D * (3000000 * sg)) by (flat apply Z.mul_le_mono_nonneg_l).
        assert (A4 : DEC * sg <= D * sg) by (flat apply Z.mul_le_mono_nonneg_r). clear - A1 A2 A3 A4 G2 Sq HE HQ HD S3. rewrite HE in *. lia. }
      assert (Gp : 2 * (r + ETA) + be <= 20000000 * sg) by (clear - R2 HE S3 S2 HD HQ; lia).
      apply Z.le_trans with (8000000 * (D * sg) * (20000000 * sg)); [apply Z.mul_le_mono_nonneg; lia|].
      replace (8000000 * (D * sg) * (20000000 * sg)) with (160000000000000 * D * sg ^ 2) by ring.
      apply Z.le_trans with (160000000000000 * (11 * 10 ^ 29) * (5 * m ^ 2)); [|lia]. apply Z.mul_le_mono_nonneg; lia.
Qed.

(** The same, the other reserve exceeding it. *)
Lemma pot_b D sg m r be C G : DEC <= D <= 11 * 10 ^ 29 -> be <= 0 -> 0 <= 2 * D + be -> 0 <= r -> D ^ 2 < C -> C <= 3 * 10 ^ 9 * D ^ 2 -> D * r <= D ^ 2 + C -> 0 <= G ->
  G <= ETA * (2 * D + be) + (r + ETA - D) ^ 2 -> 0 <= 2 * (r + ETA) + be -> 4 * C < (sg + 1) ^ 2 -> 100 * (sg + 1) ^ 2 <= 404 * m ^ 2 ->
  G * (2 * (r + ETA) + be) <= 18 * 10 ^ 48 * (4 * m ^ 2).
Proof.
  intros HD B0 B9 R0 KC HC Rb G0 G2 G1 S1 Ms2. assert (HQ : DEC = 1000000000000000000) by reflexivity. assert (HE : ETA = 10000001) by reflexivity.
  assert (D2 : 0 < D ^ 2) by (apply Z.pow_pos_nonneg; lia). assert (C0 : 0 < C) by lia.
  assert (DD : DEC * D <= D ^ 2) by (rewrite Z.pow_2_r; flat apply Z.mul_le_mono_nonneg_r).
      assert (CD : DEC * D <= C) by lia.
      assert (A1 : 100 * (D * (r + ETA - D)) <= 101 * C).
      { assert (100 * ETA * D <= DEC * D) by (apply Z.mul_le_mono_nonneg_r; lia). rewrite Z.pow_2_r in Rb. lia. }
      assert (A2 : - (101 * C) <= 100 * (D * (r + ETA - D))).
      { assert (0 <= D * (r + ETA)) by (apply Z.mul_nonneg_nonneg; lia). rewrite Z.pow_2_r in *. lia. }
      assert (A3 : (100 * (D * (r + ETA - D))) ^ 2 <= (101 * C) ^ 2).
      { set (z := 100 * (D * (r + ETA - D))) in *. clearbody z. assert (0 <= (101 * C - z) * (101 * C + z)) by (apply Z.mul_nonneg_nonneg; lia). lia. }
      assert (A4 : 100 * (ETA * (2 * D + be) * D ^ 2) <= C ^ 2).
      { assert (E1 : 100 * (ETA * (2 * D + be)) <= C) by (clear - HE HQ HD CD B0; rewrite HE, HQ in *; lia).
        assert (E2 : 100 * (ETA * (2 * D + be)) * D ^ 2 <= C * D ^ 2) by (apply Z.mul_le_mono_nonneg_r; [clear - D2; lia|exact E1]).
        assert (E3 : C * D ^ 2 <= C * C) by (apply Z.mul_le_mono_nonneg_l; [clear - C0; lia|clear - KC; lia]). clear - E2 E3. rewrite (Z.pow_2_r C). lia. }
      assert (A5 : 20 * (D ^ 2 * G) <= 21 * C ^ 2).
      { assert (E1 : D ^ 2 * G <= D ^ 2 * (ETA * (2 * D + be) + (r + ETA - D) ^ 2)) by (apply mulm; [exact G2|clear - D2; lia]). clear - E1 A3 A4 C0.
        assert (0 <= C ^ 2) by apply sq_nonneg. lia. }
      assert (A6 : 10 * (D * (2 * (r + ETA) + be)) <= 41 * C).
      { clear - HD HQ HE B0 Rb KC CD. assert (E1 : D * be <= D * 0) by (apply mulm; lia). assert (100 * ETA * D <= DEC * D) by (flat apply Z.mul_le_mono_nonneg_r). clear HD HE HQ. lia. }
      set (g := 2 * (r + ETA) + be) in *. clearbody g.
      assert (A7 : 20 * (D ^ 2 * G) * (10 * (D * g)) <= 21 * C ^ 2 * (41 * C)).
      { assert (0 <= D ^ 2 * G) by (apply Z.mul_nonneg_nonneg; [clear - D2; lia|exact G0]). assert (0 <= D * g) by (apply Z.mul_nonneg_nonneg; [clear - HD HQ; lia|exact G1]). 
        apply Z.mul_le_mono_nonneg; [clear - H; lia|exact A5|clear - H0; lia|exact A6]. }
      clear A1 A2 A3 A4 A5 A6 Rb G2.
      assert (A8 : C * C <= 3 * 10 ^ 9 * D ^ 2 * (3 * 10 ^ 9 * D ^ 2)) by (apply Z.mul_le_mono_nonneg; lia).
      assert (A9 : C * (C * C) <= C * (3 * 10 ^ 9 * D ^ 2 * (3 * 10 ^ 9 * D ^ 2))) by (apply mulm; lia).
      assert (B1 : D ^ 3 * (200 * (G * g)) <= D ^ 3 * (861 * (9 * 10 ^ 18) * (D * C))).
      { replace (D ^ 3 * (200 * (G * g))) with (20 * (D ^ 2 * G) * (10 * (D * g))) by ring. 
        replace (D ^ 3 * (861 * (9 * 10 ^ 18) * (D * C))) with (861 * (C * (3 * 10 ^ 9 * D ^ 2 * (3 * 10 ^ 9 * D ^ 2)))) by ring. 
        replace (21 * C ^ 2 * (41 * C)) with (861 * (C * (C * C))) in A7 by ring. clear - A7 A9. lia. }
      apply Z.mul_le_mono_pos_l in B1; [|apply Z.pow_pos_nonneg; lia].
      assert (B2 : D * C <= 11 * 10 ^ 29 * C) by (apply Z.mul_le_mono_nonneg_r; lia).
      clear - B1 B2 Ms2 S1. lia.
Qed.

Lemma y_start L x D b c : 2 * DEC <= L <= 2000000 * DEC -> DEC <= x <= 2 * 10 ^ 30 -> DEC <= D <= 11 * 10 ^ 29 -> coef_ok DEC L x D b c -> 0 <= c -> c * DEC <= 3 * 10 ^ 60 ->
  c * DEC <= 3 * 10 ^ 9 * D ^ 2 -> exists r, y_loop ITERATIONS b c D D = Some r.
Proof.
  intros HL Hx HD CO Hc0 Hc1 HC. assert (Hc : 0 <= c <= 10 ^ 45) by (unfold DEC in *; lia). assert (HQ : DEC = 1000000000000000000) by reflexivity. assert (HE : ETA = 10000001) by reflexivity.
  destruct (sigma_low L x D b c HL ltac:(lia) ltac:(lia) CO ltac:(lia)) as (S1 & S2 & S3 & S0). cbv zeta in *.
  set (sg := Z.sqrt ((b - D) ^ 2 + 4 * (c * DEC))) in *. clearbody sg. destruct CO as ((C1 & C2) & C3 & C4).
  set (be := b - D) in *. set (m := sg / 2). assert (M : 2 * m <= sg <= 2 * m + 1) by (unfold m; pose proof (floor_bounds sg 2 ltac:(lia)); lia). clearbody m.
  assert (Bx : x <= b).
  { destruct (Z.le_gt_cases x b) as [|W]; [assumption|exfalso].
    assert (L * (b - x + 1) <= L * 0) by (apply Z.mul_le_mono_nonneg_l; lia). assert (0 < DEC * D) by (apply Z.mul_pos_pos; lia). lia. }
  assert (Bu : b <= x + D).
  { destruct (Z.le_gt_cases b (x + D)) as [|W]; [assumption|exfalso].
    assert (L * D <= L * (b - x)) by (apply Z.mul_le_mono_nonneg_l; lia). assert (2 * DEC * D <= L * D) by (apply Z.mul_le_mono_nonneg_r; lia). lia. }
  assert (m2 : 4 * m ^ 2 <= be ^ 2 + 4 * (c * DEC)).
  { assert ((2 * m) ^ 2 <= sg ^ 2) by (apply Z.pow_le_mono_l; lia). lia. }
  assert (Hm : DEC <= 10000000 * m) by lia.
  change ITERATIONS with (Datatypes.S 63). remember 63%nat as k eqn:Ek0. assert (Ek : exists _ : unit, k = 63%nat) by (exists tt; exact Ek0). clear Ek0. cbn [y_loop].
  destruct (y_round_some b c D D ltac:(lia) ltac:(lia) ltac:(lia) ltac:(lia) ltac:(lia)) as (y2 & r & E1 & E2 & E3 & E4 & E5 & E6 & R0 & Lo & Hi).
  rewrite E1, E2, E3, E4, E5, E6. clear E1 E2 E3 E4 E5 E6.
  destruct (Z.abs (r - D) <=? TOL); [eexists; reflexivity|].
  replace (2 * D + b - D) with (2 * D + be) in Lo, Hi by (unfold be; ring).
  set (C := c * DEC) in *. assert (C0 : 0 <= C) by (unfold C; apply Z.mul_nonneg_nonneg; lia).
  destruct (y_step be C D r m Hm m2 ltac:(unfold be; lia) Lo Hi) as (G0 & G1 & G2 & _).
  assert (Rb : D * r <= D ^ 2 + C).
  { assert (K : D * r <= (2 * D + be) * r) by (apply Z.mul_le_mono_nonneg_r; [exact R0|unfold be; clear - Bx Hx HQ; lia]). clear - K Hi. lia. }
  assert (D2 : 0 < D ^ 2) by (apply Z.pow_pos_nonneg; [clear - HD HQ; lia|discriminate]).
  assert (DD : DEC * D <= D ^ 2) by (rewrite Z.pow_2_r; apply Z.mul_le_mono_nonneg_r; clear - HD HQ; lia).
  assert (Ru : r <= 10 ^ 35 * 2).
  { assert (CC : C <= 10 ^ 35 * D).
    { destruct (Z.le_gt_cases C (10 ^ 35 * D)) as [|K]; [assumption|exfalso].
      assert (K1 : (10 ^ 35 * D) ^ 2 <= C ^ 2) by (apply Z.pow_le_mono_l; clear - K HD HQ; lia).
      assert (K2 : C * C <= 3 * 10 ^ 60 * (3 * 10 ^ 9 * D ^ 2)) by (apply Z.mul_le_mono_nonneg; assumption).
      clear - K1 K2 D2. rewrite (Z.pow_2_r C) in K1. lia. }
    apply Z.mul_le_mono_pos_l with D; [clear - HD HQ; lia|]. clear - Rb CC HD HQ.
    assert (D * D <= D * (11 * 10 ^ 29)) by (apply mulm; lia). rewrite (Z.pow_2_r D) in Rb. lia. }
  assert (Pot : 100 ^ 62 * (Gq be C (r + ETA) * (2 * (r + ETA) + be)) < 399 ^ 62 * (4 * m ^ 2 * TOL)).
  { assert (N : 0 <= 100 ^ 62 /\ 100 ^ 62 * (18 * 10 ^ 48) < 399 ^ 62 * TOL) by (split; vm_compute; [discriminate|reflexivity]).
    assert (M2 : 0 < 4 * m ^ 2) by (assert (0 < m ^ 2) by (apply Z.pow_pos_nonneg; clear - Hm HQ; lia); clear - H; lia).
    cut (Gq be C (r + ETA) * (2 * (r + ETA) + be) <= 18 * 10 ^ 48 * (4 * m ^ 2)).
    { clear - N M2. set (u := Gq be C (r + ETA) * (2 * (r + ETA) + be)). set (w := 4 * m ^ 2) in *. clearbody u w. set (z := 18 * 10 ^ 48) in *. clearbody z.
      generalize dependent (100 ^ 62). generalize (399 ^ 62). intros n9 n1 (N0 & N1) H.
      apply Z.le_lt_trans with (n1 * (z * w)); [apply mulm; lia|]. replace (n9 * (w * TOL)) with (n9 * TOL * w) by ring. rewrite Z.mul_assoc. apply Z.mul_lt_mono_pos_r; assumption. }
    clear N. assert (m11 : 10 ^ 11 <= m) by (clear - Hm HQ; lia).
    assert (Ms : sg ^ 2 <= 5 * m ^ 2 /\ 100 * (sg + 1) ^ 2 <= 404 * m ^ 2).
    { assert (P1 : sg ^ 2 <= (2 * m + 1) ^ 2) by (apply Z.pow_le_mono_l; lia). assert (P2 : (sg + 1) ^ 2 <= (2 * m + 2) ^ 2) by (apply Z.pow_le_mono_l; lia).
      assert (P3 : 10 ^ 11 * m <= m ^ 2) by (rewrite Z.pow_2_r; apply Z.mul_le_mono_nonneg_r; lia).
      clear - P1 P2 P3 m11. lia. }
    destruct Ms as (Ms & Ms2). clear Lo Hi C2 C4 Hc Hc0 Hc1.
    destruct (Z.le_gt_cases C (D ^ 2)) as [KC|KC].
    - apply (pot_a D sg); try assumption; [|clear - G1 m11; lia].
      apply Z.mul_le_mono_pos_l with D; [clear - HD HQ; lia|]. clear - Rb KC. replace (D * (2 * D)) with (2 * D ^ 2) by ring. lia.
    - (* the offered reserve is scarce *)
      assert (Xs : 8 * x <= D).
      { assert (A1 : 4 * x * L * C <= DEC * D ^ 3). { assert (DEC * (4 * x * L * c) <= DEC * D ^ 3) by (apply mulm; lia). unfold C. lia. }
        assert (A2 : 4 * x * L * D ^ 2 <= 4 * x * L * C) by (apply Z.mul_le_mono_nonneg_l; [repeat apply Z.mul_nonneg_nonneg; lia|lia]).
        assert (A3 : 4 * x * (2 * DEC) <= 4 * x * L) by (apply Z.mul_le_mono_nonneg_l; lia).
        assert (A4 : 4 * x * (2 * DEC) * D ^ 2 <= 4 * x * L * D ^ 2) by (apply Z.mul_le_mono_nonneg_r; lia).
        apply Z.mul_le_mono_pos_r with (DEC * D ^ 2); [apply Z.mul_pos_pos; lia|]. replace (D * (DEC * D ^ 2)) with (DEC * D ^ 3) by ring. lia. }
      assert (B0 : be <= 0).
      { assert (2 * (b - x) <= D).
        { apply Z.mul_le_mono_pos_l with DEC; [lia|]. assert (2 * DEC * (b - x) <= L * (b - x)) by (apply Z.mul_le_mono_nonneg_r; lia). lia. }
        unfold be. lia. }
      apply (pot_b D sg m r be C); try assumption; [unfold be; clear - HD HQ Bx Hx; lia|clear - G1 m11; lia|].
      pose proof (sq_nonneg be) as be2. clear - S1 be2. lia. }
  destruct Ek as (_ & ->). apply (y_loop_some b c D m); [clear - Hc; lia|clear - Bx Bu Hx HD HQ; lia|clear - HD HQ; lia|exact Hm|exact m2|split; [exact R0|clear - Ru HD; lia]|exact G0|exact G1|exact Pot].
Qed.
