(** Swaps in an ordinary pool can always be computed, and are never for more than the other reserve. *)
From Coq Require Import ZArith Lia Bool List.
From Verif Require Import Num StableMath StableProofs StableAcc StableModel StableProps StableValueProps StableConv StableConv2 StableConv3 StableConv4.
Open Scope Z_scope.

Lemma d_facts a x y D : 100 <= a <= 100000000 -> ordinary x y -> compute_d a x y = Some D -> DEC <= D ->
  exists P, DEC * P <= 4 * x * y < DEC * P + DEC /\ D <= x + y + 13000000 /\ (x + y) ^ 2 <= 440000000 * D ^ 2 /\
    10 * D ^ 3 <= 11 * (P * lev a * (x + y)) /\ 0 < P.
Proof.
  intros Ha O HD Hd. pose proof O as (X & Y & _ & _ & Su). change (10 ^ 18) with DEC in X, Y. assert (HQ : DEC = 1000000000000000000) by reflexivity.
  destruct (c63_invariant a x y D ltac:(lia) ltac:(lia) ltac:(lia) HD Hd) as (P & HP & H1 & H2).
  destruct (ordinary_P x y P O HP) as (P1 & P2 & P3 & P4). pose proof (lev_range a Ha) as HL.
  set (s := x + y) in *. assert (Hs : 2 * DEC <= s <= 10 ^ 30) by (unfold s; lia). clearbody s. clear O. set (L := lev a) in *. clearbody L.
  exists P. split; [exact HP|]. clear HP X Y Su. assert (P0 : 0 < P) by lia.
  split; [|split; [|split; [|exact P0]]].
  - apply H2; [lia|]. unfold Gam. replace (s ^ 3 + P * ((L - DEC) * s - L * s)) with (s * (s ^ 2 - DEC * P)) by ring. apply Z.mul_nonneg_nonneg; lia.
  - set (w := Z.sqrt (DEC * P)). assert (QP0 : 0 <= DEC * P) by (apply Z.mul_nonneg_nonneg; lia).
    pose proof (Z.sqrt_spec (DEC * P) QP0) as W. cbv zeta in W. fold w in W. pose proof (Z.sqrt_nonneg (DEC * P)) as w0. fold w in w0. clearbody w.
    assert (W1 : w ^ 2 <= DEC * P < (w + 1) ^ 2) by (rewrite !Z.pow_2_r; lia).
    assert (ws : w <= s). { destruct (Z.le_gt_cases w s) as [|K]; [assumption|exfalso]. assert ((s + 1) ^ 2 <= w ^ 2) by (apply Z.pow_le_mono_l; lia). lia. }
    assert (wD : w - 1 <= D + 5).
    { destruct (Z.le_gt_cases w 0) as [|K]; [lia|]. apply H1. apply Z.lt_le_incl. apply (Gam_neg P L s w); try assumption; lia. }
    assert (A1 : (w + 1) ^ 2 <= (D + 7) ^ 2) by (apply Z.pow_le_mono_l; lia).
    assert (A2 : 10 * (D + 7) ^ 2 <= 11 * D ^ 2). { clear - Hd HQ. assert (DEC * D <= D ^ 2) by (rewrite Z.pow_2_r; apply Z.mul_le_mono_nonneg_r; lia). lia. }
    clear - P2 W1 A1 A2. lia.
  - assert (E0 : 0 <= D - 13000001) by lia. set (E := D - 13000001) in *.
    assert (G : Gam P L s E < 0). { destruct (Z.lt_ge_cases (Gam P L s E) 0) as [|N]; [assumption|]. specialize (H2 E E0 N). unfold E in H2. lia. }
    assert (G2 : E ^ 3 <= P * L * s).
    { unfold Gam in G. assert (0 <= P * ((L - DEC) * E)) by (repeat apply Z.mul_nonneg_nonneg; lia). clear - G H. lia. }
    assert (G3 : 10 * D ^ 3 <= 11 * E ^ 3).
    { assert (e1 : 10 ^ 17 <= E) by (unfold E; lia). replace D with (E + 13000001) by (unfold E; ring). clear - e1.
      assert (10 ^ 17 * E <= E * E) by (apply Z.mul_le_mono_nonneg_r; lia). assert (10 ^ 17 * (E * E) <= E * (E * E)) by (apply Z.mul_le_mono_nonneg_r; nia).
      replace ((E + 13000001) ^ 3) with (E * (E * E) + 39000003 * (E * E) + 3 * 13000001 ^ 2 * E + 13000001 ^ 3) by ring. replace (E ^ 3) with (E * (E * E)) by ring. lia. }
    clear - G2 G3. lia.
Qed.

Lemma y_raw_half a x' x y : 100 <= a <= 100000000 -> ordinary x y -> x <= 2 * x' \/ y <= 2 * x' -> DEC <= x' <= 2 * 10 ^ 30 -> exists r, y_raw a x' x y = Some r.
Proof.
  intros Ha O Hx' (X' & Hu). destruct (compute_d_some a x y Ha O) as (D & ED & HD). assert (HQ : DEC = 1000000000000000000) by reflexivity.
  destruct (d_facts a x y D Ha O ED HD) as (P & HP & D1 & D2 & D3 & P0). pose proof (lev_range a Ha) as HL.
  pose proof O as (X & Y & _ & _ & Su). change (10 ^ 18) with DEC in X, Y. clear O. assert (Dm : D <= 11 * 10 ^ 29) by lia.
  unfold y_raw. rewrite ED.
  assert (E1 : forall z, 0 <= z <= 10 ^ 9 -> dratio256 z 1 = Some (z * DEC)).
  { intros z Hz. apply dratio256_Some. rewrite Z.div_1_r. split; [discriminate|]. split; [reflexivity|unfold U256MAX; lia]. }
  assert (K : forall u k, 0 <= u <= 10 ^ 60 -> 0 <= k <= 10 ^ 9 -> dmul256 u (k * DEC) = Some (u * k)).
  { intros u k Hu' Hk. assert (0 <= u * k <= 10 ^ 60 * 10 ^ 9) by (split; [apply Z.mul_nonneg_nonneg; lia|apply Z.mul_le_mono_nonneg; lia]).
    rewrite dmul256_ok by (unfold U256MAX; rewrite Z.mul_assoc; lia). rewrite Z.mul_assoc, Z.div_mul by discriminate. reflexivity. }
  rewrite (E1 a) by lia. replace N_COINS with (2 * DEC) by reflexivity. rewrite (K (a * DEC) 2) by lia.
  rewrite (E1 AMP_PRECISION) by (unfold AMP_PRECISION; lia). unfold AMP_PRECISION.
  assert (D2m : 0 <= D * D <= 10 ^ 62) by (clear - HD Dm HQ; nia).
  assert (Q2 : 0 <= D * D / DEC <= 10 ^ 44). { split; [apply Z.div_pos; lia|]. apply Z.div_le_upper_bound; lia. }
  assert (D3m : 0 <= D * D / DEC * D <= 10 ^ 44 * (11 * 10 ^ 29)) by (split; [apply Z.mul_nonneg_nonneg; lia|apply Z.mul_le_mono_nonneg; lia]).
  assert (E4 : pow3 D = Some (D * D / DEC * D / DEC)).
  { unfold pow3. rewrite dmul256_ok by (unfold U256MAX; lia). apply dmul256_ok. unfold U256MAX. lia. }
  pose proof (pow3_bounds D _ ltac:(lia) E4) as (p0 & p1 & p2). rewrite E4. set (p := D * D / DEC * D / DEC) in *.
  assert (pm : p <= 11 * 10 ^ 56). { apply Z.div_le_upper_bound; [lia|]. lia. }
  clearbody p. clear E4 D2m Q2 D3m.
  rewrite (K p 100) by lia. rewrite (K (2 * DEC) 2) by lia. replace (2 * DEC * 2) with (4 * DEC) by ring. rewrite (K x' 4) by lia.
  replace (a * DEC * 2) with (2 * a * DEC) by ring. rewrite (K (x' * 4) (2 * a)) by lia.
  assert (Dn : 8 * 10 ^ 20 <= x' * 4 * (2 * a)). { assert (DEC * 100 <= x' * a) by (apply Z.mul_le_mono_nonneg; lia). lia. }
  rewrite ddiv256_ok by (unfold U256MAX; lia). set (c := p * 100 * DEC / (x' * 4 * (2 * a))).
  assert (c0 : 0 <= c) by (apply Z.div_pos; lia). pose proof (floor_bounds (p * 100 * DEC) (x' * 4 * (2 * a)) ltac:(lia)) as C1. fold c in C1. clearbody c.
  rewrite (K D 100) by lia. rewrite ddiv256_ok by (unfold U256MAX; lia). set (db := D * 100 * DEC / (2 * a * DEC)).
  assert (db0 : 0 <= db) by (apply Z.div_pos; lia). pose proof (floor_bounds (D * 100 * DEC) (2 * a * DEC) ltac:(lia)) as B1. fold db in B1. clearbody db.
  assert (dbm : db <= D).
  { apply Z.mul_le_mono_pos_l with (2 * a * DEC); [lia|]. assert (D * 100 * DEC <= D * (2 * a * DEC)) by (rewrite <- Z.mul_assoc; apply Z.mul_le_mono_nonneg_l; lia). lia. }
  assert (E9 : add256 x' db = Some (x' + db)) by (apply add256_Some; unfold U256MAX; lia). rewrite E9.
  assert (CO : coef_ok DEC (lev a) x' D (x' + db) c).
  { clear - HQ B1 C1 p0 p1 p2 Ha HD X'.
    unfold coef_ok. rewrite !Z.pow_2_r. replace (x' + db - x') with db by ring.
    unfold lev. remember DEC as Q eqn:EQ. assert (EQ' : Q = 50 * 20000000000000000) by (subst Q; reflexivity).
    remember 20000000000000000 as u. assert (U : 0 < u) by lia. clear Hequ EQ HQ.
    repeat split.
    - assert (db * a * 2 <= D * 100).
      { apply Z.mul_le_mono_pos_r with Q; [lia|]. clear - B1. lia. }
      assert (u * (db * a) <= u * (D * 50)) by (monol; lia). subst Q. lia.
    - assert (D * 100 < (db + 1) * a * 2).
      { apply Z.mul_lt_mono_pos_r with Q; [lia|]. clear - B1. lia. }
      assert (u * (D * 50) < u * ((db + 1) * a)) by (apply Z.mul_lt_mono_pos_l; lia). subst Q. lia.
    - assert (u * (x' * 4 * (2 * a) * c) <= u * (p * 100 * Q)) by (monol; lia). subst Q. lia.
    - assert (u * (p * 100 * Q) <= u * (x' * 4 * (2 * a) * c + x' * 4 * (2 * a))) by (monol; lia). subst Q. lia. }
  (* the constant term *)
  assert (C2 : c * DEC <= 22 * (x + y) ^ 2 / 10).
  { apply Z.div_le_lower_bound; [lia|]. destruct CO as (_ & C3 & _). set (L := lev a) in *. clearbody L.
    assert (F1 : 10 * (4 * x' * c) <= 11 * (P * (x + y))).
    { apply Z.mul_le_mono_pos_l with L; [clear - HL HQ; lia|]. clear - C3 D3. lia. }
    assert (F2 : 10 * (4 * x' * (c * DEC)) <= 11 * (4 * x * y * (x + y))).
    { assert (DEC * (10 * (4 * x' * c)) <= DEC * (11 * (P * (x + y)))) by (apply mulm; [exact F1|discriminate]).
      assert (DEC * P * (x + y) <= 4 * x * y * (x + y)) by (apply Z.mul_le_mono_nonneg_r; [clear - X Y HQ; lia|clear - HP; lia]). clear - H H0. lia. }
    set (C := c * DEC) in *. clearbody C. clear - F2 Hx' X Y HQ X'.
    assert (F3 : x' * (10 * C) <= 11 * (x * y * (x + y))) by lia. clear F2.
    apply Z.mul_le_mono_pos_l with x'; [lia|].
    assert (F4 : x * y <= 2 * x' * (x + y)).
    { destruct Hx' as [K|K]; [assert (x * y <= 2 * x' * y) by (apply Z.mul_le_mono_nonneg_r; lia)|assert (x * y <= x * (2 * x')) by (apply Z.mul_le_mono_nonneg_l; lia)].
      - assert (0 <= x' * x) by (apply Z.mul_nonneg_nonneg; lia). lia.
      - assert (0 <= x' * y) by (apply Z.mul_nonneg_nonneg; lia). lia. }
    assert (F5 : x * y * (x + y) <= 2 * x' * (x + y) * (x + y)) by (apply Z.mul_le_mono_nonneg_r; lia).
    rewrite Z.pow_2_r. lia. }
  pose proof (floor_bounds (22 * (x + y) ^ 2) 10 ltac:(lia)) as Fl. set (q := 22 * (x + y) ^ 2 / 10) in *. clearbody q.
  apply (y_start (lev a) x' D (x' + db) c HL); [clear - X' Hu; lia|clear - HD Dm; lia|exact CO|exact c0| |].
  - assert ((x + y) ^ 2 <= (10 ^ 30) ^ 2) by (apply Z.pow_le_mono_l; clear - X Y Su HQ; lia). clear - H Fl C2. lia.
  - assert (0 < D ^ 2) by (apply Z.pow_pos_nonneg; [clear - HD HQ; lia|discriminate]). clear - D2 Fl C2 H. lia.
Qed.

Lemma y_raw_some a x' x y : 100 <= a <= 100000000 -> ordinary x y -> x <= x' \/ y <= x' -> x' <= 2 * 10 ^ 30 -> exists r, y_raw a x' x y = Some r.
Proof. intros Ha O Hx' Hu. pose proof O as (X & Y & _). change (10 ^ 18) with DEC in X, Y. apply y_raw_half; [exact Ha|exact O| |]; unfold DEC in *; lia. Qed.

(** Paying in a whole token covers every rounding: the other reserve is not asked to grow. *)
Lemma offer_covers L x y D off : 2 * DEC <= L -> DEC <= x -> DEC <= y -> x <= 10 ^ 9 * y -> DEC <= D -> x <= 47000 * D -> DEC <= off ->
  0 < Hy L x (D - 13000001) y -> 0 <= Hy L (x + off) D (y - 1000001).
Proof.
  intros HL X Y XY HD XD HO H. assert (HQ : DEC = 1000000000000000000) by reflexivity. unfold Hy in *.
  set (E := D - 13000001) in *. assert (E1 : 10 ^ 17 <= E) by (unfold E; lia). assert (XE : x <= 94000 * E) by (unfold E; lia).
  set (W := L * (x + y) - (L - DEC) * E) in *. set (W' := L * (x + off + (y - 1000001)) - (L - DEC) * D).
  assert (WW : W <= W').
  { unfold W, W'. replace D with (E + 13000001) by (unfold E; ring). assert (L * 14000002 <= L * off) by (apply Z.mul_le_mono_nonneg_l; lia). clear - H0 HL HQ. lia. }
  clearbody W W'. assert (E3 : 0 < E ^ 3) by (apply Z.pow_pos_nonneg; lia). assert (xy : 0 < x * y) by (apply Z.mul_pos_pos; lia).
  assert (W0 : 0 < W). { destruct (Z.le_gt_cases W 0) as [N|]; [exfalso|assumption]. assert (x * y * W <= 0) by (apply Z.mul_nonneg_nonpos; lia). assert (0 < DEC * E ^ 3) by (apply Z.mul_pos_pos; lia). clear - H H0 H1. lia. }
  assert (A1 : y * (2 * x + off) <= 2 * ((x + off) * (y - 1000001))).
  { clear - X Y XY HO HQ. assert (K1 : DEC * y <= off * y) by (apply Z.mul_le_mono_nonneg_r; lia). assert (K2 : off * DEC <= off * y) by (apply Z.mul_le_mono_nonneg_l; lia). lia. }
  assert (A0 : 0 < y * (2 * x + off)) by (apply Z.mul_pos_pos; lia).
  assert (A2 : y * (2 * x + off) * W <= 2 * ((x + off) * (y - 1000001)) * W') by (apply Z.mul_le_mono_nonneg; lia).
  assert (A3 : DEC * E ^ 3 * (2 * x + off) <= 4 * x * y * W * (2 * x + off)) by (apply Z.mul_le_mono_nonneg_r; lia).
  assert (A4 : 2 * x * D ^ 3 <= E ^ 3 * (2 * x + off)).
  { replace D with (E + 13000001) by (unfold E; ring). clear - E1 XE X HO HQ.
    assert (K1 : 10 ^ 17 * E <= E * E) by (apply Z.mul_le_mono_nonneg_r; lia).
    assert (K2 : (E + 13000001) ^ 3 <= E ^ 3 + 52000004 * (E * E)).
    { replace ((E + 13000001) ^ 3) with (E ^ 3 + 39000003 * (E * E) + 3 * 13000001 ^ 2 * E + 13000001 ^ 3) by ring. lia. }
    assert (K3 : 2 * x * (E + 13000001) ^ 3 <= 2 * x * (E ^ 3 + 52000004 * (E * E))) by (apply mulm; lia).
    assert (K4 : 104000008 * x <= off * E). { assert (DEC * E <= off * E) by (apply Z.mul_le_mono_nonneg_r; lia). lia. }
    assert (K5 : 104000008 * x * (E * E) <= off * E * (E * E)) by (apply Z.mul_le_mono_nonneg_r; lia).
    replace (E ^ 3 * (2 * x + off)) with (2 * x * E ^ 3 + off * E * (E * E)) by ring. clear - K3 K5. lia. }
  assert (A5 : DEC * (2 * x * D ^ 3) <= DEC * (E ^ 3 * (2 * x + off))) by (apply mulm; lia).
  apply Z.mul_le_mono_pos_l with (2 * x); [lia|].
  assert (A6 : 4 * x * (y * (2 * x + off) * W) <= 4 * x * (2 * ((x + off) * (y - 1000001)) * W')) by (apply mulm; lia).
  clear - A3 A5 A6. lia.
Qed.

Lemma Hy_sym L x D y : Hy L x D y = Hy L y D x. Proof. unfold Hy. ring. Qed.
Lemma compute_d_range a x y D : 100 <= a <= 100000000 -> ordinary x y -> compute_d a x y = Some D -> DEC <= D /\ x <= 47000 * D /\ y <= 47000 * D.
Proof.
  intros Ha O HD. destruct (compute_d_some a x y Ha O) as (D' & ED & Hd). rewrite HD in ED. injection ED as <-. split; [exact Hd|].
  destruct (d_facts a x y D Ha O HD Hd) as (P & _ & _ & D2 & _). pose proof O as (X & Y & _). change (10 ^ 18) with DEC in X, Y. assert (HQ : DEC = 1000000000000000000) by reflexivity.
  assert (x + y <= 47000 * D); [|lia]. destruct (Z.le_gt_cases (x + y) (47000 * D)) as [|K]; [assumption|exfalso].
  assert ((47000 * D) ^ 2 < (x + y) ^ 2) by (apply Z.pow_lt_mono_l; lia). assert (0 < D ^ 2) by (apply Z.pow_pos_nonneg; lia). clear - D2 H H0. lia.
Qed.
Lemma swap_some a off (one : bool) x y p : 100 <= a <= 100000000 -> ordinary x y -> DEC <= off <= 10 ^ 30 -> 0 <= p <= 18 ->
  (if one then x else y) / 10 ^ (18 - p) <= U128MAX -> off / 10 ^ (18 - p) <= U128MAX ->
  exists g sp, compute_swap a off (if one then y else x) (if one then x else y) x y p = Some (g, sp) /\ 0 <= g <= (if one then x else y) / 10 ^ (18 - p).
Proof.
  intros Ha O HO Hp Um Uo. assert (HQ : DEC = 1000000000000000000) by reflexivity.
  pose proof O as (X & Y & XY & YX & Su). change (10 ^ 18) with DEC in X, Y.
  set (op := if one then y else x) in *. set (ap := if one then x else y) in *.
  assert (Hop : DEC <= op /\ op <= 10 ^ 30 /\ (x <= op \/ y <= op) /\ op <= 10 ^ 9 * ap /\ DEC <= ap) by (unfold op, ap; destruct one; lia). destruct Hop as (O1 & O2 & O3 & O4 & A1).
  destruct (y_raw_some a (op + off) x y Ha O ltac:(lia) ltac:(lia)) as (r & Er).
  assert (R : 0 <= r <= ap).
  { destruct (compute_d_some a x y Ha O) as (D & ED & Hd). destruct (compute_d_range a x y D Ha O ED) as (_ & XD & YD).
    destruct (y_raw_inv a (op + off) x y r ltac:(lia) ltac:(lia) ltac:(lia) ltac:(lia) Er) as (D' & b & c & yl & ED' & _ & _ & _ & R0 & _).
    split; [exact R0|]. destruct (Z.le_gt_cases DEC r) as [K|K]; [|lia].
    destruct (c63_reserve a (op + off) x y D r (D + DEC) ltac:(lia) ltac:(lia) ltac:(lia) ltac:(lia) ED Er K ltac:(lia)) as (_ & B).
    { assert ((D + DEC) * 1 <= (D + DEC) * (op + off)) by (apply Z.mul_le_mono_nonneg_l; lia). lia. }
    assert (H0 : 0 <= Hy (lev a) (op + off) D (ap - 1000001)).
    { apply offer_covers; try lia; [unfold lev; lia|unfold op; destruct one; assumption|].
      pose proof (computed_high a x y D ltac:(lia) ltac:(lia) ltac:(lia) ED Hd) as K2. unfold op, ap. destruct one; [rewrite Hy_sym|]; exact K2. }
    specialize (B (ap - 1000001) ltac:(lia) H0). lia. }
  unfold compute_swap. assert (E1 : add256 op off = Some (op + off)) by (apply add256_Some; unfold U256MAX; lia). rewrite E1. unfold calc_y. rewrite Er.
  unfold to_prec. rewrite (proj2 (Z.leb_le 0 p)), (proj2 (Z.leb_le p 18)) by lia. cbn [andb].
  assert (T : 0 < 10 ^ (18 - p)) by (apply Z.pow_pos_nonneg; lia). set (t := 10 ^ (18 - p)) in *. clearbody t.
  assert (M : 0 <= r / t <= ap / t) by (split; [apply Z.div_pos; lia|apply Z.div_le_mono; lia]).
  assert (V1 : u128 (r / t) = Some (r / t)) by (apply u128_Some; lia). assert (V2 : u128 (ap / t) = Some (ap / t)) by (apply u128_Some; lia).
  assert (V3 : u128 (off / t) = Some (off / t)) by (apply u128_Some; split; [reflexivity|]; split; [apply Z.div_pos; lia|exact Uo]).
  assert (V4 : sub128 (ap / t) (r / t) = Some (ap / t - r / t)) by (apply sub128_Some; lia).
  rewrite V1, V2, V4, V3. do 2 eexists. split; [reflexivity|]. lia.
Qed.
