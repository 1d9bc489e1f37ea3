(** Proofs about the observe query (binary search on a rotated buffer). *)
From Coq Require Import ZArith Lia Bool List.
From Verif Require Import Num Amap BufferModel BufferProofs ObservationModel ObservationSpec ObservationProofs.
Import ListNotations.
Open Scope Z_scope.

Lemma increasing_nth l : increasing l -> forall i j x y, (i < j)%nat ->
  nth_error l i = Some x -> nth_error l j = Some y -> ts x < ts y.
Proof.
  induction l as [|a l IH]; simpl; intros I i j x y H Hi Hj; [destruct i; discriminate|].
  destruct I as [F I]. destruct j as [|j]; [lia|]. simpl in Hj. destruct i as [|i]; simpl in Hi.
  - injection Hi as <-. apply nth_error_In in Hj. rewrite Forall_forall in F. auto.
  - apply (IH I i j); auto; lia.
Qed.
Lemma adjacent_nth {A} (l : list A) i x y :
  nth_error l i = Some x -> nth_error l (S i) = Some y -> adjacent l x y.
Proof.
  intros Hx Hy. apply nth_error_split in Hx as (a & r & -> & La).
  rewrite nth_error_app2 in Hy by lia. replace (S i - length a)%nat with 1%nat in Hy by lia.
  simpl in Hy. destruct r as [|y' r]; [discriminate|]. simpl in Hy. injection Hy as <-. exists a, r. auto.
Qed.
Lemma nth_error_lastn {A} (l : list A) n i : 0 <= n ->
  nth_error (lastn n l) i = nth_error l (length l - Z.to_nat n + i)%nat.
Proof.
  intros _. unfold lastn. generalize (length l - Z.to_nat n)%nat as k. intros k. revert k.
  induction l as [|a l IH]; intros [|k]; simpl; auto. destruct i; auto.
Qed.

Section Search.
Context (cap : Z) (l : list obs) (b : store obs) (C : cap_ok cap) (R : rep cap l b).
Let n := Z.of_nat (length l).
(** Index [i] of the rotated view corresponds to log position [off + i]. *)
Context (off : Z) (Hoff : off mod cap = 0).
Let g (i : Z) : option obs := nth_error l (Z.to_nat (off + i)).

Lemma read_at i : 0 <= off + i -> n - cap <= off + i < n -> read_single b i = Some (g i).
Proof.
  intros H0 Hi. destruct C. rewrite (read_single_rep cap l b _ ltac:(lia) R). f_equal. unfold g.
  rewrite <- (content_recent cap l (Z.to_nat (off + i))) by (fold n; lia).
  f_equal. rewrite Z2Nat.id by lia. rewrite <- Zplus_mod_idemp_l, Hoff. f_equal.
Qed.

Lemma bsearch_ok (I : increasing l) target lo hi :
  0 <= lo -> hi < 2 * cap -> 0 <= off + lo -> n - cap <= off + lo -> off + hi = n - 1 ->
  forall fuel start fin xs xe,
  lo <= start -> start <= fin -> fin <= hi -> (Z.to_nat (fin - start) < fuel)%nat ->
  g start = Some xs -> ts xs <= target ->
  ((start < fin /\ g fin = Some xe) \/ (fin < hi /\ g (fin + 1) = Some xe)) -> target < ts xe ->
  exists i x y, lo <= i /\ i < hi /\ g i = Some x /\ g (i + 1) = Some y /\
    ts x <= target <= ts y /\ bsearch fuel b target start fin = Some (x, y).
Proof.
  intros Hlo Hhi Ho1 Ho2 Ho3. destruct C as [C1 C2].
  induction fuel as [|fuel IH]; intros start fin xs xe H1 H2 H3 HF Gs Ts Ge Te; [lia|].
  assert (G : forall i, lo <= i <= hi -> exists x, g i = Some x).
  { intros i Hi. unfold g. destruct (nth_error l (Z.to_nat (off + i))) eqn:E; eauto.
    apply nth_error_None in E. unfold n in *. lia. }
  assert (M : forall i j x y, lo <= i -> i < j -> j <= hi -> g i = Some x -> g j = Some y -> ts x < ts y).
  { intros i j x y Q1 Q2 Q3 Gi Gj. apply (increasing_nth l I (Z.to_nat (off + i)) (Z.to_nat (off + j))); auto. lia. }
  cbn [bsearch]. unfold u32 at 1. rewrite (proj2 (fits_iff U32MAX _)) by lia.
  set (mid := (start + fin) / 2). cbn zeta.
  assert (Hm : start <= mid <= fin).
  { unfold mid. split; [apply Z.div_le_lower_bound; lia|]. apply Z.div_le_upper_bound; lia. }
  assert (Hm' : mid < hi).
  { destruct Ge as [[Q _]|[Q _]]; [|lia]. assert (mid < fin) by (apply Z.div_lt_upper_bound; lia). lia. }
  destruct (G mid) as (x & Gx); [lia|]. destruct (G (mid + 1)) as (y & Gy); [lia|].
  rewrite (read_at mid) by lia. rewrite Gx. unfold u32 at 1. rewrite (proj2 (fits_iff U32MAX _)) by lia.
  rewrite (read_at (mid + 1)) by lia. rewrite Gy.
  destruct (Z.leb_spec (ts x) target) as [A|A]; destruct (Z.leb_spec target (ts y)) as [B|B]; simpl andb; cbn iota.
  - exists mid, x, y. repeat split; auto; lia.
  - destruct (Z.ltb_spec target (ts x)); [lia|].
    assert (Z1 : mid + 1 <= fin).
    { destruct Ge as [[Q Ge]|[Q Ge]].
      - assert (mid < fin) by (apply Z.div_lt_upper_bound; lia). lia.
      - destruct (Z.eq_dec mid fin) as [->|]; [|lia]. rewrite Ge in Gy. injection Gy as <-. lia. }
    apply (IH (mid + 1) fin y xe); auto; try lia.
    destruct Ge as [[Q Ge]|[Q Ge]]; [|right; auto].
    destruct (Z.eq_dec (mid + 1) fin) as [Ef|]; [|left; split; [lia|auto]].
    exfalso. rewrite Ef in Gy. rewrite Ge in Gy. injection Gy as <-. lia.
  - destruct (Z.ltb_spec target (ts x)); [|lia].
    assert (start < mid). { destruct (Z.eq_dec start mid) as [<-|]; [|lia]. rewrite Gs in Gx. injection Gx as <-. lia. }
    unfold u32 at 1. rewrite (proj2 (fits_iff U32MAX _)) by lia.
    apply (IH start (mid - 1) xs x); auto; try lia. right. split; [lia|]. replace (mid - 1 + 1) with mid by lia. auto.
  - assert (ts x < ts y) by (apply (M mid (mid + 1)); auto; lia). lia.
Qed.
End Search.

(** Linear interpolation between two observations, exact up to rounding. *)
Lemma interpolate_ok x y t :
  is_u64 (ts x) -> is_u64 (ts y) -> is_u128 (sma x) -> is_u128 (sma y) ->
  ts x <= t <= ts y -> ts x < ts y ->
  exists p, interpolate x y t = Some p /\
    Z.min (sma x) (sma y) <= p <= Z.max (sma x) (sma y) /\
    (t = ts x -> p = sma x) /\ (t = ts y -> p = sma y) /\
    Z.abs (p * (ts y - ts x) - (sma x * (ts y - t) + sma y * (t - ts x))) <=
      (ts y - ts x) * (t - ts x) * (Z.abs (sma y - sma x) / DEC + 2).
Proof.
  unfold is_u64, is_u128. intros Ux Uy Sx Sy T O. unfold interpolate.
  assert (NN : 0 <= Z.abs (sma y - sma x) / DEC) by (apply Z.div_pos; [lia|reflexivity]).
  assert (BP : 0 <= (ts y - ts x) * (t - ts x) * (Z.abs (sma y - sma x) / DEC + 2)) by (repeat apply Z.mul_nonneg_nonneg; lia).
  destruct (Z.eqb_spec (ts x) t) as [E|E].
  { exists (sma x). split; auto. split; [lia|]. split; [auto|]. split; [intros; lia|]. subst t.
    replace (sma x * (ts y - ts x) - (sma x * (ts y - ts x) + sma y * (ts x - ts x))) with 0 by lia. exact BP. }
  destruct (Z.eqb_spec (ts y) t) as [E'|E'].
  { exists (sma y). split; auto. split; [lia|]. split; [intros; lia|]. split; [auto|]. subst t.
    replace (sma y * (ts y - ts x) - (sma x * (ts y - ts y) + sma y * (ts y - ts x))) with 0 by lia. exact BP. }
  destruct (Z.eqb_spec (sma x) (sma y)) as [S|S].
  { exists (sma x). split; auto. split; [lia|]. split; [auto|]. split; [intros; lia|]. rewrite S in BP |- *.
    replace (sma y * (ts y - ts x) - (sma y * (ts y - t) + sma y * (t - ts x))) with 0 by lia. exact BP. }
  set (D := ts y - ts x) in *. set (e := t - ts x). set (df := Z.abs (sma y - sma x)) in *.
  assert (HD : 0 < D) by (unfold D; lia). assert (He : 0 < e < D) by (unfold e, D; lia).
  unfold sub64, u64. fold D. rewrite (proj2 (fits_iff U64MAX _)) by (unfold D; lia).
  assert (dpos : 0 < DEC) by reflexivity.
  unfold dratio at 1. destruct (Z.eqb_spec D 0); [lia|]. rewrite Z.mul_1_l.
  set (inv := DEC / D).
  assert (I0 : 0 <= inv) by (apply Z.div_pos; lia). assert (I1 : inv * D <= DEC) by (unfold inv; rewrite Z.mul_comm; apply Z.mul_div_le; lia).
  assert (I2 : DEC < inv * D + D) by (unfold inv; pose proof (Z.mul_succ_div_gt DEC D HD); lia).
  unfold u128 at 1. rewrite (proj2 (fits_iff U128MAX _)) by (unfold DEC, U128MAX in *; nia).
  unfold dmul at 1. set (sl := df * inv / DEC).
  assert (L0 : 0 <= sl) by (apply Z.div_pos; unfold df; nia).
  assert (L1 : sl * DEC <= df * inv) by (unfold sl; rewrite Z.mul_comm; apply Z.mul_div_le; lia).
  assert (L2 : df * inv < sl * DEC + DEC) by (unfold sl; pose proof (Z.mul_succ_div_gt (df * inv) DEC dpos); lia).
  assert (df0 : 0 <= df) by (unfold df; lia).
  assert (S1 : sl * D <= df) by nia.
  assert (S2 : sl <= df) by nia.
  unfold u128 at 1. rewrite (proj2 (fits_iff U128MAX _)) by (unfold df in *; lia).
  fold e. rewrite (proj2 (fits_iff U64MAX _)) by (unfold D in *; lia).
  unfold dratio. simpl (1 =? 0). rewrite Z.div_1_r.
  unfold u128 at 1. rewrite (proj2 (fits_iff U128MAX _)) by (unfold DEC, U128MAX, U64MAX in *; lia).
  unfold dmul. rewrite Z.mul_assoc, Z.div_mul by lia.
  assert (P1 : 0 <= sl * e) by nia. assert (P2 : sl * e <= df) by nia.
  unfold u128 at 1. rewrite (proj2 (fits_iff U128MAX _)) by (unfold df in *; lia).
  (* error of the slope: 0 <= df*e - sl*e*D <= bound *)
  assert (Q : df < D * sl + D * (df / DEC + 2)).
  { pose proof (Z.mul_succ_div_gt df DEC dpos) as W.
    (* DEC*df < df*inv*D + df*D, df*inv < sl*DEC+DEC *)
    assert (DEC * df < DEC * (D * sl + D * (df / DEC + 2))); [|nia].
    assert (A1 : DEC * df <= df * inv * D + df * D) by nia.
    assert (A2 : df * inv * D <= (sl * DEC + DEC) * D) by nia.
    assert (A3 : df * D <= DEC * (df / DEC + 1) * D) by (unfold Z.succ in W; nia).
    nia. }
  assert (EB : 0 <= df * e - sl * e * D <= D * e * (df / DEC + 2)) by nia.
  destruct (Z.ltb_spec (sma y) (sma x)) as [B|B].
  - assert (Hdf : df = sma x - sma y) by (unfold df; lia).
    exists (sma x - sl * e). unfold sub128, u128. rewrite (proj2 (fits_iff U128MAX _)) by lia.
    split; auto. split; [lia|]. split; [intros; lia|]. split; [intros; lia|].
    replace (ts y - t) with (D - e) by (unfold D, e; lia). replace (t - ts x) with e by auto.
    replace ((sma x - sl * e) * D - (sma x * (D - e) + sma y * e)) with (df * e - sl * e * D) by (rewrite Hdf; ring).
    lia.
  - assert (Hdf : df = sma y - sma x) by (unfold df; lia).
    exists (sma x + sl * e). unfold add128, u128. rewrite (proj2 (fits_iff U128MAX _)) by lia.
    split; auto. split; [lia|]. split; [intros; lia|]. split; [intros; lia|].
    replace (ts y - t) with (D - e) by (unfold D, e; lia). replace (t - ts x) with e by auto.
    replace ((sma x + sl * e) * D - (sma x * (D - e) + sma y * e)) with (- (df * e - sl * e * D)) by (rewrite Hdf; ring).
    lia.
Qed.

(** The whole query on a buffer with a non-empty log. *)
Lemma query_ok cap l s ago :
  cap_ok cap -> rep cap l (buf s) -> increasing l -> l <> [] ->
  Forall (fun o => is_u64 (ts o) /\ is_u128 (sma o)) l -> is_u64 (clock s) -> 0 <= ago <= clock s ->
  let t := clock s - ago in let kept := lastn cap l in
  exists old new, nth_error kept 0 = Some old /\ last_obs l = Some new /\
  (ts new <= t -> query_observation s ago = Some (t, sma new)) /\
  (t < ts old -> query_observation s ago = None) /\
  (ts old <= t < ts new -> exists x y p, adjacent kept x y /\ ts x <= t <= ts y /\
     query_observation s ago = Some (t, p) /\
     Z.min (sma x) (sma y) <= p <= Z.max (sma x) (sma y) /\
     (t = ts x -> p = sma x) /\ (t = ts y -> p = sma y) /\
     Z.abs (p * (ts y - ts x) - (sma x * (ts y - t) + sma y * (t - ts x))) <=
      (ts y - ts x) * (t - ts x) * (Z.abs (sma y - sma x) / DEC + 2)).
Proof.
  intros C R I NE F UC UA t kept. pose proof C as [C1 C2]. pose proof R as [RC RH RA].
  set (n := Z.of_nat (length l)).
  assert (Hn : 0 < n) by (unfold n; destruct l; [congruence|simpl; lia]).
  set (start := Z.max 0 (n - cap)).
  assert (Hst : (length l - Z.to_nat cap)%nat = Z.to_nat start) by (unfold start, n; lia).
  destruct (nth_error l (Z.to_nat start)) as [old|] eqn:Eold; [|apply nth_error_None in Eold; unfold start, n in *; lia].
  destruct (last_obs l) as [new|] eqn:Enew; [|apply last_obs_None in Enew; congruence].
  assert (Elast : nth_error l (Z.to_nat (n - 1)) = Some new).
  { apply last_obs_split in Enew as (l0 & El). unfold n. rewrite El, app_length. simpl.
    replace (Z.to_nat (Z.of_nat (length l0 + 1) - 1)) with (length l0) by lia.
    rewrite nth_error_app2, Nat.sub_diag by lia. auto. }
  exists old, new. split; [unfold kept; rewrite nth_error_lastn by lia; rewrite Hst, Nat.add_0_r; auto|].
  split; [auto|].
  (* indices *)
  set (off := if n <? cap then 0 else n - cap - n mod cap).
  set (lo := if n <? cap then 0 else n mod cap). set (hi := if n <? cap then n - 1 else n mod cap + cap - 1).
  pose proof (Z.mod_pos_bound n cap ltac:(lia)) as MB.
  assert (Hoff : off mod cap = 0).
  { unfold off. destruct (n <? cap); [apply Z.mod_0_l; lia|].
    rewrite (Z.mod_eq n cap) by lia. replace (n - cap - (n - cap * (n / cap))) with ((n / cap - 1) * cap) by lia.
    apply Z.mod_mul. lia. }
  assert (Hlo : off + lo = start) by (unfold off, lo, start; destruct (Z.ltb_spec n cap); lia).
  assert (Hhi : off + hi = n - 1) by (unfold off, hi; destruct (Z.ltb_spec n cap); lia).
  assert (Bnd : 0 <= lo /\ lo <= hi /\ hi < 2 * cap) by (unfold lo, hi; destruct (Z.ltb_spec n cap); lia).
  assert (Eq : query_observation s ago =
    if ts new <=? t then Some (t, sma new)
    else if t =? ts old then Some (t, sma old) else if t <? ts old then None
    else do '(x, y) <- bsearch (S (Z.to_nat hi)) (buf s) t lo hi; do p <- interpolate x y t; Some (t, p)).
  { unfold query_observation, sub64, u64. fold t. unfold is_u64 in *.
    rewrite (proj2 (fits_iff U64MAX _)) by (unfold t; lia).
    rewrite RC, RH. fold n. unfold u32. rewrite (proj2 (fits_iff U32MAX _)) by lia.
    rewrite (proj2 (fits_iff U32MAX _)) by lia. unfold buf_exists. rewrite RC.
    destruct (Z.eqb_spec cap 0); [lia|]. cbn [negb]. rewrite Z.mod_mod by lia. rewrite RA.
    assert (RD : forall i o, 0 <= off + i -> n - cap <= off + i < n -> nth_error l (Z.to_nat (off + i)) = Some o ->
       read_single (buf s) i = Some (Some o)).
    { intros i o Q1 Q2 Q3. rewrite (read_at cap l (buf s) C R off Hoff i) by auto. rewrite Q3. auto. }
    unfold lo, hi, off in *. destruct (Z.ltb_spec n cap) as [Q|Q].
    - rewrite (Z.mod_small n) by lia. rewrite content_unused by (fold n; lia).
      destruct (Z.ltb_spec 0 n); [|lia]. cbn [negb andb].
      replace ((n + cap - 1) mod cap) with (n - 1)
        by (replace (n + cap - 1) with (n - 1 + 1 * cap) by lia; rewrite Z.mod_add by lia; rewrite Z.mod_small by lia; auto).
      rewrite (RD (n - 1) new) by (auto; lia). rewrite (RD 0 old); [|lia|lia|rewrite Hlo; auto].
      destruct (ts new <=? t); auto.
    - replace (n mod cap) with (Z.of_nat (Z.to_nat (n - cap)) mod cap).
      2:{ rewrite Z2Nat.id by lia. replace n with (n - cap + 1 * cap) at 2 by lia. rewrite Z.mod_add by lia. auto. }
      rewrite content_recent by (fold n; lia).
      replace (Z.of_nat (Z.to_nat (n - cap)) mod cap) with (n mod cap).
      2:{ rewrite Z2Nat.id by lia. replace n with (n - cap + 1 * cap) at 1 by lia. rewrite Z.mod_add by lia. auto. }
      destruct (nth_error l (Z.to_nat (n - cap))) eqn:Ex; [|apply nth_error_None in Ex; unfold n in *; lia].
      cbn [negb andb]. rewrite (RD (n mod cap + cap - 1) new); [|lia|lia|rewrite Hhi; auto].
      rewrite (RD (n mod cap) old); [|unfold start in Hlo; lia|unfold start in Hlo; lia|rewrite Hlo; auto].
      destruct (ts new <=? t); auto. }
  assert (ON : ts old <= ts new).
  { destruct (Z.eq_dec start (n - 1)) as [Es|Es].
    - rewrite Es, Elast in Eold. injection Eold as <-. lia.
    - apply Z.lt_le_incl. apply (increasing_nth l I (Z.to_nat start) (Z.to_nat (n - 1))); auto. unfold start in *. lia. }
  assert (U : forall i x, nth_error l i = Some x -> is_u64 (ts x) /\ is_u128 (sma x)).
  { intros i x Hx. apply nth_error_In in Hx. rewrite Forall_forall in F. auto. }
  rewrite Eq. split; [|split].
  - intros H. destruct (Z.leb_spec (ts new) t); [auto|lia].
  - intros H. destruct (Z.leb_spec (ts new) t); [lia|]. destruct (Z.eqb_spec t (ts old)); [lia|].
    destruct (Z.ltb_spec t (ts old)); [auto|lia].
  - intros H. destruct (Z.leb_spec (ts new) t); [lia|].
    assert (LH : lo < hi).
    { destruct (Z.eq_dec lo hi) as [E|E]; [|lia]. assert (start = n - 1) by lia.
      rewrite H1, Elast in Eold. injection Eold as <-. lia. }
    destruct (bsearch_ok cap l (buf s) C R off Hoff I t lo hi) with (fuel := S (Z.to_nat hi)) (start := lo) (fin := hi) (xs := old) (xe := new)
      as (i & x & y & B1 & B2 & Gx & Gy & T & BS); try lia; auto;
      try (fold n; unfold start in Hlo; lia); [rewrite Hlo; auto|left; split; auto; rewrite Hhi; auto|].
    assert (Hi0 : 0 <= off + i) by (unfold start in Hlo; lia).
    assert (TS : ts x < ts y).
    { apply (increasing_nth l I (Z.to_nat (off + i)) (Z.to_nat (off + (i + 1)))); auto. lia. }
    destruct (U _ _ Gx). destruct (U _ _ Gy).
    destruct (Z.eqb_spec t (ts old)) as [Eo|Eo].
    + (* target is exactly the oldest observation: its right neighbour is the next one *)
      destruct (nth_error l (Z.to_nat (start + 1))) as [nx|] eqn:Enx; [|apply nth_error_None in Enx; unfold n in *; lia].
      assert (Tn : ts old < ts nx).
      { apply (increasing_nth l I (Z.to_nat start) (Z.to_nat (start + 1))); auto. unfold start. lia. }
      exists old, nx, (sma old). split; [|split; [lia|]].
      * apply (adjacent_nth kept 0); unfold kept; rewrite nth_error_lastn by lia; rewrite Hst.
        -- rewrite Nat.add_0_r. auto.
        -- replace (Z.to_nat start + 1)%nat with (Z.to_nat (start + 1)) by (unfold start; lia). auto.
      * split; [auto|]. split; [lia|]. split; [auto|]. split; [intros; lia|]. rewrite Eo.
        replace (sma old * (ts nx - ts old) - (sma old * (ts nx - ts old) + sma nx * (ts old - ts old))) with 0 by lia.
        rewrite Z.sub_diag. lia.
    + destruct (Z.ltb_spec t (ts old)); [lia|].
      destruct (interpolate_ok x y t) as (p & Ep & P1 & P2 & P3 & P4); auto.
      exists x, y, p. split; [|split; [auto|]].
      * apply (adjacent_nth kept (Z.to_nat (off + i - start))); unfold kept; rewrite nth_error_lastn by lia; rewrite Hst.
        -- replace (Z.to_nat start + Z.to_nat (off + i - start))%nat with (Z.to_nat (off + i)) by (unfold start in *; lia). auto.
        -- replace (Z.to_nat start + S (Z.to_nat (off + i - start)))%nat with (Z.to_nat (off + (i + 1))) by (unfold start in *; lia). auto.
      * rewrite BS, Ep. repeat split; auto; lia.
Qed.
