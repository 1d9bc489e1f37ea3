(** Concentrated pair: liquidity, profit, repegging and the price oracle (C89, C90, C91, C94, C96, C98). *)
From Coq Require Import ZArith Lia Bool List.
From Verif Require Import Num Ledger SnapshotModel BufferModel PclMath PclModel PclParamProps PclProofs PclSwapProps.
From Verif Require XykModel OwnershipModel ObservationModel.
Import ListNotations.
Open Scope Z_scope.

(** ** C90: liquidity *)

(** two computations of the same value agree *)
Ltac same A B := first [rewrite A in B | idtac]; injection B as <-.
Ltac same2 A B := first [rewrite A in B | idtac]; injection B as <- <-.

Lemma refund_inv r p x w n sup ratio f a : 0 <= p <= 18 -> 0 <= r -> w = 10 ^ (18 - p) -> x = r * w ->
  0 < sup -> 0 <= n -> ratio = n * DEC / sup -> refund x p ratio = Some (f, a) ->
  0 <= a /\ a * sup <= r * n /\ r * n * DEC < sup * ((a + 2) * DEC + r).
Proof.
  intros Hp Hr Ew Ex Hs Hn Er H. unfold refund in H. unbind H as d E1. unbind H as v E2. injection H as <- <-.
  apply dmul256_Some in E1 as (Ed & D0 & _). apply to_uint_inv in E2 as (Ev & V0 & _); [|exact Hp].
  destruct (pow_split p Hp) as (_ & W & _). rewrite <- Ew in *. pose proof DEC_pos as D.
  assert (R : sup * ratio <= n * DEC < sup * ratio + sup) by (subst ratio; split; [apply div_mul_le|apply div_mul_gt]; lia).
  assert (Q : DEC * d <= x * ratio < DEC * d + DEC) by (subst d; split; [apply div_mul_le|apply div_mul_gt]; lia).
  assert (V : w * v <= d < w * v + w) by (subst v; split; [apply div_mul_le|apply div_mul_gt]; lia).
  assert (0 <= ratio) by (subst ratio; apply div_nonneg; nia).
  split; [lia|]. split.
  - (* w*v*DEC <= r*w*ratio ; sup*ratio <= n*DEC *)
    assert (A : w * v * DEC <= r * w * ratio) by (subst x; nia).
    assert (B : v * DEC <= r * ratio) by nia.
    assert (C : v * DEC * sup <= r * ratio * sup) by nia.
    assert (r * (sup * ratio) <= r * (n * DEC)) by (apply Z.mul_le_mono_nonneg_l; lia).
    assert (v * sup * DEC <= r * n * DEC) by lia. nia.
  - assert (A : r * w * ratio < DEC * (w * v + w) + DEC) by (subst x; nia).
    assert (B : r * ratio < DEC * (v + 1) + DEC) by nia.
    assert (B' : r * ratio <= (v + 2) * DEC) by lia.
    assert (r * (n * DEC) <= r * (sup * ratio + sup)) by (apply Z.mul_le_mono_nonneg_l; lia).
    destruct (Z.eq_dec r 0) as [->|]; [nia|].
    assert (r * (n * DEC) < r * (sup * ratio + sup)) by (apply Z.mul_lt_mono_pos_l; lia).
    assert (sup * (r * ratio) <= sup * ((v + 2) * DEC)) by (apply Z.mul_le_mono_nonneg_l; lia). lia.
Qed.

(** A withdrawal of [n] LP tokens pays each asset pro rata for [n - 1] tokens, rounded down by less than two units
    and 1e-18 of the reserve; nobody else's tokens change and what remains per token does not fall. *)
Theorem c90_withdraw : forall c s e w n imb mins s' o, reach c s ->
  step e (Withdraw w n imb mins) s = Some (s', o) ->
  exists a0 a1, o = OWithdraw a0 a1 /\ 0 < n <= get (lp s) w /\
    r0 s' = r0 s - a0 /\ r1 s' = r1 s - a1 /\ supply s' = supply s - n /\
    get (lp s') w = get (lp s) w - n /\ (forall v, v <> w -> get (lp s') v = get (lp s) v) /\
    0 <= a0 /\ 0 <= a1 /\
    a0 * supply s <= r0 s * (n - 1) /\ a1 * supply s <= r1 s * (n - 1) /\
    r0 s * (n - 1) * 10 ^ 18 < supply s * ((a0 + 2) * 10 ^ 18 + r0 s) /\
    r1 s * (n - 1) * 10 ^ 18 < supply s * ((a1 + 2) * 10 ^ 18 + r1 s) /\
    r0 s * supply s' <= r0 s' * supply s /\ r1 s * supply s' <= r1 s' * supply s.
Proof.
  intros c s e w n imb mins s' o R H. apply reach_inv in R. cbn [step] in H.
  apply withdraw_inv in H as (x0 & x1 & ratio & f0 & a0 & f1 & a1 & y1 & a & g & d & x & ld & xr & W & N & _ & X0 & X1 & Rt & R0 & R1 & _ & _ & _ & _ & _ & _ & Sp & _ & _ & _ & _ & B0 & B1 & -> & ->).
  exists a0, a1. split; [reflexivity|]. split; [exact N|].
  assert (S0 : 0 < supply s).
  { pose proof (get_le_total _ w (i_lp _ R)). rewrite (i_sum _ R) in *. lia. }
  unfold share_ratio in Rt. destruct (supply s =? 0) eqn:Z0; [bools; lia|].
  apply dratio256_Some in Rt as (_ & Er & _).
  assert (En : ssub n 1 = n - 1) by (unfold ssub; lia). rewrite En in Er.
  apply with_prec_inv in X0 as (X0 & _), X1 as (X1 & _).
  destruct (refund_inv (r0 s) (p0 s) x0 (10 ^ (18 - p0 s)) (n - 1) (supply s) ratio f0 a0) as (P1 & P2 & P3);
    try assumption; try reflexivity; try lia; [exact (i_p0 _ R)|apply (i_r0 _ R)|].
  destruct (refund_inv (r1 s) (p1 s) x1 (10 ^ (18 - p1 s)) (n - 1) (supply s) ratio f1 a1) as (Q1 & Q2 & Q3);
    try assumption; try reflexivity; try lia; [exact (i_p1 _ R)|apply (i_r1 _ R)|].
  cbn [r0 r1 supply lp set_pools]. change (10 ^ 18) with DEC.
  split; [reflexivity|]. split; [reflexivity|]. split; [reflexivity|].
  split; [apply get_set_same|]. split; [intros v Hv; apply get_set_other; congruence|].
  repeat (split; [assumption|]). pose proof (i_r0 _ R). pose proof (i_r1 _ R). split; nia.
Qed.

(** A deposit that mints LP tokens does not reduce the invariant D (as the ComputeD query reports it) per LP token. *)
Theorem c90_provide : forall c s e w d0 d1 tol ml s' share D1 D2, reach c s -> 0 < supply s ->
  step e (Provide w d0 d1 tol ml) s = Some (s', OProvide share) -> 0 < share ->
  scale (pst s') = scale (pst s) ->
  query_compute_d (now e) s = Some D1 -> query_compute_d (now e) s' = Some D2 ->
  supply s' = supply s + share /\ D1 * supply s' <= D2 * supply s.
Proof.
  intros c s e w d0 d1 tol ml s' share D1 D2 R S0 H Sh Sc Q1 Q2. apply reach_inv in R. cbn [step] in H.
  apply provide_inv in H as (tot & x0 & x1 & e0 & e1 & sh & ps & cc & _ & _ & _ & E1 & E2 & E3 & E4 & E5 & E6 & M & _ & _ & _ & K).
  cbv zeta in K. destruct K as (_ & -> & K). injection K as <-.
  match type of Sc with context [set_pools ?a ?b ?c ?d ?e ?f ?g ?h ?i ?j] =>
    destruct (set_pools_fields a b c d e f g h i j) as (F1 & F2 & F3 & _ & F5 & _ & F7 & _ & F9 & F10 & _) end.
  unfold query_compute_d in Q1, Q2. rewrite F1, F2, F5, F7, F9, F10 in Q2. rewrite F5 in Sc. rewrite F3.
  destruct (supply s =? 0) eqn:Z0; [bools; lia|]. split; [lia|].
  apply with_prec_inv in E1 as (E1 & T1).
  unbind Q1 as v0 A1. unbind Q1 as v1 A2. unguard Q1 G1. unbind Q1 as v2 A3. unbind Q1 as (a, g) A4.
  unbind Q2 as w0 B1. unbind Q2 as w1 B2. unguard Q2 G2. unbind Q2 as w2 B3.
  same A1 E2. same A2 E3.
  apply with_prec_inv in A1 as (A1 & _), A2 as (A2 & _), B1 as (B1 & _), B2 as (B2 & _), E4 as (E4 & _), E5 as (E5 & _).
  apply calculate_shares_inv in E6 as (n1 & a' & g' & nd & shr & ps1 & _ & _ & _ & N1 & Ag & Nd & C & P0 & _ & _ & Am).
  same2 A4 Ag.
  assert (Ew : w0 = v0 + e0) by lia. assert (Ew1 : w1 = v1 + e1) by lia.
  rewrite Ew1, Sc, N1 in B3. injection B3 as <-. rewrite Ew in Q2. rewrite Nd in Q2. injection Q2 as <-.
  destruct (tot =? 0) eqn:Tz; [bools; unfold LP_PREC in E1; lia|].
  destruct C as (o1 & od & q & i1 & pf & C1 & C2 & C3 & C4 & _ & C6 & C7 & C8 & _).
  same A3 C1. same C2 Q1.
  apply to_uint_inv in Am as (Am & _ & _); [|unfold LP_PREC; lia]. change (10 ^ (18 - LP_PREC)) with (10 ^ 12) in *.
  assert (V : 10 ^ 12 * share <= shr) by (subst share; apply div_mul_le; lia).
  pose proof DEC_pos as D.
  assert (OD : 0 <= od). { clear -C2. unfold newton_d in C2. unbind C2 as m Em. unbind C2 as k Ek. revert C2. generalize k.
    induction MAX_ITER as [|n IH]; intros k' H; [discriminate H|]. cbn [newton_d_from] in H.
    unbind H as v Ev. unbind H as dv Edv. unbind H as q Eq. unbind H as d' Ed. unbind H as df Edf.
    destruct (df <=? TOL); [unguard H G; injection H as <-; bools; exact G|exact (IH _ H)]. }
  assert (S1 : DEC * shr <= Z.max 0 (q - tot) * (DEC - pf)) by (rewrite C8; apply div_mul_le; lia).
  assert (PF : 0 <= pf). { clear -C6. unfold provide_fee in C6. unbind C6 as su Es. unbind C6 as av Ea. unbind C6 as ff Ef.
    unbind C6 as m Em. apply ddiv256_Some in C6 as (_ & -> & K). lia. }
  assert (S2 : shr <= Z.max 0 (q - tot)) by nia.
  assert (S3 : tot + shr <= q) by lia.
  assert (S4 : od * q <= tot * nd / DEC * DEC) by (rewrite C4; apply div_mul_le; lia).
  assert (S5 : DEC * (tot * nd / DEC) <= tot * nd) by (apply div_mul_le; lia).
  assert (S6 : od * (tot + shr) <= tot * nd) by nia.
  assert (S7 : od * (10 ^ 12 * (supply s + 0 + share)) <= od * (tot + shr)) by (apply Z.mul_le_mono_nonneg_l; lia).
  assert (S8 : 10 ^ 12 * (od * (supply s + 0 + share)) <= 10 ^ 12 * (nd * supply s)) by (subst tot; lia).
  lia.
Qed.

(** The first deposit makes LP tokens worth one unit of the pool each (up to rounding), whatever was donated before. *)
Theorem c90_first_deposit : forall c s e w d0 d1 tol ml s' share v, reach c s -> supply s = 0 ->
  step e (Provide w d0 d1 tol ml) s = Some (s', OProvide share) -> scale (pst s') = scale (pst s) ->
  query_lp_price (now e) s' = Some v ->
  0 < d0 /\ 0 < d1 /\ supply s' = share + 1000 /\ 10 ^ 18 <= v /\ (v - 10 ^ 18) * supply s' < 10 ^ 18.
Proof.
  intros c s e w d0 d1 tol ml s' share v R S0 H Sc Q. apply reach_inv in R. cbn [step] in H.
  apply provide_inv in H as (tot & x0 & x1 & e0 & e1 & sh & ps & cc & Hd0 & Hd1 & _ & E1 & E2 & E3 & E4 & E5 & E6 & M & _ & _ & _ & K).
  cbv zeta in K. destruct K as (K0 & -> & K). injection K as <-.
  match type of Sc with context [set_pools ?a ?b ?c ?d ?e ?f ?g ?h ?i ?j] =>
    destruct (set_pools_fields a b c d e f g h i j) as (F1 & F2 & F3 & _ & F5 & _ & F7 & _ & F9 & F10 & _) end.
  unfold query_lp_price in Q. rewrite F1, F2, F3, F5, F7, F9, F10 in Q. rewrite F5 in Sc. rewrite F3.
  rewrite S0 in *. cbn [Z.eqb] in *.
  apply with_prec_inv in E1 as (E1 & T1). assert (T0 : tot = 0) by lia. clear E1. subst tot.
  apply calculate_shares_inv in E6 as (n1 & a' & g' & nd & shr & ps1 & Nz & _ & _ & N1 & Ag & Nd & C & P0 & _ & _ & Am).
  cbn [Z.eqb] in C. destruct C as (x & C1 & C2 & C3 & _).
  destruct (pow_split _ (i_p0 _ R)) as (_ & W0 & _). destruct (pow_split _ (i_p1 _ R)) as (_ & W1 & _).
  apply with_prec_inv in E4 as (E4 & _), E5 as (E5 & _).
  destruct Nz as [Nz|(Nz0 & Nz1)]; [contradiction|].
  split; [nia|]. split; [nia|]. split; [lia|].
  apply to_uint_inv in Am as (Am & Ash & _); [|unfold LP_PREC; lia]. change (10 ^ (18 - LP_PREC)) with (10 ^ 12) in *.
  assert (V : 10 ^ 12 * share <= shr < 10 ^ 12 * share + 10 ^ 12) by (subst share; split; [apply div_mul_le|apply div_mul_gt]; lia).
  unbind Q as t Qt. apply with_prec_inv in Qt as (Qt & _). change (10 ^ (18 - LP_PREC)) with (10 ^ 12) in *.
  destruct (t =? 0) eqn:Tz; [bools; lia|].
  unbind Q as w0 B1. unbind Q as w1 B2. unbind Q as w2 B3. unbind Q as (a, g) B4. unbind Q as d B5. unbind Q as y B6.
  apply with_prec_inv in B1 as (B1 & _), B2 as (B2 & _), E2 as (E2 & _), E3 as (E3 & _).
  assert (Ew : w0 = x0 + e0) by lia. assert (Ew1 : w1 = x1 + e1) by lia.
  rewrite Ew1, Sc, N1 in B3. injection B3 as <-. same2 B4 Ag.
  rewrite Ew, Nd in B5. injection B5 as <-. rewrite Sc, C1 in B6. injection B6 as <-.
  apply ddiv256_Some in Q as (_ & -> & _). change (10 ^ 18) with DEC in *. pose proof DEC_pos as D.
  assert (Tp : 0 < t) by lia.
  divb (x * DEC) t v. split.
  - assert (t * DEC < t * v + t) by nia. nia.
  - assert (t * v < (t + 10 ^ 12) * DEC) by nia. subst t. nia.
Qed.

(** ** C89, C96: profit and repegging *)

Definition trades (m : msg) : Prop := match m with Provide _ _ _ _ _ | Swap _ _ _ _ => True | _ => False end.
(** What a message can do to the price state. *)
Lemma price_step e m s s' o : inv s -> step e m s = Some (s', o) ->
  (pst s' = pst s /\ supply s' = supply s) \/
  (exists w n imb mins xr, m = Withdraw w n imb mins /\ 0 <= xr /\
     pst s' = mkPs (oracle (pst s)) (last (pst s)) (scale (pst s)) (upd (pst s)) (xcp (pst s)) xr) \/
  (exists ps1, trades m /\ rmp s' = rmp s /\
     (ps1 = pst s /\ (0 < supply s /\ supply s <= supply s' \/ supply s' = supply s) \/
      supply s = 0 /\ 0 < supply s' /\ ps1 = mkPs (oracle (pst s)) (last (pst s)) (scale (pst s)) (upd (pst s)) DEC DEC) /\
     (pst s' = ps1 \/ exists tot x0 x1 price, 0 <= price <= U256MAX /\
        update_price (par s) (rmp s) ps1 (now e) tot x0 x1 price = Some (pst s'))).
Proof.
  intros I H. destruct m; cbn [step] in H.
  - right; right.
    apply provide_inv in H as (tot & x0 & x1 & e0 & e1 & share & ps & c & A0 & A1 & _ & E0 & _ & _ & _ & _ & E & M & B0 & B1 & _ & K).
    cbv zeta in K. destruct K as (K & -> & _).
    match goal with |- context [set_pools ?a ?b ?c ?d ?e ?f ?g ?h ?i ?j] =>
      destruct (set_pools_fields a b c d e f g h i j) as (_ & _ & F3 & _ & F5 & _ & F7 & _) end.
    apply calculate_shares_inv in E as (n1 & a & g & nd & sh & ps1 & _ & _ & _ & _ & _ & _ & Es & S0 & _ & (b0 & b1 & ratio & _ & _ & _ & Hps) & Ea).
    apply to_uint_inv in Ea as (_ & Sh & _); [|unfold LP_PREC; lia].
    apply with_prec_inv in E0 as (E0 & _). change (10 ^ (18 - LP_PREC)) with (10 ^ 12) in E0.
    exists ps1. rewrite F3, F5, F7. split; [exact Coq.Init.Logic.I|]. split; [reflexivity|]. split.
    + destruct (supply s =? 0) eqn:Z0; bools.
      * right. rewrite Z0 in *. destruct (tot =? 0) eqn:Tz; bools; [|lia].
        destruct Es as (x & _ & _ & _ & ->). split; [reflexivity|]. split; [lia|reflexivity].
      * left. destruct (tot =? 0) eqn:Tz; bools; [lia|].
        destruct Es as (o1 & od & q & i1 & pf & _ & _ & _ & _ & _ & _ & _ & _ & ->). split; [reflexivity|].
        left. pose proof (get_le_total _ SELF (i_lp _ I)). rewrite (i_sum _ I) in *. destruct (i_lock _ I); lia.
    + destruct (_ && _); [|left; exact Hps]. destruct Hps as (sl & price & _ & Hp & U). right.
      apply ddiv256_Some in Hp as (_ & Ep & Bp). rewrite <- Ep in Bp. eauto 10.
  - right; left.
    apply withdraw_inv in H as (x0 & x1 & ratio & f0 & a0 & f1 & a1 & y1 & a & g & d & x & ld & xr & W & N & _ & X0 & X1 & Rt & R0 & R1 & _ & _ & _ & _ & _ & _ & Sp & _ & Ex & _ & _ & B0 & B1 & -> & _).
    apply ddiv256_Some in Ex as (_ & -> & Bx). cbn [pst set_pools]. do 5 eexists. split; [reflexivity|]. split; [|reflexivity]. lia.
  - unguard H G. right; right. apply swap_inv in H as (ret & spread & comm & maker & shr & -> & F).
    destruct F as [(off & x0 & x1 & old & fs & res & of_ & ps & c & ob & pe & F) A B].
    destruct F as (_ & _ & _ & _ & _ & _ & _ & _ & _ & _ & _ & _ & _ & _ & _ & _ & _ & _ & _ & (tot & _ & Hps) & _ & _ & ->).
    match goal with |- context [set_pools ?a ?b ?c ?d ?e ?f ?g ?h ?i ?j] =>
      destruct (set_pools_fields a b c d e f g h i j) as (_ & _ & F3 & _ & F5 & _ & F7 & _) end.
    exists (pst s). rewrite F3, F5, F7. split; [exact Coq.Init.Logic.I|]. split; [reflexivity|]. split; [auto|].
    destruct (_ && _); [|left; exact Hps]. destruct Hps as (price & y1 & Hp & _ & U). right.
    unfold last_price in Hp. unbind Hp as out Eo.
    assert (Bp : 0 <= price <= U256MAX) by (destruct one; apply ddiv256_Some in Hp as (_ & Ep & Bp); rewrite <- Ep in Bp; exact Bp).
    eauto 10.
  - unguard H G. unbind H as p E. injection H as <- _. auto.
  - unguard H G. unbind H as p E. injection H as <- _. auto.
  - unguard H G. unbind H as p E. injection H as <- _. auto.
  - unguard H G. injection H as <- _. auto.
  - unguard H G. injection H as <- _. auto.
  - unbind H as p E. injection H as <- _. auto.
  - unguard H G. unbind H as p E. injection H as <- _. auto.
  - unguard H G. injection H as <- _. auto.
Qed.

Lemma profit_floor xc r xr : 0 < xr -> 0 <= r -> 0 <= xc ->
  let v := xc * r / DEC * DEC / xr in
  xr * v <= xc * r /\ (DEC <= xc -> xr <= r -> DEC <= v) /\ (DEC <= xr -> xr <= r -> xc - 1 <= v).
Proof.
  intros P R X v. pose proof DEC_pos as D. subst v. divb (xc * r) DEC m. divb (m * DEC) xr v. split; [nia|]. split.
  - intros A B. assert (r <= m) by nia. assert (xr * DEC < xr * v + xr) by nia. nia.
  - intros A B. assert (xc * xr <= xc * r) by nia. assert (xr * (xc - 1) < xr * v + xr) by nia. nia.
Qed.
(** The price scale was moved from [p] to [p'] towards the oracle price [o]: the relative deviation [norm] of the oracle
    is at least the configured minimum [md], and the step closes [max(md, norm / 10)] of it, up to rounding. *)
Definition moved (md p p' o : Z) : Prop :=
  let norm := Z.abs (o * 10 ^ 18 / p - 10 ^ 18) in let delta := Z.max md (norm / 10) in
  0 < norm /\ delta <= norm /\ norm * (p' - p) <= delta * (o - p) < norm * (p' - p) + 2 * 10 ^ 18 + norm.
Lemma try_repeg_moved p ps a g total x0 x1 ps' : try_repeg p ps a g total x0 x1 = Some ps' -> 0 <= min_delta p ->
  ps' = ps \/ (moved (min_delta p) (scale ps) (scale ps') (oracle ps') /\ xcp ps' + DEC < 2 * xreal ps').
Proof.
  intros H Md. apply try_repeg_inv in H as (O3 & _ & _ & X3 & E3).
  destruct E3 as [->|(q & norm & delta & ns & Eq & En & Ed & L & Nz & _ & _ & _ & Ens & Ns0 & Es & _ & _ & E3)]; [auto|right].
  rewrite O3, Es, X3. split; [|exact E3]. apply ddiv256_Some in Eq as (_ & -> & _). pose proof DEC_pos as D.
  unfold moved. change (10 ^ 18) with DEC. cbv zeta. rewrite <- En.
  assert (Tn : norm * TENTH / DEC = norm / 10).
  { change DEC with (10 * TENTH). apply Z.div_mul_cancel_r; discriminate. }
  rewrite Tn in Ed. rewrite <- Ed. split; [lia|]. split; [exact L|].
  assert (D0 : 0 <= delta) by lia.
  divb (scale ps * (norm - delta)) DEC u. divb (delta * oracle ps) DEC w.
  clear Ed En Tn. assert (Np : 0 < norm) by lia.
  assert (V : norm * ns <= (u + w) * DEC < norm * ns + norm) by (rewrite Ens; split; [apply div_mul_le|apply div_mul_gt]; lia).
  nia.
Qed.
Lemma update_price_profit p r ps t tot x0 x1 price ps' : f_time r <= t -> 0 <= min_delta p ->
  update_price p r ps t tot x0 x1 price = Some ps' ->
  (DEC <= xcp ps /\ DEC <= xreal ps /\ xcp ps + DEC <= 2 * xreal ps ->
   DEC <= xcp ps' /\ DEC <= xreal ps' /\ xcp ps' + DEC <= 2 * xreal ps') /\
  (xcp ps = 0 /\ xreal ps = 0 -> xcp ps' = 0 /\ xreal ps' = 0) /\
  (scale ps' = scale ps /\ xreal ps <= xreal ps' \/
   moved (min_delta p) (scale ps) (scale ps') (oracle ps') /\ xcp ps' + DEC < 2 * xreal ps').
Proof.
  intros T Md H. apply update_price_inv in H as (a & g & ps1 & ps2 & _ & E1 & E2 & E3).
  apply move_oracle_inv in E1 as (S1 & X1 & R1 & _).
  apply book_profit_inv in E2 as (S2 & _ & _ & _ & d & x & _ & _ & E2).
  pose proof (try_repeg_moved _ _ _ _ _ _ _ _ E3 Md) as MV.
  apply try_repeg_inv in E3 as (_ & _ & _ & X3 & E3).
  assert (Tf : (t <? f_time r) = false) by (apply Z.ltb_ge; lia). rewrite Tf in E2. clear Tf.
  pose proof DEC_pos as D.
  assert (K1 : DEC <= xcp ps /\ DEC <= xreal ps /\ xcp ps + DEC <= 2 * xreal ps ->
    DEC <= xcp ps2 /\ DEC <= xreal ps2 /\ xcp ps2 + DEC <= 2 * xreal ps2).
  { intros (A & B & C). destruct E2 as [(Z0 & ->)|(Z0 & _ & _ & P & M & Ex & P2)]; [rewrite X1, R1; auto|].
    destruct M as [M|M]; [discriminate|]. rewrite X1, R1 in *.
    destruct (profit_floor (xcp ps) (xreal ps2) (xreal ps)) as (F1 & F2 & _); try lia. rewrite <- Ex in *.
    split; [apply F2; lia|]. split; [lia|]. nia. }
  assert (K2 : xcp ps = 0 /\ xreal ps = 0 -> ps2 = ps1).
  { intros (A & B). destruct E2 as [(Z0 & ->)|(Z0 & _)]; [reflexivity|]. lia. }
  split; [|split].
  - intros A. specialize (K1 A). destruct E3 as [->|(q & norm & delta & ns & _ & _ & _ & _ & _ & _ & _ & _ & _ & _ & _ & _ & _ & E3)]; [exact K1|].
    rewrite X3 in *. lia.
  - intros A. specialize (K2 A). destruct A as (A & B). subst ps2.
    destruct E3 as [->|(q & norm & delta & ns & _ & _ & _ & _ & _ & _ & L & _)]; lia.
  - rewrite S2, S1 in MV. destruct MV as [->|MV]; [left|right; exact MV].
    split; [congruence|]. destruct E2 as [(Z0 & ->)|(Z0 & _ & _ & P & M & _)]; [lia|].
    destruct M as [M|M]; [discriminate|]. lia.
Qed.

(** No trade or deposit outside a parameter change lowers the recorded value of an LP token, unless it moves the price
    scale; then the LP tokens keep more than half of all profit ever recorded. *)
Theorem c89_step : forall c s e m s' o, reach c s -> step e m s = Some (s', o) ->
  match m with Withdraw _ _ _ _ => False | _ => True end -> f_time (rmp s) <= now e -> 0 < supply s ->
  (scale (pst s') = scale (pst s) /\ xreal (pst s) <= xreal (pst s')) \/
  (moved (min_delta (par s)) (scale (pst s)) (scale (pst s')) (oracle (pst s')) /\
   xcp (pst s') + 10 ^ 18 < 2 * xreal (pst s')).
Proof.
  intros c s e m s' o R H NW T S0. apply reach_inv in R.
  assert (Md : 0 <= min_delta (par s)) by (apply (i_par _ R)).
  destruct (price_step _ _ _ _ _ R H) as [(-> & _)|[(w & n & imb & mins & xr & -> & _)|(ps1 & _ & _ & A & B)]].
  - left. lia.
  - contradiction.
  - destruct A as [(-> & _)|(A & _)]; [|lia]. destruct B as [->|(tot & x0 & x1 & price & _ & U)]; [left; lia|].
    exact (proj2 (proj2 (update_price_profit _ _ _ _ _ _ _ _ _ T Md U))).
Qed.
(** With a sensible minimum step (its square times the price is at least the rounding unit) a move of the price scale is
    never rounded away, so whenever the price scale is the same afterwards the value has not fallen. *)
Lemma moved_visible md p o : 0 < p -> 0 < md -> 10 ^ 18 * (md + 2 * 10 ^ 18) <= md * md * p -> moved md p p o -> False.
Proof.
  intros P M B (N0 & N1 & N2 & N3). cbv zeta in *. change (10 ^ 18) with DEC in *. pose proof DEC_pos as D.
  divb (o * DEC) p q. remember (Z.abs (q - DEC)) as norm. remember (Z.max md (norm / 10)) as delta.
  assert (Dl : md <= delta) by lia. clear Heqdelta.
  assert (O : p <= o) by nia. assert (Q : DEC <= q).
  { apply Z.lt_succ_r. assert (p * DEC < p * Z.succ q) by nia. nia. }
  assert (E : norm = q - DEC) by lia. assert (K : p * norm <= (o - p) * DEC) by nia.
  assert (K1 : md * (p * norm) <= delta * (o - p) * DEC) by nia.
  assert (K2 : md * p * norm < (2 * DEC + norm) * DEC) by nia.
  assert (K3 : md * md * p * norm < md * ((2 * DEC + norm) * DEC)) by nia.
  assert (K4 : DEC * (md + 2 * DEC) * norm <= md * md * p * norm) by (apply Z.mul_le_mono_nonneg_r; lia).
  assert (K5 : md * (2 * DEC * DEC) <= norm * (2 * DEC * DEC)) by (apply Z.mul_le_mono_nonneg_r; lia). nia.
Qed.
Theorem c89_scale_kept : forall c s e m s' o, reach c s -> step e m s = Some (s', o) ->
  match m with Withdraw _ _ _ _ => False | _ => True end -> f_time (rmp s) <= now e -> 0 < supply s ->
  0 < min_delta (par s) -> 10 ^ 18 * (min_delta (par s) + 2 * 10 ^ 18) <= min_delta (par s) * min_delta (par s) * scale (pst s) ->
  scale (pst s') = scale (pst s) -> xreal (pst s) <= xreal (pst s').
Proof.
  intros c s e m s' o R H NW T S0 M B E. destruct (c89_step _ _ _ _ _ _ R H NW T S0) as [(_ & K)|(K & _)]; [exact K|].
  exfalso. rewrite E in K. apply reach_inv in R. exact (moved_visible _ _ _ (i_scale _ R) M B K).
Qed.

(** ... and over any history without withdrawals and parameter changes LP tokens are always worth at least the one unit
    they were created for, and at least half of the profit. *)
Definition steady (m : msg) : Prop := match m with Withdraw _ _ _ _ | Promote _ _ _ _ => False | _ => True end.
Theorem c89_history : forall t h u am ga ps tr q0 q1 n0 n1 s0 l, 0 <= t <= U64MAX ->
  instantiate t h u am ga ps tr q0 q1 n0 n1 = Some s0 -> timely t l ->
  Forall (fun em => env_ok (fst em)) l -> Forall (fun em => steady (snd em)) l ->
  let p := pst (run s0 l) in
  (supply (run s0 l) = 0 /\ xcp p = 0 /\ xreal p = 0) \/
  (1000 <= supply (run s0 l) /\ 10 ^ 18 <= xreal p /\ 10 ^ 18 <= xcp p /\ xcp p + 10 ^ 18 <= 2 * xreal p).
Proof.
  intros t h u am ga ps tr q0 q1 n0 n1 s0 l Ht I0 T E N. cbv zeta.
  set (Q c s := inv s /\ f_time (rmp s) <= c /\
     ((supply s = 0 /\ xcp (pst s) = 0 /\ xreal (pst s) = 0) \/
      (0 < supply s /\ DEC <= xcp (pst s) /\ DEC <= xreal (pst s) /\ xcp (pst s) + DEC <= 2 * xreal (pst s)))).
  assert (Q0 : Q t s0).
  { split; [exact (deploy_inv _ _ _ _ _ _ _ _ _ _ _ _ Ht I0)|].
    unfold instantiate in I0. unguard I0 G1. unguard I0 G2. unbind I0 as p E0. unguard I0 G3.
    injection I0 as <-. cbn. split; [lia|auto]. }
  assert (K : exists c, Q c (run s0 l)).
  { clear I0 Ht. revert t s0 T E N Q0. induction l as [|[e m] l IH]; intros c s T E N Q0; [exists c; exact Q0|].
    cbn [timely] in T. destruct T as (T1 & T2). inversion E as [|? ? E1 E2]; subst. inversion N as [|? ? N1 N2]; subst.
    cbn [fst snd] in *. apply (IH (now e)); [exact T2|exact E2|exact N2|]. unfold exec. cbn [fst snd].
    destruct Q0 as (J & F & P). destruct (step e m s) as [[s' o]|] eqn:H; [|split; [exact J|]; split; [lia|exact P]].
    split; [exact (step_inv_ok _ _ _ _ _ J H)|]. split.
    - destruct (step_settings _ _ _ _ _ H)
        as [(_ & -> & _)|[(uu & _ & _ & -> & _)|[(a & g & tt' & -> & _)|[(_ & U & _)|[(b & _ & _ & _ & _ & ->)|(_ & _ & _ & ->)]]]]];
        try lia; [contradiction|].
      unfold stop in U. unbind U as (ca, cg) Ec. injection U as <-. cbn. lia.
    - destruct (price_step _ _ _ _ _ J H) as [(-> & ->)|[(w & n & imb & mins & xr & -> & _)|(ps1 & _ & _ & A & B)]];
        [exact P|contradiction|]. pose proof DEC_pos.
      assert (Md : 0 <= min_delta (par s)) by (apply (i_par _ J)).
      destruct A as [(-> & A)|(A & A' & ->)].
      + destruct B as [->|(tot & x0 & x1 & price & _ & U)].
        * destruct P as [P|P]; [left|right]; lia.
        * destruct (update_price_profit _ _ _ _ _ _ _ _ _ (Z.le_trans _ _ _ F T1) Md U) as (K1 & K2 & _).
          destruct P as [P|P]; [left|right]; lia.
      + right. destruct B as [->|(tot & x0 & x1 & price & _ & U)]; [cbn; lia|].
        destruct (update_price_profit _ _ _ _ _ _ _ _ _ (Z.le_trans _ _ _ F T1) Md U) as (K1 & _). cbn [xcp xreal] in K1.
        split; [exact A'|]. apply K1. lia. }
  destruct K as (c & J & _ & [P|P]); [left; exact P|right]. change (10 ^ 18) with DEC.
  destruct (i_lock _ J) as [L|L]; [lia|]. pose proof (get_le_total _ SELF (i_lp _ J)). rewrite (i_sum _ J) in *. lia.
Qed.

(** The LP price reported right after a trade is the value it recorded: with 18-decimal assets, outside parameter
    changes and without a move of the price scale, the reported LP price is never below the value recorded before. *)
Theorem c89_lp_price : forall c s e one offer belief ms s' ret spread comm maker shr v, reach c s -> fees_ok e ->
  step e (Swap one offer belief ms) s = Some (s', OSwap ret spread comm maker shr) ->
  p0 s = 18 -> p1 s = 18 -> f_time (rmp s) <= now e -> 0 < supply s -> xreal (pst s) <> 0 ->
  10 ^ 13 <= offer -> 10 ^ 13 <= ret + maker + shr ->
  scale (pst s') = scale (pst s) -> query_lp_price (now e) s' = Some v ->
  0 < min_delta (par s) -> 10 ^ 18 * (min_delta (par s) + 2 * 10 ^ 18) <= min_delta (par s) * min_delta (par s) * scale (pst s) ->
  v = xreal (pst s') /\ xreal (pst s) <= v.
Proof.
  intros c s e one offer belief ms s' ret spread comm maker shr v R Fe H P0 P1 T S0 X0 O1 O2 Sc Q Md Mb.
  apply reach_inv in R. cbn [step] in H. unguard H G.
  apply swap_inv in H as (ret' & spread' & comm' & maker' & shr' & K & F). injection K as <- <- <- <- <-.
  destruct F as [(off & x0 & x1 & old & fs & res & of_ & ps & cc & ob & pe & F) A B].
  destruct F as (W1 & W2 & W3 & _ & _ & _ & _ & Ef & Ec & Eo & Rt & _ & Cm & Sh & Mk & _ & _ & _ & _ & (tot & Et & Hps) & _ & _ & ->).
  apply compute_swap_amounts in Ec; [|exact (i_par _ R)|exact (maker_share_ok e Fe)|].
  2:{ destruct (fee_share_ok s fs R Ef) as (_ & K). unfold DEC. lia. }
  destruct (fee_share_ok s fs R Ef) as (Efs & Kfs).
  destruct Ec as [D0 S1 M0 H0 T0 T1 T2 T3 T4]. pose proof DEC_pos as D.
  match type of Sc with context [set_pools ?a ?b ?c ?d ?e ?f ?g ?h ?i ?j] =>
    destruct (set_pools_fields a b c d e f g h i j) as (F1 & F2 & F3 & _ & F5 & _ & F7 & _ & F9 & F10 & _) end.
  rewrite F5 in *. unfold query_lp_price in Q. rewrite F1, F2, F3, F5, F7, F9, F10 in Q. clear F1 F2 F3 F5 F7 F9 F10.
  rewrite P0, P1 in *.
  replace (if one then 18 else 18) with 18 in * by (destruct one; reflexivity).
  apply with_prec_inv in W1 as (W1 & _), W2 as (W2 & _), W3 as (W3 & _). change (10 ^ (18 - 18)) with 1 in *.
  apply to_uint_inv in Rt as (Rt & _); [|lia]. change (10 ^ (18 - 18)) with 1 in *. rewrite Z.div_1_r in Rt.
  assert (Sh' : shr = share_fee res).
  { destruct (fshare s); [apply to_uint_inv in Sh; [|lia]; destruct Sh as (Sh & _); change (10 ^ (18 - 18)) with 1 in Sh; rewrite Z.div_1_r in Sh; exact Sh|]. nia. }
  assert (Mk' : maker = maker_fee res).
  { unfold maker_share in T3. destruct (maker_on (fees e)).
    - apply to_uint_inv in Mk; [|lia]; destruct Mk as (Mk & _); change (10 ^ (18 - 18)) with 1 in Mk; rewrite Z.div_1_r in Mk; exact Mk.
    - nia. }
  unfold outflow in Eo. unbind Eo as k Ek. apply add256_Some in Ek as (-> & _), Eo as (-> & _).
  change MIN_TRADE_SIZE with (10 ^ 13) in Hps.
  assert (C1 : (10 ^ 13 <=? dy res + maker_fee res + share_fee res) = true) by (apply Z.leb_le; lia).
  assert (C2 : (10 ^ 13 <=? off) = true) by (apply Z.leb_le; lia).
  rewrite C1, C2 in Hps. cbn [andb] in Hps. destruct Hps as (price & y1 & _ & Y & U).
  apply update_price_inv in U as (a & g & ps1 & ps2 & Ag & E1 & E2 & E3).
  apply move_oracle_inv in E1 as (Sc1 & X1 & R1 & _).
  apply book_profit_inv in E2 as (Sc2 & _ & _ & _ & d & x & Nd & Gx & E2).
  destruct (try_repeg_moved _ _ _ _ _ _ _ _ E3 ltac:(lia)) as [->|(MV & _)].
  2:{ exfalso. rewrite Sc2, Sc1, Sc in MV. exact (moved_visible _ _ _ (i_scale _ R) Md Mb MV). }
  destruct E2 as [(Z0 & _)|(Z0 & Tn & Er & P & M & _)]; [congruence|].
  destruct M as [M|M]; [apply Z.ltb_lt in M; lia|].
  unbind Q as t' Q1. same Q1 Et. destruct (t' =? 0) eqn:Tz; [bools; contradiction|].
  unbind Q as w0 B1. unbind Q as w1 B2. unbind Q as w2 B3. unbind Q as (a', g') B4. unbind Q as d' B5. unbind Q as y B6.
  apply with_prec_inv in B1 as (B1 & _), B2 as (B2 & _). change (10 ^ (18 - 18)) with 1 in *.
  assert (Ew1 : w1 = if one then x1 + off else x1 - (dy res + maker_fee res + share_fee res)) by (destruct one; lia).
  assert (Ew0 : w0 = if one then x0 - (dy res + maker_fee res + share_fee res) else x0 + off) by (destruct one; lia).
  rewrite Sc, Ew1 in B3. replace (if one then x1 + off else x1 - (dy res + maker_fee res + share_fee res)) with w1 in *.
  rewrite Y in B3. injection B3 as <-. same2 B4 Ag. rewrite <- Ew0 in Nd. rewrite Nd in B5. injection B5 as <-.
  rewrite Sc, <- Sc1, Gx in B6. injection B6 as <-. apply ddiv256_Some in Q as (_ & -> & _). split; [lia|]. rewrite <- R1, <- Er. exact M.
Qed.

(** ** C96: repegging *)

Lemma update_price_repeg p r ps t tot x0 x1 price ps' : update_price p r ps t tot x0 x1 price = Some ps' ->
  0 <= min_delta p -> scale ps' <> scale ps ->
  moved (min_delta p) (scale ps) (scale ps') (oracle ps') /\ xcp ps' + DEC < 2 * xreal ps'.
Proof.
  intros H Md N. apply update_price_inv in H as (a & g & ps1 & ps2 & _ & E1 & E2 & E3).
  apply move_oracle_inv in E1 as (S1 & X1 & R1 & _).
  apply book_profit_inv in E2 as (S2 & _). 
  destruct (try_repeg_moved _ _ _ _ _ _ _ _ E3 Md) as [->|MV]; [congruence|]. rewrite S2, S1 in MV. exact MV.
Qed.
(** The price scale changes only in a trade or deposit, by a step towards the price oracle: the relative deviation
    [norm] of the oracle from the scale is closed by [max(min_price_scale_delta, norm / 10)], and only when the LP
    tokens keep more than half of the profit afterwards. *)
Theorem c96_repeg : forall c s e m s' o, reach c s -> step e m s = Some (s', o) -> scale (pst s') <> scale (pst s) ->
  match m with Provide _ _ _ _ _ | Swap _ _ _ _ => True | _ => False end /\
  let o' := oracle (pst s') in let p := scale (pst s) in let p' := scale (pst s') in
  let norm := Z.abs (o' * 10 ^ 18 / p - 10 ^ 18) in let delta := Z.max (min_delta (par s)) (norm / 10) in
  0 < norm /\ min_delta (par s) <= norm /\
  norm * (p' - p) <= delta * (o' - p) < norm * (p' - p) + 2 * 10 ^ 18 + norm /\
  p' <= Z.max p o' /\ norm * (Z.min p o' - p') < 2 * 10 ^ 18 + norm /\
  10 ^ 18 + xcp (pst s') < 2 * xreal (pst s').
Proof.
  intros c s e m s' o R H N. apply reach_inv in R.
  assert (Md : 0 <= min_delta (par s)) by (apply (i_par _ R)).
  pose proof (i_scale _ R) as P.
  destruct (price_step _ _ _ _ _ R H) as [(E & _)|[(w & n & imb & mins & xr & -> & _ & E)|(ps1 & Tr & _ & A & B)]].
  - congruence.
  - rewrite E in N. contradiction.
  - split; [exact Tr|].
    assert (S1 : scale ps1 = scale (pst s)) by (destruct A as [(-> & _)|(_ & _ & ->)]; reflexivity).
    destruct B as [E|(tot & x0 & x1 & price & _ & U)]; [congruence|]. rewrite <- S1 in *.
    destruct (update_price_repeg _ _ _ _ _ _ _ _ _ U Md N) as ((K1 & K2 & K3) & K5).
    cbv zeta in *. change (10 ^ 18) with DEC in *.
    remember (Z.abs (oracle (pst s') * DEC / scale ps1 - DEC)) as norm eqn:En. clear En.
    remember (Z.max (min_delta (par s)) (norm / 10)) as delta eqn:Ed.
    split; [exact K1|]. split; [lia|]. split; [exact K3|].
    assert (0 <= delta) by lia. clear Ed.
    split; [|split; [|lia]].
    + destruct (Z.le_gt_cases (oracle (pst s')) (scale ps1)); nia.
    + destruct (Z.le_gt_cases (oracle (pst s')) (scale ps1)); nia.
Qed.

(** ** C91: the price oracle *)

Lemma dmul_step x y : 0 <= x <= DEC -> 0 <= y <= DEC -> exists r, dmul256 x y = Some r /\ 0 <= r <= DEC /\ r * DEC <= x * y.
Proof.
  intros X Y. pose proof DEC_pos as D. exists (x * y / DEC).
  assert (A : DEC * (x * y / DEC) <= x * y) by (apply div_mul_le; lia).
  assert (B : 0 <= x * y / DEC) by (apply div_nonneg; nia).
  assert (C : x * y / DEC <= DEC) by nia.
  split; [apply dmul256_Some; split; [reflexivity|]; split; [exact B|unfold U256MAX, DEC in *; lia]|]. split; [lia|lia].
Qed.
Lemma dpow_from_total k : forall x y n, 0 <= x <= DEC -> 0 <= y <= DEC -> 1 <= n < 2 ^ Z.of_nat k ->
  exists r, dpow_from k x y n = Some r /\ 0 <= r <= DEC /\ r * DEC ^ n <= y * x ^ n.
Proof.
  induction k as [|k IH]; intros x y n X Y N; [simpl in N; lia|]. pose proof DEC_pos as D. cbn [dpow_from].
  destruct (n <=? 1) eqn:L; bools.
  - assert (n = 1) by lia. subst n. destruct (dmul_step x y X Y) as (r & -> & B & C). exists r. split; [reflexivity|].
    split; [exact B|]. rewrite !Z.pow_1_r. lia.
  - rewrite Nat2Z.inj_succ, Z.pow_succ_r in N by lia.
    destruct (dmul_step x x X X) as (x2 & E2 & B2 & C2).
    assert (PW : forall m, 0 <= m -> (x2 * DEC) ^ m <= (x * x) ^ m) by (intros m Hm; apply Z.pow_le_mono_l; nia).
    destruct (Z.even n) eqn:Ev.
    + apply Z.even_spec in Ev as (m & ->). rewrite E2. cbv iota beta.
      replace (2 * m / 2) with m by (rewrite Z.mul_comm, Z.div_mul; lia).
      destruct (IH x2 y m B2 Y) as (r & -> & B & C); [lia|]. exists r. split; [reflexivity|]. split; [exact B|].
      replace (2 * m) with (m + m) by lia. rewrite !Z.pow_add_r by lia. specialize (PW m).
      rewrite !Z.pow_mul_l in PW. pose proof (Z.pow_pos_nonneg DEC m D). nia.
    + assert (Od : Z.odd n = true) by (rewrite <- Z.negb_even, Ev; reflexivity).
      apply Z.odd_spec in Od as (m & ->).
      destruct (dmul_step x y X Y) as (y2 & E3 & B3 & C3). rewrite E3. cbv iota beta. rewrite E2. cbv iota beta.
      replace ((2 * m + 1 - 1) / 2) with m by (replace (2 * m + 1 - 1) with (m * 2) by lia; rewrite Z.div_mul; lia).
      destruct (IH x2 y2 m B2 B3) as (r & -> & B & C); [lia|]. exists r. split; [reflexivity|]. split; [exact B|].
      replace (2 * m + 1) with (m + m + 1) by lia. rewrite !Z.pow_add_r, !Z.pow_1_r by lia. specialize (PW m).
      rewrite !Z.pow_mul_l in PW. specialize (PW ltac:(lia)).
      assert (P1 : 0 < DEC ^ m) by (apply Z.pow_pos_nonneg; lia). assert (P2 : 0 <= x2 ^ m) by (apply Z.pow_nonneg; lia).
      assert (Q1 : r * DEC ^ m * (DEC ^ m * DEC) <= y2 * x2 ^ m * (DEC ^ m * DEC)) by (apply Z.mul_le_mono_nonneg_r; nia).
      assert (Q2 : y2 * DEC * (x2 ^ m * DEC ^ m) <= (x * y) * (x2 ^ m * DEC ^ m)) by (apply Z.mul_le_mono_nonneg_r; nia).
      assert (Q3 : (x * y) * (x2 ^ m * DEC ^ m) <= (x * y) * (x ^ m * x ^ m)) by (apply Z.mul_le_mono_nonneg_l; nia). lia.
Qed.
Lemma half_pow n : 0 <= n < 2 ^ 32 -> exists r, dpow HALF_D n = Some r /\ 0 <= r <= DEC /\ r * 2 ^ n <= DEC /\
  (n <= 18 -> r * 2 ^ n = DEC).
Proof.
  intros N. pose proof DEC_pos as D. unfold dpow. destruct (n =? 0) eqn:Z0; bools.
  - subst n. exists DEC. split; [reflexivity|]. cbn [Z.pow]. lia.
  - destruct (dpow_from_total 33 HALF_D DEC n) as (r & E & B & C); [unfold HALF_D, DEC; lia|lia|change (Z.of_nat 33) with 33; lia|].
    exists r. split; [exact E|]. split; [exact B|].
    replace DEC with (2 * HALF_D) in C at 1 by reflexivity. rewrite Z.pow_mul_l in C.
    assert (0 < HALF_D ^ n) by (apply Z.pow_pos_nonneg; [reflexivity|lia]).
    split; [nia|]. intros L.
    assert (K : n = 1 \/ n = 2 \/ n = 3 \/ n = 4 \/ n = 5 \/ n = 6 \/ n = 7 \/ n = 8 \/ n = 9 \/ n = 10 \/ n = 11 \/
      n = 12 \/ n = 13 \/ n = 14 \/ n = 15 \/ n = 16 \/ n = 17 \/ n = 18) by lia. clear -E K.
    repeat (destruct K as [->|K]; [vm_compute in E; injection E as <-; reflexivity|]). subst n.
    vm_compute in E; injection E as <-; reflexivity.
Qed.

(** one term of the series *)
Lemma half_term i f term : 1 <= i <= 63 -> 0 <= f <= DEC -> 0 <= term <= DEC ->
  exists t1 t2 t3, dmul256 term (Z.abs (f - (i - 1) * DEC)) = Some t1 /\ dmul256 t1 HALF_D = Some t2 /\
    ddiv256 t2 (i * DEC) = Some t3 /\ 0 <= t3 /\ 2 * i * t3 * DEC <= term * Z.abs (f - (i - 1) * DEC).
Proof.
  intros I F T. pose proof DEC_pos as D. set (c := Z.abs (f - (i - 1) * DEC)).
  assert (C' : 0 <= c <= 62 * DEC) by (subst c; nia).
  exists (term * c / DEC), (term * c / DEC * HALF_D / DEC), (term * c / DEC * HALF_D / DEC * DEC / (i * DEC)).
  divb (term * c) DEC t1. divb (t1 * HALF_D) DEC t2. divb (t2 * DEC) (i * DEC) t3.
  assert (A1 : 0 <= t1) by (subst t1; apply div_nonneg; nia).
  assert (A2 : 0 <= t2) by (subst t2; apply div_nonneg; unfold HALF_D; nia).
  assert (A3 : 0 <= t3) by (subst t3; apply div_nonneg; nia).
  assert (U1 : t1 <= 62 * DEC) by nia. assert (U2 : 2 * t2 <= t1) by (unfold HALF_D, DEC in *; lia).
  assert (U3 : i * t3 <= t2) by nia.
  split; [apply dmul256_Some; split; [assumption|]; unfold U256MAX, DEC in *; lia|].
  split; [apply dmul256_Some; split; [assumption|]; unfold U256MAX, DEC in *; lia|].
  split; [apply ddiv256_Some; split; [nia|]; split; [assumption|]; unfold U256MAX, DEC in *; nia|].
  split; [exact A3|]. nia.
Qed.
Lemma half_result result s : 0 <= result <= DEC -> 0 <= s <= DEC -> dmul256 result s = Some (result * s / DEC).
Proof. intros R S. destruct (dmul_step result s R S) as (r & E & _). rewrite E. apply dmul256_Some in E as (-> & _). reflexivity. Qed.
Lemma half_tail k : forall i f term sum result L, (1 <= k)%nat -> 2 <= i -> i + Z.of_nat k <= 64 -> 0 <= f <= DEC ->
  0 <= term -> 0 <= result <= DEC -> 0 <= L -> L <= sum - term -> sum <= DEC -> term < HALFPOW_TOL * 2 ^ Z.of_nat k ->
  exists s, half_from k i f term sum result = Some (result * s / DEC) /\ L <= s <= sum.
Proof.
  induction k as [|k IH]; intros i f term sum result L K I IK F T R L0 L1 S U; [lia|]. clear K. pose proof DEC_pos as D.
  cbn [half_from].
  destruct (half_term i f term) as (t1 & t2 & t3 & E1 & E2 & E3 & P3 & B3); [lia|lia|lia|].
  assert (C : Z.abs (f - (i - 1) * DEC) <= (i - 1) * DEC) by nia.
  assert (H : 2 * t3 <= term).
  { assert (2 * i * t3 * DEC <= term * ((i - 1) * DEC)) by nia. assert (2 * i * t3 <= term * (i - 1)) by nia. nia. }
  rewrite E1. cbv iota beta. rewrite E2. cbv iota beta. rewrite E3. cbv iota beta.
  assert (E4 : sub256 sum t3 = Some (sum - t3)) by (apply sub256_Some; split; [reflexivity|unfold U256MAX, DEC in *; lia]).
  rewrite E4. cbv iota beta. destruct (t3 <? HALFPOW_TOL) eqn:Q; bools.
  - exists (sum - t3). split; [apply half_result; lia|lia].
  - rewrite Nat2Z.inj_succ, Z.pow_succ_r in U by lia. rewrite Nat2Z.inj_succ in IK.
    destruct (IH (i + 1) f t3 (sum - t3) result L) as (s & -> & B); try lia.
    { destruct k as [|k]; [|lia]. change (2 ^ Z.of_nat 0) with 1 in U. lia. }
    exists s. split; [reflexivity|lia].
Qed.
Lemma half_from_bounds f result : 0 <= f < DEC -> 0 <= result <= DEC ->
  exists s, half_from 63 1 f DEC DEC result = Some (result * s / DEC) /\ DEC <= 2 * s /\ s <= DEC.
Proof.
  intros F R. pose proof DEC_pos as D. change (half_from 63 1 f DEC DEC result) with
    (do t1 <- dmul256 DEC (Z.abs (f - (1 - 1) * DEC)); do t2 <- dmul256 t1 HALF_D; do t3 <- ddiv256 t2 (1 * DEC);
     do s <- sub256 DEC t3; if t3 <? HALFPOW_TOL then dmul256 result s else half_from 62 2 f t3 s result).
  destruct (half_term 1 f DEC) as (t1 & t2 & t3 & E1 & E2 & E3 & P3 & B3); [lia|lia|lia|].
  assert (H : 2 * t3 <= f) by nia.
  rewrite E1. cbv iota beta. rewrite E2. cbv iota beta. rewrite E3. cbv iota beta.
  assert (E4 : sub256 DEC t3 = Some (DEC - t3)) by (apply sub256_Some; split; [reflexivity|unfold U256MAX, DEC in *; lia]).
  rewrite E4. cbv iota beta. destruct (t3 <? HALFPOW_TOL) eqn:Q; bools.
  { exists (DEC - t3). split; [apply half_result; lia|lia]. }
  change (half_from 62 2 f t3 (DEC - t3) result) with
    (do a1 <- dmul256 t3 (Z.abs (f - (2 - 1) * DEC)); do a2 <- dmul256 a1 HALF_D; do a3 <- ddiv256 a2 (2 * DEC);
     do s <- sub256 (DEC - t3) a3; if a3 <? HALFPOW_TOL then dmul256 result s else half_from 61 3 f a3 s result).
  destruct (half_term 2 f t3) as (a1 & a2 & a3 & A1 & A2 & A3 & Q3 & C3); [lia|lia|lia|].
  replace (Z.abs (f - (2 - 1) * DEC)) with (DEC - f) in C3 by lia.
  assert (J : 4 * a3 <= t3) by nia.
  assert (LB : DEC <= 2 * (DEC - t3 - a3 - a3)).
  { (* 2*t3 <= f and 4*a3*DEC <= t3*(DEC-f) *)
    assert (X : 8 * a3 * DEC <= f * (DEC - f)) by nia.
    assert (Y : DEC * (2 * t3 + 4 * a3) * 2 <= 2 * DEC * f + f * (DEC - f)) by nia.
    assert (W : 0 <= (DEC - f) * (2 * DEC - f)) by nia.
    assert (Z1 : DEC * (2 * t3 + 4 * a3) * 2 <= 2 * (DEC * DEC)) by nia. nia. }
  rewrite A1. cbv iota beta. rewrite A2. cbv iota beta. rewrite A3. cbv iota beta.
  assert (E5 : sub256 (DEC - t3) a3 = Some (DEC - t3 - a3)) by (apply sub256_Some; split; [reflexivity|unfold U256MAX, DEC in *; lia]).
  rewrite E5. cbv iota beta. destruct (a3 <? HALFPOW_TOL) eqn:Q2; bools.
  { exists (DEC - t3 - a3). split; [apply half_result; lia|lia]. }
  destruct (half_tail 61 3 f a3 (DEC - t3 - a3) result (DEC - t3 - a3 - a3)) as (s & -> & B); try lia.
  { change (Z.of_nat 61) with 61. unfold HALFPOW_TOL, DEC in *. lia. }
  exists s. split; [reflexivity|lia].
Qed.

(** The weight of the old average after [el] seconds with half-time [h]: it halves with every half-time. *)
Lemma weight el h : 0 <= el <= U64MAX -> 1 <= h -> exists arg al, dratio256 el h = Some arg /\ half_float_pow arg = Some al /\
  0 <= al <= DEC /\ (el / h < 2 ^ 32 -> al * 2 ^ (el / h) <= DEC) /\ (el / h <= 17 -> DEC <= al * 2 ^ (el / h + 1)).
Proof.
  intros E H. pose proof DEC_pos as D. exists (el * DEC / h).
  assert (A0 : 0 <= el * DEC / h) by (apply div_nonneg; nia).
  assert (A1 : el * DEC / h <= el * DEC) by (apply Z.div_le_upper_bound; nia).
  assert (I : el * DEC / h / DEC = el / h).
  { rewrite Z.div_div by lia. rewrite (Z.mul_comm h). rewrite (Z.mul_comm el). apply Z.div_mul_cancel_l; lia. }
  assert (N0 : 0 <= el / h) by (apply div_nonneg; lia).
  assert (N1 : el / h <= U64MAX) by (assert (el / h <= el) by (apply Z.div_le_upper_bound; nia); lia).
  unfold half_float_pow. rewrite I.
  assert (Fr : 0 <= el * DEC / h - el / h * DEC < DEC).
  { rewrite <- I. pose proof (div_mul_le (el * DEC / h) DEC D). pose proof (div_mul_gt (el * DEC / h) DEC D). lia. }
  assert (M : 0 <= (el / h) mod 4294967296 < 2 ^ 32) by (apply Z.mod_pos_bound; reflexivity).
  destruct (half_pow _ M) as (r & Er & Br & Cr & Dr).
  destruct (half_from_bounds _ r Fr Br) as (s & Es & S1 & S2).
  exists (r * s / DEC). split.
  { apply dratio256_Some. split; [lia|]. split; [reflexivity|]. unfold U256MAX, U64MAX, DEC in *. lia. }
  split.
  { assert (Eu : u128 (el / h) = Some (el / h)) by (apply u128_Some; split; [reflexivity|unfold U128MAX, U64MAX in *; lia]).
    rewrite Eu. cbv iota beta. rewrite Er. cbv iota beta. exact Es. }
  divb (r * s) DEC al. assert (AL : 0 <= al) by (subst al; apply div_nonneg; nia).
  assert (al <= r) by nia. split; [lia|]. split.
  - intros L. rewrite Z.mod_small in * by lia. pose proof (Z.pow_pos_nonneg 2 (el / h)). nia.
  - intros L. rewrite Z.mod_small in * by lia. specialize (Dr ltac:(lia)).
    assert (K : exists q, DEC = q * 2 ^ (el / h + 1)).
    { exists (DEC / 2 ^ (el / h + 1)). rewrite Z.mul_comm. apply Z_div_exact_full_2; [apply Z.pow_nonzero; lia|].
      assert (KK : DEC = 5 ^ 18 * 2 ^ (18 - (el / h + 1)) * 2 ^ (el / h + 1)).
      { rewrite <- Z.mul_assoc, <- Z.pow_add_r by lia. replace (18 - (el / h + 1) + (el / h + 1)) with 18 by lia. reflexivity. }
      rewrite KK. apply Z.mod_mul. apply Z.pow_nonzero; lia. }
    destruct K as (q & K). rewrite Z.pow_add_r, Z.pow_1_r in * by lia.
    assert (P : 0 < 2 ^ (el / h)) by (apply Z.pow_pos_nonneg; lia).
    assert (r = 2 * q) by nia. assert (DEC * q < DEC * al + DEC) by nia. assert (q <= al) by nia. nia.
Qed.

Lemma move_oracle_weight p ps t price ps' : move_oracle p ps t price = Some ps' ->
  1 <= half_time p -> 0 <= upd ps -> t <= U64MAX ->
  (t <= upd ps /\ oracle ps' = oracle ps /\ upd ps' = upd ps) \/
  (upd ps < t /\ upd ps' = t /\ exists al, 0 <= al <= DEC /\
     let n := (t - upd ps) / half_time p in
     (n < 2 ^ 32 -> al * 2 ^ n <= DEC) /\ (n <= 17 -> DEC <= al * 2 ^ (n + 1)) /\
     DEC * oracle ps' <= last ps * (DEC - al) + oracle ps * al < DEC * oracle ps' + 2 * DEC /\ 0 <= oracle ps' <= U256MAX).
Proof.
  intros H Hh U T. unfold move_oracle in H. destruct (upd ps <? t) eqn:L; bools.
  - right. split; [exact L|]. destruct (weight (t - upd ps) (half_time p)) as (arg & al & W1 & W2 & W3 & W4 & W5); [lia|lia|].
    rewrite W1 in H. cbv iota beta in H. rewrite W2 in H. cbv iota beta in H.
    unbind H as om E1. unbind H as t1 E2. unbind H as t2 E3. unbind H as o E4. injection H as <-. cbn [upd oracle].
    split; [reflexivity|]. exists al. split; [exact W3|]. cbv zeta. split; [exact W4|]. split; [exact W5|].
    apply sub256_Some in E1 as (-> & _). apply dmul256_Some in E2 as (E2 & _), E3 as (E3 & _).
    apply add256_Some in E4 as (-> & B). pose proof DEC_pos as D.
    divb (last ps * (DEC - al)) DEC u. divb (oracle ps * al) DEC w. lia.
  - left. injection H as <-. cbn. auto.
Qed.
(** the times and prices kept in the pool state *)
Definition prange (c : Z) (p : pstate) : Prop :=
  0 <= upd p <= c /\ 0 <= oracle p <= U256MAX /\ 0 <= last p <= U256MAX.
Lemma update_price_fields p r ps t tot x0 x1 price ps' : update_price p r ps t tot x0 x1 price = Some ps' ->
  exists ps1, move_oracle p ps t price = Some ps1 /\ oracle ps' = oracle ps1 /\ last ps' = last ps1 /\ upd ps' = upd ps1.
Proof.
  intros H. apply update_price_inv in H as (a & g & ps1 & ps2 & _ & E1 & E2 & E3).
  apply book_profit_inv in E2 as (_ & O2 & L2 & U2 & _). apply try_repeg_inv in E3 as (O3 & L3 & U3 & _).
  exists ps1. split; [exact E1|]. split; [congruence|]. split; congruence.
Qed.
Lemma prange_step c e m s s' o : inv s -> env_ok e -> c <= now e -> prange c (pst s) -> step e m s = Some (s', o) ->
  prange (now e) (pst s').
Proof.
  intros I E C P H. unfold env_ok in E. destruct P as (P1 & P2 & P3).
  destruct (price_step _ _ _ _ _ I H) as [(-> & _)|[(w & n & imb & mins & xr & -> & _ & ->)|(ps1 & _ & _ & A & B)]].
  - split; [lia|]. auto.
  - split; [cbn; lia|]. auto.
  - assert (Q : upd ps1 = upd (pst s) /\ oracle ps1 = oracle (pst s) /\ last ps1 = last (pst s))
      by (destruct A as [(-> & _)|(_ & _ & ->)]; auto).
    destruct Q as (Q1 & Q2 & Q3). rewrite <- Q1 in *. rewrite <- Q2 in *. rewrite <- Q3 in *.
    destruct B as [->|(tot & x0 & x1 & price & Bp & U)]; [split; [lia|]; auto|].
    apply update_price_fields in U as (ps2 & M & O2 & L2 & U2).
    pose proof (move_oracle_inv _ _ _ _ _ M) as (_ & _ & _ & Lp).
    pose proof (i_par _ I) as PO. destruct PO as (_ & _ & _ & _ & _ & Hh).
    destruct (move_oracle_weight _ _ _ _ _ M ltac:(lia) ltac:(lia) ltac:(lia))
      as [(M1 & M2 & M3)|(M1 & M2 & al & M3 & _ & _ & _ & M4)]; unfold prange; rewrite O2, L2, U2, Lp; split; lia.
Qed.
Lemma reach_prange c s : reach c s -> prange c (pst s).
Proof.
  intros (t & h & u & am & ga & ps & tr & q0 & q1 & n0 & n1 & s0 & l & Ht & I0 & T & E & -> & ->).
  pose proof (deploy_inv _ _ _ _ _ _ _ _ _ _ _ _ Ht I0) as J.
  assert (P : prange t (pst s0)).
  { unfold instantiate in I0. unguard I0 G1. unguard I0 G2. unbind I0 as p E0. unguard I0 G3. injection I0 as <-.
    unfold prange. cbn. bools. unfold fits in *. unfold U128MAX, U256MAX in *. bools. lia. }
  clear I0 Ht. revert t s0 T E J P. induction l as [|[e m] l IH]; intros c s T E J P; [exact P|].
  cbn [timely] in T. destruct T as (T1 & T2). inversion E as [|? ? E1 E2]; subst. cbn [fst snd] in *.
  cbn [run fold_left end_time]. change (fold_left exec l (exec s (e, m))) with (run (exec s (e, m)) l).
  unfold exec. cbn [fst snd].
  destruct (step e m s) as [[s' o]|] eqn:H.
  - exact (IH _ _ T2 E2 (step_inv_ok _ _ _ _ _ J H) (prange_step _ _ _ _ _ _ J E1 T1 P H)).
  - apply (IH _ _ T2 E2 J). destruct P as (P1 & P2). split; [lia|exact P2].
Qed.

(** The price oracle moves only in a trade or deposit, at most once per second, and then to a mean of its old value and
    the price of the previous trade, in which the weight [al] of the old value halves with every half-time. *)
Theorem c91_oracle : forall c s e m s' o, reach c s -> env_ok e -> step e m s = Some (s', o) ->
  oracle (pst s') = oracle (pst s) \/
  (match m with Provide _ _ _ _ _ | Swap _ _ _ _ => True | _ => False end /\ upd (pst s) < now e /\ upd (pst s') = now e /\
   exists al, 0 <= al <= 10 ^ 18 /\
     let n := (now e - upd (pst s)) / half_time (par s) in
     let old := oracle (pst s) in let prev := last (pst s) in let new := oracle (pst s') in
     (n < 2 ^ 32 -> al * 2 ^ n <= 10 ^ 18) /\ (n <= 17 -> 10 ^ 18 <= al * 2 ^ (n + 1)) /\
     10 ^ 18 * new <= prev * (10 ^ 18 - al) + old * al < 10 ^ 18 * new + 2 * 10 ^ 18 /\
     Z.min old prev - 1 <= new <= Z.max old prev /\
     (n < 2 ^ 32 -> 2 ^ n * Z.abs (new - prev) <= Z.abs (old - prev) + 2 * 2 ^ n)).
Proof.
  intros c s e m s' o R Ee H. pose proof (reach_prange _ _ R) as ((U0 & U1) & _ & _). pose proof (reach_inv _ _ R) as I.
  unfold env_ok in Ee.
  destruct (price_step _ _ _ _ _ I H) as [(-> & _)|[(w & n & imb & mins & xr & -> & _ & ->)|(ps1 & Tr & _ & A & B)]]; auto.
  assert (Q : upd ps1 = upd (pst s) /\ oracle ps1 = oracle (pst s) /\ last ps1 = last (pst s))
    by (destruct A as [(-> & _)|(_ & _ & ->)]; auto).
  destruct Q as (Q1 & Q2 & Q3). rewrite <- Q1, <- Q2, <- Q3 in *.
  destruct B as [->|(tot & x0 & x1 & price & Bp & U)]; [auto|].
  apply update_price_fields in U as (ps2 & M & O2 & _ & U2). pose proof (i_par _ I) as (_ & _ & _ & _ & _ & Hh).
  destruct (move_oracle_weight _ _ _ _ _ M ltac:(lia) ltac:(lia) ltac:(lia))
    as [(M1 & M2 & M3)|(M1 & M2 & al & M3 & M4 & M5 & M6 & _)]; [left; congruence|].
  right. rewrite O2, U2. split; [exact Tr|]. split; [exact M1|]. split; [exact M2|]. exists al. cbv zeta in *.
  change (10 ^ 18) with DEC in *. pose proof DEC_pos as D.
  split; [exact M3|]. split; [exact M4|]. split; [exact M5|]. split; [exact M6|].
  remember ((now e - upd ps1) / half_time (par s)) as n. assert (N0 : 0 <= n) by (subst n; apply div_nonneg; lia).
  clear Heqn M U2 O2 M5 Tr A H. split.
  - destruct (Z.le_gt_cases (oracle ps1) (last ps1)); split; nia.
  - intros Nl. specialize (M4 Nl). assert (P : 0 < 2 ^ n) by (apply Z.pow_pos_nonneg; lia).
    remember (2 ^ n) as k. remember (oracle ps2 - last ps1) as y. remember (oracle ps1 - last ps1) as x.
    assert (Y1 : DEC * y <= al * x < DEC * y + 2 * DEC) by nia.
    assert (Y2 : DEC * Z.abs y <= al * Z.abs x + 2 * DEC) by nia.
    assert (Y3 : k * (DEC * Z.abs y) <= k * (al * Z.abs x + 2 * DEC)) by (apply Z.mul_le_mono_nonneg_l; lia).
    assert (Y4 : k * al * Z.abs x <= DEC * Z.abs x) by (apply Z.mul_le_mono_nonneg_r; lia). nia.
Qed.
(** No trade moves the oracle by its own price: whatever two traders do in the same second from the same state, the
    oracle ends at the same value; and what happens later in that second does not move it again. *)
Theorem c91_not_by_own_trade : forall c s e1 e2 m1 m2 s1 s2 o1 o2, reach c s -> now e1 = now e2 ->
  step e1 m1 s = Some (s1, o1) -> step e2 m2 s = Some (s2, o2) ->
  oracle (pst s1) <> oracle (pst s) -> oracle (pst s2) <> oracle (pst s) -> oracle (pst s1) = oracle (pst s2).
Proof.
  assert (K : forall c s e m s' o, reach c s -> step e m s = Some (s', o) -> oracle (pst s') <> oracle (pst s) ->
    exists price ps2, move_oracle (par s) (pst s) (now e) price = Some ps2 /\ oracle (pst s') = oracle ps2).
  { intros c s e m s' o R H N. pose proof (reach_inv _ _ R) as I.
    destruct (price_step _ _ _ _ _ I H) as [(E & _)|[(w & n & imb & mins & xr & _ & _ & E)|(ps1 & _ & _ & A & B)]];
      try (rewrite E in N; contradiction).
    destruct B as [E|(tot & x0 & x1 & price & _ & U)].
    - exfalso. apply N. rewrite E. destruct A as [(-> & _)|(_ & _ & ->)]; reflexivity.
    - apply update_price_fields in U as (ps2 & M & O2 & _).
      destruct A as [(-> & _)|(_ & _ & ->)]; [exists price, ps2; auto|].
      unfold move_oracle in *. cbn [upd last oracle scale xcp xreal] in M. destruct (upd (pst s) <? now e).
      + unbind M as arg E1. unbind M as al E2. unbind M as om E3. unbind M as t1 E4. unbind M as t2 E5. unbind M as q E6.
        injection M as <-. exists price. eexists. split; [reflexivity|exact O2].
      + injection M as <-. exists price. eexists. split; [reflexivity|exact O2]. }
  intros c s e1 e2 m1 m2 s1 s2 o1 o2 R T H1 H2 N1 N2.
  destruct (K _ _ _ _ _ _ R H1 N1) as (pr1 & p1' & M1 & ->). destruct (K _ _ _ _ _ _ R H2 N2) as (pr2 & p2' & M2 & ->).
  rewrite T in M1. unfold move_oracle in *. destruct (upd (pst s) <? now e2).
  - unbind M1 as arg E1. unbind M1 as al E2. unbind M1 as om E3. unbind M1 as t1 E4. unbind M1 as t2 E5. unbind M1 as q E6.
    injection M1 as <-. injection M2 as <-. reflexivity.
  - injection M1 as <-. injection M2 as <-. reflexivity.
Qed.
Theorem c91_once_per_second : forall c s e m s' o, reach c s -> step e m s = Some (s', o) -> now e <= upd (pst s) ->
  oracle (pst s') = oracle (pst s).
Proof.
  intros c s e m s' o R H T. pose proof (reach_inv _ _ R) as I.
  destruct (price_step _ _ _ _ _ I H) as [(-> & _)|[(w & n & imb & mins & xr & _ & _ & ->)|(ps1 & _ & _ & A & B)]]; auto.
  assert (Q : upd ps1 = upd (pst s) /\ oracle ps1 = oracle (pst s)) by (destruct A as [(-> & _)|(_ & _ & ->)]; auto).
  destruct Q as (Q1 & Q2). destruct B as [->|(tot & x0 & x1 & price & _ & U)]; [exact Q2|].
  apply update_price_fields in U as (ps2 & M & -> & _). unfold move_oracle in M.
  destruct (upd ps1 <? now e) eqn:L; bools; [lia|]. injection M as <-. exact Q2.
Qed.
(** The oracle can always be moved: its computation never makes a trade fail. *)
Theorem c91_defined : forall c s t price, reach c s -> 0 <= t <= U64MAX -> move_oracle (par s) (pst s) t price <> None.
Proof.
  intros c s t price R T. pose proof (reach_prange _ _ R) as ((U0 & U1) & O & L). pose proof (reach_inv _ _ R) as I.
  pose proof (i_par _ I) as (_ & _ & _ & _ & _ & Hh). unfold move_oracle.
  destruct (upd (pst s) <? t) eqn:Lt; bools; [|discriminate].
  destruct (weight (t - upd (pst s)) (half_time (par s))) as (arg & al & -> & W2 & W3 & _); [lia|lia|].
  cbv iota beta. rewrite W2. cbv iota beta. pose proof DEC_pos as D.
  assert (E1 : sub256 DEC al = Some (DEC - al)) by (apply sub256_Some; split; [reflexivity|unfold U256MAX, DEC in *; lia]).
  rewrite E1. cbv iota beta.
  assert (E2 : exists t1, dmul256 (last (pst s)) (DEC - al) = Some t1 /\ 0 <= t1 /\ DEC * t1 <= last (pst s) * (DEC - al)).
  { eexists. split; [apply dmul256_Some; split; [reflexivity|]; split|split].
    - apply div_nonneg; nia.
    - apply Z.div_le_upper_bound; [lia|]. nia.
    - apply div_nonneg; nia.
    - apply div_mul_le; lia. }
  assert (E3 : exists t2, dmul256 (oracle (pst s)) al = Some t2 /\ 0 <= t2 /\ DEC * t2 <= oracle (pst s) * al).
  { eexists. split; [apply dmul256_Some; split; [reflexivity|]; split|split].
    - apply div_nonneg; nia.
    - apply Z.div_le_upper_bound; [lia|]. nia.
    - apply div_nonneg; nia.
    - apply div_mul_le; lia. }
  destruct E2 as (t1 & -> & P1 & Q1). destruct E3 as (t2 & -> & P2 & Q2). cbv iota beta.
  assert (E4 : add256 t1 t2 = Some (t1 + t2)).
  { apply add256_Some. split; [reflexivity|]. split; [lia|]. nia. }
  rewrite E4. discriminate.
Qed.

Print Assumptions c90_withdraw.
Print Assumptions c90_provide.
Print Assumptions c90_first_deposit.
Print Assumptions c89_step.
Print Assumptions c89_scale_kept.
Print Assumptions c89_history.
Print Assumptions c89_lp_price.
Print Assumptions c96_repeg.
Print Assumptions c91_oracle.
Print Assumptions c91_not_by_own_trade.
Print Assumptions c91_once_per_second.
Print Assumptions c91_defined.
