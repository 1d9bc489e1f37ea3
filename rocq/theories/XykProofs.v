From Coq Require Import ZArith Lia Bool List.
From Verif Require Import Num Ledger Hist SnapshotModel SnapshotProofs XykModel XykSpec.
Import ListNotations.
Open Scope Z_scope.

(** ** compute_swap *)

Lemma compute_swap_inv o x a c ret spread comm :
  compute_swap o x a c = Some (ret, spread, comm) ->
  0 <= o -> 0 <= x -> 0 <= a ->
  let q := o * x * DEC / (o + a) in
  let g := (x * DEC - q) / DEC in
  0 < o /\ 0 < x /\ 0 < a /\ q <= x * DEC /\
  ret + comm = g /\ comm = g * c / DEC /\ 0 <= ret <= U128MAX /\ 0 <= comm <= U128MAX /\
  spread = Z.max 0 (a * (x * DEC / o) / DEC - g).
Proof.
  intros H Ho Hx Ha q g.
  unfold compute_swap in H. step_inv H. inversion H; subst; clear H.
  bools. num_inv. unfold ssub in *.
  rewrite Z.div_1_r in *. rewrite Z.mul_1_l in *.
  subst g. subst q. repeat split; lia.
Qed.

Lemma swap_core o x a :
  0 < o -> 0 < x -> 0 < a ->
  let q := o * x * DEC / (o + a) in
  let g := (x * DEC - q) / DEC in
  0 <= g <= x /\
  DEC * (o * x) - (o + a) < DEC * ((x - g) * (o + a)) /\
  (x - g - 1) * (o + a) < o * x.
Proof.
  intros Ho Hx Ha q g. pose proof DEC_pos as HD.
  pose proof (div_mul_le (o * x * DEC) (o + a) ltac:(lia)) as Hq1.
  pose proof (div_mul_gt (o * x * DEC) (o + a) ltac:(lia)) as Hq2.
  fold q in Hq1, Hq2.
  pose proof (div_mul_le (x * DEC - q) DEC HD) as Hg1.
  pose proof (div_mul_gt (x * DEC - q) DEC HD) as Hg2.
  fold g in Hg1, Hg2. clearbody q g.
  assert (Hq0 : 0 <= q) by nia.
  assert (Hqx : q <= x * DEC) by nia.
  repeat split.
  - nia.
  - nia.
  - assert (q <= DEC * (x - g)) by lia.
    assert ((o + a) * q <= (o + a) * (DEC * (x - g))) by (apply Z.mul_le_mono_nonneg_l; lia).
    lia.
  - assert (DEC * (x - g - 1) < q) by lia.
    assert ((o + a) * (DEC * (x - g - 1)) < (o + a) * q) by (apply Z.mul_lt_mono_pos_l; lia).
    assert (DEC * ((x - g - 1) * (o + a)) < DEC * (o * x)) by lia.
    apply Z.mul_lt_mono_pos_l in H1; lia.
Qed.

Lemma kept_product o x a g kept :
  0 < o -> 0 < a ->
  DEC * (o * x) - (o + a) < DEC * ((x - g) * (o + a)) ->
  0 <= kept -> (o + a <= DEC \/ 1 <= kept) ->
  o * x <= (x - g + kept) * (o + a).
Proof.
  intros Ho Ha H Hk [Hs|Hs]; pose proof DEC_pos.
  - assert (o * x - 1 < (x - g) * (o + a)); [|nia].
    apply (Z.mul_lt_mono_pos_l DEC); lia.
  - assert (o * x - (o + a) < (x - g) * (o + a)); [|nia].
    apply (Z.mul_lt_mono_pos_l DEC); [lia|].
    assert (1 * (o + a) <= DEC * (o + a)) by (apply Z.mul_le_mono_nonneg_r; lia).
    lia.
Qed.

(** Commission bounds for a rate of at most 100%. *)
Lemma frac_le g c : 0 <= g -> 0 <= c <= DEC -> 0 <= g * c / DEC <= g.
Proof.
  intros. pose proof DEC_pos. split; [apply Z.div_pos; nia|].
  apply Z.div_le_upper_bound; nia.
Qed.

Lemma swap_amounts_inv fi bps o x a belief ms so :
  swap_amounts fi bps o x a belief ms = Some so ->
  0 <= o -> 0 <= x -> 0 <= a -> fees_ok fi -> bps_ok bps ->
  let q := o * x * DEC / (o + a) in
  let g := (x * DEC - q) / DEC in
  0 < o /\ 0 < x /\ 0 < a /\
  so_return so + so_commission so = g /\
  so_commission so = g * total_fee fi / DEC /\
  0 <= so_return so /\ 0 <= so_commission so /\
  0 <= so_share so /\ 0 <= so_maker so /\ so_share so + so_maker so <= so_commission so /\
  so_spread so = Z.max 0 (a * (x * DEC / o) / DEC - g) /\
  assert_max_spread belief ms a g (so_spread so) = Some tt.
Proof.
  intros H Ho Hx Ha [Hf Hm] Hb q g.
  unfold swap_amounts in H.
  unbind H as [[ret spread] comm] Ec. unbind H as gross Eg. unbind H as u Ea.
  unbind H as shr Es. unbind H as maker Em. inversion H; subst so; clear H.
  cbn [so_return so_spread so_commission so_maker so_share].
  apply compute_swap_inv in Ec; auto. cbv zeta in Ec. fold q in Ec. fold g in Ec.
  destruct Ec as (Ho' & Hx' & Ha' & Hq & Hg & Hc & Hr & Hcm & Hsp).
  num_inv1 Eg. destruct Eg as [-> Hgr]. rewrite Hg in *. clearbody g.
  assert (Hsh : 0 <= shr <= comm).
  { destruct bps as [b|]; [|inversion Es; lia].
    simpl in Hb. unbind Es as rate Er. num_inv.
    apply frac_le; [lia|]. pose proof DEC_pos. split.
    - apply Z.div_pos; nia.
    - apply Z.div_le_upper_bound; nia. }
  assert (Hmk : 0 <= maker <= ssub comm shr).
  { unfold ssub in *. destruct (maker_on fi).
    - num_inv. apply frac_le; lia.
    - inversion Em; lia. }
  unfold ssub in Hmk. destruct u. repeat split; auto; lia.
Qed.

(** ** Withdrawal share *)
Lemma share_of_bounds p amount S v :
  share_of p amount S = Some v -> 0 <= p -> 0 <= amount -> 0 < S ->
  0 <= v /\ v * S <= p * amount /\ (amount <= S -> v <= p).
Proof.
  unfold share_of, share_ratio. intros H Hp Ha HS.
  destruct (Z.eqb_spec S 0) as [->|_]; [lia|].
  unbind H as r Er. num_inv. pose proof DEC_pos as HD.
  pose proof (div_mul_le (amount * DEC) S HS) as Hs1.
  assert (0 <= amount * DEC / S) by (apply Z.div_pos; nia).
  set (r := amount * DEC / S) in *.
  pose proof (div_mul_le (p * r) DEC HD) as Hs7.
  assert (0 <= p * r / DEC) by (apply Z.div_pos; nia).
  set (v := p * r / DEC) in *. clearbody v r.
  assert (Hvs : v * S <= p * amount).
  { assert (DEC * (v * S) <= DEC * (p * amount)); [|nia].
    assert (DEC * v * S <= p * r * S) by (apply Z.mul_le_mono_nonneg_r; lia).
    assert (p * (S * r) <= p * (amount * DEC)) by (apply Z.mul_le_mono_nonneg_l; lia).
    lia. }
  repeat split; auto. intros. nia.
Qed.

(** ** Invariant of reachable states *)
Record inv0 (s : state) : Prop := mkInv0
  { j_r0 : 0 <= r0 s; j_r1 : 0 <= r1 s;
    j_nn : nonneg (lp s); j_tot : total (lp s) = supply s;
    j_lock : supply s = 0 \/ MINIMUM_LIQUIDITY <= get (lp s) SELF;
    j_bps : bps_ok (fshare s) }.

Lemma init_inv0 b : inv0 (init b).
Proof. constructor; simpl; try lia; auto; constructor. Qed.

(** Shape of each successful operation. *)
Lemma provide_inv e s rcv d0 d1 tol ml s' o :
  provide e s rcv d0 d1 tol ml = Some (s', o) ->
  exists share, o = OProvide share /\ 0 < d0 /\ 0 < d1 /\
    calculate_shares d0 d1 (r0 s) (r1 s) (supply s) tol = Some share /\
    (forall m, ml = Some m -> m <= share) /\
    r0 s' = r0 s + d0 /\ r1 s' = r1 s + d1 /\
    fshare s' = fshare s /\ track s' = track s /\
    upd_prices e s = Some (c0 s', c1 s', last_t s') /\
    (h0 s', h1 s') = track_save s (height e) (r0 s') (r1 s') /\
    (supply s = 0 ->
       supply s' = MINIMUM_LIQUIDITY + share /\
       lp s' = let l1 := set (lp s) SELF (get (lp s) SELF + MINIMUM_LIQUIDITY) in
               set l1 rcv (get l1 rcv + share)) /\
    (supply s <> 0 -> supply s' = supply s + share /\ lp s' = set (lp s) rcv (get (lp s) rcv + share)).
Proof.
  intros H. unfold provide in H. unguard H Eg. unbind H as share Es. unguard H Em.
  unbind H as n0 E0. unbind H as n1 E1. unbind H as [[cc0 cc1] tt] Ep.
  destruct (track_save s (height e) n0 n1) as [s0 s1] eqn:Et.
  inversion H; subst s' o; clear H. bools. num_inv. exists share.
  cbn [r0 r1 supply lp c0 c1 last_t fshare track h0 h1].
  repeat split; auto; try (destruct (Z.eqb_spec (supply s) 0); [|congruence]; reflexivity || lia).
  - intros m ->. auto.
  - destruct (Z.eqb_spec (supply s) 0); [congruence|]. lia.
Qed.

Lemma withdraw_inv e s who amount mins s' o :
  withdraw e s who amount mins = Some (s', o) ->
  exists a0 a1, o = OWithdraw a0 a1 /\ who <> SELF /\ 0 < amount <= get (lp s) who /\
    share_of (r0 s) amount (supply s) = Some a0 /\ share_of (r1 s) amount (supply s) = Some a1 /\
    (forall m0 m1, mins = Some (m0, m1) -> m0 <= a0 /\ m1 <= a1) /\
    r0 s' = r0 s - a0 /\ r1 s' = r1 s - a1 /\ supply s' = supply s - amount /\
    lp s' = set (lp s) who (get (lp s) who - amount) /\
    fshare s' = fshare s /\ track s' = track s /\
    upd_prices e s = Some (c0 s', c1 s', last_t s') /\
    (h0 s', h1 s') = track_save s (height e) (r0 s') (r1 s') /\
    0 <= r0 s' /\ 0 <= r1 s'.
Proof.
  intros H. unfold withdraw in H. unguard H Eg. unbind H as a0 Ea0. unbind H as a1 Ea1.
  unguard H Em. unbind H as n0 E0. unbind H as n1 E1. unbind H as [[cc0 cc1] tt] Ep.
  destruct (track_save s (height e) n0 n1) as [s0 s1] eqn:Et.
  inversion H; subst s' o; clear H. bools. num_inv. exists a0, a1.
  cbn [r0 r1 supply lp c0 c1 last_t fshare track h0 h1].
  repeat split; auto; try lia; subst; bools; auto.
Qed.

Lemma swap_inv e s one offer belief ms s' o :
  swap e s one offer belief ms = Some (s', o) ->
  let rin t := if one then r1 t else r0 t in
  let rout t := if one then r0 t else r1 t in
  exists so, o = OSwap so /\
    swap_amounts (fees e) (fshare s) (rin s) (rout s) offer belief ms = Some so /\
    rin s' = rin s + offer /\ rout s' = rout s - so_return so - so_maker so - so_share so /\
    0 <= rout s' /\ supply s' = supply s /\ lp s' = lp s /\ fshare s' = fshare s /\
    track s' = track s /\
    upd_prices e s = Some (c0 s', c1 s', last_t s') /\
    (h0 s', h1 s') = track_save s (height e) (r0 s') (r1 s').
Proof.
  intros H rin rout. unfold swap in H. fold (rin s) in H. fold (rout s) in H.
  unbind H as so Eso. unbind H as no Eno. unbind H as k1 Ek1. unbind H as k2 Ek2.
  unbind H as na Ena. unbind H as [[cc0 cc1] tt] Ep.
  destruct (track_save s (height e) _ _) as [s0 s1] eqn:Et.
  inversion H; subst s' o; clear H. num_inv. exists so.
  unfold rin, rout in *. destruct one; cbn [r0 r1 supply lp c0 c1 last_t fshare track h0 h1] in *;
  repeat split; auto; lia.
Qed.

Lemma shares_bound d0 d1 p0 p1 S tol share :
  calculate_shares d0 d1 p0 p1 S tol = Some share ->
  0 < d0 -> 0 < d1 -> 0 <= p0 -> 0 <= p1 -> 0 < S ->
  0 < p0 /\ 0 < p1 /\ 0 <= share /\ share * p0 <= d0 * S /\ share * p1 <= d1 * S.
Proof.
  intros H Hd0 Hd1 Hp0 Hp1 HS. unfold calculate_shares in H.
  destruct (Z.eqb_spec S 0); [lia|].
  unbind H as u Eu. unbind H as s0 E0. unbind H as s1 E1. inversion H; subst; clear H. num_inv.
  pose proof (div_mul_le (d0 * S) p0 ltac:(lia)). pose proof (div_mul_le (d1 * S) p1 ltac:(lia)).
  split; [lia|]. split; [lia|]. split; [lia|]. split; nia.
Qed.

Lemma first_shares d0 d1 p0 p1 tol share :
  calculate_shares d0 d1 p0 p1 0 tol = Some share -> 0 < d0 -> 0 < d1 ->
  0 < share /\ (MINIMUM_LIQUIDITY + share) * (MINIMUM_LIQUIDITY + share) <= d0 * d1.
Proof.
  intros H Hd0 Hd1. unfold calculate_shares in H. rewrite Z.eqb_refl in H.
  unbind H as sh E. unguard H Eg. inversion H; subst; clear H. num_inv. bools.
  pose proof (Z.sqrt_spec (d0 * d1) ltac:(nia)) as Hsq. cbv zeta in Hsq. split; [lia|].
  replace (MINIMUM_LIQUIDITY + (Z.sqrt (d0 * d1) - MINIMUM_LIQUIDITY)) with (Z.sqrt (d0 * d1)) by lia.
  lia.
Qed.

Lemma step_inv0 e m s s' o :
  env_ok e -> inv0 s -> step e m s = Some (s', o) -> inv0 s'.
Proof.
  intros He I H. destruct I as [I0 I1 In It Il Ib]. destruct m; simpl in H.
  - apply provide_inv in H.
    destruct H as (share & -> & Hd0 & Hd1 & Hc & _ & R0 & R1 & Ef & _ & _ & _ & H1 & H2).
    pose proof (nonneg_get (lp s) receiver In) as Hg.
    pose proof (nonneg_get (lp s) SELF In) as Hgs.
    destruct (Z.eq_dec (supply s) 0) as [E|E].
    + destruct (H1 E) as [Hs Hl]. rewrite E in Hc.
      apply first_shares in Hc; auto. destruct Hc as [Hsh _].
      set (l1 := set (lp s) SELF (get (lp s) SELF + MINIMUM_LIQUIDITY)) in *.
      assert (N1 : nonneg l1) by (apply nonneg_set; auto; unfold MINIMUM_LIQUIDITY; lia).
      pose proof (nonneg_get l1 receiver N1).
      constructor; try lia.
      * rewrite Hl. apply nonneg_set; auto. lia.
      * rewrite Hl, total_set. unfold l1 at 1. rewrite total_set. lia.
      * right. rewrite Hl. destruct (Z.eq_dec receiver SELF) as [->|Hn].
        -- rewrite get_set_same. unfold l1. rewrite get_set_same. lia.
        -- rewrite get_set_other by auto. unfold l1. rewrite get_set_same. lia.
      * rewrite Ef. auto.
    + destruct (H2 E) as [Hs Hl]. pose proof (nonneg_total (lp s) In).
      apply shares_bound in Hc; auto; [|lia]. destruct Hc as (_ & _ & Hsh & _).
      constructor; try lia.
      * rewrite Hl. apply nonneg_set; auto. lia.
      * rewrite Hl, total_set. lia.
      * right. destruct Il as [Il|Il]; [lia|]. rewrite Hl.
        destruct (Z.eq_dec receiver SELF) as [->|Hn].
        -- rewrite get_set_same. lia.
        -- rewrite get_set_other by auto. lia.
      * rewrite Ef. auto.
  - apply withdraw_inv in H.
    destruct H as (a0 & a1 & -> & Hw & Ha & _ & _ & _ & R0 & R1 & Hs & Hl & Ef & _ & _ & _ & P0 & P1).
    constructor; auto.
    + rewrite Hl. apply nonneg_set; auto. lia.
    + rewrite Hl, total_set. lia.
    + destruct Il as [Il|Il].
      * pose proof (get_le_total (lp s) who In). lia.
      * right. rewrite Hl, get_set_other by auto. lia.
    + rewrite Ef. auto.
  - unguard H Ho. apply swap_inv in H. cbv zeta in H.
    destruct H as (so & -> & _ & Rin & Rout & Po & Hs & Hl & Ef & _). bools.
    destruct offer_ind; constructor; try lia; rewrite ?Hl, ?Hs, ?Ef; auto.
  - unguard H E. inversion H; subst; clear H. constructor; simpl; auto.
    bools. unfold MAX_FEE_SHARE_BPS in *. lia.
  - unguard H E. inversion H; subst; clear H. constructor; simpl; auto.
  - unguard H E. unbind H as n En. inversion H; subst; clear H. bools. num_inv.
    destruct asset; constructor; simpl; auto; lia.
  - unguard H E. inversion H; subst; clear H. bools.
    constructor; simpl; auto.
    + apply nonneg_move; auto.
    + rewrite total_move. auto.
    + destruct Il as [Il|Il]; [auto|]. right.
      destruct (Z.eq_dec to SELF) as [->|Hn].
      * rewrite get_move_to by auto. lia.
      * rewrite get_move_other; auto.
Qed.

Lemma exec_inv0 s em : env_ok (fst em) -> inv0 s -> inv0 (exec s em).
Proof.
  intros He I. unfold exec. destruct (step (fst em) (snd em) s) as [[s' o]|] eqn:E; auto.
  eapply step_inv0; eauto.
Qed.

Lemma run_inv0 l : forall s, envs_ok l -> inv0 s -> inv0 (run s l).
Proof.
  induction l as [|em l IH]; simpl; intros s Hl I; auto.
  inversion Hl; subst. apply IH; auto. apply exec_inv0; auto.
Qed.

(** ** The product invariant *)

Lemma swap_product e s one offer belief ms s' so :
  env_ok e -> inv0 s -> 0 < offer ->
  swap e s one offer belief ms = Some (s', OSwap so) ->
  0 < r0 s /\ 0 < r1 s /\
  let rin t := if one then r1 t else r0 t in
  r0 s * r1 s * DEC < r0 s' * r1 s' * DEC + rin s' /\
  (rin s' <= DEC \/ 1 <= kept so -> r0 s * r1 s <= r0 s' * r1 s').
Proof.
  intros He I Ho H. apply swap_inv in H. cbv zeta in H.
  destruct H as (so' & Eo & Ha & Rin & Rout & Po & _). inversion Eo; subst so'; clear Eo.
  destruct I as [I0 I1 _ _ _ Ib].
  assert (Hin : 0 <= (if one then r1 s else r0 s)) by (destruct one; auto).
  assert (Hout : 0 <= (if one then r0 s else r1 s)) by (destruct one; auto).
  apply swap_amounts_inv in Ha; auto; [|lia]. cbv zeta in Ha.
  destruct Ha as (P1 & P2 & P3 & Hg & _ & Hr & Hc & Hs & Hm & Hsm & _).
  destruct (swap_core _ _ _ P1 P2 P3) as (G1 & G2 & _).
  cbv zeta in G1, G2. rewrite <- Hg in *.
  assert (Hk : 0 <= kept so) by (unfold kept; lia).
  assert (Hk2 : (if one then r0 s' else r1 s') =
                (if one then r0 s else r1 s) - (so_return so + so_commission so) + kept so)
    by (unfold kept; lia).
  pose proof (kept_product _ _ _ _ (kept so) P1 P3 G2 Hk) as KP.
  pose proof DEC_pos.
  destruct one; (split; [lia|split; [lia|]]); cbv zeta; rewrite <- ?Rin, <- ?Hk2 in *.
  - split.
    + rewrite Hk2. assert (0 <= kept so * r1 s' * DEC) by (apply Z.mul_nonneg_nonneg; nia). lia.
    + intros Hreg. specialize (KP Hreg). lia.
  - split.
    + rewrite Hk2. assert (0 <= kept so * r0 s' * DEC) by (apply Z.mul_nonneg_nonneg; nia). lia.
    + intros Hreg. specialize (KP Hreg). lia.
Qed.

Lemma prod_helper a b c d S T :
  0 <= a -> 0 <= b -> 0 <= T -> a * T <= c * S -> b * T <= d * S ->
  a * b * (T * T) <= c * d * (S * S).
Proof.
  intros Ha Hb HT H1 H2.
  assert (H : a * T * (b * T) <= c * S * (d * S)) by (apply Z.mul_le_mono_nonneg; nia).
  lia.
Qed.

Lemma step_regular_product e m s s' o :
  env_ok e -> inv0 s -> 0 < supply s -> step e m s = Some (s', o) -> regular m s' o ->
  r0 s * r1 s * (supply s' * supply s') <= r0 s' * r1 s' * (supply s * supply s).
Proof.
  intros He I HS H Hreg. destruct m; simpl in H.
  - apply provide_inv in H. destruct I as [I0 I1 _ _ _ _].
    destruct H as (share & -> & Hd0 & Hd1 & Hc & _ & R0 & R1 & _ & _ & _ & _ & _ & H2).
    destruct H2 as [Hs _]; [lia|].
    apply shares_bound in Hc; auto. destruct Hc as (P0 & P1 & Hsh & B0 & B1).
    rewrite R0, R1, Hs.
    assert (A0 : r0 s * (supply s + share) <= (r0 s + d0) * supply s) by lia.
    assert (A1 : r1 s * (supply s + share) <= (r1 s + d1) * supply s) by lia.
    apply prod_helper; lia.
  - apply withdraw_inv in H.
    destruct H as (a0 & a1 & -> & Hw & Ha & E0 & E1 & _ & R0 & R1 & Hs & _).
    pose proof (get_le_total (lp s) who (j_nn _ I)). rewrite (j_tot _ I) in *.
    destruct I as [I0 I1 _ _ _ _].
    apply share_of_bounds in E0; auto; [|lia]. apply share_of_bounds in E1; auto; [|lia].
    rewrite R0, R1, Hs.
    assert (A0 : r0 s * (supply s - amount) <= (r0 s - a0) * supply s) by lia.
    assert (A1 : r1 s * (supply s - amount) <= (r1 s - a1) * supply s) by lia.
    apply prod_helper; lia.
  - unguard H Ho. bools. pose proof H as H'. apply swap_inv in H'. cbv zeta in H'.
    destruct H' as (so & -> & _ & _ & _ & _ & Hs & _).
    apply swap_product in H; auto. destruct H as (_ & _ & _ & H).
    simpl in Hreg. specialize (H Hreg). rewrite Hs. nia.
  - unguard H E. inversion H; subst; clear H. simpl. lia.
  - unguard H E. inversion H; subst; clear H. simpl. lia.
  - unguard H E. unbind H as n En. inversion H; subst; clear H. bools. num_inv.
    destruct I as [I0 I1 _ _ _ _]. destruct asset; cbn [r0 r1 supply];
    apply Z.mul_le_mono_nonneg_r; nia.
  - unguard H E. inversion H; subst; clear H. simpl. lia.
Qed.

(** ** Liveness of the locked minimum *)
Lemma step_locked e m s s' o :
  env_ok e -> inv0 s -> MINIMUM_LIQUIDITY <= get (lp s) SELF -> step e m s = Some (s', o) ->
  MINIMUM_LIQUIDITY <= get (lp s') SELF.
Proof.
  intros He I L H. pose proof (step_inv0 _ _ _ _ _ He I H) as I'.
  destruct (j_lock _ I') as [Z0|]; auto. exfalso.
  pose proof (get_le_total (lp s) SELF (j_nn _ I)) as T. rewrite (j_tot _ I) in T.
  pose proof (j_nn _ I) as N.
  assert (HM : 0 < MINIMUM_LIQUIDITY) by reflexivity.
  destruct m; simpl in H.
  - apply provide_inv in H.
    destruct H as (share & -> & Hd0 & Hd1 & Hc & _ & _ & _ & _ & _ & _ & _ & _ & H2).
    destruct H2 as [Hs _]; [lia|]. apply shares_bound in Hc; auto; try lia; apply I.
  - apply withdraw_inv in H.
    destruct H as (a0 & a1 & -> & Hw & Ha & _ & _ & _ & _ & _ & Hs & _).
    pose proof (get2_le_total (lp s) who SELF N Hw). rewrite (j_tot _ I) in *. lia.
  - unguard H Ho. apply swap_inv in H. cbv zeta in H.
    destruct H as (so & -> & _ & _ & _ & _ & Hs & _). lia.
  - unguard H E. inversion H; subst; clear H. simpl in *. lia.
  - unguard H E. inversion H; subst; clear H. simpl in *. lia.
  - unguard H E. unbind H as n En. inversion H; subst; clear H. simpl in *. lia.
  - unguard H E. inversion H; subst; clear H. simpl in *. lia.
Qed.

Lemma supply_pos s : inv0 s -> MINIMUM_LIQUIDITY <= get (lp s) SELF -> MINIMUM_LIQUIDITY <= supply s.
Proof.
  intros I L. pose proof (get_le_total (lp s) SELF (j_nn _ I)) as T. rewrite (j_tot _ I) in T. lia.
Qed.

Lemma locked_of_supply s : inv0 s -> 0 < supply s -> MINIMUM_LIQUIDITY <= get (lp s) SELF.
Proof. intros I H. destruct (j_lock _ I); lia. Qed.

Lemma run_locked l : forall s, envs_ok l -> inv0 s -> 0 < supply s ->
  MINIMUM_LIQUIDITY <= supply (run s l) /\ inv0 (run s l).
Proof.
  induction l as [|em l IH]; intros s Hl I HS.
  - split; auto. apply supply_pos; auto. apply locked_of_supply; auto.
  - inversion Hl; subst. simpl. apply IH; auto.
    + apply exec_inv0; auto.
    + unfold exec. destruct (step (fst em) (snd em) s) as [[s' o]|] eqn:E; auto.
      pose proof (step_inv0 _ _ _ _ _ H1 I E) as I'.
      pose proof (step_locked _ _ _ _ _ H1 I (locked_of_supply _ I HS) E) as L.
      pose proof (supply_pos _ I' L). assert (0 < MINIMUM_LIQUIDITY) by reflexivity. lia.
Qed.

Lemma run_regular_product l : forall s, envs_ok l -> inv0 s -> 0 < supply s -> all_regular s l ->
  r0 s * r1 s * (supply (run s l) * supply (run s l)) <=
  r0 (run s l) * r1 (run s l) * (supply s * supply s).
Proof.
  induction l as [|[e m] l IH]; intros s Hl I HS HR; simpl in *; [lia|].
  inversion Hl; subst. unfold exec. unfold all_regular in HR. simpl in *.
  destruct (step e m s) as [[s' o]|] eqn:E; [|auto].
  destruct HR as [HR1 HR2].
  pose proof (step_inv0 _ _ _ _ _ H1 I E) as I'.
  pose proof (step_locked _ _ _ _ _ H1 I (locked_of_supply _ I HS) E) as L.
  pose proof (supply_pos _ I' L) as HS'. assert (HM : 0 < MINIMUM_LIQUIDITY) by reflexivity.
  specialize (IH s' H2 I' ltac:(lia) HR2).
  pose proof (step_regular_product _ _ _ _ _ H1 I HS E HR1) as P.
  destruct (run_locked l s' H2 I' ltac:(lia)) as [L2 _].
  set (t := run s' l) in *. clearbody t.
  (* k S'^2 <= k' S^2 and k' T^2 <= k'' S'^2 *)
  apply (Zmult_le_reg_r _ _ (supply s' * supply s')); [nia|].
  assert (A : r0 s * r1 s * (supply s' * supply s') * (supply t * supply t) <=
              r0 s' * r1 s' * (supply s * supply s) * (supply t * supply t))
    by (apply Z.mul_le_mono_nonneg_r; nia).
  assert (B : r0 s' * r1 s' * (supply t * supply t) * (supply s * supply s) <=
              r0 t * r1 t * (supply s' * supply s') * (supply s * supply s))
    by (apply Z.mul_le_mono_nonneg_r; nia).
  lia.
Qed.

Lemma step_liq_per_share e m s s' o :
  env_ok e -> inv0 s -> 0 < supply s -> liq m -> step e m s = Some (s', o) ->
  r0 s * supply s' <= r0 s' * supply s /\ r1 s * supply s' <= r1 s' * supply s.
Proof.
  intros He I HS Hm H. destruct m; simpl in H, Hm; try tauto.
  - apply provide_inv in H. destruct I as [I0 I1 _ _ _ _].
    destruct H as (share & -> & Hd0 & Hd1 & Hc & _ & R0 & R1 & _ & _ & _ & _ & _ & H2).
    destruct H2 as [Hs _]; [lia|].
    apply shares_bound in Hc; auto. rewrite R0, R1, Hs. lia.
  - apply withdraw_inv in H.
    destruct H as (a0 & a1 & -> & Hw & Ha & E0 & E1 & _ & R0 & R1 & Hs & _).
    pose proof (get_le_total (lp s) who (j_nn _ I)). rewrite (j_tot _ I) in *.
    destruct I as [I0 I1 _ _ _ _].
    apply share_of_bounds in E0; auto; [|lia]. apply share_of_bounds in E1; auto; [|lia].
    rewrite R0, R1, Hs. lia.
Qed.

(** ** Reserves stay positive *)
Lemma step_positive e m s s' o :
  env_ok e -> inv0 s -> 0 < supply s -> 0 < r0 s -> 0 < r1 s ->
  step e m s = Some (s', o) -> regular m s' o -> 0 < r0 s' /\ 0 < r1 s'.
Proof.
  intros He I HS P0 P1 H Hr.
  pose proof (step_regular_product _ _ _ _ _ He I HS H Hr) as K.
  pose proof (step_inv0 _ _ _ _ _ He I H) as I'.
  pose proof (step_locked _ _ _ _ _ He I (locked_of_supply _ I HS) H) as L.
  pose proof (supply_pos _ I' L) as HS'. assert (HM : 0 < MINIMUM_LIQUIDITY) by reflexivity.
  destruct I' as [J0 J1 _ _ _ _].
  assert (0 < r0 s * r1 s * (supply s' * supply s')) by (repeat apply Z.mul_pos_pos; lia).
  assert (0 < r0 s' * r1 s' * (supply s * supply s)) by lia.
  assert (0 < r0 s' * r1 s').
  { destruct (Z.le_gt_cases (r0 s' * r1 s') 0); auto. nia. }
  nia.
Qed.

Lemma run_alive l : forall s, envs_ok l -> inv0 s -> alive s -> all_regular s l -> alive (run s l).
Proof.
  induction l as [|[e m] l IH]; intros s Hl I A HR; simpl in *; auto.
  inversion Hl; subst. unfold exec. unfold all_regular in HR. simpl in *.
  destruct (step e m s) as [[s' o]|] eqn:E; [|auto]. destruct HR as [HR1 HR2].
  assert (HM : 0 < MINIMUM_LIQUIDITY) by reflexivity. destruct A as (A1 & A2 & A3).
  pose proof (step_inv0 _ _ _ _ _ H1 I E) as I'.
  apply IH; auto. split.
  - apply supply_pos; auto. apply (step_locked _ _ _ _ _ H1 I (locked_of_supply _ I ltac:(lia)) E).
  - apply (step_positive _ _ _ _ _ H1 I ltac:(lia) A2 A3 E HR1).
Qed.

Lemma first_provide_alive e s who rcv d0 d1 tol ml s' o :
  env_ok e -> inv0 s -> supply s = 0 -> step e (Provide who rcv d0 d1 tol ml) s = Some (s', o) ->
  alive s'.
Proof.
  intros He I H0 H. simpl in H. pose proof I as I'. destruct I' as [I0 I1 _ _ _ _]. apply provide_inv in H.
  destruct H as (share & -> & Hd0 & Hd1 & Hc & _ & R0 & R1 & _ & _ & _ & _ & H1 & _).
  destruct (H1 H0) as [Hs _]. rewrite H0 in Hc. apply first_shares in Hc; auto.
  unfold alive, MINIMUM_LIQUIDITY in *. lia.
Qed.

(** ** Round trips *)
Lemma provide_withdraw_round e e' s rcv d0 d1 tol ml s1 share mins s2 a0 a1 :
  inv0 s -> 0 < supply s ->
  provide e s rcv d0 d1 tol ml = Some (s1, OProvide share) ->
  withdraw e' s1 rcv share mins = Some (s2, OWithdraw a0 a1) ->
  a0 <= d0 /\ a1 <= d1.
Proof.
  intros I HS H1 H2. destruct I as [I0 I1 _ _ _ _].
  apply provide_inv in H1.
  destruct H1 as (sh & Eo & Hd0 & Hd1 & Hc & _ & R0 & R1 & _ & _ & _ & _ & _ & H).
  inversion Eo; subst sh; clear Eo. destruct H as [Hs _]; [lia|].
  apply shares_bound in Hc; auto. destruct Hc as (P0 & P1 & Hsh & B0 & B1).
  apply withdraw_inv in H2.
  destruct H2 as (b0 & b1 & Eo & _ & Ha & E0 & E1 & _). inversion Eo; subst b0 b1; clear Eo.
  apply share_of_bounds in E0; try lia. apply share_of_bounds in E1; try lia.
  rewrite R0, R1, Hs in *. split; nia.
Qed.

Lemma swap_round e1 e2 s one a bel1 ms1 s1 so1 bel2 ms2 s2 so2 :
  env_ok e1 -> env_ok e2 -> inv0 s -> 0 < a ->
  swap e1 s one a bel1 ms1 = Some (s1, OSwap so1) ->
  swap e2 s1 (negb one) (so_return so1) bel2 ms2 = Some (s2, OSwap so2) ->
  regular (Swap one a bel1 ms1) s1 (OSwap so1) ->
  regular (Swap (negb one) (so_return so1) bel2 ms2) s2 (OSwap so2) ->
  so_return so2 <= a.
Proof.
  intros He1 He2 I Ha H1 H2 R1 R2.
  assert (I1 : inv0 s1).
  { apply (step_inv0 e1 (Swap one a bel1 ms1) s s1 (OSwap so1)); auto. simpl.
    destruct (Z.ltb_spec 0 a); [auto|lia]. }
  pose proof H1 as K1. apply swap_product in K1; auto. destruct K1 as (P0 & P1 & _ & K1). specialize (K1 R1).
  apply swap_inv in H1. cbv zeta in H1.
  destruct H1 as (x1 & Eo & A1 & Rin1 & Rout1 & Po1 & _). inversion Eo; subst x1; clear Eo.
  pose proof H2 as H2'. apply swap_inv in H2'. cbv zeta in H2'.
  destruct H2' as (x2 & Eo & A2 & Rin2 & Rout2 & Po2 & _). inversion Eo; subst x2; clear Eo.
  destruct I as [I0 I0' _ _ _ Ib]. pose proof I1 as I1'. destruct I1 as [J0 J1 _ _ _ Jb].
  apply swap_amounts_inv in A1; auto; try (destruct one; auto; lia). cbv zeta in A1.
  assert (Hb : 0 <= so_return so1) by tauto.
  apply swap_amounts_inv in A2; auto; try (destruct one; simpl; auto; lia). cbv zeta in A2.
  assert (Hb' : 0 < so_return so1) by tauto.
  pose proof H2 as K2. apply swap_product in K2; auto. destruct K2 as (_ & _ & _ & K2). specialize (K2 R2).
  destruct A1 as (_ & _ & _ & _ & _ & _ & _ & Q1 & Q2 & _).
  destruct A2 as (_ & _ & _ & _ & _ & _ & _ & Q3 & Q4 & _).
  destruct one; simpl in *; nia.
Qed.

(** ** Price accumulators *)

Lemma touching_step e m s s' o : touching m = true -> step e m s = Some (s', o) ->
  upd_prices e s = Some (c0 s', c1 s', last_t s') /\
  (h0 s', h1 s') = track_save s (height e) (r0 s') (r1 s') /\ track s' = track s.
Proof.
  intros T H. destruct m; simpl in T, H; try discriminate.
  - apply provide_inv in H. destruct H as (share & H). tauto.
  - apply withdraw_inv in H. destruct H as (a & b & H). tauto.
  - unguard H E. apply swap_inv in H. cbv zeta in H. destruct H as (a & H). tauto.
Qed.

Lemma untouching_step e m s s' o : touching m = false -> step e m s = Some (s', o) ->
  c0 s' = c0 s /\ c1 s' = c1 s /\ last_t s' = last_t s /\ h0 s' = h0 s /\ h1 s' = h1 s /\
  track s' = track s /\ (not_donation m = true -> r0 s' = r0 s /\ r1 s' = r1 s).
Proof.
  intros T H. destruct m; simpl in T, H; try discriminate; unguard H E.
  - inversion H; subst; simpl; tauto.
  - inversion H; subst; simpl; tauto.
  - unbind H as n En. inversion H; subst; simpl. repeat split; auto; discriminate.
  - inversion H; subst; simpl; tauto.
Qed.

Lemma contrib_0 x y : contrib 0 x y = 0.
Proof.
  unfold contrib. destruct (Z.eqb_spec x 0); simpl; auto. destruct (y =? 0); auto.
Qed.

Lemma upd_prices_inv e s a b t :
  upd_prices e s = Some (a, b, t) -> last_t s <= now e -> 0 <= c0 s < TWO128 -> 0 <= c1 s < TWO128 ->
  a = (c0 s + contrib (now e - last_t s) (r0 s) (r1 s)) mod TWO128 /\
  b = (c1 s + contrib (now e - last_t s) (r1 s) (r0 s)) mod TWO128 /\ t = now e.
Proof.
  intros H Hc B0 B1. unfold upd_prices in H. unbind H as u Eu. unfold accumulate_prices in Eu.
  destruct (Z.leb_spec (now e) (last_t s)).
  - inversion Eu; subst; clear Eu. inversion H; subst; clear H.
    replace (now e - last_t s) with 0 by lia. rewrite !contrib_0, !Z.add_0_r.
    rewrite !Z.mod_small by auto. repeat split; auto; lia.
  - unfold contrib. destruct (Z.eqb_spec (r0 s) 0) as [E0|E0]; simpl in Eu.
    { inversion Eu; subst; clear Eu. inversion H; subst; clear H. rewrite E0, !orb_true_r. simpl.
      rewrite !Z.add_0_r, !Z.mod_small by auto. auto. }
    destruct (Z.eqb_spec (r1 s) 0) as [E1|E1]; simpl in Eu.
    { inversion Eu; subst; clear Eu. inversion H; subst; clear H. simpl.
      rewrite !Z.add_0_r, !Z.mod_small by auto. auto. }
    unbind Eu as el E2. unbind Eu as i0 E3. unbind Eu as i1 E4.
    inversion Eu; subst; clear Eu. inversion H; subst; clear H.
    num_inv. unfold wadd128, TWAP_UNIT in *.
    destruct (Z.eqb_spec (r0 s) 0); [congruence|]. destruct (Z.eqb_spec (r1 s) 0); [congruence|]. simpl.
    auto.
Qed.

Lemma mod_range a : 0 <= a mod TWO128 < TWO128.
Proof. apply Z.mod_pos_bound. reflexivity. Qed.

Lemma run_integral l : forall s e a b,
  0 <= c0 s < TWO128 -> 0 <= c1 s < TWO128 ->
  Forall (fun em => last_t s <= now (fst em)) (l ++ [(e, DisableFeeShare 0)]) ->
  nondecr (fun em => now (fst em)) (l ++ [(e, DisableFeeShare 0)]) ->
  Forall (fun em => not_donation (snd em) = true) l ->
  query_cumulative e (run s l) = Some (a, b) ->
  a = (c0 s + integral (last_t s) (r0 s) (r1 s) (map ev_time (events s l)) (now e)) mod TWO128 /\
  b = (c1 s + integral (last_t s) (r1 s) (r0 s) (map swap_xy (map ev_time (events s l))) (now e)) mod TWO128.
Proof.
  induction l as [|[e1 m] l IH]; intros s e a b B0 B1 Hc Hn Hd H.
  - simpl in H. unfold query_cumulative in H. unbind H as [[a' b'] t] E. inversion H; subst; clear H.
    inversion Hc; subst. apply upd_prices_inv in E; auto. simpl. tauto.
  - simpl in Hc, Hn, Hd. destruct Hn as [Hn1 Hn2]. inversion Hc; subst. inversion Hd; subst. simpl in *.
    unfold exec in H. simpl in H. destruct (step e1 m s) as [[s' o]|] eqn:E.
    2:{ apply IH; auto. }
    destruct (touching m) eqn:T.
    + destruct (touching_step _ _ _ _ _ T E) as (U & _ & _).
      apply upd_prices_inv in U; auto. destruct U as (U0 & U1 & U2).
      apply IH in H; auto; try (rewrite ?U0, ?U1; apply mod_range).
      2:{ rewrite U2. exact Hn1. }
      cbn [map integral ev_time swap_xy fst snd]. rewrite U0, U1, U2 in H. destruct H as [-> ->].
      rewrite !Zplus_mod_idemp_l. rewrite !Z.add_assoc. auto.
    + destruct (untouching_step _ _ _ _ _ T E) as (U0 & U1 & U2 & _ & _ & _ & U3).
      destruct (U3 H4) as [U4 U5].
      apply IH in H; auto; rewrite ?U0, ?U1, ?U2, ?U4, ?U5 in *; auto.
Qed.

(** ** Balance history *)
Lemma run_app l1 l2 s : run s (l1 ++ l2) = run (run s l1) l2.
Proof. unfold run. apply fold_left_app. Qed.

Lemma events_app l1 : forall l2 s, events s (l1 ++ l2) = events s l1 ++ events (run s l1) l2.
Proof.
  induction l1 as [|[e m] l1 IH]; intros l2 s; simpl; auto.
  unfold exec. simpl. destruct (step e m s) as [[s' o]|]; auto.
  destruct (touching m); simpl; rewrite IH; auto.
Qed.

Lemma events_in l : forall s p, In p (events s l) -> In (fst p) (map fst l).
Proof.
  induction l as [|[e m] l IH]; intros s p H; simpl in *; auto.
  destruct (step e m s) as [[s' o]|]; [|right; eauto].
  destruct (touching m); [|right; eauto]. destruct H as [<-|H]; [left; auto | right; eauto].
Qed.

Lemma run_track l b : track (run (init b) l) = b.
Proof.
  induction l as [|[e m] l IH] using rev_ind; auto.
  rewrite run_app. simpl. unfold exec. simpl.
  destruct (step e m (run (init b) l)) as [[s' o]|] eqn:E; auto.
  destruct (touching m) eqn:T.
  - destruct (touching_step _ _ _ _ _ T E) as (_ & _ & ->). auto.
  - destruct (untouching_step _ _ _ _ _ T E) as (_ & _ & _ & _ & _ & -> & _). auto.
Qed.

Lemma run_history l :
  let evs := rev (events (init true) l) in
  h0 (run (init true) l) = snap_run (map sv0 evs) /\ h1 (run (init true) l) = snap_run (map sv1 evs).
Proof.
  induction l as [|[e m] l IH] using rev_ind; [split; reflexivity|].
  cbv zeta in *. rewrite run_app, events_app, rev_app_distr. simpl. unfold exec. simpl.
  pose proof (run_track l true) as Tr.
  destruct (step e m (run (init true) l)) as [[s' o]|] eqn:E; auto.
  destruct (touching m) eqn:T; simpl.
  - destruct (touching_step _ _ _ _ _ T E) as (_ & S & _). unfold track_save in S. rewrite Tr in S.
    inversion S as [[S0 S1]]. rewrite S0, S1. destruct IH as [-> ->]. auto.
  - destruct (untouching_step _ _ _ _ _ T E) as (_ & _ & _ & -> & -> & _). auto.
Qed.

Lemma history_ordered l (f : env * state -> Z * Z) :
  (forall p, fst (f p) = height (fst p)) ->
  nondecr (fun em : env * msg => height (fst em)) l ->
  ordered (map f (rev (events (init true) l))).
Proof.
  intros Hf. induction l as [|[e m] l IH] using rev_ind; intros Hn; [constructor|].
  apply nondecr_app_one in Hn. destruct Hn as [Hn1 Hn2]. specialize (IH Hn1).
  rewrite events_app, rev_app_distr. simpl.
  destruct (step e m (run (init true) l)) as [[s' o]|]; auto.
  destruct (touching m); auto. simpl. rewrite (surjective_pairing (f (e, s'))). split; auto.
  rewrite Hf. simpl. apply Forall_map, Forall_rev, Forall_forall. intros p Hp.
  rewrite Hf. apply events_in in Hp. apply in_map_iff in Hp. destruct Hp as (em & <- & Hin).
  rewrite Forall_forall in Hn2. apply (Hn2 em Hin).
Qed.

Lemma balance_at_history l one h :
  nondecr (fun em : env * msg => height (fst em)) l ->
  query_balance_at (run (init true) l) one h =
  last_before h (map (if one then sv1 else sv0) (rev (events (init true) l))).
Proof.
  intros Hn. unfold query_balance_at. destruct (run_history l) as [H0 H1].
  destruct one; rewrite ?H0, ?H1; apply snap_at_run; apply history_ordered; auto.
Qed.

(** Without donations, the last event's reserves are the current ones. *)
Lemma run_last_event l :
  Forall (fun em => not_donation (snd em) = true) l ->
  match rev (events (init true) l) with
  | [] => r0 (run (init true) l) = 0 /\ r1 (run (init true) l) = 0
  | p :: _ => r0 (run (init true) l) = r0 (snd p) /\ r1 (run (init true) l) = r1 (snd p)
  end.
Proof.
  induction l as [|[e m] l IH] using rev_ind; intros Hd; [split; reflexivity|].
  apply Forall_app in Hd. destruct Hd as [Hd1 Hd2]. inversion Hd2; subst. specialize (IH Hd1).
  rewrite run_app, events_app, rev_app_distr. simpl in *. unfold exec. simpl.
  destruct (step e m (run (init true) l)) as [[s' o]|] eqn:E; auto.
  destruct (touching m) eqn:T; simpl; auto.
  destruct (untouching_step _ _ _ _ _ T E) as (_ & _ & _ & _ & _ & _ & U).
  destruct (U H1) as [-> ->]. auto.
Qed.

Lemma balance_at_exact l one h :
  nondecr (fun em : env * msg => height (fst em)) l ->
  Forall (fun em => not_donation (snd em) = true) l ->
  match query_balance_at (run (init true) l) one h with Some v => v | None => 0 end =
  (let s := run (init true) (before (fun em => height (fst em)) h l) in if one then r1 s else r0 s).
Proof.
  intros Hn Hd. rewrite balance_at_history by auto. cbv zeta.
  induction l as [|[e m] l IH] using rev_ind; [destruct one; reflexivity|].
  pose proof Hn as Hn'. apply nondecr_app_one in Hn. destruct Hn as [Hn1 Hn2].
  pose proof Hd as Hd'. apply Forall_app in Hd. destruct Hd as [Hd1 _]. specialize (IH Hn1 Hd1).
  destruct (Z.ltb_spec (height e) h).
  - rewrite before_all.
    2:{ apply Forall_app. split; [|constructor; auto].
        eapply Forall_impl; [|exact Hn2]. simpl. intros. lia. }
    pose proof (run_last_event _ Hd') as L.
    destruct (rev (events (init true) (l ++ [(e, m)]))) as [|p r] eqn:Er.
    + simpl. destruct L as [-> ->]. destruct one; auto.
    + assert (Hp : height (fst p) < h).
      { assert (Hin : In p (events (init true) (l ++ [(e, m)]))).
        { apply in_rev. rewrite Er. left; auto. }
        apply events_in in Hin. apply in_map_iff in Hin. destruct Hin as (em & <- & Hin).
        apply in_app_or in Hin. destruct Hin as [Hin|[<-|[]]]; auto.
        rewrite Forall_forall in Hn2. specialize (Hn2 em Hin). simpl in Hn2. lia. }
      destruct L as [-> ->]. simpl.
      destruct one; unfold sv0, sv1; destruct (Z.ltb_spec (height (fst p)) h); auto; lia.
  - replace (before (fun em : env * msg => height (fst em)) h (l ++ [(e, m)]))
      with (before (fun em : env * msg => height (fst em)) h l).
    2:{ unfold before. rewrite filter_app. simpl. destruct (Z.ltb_spec (height e) h); [lia|].
        rewrite app_nil_r. auto. }
    rewrite <- IH. rewrite events_app, rev_app_distr. simpl.
    destruct (step e m (run (init true) l)) as [[s' o]|]; auto.
    destruct (touching m); auto. simpl.
    destruct one; simpl; destruct (Z.ltb_spec (height e) h); auto; lia.
Qed.

Lemma reachable_inv0 s : reachable s -> inv0 s.
Proof. intros (b & l & Hl & ->). apply run_inv0; auto. apply init_inv0. Qed.

(** ** Spread and slippage checks *)
Lemma max_spread_inv belief ms offer gross spread u :
  assert_max_spread belief ms offer gross spread = Some u -> 0 <= offer -> 0 <= gross -> 0 <= spread ->
  (forall m, ms = Some m -> 0 <= m) ->
  let max := match ms with Some m => m | None => DEFAULT_SLIPPAGE end in
  max <= MAX_ALLOWED_SLIPPAGE /\
  match belief with
  | Some b => b <> 0 /\
      (0 < b -> exists expected,
        0 <= expected /\
        expected * b <= offer * DEC /\
        offer * DEC * DEC < ((expected + 1) * DEC + offer) * b /\
        (expected - gross) * DEC <= max * expected + expected)
  | None => spread * DEC < max * (gross + spread) + (gross + spread)
  end.
Proof.
  intros H Ho Hg Hs Hm max.
  assert (Hmax : 0 <= max) by (unfold max; destruct ms; [auto|unfold DEFAULT_SLIPPAGE; lia]).
  unfold assert_max_spread in H. fold max in H. unguard H Em. bools.
  split; auto. pose proof DEC_pos as HD. destruct belief as [b|].
  - unbind H as iv Ei. unbind H as iv' Ei'. unbind H as ex Ee.
    apply dinv_Some in Ei. destruct Ei as [Hb ->].
    apply u128_Some in Ei'. destruct Ei' as [-> Ri].
    apply umul_Some in Ee. destruct Ee as [-> Re].
    split; [auto|]. intros Pb.
    set (iv := DEC * DEC / b) in *. set (ex := offer * iv / DEC) in *.
    pose proof (div_mul_le (DEC * DEC) b Pb) as I1. pose proof (div_mul_gt (DEC * DEC) b Pb) as I2.
    fold iv in I1, I2.
    pose proof (div_mul_le (offer * iv) DEC HD) as X1. pose proof (div_mul_gt (offer * iv) DEC HD) as X2.
    fold ex in X1, X2. clearbody iv ex.
    exists ex. split; [lia|]. split; [|split].
    + apply (Zmult_le_reg_r _ _ DEC); [lia|].
      assert (DEC * ex * b <= offer * iv * b) by (apply Z.mul_le_mono_nonneg_r; lia).
      assert (offer * (b * iv) <= offer * (DEC * DEC)) by (apply Z.mul_le_mono_nonneg_l; lia).
      lia.
    + assert (offer * iv * b < (ex + 1) * DEC * b) by (apply Z.mul_lt_mono_pos_r; lia).
      assert (offer * (DEC * DEC) <= offer * (b * iv + b)) by (apply Z.mul_le_mono_nonneg_l; lia).
      lia.
    + destruct (Z.ltb_spec gross ex).
      * unbind H as r Er. unguard H Er'. num_inv. bools. unfold ssub in *.
        rewrite Z.max_r in * by lia.
        pose proof (div_mul_gt ((ex - gross) * DEC) ex ltac:(lia)).
        assert (ex * ((ex - gross) * DEC / ex) <= ex * max) by (apply Z.mul_le_mono_nonneg_l; lia).
        lia.
      * nia.
  - unbind H as t Et. unbind H as r Er. unguard H Er'. num_inv. bools.
    pose proof (div_mul_gt (spread * DEC) (gross + spread) ltac:(lia)).
    assert ((gross + spread) * (spread * DEC / (gross + spread)) <= (gross + spread) * max)
      by (apply Z.mul_le_mono_nonneg_l; lia).
    lia.
Qed.

Lemma slippage_dir d0 d1 p0 p1 t rd l rp :
  0 < d0 -> 0 < d1 -> 0 <= p0 -> 0 < p1 -> 0 <= t <= DEC ->
  rd = d0 * DEC / d1 -> l = rd * (DEC - t) / DEC -> rp = p0 * DEC / p1 -> l <= rp ->
  d0 * (DEC - t) * p1 < p0 * DEC * d1 + 2 * d1 * p1.
Proof.
  intros Hd0 Hd1 Hp0 Hp1 Ht Erd El Erp Hl. pose proof DEC_pos as HD.
  pose proof (div_mul_gt (d0 * DEC) d1 Hd1) as A. rewrite <- Erd in A.
  pose proof (div_mul_gt (rd * (DEC - t)) DEC HD) as B. rewrite <- El in B.
  pose proof (div_mul_le (p0 * DEC) p1 Hp1) as C. rewrite <- Erp in C.
  clear Erd El Erp.
  assert (D : p1 * l <= p0 * DEC) by nia.
  (* d0*DEC*(DEC-t) <= d1*(rd+1)*(DEC-t) <= d1*(DEC*(l+1) - 1 + DEC - t) *)
  assert (A' : d0 * DEC * (DEC - t) <= d1 * (rd + 1) * (DEC - t)) by (apply Z.mul_le_mono_nonneg_r; lia).
  assert (B' : d1 * (rd * (DEC - t)) <= d1 * (DEC * l + DEC - 1)) by (apply Z.mul_le_mono_nonneg_l; lia).
  assert (E : d0 * DEC * (DEC - t) <= d1 * (DEC * l + DEC - 1) + d1 * (DEC - t)) by lia.
  assert (F : d0 * (DEC - t) * DEC < d1 * (l + 2) * DEC) by nia.
  apply Z.mul_lt_mono_pos_r in F; [|lia].
  assert (G : d0 * (DEC - t) * p1 < d1 * (l + 2) * p1) by (apply Z.mul_lt_mono_pos_r; lia).
  assert (K : d1 * (p1 * l) <= d1 * (p0 * DEC)) by (apply Z.mul_le_mono_nonneg_l; lia).
  lia.
Qed.

Lemma slippage_inv tol d0 d1 p0 p1 u :
  assert_slippage_tolerance tol d0 d1 p0 p1 = Some u ->
  0 < d0 -> 0 < d1 -> 0 <= p0 -> 0 <= p1 -> (forall m, tol = Some m -> 0 <= m) ->
  let t := match tol with Some m => m | None => DEFAULT_SLIPPAGE end in
  t <= MAX_ALLOWED_SLIPPAGE /\
  d0 * (DEC - t) * p1 < p0 * DEC * d1 + 2 * d1 * p1 /\
  d1 * (DEC - t) * p0 < p1 * DEC * d0 + 2 * d0 * p0.
Proof.
  intros H Hd0 Hd1 Hp0 Hp1 Hm t. unfold assert_slippage_tolerance in H. fold t in H.
  assert (Ht : 0 <= t) by (unfold t; destruct tol; [auto|unfold DEFAULT_SLIPPAGE; lia]).
  unguard H Et. unbind H as omt E1. unbind H as rd01 E2. unbind H as l0 E3. unbind H as rp01 E4.
  unguard H E5. unbind H as rd10 E6. unbind H as l1 E7. unbind H as rp10 E8. unguard H E9. bools.
  num_inv. split; auto.
  split; eapply slippage_dir; try reflexivity; auto; lia.
Qed.

(** ** Reverse simulation *)
Lemma net_mono g g' c : 0 <= g <= g' -> 0 <= c <= DEC ->
  g - g * c / DEC <= g' - g' * c / DEC.
Proof.
  intros Hg Hc. pose proof DEC_pos as HD.
  assert (g' * c / DEC <= g * c / DEC + (g' - g)); [|lia].
  apply div_le_iff; auto. pose proof (div_mul_gt (g * c) DEC HD). nia.
Qed.

Lemma compute_offer_inv o x ask c off spread comm :
  compute_offer_amount o x ask c = Some (off, spread, comm) ->
  0 <= o -> 0 <= x -> 0 <= ask -> 0 <= c ->
  let b := ask * (DEC * DEC / (DEC - c)) / DEC in
  0 < o /\ 0 < x /\ 0 < ask /\ c < DEC /\ 0 <= b < x /\ off = o * x / (x - b) - o /\ 0 <= off /\
  comm = b * c / DEC.
Proof.
  intros H Ho Hx Ha Hc b. unfold compute_offer_amount in H.
  unguard H E0. unbind H as cp E1. unbind H as omc E2. unbind H as iv E3.
  unbind H as b0 E4. unbind H as b1 E5. unbind H as dn E6. unbind H as q E7.
  unbind H as of6 E8. unbind H as of E9. unbind H as pr E10. unbind H as id E11.
  unbind H as cm E12. unbind H as cm' E13. inversion H; subst; clear H.
  bools. num_inv. rewrite Z.mul_1_r in *. subst b.
  repeat split; try lia; reflexivity.
Qed.

Lemma reverse_gross o x ask c off spread comm :
  compute_offer_amount o x ask c = Some (off, spread, comm) ->
  0 <= o -> 0 <= x -> 0 <= ask -> 0 <= c ->
  let b := ask * (DEC * DEC / (DEC - c)) / DEC in
  let a := off + 1 in
  let g := (x * DEC - o * x * DEC / (o + a)) / DEC in
  b <= g.
Proof.
  intros H Ho Hx Ha Hc b a g. apply compute_offer_inv in H; auto. cbv zeta in H. fold b in H.
  destruct H as (Po & Px & Pa & Pc & Hb & Hoff & Poff & _). pose proof DEC_pos as HD.
  unfold g. apply div_ge_iff; auto.
  pose proof (div_mul_gt (o * x) (x - b) ltac:(lia)) as G.
  assert (o * x < (x - b) * (o + a)) by (unfold a; lia).
  assert (o * x * DEC / (o + a) <= (x - b) * DEC); [|lia].
  apply Z.div_le_upper_bound; [lia|]. nia.
Qed.

Lemma reverse_net ask c g :
  0 <= ask <= DEC -> 0 <= c < DEC ->
  ask * (DEC * DEC / (DEC - c)) / DEC <= g ->
  ask - 1 <= g - g * c / DEC.
Proof.
  intros Ha Hc Hg. pose proof DEC_pos as HD.
  set (iv := DEC * DEC / (DEC - c)) in *. set (b := ask * iv / DEC) in *.
  assert (Hb0 : 0 <= b).
  { unfold b. apply Z.div_pos; [|lia]. apply Z.mul_nonneg_nonneg; [lia|]. apply Z.div_pos; nia. }
  pose proof (net_mono b g c ltac:(lia) ltac:(lia)) as M.
  assert (ask - 1 <= b - b * c / DEC); [|lia].
  pose proof (div_mul_gt (DEC * DEC) (DEC - c) ltac:(lia)) as I. fold iv in I.
  pose proof (div_mul_gt (ask * iv) DEC HD) as B. fold b in B.
  pose proof (div_mul_le (b * c) DEC HD) as C. set (f := b * c / DEC) in *. clearbody f b iv.
  (* DEC*(b - f) >= b*(DEC-c) ; b*DEC > ask*iv - DEC ; (DEC-c)*iv > DEC^2 - (DEC-c) *)
  assert (A1 : DEC * (b - f) >= b * (DEC - c)) by lia.
  assert (A2 : (b + 1) * DEC * (DEC - c) > ask * iv * (DEC - c)) by nia.
  assert (A3 : ask * (iv * (DEC - c)) >= ask * (DEC * DEC - (DEC - c))) by nia.
  assert (A4 : (b + 1) * DEC * (DEC - c) > ask * DEC * DEC - DEC * DEC) by nia.
  assert (A5 : (b + 1) * (DEC - c) > ask * DEC - DEC) by nia.
  assert (A6 : DEC * (b - f) > ask * DEC - 2 * DEC) by lia.
  nia.
Qed.

(** ** Proofs of the theorems of XykProps.v *)
Lemma c01_proof e s one offer belief ms s' so :
  reachable s -> env_ok e -> 0 < offer ->
  swap e s one offer belief ms = Some (s', OSwap so) ->
  let offer_after := if one then r1 s' else r0 s' in
  r0 s * r1 s * DEC < r0 s' * r1 s' * DEC + offer_after /\
  (offer_after <= DEC \/ 1 <= so_commission so - so_maker so - so_share so ->
   r0 s * r1 s <= r0 s' * r1 s').
Proof.
  intros R He Ho H. apply swap_product in H; auto; [|apply reachable_inv0; auto]. tauto.
Qed.

Definition wit_env (f : Z) : env := mkEnv 100 10 (mkFees f 0 false) 99.
Lemma wit_env_ok f : 0 <= f <= DEC -> env_ok (wit_env f).
Proof. intros. unfold env_ok, fees_ok, wit_env. simpl. pose proof DEC_pos. lia. Qed.
Definition wit_pool (f x y : Z) : state := run (init true) [(wit_env f, Provide 1 1 x y None None)].
Lemma wit_pool_reachable f x y : 0 <= f <= DEC -> reachable (wit_pool f x y).
Proof.
  intros. exists true, [(wit_env f, Provide 1 1 x y None None)]. split; auto.
  constructor; [apply wit_env_ok; auto | constructor].
Qed.
Ltac dec_range := unfold DEC; lia.

Lemma c01_refuted_proof : exists e s one offer belief ms s' o,
  reachable s /\ env_ok e /\ step e (Swap one offer belief ms) s = Some (s', o) /\
  r0 s' * r1 s' < r0 s * r1 s.
Proof.
  exists (wit_env 3000000000000000), (wit_pool 3000000000000000 1000000000000000000 2), false,
    999999999999999999, None, None.
  do 2 eexists. split; [apply wit_pool_reachable; dec_range|].
  split; [apply wit_env_ok; dec_range|]. split; [vm_compute; reflexivity|]. vm_compute; reflexivity.
Qed.

Lemma c02_proof s l :
  reachable s -> 0 < supply s -> envs_ok l -> all_regular s l ->
  0 < supply (run s l) /\
  r0 s * r1 s * (supply (run s l) * supply (run s l)) <=
  r0 (run s l) * r1 (run s l) * (supply s * supply s).
Proof.
  intros R HS Hl Hr. apply reachable_inv0 in R. split.
  - destruct (run_locked l s Hl R HS). assert (0 < MINIMUM_LIQUIDITY) by reflexivity. lia.
  - apply run_regular_product; auto.
Qed.
Lemma c02_liq_proof e m s s' o :
  reachable s -> 0 < supply s -> env_ok e -> liq m -> step e m s = Some (s', o) ->
  r0 s * supply s' <= r0 s' * supply s /\ r1 s * supply s' <= r1 s' * supply s.
Proof. intros. apply (step_liq_per_share e m s s' o); auto. apply reachable_inv0; auto. Qed.

Lemma c03_proof e e' s rcv d0 d1 tol ml s1 share mins s2 a0 a1 :
  reachable s -> 0 < supply s ->
  provide e s rcv d0 d1 tol ml = Some (s1, OProvide share) ->
  withdraw e' s1 rcv share mins = Some (s2, OWithdraw a0 a1) ->
  a0 <= d0 /\ a1 <= d1.
Proof. intros R. apply provide_withdraw_round. apply reachable_inv0; auto. Qed.

Lemma c04_proof e1 e2 s one a bel1 ms1 s1 so1 bel2 ms2 s2 so2 :
  reachable s -> env_ok e1 -> env_ok e2 -> 0 < a ->
  swap e1 s one a bel1 ms1 = Some (s1, OSwap so1) ->
  swap e2 s1 (negb one) (so_return so1) bel2 ms2 = Some (s2, OSwap so2) ->
  regular (Swap one a bel1 ms1) s1 (OSwap so1) ->
  regular (Swap (negb one) (so_return so1) bel2 ms2) s2 (OSwap so2) ->
  so_return so2 <= a.
Proof.
  intros R E1 E2 Ha H1 H2 R1 R2.
  exact (swap_round _ _ _ _ _ _ _ _ _ _ _ _ _ E1 E2 (reachable_inv0 _ R) Ha H1 H2 R1 R2).
Qed.

Lemma c05_first_proof e s who rcv d0 d1 tol ml s' o :
  reachable s -> env_ok e -> supply s = 0 ->
  step e (Provide who rcv d0 d1 tol ml) s = Some (s', o) ->
  1000 <= supply s' /\ 0 < r0 s' /\ 0 < r1 s'.
Proof. intros R He H0 H. eapply first_provide_alive in H; eauto. apply reachable_inv0; auto. Qed.
Lemma c05_proof s l :
  reachable s -> 1000 <= supply s -> 0 < r0 s -> 0 < r1 s -> envs_ok l -> all_regular s l ->
  1000 <= supply (run s l) /\ 0 < r0 (run s l) /\ 0 < r1 (run s l).
Proof. intros R H1 H2 H3 Hl Hr. apply run_alive; auto. apply reachable_inv0; auto. split; auto. Qed.
Lemma no_swap_regular l : forall s,
  Forall (fun em => match snd em with Swap _ _ _ _ => False | _ => True end) l -> all_regular s l.
Proof.
  unfold all_regular. induction l as [|[e m] l IH]; simpl; intros s H; auto. inversion H; subst. simpl in *.
  destruct (step e m s) as [[s' o]|]; auto. split; auto. destruct m; simpl; auto. tauto.
Qed.
Lemma c05_noswap_proof s l :
  reachable s -> 1000 <= supply s -> 0 < r0 s -> 0 < r1 s -> envs_ok l ->
  Forall (fun em => match snd em with Swap _ _ _ _ => False | _ => True end) l ->
  1000 <= supply (run s l) /\ 0 < r0 (run s l) /\ 0 < r1 (run s l).
Proof. intros. apply c05_proof; auto. apply no_swap_regular; auto. Qed.
Lemma c05_supply_proof s l :
  reachable s -> 0 < supply s -> envs_ok l -> 1000 <= supply (run s l).
Proof. intros R HS Hl. apply run_locked; auto. apply reachable_inv0; auto. Qed.
Lemma c05_refuted_proof : exists e s one offer belief ms s' o,
  reachable s /\ env_ok e /\ step e (Swap one offer belief ms) s = Some (s', o) /\
  0 < r0 s /\ 0 < r1 s /\ (if one then r0 s' else r1 s') = 0.
Proof.
  exists (wit_env 3000000000000000), (wit_pool 3000000000000000 1000000 100), false,
    200000000000000000000000000, (Some U128MAX), None.
  do 2 eexists. split; [apply wit_pool_reachable; dec_range|].
  split; [apply wit_env_ok; dec_range|]. split; [vm_compute; reflexivity|].
  vm_compute. repeat split.
Qed.

Lemma swap_amounts_bounds e s one offer belief ms s' so :
  reachable s -> env_ok e -> 0 < offer ->
  swap e s one offer belief ms = Some (s', OSwap so) ->
  let x := if one then r0 s else r1 s in
  let o := if one then r1 s else r0 s in
  let gross := (x * DEC - o * x * DEC / (o + offer)) / DEC in
  so_return so + so_commission so = gross /\
  so_commission so = gross * total_fee (fees e) / DEC /\
  0 <= so_return so /\ 0 <= so_maker so /\ 0 <= so_share so /\
  so_maker so + so_share so <= so_commission so /\
  so_return so + so_maker so + so_share so <= x /\
  (if one then r0 s' else r1 s') = x - so_return so - so_maker so - so_share so /\
  (if one then r1 s' else r0 s') = o + offer /\
  0 <= gross /\ 0 <= so_spread so /\
  assert_max_spread belief ms offer gross (so_spread so) = Some tt.
Proof.
  intros R He Ho H. apply swap_inv in H. cbv zeta in H. apply reachable_inv0 in R.
  destruct R as [I0 I1 _ _ _ Ib].
  destruct H as (so' & Eo & Ha & Rin & Rout & Po & _). inversion Eo; subst so'; clear Eo.
  apply swap_amounts_inv in Ha; auto; try (destruct one; auto; lia). cbv zeta in Ha.
  destruct Ha as (P1 & P2 & P3 & Hg & Hcm & Hr & Hc & Hs & Hm & Hsm & Hsp & Hms).
  cbv zeta. repeat split; auto; try lia; destruct one; lia.
Qed.

Lemma c06_proof e s one offer belief ms s' so :
  reachable s -> env_ok e -> 0 < offer -> (forall m, ms = Some m -> 0 <= m) ->
  (forall b, belief = Some b -> 0 <= b) ->
  swap e s one offer belief ms = Some (s', OSwap so) ->
  let max := match ms with Some m => m | None => 5000000000000000 end in
  let gross := so_return so + so_commission so in
  max <= 500000000000000000 /\
  match belief with
  | Some b =>
      0 < b /\ exists expected,
        0 <= expected /\
        expected * b <= offer * DEC /\
        offer * DEC * DEC < ((expected + 1) * DEC + offer) * b /\
        (expected - gross) * DEC <= max * expected + expected
  | None => so_spread so * DEC < (max + 1) * (gross + so_spread so)
  end.
Proof.
  intros R He Ho Hm Hb H. apply swap_amounts_bounds in H; auto. cbv zeta in H.
  destruct H as (Hg & _ & _ & _ & _ & _ & _ & _ & _ & G0 & S0 & Ha). cbv zeta. rewrite Hg.
  apply max_spread_inv in Ha; auto; [|lia]. cbv zeta in Ha. destruct Ha as [H1 H2]. split; auto.
  destruct belief as [b|].
  - destruct H2 as [H2 H3]. specialize (Hb b eq_refl). split; [lia|]. apply H3. lia.
  - unfold DEFAULT_SLIPPAGE in *. lia.
Qed.
Lemma c06_rejects_proof e s one offer belief ms :
  (match ms with Some m => 500000000000000000 < m | None => False end \/ belief = Some 0) ->
  swap e s one offer belief ms = None.
Proof.
  intros H. destruct (swap e s one offer belief ms) as [[s' o]|] eqn:E; auto. exfalso.
  apply swap_inv in E. cbv zeta in E. destruct E as (so & _ & Ha & _).
  unfold swap_amounts in Ha.
  unbind Ha as [[ret spread] comm] Ec. unbind Ha as gross Eg. unbind Ha as u Ea. clear Ha.
  unfold assert_max_spread in Ea. unguard Ea Em. bools. destruct H as [H|H].
  - destruct ms; [|auto]. unfold MAX_ALLOWED_SLIPPAGE in *. lia.
  - subst. discriminate.
Qed.

Lemma c07_proof e s who rcv d0 d1 tol ml s' o :
  reachable s -> 0 < supply s -> (forall m, tol = Some m -> 0 <= m) ->
  step e (Provide who rcv d0 d1 tol ml) s = Some (s', o) ->
  let t := match tol with Some m => m | None => 5000000000000000 end in
  t <= 500000000000000000 /\
  d0 * (DEC - t) * r1 s < r0 s * DEC * d1 + 2 * d1 * r1 s /\
  d1 * (DEC - t) * r0 s < r1 s * DEC * d0 + 2 * d0 * r0 s.
Proof.
  intros R HS Ht H. apply reachable_inv0 in R. destruct R as [I0 I1 _ _ _ _]. simpl in H.
  apply provide_inv in H. destruct H as (share & _ & Hd0 & Hd1 & Hc & _).
  unfold calculate_shares in Hc. destruct (Z.eqb_spec (supply s) 0); [lia|].
  unbind Hc as u Eu. apply slippage_inv in Eu; auto.
Qed.

Lemma c08_proof e s one offer belief ms s' so :
  reachable s -> env_ok e -> 0 < offer ->
  swap e s one offer belief ms = Some (s', OSwap so) ->
  let x := if one then r0 s else r1 s in
  let o := if one then r1 s else r0 s in
  let gross := (x * DEC - o * x * DEC / (o + offer)) / DEC in
  so_return so + so_commission so = gross /\
  so_commission so = gross * total_fee (fees e) / DEC /\
  0 <= so_return so /\ 0 <= so_maker so /\ 0 <= so_share so /\
  so_maker so + so_share so <= so_commission so /\
  so_return so + so_maker so + so_share so <= x /\
  (if one then r0 s' else r1 s') = x - so_return so - so_maker so - so_share so /\
  (if one then r1 s' else r0 s') = o + offer.
Proof. intros R He Ho H. apply swap_amounts_bounds in H; auto. cbv zeta in *. tauto. Qed.

Lemma c09_sim_proof e s one offer belief ms s' so :
  swap e s one offer belief ms = Some (s', OSwap so) ->
  query_simulation e s one offer = Some (so_return so, so_spread so, so_commission so).
Proof.
  intros H. apply swap_inv in H. cbv zeta in H. destruct H as (so' & Eo & Ha & _).
  inversion Eo; subst so'; clear Eo. unfold query_simulation. unfold swap_amounts in Ha.
  unbind Ha as [[ret spread] comm] Ec. unbind Ha as gross Eg. unbind Ha as u Ea.
  unbind Ha as shr Es. unbind Ha as maker Em. inversion Ha; subst so. auto.
Qed.
Lemma c09_rev_proof e s one ask off spread comm ret sp cm :
  reachable s -> env_ok e -> 0 <= ask <= DEC ->
  query_reverse_simulation e s one ask = Some (off, spread, comm) ->
  query_simulation e s (negb one) (off + 1) = Some (ret, sp, cm) ->
  ask - 1 <= ret.
Proof.
  intros R [He _] Ha H1 H2. apply reachable_inv0 in R. destruct R as [I0 I1 _ _ _ _].
  unfold query_reverse_simulation in H1. unfold query_simulation in H2.
  replace (if negb one then r1 s else r0 s) with (if one then r0 s else r1 s) in H2 by (destruct one; auto).
  replace (if negb one then r0 s else r1 s) with (if one then r1 s else r0 s) in H2 by (destruct one; auto).
  assert (Hin : 0 <= (if one then r1 s else r0 s)) by (destruct one; auto).
  assert (Hout : 0 <= (if one then r0 s else r1 s)) by (destruct one; auto).
  set (x := if one then r1 s else r0 s) in *. set (y := if one then r0 s else r1 s) in *.
  pose proof H1 as H1'. apply reverse_gross in H1'; try lia. cbv zeta in H1'.
  apply compute_offer_inv in H1; try lia. cbv zeta in H1.
  apply compute_swap_inv in H2; try lia. cbv zeta in H2.
  destruct H2 as (_ & _ & _ & _ & Hg & Hc & _).
  apply (reverse_net ask (total_fee (fees e))) in H1'; try lia.
Qed.
Lemma c09_refuted_proof : exists e s one ask off spread comm ret sp cm,
  reachable s /\ env_ok e /\
  query_reverse_simulation e s one ask = Some (off, spread, comm) /\
  query_simulation e s (negb one) off = Some (ret, sp, cm) /\ ret < ask.
Proof.
  exists (wit_env 3000000000000000), (wit_pool 3000000000000000 1000000 1000000000), true, 1000000.
  do 6 eexists. split; [apply wit_pool_reachable; dec_range|].
  split; [apply wit_env_ok; dec_range|]. split; [vm_compute; reflexivity|].
  split; [vm_compute; reflexivity|]. vm_compute; reflexivity.
Qed.

Lemma c10_proof l e b a0 a1 :
  nondecr (fun em => now (fst em)) (l ++ [(e, DisableFeeShare 0)]) ->
  Forall (fun em => 0 <= now (fst em)) (l ++ [(e, DisableFeeShare 0)]) ->
  Forall (fun em => not_donation (snd em) = true) l ->
  query_cumulative e (run (init b) l) = Some (a0, a1) ->
  let evs := map ev_time (events (init b) l) in
  a0 = integral 0 0 0 evs (now e) mod 2 ^ 128 /\
  a1 = integral 0 0 0 (map swap_xy evs) (now e) mod 2 ^ 128.
Proof.
  intros Hn H0 Hd H. apply run_integral in H; auto; try (simpl; unfold TWO128; lia).
Qed.
Lemma c10_refuted_proof : exists l e d a0 a1 b0 b1,
  nondecr (fun em => now (fst em)) (l ++ [(e, d)]) /\
  query_cumulative e (run (init true) l) = Some (a0, a1) /\
  query_cumulative e (run (init true) (l ++ [(e, d)])) = Some (b0, b1) /\
  step e d (run (init true) l) <> None /\ b0 = 1000 * a0 /\ 0 < a0.
Proof.
  exists [(wit_env 0, Provide 1 1 1000000 1000000 None None)],
    (mkEnv 1000 20 (mkFees 0 0 false) 99), (Donate true 999000000).
  do 4 eexists. split; [simpl; repeat constructor; simpl; lia|].
  split; [vm_compute; reflexivity|]. split; [vm_compute; reflexivity|].
  split; [vm_compute; discriminate|]. vm_compute. repeat split.
Qed.
