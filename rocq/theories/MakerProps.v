(** C45-C47, C75, C76, C78, C79: the maker. *)
From Coq Require Import ZArith Lia Bool List Permutation.
From Verif Require Import Num Ledger Amap MakerModel MakerSpec MakerProofs MakerInv.
From Verif Require OwnershipModel.
Import ListNotations.
Open Scope Z_scope.

(** ** C45: distribution *)

(** Every message changes the maker's balance of every asset by exactly what it reports, and never
    below zero. *)
Theorem c45_conserve e sender m s s' os :
  step e sender m s = Some (s', os) -> (forall a v, m <> Receive a v) ->
  (forall a, holds s' a = holds s a + gained a os - spent a os) /\
  (nonneg (bal s) -> forall a, 0 <= holds s' a).
Proof.
  intros H N. destruct (step_flow _ _ _ _ _ _ H N) as (A & B). split; auto.
  intros NN a. apply nonneg_get. auto.
Qed.

Lemma collect_parts e l s s' os st :
  collect e l s = Some (s', os) -> sane e -> find (ASTRO s) (bridges s) = None ->
  staking (cfg s) = Some st -> parts (cfg s) st os.
Proof.
  intros H Sn N ST. destruct (collect_spec _ _ _ _ _ H) as (_ & k & pre & o1 & o2 & A & B & -> & D).
  specialize (D Sn N). destruct A as ((_ & _ & A) & P & _ & O).
  assert (Ec : cfg pre = cfg s) by (rewrite A; reflexivity). rewrite <- Ec in *.
  destruct (distribute_parts _ _ _ _ _ _ B Sn ST) as (c & am & _ & _ & _ & _ & _ & X).
  assert (O0 : forall b, offered (astro (cfg pre)) b o1 = 0) by (intros b; specialize (O (astro (cfg pre)) b); lia).
  destruct X as [X1 X2 X3 X4 X5]. constructor; intros; rewrite ?paid_app, ?spent_app, ?offered_app, ?P, ?D, ?O0;
    rewrite ?Z.add_0_l; eauto.
  specialize (X5 d a2 H0). rewrite offered_app, O0, Z.add_0_l in H1.
  specialize (X5 H1). rewrite <- X5.
  destruct (second (cfg pre)) as [[r k0]|], (gov (cfg pre)) as [g|]; rewrite ?paid_app, ?P, ?Z.add_0_l; reflexivity.
Qed.

(** What a collection shares out is split by the configured percentages, each rounded down, and the
    rest goes to staking. *)
Theorem c45_split e sender l s s' os :
  step e sender (Collect l) s = Some (s', os) -> sane e ->
  find (ASTRO s) (bridges s) = None -> staking (cfg s) <> None -> distinct_receivers (cfg s) ->
  let x := spent (ASTRO s) os in
  is_share (to_second s os) (cut_of (cfg s)) 100 x /\
  is_share (to_gov s os) (pct_of (cfg s)) 100 (x - to_second s os) /\
  is_share (to_dev s os) (dev_of (cfg s)) DEC x /\
  to_staking s os = x - to_second s os - to_gov s os - to_dev s os.
Proof.
  intros H Sn N ST DR x. destruct (staking (cfg s)) as [st|] eqn:Est; [|congruence].
  destruct (collect_parts _ _ _ _ _ _ H Sn N Est) as [X1 X2 X3 X4 X5].
  unfold distinct_receivers in DR. rewrite Est in DR.
  unfold to_second, to_gov, to_dev, to_staking, cut_of, pct_of, dev_of, ASTRO in *. rewrite Est. fold x in X1, X2, X3, X4, X5.
  assert (Z0 : forall y, is_share 0 0 100 y) by (unfold is_share; lia).
  assert (Zd : forall y, is_share 0 0 DEC y) by (unfold is_share; intros; pose proof DEC_pos; lia).
  specialize (X5 (match dev (cfg s) with Some d => d_asset d | None => 0 end)
    (match dev (cfg s) with Some d => offered (astro (cfg s)) (d_asset d) os | None => 0 end)).
  assert (X6 : paid (astro (cfg s)) st os
               + (match second (cfg s) with Some (r, _) => if r =? st then 0 else paid (astro (cfg s)) r os | None => 0 end)
               + (match gov (cfg s) with
                  | Some g => if (g =? st) || match second (cfg s) with Some (r, _) => g =? r | None => false end
                              then 0 else paid (astro (cfg s)) g os
                  | None => 0 end)
               + (match dev (cfg s) with Some d => offered (astro (cfg s)) (d_asset d) os | None => 0 end) = x)
    by (apply X5; destruct (dev (cfg s)); reflexivity). clear X5.
  assert (Dv : is_share (match dev (cfg s) with Some d => offered (astro (cfg s)) (d_asset d) os | None => 0 end)
                 (match dev (cfg s) with Some d => d_share d | None => 0 end) DEC x)
    by (destruct (dev (cfg s)) as [d|]; [apply X4; reflexivity | apply Zd]).
  destruct (second (cfg s)) as [[r k]|]; destruct (gov (cfg s)) as [g|]; simpl in DR.
  - inversion DR as [|? ? D1 D2]; subst. inversion D2 as [|? ? D3 D4]; subst. simpl in D1, D3.
    assert (r <> g) by intuition congruence. assert (r <> st) by intuition congruence.
    assert (g <> st) by intuition congruence.
    destruct (Z.eqb_spec r st); [tauto|]. destruct (Z.eqb_spec g st); [tauto|]. destruct (Z.eqb_spec g r); [congruence|].
    cbn [orb] in X6. repeat split; try apply Dv; try lia; try (eapply X1; eauto; congruence); eapply X2; eauto.
  - inversion DR as [|? ? D1 D2]; subst. simpl in D1. assert (r <> st) by intuition congruence.
    destruct (Z.eqb_spec r st); [tauto|].
    split; [eapply X1; eauto; congruence|]. split; [apply Z0|]. split; [apply Dv | lia].
  - inversion DR as [|? ? D1 D2]; subst. simpl in D1. assert (g <> st) by intuition congruence.
    destruct (Z.eqb_spec g st); [tauto|]. cbn [orb] in X6.
    split; [apply Z0|]. rewrite Z.sub_0_r. split; [eapply X3; eauto|]. split; [apply Dv | lia].
  - split; [apply Z0|]. split; [apply Z0|]. split; [apply Dv | lia].
Qed.

(** With a staking contract set, all histories that do not take ASTRO away otherwise keep the
    pre-upgrade reward fully backed, and a collection pays out everything else. *)
Theorem c45_backed t i s0 l :
  instantiate t i = Some s0 -> staking (cfg s0) <> None -> kept (ASTRO s0) l ->
  0 <= remainder (cfg (run s0 l)) <= holds (run s0 l) (ASTRO s0) /\ ASTRO (run s0 l) = ASTRO s0.
Proof.
  intros H N K. pose proof (run_res _ _ _ K (inst_res _ _ _ H N)) as (_ & B & _ & _ & E).
  unfold backed in B. rewrite E in B. auto.
Qed.
Theorem c45_all t i s0 l e sender c s' os :
  instantiate t i = Some s0 -> staking (cfg s0) <> None -> kept (ASTRO s0) l ->
  let s := run s0 l in
  sane e -> step e sender (Collect c) s = Some (s', os) -> enabled (cfg s) = true ->
  remainder (cfg s) = 0 \/ lastblk (cfg s) < height e ->
  holds s' (ASTRO s0) = remainder (cfg s').
Proof.
  intros H N K s Sn St En D. pose proof (run_res _ _ _ K (inst_res _ _ _ H N)) as I.
  exact (proj2 (collect_res _ _ _ _ _ _ Sn I St) En D).
Qed.

Lemma run_lastblk l : forall s H, lastblk (cfg s) <= H -> Forall (fun v => height (ev_env v) <= H) l ->
  lastblk (cfg (run s l)) <= H.
Proof.
  induction l as [|v l IH]; intros s H L K; simpl; auto. inversion K; subst. apply IH; auto.
  unfold exec. destruct (step _ _ _ s) as [[s' os]|] eqn:E; auto.
  destruct (step_config _ _ _ _ _ _ E) as (R & _).
  destruct R as [(_ & _ & _ & -> & _)|[(_ & _ & _ & _ & ->)|[(_ & _ & _ & _ & -> & _)|(_ & _ & _ & _ & _ & -> & _)]]]; lia.
Qed.

(** The pre-upgrade reward [A], recorded when rewards are enabled at height [h0] for [B] blocks, is
    released linearly: after a collection at height [h] exactly [A - floor(A/B) * (h - h0)] is left,
    but never less than nothing. *)
Theorem c45_schedule t i s0 l1 e0 own0 B s1 o1 l2 e sender c s' os :
  instantiate t i = Some s0 -> staking (cfg s0) <> None -> kept (ASTRO s0) (l1 ++ l2) ->
  step e0 own0 (Enable B) (run s0 l1) = Some (s1, o1) ->
  Forall (fun v => height (ev_env v) <= height e) l2 -> height e0 <= height e ->
  sane e -> step e sender (Collect c) (run s1 l2) = Some (s', os) ->
  let A := remainder (cfg (run s0 l1)) in
  remainder (cfg s') = Z.max 0 (A - A / B * (height e - height e0)).
Proof.
  intros H N K En Hl Hh Sn St A.
  apply Forall_app in K. destruct K as (K1 & K2).
  pose proof (run_res _ _ _ K1 (inst_res _ _ _ H N)) as I1.
  destruct (inst_pre _ _ _ H) as (P0 & _). pose proof (run_pre l1 _ P0) as P1.
  simpl in En. unfold silent in En. unbind En as s2 E. injection En as <- <-.
  destruct (enable_reward _ _ _ _ _ E) as (_ & R & SS & _ & Q1 & Q2 & Q3 & Q4 & Q5 & Q6 & Q7).
  assert (B0 : 0 < B).
  { destruct R as [(_ & _ & _ & _ & X)|[(_ & X & _)|[(_ & _ & _ & _ & _ & X)|(X & _)]]]; congruence. }
  assert (I2 : inv_res (ASTRO s0) s2).
  { rewrite Q7. unfold inv_res, backed, ASTRO, holds in *. cbn [cfg set_cfg bal bridges].
    destruct SS as (SS1 & _ & _ & _ & _ & SS6 & _). rewrite SS1, SS6, Q5. exact I1. }
  pose proof (run_res _ _ _ K2 I2) as I3.
  assert (A0 : 0 <= A) by (destruct I1 as (_ & Bk & _); unfold backed in Bk; unfold A; lia).
  assert (J2 : inv_post (height e0) A B s2).
  { unfold inv_post. rewrite Q1, Q2, Q4, Q5, Q6. rewrite <- (P1 Q3). fold A. repeat split; auto; try lia. }
  pose proof (run_post _ _ _ l2 _ A0 B0 J2) as J3.
  destruct (step_post _ _ _ _ _ _ _ _ _ A0 B0 J3 St) as (_ & _ & _ & L1 & R1).
  assert (Lb : lastblk (cfg (run s2 l2)) <= height e) by (apply run_lastblk; auto; lia).
  destruct J3 as (T1 & T2 & T3 & T4 & T5).
  pose proof (Z.div_pos A B A0 B0) as Dp.
  destruct (collect_spec _ _ _ _ _ St) as (_ & k & pre & oa & ob & Sw & Ds & _ & Sp).
  assert (Hs : spent (ASTRO s0) oa = 0).
  { destruct I3 as (_ & _ & _ & I4 & I5). unfold ASTRO in I5 at 1. rewrite <- I5. apply Sp; auto. rewrite I5. exact I4. }
  assert (I4 : inv_res (ASTRO s0) pre).
  { refine (swaps_res _ _ _ _ _ Sw Hs). exact I3. }
  destruct (distribute_spec _ _ _ _ _ Ds) as (cc & am & E0 & (_ & _ & Fl) & _).
  destruct (distributable_spec _ _ _ _ E0) as (_ & X).
  assert (Ep : cfg pre = cfg (run s2 l2)) by (destruct Sw as ((_ & _ & ->) & _); reflexivity).
  rewrite Ep in X. assert (Ec : cfg s' = cc) by (rewrite Fl; reflexivity). rewrite Ec in *.
  assert (Zr : remainder (cfg (run s2 l2)) = 0 -> Z.max 0 (A - A / B * (height e - height e0)) = 0).
  { intros Z0. rewrite Z0 in T5. nia. }
  destruct am as [y|].
  - destruct X as (_ & _ & _ & [(-> & X1 & _)|(_ & X2 & _ & X3 & _)]).
    + rewrite Zr; auto.
    + rewrite X3 in R1. exact R1.
  - destruct X as [(-> & [X|(X1 & X2 & X3)])|(X & _)]; [| |congruence].
    + destruct I4 as (_ & Bk & _). unfold backed, holds, ASTRO in Bk. rewrite Ep in Bk. rewrite X in Bk.
      rewrite Zr; lia.
    + rewrite <- X3 in R1. exact R1.
Qed.

(** When the reward is at least one unit per block, it is completely released after twice the number
    of blocks. *)
Theorem c45_released t i s0 l1 e0 own0 B s1 o1 l2 e sender c s' os :
  instantiate t i = Some s0 -> staking (cfg s0) <> None -> kept (ASTRO s0) (l1 ++ l2) ->
  step e0 own0 (Enable B) (run s0 l1) = Some (s1, o1) ->
  Forall (fun v => height (ev_env v) <= height e) l2 ->
  B <= remainder (cfg (run s0 l1)) -> 0 < B -> height e0 + 2 * B <= height e ->
  sane e -> step e sender (Collect c) (run s1 l2) = Some (s', os) ->
  remainder (cfg s') = 0.
Proof.
  intros H N K En Hl HB B0 Hh Sn St. rewrite (c45_schedule _ _ _ _ _ _ _ _ _ _ _ _ _ _ _ H N K En Hl ltac:(lia) Sn St).
  set (A := remainder (cfg (run s0 l1))) in *. divb A B q.
  assert (Q1 : 1 <= q) by nia. assert (Q2 : q * (2 * B) <= q * (height e - height e0)) by nia. nia.
Qed.

(** ** C46: accepted configurations and distribution *)

(** The pair of ASTRO and the dev fund's asset takes any offer the maker can make and returns
    something. *)
Definition dev_pair (e : env) (s : state) : Prop :=
  forall d k x, dev (cfg s) = Some d -> 0 < x <= holds s (ASTRO s) ->
    pool e (factory (cfg s)) (ASTRO s) (d_asset d) = true /\ d_asset d <> ASTRO s /\ 
    exists q, quote e k (ASTRO s) (d_asset d) x = Some q /\ 0 <= q /\ 0 < holds s (d_asset d) + q <= U128MAX.

Lemma share_sum c x sec gv dv :
  0 <= x -> 0 <= cut_of c <= 100 -> 0 <= pct_of c <= 100 -> fractions c <= 10000 * DEC ->
  100 * sec <= cut_of c * x -> 100 * gv <= pct_of c * (x - sec) -> DEC * dv <= dev_of c * x ->
  sec + gv + dv <= x.
Proof.
  unfold fractions. generalize (cut_of c) (pct_of c) (dev_of c). pose proof DEC_pos as DP. generalize dependent DEC.
  intros D DP k p d Hx Hk Hp Hf H1 H2 H3.
  assert (A : 10000 * (sec + gv) <= (100 * k + (100 - k) * p) * x) by nia.
  assert (B : D * (10000 * (sec + gv + dv)) <= D * (100 * k + (100 - k) * p) * x + 10000 * d * x) by nia.
  assert (C : D * (10000 * (sec + gv + dv)) <= (10000 * D) * x) by nia.
  nia.
Qed.

Lemma send_opt_ok e a to v s : 0 <= v <= get (bal s) a ->
  exists s', send_opt e a to v s = Some (s', payl a to v) /\ cfg s' = cfg s /\
    (forall b, get (bal s') b = get (bal s) b - if b =? a then v else 0).
Proof.
  intros H. unfold send_opt, payl. destruct (Z.eqb_spec v 0) as [->|N].
  - exists s. repeat split; auto. intros b. destruct (b =? a); lia.
  - unfold send. rewrite (proj2 (Z.leb_le 0 v)), (proj2 (Z.leb_le v _)), (proj2 (Z.ltb_lt 0 v)) by lia.
    cbn [andb]. rewrite orb_true_r. eexists. split; [reflexivity|]. split; [reflexivity|].
    intros b. cbn [set_bal bal]. destruct (Z.eqb_spec b a) as [->|N2]; [rewrite get_set_same | rewrite get_set_other by auto]; lia.
Qed.

(** If the configured fractions do not exceed the whole, the reserve is backed and the dev fund's
    pair works, then a collection that has nothing to swap succeeds. *)
Theorem c46_distributes e sender s :
  good_config (cfg s) -> fractions (cfg s) <= 10000 * DEC -> sane e -> dev_pair e s ->
  nonneg (bal s) -> backed s -> holds s (ASTRO s) <= U128MAX ->
  (enabled (cfg s) = true -> remainder (cfg s) <> 0 ->
   0 < pblocks (cfg s) /\ 0 <= preamt (cfg s) /\ 0 <= height e - lastblk (cfg s) <= U64MAX /\
   (height e - lastblk (cfg s)) * (preamt (cfg s) / pblocks (cfg s)) <= U128MAX) ->
  (forall cd, cooldown (cfg s) = Some cd -> lastcol s + cd <= now e /\ 0 <= lastcol s + cd <= U64MAX) ->
  exists s' os, step e sender (Collect []) s = Some (s', os).
Proof.
  intros Gc Fr (Sn & _) Dp NN Bk Mx Rm Cd. simpl. unfold collect. cbv zeta. cbn [limits_ok forallb].
  assert (C0 : match cooldown (cfg s) with
           | Some cd => do t <- add64 (lastcol s) cd; Some (t <=? now e) | None => Some true end = Some true).
  { destruct (cooldown (cfg s)) as [cd|]; auto. destruct (Cd _ eq_refl) as (A & B).
    rewrite (proj2 (add64_Some _ _ _) (conj eq_refl B)). apply f_equal. apply Z.leb_le. exact A. }
  rewrite C0. cbn [map nodup filter swap_assets].
  set (s0 := mkState (cfg s) (now e) (bridges s) (seize_to s) (seizable s) (bal s)).
  assert (E0 : exists c am, distributable e s0 = Some (c, am)).
  { unfold distributable. cbv zeta. cbn [s0 cfg bal]. destruct (get (bal s) (astro (cfg s)) =? 0); eauto.
    destruct (enabled (cfg s)) eqn:En; cbn [negb]; eauto. destruct (remainder (cfg s) =? 0) eqn:R0; eauto. bools.
    destruct (Rm eq_refl R0) as (R1 & R2 & R3 & R4).
    rewrite (proj2 (sub64_Some (height e) (lastblk (cfg s)) _) (conj eq_refl R3)).
    destruct (height e - lastblk (cfg s) =? 0); eauto.
    rewrite (proj2 (Z.eqb_neq (pblocks (cfg s)) 0)) by lia. cbn [negb].
    pose proof (Z.div_pos _ _ R2 R1) as R5.
    assert (X1 : 0 <= (height e - lastblk (cfg s)) * (preamt (cfg s) / pblocks (cfg s)) <= U128MAX) by nia.
    rewrite (proj2 (mul128_Some _ _ _) (conj eq_refl X1)).
    unfold backed, holds, ASTRO in Bk, Mx.
    assert (X2 : 0 <= get (bal s) (astro (cfg s)) - remainder (cfg s) <= U128MAX) by lia.
    rewrite (proj2 (sub128_Some _ _ _) (conj eq_refl X2)).
    set (cur := Z.min _ _). assert (Hc : 0 <= cur <= remainder (cfg s)) by (unfold cur; lia).
    assert (X3 : 0 <= get (bal s) (astro (cfg s)) - remainder (cfg s) + cur <= U128MAX) by lia.
    rewrite (proj2 (add128_Some _ _ _) (conj eq_refl X3)).
    assert (X4 : 0 <= remainder (cfg s) - cur <= U128MAX) by lia.
    rewrite (proj2 (sub128_Some _ _ _) (conj eq_refl X4)). eauto. }
  destruct E0 as (c & am & E0). unfold distribute. rewrite E0. cbv zeta.
  destruct (distributable_spec _ _ _ _ E0) as (K & X). cbv zeta in K, X. cbn [s0 cfg bal] in K, X.
  destruct am as [x|]; [|eauto].
  assert (Hx : 0 <= x <= get (bal s) (astro (cfg s))).
  { unfold backed, holds, ASTRO in Bk. pose proof (nonneg_get (bal s) (astro (cfg s)) NN).
    destruct X as (_ & X0 & _ & [(_ & _ & ->)|(Y & _ & _ & _ & X1 & X2 & -> & X3)]); [lia|].
    destruct (Rm X0 Y) as (R1 & R2 & R3 & _). pose proof (Z.div_pos _ _ R2 R1) as R5.
    assert (0 <= (height e - lastblk (cfg s)) * (preamt (cfg s) / pblocks (cfg s))) by nia. lia. }
  clear X. destruct K as (K1 & K2 & K3 & K4 & K5 & K6 & K7 & _).
  destruct Gc as (P1 & P2 & P3 & P4 & P5 & P6). unfold holds, ASTRO in Mx.
  assert (Sx : exists sec, match second c with Some (_, cut) => muldiv128 x cut 100 | None => Some 0 end = Some sec /\
      0 <= sec /\ 100 * sec <= cut_of (cfg s) * x).
  { unfold cut_of. rewrite K4. destruct (second (cfg s)) as [[r k]|]; [|exists 0; repeat split; lia].
    specialize (P3 _ _ eq_refl). exists (x * k / 100). divb (x * k) 100 q.
    repeat split; try nia. unfold muldiv128. rewrite <- Heqq. cbn [Z.eqb]. apply u128_Some. split; auto. nia. }
  destruct Sx as (sec & S1 & S2 & S3). rewrite S1.
  assert (Ck : 0 <= cut_of (cfg s) <= 100).
  { unfold cut_of. destruct (second (cfg s)) as [[r k]|]; [specialize (P3 _ _ eq_refl)|]; lia. }
  assert (Pk : 0 <= pct_of (cfg s) <= 100) by (unfold pct_of; destruct (gov (cfg s)); lia).
  assert (Sle : sec <= x) by nia.
  assert (Gx : exists gv, match gov c with
                 | Some _ => do y <- sub128 x sec; muldiv128 y (pct c) 100 | None => Some 0 end = Some gv /\
      0 <= gv /\ 100 * gv <= pct_of (cfg s) * (x - sec)).
  { unfold pct_of in *. rewrite K3, K5. destruct (gov (cfg s)) as [g|]; [|exists 0; repeat split; lia].
    assert (Y1 : 0 <= x - sec <= U128MAX) by lia.
    rewrite (proj2 (sub128_Some _ _ _) (conj eq_refl Y1)).
    exists ((x - sec) * pct (cfg s) / 100). divb ((x - sec) * pct (cfg s)) 100 q.
    repeat split; try nia. unfold muldiv128. rewrite <- Heqq. cbn [Z.eqb]. apply u128_Some. split; auto. nia. }
  destruct Gx as (gv & G1 & G2 & G3). rewrite G1.
  assert (Dx : exists dv, match dev c with
                | Some d => do v <- umul x (d_share d);
                            guard (v =? 0) || pool e (factory c) (astro c) (d_asset d); Some v
                | None => Some 0 end = Some dv /\ 0 <= dv /\ DEC * dv <= dev_of (cfg s) * x).
  { unfold dev_of. rewrite K2, K6, K7. destruct (dev (cfg s)) as [d|] eqn:Ed; [|exists 0; repeat split; lia].
    specialize (P5 _ eq_refl). pose proof DEC_pos as DP. exists (x * d_share d / DEC). divb (x * d_share d) DEC q.
    assert (Q0 : 0 <= q) by nia. assert (Q1 : q <= x) by nia.
    assert (U : umul x (d_share d) = Some q) by (apply umul_Some; rewrite <- Heqq; lia).
    rewrite U. split; [|split; [exact Q0|lia]].
    destruct (Z.eqb_spec q 0) as [->|Nq]; cbn [orb]; auto.
    destruct (Dp d 0%nat q Ed ltac:(unfold holds, ASTRO; lia)) as (Pl & _). unfold ASTRO in Pl. rewrite Pl. reflexivity. }
  destruct Dx as (dv & D1 & D2 & D3). rewrite D1.
  pose proof (share_sum (cfg s) x sec gv dv ltac:(lia) Ck Pk Fr S3 G3 D3) as Sum.
  assert (Tx : exists st, match staking c with
               | Some _ => do x0 <- add128 gv sec; do y <- add128 x0 dv; sub128 x y
               | None => Some 0 end = Some st /\ 0 <= st /\ st + sec + gv + dv <= x).
  { destruct (staking c); [|exists 0; repeat split; lia].
    assert (Y1 : 0 <= gv + sec <= U128MAX) by lia. rewrite (proj2 (add128_Some _ _ _) (conj eq_refl Y1)).
    assert (Y2 : 0 <= gv + sec + dv <= U128MAX) by lia. rewrite (proj2 (add128_Some _ _ _) (conj eq_refl Y2)).
    assert (Y3 : 0 <= x - (gv + sec + dv) <= U128MAX) by lia. rewrite (proj2 (sub128_Some _ _ _) (conj eq_refl Y3)).
    eexists. split; [reflexivity|]. lia. }
  destruct Tx as (st & T1 & T2 & T3). rewrite T1. rewrite K2, K3, K4, K6 in *. rewrite K1 in *.
  set (s00 := set_cfg s0 c).
  assert (B00 : bal s00 = bal s) by reflexivity.
  assert (A1 : exists s1 o1, match second (cfg s) with Some (to, _) => send_opt e (astro (cfg s)) to sec s00 | None => Some (s00, []) end
      = Some (s1, o1) /\ (forall b, get (bal s1) b = get (bal s) b - if b =? astro (cfg s) then sec else 0)).
  { destruct (second (cfg s)) as [[to k]|].
    - destruct (send_opt_ok e (astro (cfg s)) to sec s00) as (s1 & Y1 & _ & Y2); [rewrite B00; lia|].
      rewrite Y1. do 2 eexists. split; [reflexivity|]. exact Y2.
    - do 2 eexists. split; [reflexivity|]. injection S1 as <-. intros b. rewrite B00. destruct (b =? _); lia. }
  destruct A1 as (s1 & o1 & A1 & V1). rewrite A1. cbv iota beta.
  assert (A2 : exists s2 o2, match gov (cfg s) with Some to => send_opt e (astro (cfg s)) to gv s1 | None => Some (s1, []) end
      = Some (s2, o2) /\ (forall b, get (bal s2) b = get (bal s) b - if b =? astro (cfg s) then sec + gv else 0)).
  { destruct (gov (cfg s)) as [to|].
    - destruct (send_opt_ok e (astro (cfg s)) to gv s1) as (s2 & Y1 & _ & Y2); [rewrite V1, Z.eqb_refl; lia|].
      rewrite Y1. do 2 eexists. split; [reflexivity|]. intros b. rewrite Y2, V1. destruct (b =? _); lia.
    - do 2 eexists. split; [reflexivity|]. injection G1 as <-. intros b. rewrite V1. destruct (b =? _); lia. }
  destruct A2 as (s2 & o2 & A2 & V2). rewrite A2. cbv iota beta.
  assert (A3 : exists s3 o3, match dev (cfg s) with
        | Some d => if dv =? 0 then Some (s2, []) else
            do '(sa, oa) <- trade e 0 (astro (cfg s)) (d_asset d) dv s2;
            do '(sb, ob) <- send e (d_asset d) (d_to d) (get (bal sa) (d_asset d)) sa; Some (sb, [oa; ob])
        | None => Some (s2, []) end = Some (s3, o3) /\
        get (bal s3) (astro (cfg s)) = get (bal s) (astro (cfg s)) - (sec + gv + dv)).
  { destruct (dev (cfg s)) as [d|] eqn:Ed.
    2:{ do 2 eexists. split; [reflexivity|]. injection D1 as <-. rewrite V2, Z.eqb_refl. lia. }
    destruct (Z.eqb_spec dv 0) as [->|N0].
    { do 2 eexists. split; [reflexivity|]. rewrite V2, Z.eqb_refl. lia. }
    destruct (Dp d 0%nat dv Ed ltac:(unfold holds, ASTRO; lia)) as (_ & Na & q & Qu & Q0 & Qm). unfold ASTRO, holds in Qu, Na, Qm.
    unfold trade. rewrite (V2 (astro (cfg s))), Z.eqb_refl.
    rewrite (proj2 (Z.leb_le 0 dv)), (proj2 (Z.leb_le dv _)) by lia. cbn [andb]. rewrite Qu. cbv zeta.
    rewrite (proj2 (Z.leb_le 0 q)) by lia. rewrite get_set_other, V2 by auto.
    rewrite (proj2 (Z.eqb_neq (d_asset d) (astro (cfg s)))), Z.sub_0_r by auto.
    assert (Y1 : 0 <= get (bal s) (d_asset d) + q <= U128MAX) by lia.
    rewrite (proj2 (add128_Some _ _ _) (conj eq_refl Y1)). cbn [set_bal bal]. rewrite !get_set_same.
    unfold send. cbn [set_bal bal]. rewrite get_set_same.
    rewrite (proj2 (Z.leb_le 0 (get (bal s) (d_asset d) + q))), Z.leb_refl, (proj2 (Z.ltb_lt 0 _)) by lia.
    cbn [andb]. rewrite orb_true_r. do 2 eexists. split; [reflexivity|]. cbn [set_bal bal].
    rewrite get_set_other by auto. rewrite get_set_other by auto. rewrite get_set_same. lia. }
  destruct A3 as (s3 & o3 & A3 & V3). rewrite A3. cbv iota beta.
  destruct (staking (cfg s)) as [to|]; [|eauto].
  destruct (send_opt_ok e (astro (cfg s)) to st s3) as (s4 & Y1 & _); [lia|]. rewrite Y1. eauto.
Qed.

(** A history of the owner's messages all of which the maker accepts, after which no collection
    succeeds any more, whatever it collects: governance percent and dev share add up to more than
    everything. *)
Definition env0 (t h : Z) : env :=
  mkEnv 99 t h (fun _ a b => negb (a =? b)) (fun _ _ _ x => Some x) (fun l => l) false.
Definition noupd : update := mkUpd None None None None None None None None None None.
(** ASTRO is asset 1, the owner 7, staking 20, governance 30, the dev fund 50. *)
Definition inst0 : inst := mkInst 7 None 1 10 (Some 20) (Some 30) (Some 100) None None None.
Definition bad_upd : update := mkUpd None None None None None None None None None (Some (Some (mkDev 50 DEC 5))).
Definition bad_run : list event :=
  [mkEv (env0 1 1) 7 (UpdateConfig bad_upd); mkEv (env0 2 2) 7 (Enable 10); mkEv (env0 3 3) 8 (Receive 1 100)].
Lemma sane0 t h : sane (env0 t h).
Proof. split; [intros f a; simpl; rewrite Z.eqb_refl; reflexivity | intros; apply Permutation_refl]. Qed.

Theorem c46_refuted : exists t i s0 l,
  instantiate t i = Some s0 /\ staking (cfg s0) <> None /\ kept (ASTRO s0) l /\
  let s := run s0 l in
  good_config (cfg s) /\ enabled (cfg s) = true /\ holds s (ASTRO s) = 100 /\
  forall e sender c, sane e -> step e sender (Collect c) s = None.
Proof.
  destruct (instantiate 0 inst0) as [s0|] eqn:I; [|discriminate].
  exists 0, inst0, s0, bad_run. split; auto. pose proof (inst_good _ _ _ I) as G0. pose proof I as I0.
  vm_compute in I. injection I as <-. split; [discriminate|]. split.
  { repeat constructor; try (apply sane0); auto; discriminate. }
  cbv zeta. split; [apply run_good; auto|]. split; [reflexivity|]. split; [reflexivity|].
  intros e sender c Sn. destruct (step e sender (Collect c) _) as [[s' os]|] eqn:St; auto. exfalso.
  match type of St with step _ _ _ (run ?x _) = _ => set (s00 := x) in * end.
  change (collect e c (run s00 bad_run) = Some (s', os)) in St.
  destruct (collect_spec _ _ _ _ _ St) as (_ & k & pre & oa & ob & Sw & Ds & _ & Sp).
  specialize (Sp Sn eq_refl). destruct Sw as ((Fb & _ & Fr) & _ & Gn & _).
  specialize (Gn 1). specialize (Fb 1). change (astro (cfg (run s00 bad_run))) with 1 in Sp. rewrite Sp in Fb.
  change (get (bal pre) 1 = 100 + gained 1 oa - 0) in Fb.
  assert (Ep : cfg pre = cfg (run s00 bad_run)) by (rewrite Fr; reflexivity).
  destruct (distribute_spec _ _ _ _ _ Ds) as (cc & am & E0 & _ & X).
  destruct (distributable_spec _ _ _ _ E0) as (K & Y). cbv zeta in K, Y. rewrite Ep in K, Y.
  destruct K as (K1 & K2 & K3 & K4 & K5 & _).
  change (dev (cfg (run s00 bad_run))) with (Some (mkDev 50 DEC 5)) in K2.
  change (gov (cfg (run s00 bad_run))) with (Some 30) in K3.
  change (second (cfg (run s00 bad_run))) with (@None (Z * Z)) in K4.
  change (pct (cfg (run s00 bad_run))) with 100 in K5.
  change (staking (cfg (run s00 bad_run))) with (Some 20) in K1.
  change (astro (cfg (run s00 bad_run))) with 1 in Y.
  change (remainder (cfg (run s00 bad_run))) with 0 in Y.
  change (enabled (cfg (run s00 bad_run))) with true in Y.
  destruct am as [x|].
  2:{ destruct Y as [(_ & [Y|(_ & Y & _)])|(Y & _)]; [lia | lia | discriminate]. }
  destruct Y as (_ & _ & _ & [(_ & _ & Y)|(Y & _)]); [|lia].
  destruct X as (sec & gv & dv & st & q & al & X1 & X2 & X3 & X4 & _).
  rewrite K4 in X1. injection X1 as <-. rewrite K3, K5 in X2. rewrite K2 in X3. rewrite K1 in X4.
  unbind X2 as y Ey. apply sub128_Some in Ey. destruct Ey as (-> & _). rewrite Z.sub_0_r in X2.
  unfold muldiv128 in X2. cbn [Z.eqb] in X2. apply u128_Some in X2. destruct X2 as (X2 & _).
  rewrite Z.div_mul in X2 by lia. destruct X3 as (X3 & _). apply umul_Some in X3. destruct X3 as (X3 & _).
  cbn [d_share] in X3. rewrite Z.div_mul in X3 by discriminate. lia.
Qed.

(** When the number of blocks exceeds the reward, nothing of it is ever released. *)
Definition stuck_run : list event := [mkEv (env0 1 1) 8 (Receive 1 5); mkEv (env0 2 2) 8 (Collect [])].
Definition inst1 : inst := mkInst 7 None 1 10 (Some 20) (Some 30) (Some 25) None (Some (40, 10)) (Some 60).
Definition inst2 : inst := mkInst 7 None 1 10 (Some 20) (Some 30) (Some 25) None (Some (40, 10)) None.
Theorem c45_released_refuted : exists t i s0 l1 e0 own0 B s1 o1,
  instantiate t i = Some s0 /\ staking (cfg s0) <> None /\ kept (ASTRO s0) l1 /\
  step e0 own0 (Enable B) (run s0 l1) = Some (s1, o1) /\ remainder (cfg (run s0 l1)) = 5 /\
  forall l2 e sender c s' os, kept (ASTRO s0) l2 -> Forall (fun v => height (ev_env v) <= height e) l2 ->
    height e0 <= height e -> sane e -> step e sender (Collect c) (run s1 l2) = Some (s', os) ->
    remainder (cfg s') = 5.
Proof.
  destruct (instantiate 0 inst2) as [s0|] eqn:I; [|discriminate].
  assert (N : staking (cfg s0) <> None) by (vm_compute in I; injection I as <-; discriminate).
  assert (K : kept (ASTRO s0) stuck_run) by (repeat constructor; try (apply sane0); try discriminate).
  assert (R : remainder (cfg (run s0 stuck_run)) = 5) by (vm_compute in I; injection I as <-; reflexivity).
  destruct (step (env0 3 3) 7 (Enable 10) (run s0 stuck_run)) as [[s1 o1]|] eqn:En;
    [|exfalso; vm_compute in I; injection I as <-; vm_compute in En; discriminate En].
  exists 0, inst2, s0, stuck_run, (env0 3 3), 7, 10, s1, o1. repeat (split; [assumption|]).
  intros l2 e sender c s' os K2 Hl Hh Sn St.
  pose proof (c45_schedule _ _ _ _ _ _ _ _ _ _ _ _ _ _ _ I N (proj2 (Forall_app _ _ _) (conj K K2)) En Hl Hh Sn St) as X.
  cbv zeta in X. rewrite R in X. change (5 / 10) with 0 in X. rewrite X. lia.
Qed.

(** The dev fund receives more than what its share was swapped for: fees held in its asset, not yet
    collected, are sent along. *)
Definition dev_upd : update := mkUpd None None None None None None None None None (Some (Some (mkDev 50 (DEC / 10) 5))).
Definition dev_run : list event :=
  [mkEv (env0 1 1) 7 (UpdateConfig dev_upd); mkEv (env0 2 2) 7 (Enable 10); mkEv (env0 3 3) 8 (Receive 1 100);
   mkEv (env0 4 4) 8 (Receive 5 1000)].
Theorem c78_refuted : exists t i s0 l e sender s' os d,
  instantiate t i = Some s0 /\ kept (ASTRO s0) l /\ let s := run s0 l in
  sane e /\ step e sender (Collect []) s = Some (s', os) /\ dev (cfg s) = Some d /\
  gained (d_asset d) os = 10 /\ paid (d_asset d) (d_to d) os = 1010.
Proof.
  destruct (instantiate 0 inst2) as [s0|] eqn:I; [|discriminate].
  destruct (step (env0 5 5) 9 (Collect []) (run s0 dev_run)) as [[s' os]|] eqn:St;
    [|exfalso; vm_compute in I; injection I as <-; vm_compute in St; discriminate St].
  exists 0, inst2, s0, dev_run, (env0 5 5), 9, s', os, (mkDev 50 (DEC / 10) 5).
  split; auto. split; [repeat constructor; try (apply sane0); try discriminate|]. cbv zeta. split; [apply sane0|].
  split; [assumption|]. vm_compute in I. injection I as <-. vm_compute in St. injection St as <- <-.
  repeat split.
Qed.
(** It never receives less, and exactly that if the maker holds nothing of the asset. *)
Theorem c78_dev e sender l s s' os d :
  step e sender (Collect l) s = Some (s', os) -> dev (cfg s) = Some d -> d_asset d <> ASTRO s -> 
  nonneg (bal s) -> 0 < to_dev s os -> sane e -> find (ASTRO s) (bridges s) = None ->
  paid (d_asset d) (d_to d) os = holds s (d_asset d) + gained (d_asset d) os - (spent (d_asset d) os - paid (d_asset d) (d_to d) os)
  /\ holds s' (d_asset d) = 0.
Proof.
  intros H Ed Na NN Pos Sn Nb. pose proof (c45_conserve _ _ _ _ _ _ H ltac:(discriminate)) as (Cv & _).
  specialize (Cv (d_asset d)).
  enough (holds s' (d_asset d) = 0) by lia.
  simpl in H. destruct (collect_spec _ _ _ _ _ H) as (_ & k & pre & oa & ob & Sw & Ds & -> & Sp).
  assert (Ep : cfg pre = cfg s) by (destruct Sw as ((_ & _ & ->) & _); reflexivity).
  destruct Sw as (_ & _ & _ & Of). unfold to_dev, ASTRO in *. rewrite Ed, offered_app in Pos.
  specialize (Of (astro (cfg s)) (d_asset d)). rewrite (Sp Sn Nb) in Of.
  unfold distribute in Ds. unbind Ds as (c, am) E0. cbv zeta in Ds.
  destruct (distributable_spec _ _ _ _ E0) as (K & _). cbv zeta in K. rewrite Ep in K.
  destruct K as (K1 & K2 & K3 & K4 & K5 & K6 & _).
  destruct am as [x|]; [|injection Ds as <- <-; simpl in Pos; lia].
  unbind Ds as sec E1. unbind Ds as gv E2. unbind Ds as dv E3. unbind Ds as st E4.
  unbind Ds as (s1, o1) A1. unbind Ds as (s2, o2) A2. unbind Ds as (s3, o3) A3. unbind Ds as (s4, o4) A4.
  injection Ds as <- <-. rewrite K2, Ed in A3.
  assert (Zo : forall (o : option Z) to v sa sb oo, match o with Some t => send_opt e (astro c) t v sa | None => Some (sa, []) end = Some (sb, oo) ->
     offered (astro c) to oo = 0 /\ (forall b, b <> astro c -> get (bal sb) b = get (bal sa) b)).
  { intros o to v sa sb oo Q. destruct o as [t|].
    - apply send_opt_spec in Q. destruct Q as (-> & (Q & _) & _). split; [apply offered_payl|].
      intros b Nq. rewrite Q, gained_payl, spent_payl. destruct (Z.eqb_spec b (astro c)); [congruence|lia].
    - injection Q as <- <-. split; auto. }
  destruct (Zo _ (d_asset d) _ _ _ _ A2) as (Q2 & _).
  destruct (Zo _ (d_asset d) _ _ _ _ A4) as (Q4 & R4).
  assert (Q1 : offered (astro c) (d_asset d) o1 = 0).
  { destruct (second c) as [[t cut]|].
    - apply (Zo (Some t) (d_asset d)) in A1. apply A1.
    - injection A1 as <- <-. reflexivity. }
  rewrite <- K6 in Pos, Na, Of. rewrite !offered_app, Q1, Q2, Q4 in Pos.
  unfold holds. rewrite R4 by exact Na.
  destruct (dv =? 0); [injection A3 as <- <-; simpl in Pos; lia|].
  unbind A3 as (sa, oa') T1. unbind A3 as (sb, ob') T2. injection A3 as <- <-.
  unfold send in T2. unguard T2 G1. unguard T2 G2. injection T2 as <- <-. cbn [set_bal bal].
  rewrite get_set_same. lia.
Qed.

(** ** C47: cooldown *)

(** Between two successful collections, whatever happens in between, at least the cooldown configured
    at the time of the second one passes; the first one is that long after the instantiation. *)
Theorem c47_cooldown e1 sender1 c1 s s1 o1 l e2 sender2 c2 s2 o2 cd :
  step e1 sender1 (Collect c1) s = Some (s1, o1) -> clock (now e1) (height e1) l ->
  step e2 sender2 (Collect c2) (run s1 l) = Some (s2, o2) ->
  cooldown (cfg (run s1 l)) = Some cd ->
  now e1 + cd <= now e2.
Proof.
  intros H1 C H2 Cd. destruct (step_config _ _ _ _ _ _ H1) as (_ & _ & _ & L & _).
  destruct (run_lastcol l s1 (now e1) (height e1)) as (A & _); [lia | exact C |].
  destruct (collect_spec _ _ _ _ _ H2) as (B & _). specialize (B _ Cd). lia.
Qed.
Theorem c47_first t i s0 l h e sender c s' os cd :
  instantiate t i = Some s0 -> clock t h l ->
  step e sender (Collect c) (run s0 l) = Some (s', os) -> cooldown (cfg (run s0 l)) = Some cd ->
  t + cd <= now e.
Proof.
  intros H C St Cd. destruct (inst_pre _ _ _ H) as (_ & _ & L).
  destruct (run_lastcol l s0 t h) as (A & _); [lia | exact C |].
  destruct (collect_spec _ _ _ _ _ St) as (B & _). specialize (B _ Cd). lia.
Qed.
(** A cooldown, once configured, is never removed, and it is between 30 and 600 seconds. *)
Theorem c47_limits t i s0 l1 l2 :
  instantiate t i = Some s0 -> cooldown (cfg (run s0 l1)) <> None ->
  exists cd, cooldown (cfg (run s0 (l1 ++ l2))) = Some cd /\ 30 <= cd <= 600.
Proof.
  intros H N. unfold run at 1. rewrite fold_left_app.
  change (exists cd, cooldown (cfg (run (run s0 l1) l2)) = Some cd /\ 30 <= cd <= 600).
  pose proof (run_cooldown l2 _ N) as N2.
  pose proof (run_good l2 _ (run_good l1 _ (inst_good _ _ _ H))) as (_ & _ & _ & G & _).
  destruct (cooldown (cfg (run (run s0 l1) l2))) as [cd|]; [|congruence]. exists cd. split; auto.
Qed.

(** ** C75: who decides where fees go *)

Lemma trades_pools e (P : Z -> Z -> Prop) ms : forall k s k' s' os,
  trades e k ms s = Some (k', s', os) -> (forall a t v, In (a, t, v) ms -> P a t) ->
  forall a b, offered a b os <> 0 -> P a b.
Proof.
  induction ms as [|[[a t] v] ms IH]; intros k s k' s' os H Q; simpl in H.
  - injection H as <- <- <-. simpl. tauto.
  - unbind H as (s1, o) E1. unbind H as ((k2, s2), os2) E2. injection H as <- <- <-.
    apply trade_spec in E1. destruct E1 as (q & _ & _ & -> & _).
    intros x y N. simpl in N. destruct ((x =? a) && (y =? t)) eqn:B.
    + bools. subst. apply (Q a t v). simpl. auto.
    + apply (IH _ _ _ _ _ E2); [intros; eapply Q; simpl; eauto | lia].
Qed.
Lemma target_pool e s a t br : target e s a = Some (t, br) -> pool e (factory (cfg s)) a t = true.
Proof.
  unfold target. cbv zeta. intros H. destruct (find a (bridges s)) as [b|].
  - unguard H G. injection H as <- <-. cbn [validate_bridge MAX_DEPTH] in G. bools. assumption.
  - destruct (dbridge (cfg s)) as [d|].
    + destruct (negb (a =? d) && pool e (factory (cfg s)) a d) eqn:B.
      * injection H as <- <-. bools. assumption.
      * unguard H G. injection H as <- <-. exact G.
    + unguard H G. injection H as <- <-. exact G.
Qed.
Lemma distribute_pools e k s s' os : distribute e k s = Some (s', os) ->
  (forall a b, offered a b os <> 0 ->
    a = astro (cfg s) /\ pool e (factory (cfg s)) a b = true /\ exists d, dev (cfg s) = Some d /\ b = d_asset d) /\
  (forall a to, paid a to os <> 0 ->
    (a = astro (cfg s) /\ ((exists k, second (cfg s) = Some (to, k)) \/ gov (cfg s) = Some to \/ staking (cfg s) = Some to)) \/
    (exists d, dev (cfg s) = Some d /\ a = d_asset d /\ to = d_to d)).
Proof.
  intros H. destruct (distribute_spec _ _ _ _ _ H) as (c & am & E0 & _ & X).
  destruct (distributable_spec _ _ _ _ E0) as ((K1 & K2 & K3 & K4 & K5 & K6 & K7 & _) & _).
  destruct am as [x|]; [|destruct X as (_ & ->); simpl; split; intros; tauto].
  destruct X as (sec & gv & dv & st & q & al & _ & _ & X3 & _ & _ & ->).
  rewrite K1, K2, K3, K4, K6, K7 in *.
  split.
  - intros a b. rewrite !offered_app.
    destruct (second (cfg s)) as [[r k2]|], (gov (cfg s)) as [g|], (staking (cfg s)) as [sk|], (dev (cfg s)) as [d|];
      rewrite ?offered_payl; simpl; try tauto;
      (destruct (Z.eqb_spec dv 0) as [|N]; simpl; try tauto);
      (destruct (Z.eqb_spec a (astro (cfg s))) as [->|]; simpl; try tauto);
      (destruct (Z.eqb_spec b (d_asset d)) as [->|]; simpl; try tauto);
      intros _; destruct X3 as (_ & X3); (split; [reflexivity | split; [exact (X3 N) | eauto]]).
  - intros a to. rewrite !paid_app.
    intros N.
    destruct (Z.eq_dec (paid a to match second (cfg s) with Some (t, _) => payl (astro (cfg s)) t sec | None => [] end) 0) as [N1|N1].
    2:{ left. destruct (second (cfg s)) as [[t cut]|]; [|simpl in N1; tauto]. rewrite paid_payl in N1.
        destruct (Z.eqb_spec a (astro (cfg s))); [|simpl in N1; tauto].
        destruct (Z.eqb_spec to t); [|simpl in N1; tauto]. subst. split; eauto. }
    destruct (Z.eq_dec (paid a to match gov (cfg s) with Some t => payl (astro (cfg s)) t gv | None => [] end) 0) as [N2|N2].
    2:{ left. destruct (gov (cfg s)) as [t|]; [|simpl in N2; tauto]. rewrite paid_payl in N2.
        destruct (Z.eqb_spec a (astro (cfg s))); [|simpl in N2; tauto].
        destruct (Z.eqb_spec to t); [|simpl in N2; tauto]. subst. split; auto. }
    destruct (Z.eq_dec (paid a to match staking (cfg s) with Some t => payl (astro (cfg s)) t st | None => [] end) 0) as [N3|N3].
    2:{ left. destruct (staking (cfg s)) as [t|]; [|simpl in N3; tauto]. rewrite paid_payl in N3.
        destruct (Z.eqb_spec a (astro (cfg s))); [|simpl in N3; tauto].
        destruct (Z.eqb_spec to t); [|simpl in N3; tauto]. subst. split; auto. }
    right. rewrite N1, N2, N3 in N. destruct (dev (cfg s)) as [d|]; [|simpl in N; lia].
    destruct (dv =? 0); simpl in N; [lia|].
    destruct (Z.eqb_spec a (d_asset d)); [|simpl in N; lia].
    destruct (Z.eqb_spec to (d_to d)); [|simpl in N; lia]. eauto.
Qed.
Lemma bridge_pools fuel : forall e k bs s s' os,
  bridge fuel e k bs s = Some (s', os) ->
  forall a b, offered a b os <> 0 -> pool e (factory (cfg s)) a b = true.
Proof.
  induction fuel as [|f IH]; intros e k bs s s' os H a b N.
  - destruct bs; [|discriminate H]. apply distribute_pools in H. destruct H as (H & _). apply H in N. tauto.
  - destruct bs as [|b0 bs].
    { apply distribute_pools in H. destruct H as (H & _). apply H in N. tauto. }
    cbn [bridge] in H. unbind H as (ms, nb) E1. destruct ms as [|m ms]; [discriminate H|].
    unbind H as ((k2, s1), o1) E2. unbind H as (s2, o2) E3. injection H as <- <-.
    destruct (swap_assets_spec _ _ _ _ _ E1) as (SA & _).
    destruct (trades_spec _ _ _ _ _ _ _ E2) as (F1 & _).
    rewrite offered_app in N. destruct (Z.eq_dec (offered a b o1) 0) as [Z0|Z0].
    + rewrite <- (F_cfg _ _ _ F1). apply (IH _ _ _ _ _ _ E3). lia.
    + apply (trades_pools e (fun a b => pool e (factory (cfg s)) a b = true) _ _ _ _ _ _ E2); auto.
      intros x t v I. destruct (SA _ _ _ I) as (lim & br & _ & _ & _ & T). eapply target_pool; eauto.
Qed.

(** Whoever calls collect: ASTRO goes only to the three configured receivers, other assets only to
    the dev fund, and swaps happen only at pairs of the configured factory. *)
Theorem c75_receivers e sender l s s' os :
  step e sender (Collect l) s = Some (s', os) ->
  (forall a to, paid a to os <> 0 ->
     (a = ASTRO s /\ ((exists k, second (cfg s) = Some (to, k)) \/ gov (cfg s) = Some to \/ staking (cfg s) = Some to)) \/
     (exists d, dev (cfg s) = Some d /\ a = d_asset d /\ to = d_to d)) /\
  (forall a b, offered a b os <> 0 -> pool e (factory (cfg s)) a b = true).
Proof.
  intros H. simpl in H. split.
  - intros a to N. destruct (collect_spec _ _ _ _ _ H) as (_ & k & pre & oa & ob & Sw & Ds & -> & _).
    destruct Sw as ((_ & _ & Fr) & P0 & _). rewrite paid_app, P0 in N.
    assert (Ep : cfg pre = cfg s) by (rewrite Fr; reflexivity).
    destruct (distribute_pools _ _ _ _ _ Ds) as (_ & X). rewrite Ep in X. apply X. lia.
  - unfold collect in H. cbv zeta in H. unguard H G1. unbind H as ok E0. unguard H G2. unguard H G3.
    set (s0 := mkState (cfg s) (now e) (bridges s) (seize_to s) (seizable s) (bal s)) in *.
    unbind H as (ms, bs) E1. destruct ms as [|m ms].
    { intros a b N. apply distribute_pools in H. destruct H as (H & _). apply H in N. tauto. }
    unbind H as ((k2, s1), o1) E2. unbind H as (s2, o2) E3. injection H as <- <-.
    destruct (swap_assets_spec _ _ _ _ _ E1) as (SA & _).
    destruct (trades_spec _ _ _ _ _ _ _ E2) as (F1 & _).
    intros a b N. rewrite offered_app in N. destruct (Z.eq_dec (offered a b o1) 0) as [Z0|Z0].
    + change (cfg s) with (cfg s0). rewrite <- (F_cfg _ _ _ F1). apply (bridge_pools _ _ _ _ _ _ _ E3). lia.
    + apply (trades_pools e (fun a b => pool e (factory (cfg s)) a b = true) _ _ _ _ _ _ E2); auto.
      intros x t v I. destruct (SA _ _ _ I) as (lim & br & _ & _ & _ & T). apply (target_pool e s0) in T. exact T.
Qed.

(** Receivers, percentages, routes, seizable assets and their receiver change only by messages of the
    owner; the internal messages are refused from everybody else than the contract. *)
Theorem c75_owner e sender m s s' os :
  step e sender m s = Some (s', os) -> sender <> owner s ->
  same_setup (cfg s) (cfg s') /\ bridges s' = bridges s /\ seize_to s' = seize_to s /\
  seizable s' = seizable s /\ (enabled (cfg s') = enabled (cfg s)) /\
  (sender <> self e -> m <> Distribute /\ forall bs d, m <> SwapBridge bs d).
Proof.
  intros H N. destruct (step_config _ _ _ _ _ _ H) as (R & A & _ & _ & B & C).
  split; [destruct A as [A|(A & _)]; tauto|]. split; [destruct B as [B|(B & _)]; tauto|].
  split; [destruct C as [(C & _)|(C & _)]; tauto|]. split; [destruct C as [(_ & C)|(C & _)]; tauto|].
  split.
  - destruct m; simpl in H;
    try (destruct R as [(_ & _ & _ & _ & ->)|[(-> & -> & _)|[(R1 & R2 & R3)|(-> & -> & _)]]]; try reflexivity).
    + exfalso. destruct (collect_reward _ _ _ _ _ H) as (R & _).
      destruct (collect_spec _ _ _ _ _ H) as (_ & k & pre & oa & ob & Sw & Ds & _).
      destruct Sw as ((_ & _ & Fr) & _). assert (Ep : cfg pre = cfg s) by (rewrite Fr; reflexivity).
      destruct (distribute_spec _ _ _ _ _ Ds) as (c & am & E0 & (_ & _ & Fd) & _).
      destruct (distributable_spec _ _ _ _ E0) as (K & _). assert (Ec : cfg s' = c) by (rewrite Fd; reflexivity).
      rewrite Ep, <- Ec in K. intuition congruence.
    + exfalso. unfold silent in H. unbind H as s2 E. injection H as <- <-.
      apply update_config_reward in E. tauto.
    + exfalso. unfold silent in H. unbind H as s2 E. injection H as <- <-.
      apply update_bridges_spec in E. tauto.
    + exfalso. unguard H G. destruct bs as [|b0 bs]; [injection H as <- <-; congruence|].
      destruct (bridge_spec _ _ _ _ _ _ _ H) as (k & pre & oa & ob & Sw & Ds & _).
      destruct Sw as ((_ & _ & Fr) & _). assert (Ep : cfg pre = cfg s) by (rewrite Fr; reflexivity).
      destruct (distribute_spec _ _ _ _ _ Ds) as (c & am & E0 & (_ & _ & Fd) & _).
      destruct (distributable_spec _ _ _ _ E0) as (K & _). assert (Ec : cfg s' = c) by (rewrite Fd; reflexivity).
      rewrite Ep, <- Ec in K. intuition congruence.
    + exfalso. unguard H G.
      destruct (distribute_spec _ _ _ _ _ H) as (c & am & E0 & (_ & _ & Fd) & _).
      destruct (distributable_spec _ _ _ _ E0) as (K & _). assert (Ec : cfg s' = c) by (rewrite Fd; reflexivity).
      rewrite <- Ec in K. intuition congruence.
    + exfalso. unfold silent in H. unbind H as s2 E. injection H as <- <-. unbind E as o E2. injection E as <-.
      cbn in R1, R2. congruence.
    + exfalso. unfold silent in H. unbind H as s2 E. injection H as <- <-. apply enable_reward in E. tauto.
    + exfalso. apply seize_spec in H. destruct H as (_ & F1 & _). apply F_cfg in F1. congruence.
    + exfalso. unguard H G. bools. tauto.
    + exfalso. unfold silent in H. unbind H as s2 E. injection H as <- <-. unguard E G. unbind E as n E2.
      injection E as <-. cbn in R2. congruence.
  - intros NS. split; [intros -> | intros bs d ->]; simpl in H; unguard H G; bools; tauto.
Qed.

(** The configuration stays within the documented limits in every reachable state. *)
Theorem c75_limits t i s0 l : instantiate t i = Some s0 -> good_config (cfg (run s0 l)).
Proof. intros H. apply run_good. eapply inst_good. exact H. Qed.

(** It starts with what the deployer asked for: a spread limit of 5% unless told otherwise, no pre-upgrade rewards running,
    no share for a development fund, no bridges and nothing that could be seized. *)
Theorem c75_start t i s0 : instantiate t i = Some s0 ->
  owner s0 = i_owner i /\ spread (cfg s0) = match i_spread i with Some x => x | None => 50000000000000000 end /\
  pct (cfg s0) = match i_pct i with Some x => x | None => 0 end /\ staking (cfg s0) = i_staking i /\ gov (cfg s0) = i_gov i /\
  second (cfg s0) = i_second i /\ cooldown (cfg s0) = i_cooldown i /\ dev (cfg s0) = None /\ enabled (cfg s0) = false /\
  remainder (cfg s0) = 0 /\ bridges s0 = [] /\ seize_to s0 = None /\ seizable s0 = [].
Proof.
  unfold instantiate. cbv zeta. intros H. unguard H G0. unguard H G1. unguard H G2. unguard H G3. unguard H G4. unguard H G5. injection H as <-. cbn. unfold orelse, DEFAULT_SPREAD.
  repeat split; destruct (i_spread i), (i_pct i); reflexivity.
Qed.

(** ** C76: seizing *)

Lemma paid_plan b a to l : ~ In a (map fst l) -> paid a to (map (fun p => Paid (fst p) to (snd p)) (seize_plan b l)) = 0.
Proof.
  induction l as [|[x lim] l IH]; intros N; simpl in *; auto.
  destruct (_ =? 0); simpl; [apply IH; tauto|].
  destruct (Z.eqb_spec a x); [subst; tauto|]. simpl. apply IH. tauto.
Qed.

(** Anybody may seize, but only the configured assets, only to the configured receiver, and exactly
    the smaller of the requested amount and the balance. *)
Theorem c76_seize e sender l s s' os :
  step e sender (Seize l) s = Some (s', os) ->
  (forall a lim, In (a, lim) l -> In a (seizable s)) /\
  (forall a to, paid a to os <> 0 -> seize_to s = Some to /\ In a (map fst l)) /\
  (forall a b, offered a b os = 0 /\ gained a os = 0) /\
  (forall a lim to, NoDup (map fst l) -> In (a, lim) l -> seize_to s = Some to ->
     paid a to os = match lim with Some x => Z.min x (holds s a) | None => holds s a end) /\
  (forall a, ~ In a (map fst l) -> holds s' a = holds s a).
Proof.
  intros H. simpl in H. destruct (seize_spec _ _ _ _ _ H) as (Lm & (Fb & _ & _) & M & O).
  split; [intros a lim I; apply (M (a, lim)); exact I|].
  assert (Zg : forall to ls a b, offered a b (map (fun p : Z * Z => Paid (fst p) to (snd p)) ls) = 0 /\
                                 gained a (map (fun p : Z * Z => Paid (fst p) to (snd p)) ls) = 0).
  { intros to ls a b. induction ls as [|p ls IH]; simpl; tauto. }
  assert (Zt : forall to ls a t, t <> to -> paid a t (map (fun p : Z * Z => Paid (fst p) to (snd p)) ls) = 0).
  { intros to ls a t N. induction ls as [|p ls IH]; simpl; auto.
    destruct (Z.eqb_spec t to); [congruence|]. rewrite andb_false_r. exact IH. }
  split; [|split; [|split]].
  - destruct O as [->|(to & E & ->)]; [simpl; tauto|]. intros a t N.
    destruct (Z.eq_dec t to) as [->|Nt]; [|rewrite Zt in N; tauto].
    split; auto. destruct (in_dec Z.eq_dec a (map fst l)) as [|NI]; auto.
    rewrite paid_plan in N; tauto.
  - destruct O as [->|(to & E & ->)]; auto.
  - intros a lim to ND I E.
    assert (Os : os = map (fun p => Paid (fst p) to (snd p)) (seize_plan (bal s) l)).
    { destruct O as [->|(to2 & E2 & ->)]; [|rewrite E2 in E; injection E as ->; reflexivity].
      unfold seize in H. unguard H G0. unguard H G1. unguard H G2. unguard H G3.
      destruct (seize_plan (bal s) l) as [|p r]; auto. rewrite E in H.
      apply send_all_spec in H. destruct H as (_ & H). discriminate H. }
    rewrite Os. clear - ND I. unfold holds. induction l as [|[x lm] l IH]; [destruct I|].
    simpl in ND. inversion ND as [|? ? N1 N2]; subst. simpl.
    destruct I as [I|I].
    + injection I as -> ->. destruct (Z.eqb_spec (match lim with Some x => Z.min x (get (bal s) a) | None => get (bal s) a end) 0) as [Q|Q].
      * rewrite paid_plan by exact N1. lia.
      * simpl. rewrite !Z.eqb_refl. cbn [andb]. rewrite paid_plan by exact N1. lia.
    + assert (a <> x) by (intros ->; apply N1; apply in_map_iff; exists (x, lim); auto).
      destruct (_ =? 0); simpl; [auto|]. destruct (Z.eqb_spec a x); [congruence|]. simpl. auto.
  - intros a N. unfold holds. rewrite Fb.
    destruct O as [->|(to & _ & ->)]; [simpl; lia|].
    rewrite (proj2 (Zg to _ a a)), (spent_seize a to (bal s) l N). lia.
Qed.
(** With nothing seizable, with no list, or when something not seizable is named, nothing happens. *)
Theorem c76_refused e sender l s :
  (seizable s = [] \/ l = [] \/ exists a lim, In (a, lim) l /\ ~ In a (seizable s)) ->
  step e sender (Seize l) s = None.
Proof.
  intros H. destruct (step e sender (Seize l) s) as [[s' os]|] eqn:E; auto. exfalso.
  destruct (c76_seize _ _ _ _ _ _ E) as (A & _). simpl in E. unfold seize in E.
  unguard E G0. unguard E G1. unguard E G2.
  destruct H as [H|[->|(a & lim & I & N)]]; [rewrite H in G2; discriminate | discriminate | exact (N (A _ _ I))].
Qed.

(** Seizing ASTRO while a pre-upgrade reward is being released makes every later collection of
    nothing fail: less is held than is reserved. *)
Definition seize_run : list event :=
  [mkEv (env0 1 1) 8 (Receive 1 100); mkEv (env0 2 2) 8 (Collect []); mkEv (env0 3 3) 7 (Enable 10);
   mkEv (env0 4 4) 7 (UpdateSeize (Some 60) [1]); mkEv (env0 5 5) 8 (Seize [(1, Some 50)])].
Theorem c76_reserve_refuted : exists t i s0 l,
  instantiate t i = Some s0 /\ staking (cfg s0) <> None /\ let s := run s0 l in
  holds s (ASTRO s) = 50 /\ remainder (cfg s) = 100 /\
  forall e sender, 5 < height e <= U64MAX -> step e sender (Collect []) s = None.
Proof.
  destruct (instantiate 0 inst2) as [s0|] eqn:I; [|discriminate].
  exists 0, inst2, s0, seize_run. split; auto.
  vm_compute in I. injection I as <-. split; [discriminate|]. cbv zeta. split; [reflexivity|]. split; [reflexivity|].
  intros e sender Hh. destruct (step e sender (Collect []) _) as [[s' os]|] eqn:St; auto. exfalso.
  match type of St with step _ _ _ ?x = _ => set (s := x) in * end.
  change (distribute e 0 (mkState (cfg s) (now e) (bridges s) (seize_to s) (seizable s) (bal s)) = Some (s', os)) in St.
  destruct (distribute_spec _ _ _ _ _ St) as (cc & am & E0 & _ & X).
  destruct (distributable_spec _ _ _ _ E0) as (_ & Y). cbv zeta in Y. cbn [cfg bal] in Y.
  change (astro (cfg s)) with 1 in Y. change (get (bal s) 1) with 50 in Y.
  change (remainder (cfg s)) with 100 in Y. change (enabled (cfg s)) with true in Y.
  change (lastblk (cfg s)) with 3 in Y.
  destruct am as [x|].
  - destruct Y as (_ & _ & _ & [(_ & Y & _)|(_ & _ & _ & _ & Y & _)]); lia.
  - destruct Y as [(_ & [Y|(_ & _ & Y)])|(Y & _)]; [lia | lia | discriminate].
Qed.

(** ** C79: limits of a collection *)

Fixpoint offers (a : Z) (ms : list (Z * Z * Z)) : Z :=
  match ms with [] => 0 | (x, _, v) :: r => (if a =? x then v else 0) + offers a r end.
Lemma trades_offers e a ms : forall k s k' s' os, trades e k ms s = Some (k', s', os) -> spent a os = offers a ms.
Proof.
  induction ms as [|[[x t] v] ms IH]; intros k s k' s' os H; simpl in H.
  - injection H as <- <- <-. reflexivity.
  - unbind H as (s1, o) E1. unbind H as ((k2, s2), os2) E2. injection H as <- <- <-.
    apply trade_spec in E1. destruct E1 as (q & _ & _ & -> & _). simpl. rewrite (IH _ _ _ _ _ E2). reflexivity.
Qed.
Lemma offers_none e s a l : forall ms bs, swap_assets e s l = Some (ms, bs) -> ~ In a (map fst l) -> offers a ms = 0.
Proof.
  induction l as [|[x lm] l IH]; intros ms bs H N; simpl in H.
  - injection H as <- <-. reflexivity.
  - simpl in N. destruct (take s x lm =? 0); [apply (IH _ _ H); tauto|].
    unbind H as (t, br) E1. unbind H as (ms2, bs2) E2. injection H as <- <-.
    simpl. destruct (Z.eqb_spec a x); [subst; tauto|]. rewrite (IH _ _ eq_refl); [lia|tauto].
Qed.
Lemma offers_one e s a lim l : forall ms bs, swap_assets e s l = Some (ms, bs) -> NoDup (map fst l) ->
  In (a, lim) l -> offers a ms = take s a lim.
Proof.
  induction l as [|[x lm] l IH]; intros ms bs H ND I; [destruct I|]. simpl in H, ND.
  inversion ND as [|? ? N1 N2]; subst. destruct I as [I|I].
  - injection I as -> ->. destruct (Z.eqb_spec (take s a lim) 0) as [T0|T0].
    + rewrite T0. apply (offers_none _ _ _ _ _ _ H N1).
    + unbind H as (t, br) E1. unbind H as (ms2, bs2) E2. injection H as <- <-. simpl. rewrite Z.eqb_refl.
      rewrite (offers_none _ _ _ _ _ _ E2 N1). lia.
  - assert (a <> x) by (intros ->; apply N1; apply in_map_iff; exists (x, lim); auto).
    destruct (take s x lm =? 0); [apply (IH _ _ H); auto|].
    unbind H as (t, br) E1. unbind H as (ms2, bs2) E2. injection H as <- <-.
    simpl. destruct (Z.eqb_spec a x); [congruence|]. rewrite (IH _ _ eq_refl); auto.
Qed.

(** No configured route leads through [a]. *)
Definition no_route (s : state) (a : Z) : Prop :=
  dbridge (cfg s) <> Some a /\ forall x, find x (bridges s) <> Some a.
Lemma target_route e s x a : no_route s a -> target e s x <> Some (a, true).
Proof.
  intros (N1 & N2) H. unfold target in H. cbv zeta in H. destruct (find x (bridges s)) as [b|] eqn:E.
  - unguard H G. injection H as -> _. apply (N2 _ E).
  - destruct (dbridge (cfg s)) as [d|].
    + destruct (negb (x =? d) && pool e (factory (cfg s)) x d).
      * injection H as ->. congruence.
      * destruct (pool e (factory (cfg s)) x (astro (cfg s))); discriminate.
    + destruct (pool e (factory (cfg s)) x (astro (cfg s))); discriminate.
Qed.
Lemma distribute_other e k s s' os a : distribute e k s = Some (s', os) -> a <> astro (cfg s) ->
  (forall d, dev (cfg s) = Some d -> d_asset d <> a) -> spent a os = 0.
Proof.
  intros H Na Nd. destruct (distribute_spec _ _ _ _ _ H) as (c & am & E0 & _ & X).
  destruct (distributable_spec _ _ _ _ E0) as ((K1 & K2 & K3 & K4 & K5 & K6 & K7 & _) & _).
  destruct am as [x|]; [|destruct X as (_ & ->); reflexivity].
  destruct X as (sec & gv & dv & st & q & al & _ & _ & _ & _ & _ & ->).
  rewrite K1, K2, K3, K4, K6. rewrite !spent_app.
  assert (Q : forall t v, spent a (payl (astro (cfg s)) t v) = 0).
  { intros t v. rewrite spent_payl. destruct (Z.eqb_spec a (astro (cfg s))); [congruence|reflexivity]. }
  destruct (second (cfg s)) as [[r k2]|], (gov (cfg s)) as [g|], (staking (cfg s)) as [sk|], (dev (cfg s)) as [d|];
    rewrite ?Q; simpl; auto; try (specialize (Nd _ eq_refl));
    (destruct (dv =? 0); simpl; [reflexivity|]);
    (destruct (Z.eqb_spec a (astro (cfg s))); [congruence|]); (destruct (Z.eqb_spec a (d_asset d)); [congruence|reflexivity]).
Qed.
Lemma bridge_other fuel : forall e k bs s s' os a,
  bridge fuel e k bs s = Some (s', os) -> sane e -> no_route s a -> ~ In a bs -> a <> astro (cfg s) ->
  (forall d, dev (cfg s) = Some d -> d_asset d <> a) -> spent a os = 0.
Proof.
  induction fuel as [|f IH]; intros e k bs s s' os a H Sn NR NI Na Nd.
  - destruct bs; [|discriminate H]. eapply distribute_other; eauto.
  - destruct bs as [|b0 bs]; [eapply distribute_other; eauto|].
    cbn [bridge] in H. unbind H as (ms, nb) E1. destruct ms as [|m ms]; [discriminate H|].
    unbind H as ((k2, s1), o1) E2. unbind H as (s2, o2) E3. injection H as <- <-.
    destruct (swap_assets_spec _ _ _ _ _ E1) as (_ & SB).
    destruct (trades_spec _ _ _ _ _ _ _ E2) as (F1 & _).
    rewrite spent_app, (trades_offers _ _ _ _ _ _ _ _ E2), (offers_none _ _ _ _ _ _ E1).
    2:{ rewrite map_map, map_id. exact NI. }
    rewrite (IH _ _ _ _ _ _ _ E3); auto.
    + unfold no_route in *. rewrite (F_cfg _ _ _ F1). destruct F1 as (_ & _ & ->). exact NR.
    + intros J. destruct Sn as (_ & Pm). apply (Permutation_in _ (Permutation_sym (Pm nb))) in J.
      destruct (SB _ J) as (x & T). exact (target_route _ _ _ _ NR T).
    + rewrite (F_cfg _ _ _ F1). exact Na.
    + rewrite (F_cfg _ _ _ F1). exact Nd.
Qed.

(** Of an asset through which no route leads, a collection with a positive limit takes the limit (or
    the balance if that is less); without a limit, everything; and of assets not named, nothing. *)
Theorem c79_limit e sender l s s' os a :
  step e sender (Collect l) s = Some (s', os) -> sane e -> no_route s a -> a <> ASTRO s ->
  (forall d, dev (cfg s) = Some d -> d_asset d <> a) ->
  (forall lim, In (a, lim) l ->
     spent a os = match lim with Some v => if 0 <? v then Z.min v (holds s a) else holds s a | None => holds s a end) /\
  (~ In a (map fst l) -> spent a os = 0).
Proof.
  intros H Sn NR Na Nd. simpl in H. unfold collect in H. cbv zeta in H. unguard H G1. unbind H as ok E0. unguard H G2. unguard H G3.
  set (s0 := mkState (cfg s) (now e) (bridges s) (seize_to s) (seizable s) (bal s)) in *.
  set (L := filter (fun x : Z * option Z => negb (fst x =? astro (cfg s))) l) in *.
  unbind H as (ms, bs) E1.
  assert (Sp : spent a os = offers a ms).
  { destruct ms as [|m ms]; [apply (distribute_other _ _ _ _ _ a H); auto|].
    unbind H as ((k2, s1), o1) E2. unbind H as (s2, o2) E3. injection H as <- <-.
    rewrite spent_app, (trades_offers _ _ _ _ _ _ _ _ E2).
    destruct (swap_assets_spec _ _ _ _ _ E1) as (_ & SB).
    destruct (trades_spec _ _ _ _ _ _ _ E2) as (F1 & _). pose proof (F_cfg _ _ _ F1) as Fc.
    rewrite (bridge_other _ _ _ _ _ _ _ a E3); auto; try (rewrite Fc; auto).
    - apply Z.add_0_r.
    - unfold no_route in *. rewrite Fc. destruct F1 as (_ & _ & ->). exact NR.
    - intros J. pose proof Sn as (_ & Pm). apply (Permutation_in _ (Permutation_sym (Pm bs))) in J.
      destruct (SB _ J) as (x & T). exact (target_route e s0 x a NR T). }
  assert (ND : NoDup (map fst l)).
  { clear - G3. induction (map fst l) as [|x r IH]; [constructor|]. simpl in G3. bools. constructor; auto.
    intros I. apply mem_In in I. congruence. }
  assert (NL : NoDup (map fst L)).
  { unfold L. clear - ND. induction l as [|[x v] l IH]; simpl in *; [constructor|].
    inversion ND as [|? ? N1 N2]; subst. destruct (negb (x =? astro (cfg s))); simpl; auto.
    constructor; auto. intros I. apply N1. apply in_map_iff in I. destruct I as (y & <- & I).
    apply filter_In in I. apply in_map_iff. exists y. tauto. }
  rewrite Sp. split.
  - intros lim I. rewrite (offers_one _ _ _ lim _ _ _ E1 NL).
    + unfold take, holds. cbv zeta. change (bal s0) with (bal s). destruct lim as [v|]; auto.
      destruct (Z.ltb_spec v (get (bal s) a)), (Z.ltb_spec 0 v); cbn [andb]; lia.
    + unfold L. apply filter_In. split; auto. cbn [fst]. unfold ASTRO in Na. destruct (Z.eqb_spec a (astro (cfg s))); [tauto|reflexivity].
  - intros N. apply (offers_none _ _ _ _ _ _ E1). intros I. apply N. unfold L in I.
    apply in_map_iff in I. destruct I as (y & <- & I). apply filter_In in I. apply in_map_iff. exists y. tauto.
Qed.

(** With a route leading through the asset the limit is not respected: of asset 2, limited to 10,
    all 1000 are swapped because the collection of asset 3 goes through asset 2. *)
Definition route_run : list event :=
  [mkEv (env0 1 1) 7 (UpdateBridges [(3, 2)] []); mkEv (env0 2 2) 8 (Receive 2 1000);
   mkEv (env0 3 3) 8 (Receive 3 5)].
Theorem c79_refuted : exists t i s0 l e sender s' os,
  instantiate t i = Some s0 /\ let s := run s0 l in sane e /\ holds s 2 = 1000 /\
  step e sender (Collect [(2, Some 10); (3, None)]) s = Some (s', os) /\ spent 2 os = 1005.
Proof.
  destruct (instantiate 0 inst2) as [s0|] eqn:I; [|discriminate].
  destruct (step (env0 4 4) 9 (Collect [(2, Some 10); (3, None)]) (run s0 route_run)) as [[s' os]|] eqn:St;
    [|exfalso; vm_compute in I; injection I as <-; vm_compute in St; discriminate St].
  exists 0, inst2, s0, route_run, (env0 4 4), 9, s', os. cbv zeta.
  split; [assumption|]. split; [apply sane0|]. vm_compute in I. injection I as <-. split; [reflexivity|].
  split; [assumption|]. vm_compute in St. injection St as <- <-. reflexivity.
Qed.

(** ** Concrete cases *)

(** A maker with second receiver 40 (10 %), governance 30 (25 %), dev fund 50 (10 % as asset 5),
    staking 20, cooldown 60 s; 103 ASTRO were received before enabling over 10 blocks. *)
Definition k_run : list event :=
  [mkEv (env0 100 1) 8 (Receive 1 103); mkEv (env0 160 2) 8 (Collect []);
   mkEv (env0 170 3) 7 (UpdateConfig dev_upd); mkEv (env0 170 3) 7 (UpdateBridges [(3, 2)] []);
   mkEv (env0 180 4) 7 (Enable 10);
   mkEv (env0 190 5) 8 (Receive 1 1000); mkEv (env0 200 6) 8 (Receive 3 70); mkEv (env0 210 7) 8 (Receive 4 500)].
Definition k0 : option state := instantiate 0 inst1.
Definition k_state : option state := option_map (fun s => run s k_run) k0.
Definition k_collect : option (state * list out) :=
  match k_state with Some s => step (env0 240 9) 9 (Collect [(3, None); (4, Some 100)]) s | None => None end.
Example k_kept : kept 1 k_run.
Proof. repeat constructor; try (apply sane0); try discriminate. simpl. lia. Qed.
(** 1000 received, 70 through asset 2, 100 of asset 4, and five blocks' part (50) of the reward. *)
Example k_shares : match k_state, k_collect with
  | Some s, Some (s', os) =>
      spent 1 os = 1220 /\ to_second s os = 122 /\ to_gov s os = 274 /\ to_dev s os = 122 /\
      to_staking s os = 702 /\ paid 5 50 os = 122 /\ holds s' 1 = 53 /\ remainder (cfg s') = 53 /\
      remainder (cfg s) = 103 /\ spent 4 os = 100 /\ holds s' 4 = 400 /\ lastcol s' = 240
  | _, _ => False
  end.
Proof. vm_compute. repeat split. Qed.
Example k_hyps : match k0, k_state with
  | Some s0, Some s =>
      staking (cfg s0) <> None /\ find (ASTRO s) (bridges s) = None /\ enabled (cfg s) = true /\
      lastblk (cfg s) = 4 /\ cooldown (cfg s) = Some 60 /\ fractions (cfg s) <= 10000 * DEC /\
      nonneg (bal s) /\ backed s /\ (forall x, find x (bridges s) <> Some 4) /\ distinct_receivers (cfg s)
  | _, _ => False
  end.
Proof.
  vm_compute. repeat split; try discriminate.
  - repeat constructor; discriminate.
  - intros x. destruct x as [|p|p]; try discriminate. destruct p as [p|p|]; try discriminate; destruct p; discriminate.
  - repeat constructor; simpl; intuition discriminate.
Qed.
Example k_devpair : match k_state with Some s => dev_pair (env0 240 9) s | None => False end.
Proof.
  destruct k_state as [s|] eqn:E; vm_compute in E; [|discriminate E]. injection E as <-.
  intros d k x D X. vm_compute in D. injection D as <-. split; [reflexivity|]. split; [discriminate|].
  exists x. split; [reflexivity|]. split; [lia|].
  match type of X with _ < _ <= ?z => change (0 < x <= 1103) in X end.
  match goal with |- 0 < ?y + _ <= _ => change y with 0 end.
  split; [lia|]. apply Z.le_trans with 1103; [lia | discriminate].
Qed.
Example k_empty : match k_state with
  | Some s => match step (env0 240 9) 9 (Collect []) s with Some (_, os) => spent 1 os = 1050 | None => False end
  | None => False end.
Proof. vm_compute. reflexivity. Qed.
(** Cooldown: too early after the collection at 240, possible at 300. *)
Example k_cooldown : match k_collect with
  | Some (s, _) => step (env0 299 10) 9 (Collect []) s = None /\ step (env0 300 10) 9 (Collect []) s <> None
  | None => False end.
Proof. vm_compute. split; [reflexivity | discriminate]. Qed.
(** The reward of 103 over 10 blocks is fully released after 20 blocks, not after 10. *)
Example k_release : match k_collect with
  | Some (s, _) =>
      match step (env0 300 14) 9 (Collect []) s, step (env0 300 24) 9 (Collect []) s with
      | Some (s1, _), Some (s2, _) => remainder (cfg s1) = 3 /\ remainder (cfg s2) = 0
      | _, _ => False
      end
  | None => False end.
Proof. vm_compute. repeat split. Qed.
(** Seizing, by anybody, 30 of asset 4 and all of asset 3 for receiver 60. *)
Example k_seize : match k_state with
  | Some s =>
      match step (env0 220 8) 7 (UpdateSeize (Some 60) [3; 4]) s with
      | Some (s1, _) =>
          match step (env0 230 8) 9 (Seize [(4, Some 30); (3, None)]) s1 with
          | Some (s2, os) => paid 4 60 os = 30 /\ paid 3 60 os = 70 /\ holds s2 4 = 470 /\
                             step (env0 230 8) 9 (Seize [(1, None)]) s1 = None
          | None => False
          end
      | None => False
      end
  | None => False end.
Proof. vm_compute. repeat split. Qed.
Example k_stranger : match k_state with
  | Some s => step (env0 220 8) 9 (UpdateConfig noupd) s = None /\ step (env0 220 8) 9 Distribute s = None /\
              step (env0 220 8) 9 (SwapBridge [2] 0) s = None /\ step (env0 220 8) 7 (UpdateConfig noupd) s <> None
  | None => False end.
Proof. vm_compute. repeat split; discriminate. Qed.
Example k_sane : sane (env0 240 9) /\ clock 240 9 [mkEv (env0 250 9) 8 (Receive 1 1)].
Proof. split; [apply sane0 | simpl; lia]. Qed.

Print Assumptions c45_conserve.
Print Assumptions c45_split.
Print Assumptions c45_backed.
Print Assumptions c45_all.
Print Assumptions c45_schedule.
Print Assumptions c45_released.
Print Assumptions c45_released_refuted.
Print Assumptions c46_distributes.
Print Assumptions c46_refuted.
Print Assumptions c47_cooldown.
Print Assumptions c47_first.
Print Assumptions c47_limits.
Print Assumptions c75_receivers.
Print Assumptions c75_owner.
Print Assumptions c75_limits.
Print Assumptions c75_start.
Print Assumptions c76_seize.
Print Assumptions c76_refused.
Print Assumptions c76_reserve_refuted.
Print Assumptions c78_dev.
Print Assumptions c78_refuted.
Print Assumptions c79_limit.
Print Assumptions c79_refuted.
