(** C140, continued: which routes through pairs of all kinds go through. *)
From Coq Require Import ZArith Lia Bool List.
From Verif Require Import Num Bytes FactoryModel RouterModel RouterProps.
From Verif Require XykModel XykProps StableModel StableProps PclModel PclSwapProps SaleTaxModel SaleTaxProps TransmuterModel Ledger.
From Verif Require Import MixRouteModel MixRouteSpec MixRouteProofs MixRouteProps.
Import ListNotations.
Open Scope Z_scope.

(** The pairs of a route would each carry out the trade as things stand now, each trading what the one before it would pay;
    the last would pay [got]. *)
Fixpoint trades (e : env) (w : world) (blf spr : option Z) (l : list op) (amount got : Z) : Prop :=
  match l with
  | [] => amount = got
  | AstroSwap x y :: r => exists p s o, lookup w x y = Some p /\
      pswap e (fees_of p) (read (bal w) p) (asset_eqb x (pa1 p)) amount blf spr = Some (s, o) /\ trades e w blf spr r (ret o) got
  | _ => False
  end.
(** Factors of the transmuters' assets are positive, as they are computed at instantiation. *)
Definition factors (p : pool) : Prop := match st p with Trans s => Forall (fun c => 0 < snd c) (TransmuterModel.cfg s) | _ => True end.

Lemma nonneg128 z r : u128 z = Some r -> 0 <= r <= U128MAX.
Proof. intros H. apply u128_Some in H. lia. Qed.
Lemma share_nonneg (b : option Z) comm shr : match b with Some b => do rate <- dratio b 10000; umul comm rate | None => Some 0 end = Some shr -> 0 <= shr.
Proof. destruct b as [b|]; [|intros [= <-]; lia]. intros H. unbind H as r E. apply nonneg128 in H. lia. Qed.
Lemma maker_nonneg (on : bool) x r m : (if on then umul x r else Some 0) = Some m -> 0 <= m.
Proof. destruct on; [|intros [= <-]; lia]. intros H. apply nonneg128 in H. lia. Qed.
Lemma touint_nonneg v p r : PclModel.to_uint v p = Some r -> 0 <= r <= U128MAX.
Proof. unfold PclModel.to_uint. intros H. unbind H as u E. apply nonneg128 in H. exact H. Qed.
Lemma xyk_ret x y a c r sp cm : XykModel.compute_swap x y a c = Some (r, sp, cm) -> 0 <= r <= U128MAX.
Proof.
  unfold XykModel.compute_swap. intros H. unguard H G. unbind H as v1 E1. unbind H as v2 E2. unbind H as v3 E3. unbind H as v4 E4. unbind H as v5 E5. unbind H as v6 E6. unbind H as v7 E7.
  unbind H as v8 E8. cbv zeta in H. unbind H as v9 E9. unbind H as v10 E10. unbind H as v11 E11. unbind H as v12 E12. unbind H as v13 E13. injection H as -> _ _. exact (nonneg128 _ _ E11).
Qed.
(** A pair has what it pays out. *)
Lemma pswap_pays e fi s one a blf spr s' o : pswap e fi s one a blf spr = Some (s', o) ->
  match s with Trans t => Forall (fun c => 0 < snd c) (TransmuterModel.cfg t) | _ => True end ->
  0 <= a /\ 0 <= ret o <= U128MAX /\ 0 <= shr o /\ 0 <= mkr o /\ ret o + shr o + mkr o <= (if one then fst (reserves s) else snd (reserves s)) /\
  (forall u n, tax o = Some (u, n) -> 0 <= n <= (if one then snd (reserves s) else fst (reserves s)) + a).
Proof.
  intros H F. destruct s as [s|s|s|s|s]; cbn [pswap reserves fst snd] in *.
  - unbind H as [s1 r] E. destruct r as [| |so|]; try discriminate. injection H as <- <-. cbn [ret shr mkr tax]. cbn [XykModel.step] in E. unguard E G. unfold XykModel.swap in E.
    unbind E as o E1. unbind E as no E2. unbind E as k1 E3. unbind E as k2 E4. unbind E as na E5. unbind E as [[c0 c1] t'] E6. destruct (XykModel.track_save _ _ _ _). injection E as _ ->.
    unfold XykModel.swap_amounts in E1. unbind E1 as [[r0 sp] cm] Q1. unbind E1 as g Q2. unbind E1 as ok Q3. unbind E1 as sh Q4. cbv zeta in E1. unbind E1 as mk Q5. injection E1 as <-.
    cbn [XykModel.so_return XykModel.so_share XykModel.so_maker] in *. apply share_nonneg in Q4. apply maker_nonneg in Q5. apply xyk_ret in Q1.
    apply Z.ltb_lt in G. apply sub128_Some in E3, E4, E5. repeat (split; [lia|]). discriminate.
  - unbind H as [s1 r] E. destruct r as [|  |r0 sp cm mk sh|]; try discriminate. injection H as <- <-. cbn [ret shr mkr tax]. cbn [StableModel.step] in E. unguard E G. unfold StableModel.swap in E.
    unbind E as [[ret0 spr0] com0] Eq. unbind E as gr E1. unbind E as ok E2. unbind E as sh0 E3. unbind E as mk0 E4. cbv zeta in E. unbind E as no E5. unbind E as k1 E6. unbind E as k2 E7. unbind E as na E8.
    unbind E as x0 E9. unbind E as y0 E10. unbind E as c E11. injection E as _ <- <- <- <- <-. apply share_nonneg in E3. apply maker_nonneg in E4.
    unfold StableModel.quote in Eq. unbind Eq as q1 Q1. unbind Eq as q2 Q2. unguard Eq Gq. unbind Eq as q3 Q3. unbind Eq as q4 Q4. unbind Eq as [g sp1] Q5. unbind Eq as q6 Q6. injection Eq as <- _ <-.
    unfold StableModel.compute_swap in Q5. unbind Q5 as z1 Z1. unbind Q5 as z2 Z2. unbind Q5 as z3 Z3. unbind Q5 as z4 Z4. unbind Q5 as z5 Z5. injection Q5 as -> _.
    apply nonneg128 in Z4, Q6. apply sub128_Some in E6, E7, E8. apply Z.ltb_lt in G. unfold ssub in *. repeat (split; [lia|]). discriminate.
  - unbind H as [s1 r] E. destruct r as [| |r0 sp cm mk sh|]; try discriminate. injection H as <- <-. cbn [ret shr mkr tax]. cbn [PclModel.step] in E. unguard E G. apply Z.leb_le in G. unfold PclModel.swap in E.
    unbind E as off E1. unbind E as x0 E2. unbind E as x1 E3. cbv zeta in E. unguard E G1. unbind E as old E4. unbind E as fs E5. unbind E as res E6. unbind E as ou E7. unbind E as n1 E8. unbind E as n2 E9.
    unbind E as re E10. unbind E as sr E11. unbind E as ok E12. unbind E as tot E13. unbind E as ps E14. unguard E G2. unbind E as shr0 E15. unbind E as mk0 E16. unbind E as c E17. unbind E as ob E18. unbind E as pe E19.
    unbind E as cm0 E20. unbind E as m1 E21. unbind E as k1 E22. unbind E as k2 E23. unbind E as m2 E24. injection E as _ <- _ _ <- <-. apply touint_nonneg in E10. apply sub128_Some in E22, E23, E24.
    assert (S0 : 0 <= shr0) by (destruct (PclModel.fshare s); [apply touint_nonneg in E15; lia|injection E15 as <-; lia]).
    assert (M0 : 0 <= mk0) by (destruct (PclModel.maker_on _); [apply touint_nonneg in E16; lia|injection E16 as <-; lia]).
    repeat (split; [lia|]). discriminate.
  - unbind H as [s1 r] E. destruct (SaleTaxModel.main r) as [| |so|] eqn:Em; try discriminate. injection H as <- <-. cbn [ret shr mkr tax].
    cbn [SaleTaxModel.step] in E. unguard E G. unfold SaleTaxModel.swap in E. cbv zeta in E.
    unbind E as i E1. unbind E as [[[[r0 sp] cm] net] tx] E2. unbind E as gr E3. unbind E as ok E4. unbind E as mk E5. unbind E as no E6. unbind E as k1 E7. unbind E as na E8. unbind E as [[c0 c1] t'] E9.
    destruct (XykModel.track_save _ _ _ _) as [h0 h1]. injection E as <- <-. cbn [SaleTaxModel.taxed SaleTaxModel.main] in *. injection Em as <-. cbn [XykModel.so_return XykModel.so_maker].
    unfold SaleTaxModel.compute_swap in E2. unbind E2 as tx' T1. unbind E2 as net' T2. unbind E2 as [[r1 sp1] cm1] T3. injection E2 as -> -> -> -> ->.
    apply xyk_ret in T3. apply maker_nonneg in E5. apply sub128_Some in E7, E8, T2. apply add128_Some in E6. apply Z.ltb_lt in G. repeat (split; [lia|]).
    intros u n Hu. destruct (SaleTaxModel.tax_of s one) as [t|]; [|discriminate]. destruct (tx =? 0); [discriminate|]. injection Hu as _ <-. apply nonneg128 in T1. lia.
  - unbind H as [s1 l] E. destruct l as [|[d r] [|]]; try discriminate. unguard H Gd. injection H as <- <-. apply Z.eqb_eq in Gd. cbn [ret shr mkr tax]. cbn [TransmuterModel.step] in E. unguard E G. cbv zeta in E.
    unbind E as out Eo. unbind E as pl Ep. injection E as <- ->.
    unfold TransmuterModel.swap_out in Eo. unbind Eo as n En. unbind Eo as ad Ed. unguard Eo Gi. unbind Eo as v Ev. unguard Eo Gv. injection Eo as -> ->.
    cbn [TransmuterModel.credit fst snd] in Gv. rewrite Ledger.get_set_other in Gv by (destruct one; subst d; discriminate).
    unfold TransmuterModel.normalize in En. unbind En as k Ek. apply mul128_Some in En. destruct En as (-> & En). unfold TransmuterModel.denormalize in Ev. unbind Ev as k' Ek'. unguard Ev Gk. injection Ev as <-.
    assert (Kp : 0 < k'). { unfold TransmuterModel.coef in Ek'. apply Amap.find_in in Ek'. rewrite Forall_forall in F. exact (F _ Ek'). }
    apply andb_true_iff in G. destruct G as (Ga & _). cbn [snd] in Ga. apply Z.ltb_lt in Ga. apply Z.leb_le in Gv.
    pose proof (Z.div_pos (snd (if one then 1 else 0, a) * k) k' ltac:(lia) Kp) as D1. pose proof (Z.div_le_upper_bound (snd (if one then 1 else 0, a) * k) k' U128MAX Kp ltac:(nia)) as D2.
    cbn [snd] in D1, D2. split; [lia|]. split; [lia|]. split; [lia|]. split; [lia|]. split; [|discriminate]. destruct one; subst d; lia.
Qed.

Lemma hop_ok e q x y to blf spr w p s o : apart e q w -> to = ROUTER \/ to = receiver q -> lookup w x y = Some p -> factors p ->
  pswap e (fees_of p) (read (bal w) p) (asset_eqb x (pa1 p)) (bal w x ROUTER) blf spr = Some (s, o) ->
  exists w', hop e (AstroSwap x y) to blf spr w = Some w'.
Proof.
  intros A T L F H. cbn [hop]. rewrite L. cbv zeta. rewrite H.
  assert (F' : match read (bal w) p with Trans t => Forall (fun c => 0 < snd c) (TransmuterModel.cfg t) | _ => True end).
  { unfold factors in F. unfold read. destruct (st p); cbn [sync]; try exact Logic.I. exact F. }
  destruct (pswap_pays _ _ _ _ _ _ _ _ _ H F') as (P0 & P1 & P2 & P3 & P4 & P5). clear F'. destruct (c140_reserves (bal w) p) as (R & _). rewrite R in P4, P5. cbn [fst snd] in P4, P5.
  destruct (lookup_in _ _ _ _ L) as (Ip & Q). destruct A as (N & Rr & M & M' & Fa). rewrite Forall_forall in Fa. destruct (Fa _ Ip) as (A1 & A2 & A3 & A4 & A5).
  assert (At : addr p <> to) by (destruct T; congruence). assert (X : x <> y) by (eapply is_pair_neq; eauto).
  assert (A7 : forall u, In u (payees p) -> addr p <> u). { intros u Hu. destruct (A5 u Hu) as (_ & _ & A7). rewrite Forall_forall in A7. apply A7, Ip. }
  assert (A6 : addr p <> share_to p) by (apply A7; left; reflexivity).
  assert (By : ret o + shr o + mkr o <= bal w y (addr p)).
  { unfold is_pair in Q. apply orb_true_iff in Q. rewrite !andb_true_iff, !asset_eqb_iff in Q. destruct Q as [[-> ->]|[-> ->]].
    - destruct (asset_eqb (pa0 p) (pa1 p)) eqn:E; [apply asset_eqb_iff in E; congruence|]. exact P4.
    - rewrite asset_eqb_refl in P4. exact P4. }
  assert (Nxy : asset_eqb x y = false) by (apply asset_eqb_neq; exact X). assert (Nyx : asset_eqb y x = false) by (apply asset_eqb_neq; congruence).
  destruct (pay_ok (bal w) x ROUTER (addr p) (bal w x ROUTER) ltac:(lia)) as (b1 & E1). rewrite E1. pose proof (pay_spec _ _ _ _ _ _ E1 (not_eq_sym A1)) as S1.
  assert (B1 : b1 y (addr p) = bal w y (addr p)) by (rewrite S1, Nxy; cbn [andb]; lia).
  destruct (pay_ok b1 y (addr p) to (ret o)) as (b2 & E2); [lia|]. rewrite E2. pose proof (pay_spec _ _ _ _ _ _ E2 At) as S2.
  assert (B2 : b2 y (addr p) = bal w y (addr p) - ret o) by (rewrite S2, B1, asset_eqb_refl, Z.eqb_refl; cbn [andb]; destruct (Z.eqb_spec (addr p) to); [congruence|lia]).
  destruct (pay_ok b2 y (addr p) (share_to p) (shr o)) as (b3 & E3); [lia|]. rewrite E3. pose proof (pay_spec _ _ _ _ _ _ E3 A6) as S3.
  assert (B3 : b3 y (addr p) = bal w y (addr p) - ret o - shr o) by (rewrite S3, B2, asset_eqb_refl, Z.eqb_refl; cbn [andb]; destruct (Z.eqb_spec (addr p) (share_to p)); [congruence|lia]).
  destruct (pay_ok b3 y (addr p) (maker e) (mkr o)) as (b4 & E4); [lia|]. rewrite E4. pose proof (pay_spec _ _ _ _ _ _ E4 A3) as S4.
  destruct (tax o) as [[u n]|] eqn:Et; [|eexists; reflexivity].
  assert (Bx : b4 x (addr p) = bal w x (addr p) + bal w x ROUTER).
  { rewrite S4, S3, S2, S1, Nyx, asset_eqb_refl, Z.eqb_refl. cbn [andb]. destruct (Z.eqb_spec (addr p) ROUTER); [congruence|lia]. }
  assert (T1 : 0 <= n <= bal w x (addr p) + bal w x ROUTER).
  { specialize (P5 _ _ eq_refl). unfold is_pair in Q. apply orb_true_iff in Q. rewrite !andb_true_iff, !asset_eqb_iff in Q. destruct Q as [[-> ->]|[-> ->]].
    - rewrite Nxy in P5. exact P5.
    - rewrite asset_eqb_refl in P5. exact P5. }
  destruct (pay_ok b4 x (addr p) u n) as (b5 & E5); [lia|]. rewrite E5. eexists. reflexivity.
Qed.

Lemma hops_ok e q w0 : Forall factors (pools w0) -> forall l w cur got, l <> [] -> apart e q w -> same w w0 l -> NoDup (visited w0 l) -> check_path (Some cur) l = true ->
  clean cur w -> trades e w0 (belief (Z.of_nat (length (ops q)) =? 1)) (spread q) l (bal w cur ROUTER) got -> exists w', hops e q l w = Some w' /\ 0 <= got <= U128MAX.
Proof.
  intros Fa. induction l as [|o l IH]; intros w cur got Nl A S D C Cl H; [congruence|]. clear Nl. destruct o as [x y|]; [|discriminate].
  cbn [check_path] in C. apply andb_true_iff in C. destruct C as (C & C'). apply andb_true_iff in C. destruct C as (_ & C).
  apply asset_eqb_iff in C. subst cur. cbn [trades] in H. destruct H as (p & s & o & L0 & Sw & H). destruct (S x y (or_introl eq_refl)) as (L & Bl). rewrite L0 in L. specialize (Bl p L0).
  assert (Rd : read (bal w) p = read (bal w0) p) by (unfold read; rewrite !Bl; reflexivity). rewrite <- Rd in Sw.
  destruct (lookup_in _ _ _ _ L0) as (Ip0 & _). rewrite Forall_forall in Fa. pose proof (Fa _ Ip0) as Fp.
  cbn [hops]. set (to := match l with [] => receiver q | _ => ROUTER end) in *.
  assert (T : to = ROUTER \/ to = receiver q) by (unfold to; destruct l; auto).
  destruct (hop_ok e q x y to _ _ w p s o A T L Fp Sw) as (w1 & E1). rewrite E1.
  assert (Gr : 0 <= ret o <= U128MAX).
  { assert (F' : match read (bal w) p with Trans t => Forall (fun c => 0 < snd c) (TransmuterModel.cfg t) | _ => True end).
    { unfold factors in Fp. unfold read. destruct (st p); cbn [sync]; try exact Logic.I. exact Fp. }
    destruct (pswap_pays _ _ _ _ _ _ _ _ _ Sw F') as (_ & P1 & _). exact P1. }
  destruct l as [|o' l'].
  - cbn [hops]. cbn [trades] in H. subst got. exists w1. auto.
  - destruct (hop_facts _ _ _ _ _ _ _ _ _ A T E1) as (p' & s' & so & b & L' & Ip & X & Ew & A' & Qt & Tk & Tx & V & B1 & B2).
    assert (p' = p) by congruence. subst p'.
    assert (Rs : ret so = ret o). { apply pswap_facts in Sw. destruct Sw as (Ps & _). unfold quote in Qt. rewrite L, Ps in Qt. congruence. }
    assert (S1 : same w1 w0 (o' :: l')) by (subst w1; eapply same_step; eauto).
    assert (D1 : NoDup (visited w0 (o' :: l'))). { cbn [visited] in D. rewrite L0 in D. inversion D; auto. }
    assert (Cl1 : clean y w1). { intros z Nz. rewrite B1. destruct (asset_eqb y z) eqn:Ez; [apply asset_eqb_iff in Ez; congruence|]. cbn [andb].
      destruct (asset_eqb x z) eqn:Ex; [lia|]. apply asset_eqb_neq in Ex. rewrite (Cl z) by congruence. lia. }
    assert (By : bal w1 y ROUTER = ret o).
    { rewrite B1. destruct (asset_eqb x y) eqn:Ez; [apply asset_eqb_iff in Ez; congruence|]. rewrite (Cl y) by congruence. rewrite asset_eqb_refl. subst to. cbn. lia. }
    rewrite <- By in H. destruct (IH w1 y got ltac:(discriminate) A' S1 D1 C' Cl1 H) as (w' & E & G). exists w'. auto.
Qed.
Lemma hops_trades e q w0 : forall l w w' cur, l <> [] -> apart e q w -> same w w0 l -> NoDup (visited w0 l) -> check_path (Some cur) l = true ->
  clean cur w -> hops e q l w = Some w' -> exists got, trades e w0 (belief (Z.of_nat (length (ops q)) =? 1)) (spread q) l (bal w cur ROUTER) got.
Proof.
  induction l as [|o l IH]; intros w w' cur Nl A S D C Cl H; [congruence|]. clear Nl. destruct o as [x y|]; [|discriminate].
  cbn [check_path] in C. apply andb_true_iff in C. destruct C as (C & C'). apply andb_true_iff in C. destruct C as (_ & C).
  apply asset_eqb_iff in C. subst cur. cbn [hops] in H. unbind H as w1 E1.
  set (to := match l with [] => receiver q | _ => ROUTER end) in *.
  assert (T : to = ROUTER \/ to = receiver q) by (unfold to; destruct l; auto).
  destruct (hop_facts _ _ _ _ _ _ _ _ _ A T E1) as (p & s' & so & b & L & Ip & X & Ew & A' & Qt & Tk & Tx & V & B1 & B2).
  destruct (S x y (or_introl eq_refl)) as (L0 & Bl). rewrite L in L0. symmetry in L0. specialize (Bl p L0).
  assert (Rd : read (bal w) p = read (bal w0) p) by (unfold read; rewrite !Bl; reflexivity).
  assert (Sw : exists s o, pswap e (fees_of p) (read (bal w0) p) (asset_eqb x (pa1 p)) (bal w x ROUTER) (belief (Z.of_nat (length (ops q)) =? 1)) (spread q) = Some (s, o)).
  { rewrite <- Rd. pose proof E1 as E1'. cbn [hop] in E1'. rewrite L in E1'. cbv zeta in E1'. unbind E1' as [s o] Es. exists s, o. reflexivity. }
  destruct Sw as (s & o & Sw). assert (Rs : ret so = ret o). { pose proof Sw as Sw'. apply pswap_facts in Sw'. destruct Sw' as (Ps & _). unfold quote in Qt. rewrite L, Rd, Ps in Qt. congruence. }
  cbn [trades]. destruct l as [|o' l'].
  - exists (ret o), p, s, o. cbn [trades]. auto.
  - assert (S1 : same w1 w0 (o' :: l')) by (subst w1; eapply same_step; eauto).
    assert (D1 : NoDup (visited w0 (o' :: l'))). { cbn [visited] in D. rewrite L0 in D. inversion D; auto. }
    assert (Cl1 : clean y w1). { intros z Nz. rewrite B1. destruct (asset_eqb y z) eqn:Ez; [apply asset_eqb_iff in Ez; congruence|]. cbn [andb].
      destruct (asset_eqb x z) eqn:Ex; [lia|]. apply asset_eqb_neq in Ex. rewrite (Cl z) by congruence. lia. }
    assert (By : bal w1 y ROUTER = ret o).
    { rewrite B1. destruct (asset_eqb x y) eqn:Ez; [apply asset_eqb_iff in Ez; congruence|]. rewrite (Cl y) by congruence. rewrite asset_eqb_refl. subst to. cbn. lia. }
    destruct (IH w1 w' y ltac:(discriminate) A' S1 D1 C' Cl1 H) as (got & G). rewrite By in G. exists got, p, s, o. auto.
Qed.
Lemma trades_sim e w blf spr : forall l c amount got, check_path c l = true -> trades e w blf spr l amount got -> simulate_path (quote e w) l amount = Some got.
Proof.
  induction l as [|o l IH]; intros c amount got C H; cbn [trades simulate_path] in *; [congruence|]. destruct o as [x y|]; [|discriminate].
  destruct H as (p & s & o & L & Sw & H). cbn [check_path] in C. apply andb_true_iff in C. destruct C as (_ & C).
  apply pswap_facts in Sw. destruct Sw as (Ps & _). unfold quote at 1. rewrite L, Ps. exact (IH _ _ _ C H).
Qed.

Section Facts.
  Variables (e : env) (q : request) (w : world) (a t : asset).
  Hypothesis Ap : apart e q w.
  Hypothesis Fi : first_offer (ops q) = Some a.
  Hypothesis Fl : final_asset (ops q) = Some t.
  Hypothesis Cl : clean a w.
  Hypothesis Nd : NoDup (visited w (ops q)).
  Hypothesis Fa : Forall factors (pools w).

  (** A route goes through, and delivers [got], exactly if its form is right, every pair on it would by itself carry out
      its trade as things stand, and what the last one would pay is no less than the minimum: the hops do not get in each
      other's way, and the router adds no reason to fail. *)
  Theorem c140_executes got : (exists w', route e q w = Some (w', got)) <->
    assert_operations (ops q) = true /\ trades e w (belief (Z.of_nat (length (ops q)) =? 1)) (spread q) (ops q) (bal w a ROUTER) got /\
    (forall m, minimum q = Some m -> m <= got).
  Proof.
    split.
    - intros (w' & H). destruct (c140_simulated e q w a t Ap Fi Fl Cl Nd w' got H) as (Si & _ & _ & Mi). unfold simulate_route, simulate in Si. unguard Si Ok.
      split; [reflexivity|]. split; [|exact Mi]. unfold route in H. unbind H as s0 E0. unbind H as w1 E1. clear H.
      apply begin_inv in E0. destruct E0 as (x & _ & Ne & Fx & P & _). assert (x = a) by congruence. subst x.
      destruct (hops_trades e q w (ops q) w w1 a Ne Ap (same_refl _ _) Nd P Cl E1) as (g & G).
      pose proof (trades_sim _ _ _ _ _ _ _ _ P G) as Sg. rewrite Si in Sg. injection Sg as ->. exact G.
    - intros (Ok & Tr & Mi).
      assert (E0 : exists s0, begin (mkState (bal w) None) q = Some s0).
      { unfold begin. rewrite Ok. destruct (List.last (map Some (ops q)) None) as [o|] eqn:E; [eexists; reflexivity|]. exfalso.
        unfold assert_operations in Ok. apply andb_true_iff in Ok. destruct Ok as (_ & Pt). unfold final_asset in Fl. destruct (ops q) as [|o l] eqn:Eo; [discriminate|].
        destruct (end_last a (o :: l) ltac:(discriminate) (path_swaps _ _ Pt)) as [X|(y & X)]; rewrite X in E; discriminate. }
      destruct E0 as (s0 & E0). unfold route. rewrite E0. apply begin_inv in E0. destruct E0 as (y & _ & Ne & Fx & P & ->). assert (y = a) by congruence. subst y.
      destruct (hops_ok e q w Fa (ops q) w a got Ne Ap (same_refl _ _) Nd P Cl Tr) as (w1 & E1 & Gb). rewrite E1.
      destruct (hops_sim e q w (ops q) w w1 a Ne Ap (same_refl _ _) Nd P Cl E1) as (g & G1 & G2 & _). rewrite (trades_sim _ _ _ _ _ _ _ _ P Tr) in G1. injection G1 as <-.
      rewrite (end_final a _ _ Fl) in *. unfold reply. cbn [rd rd_asset rd_receiver rd_prev rd_min RouterModel.w].
      assert (Es : sub128 (bal w1 t (receiver q)) (bal w t (receiver q)) = Some got). { rewrite G2, asset_eqb_refl. apply sub128_Some. lia. }
      rewrite Es. assert (Gm : match minimum q with Some m => negb (got <? m) | None => true end = true).
      { destruct (minimum q) as [m|]; [|reflexivity]. apply negb_true_iff, Z.ltb_ge. apply Mi. reflexivity. }
      rewrite Gm. eexists. reflexivity.
  Qed.
End Facts.
Print Assumptions c140_executes.

(** ** Case: the five hops of [mw_five]; asked for one unit more, the route fails. *)
Example mw_trades : Forall factors (pools mw) /\
  trades me mw (belief false) None (ops (mq (Some 2600000))) 1000000 2694802 /\ route me (mq (Some 2694803)) mw = None.
Proof.
  split; [repeat constructor; exact Logic.I|]. split.
  - cbn [trades mq ops path_ops]. do 5 (eexists; eexists; eexists; split; [vm_compute; reflexivity|]; split; [vm_compute; reflexivity|]). vm_compute. reflexivity.
  - vm_compute. reflexivity.
Qed.
