(** C125, C126: constant-product pairs moved to the sale-tax code and to the converter code. *)
From Coq Require Import ZArith Lia Bool List String.
From Verif Require Import Num Ledger SnapshotModel ConverterProps XykMigrateModel.
From Verif Require XykModel XykSpec XykProofs SaleTaxModel SaleTaxProps ConverterModel.
Import ListNotations.
Open Scope Z_scope.

(** ** C125 *)

(** A freshly deployed pair has an LP coin: then the messages are those of SaleTaxModel. *)
Lemma tstep_coin e m s : tstep true e m s = SaleTaxModel.step e m s.
Proof.
  assert (See : see true s = s) by (destruct s as [b n0 n1 t0 t1 a]; destruct b; reflexivity).
  destruct m; cbn [tstep]; auto.
  - rewrite See. destruct (SaleTaxModel.step _ _ s); reflexivity.
  - unfold lp_coins. destruct ((0 <? amount) && (amount <=? get (XykModel.lp (SaleTaxModel.base s)) who)) eqn:G; [reflexivity|].
    cbn [SaleTaxModel.step]. unfold SaleTaxModel.lift, XykModel.withdraw.
    rewrite <- andb_assoc, G, andb_false_r. reflexivity.
Qed.

Lemma migrate_tax_spec name ver n0 n1 b c a s : migrate_tax name ver n0 n1 b c a = Some s ->
  name = "astroport-pair"%string /\ In ver TAX_FROM /\ SaleTaxModel.check n0 n1 c = true /\
  s = SaleTaxModel.mkState (XykModel.set_fshare b None) n0 n1 (SaleTaxModel.cfg0 c) (SaleTaxModel.cfg1 c) a.
Proof.
  unfold migrate_tax. intros H. unguard H G1. unguard H G2. unguard H G3. injection H as <-.
  apply String.eqb_eq in G1. apply existsb_exists in G2. destruct G2 as (v & I & E). apply String.eqb_eq in E. subst. auto.
Qed.
Lemma migrated_good name ver n0 n1 b c a s : migrate_tax name ver n0 n1 b c a = Some s -> SaleTaxProps.good s.
Proof.
  intros H. apply migrate_tax_spec in H. destruct H as (_ & _ & K & ->).
  destruct (SaleTaxProps.check_ok _ _ _ K) as (A & B & C & D). unfold SaleTaxProps.good. cbn. auto.
Qed.

(** C125: the migration keeps the pools, the LP tokens, the price accumulators and the recorded balances;
    quotes are those of before for what is left of the offer after tax, so without a tax they are the
    same; the taxes are within the limit; it runs on the listed versions only. *)
Theorem c125_kept name ver n0 n1 b c a s :
  migrate_tax name ver n0 n1 b c a = Some s ->
  name = "astroport-pair"%string /\ In ver TAX_FROM /\
  let b' := SaleTaxModel.base s in
  (XykModel.r0 b', XykModel.r1 b', XykModel.supply b', XykModel.lp b') = (XykModel.r0 b, XykModel.r1 b, XykModel.supply b, XykModel.lp b) /\
  (forall e, XykModel.query_cumulative e b' = XykModel.query_cumulative e b) /\
  (forall one h, XykModel.query_balance_at b' one h = XykModel.query_balance_at b one h) /\
  (forall one t, SaleTaxModel.tax_of s one = Some t -> 0 <= SaleTaxModel.rate t /\ 2 * SaleTaxModel.rate t <= DEC) /\
  (forall e one offer q, SaleTaxModel.query_simulation e s one offer = Some q ->
     XykModel.query_simulation e b one (offer - SaleTaxProps.owed (SaleTaxModel.tax_of s one) offer) = Some q).
Proof.
  intros H. pose proof (migrated_good _ _ _ _ _ _ _ _ H) as G. apply migrate_tax_spec in H. destruct H as (N & V & K & ->).
  split; [exact N|]. split; [exact V|]. cbv zeta. cbn [SaleTaxModel.base]. split; [reflexivity|]. split; [reflexivity|]. split; [reflexivity|].
  split.
  - intros one t T. destruct G as (A & B & _). unfold SaleTaxProps.rate_ok, SaleTaxModel.MAX_TAX, DEC in *.
    destruct one; cbn in T, A, B; rewrite T in *; lia.
  - intros e one offer q Q. unfold SaleTaxModel.query_simulation in Q. unbind Q as [[[[ret sp] cm] net] tx] C. injection Q as <-.
    apply SaleTaxProps.compute_swap_plain in C. destruct C as (_ & -> & C & _). exact C.
Qed.

Lemma tstep_cw20 e m s s' o : tstep false e m s = Some (s', o) ->
  SaleTaxModel.step e m s = Some (s', o) /\
  match m with SaleTaxModel.Provide _ _ _ _ _ _ | SaleTaxModel.Withdraw _ _ _ => False | _ => True end.
Proof.
  destruct m; cbn [tstep]; intros H; auto.
  - unbind H as r E. discriminate.
  - unguard H G. cbn in G. bools. lia.
Qed.
(** C125: trading goes on: whatever messages follow, the pools are those of a plain constant-product pair that
    got the offers without the tax, so everything proved of trades there holds (C01, C03-C08). *)
Theorem c125_trading name ver n0 n1 b c a s l :
  XykSpec.reachable b -> migrate_tax name ver n0 n1 b c a = Some s -> SaleTaxProps.envs_ok l ->
  XykSpec.reachable (SaleTaxModel.base (trun false s l)).
Proof.
  intros R H Ok. pose proof (migrated_good _ _ _ _ _ _ _ _ H) as G. apply migrate_tax_spec in H. destruct H as (_ & _ & _ & Es).
  assert (R0 : XykSpec.reachable (SaleTaxModel.base s)).
  { rewrite Es. cbn [SaleTaxModel.base]. destruct R as (tb & l' & R1 & R2).
    exists tb, (l' ++ [(XykModel.mkEnv 0 0 (XykModel.mkFees 0 0 false) 0, XykModel.DisableFeeShare 0)]). split.
    - apply Forall_app. split; [exact R1|]. constructor; [|constructor]. unfold XykSpec.env_ok, XykSpec.fees_ok, DEC. cbn. lia.
    - unfold XykModel.run. rewrite fold_left_app. fold (XykModel.run (XykModel.init tb) l'). rewrite <- R2. reflexivity. }
  clear Es R. revert s G R0. induction l as [|[e m] l IH]; intros s G R0; [exact R0|].
  unfold SaleTaxProps.envs_ok in Ok. apply Forall_cons_iff in Ok. destruct Ok as (Ok1 & Ok). cbn [fst] in Ok1.
  change (trun false s ((e, m) :: l)) with (trun false (texec false s (e, m)) l). unfold texec. cbn [fst snd].
  destruct (tstep false e m s) as [[s' o]|] eqn:E; [|apply IH; auto]. apply tstep_cw20 in E. destruct E as (E & _).
  apply IH; auto; [eapply SaleTaxProps.step_good; eauto|]. pose proof (SaleTaxProps.step_plain _ _ _ _ _ G E) as P.
  destruct (SaleTaxProps.plain s m) as [m'|]; [|rewrite P; exact R0]. destruct P as (P & _).
  destruct R0 as (tb & l' & R1 & R2). exists tb, (l' ++ [(e, m')]). split.
  - apply Forall_app. split; [exact R1|]. constructor; [exact Ok1|constructor].
  - unfold XykModel.run. rewrite fold_left_app. fold (XykModel.run (XykModel.init tb) l'). rewrite <- R2.
    simpl. unfold XykModel.exec. simpl. rewrite P. reflexivity.
Qed.
(** C125: but nobody gets liquidity out or in any more: after the migration every deposit and every
    withdrawal fails, in any state trading leads to, and the LP supply stays as it was. *)
Theorem c125_locked s l e w r d0 d1 tol ml amount mins :
  tstep false e (SaleTaxModel.Provide w r d0 d1 tol ml) (trun false s l) = None /\
  tstep false e (SaleTaxModel.Withdraw w amount mins) (trun false s l) = None /\
  XykModel.supply (SaleTaxModel.base (trun false s l)) = XykModel.supply (SaleTaxModel.base s).
Proof.
  split; [|split].
  - destruct (tstep false e _ _) as [[s' o]|] eqn:E; [|reflexivity]. apply tstep_cw20 in E. destruct E as (_ & []).
  - destruct (tstep false e _ _) as [[s' o]|] eqn:E; [|reflexivity]. apply tstep_cw20 in E. destruct E as (_ & []).
  - revert s. induction l as [|[e1 m] l IH]; intros s; [reflexivity|].
    change (trun false s ((e1, m) :: l)) with (trun false (texec false s (e1, m)) l). rewrite IH. unfold texec. cbn [fst snd].
    destruct (tstep false e1 m s) as [[s' o]|] eqn:E; [|reflexivity]. apply tstep_cw20 in E. destruct E as (E & N).
    destruct m as [| |one offer bl ms|snd_ cfg na|one x|f t x]; try contradiction; cbn [SaleTaxModel.step] in E.
    + unguard E G. unfold SaleTaxModel.swap in E. cbv zeta in E. unbind E as z Z0. unbind E as [[[[ret sp] cm] net] tx] C.
      unbind E as gr G1. unbind E as ok G2. unbind E as mk G3. unbind E as no G4. unbind E as k1 G5. unbind E as na G6.
      unbind E as [[p0 p1] pt] G7.
      match type of E with context [XykModel.track_save ?x ?y ?z ?w] => destruct (XykModel.track_save x y z w) end.
      injection E as <- <-. reflexivity.
    + unbind E as s1 E1. injection E as <- <-. unfold SaleTaxModel.update_config in E1. unguard E1 G. unbind E1 as s2 E2.
      assert (B2 : SaleTaxModel.base s2 = SaleTaxModel.base s).
      { destruct cfg; [|injection E2 as <-; reflexivity]. unguard E2 G2. unguard E2 G3. injection E2 as <-. reflexivity. }
      destruct na; [unguard E1 G4; injection E1 as <-; cbn; rewrite B2; reflexivity|injection E1 as <-; rewrite B2; reflexivity].
    + unfold SaleTaxModel.lift in E. unbind E as [b1 o1] E1. injection E as <- <-. cbn [SaleTaxModel.base SaleTaxModel.with_base].
      cbn [XykModel.step] in E1. unguard E1 G. unbind E1 as n Ea. injection E1 as <- <-. reflexivity.
    + unfold SaleTaxModel.lift in E. unbind E as [b1 o1] E1. injection E as <- <-. cbn [SaleTaxModel.base SaleTaxModel.with_base].
      cbn [XykModel.step] in E1. unguard E1 G. injection E1 as <- <-. reflexivity.
Qed.

(** Intended, and false: "a migration leaves LP holders able to take out their share". The holder below could
    withdraw everything but the locked minimum before, and can never do so after. *)
Definition pre : XykModel.state := Eval vm_compute in XykProofs.wit_pool 3000000000000000 1000000 4000000.
Definition taxes : SaleTaxModel.configs := SaleTaxModel.mkCfg (Some (SaleTaxModel.mkTax 50000000000000000 8)) None false.
Theorem c125_refuted : exists b s e who amount,
  XykSpec.reachable b /\ migrate_tax "astroport-pair" "1.5.1" true false b taxes 7 = Some s /\
  0 < amount /\ get (XykModel.lp (SaleTaxModel.base s)) who = amount /\ 2 * amount > XykModel.supply b /\
  XykModel.step e (XykModel.Withdraw who amount None) b <> None /\
  (forall l e' mins x, tstep false e' (SaleTaxModel.Withdraw who x mins) (trun false s l) = None).
Proof.
  exists pre. eexists. exists (XykProofs.wit_env 3000000000000000), 1, 1999000.
  split; [change pre with (XykProofs.wit_pool 3000000000000000 1000000 4000000); apply XykProofs.wit_pool_reachable; unfold DEC; lia|].
  split; [vm_compute; reflexivity|].
  split; [lia|]. split; [vm_compute; reflexivity|]. split; [vm_compute; reflexivity|]. split; [vm_compute; discriminate|].
  intros l e' mins x. eapply (c125_locked _ l e' 1 1 1 1 None None x mins).
Qed.
(** Trades of the migrated pair: 5% tax on asset 0. *)
Example c125_example : exists s,
  migrate_tax "astroport-pair" "1.5.1" true false pre taxes 7 = Some s /\
  SaleTaxModel.query_simulation (XykProofs.wit_env 3000000000000000) s false 10000 =
    XykModel.query_simulation (XykProofs.wit_env 3000000000000000) pre false 9500 /\
  (exists s' o, tstep false (XykProofs.wit_env 3000000000000000) (SaleTaxModel.Swap false 10000 None (Some 500000000000000000)) s = Some (s', o) /\
     SaleTaxModel.taxed o = Some (8, 500)).
Proof. eexists. split; [vm_compute; reflexivity|]. split; [vm_compute; reflexivity|]. do 2 eexists. split; vm_compute; reflexivity. Qed.

(** ** C126 *)

(** C126: the migration runs on the four listed versions, for pairs of exactly old and new ASTRO. *)
Theorem c126_when name ver c l x y n k :
  (exists s, migrate_conv name ver c l x y n k = Some s) <->
  (name = "astroport-pair"%string /\ In ver CONV_FROM /\ List.length l = 2%nat /\
   In (ConverterModel.c_old c) l /\ In (ConverterModel.Coin (ConverterModel.c_new c)) l).
Proof.
  assert (M : forall a, existsb (ConverterModel.aeq a) l = true <-> In a l).
  { intros a. rewrite existsb_exists. split; [intros (z & I & E); apply aeq_eq in E; congruence|].
    intros I. exists a. split; [exact I|apply aeq_eq; reflexivity]. }
  unfold migrate_conv, ConverterModel.pair_of. cbv zeta. split.
  - intros (s & H). unguard H G1. unguard H G2. unbind H as p E. unguard E G3. unguard E G4. apply andb_prop in G4.
    destruct G4 as (G4 & G5). rewrite M in G4, G5. apply String.eqb_eq in G1. apply existsb_exists in G2.
    destruct G2 as (v & I & Ev). apply String.eqb_eq in Ev. apply Nat.eqb_eq in G3. subst. auto.
  - intros (-> & V & L & I1 & I2). rewrite String.eqb_refl.
    assert (Ev : existsb (String.eqb ver) CONV_FROM = true) by (apply existsb_exists; exists ver; split; [exact V|apply String.eqb_refl]).
    rewrite Ev, L. cbn [Nat.eqb]. rewrite (proj2 (M _) I1), (proj2 (M _) I2). cbn. eauto.
Qed.

Lemma sent_nonneg f d : forallb (fun p => 0 <? snd p) f = true -> 0 <= ConverterModel.sent f d.
Proof. induction f as [|[z v] f IH]; cbn; [lia|]. intros H. apply andb_prop in H. destruct H as (H1 & H2). bools. destruct (z =? d); auto; lia. Qed.
(** Coins of one kind among those attached to a message. *)
Definition coins_of (d : Z) (f : list (Z * Z)) : Z := fold_right (fun p a => (if fst p =? d then snd p else 0) + a) 0 f.
Lemma sent_coins f d : NoDup (map fst f) -> ConverterModel.sent f d = coins_of d f.
Proof.
  induction f as [|[z v] f IH]; cbn [ConverterModel.sent coins_of fold_right map fst snd]; [reflexivity|]. intros N. inversion N; subst. fold (coins_of d f).
  destruct (Z.eqb_spec z d) as [->|]; [|rewrite IH by assumption; lia]. assert (Q : coins_of d f = 0); [|lia].
  clear - H1. induction f as [|[y w] f IH]; [reflexivity|]. cbn [coins_of fold_right map fst snd In] in *. fold (coins_of d f). destruct (Z.eqb_spec y d); [exfalso; auto|]. rewrite IH by auto. lia.
Qed.
(** C126: afterwards a swap passes exactly what the trader offered on to the converter and touches none of the
    assets the pair holds; nothing else is accepted. So the former pools stay where they are, whatever messages come: the pair never
    has less of either asset, and the LP tokens in circulation never get anything for it. *)
Theorem c126_swap c l p self who f m s s' o : ConverterModel.pair_of c l = Some p -> pr s = p ->
  cstep c self who f m s = Some (s', o) ->
  h_old s' = h_old s /\ h_new s <= h_new s' /\ shares s' = shares s /\ pr s' = p /\
  (NoDup (map fst f) -> h_new s' = h_new s + coins_of (ConverterModel.c_new c) f) /\
  exists trader v to, ConverterModel.paid o = [(ConverterModel.or_else to trader, v)] /\ ConverterModel.taken o = v /\ 0 < v /\
    (m = ConverterModel.PSwap (ConverterModel.c_old c) v to /\ trader = who \/ m = ConverterModel.PSend trader v to).
Proof.
  intros P Ep H. unfold cstep in H. unguard H G0. unbind H as [k o1] E. cbv zeta in H. unguard H G. injection H as <- <-.
  rewrite Ep in E. destruct (c83_swap _ _ _ _ _ _ _ _ _ _ P E) as (tr & v & to & P1 & P2 & P3 & P4 & _ & _ & _ & _ & C).
  pose proof (sent_nonneg f (ConverterModel.c_new c) G0). cbn [h_old h_new shares pr].
  pose proof (fun N => eq_sym (sent_coins f (ConverterModel.c_new c) N)) as Sc.
  destruct C as [(d & -> & -> & Eo & Es)|(-> & a & Eo)]; rewrite Eo in *.
  - repeat (split; [first [lia|assumption|reflexivity|intros N; rewrite (Sc N); reflexivity]|]). exists who, v, to. auto 10.
  - repeat (split; [first [lia|assumption|reflexivity|intros N; rewrite (Sc N); reflexivity]|]). exists tr, v, to. auto 10.
Qed.
Theorem c126_frozen name ver c l x y n k s self h :
  migrate_conv name ver c l x y n k = Some s ->
  h_old (crun c self s h) = x /\ y <= h_new (crun c self s h) /\ shares (crun c self s h) = n.
Proof.
  unfold migrate_conv. intros H. unguard H G1. unguard H G2. unbind H as p P. injection H as <-.
  assert (K : forall s, pr s = p -> h_old (crun c self s h) = h_old s /\ h_new s <= h_new (crun c self s h) /\ shares (crun c self s h) = shares s).
  { induction h as [|[[who f] m] h IH]; intros s Ep; [cbn; lia|].
    change (crun c self s ((who, f, m) :: h)) with (crun c self (cexec c self s (who, f, m)) h).
    unfold cexec. cbn [fst snd]. destruct (cstep c self who f m s) as [[s' o]|] eqn:E; [|apply IH; exact Ep].
    destruct (c126_swap _ _ _ _ _ _ _ _ _ _ P Ep E) as (A1 & A2 & A3 & A4 & _). destruct (IH s' A4) as (B1 & B2 & B3). lia. }
  apply (K (mkC p x y n k)). reflexivity.
Qed.
Theorem c126_no_liquidity c self who f s : cstep c self who f ConverterModel.POther s = None.
Proof. unfold cstep. destruct (forallb _ f); reflexivity. Qed.

Definition kc : ConverterModel.config := ConverterModel.mkConf (ConverterModel.Coin 5) 6 true false.
Example c126_example : exists s,
  migrate_conv "astroport-pair" "1.3.3" kc [ConverterModel.Coin 6; ConverterModel.Coin 5] 700 900 800
    (ConverterModel.mkState 0 10000 0) = Some s /\
  (let s' := crun kc 77 s [((1, [(5, 30)]), ConverterModel.PSwap (ConverterModel.Coin 5) 30 None);
                           ((2, [(5, 10)]), ConverterModel.PSwap (ConverterModel.Coin 5) 700 None);
                           ((2, [(5, 10); (6, 4)]), ConverterModel.PSwap (ConverterModel.Coin 5) 10 (Some 9));
                           ((1, []), ConverterModel.POther)] in
   (h_old s', h_new s', shares s', kv s') = (700, 904, 800, ConverterModel.mkState 40 9960 0)).
Proof. eexists. split; vm_compute; reflexivity. Qed.

Print Assumptions c125_kept.
Print Assumptions c125_trading.
Print Assumptions c125_locked.
Print Assumptions c125_refuted.
Print Assumptions c126_when.
Print Assumptions c126_swap.
Print Assumptions c126_frozen.
Print Assumptions c126_no_liquidity.
