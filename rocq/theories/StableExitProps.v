(** C143: liquidity of the stable pair can be taken out, as long as one whole token of either asset can be priced. *)
From Coq Require Import ZArith Lia Bool List.
From Verif Require Import Num Ledger StableMath StableModel StablePair StableProps.
From Verif Require XykModel XykExitProps OwnershipModel.
Import ListNotations.
Open Scope Z_scope.

(** ** Specification *)

(** What a simulation of offering one whole token of an asset answers, commission included. *)
Definition price (e : env) (s : state) (one : bool) : option Z :=
  match query_simulation e s one (10 ^ (if one then p1 s else p0 s)) with
  | Some (ret, _, comm) => Some (ret + comm)
  | None => None
  end.
(** An amount of an asset of [p] decimals in units of 10^-6. *)
Definition six (g p : Z) : Z := if p <=? 6 then g * 10 ^ (6 - p) else g / 10 ^ (p - 6).
(** The price accumulators can be brought up to date. *)
Definition accrues (e : env) (s : state) : Prop :=
  now e <= last_t s \/ r0 s = 0 \/ r1 s = 0 \/
  exists g0 g1, price e s false = Some g0 /\ price e s true = Some g1 /\
    (now e - last_t s) * six g0 (p1 s) < 2 ^ 128 /\ (now e - last_t s) * six g1 (p0 s) < 2 ^ 128.
(** Messages that take tokens out, and those that may change whether a token can be priced: gifts, a new ramp of the
    amplification, and deposits of native coins (which the pair holds already when it computes prices). *)
Definition takes (m : msg) : bool := match m with Withdraw _ _ _ | Swap _ _ _ _ => true | _ => false end.
Definition thaws (s : state) (m : msg) : bool :=
  match m with Donate _ _ | StartAmp _ _ _ => true | Provide _ _ _ _ => nat0 s || nat1 s | _ => false end.

(** ** Proofs *)

Ltac ifg := match goal with |- (if ?b then _ else None) = None => destruct b; [|reflexivity] end.

Definition small (s : state) : Prop := r0 s <= U128MAX /\ r1 s <= U128MAX.
Lemma step_small e m s s' o : small s -> step e m s = Some (s', o) -> small s'.
Proof.
  intros B H. unfold small in *. destruct m; cbn [step] in H.
  - unfold provide in H. unguard H G. unguard H G0. unbind H as a E0. unbind H as share E1. cbv zeta in H. unguard H G2. unbind H as n0 E2. unbind H as n1 E3.
    unbind H as x E4. unbind H as y E5. unbind H as [[c0' c1'] t'] E6. injection H as <- <-. cbn. num_inv. lia.
  - unfold withdraw in H. unguard H G. unbind H as a0 E1. unbind H as a1 E2. unguard H G2. unbind H as n0 E3. unbind H as n1 E4.
    unbind H as x E6. unbind H as y E7. unbind H as [[c0' c1'] t'] E5. injection H as <- <-. cbn. num_inv. lia.
  - unguard H G. unfold swap in H. cbv zeta in H. unbind H as [[ret spread] comm] E1. unbind H as gross E0. unbind H as ok E2. unbind H as shr E3.
    unbind H as mk E4. unbind H as no E5. unbind H as k1 E6. unbind H as k2 E7. unbind H as na E8. unbind H as x E9. unbind H as y E10. unbind H as [[c0' c1'] t'] E11.
    injection H as <- <-. cbn. num_inv. destruct one; lia.
  - unguard H G. unbind H as r E. injection H as <- <-. exact B.
  - unguard H G. unbind H as r E. injection H as <- <-. exact B.
  - unguard H G. injection H as <- <-. exact B.
  - unguard H G. injection H as <- <-. exact B.
  - unbind H as r E. injection H as <- <-. exact B.
  - unguard H G. unbind H as n E1. injection H as <- <-. cbn. num_inv. destruct one; lia.
  - unguard H G. injection H as <- <-. exact B.
Qed.
Lemma reachable_small s : reachable s -> small s.
Proof.
  intros (t & a & o & q0 & q1 & n0 & n1 & s0 & l & _ & _ & E & _ & ->).
  assert (K : small s0) by (unfold instantiate in E; unguard E G; injection E as <-; unfold small, U128MAX; cbn; lia).
  clear E. revert s0 K. induction l as [|[e m] l IH]; intros s0 K; [exact K|]. cbn [run fold_left]. apply IH. unfold exec. cbn [fst snd].
  destruct (step e m s0) as [[s' o']|] eqn:E; [eapply step_small; eauto|exact K].
Qed.

Lemma pow_le18 p : 0 <= p <= 18 -> 1 <= 10 ^ (18 - p) <= DEC.
Proof.
  intros P. split; [pose proof (Z.pow_pos_nonneg 10 (18 - p)); lia|]. change DEC with (10 ^ 18). apply Z.pow_le_mono_r; lia.
Qed.
Lemma with_prec_ok v p : 0 <= v <= U128MAX -> 0 <= p <= 18 -> with_prec v p = Some (v * 10 ^ (18 - p)).
Proof.
  intros V P. unfold with_prec. rewrite (proj2 (Z.leb_le 0 p)), (proj2 (Z.leb_le p 18)) by lia. cbn [andb]. apply u256_Some.
  pose proof (pow_le18 p P). split; [reflexivity|]. unfold U128MAX, U256MAX, DEC in *. nia.
Qed.
Lemma with_prec_whole p : 0 <= p <= 18 -> with_prec (10 ^ p) p = Some DEC.
Proof.
  intros P. unfold with_prec. rewrite (proj2 (Z.leb_le 0 p)), (proj2 (Z.leb_le p 18)) by lia. cbn [andb].
  rewrite <- Z.pow_add_r by lia. replace (p + (18 - p)) with 18 by lia. reflexivity.
Qed.
Lemma swap_range a off op ap x y p g sp : compute_swap a off op ap x y p = Some (g, sp) -> 0 <= g <= U128MAX.
Proof.
  intros H. unfold compute_swap in H. unbind H as na E1. unbind H as nk E2. unbind H as ask E3. unbind H as r E4. unbind H as of E5.
  injection H as <- <-. apply sub128_Some in E4. lia.
Qed.

(** The simulated price is the one the accumulators use. *)
Lemma price_swap e s one : env_ok e -> 0 <= r0 s <= U128MAX -> 0 <= r1 s <= U128MAX -> 0 <= p0 s <= 18 -> 0 <= p1 s <= 18 -> r0 s <> 0 -> r1 s <> 0 ->
  let x := r0 s * 10 ^ (18 - p0 s) in let y := r1 s * 10 ^ (18 - p1 s) in
  price e s one = match current_amp (amp s) (now e) with
                  | Some a => match compute_swap a DEC (if one then y else x) (if one then x else y) x y (if one then p0 s else p1 s) with
                              | Some (g, _) => Some g | None => None end
                  | None => None end.
Proof.
  intros (_ & He & _) R0 R1 P0 P1 N0 N1. cbv zeta. unfold price, query_simulation.
  destruct (Z.eqb_spec (r0 s) 0); [contradiction|]. destruct (Z.eqb_spec (r1 s) 0); [contradiction|].
  destruct (Z.eqb_spec (10 ^ (if one then p1 s else p0 s)) 0) as [Z'|_].
  { exfalso. pose proof (Z.pow_pos_nonneg 10 (if one then p1 s else p0 s)). destruct one; lia. }
  cbn [orb]. unfold quote. rewrite (with_prec_ok (r0 s)), (with_prec_ok (r1 s)) by assumption.
  destruct (Z.eqb_spec (r0 s) 0); [contradiction|]. destruct (Z.eqb_spec (r1 s) 0); [contradiction|].
  destruct (Z.eqb_spec (10 ^ (if one then p1 s else p0 s)) 0) as [Z'|_].
  { exfalso. pose proof (Z.pow_pos_nonneg 10 (if one then p1 s else p0 s)). destruct one; lia. }
  cbn [negb andb]. rewrite with_prec_whole by (destruct one; assumption).
  destruct (current_amp (amp s) (now e)) as [a|]; [|reflexivity]. destruct (compute_swap _ _ _ _ _ _ _) as [[g sp]|] eqn:C; [|reflexivity].
  apply swap_range in C. assert (F : 0 <= g * total_fee (fees e) / DEC <= g).
  { split; [apply Z.div_pos; unfold DEC in *; nia|apply Z.div_le_upper_bound; unfold DEC in *; nia]. }
  assert (U : umul g (total_fee (fees e)) = Some (g * total_fee (fees e) / DEC)) by (apply umul_Some; lia). rewrite U.
  f_equal. unfold ssub. lia.
Qed.
Lemma six_ok el g p : 0 < el -> 0 <= g <= U128MAX -> 0 <= p <= 18 ->
  (el * six g p < 2 ^ 128 <-> match adjust_precision g p TWAP_PRECISION with Some v => mul128 el v | None => None end <> None).
Proof.
  intros L G P. unfold adjust_precision, TWAP_PRECISION, six. destruct (Z.eqb_spec p 6) as [->|N].
  - cbn [Z.leb Z.compare Pos.compare Pos.compare_cont]. replace (g * 10 ^ (6 - 6)) with g by (change (10 ^ (6 - 6)) with 1; lia). split; intros H.
    + assert (E : mul128 el g = Some (el * g)) by (apply mul128_Some; unfold U128MAX; nia). rewrite E. discriminate.
    + destruct (mul128 el g) as [v|] eqn:E; [|congruence]. apply mul128_Some in E. unfold U128MAX in E. lia.
  - destruct (Z.leb_spec p 6), (Z.ltb_spec p 6); try lia.
    + pose proof (Z.pow_pos_nonneg 10 (6 - p)). split; intros K.
      * assert (E : mul128 g (10 ^ (6 - p)) = Some (g * 10 ^ (6 - p))) by (apply mul128_Some; unfold U128MAX; nia). rewrite E.
        assert (E' : mul128 el (g * 10 ^ (6 - p)) = Some (el * (g * 10 ^ (6 - p)))) by (apply mul128_Some; unfold U128MAX; nia). rewrite E'. discriminate.
      * destruct (mul128 g (10 ^ (6 - p))) as [v|] eqn:E; [|congruence]. apply mul128_Some in E. destruct E as (-> & _).
        destruct (mul128 el (g * 10 ^ (6 - p))) as [v|] eqn:E; [|congruence]. apply mul128_Some in E. unfold U128MAX in E. lia.
    + assert (0 <= g / 10 ^ (p - 6)) by (apply Z.div_pos; [lia|apply Z.pow_pos_nonneg; lia]). split; intros K.
      * assert (E' : mul128 el (g / 10 ^ (p - 6)) = Some (el * (g / 10 ^ (p - 6)))) by (apply mul128_Some; unfold U128MAX; nia). rewrite E'. discriminate.
      * destruct (mul128 el (g / 10 ^ (p - 6))) as [v|] eqn:E; [|congruence]. apply mul128_Some in E. unfold U128MAX in E. lia.
Qed.
Lemma acc_ok e s : env_ok e -> 0 <= r0 s <= U128MAX -> 0 <= r1 s <= U128MAX -> 0 <= p0 s <= 18 -> 0 <= p1 s <= 18 ->
  (accrues e s <-> accumulate_prices e s (r0 s * 10 ^ (18 - p0 s)) (r1 s * 10 ^ (18 - p1 s)) <> None).
Proof.
  intros He R0 R1 P0 P1. unfold accrues, accumulate_prices. destruct (Z.leb_spec (now e) (last_t s)); [split; [discriminate|auto]|].
  pose proof (pow_le18 _ P0). pose proof (pow_le18 _ P1).
  destruct (Z.eq_dec (r0 s) 0) as [Z0'|N0]. { rewrite Z0'. cbn. split; [discriminate|auto]. }
  destruct (Z.eq_dec (r1 s) 0) as [Z1'|N1]. { rewrite Z1', andb_false_r. cbn. split; [discriminate|auto]. }
  destruct (Z.eqb_spec (r0 s * 10 ^ (18 - p0 s)) 0); [nia|]. destruct (Z.eqb_spec (r1 s * 10 ^ (18 - p1 s)) 0); [nia|]. cbn [negb andb].
  rewrite (price_swap e s false), (price_swap e s true) by assumption. cbv zeta.
  destruct (current_amp (amp s) (now e)) as [a|].
  2: { split; [intros [A|[A|[A|(g0 & g1 & A & _)]]]; [lia|contradiction|contradiction|discriminate]|congruence]. }
  destruct (compute_swap a DEC (r0 s * _) _ _ _ _) as [[g0 q0]|] eqn:C0.
  2: { split; [intros [A|[A|[A|(g0 & g1 & A & _)]]]; [lia|contradiction|contradiction|discriminate]|congruence]. }
  apply swap_range in C0. pose proof (six_ok (now e - last_t s) g0 (p1 s) ltac:(lia) C0 P1) as S0.
  destruct (compute_swap a DEC (r1 s * _) _ _ _ _) as [[g1 q1]|] eqn:C1.
  2: { split; [intros [A|[A|[A|(g1 & g2 & _ & A & _)]]]; [lia|contradiction|contradiction|discriminate]|].
       intros A. exfalso. destruct (adjust_precision g0 (p1 s) TWAP_PRECISION) as [v|]; [|congruence]. destruct (mul128 _ v); congruence. }
  apply swap_range in C1. pose proof (six_ok (now e - last_t s) g1 (p0 s) ltac:(lia) C1 P0) as S1.
  split.
  - intros [A|[A|[A|(g0' & g1' & A1 & A2 & A3 & A4)]]]; [lia|contradiction|contradiction|]. injection A1 as <-. injection A2 as <-.
    apply (proj1 S0) in A3. apply (proj1 S1) in A4. destruct (adjust_precision g0 (p1 s) TWAP_PRECISION) as [v|]; [|congruence]. destruct (mul128 _ v); [|congruence].
    destruct (adjust_precision g1 (p0 s) TWAP_PRECISION) as [w|]; [|congruence]. destruct (mul128 _ w); [discriminate|congruence].
  - intros A. right. right. right. exists g0, g1. split; [reflexivity|]. split; [reflexivity|]. split.
    + apply (proj2 S0). destruct (adjust_precision g0 (p1 s) TWAP_PRECISION) as [v|]; [|congruence]. destruct (mul128 _ v); congruence.
    + apply (proj2 S1). destruct (adjust_precision g0 (p1 s) TWAP_PRECISION) as [v|]; [|congruence]. destruct (mul128 _ v); [|congruence].
      destruct (adjust_precision g1 (p0 s) TWAP_PRECISION) as [w|]; [|congruence]. destruct (mul128 _ w); congruence.
Qed.

(** C143: whoever holds LP tokens can redeem any part of them for the proportional share of both reserves, exactly if
    the accumulators can be brought up to date. *)
Theorem c143_exit e s who n mins : reachable s -> env_ok e -> 0 <= p0 s <= 18 -> 0 <= p1 s <= 18 -> who <> SELF -> 0 < n <= get (lp s) who ->
  let a0 := r0 s * (n * 10 ^ 18 / supply s) / 10 ^ 18 in
  let a1 := r1 s * (n * 10 ^ 18 / supply s) / 10 ^ 18 in
  match mins with Some (m0, m1) => m0 <= a0 /\ m1 <= a1 | None => True end ->
  (accrues e s -> exists s', step e (Withdraw who n mins) s = Some (s', OWithdraw a0 a1)) /\
  (~ accrues e s -> step e (Withdraw who n mins) s = None).
Proof.
  intros R He P0 P1 W N a0 a1 M. destruct (reachable_small _ R) as (B0 & B1). pose proof (reachable_inv _ R) as I. pose proof (i_r0 _ I) as Q0. pose proof (i_r1 _ I) as Q1.
  assert (Sb : get (lp s) who <= supply s). { rewrite <- (i_tot _ I). apply get_le_total, (i_nn _ I). }
  destruct (XykExitProps.share_ok (r0 s) n (supply s)) as (S0 & C0); [lia|lia|].
  destruct (XykExitProps.share_ok (r1 s) n (supply s)) as (S1 & C1); [lia|lia|].
  cbn [step]. unfold withdraw. destruct (Z.eqb_spec who SELF); [contradiction|].
  rewrite (proj2 (Z.ltb_lt 0 n)), (proj2 (Z.leb_le n (get (lp s) who))) by lia. cbn [negb andb].
  change (10 ^ 18) with DEC in a0, a1. fold a0 in S0, C0. fold a1 in S1, C1. rewrite S0, S1.
  assert (G : (match mins with Some (m0, m1) => (m0 <=? a0) && (m1 <=? a1) | None => true end) = true).
  { destruct mins as [[m0 m1]|]; [|reflexivity]. destruct M. apply andb_true_intro. split; apply Z.leb_le; assumption. }
  rewrite G. assert (E0 : sub128 (r0 s) a0 = Some (r0 s - a0)) by (apply sub128_Some; unfold U128MAX in *; lia).
  assert (E1 : sub128 (r1 s) a1 = Some (r1 s - a1)) by (apply sub128_Some; unfold U128MAX in *; lia). rewrite E0, E1.
  rewrite (with_prec_ok (r0 s)), (with_prec_ok (r1 s)) by lia.
  pose proof (acc_ok e s He ltac:(lia) ltac:(lia) P0 P1) as A. destruct (accumulate_prices _ _ _ _) as [c|].
  - split; [intros _; eexists; reflexivity|]. intros X. exfalso. apply X, A. discriminate.
  - split; [|reflexivity]. intros X. exfalso. apply A in X. congruence.
Qed.
Print Assumptions c143_exit.

(** An ended ramp gives no other amplification any more. *)
Definition settled (T A : Z) (r : ramp) : Prop := forall t, T <= t -> current_amp r t = Some A \/ current_amp r t = None.
Lemma settled_end T r : next_t r <= T -> settled T (next_amp r) r.
Proof. intros H t L. left. unfold current_amp. destruct (Z.ltb_spec t (next_t r)); [lia|reflexivity]. Qed.
Lemma settled_stop T A r t r' : T <= t -> settled T A r -> stop_amp r t = Some r' -> settled T A r'.
Proof.
  intros L Se H. unfold stop_amp in H. unbind H as cur E. injection H as <-. destruct (Se t L) as [K|K]; rewrite E in K; [|discriminate]. injection K as ->.
  intros t' L'. unfold current_amp. cbn. destruct (t' <? t); [|auto]. right. rewrite Z.ltb_irrefl. unfold ssub. rewrite Z.sub_diag. cbn.
  rewrite Z.sub_diag. reflexivity.
Qed.

(** As long as one of the two tokens cannot be priced, nothing can be taken out (nor deposited into a pair of cw20
    tokens), whatever else happens. *)
Theorem c143_frozen e0 s one l : reachable s -> env_ok e0 -> 0 <= p0 s <= 18 -> 0 <= p1 s <= 18 -> last_t s < now e0 -> next_t (amp s) <= now e0 ->
  price e0 s one = None ->
  Forall (fun em => env_ok (fst em) /\ now e0 <= now (fst em) /\ thaws s (snd em) = false) l ->
  let s' := run s l in
  r0 s' = r0 s /\ r1 s' = r1 s /\ supply s' = supply s /\
  forall e m, env_ok e -> now e0 <= now e -> thaws s m = false -> (takes m = true \/ exists r d0 d1 q, m = Provide r d0 d1 q) -> step e m s' = None.
Proof.
  intros R He0 P0 P1 Lt Ln Pn. destruct (reachable_small _ R) as (B0 & B1). pose proof (reachable_inv _ R) as I. pose proof (i_r0 _ I) as Q0. pose proof (i_r1 _ I) as Q1. clear I R.
  assert (N0 : r0 s <> 0). { intros Z'. unfold price, query_simulation in Pn. rewrite Z' in Pn. discriminate. }
  assert (N1 : r1 s <> 0). { intros Z'. unfold price, query_simulation in Pn. rewrite Z', orb_true_r in Pn. discriminate. }
  rewrite (price_swap e0 s one He0 ltac:(lia) ltac:(lia) P0 P1 N0 N1) in Pn. cbv zeta in Pn.
  set (A := next_amp (amp s)). set (x := r0 s * 10 ^ (18 - p0 s)) in *. set (y := r1 s * 10 ^ (18 - p1 s)) in *.
  assert (Cn : compute_swap A DEC (if one then y else x) (if one then x else y) x y (if one then p0 s else p1 s) = None).
  { unfold current_amp in Pn. destruct (Z.ltb_spec (now e0) (next_t (amp s))); [lia|]. fold A in Pn.
    destruct (compute_swap _ _ _ _ _ _ _) as [[g q]|]; [discriminate|reflexivity]. }
  assert (X0 : x <> 0) by (unfold x; pose proof (pow_le18 _ P0); nia). assert (Y0 : y <> 0) by (unfold y; pose proof (pow_le18 _ P1); nia).
  clear Pn. set (T := now e0) in *.
  set (K := fun s1 : state => r0 s1 = r0 s /\ r1 s1 = r1 s /\ supply s1 = supply s /\ last_t s1 = last_t s /\ p0 s1 = p0 s /\ p1 s1 = p1 s /\
    nat0 s1 = nat0 s /\ nat1 s1 = nat1 s /\ settled T A (amp s1)).
  assert (Acc : forall s1 e, K s1 -> T <= now e -> accumulate_prices e s1 x y = None).
  { intros s1 e (K0 & K1 & _ & Kt & Kp0 & Kp1 & _ & _ & Ka) L. unfold accumulate_prices. rewrite Kt, Kp0, Kp1. destruct (Z.leb_spec (now e) (last_t s)); [lia|].
    destruct (Z.eqb_spec x 0); [contradiction|]. destruct (Z.eqb_spec y 0); [contradiction|]. cbn [negb andb].
    destruct (Ka (now e) L) as [-> | ->]; [|reflexivity]. destruct one; [|rewrite Cn; reflexivity].
    destruct (compute_swap A DEC x y x y (p1 s)) as [[g q]|]; [|reflexivity]. destruct (adjust_precision _ _ _) as [v|]; [|reflexivity].
    destruct (mul128 _ v); [|reflexivity]. rewrite Cn. reflexivity. }
  assert (Fail : forall s1 e m, K s1 -> T <= now e -> thaws s m = false -> (takes m = true \/ exists r d0 d1 q, m = Provide r d0 d1 q) -> step e m s1 = None).
  { intros s1 e m Ks L Th Tk. pose proof (Acc s1 e Ks L) as U. destruct Ks as (K0 & K1 & _ & Kt & Kp0 & Kp1 & Kn0 & Kn1 & _).
    assert (W0 : with_prec (r0 s1) (p0 s1) = Some x) by (rewrite K0, Kp0; apply with_prec_ok; lia).
    assert (W1 : with_prec (r1 s1) (p1 s1) = Some y) by (rewrite K1, Kp1; apply with_prec_ok; lia).
    destruct m; try (destruct Tk as [Tk|(? & ? & ? & ? & Tk)]; discriminate Tk); cbn [step].
    - cbn in Th. apply orb_false_elim in Th. rewrite <- Kn0, <- Kn1 in Th. destruct Th as (Th0 & Th1).
      unfold provide. rewrite Th0, Th1, W0, W1, U. ifg. ifg.
      destruct (current_amp _ _); [|reflexivity]. destruct (calculate_shares _ _ _ _ _ _ _ _ _); [|reflexivity]. cbv zeta.
      destruct (_ <=? _); [|reflexivity]. destruct (add128 _ d0); [|reflexivity]. destruct (add128 _ d1); reflexivity.
    - unfold withdraw. rewrite W0, W1, U. destruct (_ && _ && _); [|reflexivity]. destruct (XykModel.share_of (r0 s1) _ _); [|reflexivity]. destruct (XykModel.share_of (r1 s1) _ _); [|reflexivity].
      destruct (match mins with Some _ => _ | None => true end); [|reflexivity]. destruct (sub128 (r0 s1) _); [|reflexivity]. destruct (sub128 (r1 s1) _); reflexivity.
    - destruct (0 <? offer); [|reflexivity]. unfold swap. cbv zeta. destruct (quote _ _ _ _) as [[[ret sp] cm]|]; [|reflexivity].
      destruct (add128 ret cm); [|reflexivity]. destruct (XykModel.assert_max_spread _ _ _ _ _); [|reflexivity].
      destruct (match fshare s1 with Some _ => _ | None => Some 0 end); [|reflexivity]. destruct (if maker_on _ then _ else _); [|reflexivity].
      destruct (add128 _ offer); [|reflexivity]. destruct (sub128 _ _); [|reflexivity]. destruct (sub128 _ _); [|reflexivity]. destruct (sub128 _ _); [|reflexivity].
      rewrite W0, W1, U. reflexivity. }
  intros F. cbv zeta. assert (G : K (run s l)).
  { assert (Ks : K s) by (unfold K; repeat (split; [reflexivity|]); apply settled_end; assumption).
    revert F Ks. generalize s at 2 3 as s1. induction l as [|[e m] l IH]; intros s1 F Ks; [exact Ks|].
    inversion F as [|? ? (F1 & F2 & F3) F4]; subst. cbn [fst snd] in F1, F2, F3.
    change (run s1 ((e, m) :: l)) with (run (exec s1 (e, m)) l). apply IH; [exact F4|]. unfold exec. cbn [fst snd].
    destruct (step e m s1) as [[s2 o]|] eqn:E; [|exact Ks].
    destruct m; try discriminate F3; try (rewrite (Fail s1 e _ Ks F2 F3) in E by (first [left; reflexivity|right; repeat eexists]); discriminate E); cbn [step] in E.
    - unguard E G. unbind E as r Er. injection E as <- <-. destruct Ks as (K0 & K1 & K2 & K3 & K4 & K5 & K6 & K7 & K8).
      unfold K. cbn. repeat (split; [assumption|]). eapply settled_stop; eauto.
    - unguard E G. injection E as <- <-. exact Ks.
    - unguard E G. injection E as <- <-. exact Ks.
    - unbind E as r Er. injection E as <- <-. exact Ks.
    - unguard E G. injection E as <- <-. exact Ks. }
  pose proof G as (K0 & K1 & K2 & _). repeat (split; [assumption|]). intros e m _ L Th Tk. apply Fail; auto.
Qed.
Print Assumptions c143_frozen.

(** ** Cases *)

(** Cw20 tokens of 18 decimals, amplification 1000: twenty whole tokens against 500 units. *)
Definition dust0 : state := mkState 0 0 18 18 false false 0 [] 0 0 0 (mkRamp 100000 100 100000 100) None None None.
Definition dust : state := Eval vm_compute in run dust0 [(ex_e 200, Provide 1 (20 * 10 ^ 18) 500 None)].
Lemma dust_reach : reachable dust.
Proof.
  exists 100, 1000, None, 18, 18, false, false, dust0, [(ex_e 200, Provide 1 (20 * 10 ^ 18) 500 None)]. split; [unfold is_u64, U64MAX; lia|].
  split; [lia|]. split; [reflexivity|]. split; [hist|vm_compute; reflexivity].
Qed.
Theorem c143_refuted : exists s who n, reachable s /\ who <> SELF /\ 0 < n <= get (lp s) who /\ r0 s >= 20 * 10 ^ 18 /\ 0 < r1 s /\
  forall l, Forall (fun em => env_ok (fst em) /\ last_t s < now (fst em) /\ thaws s (snd em) = false) l ->
  forall e m, env_ok e -> last_t s < now e -> thaws s m = false -> (takes m = true \/ exists r d0 d1 q, m = Provide r d0 d1 q) -> step e m (run s l) = None.
Proof.
  exists dust, 1, 1000. split; [exact dust_reach|]. split; [discriminate|]. split; [vm_compute; intuition congruence|].
  split; [vm_compute; discriminate|]. split; [reflexivity|]. intros l F e m He L Th Tk.
  assert (E0 : env_ok (ex_e 201)) by (apply ex_env_ok; unfold is_u64, U64MAX; lia).
  refine (proj2 (proj2 (proj2 (c143_frozen (ex_e 201) dust false l dust_reach E0 _ _ _ _ _ _))) e m He _ Th Tk).
  - vm_compute. intuition congruence.
  - vm_compute. intuition congruence.
  - reflexivity.
  - vm_compute. discriminate.
  - vm_compute. reflexivity.
  - eapply Forall_impl; [|exact F]. intros [e1 m1] (A1 & A2 & A3). cbn [fst snd] in *. split; [exact A1|]. split; [|exact A3].
    change (last_t dust) with 200 in A2. change (now (ex_e 201)) with 201. lia.
  - change (last_t dust) with 200 in L. change (now (ex_e 201)) with 201. lia.
Qed.
Print Assumptions c143_refuted.

(** A gift of one whole token of the scarce asset brings it back. *)
Example dust_gift : exists s' a0 a1, step (ex_e 300) (Withdraw 1 1000000 None) (run dust [(ex_e 250, Donate true (10 ^ 18))]) = Some (s', OWithdraw a0 a1) /\ 0 < a0 /\ 0 < a1.
Proof. do 3 eexists. split; [vm_compute; reflexivity|]. split; reflexivity. Qed.
(** A pool of one whole token against three, of six decimals: both tokens can be priced, and half the LP tokens be
    redeemed. *)
Example c143_example : reachable ex_t /\ accrues (ex_e 1000) ex_t /\ price (ex_e 1000) ex_t false = Some 1277055 /\
  exists s', step (ex_e 1000) (Withdraw 1 1000000 (Some (268977, 806933))) ex_t = Some (s', OWithdraw 268977 806933).
Proof.
  split; [apply ex_reach; hist|]. split.
  { right. right. right. exists 1277055, 411664. split; [vm_compute; reflexivity|]. split; [vm_compute; reflexivity|]. split; vm_compute; reflexivity. }
  split; [vm_compute; reflexivity|]. eexists. vm_compute. reflexivity.
Qed.
