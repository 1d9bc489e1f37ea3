(** C49, C86, C87: the pair with sale tax. *)
From Coq Require Import ZArith Lia Bool List.
From Verif Require Import Num Ledger SnapshotModel SaleTaxModel.
From Verif Require XykModel XykSpec XykProofs XykProps.
Import ListNotations.
Open Scope Z_scope.

(** ** Vocabulary *)
Definition envs_ok (l : list (XykModel.env * msg)) : Prop := Forall (fun em => XykSpec.env_ok (fst em)) l.
Definition reachable (s : state) : Prop :=
  exists tr n0 n1 c a s0 l, init tr n0 n1 c a = Some s0 /\ envs_ok l /\ s = run s0 l.
(** The tax owed on an offer. *)
Definition owed (t : option tax) (offer : Z) : Z := match t with Some t => offer * rate t / DEC | None => 0 end.
(** The same message sent to a plain pair: the offer without the tax, no minimums, no configuration. *)
Definition plain (s : state) (m : msg) : option XykModel.msg :=
  match m with
  | Provide w r d0 d1 tol _ => Some (XykModel.Provide w r d0 d1 tol None)
  | Withdraw w a _ => Some (XykModel.Withdraw w a None)
  | Swap one offer b ms => Some (XykModel.Swap one (offer - owed (tax_of s one) offer) b ms)
  | UpdateConfig _ _ _ => None
  | Donate one a => Some (XykModel.Donate one a)
  | LpTransfer f t a => Some (XykModel.LpTransfer f t a)
  end.
Definition rate_ok (t : option tax) : Prop := match t with Some t => 0 <= rate t <= 500000000000000000 | None => True end.

(** ** Proofs *)
Definition good (s : state) : Prop :=
  rate_ok (tax0 s) /\ rate_ok (tax1 s) /\ XykModel.fshare (base s) = None /\
  (tax0 s <> None -> nat0 s = true) /\ (tax1 s <> None -> nat1 s = true).
Lemma check1_ok n c : check1 n c = true -> rate_ok c /\ (c <> None -> n = true).
Proof. destruct c; simpl; [|split; [auto|congruence]]. intros H. bools. split; [unfold MAX_TAX in *; lia|auto]. Qed.
Lemma check_ok n0 n1 c : check n0 n1 c = true ->
  rate_ok (cfg0 c) /\ rate_ok (cfg1 c) /\ (cfg0 c <> None -> n0 = true) /\ (cfg1 c <> None -> n1 = true).
Proof.
  unfold check. intros H. apply andb_prop in H. destruct H as (H & H1). apply andb_prop in H. destruct H as (_ & H0).
  destruct (check1_ok _ _ H0), (check1_ok _ _ H1). auto.
Qed.
Lemma owed_bound t offer : rate_ok t -> 0 <= offer -> 0 <= owed t offer /\ 2 * owed t offer <= offer.
Proof.
  intros R Ho. destruct t as [t|]; unfold owed; [|lia]. unfold rate_ok, MAX_TAX in R.
  assert (0 <= offer * rate t / DEC) by (apply Z.div_pos; [nia|reflexivity]).
  pose proof (Z.mul_div_le (offer * rate t) DEC DEC_pos).
  assert (offer * rate t <= offer * 500000000000000000) by (apply Z.mul_le_mono_nonneg_l; lia). unfold DEC in *. lia.
Qed.
Lemma compute_swap_plain o x a c t ret sp cm net tx :
  compute_swap o x a c t = Some (ret, sp, cm, net, tx) ->
  tx = owed t a /\ net = a - owed t a /\ XykModel.compute_swap o x net c = Some (ret, sp, cm) /\ 0 <= net <= U128MAX.
Proof.
  unfold compute_swap. intros H. unbind H as s T. unbind H as n N. unbind H as [[r1 s1] c1] E. injection H as <- <- <- <- <-.
  apply sub128_Some in N. destruct N as (-> & N). assert (s = owed t a).
  { unfold owed. destruct t; [|congruence]. apply u128_Some in T. tauto. }
  subst s. auto.
Qed.
Lemma compute_swap_pos o x a c r : XykModel.compute_swap o x a c = Some r -> a <> 0.
Proof. unfold XykModel.compute_swap. intros H. unguard H G. bools. auto. Qed.
Lemma swap_plain e s one offer b ms s' o : good s -> swap e s one offer b ms = Some (s', o) ->
  0 < offer - owed (tax_of s one) offer /\
  XykModel.swap e (base s) one (offer - owed (tax_of s one) offer) b ms = Some (base s', main o) /\
  s' = with_base s (base s') /\
  taxed o = (match tax_of s one with Some t => if owed (tax_of s one) offer =? 0 then None else Some (recipient t, owed (tax_of s one) offer) | None => None end).
Proof.
  intros (_ & _ & Fs & _) H. unfold swap in H. cbv zeta in H.
  unbind H as z Z0. unbind H as [[[[ret sp] cm] net] tx] C. destruct (compute_swap_plain _ _ _ _ _ _ _ _ _ _ C) as (-> & -> & C1 & C2).
  unbind H as g G. unbind H as u A. unbind H as mk M. unbind H as no NO. unbind H as k1 K1. unbind H as na NA.
  unbind H as [[pc0 pc1] pt] P.
  unfold XykModel.swap, XykModel.swap_amounts. rewrite C1, G, Fs. cbv zeta. rewrite A.
  replace (ssub cm 0) with cm; swap 1 2.
  { unfold ssub. assert (0 <= cm); [|lia]. unfold XykModel.compute_swap in C1.
    unguard C1 Q1. repeat match type of C1 with
      | (let _ := _ in _) = _ => cbv zeta in C1
      | _ => let x := fresh in let E := fresh in unbind C1 as x E
      end. injection C1 as _ _ <-. repeat match goal with E : u128 _ = Some _ |- _ => apply u128_Some in E end. lia. }
  rewrite M. cbn [XykModel.so_return XykModel.so_maker XykModel.so_share].
  rewrite NO, K1, NA. assert (S0 : sub128 na 0 = Some na).
  { apply sub128_Some in NA. unfold sub128. rewrite Z.sub_0_r. destruct NA as (-> & NA). apply u128_Some. auto. }
  rewrite S0, P. destruct (XykModel.track_save _ _ _ _) as [q0 q1] eqn:T. injection H as <- <-. cbn [base main taxed with_base].
  split; [pose proof (compute_swap_pos _ _ _ _ _ C1); lia|]. rewrite Fs. auto.
Qed.
Lemma step_plain e m s s' o : good s -> step e m s = Some (s', o) ->
  match plain s m with
  | Some m' => XykModel.step e m' (base s) = Some (base s', main o) /\ s' = with_base s (base s')
  | None => base s' = base s
  end.
Proof.
  intros G H. destruct m as [w r d0 d1 tol ml|w a mins|one offer b ms|who cfg na|one a|f t a]; simpl in H; cbn [plain].
  - unfold lift in H. unbind H as [b x] E. injection H as <- <-. cbn. rewrite E. auto.
  - unfold lift in H. unbind H as [b x] E. injection H as <- <-. cbn. rewrite E. auto.
  - unguard H G1. destruct (swap_plain _ _ _ _ _ _ _ _ G H) as (P & E & Q & _). split; [|exact Q].
    cbn [XykModel.step]. rewrite (proj2 (Z.ltb_lt 0 _)) by exact P. exact E.
  - unbind H as s1 E. injection H as <- <-. unfold update_config in E. unguard E G1. unbind E as s2 E2.
    assert (B : base s2 = base s). { destruct cfg; [unguard E2 G2; unguard E2 G3|]; injection E2 as <-; reflexivity. }
    destruct na; [unguard E G4; injection E as <-|injection E as <-]; exact B.
  - unfold lift in H. unbind H as [b x] E. injection H as <- <-. cbn [base with_base main]. rewrite <- E. auto.
  - unfold lift in H. unbind H as [b x] E. injection H as <- <-. cbn [base with_base main]. rewrite <- E. auto.
Qed.
Lemma plain_fshare e m s s' o m' : plain s m = Some m' -> XykModel.step e m' (base s) = Some (s', o) ->
  XykModel.fshare s' = XykModel.fshare (base s).
Proof.
  destruct m as [w r d0 d1 tol ml|w a mins|one offer b ms|who cfg na|one a|f t a]; intros P H; try discriminate;
    injection P as <-; simpl in H.
  - unfold XykModel.provide in H. unguard H G. unbind H as sh E. cbv zeta in H. unguard H G2. unbind H as n0 E0. unbind H as n1 E1.
    unbind H as [[c0 c1] t'] U. destruct (XykModel.track_save _ _ _ _) in H. injection H as <- _. reflexivity.
  - unfold XykModel.withdraw in H. unguard H G. unbind H as a0 E. unbind H as a1 E2. unbind H as n0 E0. unbind H as n1 E1.
    unbind H as [[c0 c1] t'] U. cbv zeta in H. destruct (XykModel.track_save _ _ _ _) in H. injection H as <- _. reflexivity.
  - unguard H G. unfold XykModel.swap in H. cbv zeta in H. unbind H as x E. unbind H as n0 E0. unbind H as n1 E1.
    unbind H as n2 E2. unbind H as n3 E3. unbind H as [[c0 c1] t'] U. destruct (XykModel.track_save _ _ _ _) in H. injection H as <- _. reflexivity.
  - unguard H G. unbind H as n E. injection H as <- _. reflexivity.
  - unguard H G. injection H as <- _. reflexivity.
Qed.
Lemma step_good e m s s' o : step e m s = Some (s', o) -> good s -> good s'.
Proof.
  intros H G. pose proof (step_plain _ _ _ _ _ G H) as P. destruct (plain s m) as [m'|] eqn:Em.
  - destruct P as (P & Q). pose proof (plain_fshare _ _ _ _ _ _ Em P) as F. rewrite Q.
    destruct G as (A & B & C & D). unfold good. cbn. rewrite F. auto.
  - destruct m; try discriminate. simpl in H. unbind H as s1 E. injection H as <- <-. unfold update_config in E.
    unguard E G1. unbind E as s2 E2. assert (G2 : good s2).
    { destruct cfg as [c|]; [|injection E2 as <-; exact G]. unguard E2 G3. unguard E2 G4. injection E2 as <-.
      destruct (check_ok _ _ _ G4) as (A & B & C & D). destruct G as (_ & _ & F & _). unfold good. cbn. auto. }
    destruct new_admin; [unguard E G5; injection E as <-|injection E as <-]; exact G2.
Qed.
Lemma run_good l : forall s, good s -> good (run s l).
Proof.
  induction l as [|v l IH]; intros s G; simpl; auto. apply IH. unfold exec.
  destruct (step _ _ s) as [[s' o]|] eqn:E; auto. eapply step_good; eauto.
Qed.
Lemma init_good tr n0 n1 c a s : init tr n0 n1 c a = Some s -> good s.
Proof.
  unfold init. intros H. unguard H G. injection H as <-. destruct (check_ok _ _ _ G) as (A & B & C & D). unfold good. cbn. auto.
Qed.
Lemma reachable_good s : reachable s -> good s.
Proof. intros (tr & n0 & n1 & c & a & s0 & l & I & _ & ->). apply run_good. eapply init_good; eauto. Qed.

(** ** C87: the pool is a plain pool *)

(** Whatever happens to the taxed pair, its pool, LP tokens, prices and tracked balances are those of a
    plain constant-product pair which got the offers without the tax. So everything proved of the
    plain pair (C01-C11, C58) holds of this one. *)
Theorem c87_plain_pair s : reachable s -> XykSpec.reachable (base s).
Proof.
  intros (tr & n0 & n1 & c & a & s0 & l & I & Ok & ->).
  assert (G : good s0) by (eapply init_good; eauto).
  assert (R : XykSpec.reachable (base s0)).
  { unfold init in I. unguard I G1. injection I as <-. exists tr, []. split; [constructor|reflexivity]. }
  clear I. revert s0 G R. induction l as [|[e m] l IH]; intros s G R; [exact R|].
  unfold envs_ok in Ok. apply Forall_cons_iff in Ok. destruct Ok as (Ok1 & Ok). cbn [fst] in Ok1.
  change (run s ((e, m) :: l)) with (run (exec s (e, m)) l). unfold exec. cbn [fst snd].
  destruct (step e m s) as [[s' o]|] eqn:E; [|apply IH; auto].
  apply IH; auto; [eapply step_good; eauto|]. pose proof (step_plain _ _ _ _ _ G E) as P.
  destruct (plain s m) as [m'|]; [|rewrite P; exact R]. destruct P as (P & _).
  destruct R as (b & l' & R1 & R2). exists b, (l' ++ [(e, m')]). split.
  - unfold XykSpec.envs_ok. apply Forall_app. split; [exact R1|]. constructor; [exact Ok1|constructor].
  - unfold XykModel.run. rewrite fold_left_app. fold (XykModel.run (XykModel.init b) l'). rewrite <- R2.
    simpl. unfold XykModel.exec. simpl. rewrite P. reflexivity.
Qed.
(** Message by message: the same message goes through on the plain pair, with the same payments. *)
Theorem c87_message e m s s' o : reachable s -> step e m s = Some (s', o) ->
  match plain s m with
  | Some m' => XykModel.step e m' (base s) = Some (base s', main o)
  | None => base s' = base s /\ main o = XykModel.ONone
  end.
Proof.
  intros R H. pose proof (step_plain _ _ _ _ _ (reachable_good _ R) H) as P. destruct (plain s m) eqn:E; [tauto|].
  split; [exact P|]. destruct m; try discriminate. simpl in H. unbind H as s1 E1. injection H as _ <-. reflexivity.
Qed.

(** ** C49 *)

(** The tax is floor(rate * offer), at most half of the offer, paid to the configured recipient and to
    nobody else; only swaps of a taxed coin are taxed; the rest goes into the pool, which follows
    the constant-product rule. *)
Theorem c49_tax e s one offer b ms s' o : reachable s -> XykSpec.env_ok e ->
  step e (Swap one offer b ms) s = Some (s', o) ->
  exists so, main o = XykModel.OSwap so /\
  let tx := owed (tax_of s one) offer in
  let inside x := if one then XykModel.r1 (base x) else XykModel.r0 (base x) in
  0 <= tx /\ 2 * tx <= offer /\
  (taxed o = None -> tx = 0) /\
  (forall who v, taxed o = Some (who, v) -> v = tx /\ exists r, tax_of s one = Some (mkTax r who)) /\
  inside s' = inside s + (offer - tx) /\
  XykModel.r0 (base s) * XykModel.r1 (base s) * DEC < XykModel.r0 (base s') * XykModel.r1 (base s') * DEC + inside s' /\
  XykModel.so_share so = 0.
Proof.
  intros R Ok H. pose proof (reachable_good _ R) as G. simpl in H. unguard H G1. apply Z.ltb_lt in G1.
  destruct (swap_plain _ _ _ _ _ _ _ _ G H) as (P & E & Q & T).
  assert (Rt : rate_ok (tax_of s one)) by (destruct G as (A & B & _); destruct one; assumption).
  destruct (owed_bound _ offer Rt) as (B1 & B2); [lia|].
  assert (M : exists so, main o = XykModel.OSwap so /\ XykModel.so_share so = 0).
  { unfold swap in H. cbv zeta in H. unbind H as z Z0. unbind H as [[[[ret sp] cm] net] tx] C.
    unbind H as g Gg. unbind H as u A. unbind H as mk M. unbind H as no NO. unbind H as k1 K1. unbind H as na NA.
    unbind H as [[pc0 pc1] pt] Pp. destruct (XykModel.track_save _ _ _ _) in H. injection H as _ <-. eexists. split; reflexivity. }
  destruct M as (so & Mo & Ms). exists so. split; [exact Mo|]. cbv zeta.
  pose proof E as E2. rewrite Mo in E2.
  destruct (XykProps.c01_swap_product e (base s) one _ b ms (base s') so (c87_plain_pair _ R) Ok P E2) as (K & _).
  split; [exact B1|]. split; [exact B2|]. split.
  { rewrite T. destruct (tax_of s one); [|reflexivity]. destruct (Z.eqb_spec (owed (Some t) offer) 0); [auto|discriminate]. }
  split.
  { intros who v. rewrite T. destruct (tax_of s one) as [t|]; [|discriminate].
    destruct (Z.eqb_spec (owed (Some t) offer) 0); [discriminate|]. intros I. injection I as <- <-. split; auto.
    exists (rate t). destruct t; reflexivity. }
  split; [|split; [exact K | exact Ms]].
  unfold XykModel.swap in E. cbv zeta in E. unbind E as so2 S1. unbind E as no NO. unbind E as k1 K1. unbind E as k2 K2.
  unbind E as na NA. unbind E as [[pc0 pc1] pt] Pp. destruct (XykModel.track_save _ _ _ _) in E. injection E as E _.
  rewrite <- E. apply add128_Some in NO. destruct NO as (-> & _). destruct one; reflexivity.
Qed.
(** No other message pays tax. *)
Theorem c49_only_swaps e m s s' o : step e m s = Some (s', o) -> taxed o <> None ->
  exists one offer b ms, m = Swap one offer b ms.
Proof.
  intros H N. destruct m as [w r d0 d1 tol ml|w a mins|one offer b ms|who cfg na|one a|f t a]; simpl in H.
  - unfold lift in H. unbind H as [b x] E. injection H as <- <-. simpl in N. congruence.
  - unfold lift in H. unbind H as [b x] E. injection H as <- <-. simpl in N. congruence.
  - eauto.
  - unbind H as s1 E. injection H as <- <-. simpl in N. congruence.
  - unfold lift in H. unbind H as [b x] E. injection H as <- <-. simpl in N. congruence.
  - unfold lift in H. unbind H as [b x] E. injection H as <- <-. simpl in N. congruence.
Qed.
(** Rates are at most one half and exist only for coins of the pool, always; the configuration and the
    tax admin change only by a message of the current tax admin. *)
Theorem c49_rates s one t : reachable s -> tax_of s one = Some t ->
  0 <= rate t /\ 2 * rate t <= DEC /\ (if one then nat1 s else nat0 s) = true.
Proof.
  intros R T. destruct (reachable_good _ R) as (A & B & _ & C & D). unfold rate_ok, MAX_TAX, DEC in *.
  destruct one; simpl in T; rewrite T in *; repeat split; try lia; [apply D | apply C]; discriminate.
Qed.
Theorem c49_admin e m s s' o : step e m s = Some (s', o) ->
  tax0 s' <> tax0 s \/ tax1 s' <> tax1 s \/ admin s' <> admin s ->
  exists cfg na, m = UpdateConfig (admin s) cfg na /\ base s' = base s /\
    admin s' = (match na with Some a => a | None => admin s end) /\
    (tax0 s', tax1 s') = (match cfg with Some c => (cfg0 c, cfg1 c) | None => (tax0 s, tax1 s) end).
Proof.
  intros H N. destruct m as [w r d0 d1 tol ml|w a mins|one offer b ms|who cfg na|one a|f t a]; simpl in H.
  - unfold lift in H. unbind H as [b x] E. injection H as <- <-. simpl in N. exfalso; tauto.
  - unfold lift in H. unbind H as [b x] E. injection H as <- <-. simpl in N. exfalso; tauto.
  - unguard H G1. unfold swap in H. cbv zeta in H. unbind H as z Z0. unbind H as [[[[ret sp] cm] net] tx] C.
    unbind H as g Gg. unbind H as u A. unbind H as mk M. unbind H as no NO. unbind H as k1 K1. unbind H as na NA.
    unbind H as [[pc0 pc1] pt] Pp. destruct (XykModel.track_save _ _ _ _) in H. injection H as <- _. simpl in N. exfalso; tauto.
  - unbind H as s1 E. injection H as <- <-. unfold update_config in E. unguard E G1. unbind E as s2 E2.
    exists cfg, na.
    destruct cfg as [c|].
    + unguard E2 G2. unguard E2 G3. injection E2 as <-. cbn in E. apply Z.eqb_eq in G2. subst who.
      destruct na as [a|]; injection E as <-; auto.
    + injection E2 as <-. destruct na as [a|]; [|injection E as <-; exfalso; tauto].
      unguard E G4. injection E as <-. apply Z.eqb_eq in G4. subst who. auto.
  - unfold lift in H. unbind H as [b x] E. injection H as <- <-. simpl in N. exfalso; tauto.
  - unfold lift in H. unbind H as [b x] E. injection H as <- <-. simpl in N. exfalso; tauto.
Qed.
(** The simulation quotes exactly what the swap pays. *)
Theorem c49_simulation e s one offer b ms s' o so :
  step e (Swap one offer b ms) s = Some (s', o) -> main o = XykModel.OSwap so ->
  query_simulation e s one offer = Some (XykModel.so_return so, XykModel.so_spread so, XykModel.so_commission so).
Proof.
  intros H M. simpl in H. unguard H G1. unfold swap in H. cbv zeta in H. unbind H as z Z0. unbind H as [[[[ret sp] cm] net] tx] C.
  unbind H as g Gg. unbind H as u A. unbind H as mk Mk. unbind H as no NO. unbind H as k1 K1. unbind H as na NA.
  unbind H as [[pc0 pc1] pt] Pp. destruct (XykModel.track_save _ _ _ _) in H. injection H as _ <-. injection M as <-.
  unfold query_simulation. rewrite C. reflexivity.
Qed.
(** The reverse simulation adds enough for the tax: after the tax, at least the plain pair's quote remains
    (for quotes below 10^18; in general all but a 10^-18 part of it). *)
Theorem c49_reverse e s one ask q sp cm : reachable s ->
  query_reverse_simulation e s one ask = Some (q, sp, cm) ->
  exists q0, XykModel.query_reverse_simulation e (base s) one ask = Some (q0, sp, cm) /\
    let net := q - owed (tax_of s (negb one)) q in
    q0 * (DEC - 1) <= net * DEC /\ (q0 < DEC -> q0 <= net).
Proof.
  intros R H. unfold query_reverse_simulation, compute_offer_amount in H. unbind H as [[q0 s0] c0] E. unbind H as g Gg.
  injection H as <- <- <-. exists q0. split; [exact E|]. cbv zeta.
  assert (Q0 : 0 <= q0).
  { unfold XykModel.compute_offer_amount in E. unguard E G1.
    repeat match type of E with
      | (let _ := _ in _) = _ => cbv zeta in E
      | _ => let x := fresh in let F := fresh in unbind E as x F
      end. injection E as <- _ _. repeat match goal with F : u128 _ = Some _ |- _ => apply u128_Some in F end. lia. }
  destruct (tax_of s (negb one)) as [t|] eqn:T.
  - destruct (c49_rates _ _ _ R T) as (R1 & R2 & _).
    unbind Gg as om O. unbind Gg as iv I. apply sub128_Some in O. destruct O as (-> & _).
    unfold ddiv in I. destruct (Z.eqb_spec (DEC - rate t) 0) as [|Nz]; [discriminate|]. apply u128_Some in I. destruct I as (-> & _).
    apply u128_Some in Gg. destruct Gg as (-> & _). unfold owed.
    set (d := DEC - rate t) in *. assert (Hd : 0 < d) by (unfold d, DEC in *; lia).
    set (iv := DEC * DEC / d). assert (I1 : DEC * DEC < (iv + 1) * d) by (pose proof (Z.mul_succ_div_gt (DEC * DEC) d Hd); unfold iv; lia).
    assert (Hd1 : d <= DEC) by (unfold d; lia).
    set (g := (q0 * iv + (DEC - 1)) / DEC).
    assert (G2 : q0 * iv <= g * DEC) by (pose proof (Z.mul_succ_div_gt (q0 * iv + (DEC - 1)) DEC DEC_pos); unfold g; lia).
    assert (W : g * rate t / DEC * DEC <= g * rate t) by (pose proof (Z.mul_div_le (g * rate t) DEC DEC_pos); lia).
    assert (K : q0 * (DEC - 1) <= (g - g * rate t / DEC) * DEC).
    { assert (g * d <= (g - g * rate t / DEC) * DEC) by (unfold d; lia).
      assert (q0 * iv * d <= g * DEC * d) by nia.
      assert (q0 * (DEC * DEC - d) <= q0 * (iv * d)) by nia.
      assert (q0 * (DEC * DEC - DEC) <= q0 * (DEC * DEC - d)) by nia.
      assert (q0 * (DEC - 1) * DEC <= g * d * DEC) by lia.
      apply Z.mul_le_mono_pos_r in H3; [lia | exact DEC_pos]. }
    split; [exact K|]. intros L. assert ((g - g * rate t / DEC + 1) * DEC > q0 * DEC) by (unfold DEC in *; lia).
    unfold DEC in *; lia.
  - injection Gg as <-. unfold owed. unfold DEC. split; lia.
Qed.

(** ** C86: minimum amounts *)

(** The minimum amounts a user attaches to a provide or a withdrawal are ignored: the message goes through
    whatever they are. *)
Theorem c86_ignored e s w r d0 d1 tol m1 m2 am mins1 mins2 :
  step e (Provide w r d0 d1 tol m1) s = step e (Provide w r d0 d1 tol m2) s /\
  step e (Withdraw w am mins1) s = step e (Withdraw w am mins2) s.
Proof. split; reflexivity. Qed.
Definition k_env (t h : Z) : XykModel.env := XykProps.ex_env t h.
Definition k_cfg : configs := mkCfg (Some (mkTax 50000000000000000 77)) None false.
Definition k0 : state := mkState (XykModel.init true) true true (Some (mkTax 50000000000000000 77)) None 5.
Definition k_pool : state := run k0 [(k_env 100 10, Provide 1 1 1000000000 2000000000 None None)].
Lemma k_env_ok t h : XykSpec.env_ok (k_env t h).
Proof. apply XykProps.ex_env_ok. Qed.
Lemma k_reachable : reachable k_pool.
Proof.
  exists true, true, true, k_cfg, 5, k0. eexists. split; [reflexivity|]. split; [|reflexivity]. repeat constructor; apply k_env_ok.
Qed.
Theorem c86_refuted : exists e s, reachable s /\ XykSpec.env_ok e /\
  (exists s' o sh, step e (Provide 2 2 1000 2000 None (Some 5000000)) s = Some (s', o) /\
     main o = XykModel.OProvide sh /\ sh < 5000000) /\
  (exists s' o x y, step e (Withdraw 1 1000 (Some (5000000, 5000000))) s = Some (s', o) /\
     main o = XykModel.OWithdraw x y /\ x < 5000000 /\ y < 5000000).
Proof.
  exists (k_env 200 20), k_pool. split; [apply k_reachable|]. split; [apply k_env_ok|]. split.
  - eexists. eexists. eexists. split; [vm_compute; reflexivity|]. split; [reflexivity|]. reflexivity.
  - eexists. eexists. eexists. eexists. split; [vm_compute; reflexivity|]. split; [reflexivity|]. split; reflexivity.
Qed.

(** ** Concrete case: 5% tax on asset 0 *)
Example k_swap : exists s' so,
  step (k_env 200 20) (Swap false 1000000 None None) k_pool = Some (s', mkOut (XykModel.OSwap so) (Some (77, 50000))) /\
  XykModel.so_return so = 1892502 /\ XykModel.r0 (base s') = 1000950000 /\ reachable k_pool /\
  query_simulation (k_env 200 20) k_pool false 1000000 = Some (1892502, XykModel.so_spread so, XykModel.so_commission so) /\
  (exists s2 so2, step (k_env 200 20) (Swap true 1000000 None None) k_pool = Some (s2, mkOut (XykModel.OSwap so2) None)).
Proof.
  eexists. eexists. split; [vm_compute; reflexivity|]. split; [reflexivity|]. split; [reflexivity|]. split; [apply k_reachable|].
  split; [vm_compute; reflexivity|]. eexists. eexists. vm_compute. reflexivity.
Qed.
Example k_reverse : exists a b c d,
  query_reverse_simulation (k_env 200 20) k_pool true 1000000 = Some (528165, a, b) /\
  XykModel.query_reverse_simulation (k_env 200 20) (base k_pool) true 1000000 = Some (501756, c, d) /\
  528165 - owed (tax_of k_pool false) 528165 = 501757.
Proof. eexists. eexists. eexists. eexists. split; [vm_compute; reflexivity|]. split; [vm_compute; reflexivity|]. reflexivity. Qed.
Example k_config :
  step (k_env 200 20) (UpdateConfig 99 (Some (mkCfg None None false)) None) k_pool = None /\
  step (k_env 200 20) (UpdateConfig 5 (Some (mkCfg (Some (mkTax 500000000000000001 7)) None false)) None) k_pool = None /\
  step (k_env 200 20) (UpdateConfig 5 (Some (mkCfg None None true)) None) k_pool = None /\
  (exists s' o, step (k_env 200 20) (UpdateConfig 5 (Some (mkCfg None (Some (mkTax 500000000000000000 7)) false)) (Some 6)) k_pool = Some (s', o) /\
     admin s' = 6 /\ tax0 s' = None /\ tax1 s' = Some (mkTax 500000000000000000 7)).
Proof.
  split; [reflexivity|]. split; [reflexivity|]. split; [reflexivity|]. eexists. eexists. split; [vm_compute; reflexivity|]. auto.
Qed.

Print Assumptions c49_tax.
Print Assumptions c49_only_swaps.
Print Assumptions c49_rates.
Print Assumptions c49_admin.
Print Assumptions c49_simulation.
Print Assumptions c49_reverse.
Print Assumptions c86_ignored.
Print Assumptions c86_refuted.
Print Assumptions c87_plain_pair.
Print Assumptions c87_message.
