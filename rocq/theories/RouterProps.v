(** Properties of the router: C24, C25, C61, C62. *)
From Coq Require Import ZArith Lia Bool List.
From Verif Require Import Num Bytes FactoryModel RouterModel.
From Verif Require XykModel.
Import ListNotations.
Open Scope Z_scope.

(** ** Independent specification *)

(** A path through assets [a0; a1; ...; an] as a list of hops. *)
Fixpoint path_ops (a : asset) (l : list asset) : list op :=
  match l with [] => [] | b :: r => AstroSwap a b :: path_ops b r end.
Fixpoint no_repeat (a : asset) (l : list asset) : Prop :=
  match l with [] => True | b :: r => a <> b /\ no_repeat b r end.

(** The asset the route ends in. *)
Definition final_asset (l : list op) : option asset :=
  match rev l with AstroSwap _ b :: _ => Some b | _ => None end.

(** Behaviours without a nested call of the router. *)
Definition no_calls (b : list (Z * list action)) : Prop :=
  Forall (fun x => Forall (fun a => match a with Call _ => False | Change _ => True end) (snd x)) b.

(** During a hop, the balances of the router and of the receiver change by exactly [x] of [a] paid to [to]. *)
Definition credits (f : world -> option world) (a : asset) (to x rcv : Z) : Prop :=
  forall w0 w1, f w0 = Some w1 -> forall b u, u = ROUTER \/ u = rcv ->
    w1 b u = w0 b u + (if asset_eqb a b && (u =? to) then x else 0).
Fixpoint honest (rcv : Z) (l : list op) (b : list (Z * list action)) (xs : list Z) : Prop :=
  match l, b, xs with
  | [], [], [] => True
  | o :: r, (p, [Change f]) :: b', x :: xs' =>
      p <> ROUTER /\ p <> rcv /\ 0 <= x /\
      credits f (target o) (match r with [] => rcv | _ => ROUTER end) x rcv /\
      honest rcv r b' xs'
  | _, _, _ => False
  end.

(** ** Basic facts *)

Lemma last_map_some : forall (l : list op) o, List.last (map Some l) None = Some o <-> exists l', l = l' ++ [o].
Proof.
  intros l o. destruct l as [|x r] using rev_ind.
  - cbn. split; [discriminate | intros [l' E]; destruct l'; discriminate].
  - rewrite map_app. cbn [map]. rewrite last_last. split.
    + intros H; injection H as <-. eauto.
    + intros [l' E]. apply app_inj_tail in E. destruct E as [_ ->]. reflexivity.
Qed.

Lemma begin_spec : forall s q s0, begin s q = Some s0 ->
  assert_operations (ops q) = true /\
  exists l o, ops q = l ++ [o] /\
    s0 = mkState (w s) (Some (mkRD (target o) (w s (target o) (receiver q)) (minimum q) (receiver q))).
Proof.
  intros s q s0 H. unfold begin in H. unguard H G. unbind H as o E. injection H as <-.
  apply last_map_some in E. destruct E as [l E]. eauto 6.
Qed.

Lemma acts_rd : forall ex al s s',
  Forall (fun a => match a with Call _ => False | Change _ => True end) al ->
  acts ex al s = Some s' -> rd s' = rd s.
Proof.
  induction al as [|a r IH]; intros s s' F H; cbn [acts] in H.
  - injection H as <-. reflexivity.
  - apply Forall_cons_iff in F. destruct F as [F1 F2]. destruct a as [f|c]; [|contradiction].
    unbind H as w' E. apply IH in H; auto.
Qed.

Lemma hand_over_rd : forall s o p s1 n, hand_over s o p = Some (s1, n) -> rd s1 = rd s.
Proof.
  intros s o p s1 n H. destruct o as [a b|]; cbn [hand_over] in H; [|discriminate].
  unbind H as w' E. injection H as <- <-. reflexivity.
Qed.

Lemma hops_rd : forall ex q l b s s' out, no_calls b -> hops ex q l b s = Some (s', out) -> rd s' = rd s.
Proof.
  induction l as [|o r IH]; intros b s s' out F H.
  - destruct b; cbn [hops] in H; injection H as <- <-; reflexivity.
  - destruct b as [|[p al] b']; cbn [hops] in H; [discriminate|].
    apply Forall_cons_iff in F. destruct F as [F1 F2]. cbn [snd] in F1.
    unbind H as [s1 n] E1. unbind H as s2 E2. unbind H as [s3 o3] E3. injection H as <- <-.
    apply IH in E3; [|exact F2]. apply acts_rd in E2; [|exact F1]. apply hand_over_rd in E1. congruence.
Qed.

Lemma check_target : forall l o p, check_path p (l ++ [o]) = true -> exists a b, o = AstroSwap a b.
Proof.
  induction l as [|x r IH]; intros o p H; cbn [app check_path] in H.
  - destruct o; [eauto|discriminate].
  - destruct x; [|discriminate]. bools. eapply IH; eauto.
Qed.

Lemma assert_path : forall l, assert_operations l = true -> check_path None l = true.
Proof. intros l H. unfold assert_operations in H. bools. assumption. Qed.

(** ** C24: the receiver gets at least the minimum *)

(** Whatever the pairs and tokens do — arbitrary changes of all balances — a successful route increases the
    receiver's balance of the final asset by exactly the reported amount, which is at least the minimum. *)
Theorem c24_minimum_receive : forall fuel q b s s' got out,
  no_calls b -> exec fuel (Route q b) s = Some (s', got, out) ->
  exists a, final_asset (ops q) = Some a /\
    w s' a (receiver q) = w s a (receiver q) + got /\ 0 <= got /\
    (forall m, minimum q = Some m -> m <= got).
Proof.
  intros fuel q b s s' got out F H. destruct fuel as [|f]; [discriminate|]. cbn [exec] in H.
  unbind H as s0 E0. unbind H as [s1 o1] E1. unbind H as g E2. injection H as <- <- <-.
  apply begin_spec in E0. destruct E0 as [A [l [o [El ->]]]].
  apply hops_rd in E1; [|exact F]. cbn [rd] in E1.
  destruct (check_target l o None) as [x [y ->]]; [rewrite <- El; apply assert_path; exact A|].
  exists y. unfold final_asset. rewrite El, rev_app_distr. cbn [rev app].
  unfold reply in E2. rewrite E1 in E2. cbn [rd_asset rd_prev rd_min rd_receiver target] in E2.
  unbind E2 as d D. unguard E2 G. injection E2 as ->. num_inv.
  split; [reflexivity|]. repeat split; try lia.
  intros m Hm. rewrite Hm in G. bools. lia.
Qed.

(** A nested call of the router by one of the pairs (or tokens) replaces the stored request, and the check
    then concerns the nested request: the outer receiver can get nothing despite a positive minimum. *)
Definition is_route (c : call) (rcv m : Z) (a : asset) : Prop :=
  match c with Route q _ => receiver q = rcv /\ minimum q = Some m /\ final_asset (ops q) = Some a end.
Definition A1 := mkAsset true [97;97;97]. Definition B1 := mkAsset true [98;98;98]. Definition C1 := mkAsset true [99;99;99].
Definition start : world := fun a u => if asset_eqb a A1 && (u =? ROUTER) then 1000 else if (u =? 7) then 5000 else 0.
Theorem c24_reentrant_refuted : exists fuel c s s' got out rcv m a,
  is_route c rcv m a /\ 0 < m /\ rcv <> ROUTER /\
  exec fuel c s = Some (s', got, out) /\ w s' a rcv = w s a rcv /\ got = 0.
Proof.
  exists 3%nat.
  exists (Route (mkReq [AstroSwap A1 B1] (Some 900) 5 None)
    [(7, [Change (fun w0 => pay w0 B1 7 ROUTER 1); Call (Route (mkReq [AstroSwap B1 C1] None 8 None) [(9, [])])])]), (mkState start None).
  match goal with |- context [exec 3 ?c ?s0] => remember (exec 3 c s0) as r eqn:R end.
  assert (X : match r with Some (s', got, _) => w s' B1 5 = 0 /\ got = 0 | None => False end)
    by (rewrite R; vm_compute; auto).
  clear R. destruct r as [[[s' got] out]|]; [|contradiction]. destruct X as [X1 X2].
  exists s', got, out, 5, 900, B1.
  repeat split; try lia; try (intro Q; discriminate Q). exact X1.
Qed.

Example c24_example :
  exists f, let b := [(7, [Change f])] in no_calls b /\
    match exec 1 (Route (mkReq [AstroSwap A1 B1] (Some 900) 5 None) b) (mkState start None) with
    | Some (s', got, _) => w s' B1 5 = 950 /\ got = 950 | None => False end.
Proof.
  exists (fun w0 => pay w0 B1 7 5 950). cbn zeta. split.
  - repeat constructor.
  - vm_compute. auto.
Qed.

(** ** C25: exactly the well-formed routes are accepted *)

Lemma asset_eqb_iff : forall a b, asset_eqb a b = true <-> a = b.
Proof.
  intros [n i] [n' i']. unfold asset_eqb. cbn [native ident]. destruct (beq_spec i i') as [->|N].
  - rewrite andb_true_r, eqb_true_iff. split; [intros ->; reflexivity | congruence].
  - rewrite andb_false_r. split; [discriminate | congruence].
Qed.
Lemma asset_eqb_refl : forall a, asset_eqb a a = true.
Proof. intros a. apply asset_eqb_iff. reflexivity. Qed.
Lemma asset_eqb_neq : forall a b, asset_eqb a b = false <-> a <> b.
Proof. intros a b. rewrite <- asset_eqb_iff. destruct (asset_eqb a b); split; congruence. Qed.

Lemma check_path_iff : forall l a, check_path (Some a) l = true <->
  exists r, l = path_ops a r /\ no_repeat a r /\ Forall (fun x => asset_ok x = true) r /\
    (r <> [] -> asset_ok a = true).
Proof.
  induction l as [|o l IH]; intros a; cbn [check_path].
  - split; [intros _; exists []; cbn; repeat split; auto; congruence | auto].
  - destruct o as [x y|x y]; split.
    + intros H. bools. apply asset_eqb_iff in H1. subst x.
      apply IH in H0. destruct H0 as [r [-> [N [F K]]]].
      apply asset_eqb_neq in H2. exists (y :: r). cbn. auto 6.
    + intros [r [E [N [F K]]]]. destruct r as [|y' r]; [discriminate|]. cbn in E, N. injection E as -> -> ->.
      destruct N as [N1 N2]. apply Forall_cons_iff in F. destruct F as [F1 F2].
      rewrite K by discriminate. rewrite F1, asset_eqb_refl. rewrite (proj2 (asset_eqb_neq _ _) N1). cbn.
      apply IH. exists r. auto.
    + discriminate.
    + intros [r [E _]]. destruct r; discriminate.
Qed.

Lemma check_path_none : forall l, l <> [] -> (check_path None l = true <->
  exists a r, l = path_ops a r /\ no_repeat a r /\ Forall (fun x => asset_ok x = true) (a :: r)).
Proof.
  intros [|o l] NE; [congruence|]. destruct o as [x y|x y].
  - assert (E : check_path None (AstroSwap x y :: l) = check_path (Some x) (AstroSwap x y :: l)).
    { cbn [check_path]. rewrite asset_eqb_refl. reflexivity. }
    rewrite E, check_path_iff. split.
    + intros [r [E' [N [F K]]]]. exists x, r. repeat split; auto.
      constructor; auto. apply K. destruct r; discriminate.
    + intros [a [r [E' [N F]]]]. destruct r as [|b r]; [discriminate|]. cbn in E'. injection E' as -> -> ->.
      apply Forall_cons_iff in F. destruct F as [F1 F2]. exists (b :: r). auto.
  - cbn. split; [discriminate|]. intros [a [r [E _]]]. destruct r; discriminate.
Qed.

(** A route is accepted iff it consists of 1 to 50 swaps, each taking the asset the previous one gave, between
    valid assets, none into itself. *)
Theorem c25_route_exact : forall l, assert_operations l = true <->
  1 <= Z.of_nat (length l) <= 50 /\
  exists a r, l = path_ops a r /\ no_repeat a r /\ Forall (fun x => asset_ok x = true) (a :: r).
Proof.
  intros l. unfold assert_operations, MAX_SWAP_OPERATIONS. rewrite !andb_true_iff, !negb_true_iff.
  rewrite Z.eqb_neq, Z.ltb_ge. split.
  - intros [[H1 H2] H3]. split; [lia|]. apply check_path_none; auto. intros ->. cbn in H1. lia.
  - intros [H1 H2]. repeat split; try lia. apply check_path_none; auto. intros ->. cbn in H1. lia.
Qed.

(** Every successful execution and every answered simulation is of such a route. *)
Theorem c25_only_valid_routes : forall fuel q b s x, exec fuel (Route q b) s = Some x ->
  assert_operations (ops q) = true.
Proof.
  intros [|f] q b s x H; [discriminate|]. cbn [exec] in H. unbind H as s0 E0. apply begin_spec in E0. tauto.
Qed.
Theorem c25_simulated_routes : forall quote l n,
  (forall x, simulate quote l n = Some x -> assert_operations l = true) /\
  (forall x, simulate_reverse quote l n = Some x -> assert_operations l = true).
Proof.
  intros. unfold simulate, simulate_reverse. destruct (assert_operations l); split; intros; auto; discriminate.
Qed.

Example c25_example :
  assert_operations [AstroSwap A1 B1; AstroSwap B1 C1; AstroSwap C1 A1] = true /\
  assert_operations [AstroSwap A1 B1; AstroSwap A1 C1] = false.
Proof. vm_compute. auto. Qed.

(** ** C61: amounts along the route *)

Lemma pay_spec : forall w0 a f t n w1, pay w0 a f t n = Some w1 -> f <> t -> forall b u,
  w1 b u = w0 b u - (if asset_eqb a b && (u =? f) then n else 0) + (if asset_eqb a b && (u =? t) then n else 0).
Proof.
  intros w0 a f t n w1 H N b u. unfold pay in H. unguard H G. injection H as <-. unfold upd.
  destruct (asset_eqb a b) eqn:Q; cbn [andb]; [|lia]. apply asset_eqb_iff in Q. subst b.
  rewrite asset_eqb_refl. cbn [andb].
  destruct (Z.eqb_spec t u), (Z.eqb_spec f u), (Z.eqb_spec u f), (Z.eqb_spec u t), (Z.eqb_spec f t); subst; try lia.
Qed.

Lemma last_any : forall (A : Type) (r : list A) y d e, r <> [] -> List.last (y :: r) d = List.last r e.
Proof.
  induction r as [|z r IH]; intros y d e H; [congruence|]. destruct r as [|t r]; [reflexivity|].
  change (List.last (z :: t :: r) d = List.last (z :: t :: r) e).
  rewrite (IH z d d), (IH z e d) by discriminate. reflexivity.
Qed.

Lemma path_len : forall r a, length (path_ops a r) = length r.
Proof. induction r; intros; cbn; auto. Qed.

(** Along a path, with honest pairs: what each hop offers, what the router holds afterwards, what the
    receiver gets. *)
Lemma hops_honest : forall ex q r a b xs s s' out,
  receiver q <> ROUTER -> r <> [] -> honest (receiver q) (path_ops a r) b xs ->
  (forall c, c <> a -> w s c ROUTER = 0) ->
  hops ex q (path_ops a r) b s = Some (s', out) ->
  map s_amount out = w s a ROUTER :: removelast xs /\
  (forall c, w s' c ROUTER = 0) /\
  (forall c, w s' c (receiver q) = w s c (receiver q) + if asset_eqb (List.last r a) c then List.last xs 0 else 0) /\
  map s_op out = path_ops a r /\
  map s_to out = map (fun _ => ROUTER) (tl r) ++ [receiver q].
Proof.
  intros ex q. induction r as [|y r IH]; intros a b xs s s' out NR NE Hh Z0 H; [congruence|].
  cbn [path_ops] in Hh, H. destruct b as [|[p al] b]; [contradiction|].
  cbn [honest] in Hh. destruct al as [|[f|c] [|]]; try contradiction. destruct xs as [|x xs]; [contradiction|].
  destruct Hh as [P1 [P2 [X0 [Cr Hh]]]]. cbn [target] in Cr.
  cbn [hops hand_over] in H. unbind H as [s1 n] E1. unbind E1 as w1 E0. injection E1 as <- <-.
  cbn [acts w rd] in H. unbind H as s2 E2. unbind E2 as w2 E2'. injection E2 as <-.
  unbind H as [s3 o3] E3. injection H as <- <-.
  assert (K : forall c u, u = ROUTER \/ u = receiver q ->
     w2 c u = w s c u - (if asset_eqb a c && (u =? ROUTER) then w s a ROUTER else 0) +
              (if asset_eqb y c && (u =? match path_ops y r with [] => receiver q | _ => ROUTER end) then x else 0)).
  { intros c u U. rewrite (Cr _ _ E2' c u U). rewrite (pay_spec _ _ _ _ _ _ E0) by congruence.
    replace (u =? p) with false by (destruct U; subst u; symmetry; apply Z.eqb_neq; congruence).
    rewrite andb_false_r. lia. }
  destruct r as [|z r].
  - cbn [path_ops] in *. destruct b; [|contradiction]. destruct xs; [|contradiction].
    cbn [hops] in E3. injection E3 as <- <-. cbn [map s_amount s_op s_to removelast List.last tl app w].
    repeat split; auto.
    + intros c. rewrite K by auto. replace (ROUTER =? receiver q) with false by (symmetry; apply Z.eqb_neq; congruence).
      rewrite andb_false_r, Z.eqb_refl, andb_true_r. destruct (asset_eqb a c) eqn:Q.
      * apply asset_eqb_iff in Q. subst c. lia.
      * apply asset_eqb_neq in Q. rewrite Z0 by congruence. lia.
    + intros c. rewrite K by auto. rewrite Z.eqb_refl, andb_true_r.
      replace (receiver q =? ROUTER) with false by (symmetry; apply Z.eqb_neq; congruence).
      rewrite andb_false_r. lia.
  - assert (W : forall c, w2 c ROUTER = if asset_eqb y c then w s y ROUTER - (if asset_eqb a y then w s a ROUTER else 0) + x else 0).
    { intros c. rewrite K by auto. cbn [path_ops]. rewrite Z.eqb_refl, !andb_true_r. destruct (asset_eqb y c) eqn:Q.
      - apply asset_eqb_iff in Q. subst c. lia.
      - destruct (asset_eqb a c) eqn:Q2.
        + apply asset_eqb_iff in Q2. subst c. lia.
        + apply asset_eqb_neq in Q2. rewrite Z0 by congruence. lia. }
    assert (Wy : w2 y ROUTER = x).
    { rewrite W, asset_eqb_refl. destruct (asset_eqb a y) eqn:Q.
      - apply asset_eqb_iff in Q. subst y. lia.
      - apply asset_eqb_neq in Q. rewrite Z0 by congruence. lia. }
    apply (IH y b xs) in E3; auto; [|discriminate|].
    + destruct E3 as [I1 [I2 [I3 [I4 I5]]]]. cbn [w] in I1, I3.
      destruct xs as [|x' xs]; [cbn [path_ops honest] in Hh; destruct b as [|[? [|[] []]] ?]; contradiction|].
      cbn [map s_amount s_op s_to]. rewrite I1, I4, I5, Wy. cbn [path_ops].
      repeat split; auto. intros c. rewrite I3. rewrite K by auto. cbn [path_ops].
      replace (receiver q =? ROUTER) with false by (symmetry; apply Z.eqb_neq; congruence).
      rewrite !andb_false_r.
      replace (List.last (y :: z :: r) a) with (List.last (z :: r) y) by (symmetry; apply last_any; discriminate).
      replace (List.last (x :: x' :: xs) 0) with (List.last (x' :: xs) 0) by reflexivity. lia.
    + intros c Nc. cbn [w]. rewrite W. rewrite (proj2 (asset_eqb_neq y c)) by congruence. reflexivity.
Qed.

(** With honest pairs — each pays its return to the address named, and does nothing else to the balances of
    the router and the receiver — and a router holding nothing but the offer: every hop offers exactly what
    the previous one returned, the first one the whole offer; the receiver gets the last return and nothing
    else; the router keeps nothing. *)
Theorem c61_amounts : forall fuel q b s s' got out a r xs,
  ops q = path_ops a r -> receiver q <> ROUTER -> honest (receiver q) (ops q) b xs ->
  (forall c, c <> a -> w s c ROUTER = 0) ->
  exec fuel (Route q b) s = Some (s', got, out) ->
  map s_op out = ops q /\
  map s_amount out = w s a ROUTER :: removelast xs /\
  map s_to out = map (fun _ => ROUTER) (tl (ops q)) ++ [receiver q] /\
  got = List.last xs 0 /\
  (forall c, w s' c ROUTER = 0) /\
  (forall c, w s' c (receiver q) = w s c (receiver q) + if asset_eqb (List.last r a) c then got else 0).
Proof.
  intros fuel q b s s' got out a r xs Eq NR Hh Z0 H.
  assert (NC : no_calls b).
  { clear - Hh. revert b xs Hh. induction (ops q) as [|o l IH]; intros b xs Hh.
    - destruct b as [|[? [|[] []]] ?]; try contradiction. constructor.
    - cbn [honest] in Hh. destruct b as [|[p [|[f|c] [|]]] b]; try contradiction.
      destruct xs as [|x xs]; [contradiction|]. destruct Hh as [_ [_ [_ [_ Hh]]]].
      constructor; [repeat constructor|]. eapply IH; eauto. }
  pose proof (c24_minimum_receive _ _ _ _ _ _ _ NC H) as [t [Ft [Wt _]]].
  pose proof (c25_only_valid_routes _ _ _ _ _ H) as V. apply c25_route_exact in V. destruct V as [L _].
  destruct fuel as [|fu]; [discriminate|]. cbn [exec] in H.
  unbind H as s0 E0. unbind H as [s1 o1] E1. unbind H as g E2. injection H as <- <- <-.
  apply begin_spec in E0. destruct E0 as [_ [l0 [o0 [El ->]]]].
  rewrite Eq in *. rewrite path_len in L.
  assert (NE : r <> []) by (intros ->; cbn in L; lia).
  match type of E1 with hops _ _ _ _ ?x = _ =>
    destruct (hops_honest (exec fu) q r a b xs x s1 o1 NR NE Hh Z0 E1) as [I1 [I2 [I3 [I4 I5]]]] end.
  cbn [w] in *.
  assert (T : List.last r a = t).
  { clear - Ft NE. revert a Ft. induction r as [|y r IH]; intros a Ft; [congruence|].
    destruct r as [|z r].
    - cbn in Ft. injection Ft as <-. reflexivity.
    - rewrite (last_any _ (z :: r) y a y) by discriminate. apply IH; [discriminate|].
      unfold final_asset in *. cbn [path_ops rev] in *.
      destruct (rev (path_ops z r) ++ [AstroSwap y z]) as [|o l] eqn:Q; [destruct (rev (path_ops z r)); discriminate|].
      cbn [app] in Ft. exact Ft. }
  assert (G : g = List.last xs 0).
  { specialize (I3 t). rewrite T, asset_eqb_refl in I3. lia. }
  split; [exact I4|]. split; [exact I1|]. split.
  { rewrite I5. f_equal. destruct r as [|y r]; [congruence|]. cbn [path_ops tl]. clear.
    revert y. induction r as [|z r IH]; intros y; cbn; [reflexivity|]. f_equal. apply IH. }
  split; [exact G|]. split; [exact I2|]. intros c. rewrite I3, G. reflexivity.
Qed.

(** The simulation is exact for pairs that return what they quote: when every return is the quote for the
    amount offered, the simulated amount is the amount received. *)
Fixpoint as_quoted (quote : asset -> asset -> Z -> option Z) (a : asset) (r : list asset) (n : Z) (xs : list Z) : Prop :=
  match r, xs with
  | [], [] => True
  | b :: r', x :: xs' => quote a b n = Some x /\ as_quoted quote b r' x xs'
  | _, _ => False
  end.
Lemma simulate_path_quoted : forall quote r a n xs, as_quoted quote a r n xs ->
  simulate_path quote (path_ops a r) n = Some (List.last (n :: xs) 0).
Proof.
  induction r as [|b r IH]; intros a n xs H; destruct xs as [|x xs]; cbn [as_quoted] in H; try contradiction.
  - reflexivity.
  - destruct H as [Q H]. cbn [path_ops simulate_path]. rewrite Q. rewrite (IH _ _ _ H).
    reflexivity.
Qed.
Theorem c61_simulation : forall quote fuel q b s s' got out a r xs,
  ops q = path_ops a r -> receiver q <> ROUTER -> honest (receiver q) (ops q) b xs ->
  (forall c, c <> a -> w s c ROUTER = 0) -> as_quoted quote a r (w s a ROUTER) xs ->
  exec fuel (Route q b) s = Some (s', got, out) ->
  simulate quote (ops q) (w s a ROUTER) = Some got.
Proof.
  intros quote fuel q b s s' got out a r xs Eq NR Hh Z0 AQ H.
  pose proof (c25_only_valid_routes _ _ _ _ _ H) as V.
  destruct (c61_amounts _ _ _ _ _ _ _ _ _ _ Eq NR Hh Z0 H) as [_ [_ [_ [G _]]]].
  unfold simulate. rewrite V. rewrite Eq in *. rewrite (simulate_path_quoted _ _ _ _ _ AQ). f_equal.
  destruct r as [|y r]; [discriminate V|]. destruct xs as [|x xs]; [contradiction|].
  rewrite G. apply last_any. discriminate.
Qed.

(** Reverse simulation: the same walk backwards. *)
Theorem c61_reverse_simulation : forall quote l o n x,
  simulate_reverse quote (l ++ [o]) n = Some x ->
  exists a b y, o = AstroSwap a b /\ quote a b n = Some y /\ simulate_path quote (rev l) y = Some x.
Proof.
  intros quote l o n x H. unfold simulate_reverse in H. unguard H G. rewrite rev_app_distr in H. cbn [rev app] in H.
  destruct o as [a b|]; cbn [simulate_path] in H; [|discriminate]. unbind H as y E. eauto 6.
Qed.

Definition two_hops := mkReq [AstroSwap A1 B1; AstroSwap B1 C1] (Some 800) 5 (Some 1).
Definition two_b := [(7, [Change (fun w0 => pay w0 B1 7 ROUTER 900)]); (7, [Change (fun w0 => pay w0 C1 7 5 850)])].
Lemma pay_credits : forall a p t x rcv, p <> t -> p <> ROUTER -> p <> rcv ->
  credits (fun w0 => pay w0 a p t x) a t x rcv.
Proof.
  intros a p t x rcv N1 N2 N3 w0 w1 H b u U. rewrite (pay_spec _ _ _ _ _ _ H N1).
  replace (u =? p) with false by (symmetry; apply Z.eqb_neq; destruct U; congruence). rewrite andb_false_r. lia.
Qed.
Example c61_example : honest 5 (ops two_hops) two_b [900; 850] /\
  match exec 1 (Route two_hops two_b) (mkState start None) with
  | Some (s', got, out) => got = 850 /\ map s_amount out = [1000; 900] /\ w s' C1 5 = 850 | None => False end.
Proof.
  split; [|vm_compute; auto].
  cbn [ops two_hops two_b honest target]. unfold ROUTER.
  repeat split; try lia; apply pay_credits; unfold ROUTER; lia.
Qed.

(** ** C62: the spread limit is enforced on single-hop routes only *)

(** What the pairs are told: the caller's spread limit, with no belief price on a single-hop route; with the
    largest possible belief price on a longer one. *)
Lemma hops_sent : forall ex q l b s s' out, hops ex q l b s = Some (s', out) ->
  Forall (fun m => s_spread m = spread q /\ s_belief m = belief (Z.of_nat (length (ops q)) =? 1)) out /\
  length out = length l.
Proof.
  induction l as [|o r IH]; intros b s s' out H.
  - destruct b; cbn [hops] in H; injection H as <- <-; auto.
  - destruct b as [|[p al] b']; cbn [hops] in H; [discriminate|].
    unbind H as [s1 n] E1. unbind H as s2 E2. unbind H as [s3 o3] E3. injection H as <- <-.
    apply IH in E3. destruct E3 as [F Ln]. split; [constructor; auto | cbn; auto].
Qed.

Theorem c62_messages : forall fuel q b s s' got out,
  exec fuel (Route q b) s = Some (s', got, out) ->
  length out = length (ops q) /\
  Forall (fun m => s_spread m = spread q /\
    (length out = 1%nat -> s_belief m = None) /\
    (length out <> 1%nat -> s_belief m = Some (2 ^ 128 - 1))) out.
Proof.
  intros [|f] q b s s' got out H; [discriminate|]. cbn [exec] in H.
  unbind H as s0 E0. unbind H as [s1 o1] E1. unbind H as g E2. injection H as <- <- <-.
  apply hops_sent in E1. destruct E1 as [F Ln]. split; [exact Ln|]. rewrite <- Ln in F.
  eapply Forall_impl; [|exact F]. intros m [S B]. rewrite B. unfold belief.
  destruct (Z.eqb_spec (Z.of_nat (length o1)) 1); repeat split; auto; intros; try lia; reflexivity.
Qed.

(** With that belief price the constant-product pair's spread check passes whatever the outcome of the swap. *)
Theorem c62_no_spread_check : forall max offer gross spr,
  (forall m, max = Some m -> 0 <= m <= 500000000000000000) -> 0 <= offer -> 0 <= gross -> 0 <= spr ->
  XykModel.assert_max_spread (Some (2 ^ 128 - 1)) max offer gross spr = Some tt.
Proof.
  intros max offer gross spr M O G S. unfold XykModel.assert_max_spread.
  assert (B : match max with Some s => s | None => XykModel.DEFAULT_SLIPPAGE end <=? XykModel.MAX_ALLOWED_SLIPPAGE = true).
  { destruct max as [m|]; [apply Z.leb_le, M; reflexivity | reflexivity]. }
  rewrite B. replace (dinv (2 ^ 128 - 1)) with (Some 0) by reflexivity.
  replace (u128 0) with (Some 0) by reflexivity.
  replace (umul offer 0) with (Some 0) by (unfold umul; rewrite Z.mul_0_r; reflexivity).
  rewrite (proj2 (Z.ltb_ge gross 0)) by lia. reflexivity.
Qed.

(** A single-hop route is checked against the spread the pair computed (no belief price): a swap whose spread
    exceeds the limit fails. *)
Theorem c62_single_checked : forall max offer gross spr,
  0 <= gross -> 0 < spr -> 0 <= max ->
  XykModel.assert_max_spread None (Some max) offer gross spr = Some tt ->
  spr * DEC <= (max + 1) * (gross + spr).
Proof.
  intros max offer gross spr G S M H. unfold XykModel.assert_max_spread in H.
  unguard H G1. unbind H as tot E1. unbind H as r E2. unguard H G2. bools. num_inv. subst.
  pose proof (Z.div_mod (spr * DEC) (gross + spr)) as D.
  pose proof (Z.mod_pos_bound (spr * DEC) (gross + spr)) as B. nia.
Qed.

Example c62_example :
  match exec 1 (Route two_hops two_b) (mkState start None) with
  | Some (_, _, out) => map s_belief out = [Some (2 ^ 128 - 1); Some (2 ^ 128 - 1)] /\ map s_spread out = [Some 1; Some 1]
  | None => False end /\
  XykModel.assert_max_spread (Some (2 ^ 128 - 1)) (Some 1) 1000000 1 999999 = Some tt /\
  XykModel.assert_max_spread None (Some 1) 1000000 1 999999 = None.
Proof. vm_compute. auto. Qed.

Print Assumptions c24_minimum_receive.
Print Assumptions c24_reentrant_refuted.
Print Assumptions c25_route_exact.
Print Assumptions c61_amounts.
Print Assumptions c61_simulation.
Print Assumptions c62_messages.
Print Assumptions c62_no_spread_check.
Print Assumptions c62_single_checked.
Print Assumptions c25_only_valid_routes.
Print Assumptions c25_simulated_routes.
Print Assumptions c61_reverse_simulation.
