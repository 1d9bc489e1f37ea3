(** Proofs for C138. *)
From Coq Require Import ZArith Lia Bool List.
From Verif Require Import Num Bytes FactoryModel RouterModel RouterProps.
From Verif Require XykModel XykSpec XykProofs XykProps XykExitProps.
From Verif Require Import RouteWorldModel RouteWorldSpec.
Import ListNotations.
Open Scope Z_scope.

(** ** Finding and replacing pairs *)
Definition renew (p : pool) (s : XykModel.state) : pool := mkP (addr p) (pa0 p) (pa1 p) s (share_to p) (fees_of p).
Lemma lookup_in w x y p : lookup w x y = Some p -> In p (pools w) /\ is_pair x y p = true.
Proof. apply find_some. Qed.
Lemma put_addrs p l : map addr (put p l) = map addr l.
Proof. unfold put. rewrite map_map. apply map_ext. intros r. destruct (Z.eqb_spec (addr r) (addr p)); auto. Qed.
Lemma nodup_addr (l : list pool) p p' : NoDup (map addr l) -> In p l -> In p' l -> addr p = addr p' -> p = p'.
Proof.
  induction l as [|r l IH]; cbn; intros N I I' E; [contradiction|]. inversion N as [|a b N1 N2]; subst.
  destruct I as [->|I], I' as [->|I']; auto; exfalso; apply N1; [rewrite E|rewrite <- E]; apply in_map; auto.
Qed.
Lemma put_find x y p s l : NoDup (map addr l) -> In p l ->
  List.find (is_pair x y) (put (renew p s) l) =
  option_map (fun r => if addr r =? addr p then renew p s else r) (List.find (is_pair x y) l).
Proof.
  intros N I. assert (K : forall r, In r l -> addr r = addr p -> r = p) by (intros r Hr E; eapply nodup_addr; eauto).
  clear N I. induction l as [|r l IH]; [reflexivity|]. cbn [put map List.find]. change (addr (renew p s)) with (addr p).
  assert (Q : is_pair x y (if addr r =? addr p then renew p s else r) = is_pair x y r).
  { destruct (Z.eqb_spec (addr r) (addr p)) as [E|]; [|reflexivity]. rewrite (K r (or_introl eq_refl) E). reflexivity. }
  rewrite Q. destruct (is_pair x y r); [reflexivity|]. apply IH. intros r' Hr. apply K. right. exact Hr.
Qed.
Lemma put_in p s l r : NoDup (map addr l) -> In p l -> In r (put (renew p s) l) ->
  exists r0, In r0 l /\ addr r = addr r0 /\ pa0 r = pa0 r0 /\ pa1 r = pa1 r0 /\ share_to r = share_to r0.
Proof.
  intros N I H. unfold put in H. apply in_map_iff in H. destruct H as (r0 & E & H). exists r0. split; [exact H|].
  change (addr (renew p s)) with (addr p) in E. destruct (Z.eqb_spec (addr r0) (addr p)) as [A|]; subst r; [|auto].
  rewrite (nodup_addr _ _ _ N H I A). cbn. auto.
Qed.
Lemma put_pools (P : pool -> Prop) p s l : NoDup (map addr l) -> In p l ->
  (forall r r0, addr r = addr r0 -> pa0 r = pa0 r0 -> pa1 r = pa1 r0 -> share_to r = share_to r0 -> P r0 -> P r) ->
  Forall P l -> Forall P (put (renew p s) l).
Proof.
  intros N I C F. apply Forall_forall. intros r H. destruct (put_in _ _ _ _ N I H) as (r0 & H0 & A & B & B' & D).
  apply (C r r0 A B B' D). eapply Forall_forall; eauto.
Qed.
Lemma apart_put e q b b' l p s : apart e q (mkW b l) -> In p l -> apart e q (mkW b' (put (renew p s) l)).
Proof.
  intros (N & R & M & M' & F) I. cbn [pools] in *. unfold apart. cbn [pools]. rewrite put_addrs. repeat (split; [assumption|]).
  apply put_pools; auto.
  - intros r r0 -> -> -> ->. auto.
  - eapply Forall_impl; [|exact F]. intros r (A & B & C & D & X & Y & Z). repeat (split; [assumption|]).
    apply put_pools; auto. intros r1 r0 -> _ _ _. auto.
Qed.

(** ** What one hop does *)
Lemma pay_ok w0 a f t n : 0 <= n <= w0 a f -> exists w1, pay w0 a f t n = Some w1.
Proof.
  intros H. unfold pay. rewrite (proj2 (Z.leb_le 0 n)), (proj2 (Z.leb_le n (w0 a f))) by lia. cbn [andb]. eexists. reflexivity.
Qed.
Definition moved (e : env) (p : pool) (offer ask : asset) (to amount : Z) (so : XykModel.swap_out) (b b' : RouterModel.world) : Prop :=
  forall x u, b' x u = b x u
    + (if asset_eqb offer x then (if u =? addr p then amount else 0) - (if u =? ROUTER then amount else 0) else 0)
    + (if asset_eqb ask x then (if u =? to then XykModel.so_return so else 0) + (if u =? share_to p then XykModel.so_share so else 0)
         + (if u =? maker e then XykModel.so_maker so else 0)
         - (if u =? addr p then XykModel.so_return so + XykModel.so_share so + XykModel.so_maker so else 0) else 0).
Lemma is_pair_neq x y p : is_pair x y p = true -> pa0 p <> pa1 p -> x <> y.
Proof. unfold is_pair. intros H N. apply orb_true_iff in H. rewrite !andb_true_iff, !asset_eqb_iff in H. destruct H as [[-> ->]|[-> ->]]; congruence. Qed.
Lemma hop_inv e x y to blf spr w w' : hop e (AstroSwap x y) to blf spr w = Some w' -> exists p s' so b,
  lookup w x y = Some p /\
  XykModel.step (xenv e p) (XykModel.Swap (asset_eqb x (pa1 p)) (bal w x ROUTER) blf spr) (sync (bal w) p) = Some (s', XykModel.OSwap so) /\
  w' = mkW b (put (renew p s') (pools w)) /\
  (addr p <> ROUTER -> addr p <> to -> addr p <> share_to p -> addr p <> maker e -> moved e p x y to (bal w x ROUTER) so (bal w) b).
Proof.
  intros H. cbn [hop] in H. unbind H as p E0. cbv zeta in H. unbind H as [s' r] E1. destruct r as [| |so|]; try discriminate.
  unbind H as b1 P1. unbind H as b2 P2. unbind H as b3 P3. unbind H as b4 P4. injection H as <-.
  exists p, s', so, b4. split; [reflexivity|]. split; [assumption|]. split; [reflexivity|].
  intros A1 A2 A3 A4 z u. rewrite (pay_spec _ _ _ _ _ _ P4 A4), (pay_spec _ _ _ _ _ _ P3 A3), (pay_spec _ _ _ _ _ _ P2 A2), (pay_spec _ _ _ _ _ _ P1 (not_eq_sym A1)).
  destruct (asset_eqb x z), (asset_eqb y z); cbn [andb];
    destruct (u =? addr p), (u =? ROUTER), (u =? to), (u =? share_to p), (u =? maker e); lia.
Qed.
(** The pair answers the simulation with what it pays. *)
Lemma hop_quote e x y blf spr w p s' so a : lookup w x y = Some p ->
  XykModel.step (xenv e p) (XykModel.Swap (asset_eqb x (pa1 p)) a blf spr) (sync (bal w) p) = Some (s', XykModel.OSwap so) ->
  quote e w x y a = Some (XykModel.so_return so).
Proof.
  intros L H. cbn [XykModel.step] in H. unguard H G. apply XykProps.c09_simulation_exact in H. unfold quote, quote3. rewrite L, H. reflexivity.
Qed.

(** Pairs that a route is still to visit are as they were at its start. *)
Definition same (w w0 : world) (l : list op) : Prop :=
  forall x y, In (AstroSwap x y) l -> lookup w x y = lookup w0 x y /\
    (forall p, lookup w0 x y = Some p -> forall z, bal w z (addr p) = bal w0 z (addr p)).
Lemma visited_in w x y p l : In (AstroSwap x y) l -> lookup w x y = Some p -> In (addr p) (visited w l).
Proof.
  induction l as [|o l IH]; [contradiction|]. intros [->|H] L; cbn [visited].
  - rewrite L. left. reflexivity.
  - destruct o as [a b|]; [|auto]. destruct (lookup w a b); [right|]; auto.
Qed.
Lemma same_quote e w w0 x y l a : same w w0 l -> In (AstroSwap x y) l -> quote3 e w x y a = quote3 e w0 x y a.
Proof.
  intros S I. destruct (S x y I) as (L & B). unfold quote3. rewrite L. destruct (lookup w0 x y) as [p|]; [|reflexivity].
  unfold XykModel.query_simulation, sync. cbn [XykModel.r0 XykModel.r1]. rewrite !(B p eq_refl). reflexivity.
Qed.
Lemma same_step e q w w0 x y l p s so b to : apart e q w -> to = ROUTER \/ to = receiver q -> lookup w x y = Some p ->
  same w w0 (AstroSwap x y :: l) -> NoDup (visited w0 (AstroSwap x y :: l)) ->
  moved e p x y to (bal w x ROUTER) so (bal w) b -> same (mkW b (put (renew p s) (pools w))) w0 l.
Proof.
  intros (N & R & M & M' & F) T L S D V x' y' I. destruct (S x y (or_introl eq_refl)) as (L0 & _). rewrite L in L0. symmetry in L0.
  cbn [visited] in D. rewrite L0 in D. inversion D as [|? ? D1 _]; subst. destruct (S x' y' (or_intror I)) as (L1 & B1).
  destruct (lookup_in _ _ _ _ L) as (Ip & _). split.
  - unfold lookup. cbn [pools]. rewrite put_find by assumption. fold (lookup w x' y'). fold (lookup w0 x' y'). rewrite L1.
    destruct (lookup w0 x' y') as [p'|] eqn:E; [|reflexivity]. cbn [option_map]. destruct (Z.eqb_spec (addr p') (addr p)) as [A|]; [|reflexivity].
    exfalso. apply D1. rewrite <- A. eapply visited_in; eauto.
  - intros p' E z. cbn [bal]. rewrite V, <- (B1 p' E). rewrite E in L1. destruct (lookup_in _ _ _ _ L1) as (Ip' & _).
    assert (A : addr p' <> addr p). { intros A. apply D1. rewrite <- A. eapply visited_in; eauto. }
    rewrite Forall_forall in F. destruct (F _ Ip') as (A1 & A2 & A3 & _). destruct (F _ Ip) as (_ & _ & _ & _ & _ & _ & A4).
    rewrite Forall_forall in A4. specialize (A4 _ Ip').
    destruct (Z.eqb_spec (addr p') (addr p)); [congruence|]. destruct (Z.eqb_spec (addr p') ROUTER); [congruence|].
    destruct (Z.eqb_spec (addr p') to); [destruct T; congruence|]. destruct (Z.eqb_spec (addr p') (share_to p)); [congruence|].
    destruct (Z.eqb_spec (addr p') (maker e)); [congruence|]. destruct (asset_eqb x z), (asset_eqb y z); lia.
Qed.

(** Everything a hop does to the accounts that matter. *)
Lemma hop_facts e q x y to blf spr w w' : apart e q w -> to = ROUTER \/ to = receiver q -> hop e (AstroSwap x y) to blf spr w = Some w' ->
  exists p s' so b, lookup w x y = Some p /\ In p (pools w) /\ x <> y /\ w' = mkW b (put (renew p s') (pools w)) /\ apart e q w' /\
    quote e w x y (bal w x ROUTER) = Some (XykModel.so_return so) /\
    moved e p x y to (bal w x ROUTER) so (bal w) b /\
    (forall z, bal w' z ROUTER = (if asset_eqb x z then 0 else bal w z ROUTER) + (if asset_eqb y z && (to =? ROUTER) then XykModel.so_return so else 0)) /\
    (forall z, bal w' z (receiver q) = bal w z (receiver q) + (if asset_eqb y z && (to =? receiver q) then XykModel.so_return so else 0)).
Proof.
  intros A T H. destruct (hop_inv _ _ _ _ _ _ _ _ H) as (p & s' & so & b & L & St & -> & V).
  destruct (lookup_in _ _ _ _ L) as (Ip & Q). pose proof A as (N & R & M & M' & F). rewrite Forall_forall in F.
  destruct (F _ Ip) as (A1 & A2 & A3 & A4 & A5 & A6 & A7). rewrite Forall_forall in A7.
  assert (At : addr p <> to) by (destruct T; congruence). specialize (V A1 At (A7 _ Ip) A3).
  assert (X : x <> y) by (eapply is_pair_neq; eauto).
  exists p, s', so, b. split; [exact L|]. split; [exact Ip|]. split; [exact X|]. split; [reflexivity|].
  split; [destruct w; eapply apart_put; eauto|]. split; [eapply hop_quote; eauto|]. split; [exact V|]. cbn [bal]. split; intros z; rewrite V.
  - rewrite Z.eqb_refl. destruct (Z.eqb_spec ROUTER (addr p)); [congruence|]. destruct (Z.eqb_spec ROUTER (share_to p)); [congruence|].
    destruct (Z.eqb_spec ROUTER (maker e)); [congruence|]. rewrite (Z.eqb_sym to). destruct (asset_eqb x z) eqn:Ez; [apply asset_eqb_iff in Ez; subst z|];
      destruct (asset_eqb y _), (ROUTER =? to); cbn [andb]; lia.
  - destruct (Z.eqb_spec (receiver q) (addr p)); [congruence|]. destruct (Z.eqb_spec (receiver q) (share_to p)); [congruence|].
    destruct (Z.eqb_spec (receiver q) (maker e)); [congruence|]. destruct (Z.eqb_spec (receiver q) ROUTER); [congruence|]. rewrite (Z.eqb_sym to).
    destruct (asset_eqb x z), (asset_eqb y z), (receiver q =? to); cbn [andb]; lia.
Qed.

(** The last asset of a path. *)
Fixpoint end_of (a : asset) (l : list op) : asset := match l with AstroSwap _ y :: r => end_of y r | _ :: r => end_of a r | [] => a end.

Lemma hops_sim e q w0 : forall l w w' cur, l <> [] -> apart e q w -> same w w0 l -> NoDup (visited w0 l) -> check_path (Some cur) l = true ->
  clean cur w -> hops e q l w = Some w' ->
  exists got, simulate_path (quote e w0) l (bal w cur ROUTER) = Some got /\
    (forall z, bal w' z (receiver q) = bal w z (receiver q) + (if asset_eqb (end_of cur l) z then got else 0)) /\
    (forall z, bal w' z ROUTER = 0).
Proof.
  induction l as [|o l IH]; intros w w' cur Nl A S D C Cl H; [congruence|]. clear Nl. destruct o as [x y|]; [|discriminate].
  cbn [check_path] in C. apply andb_true_iff in C. destruct C as (C & C'). apply andb_true_iff in C. destruct C as (_ & C).
  apply asset_eqb_iff in C. subst cur. cbn [hops] in H. unbind H as w1 E1.
  set (to := match l with [] => receiver q | _ => ROUTER end) in *.
  assert (T : to = ROUTER \/ to = receiver q) by (unfold to; destruct l; auto).
  destruct (hop_facts _ _ _ _ _ _ _ _ _ A T E1) as (p & s' & so & b & L & Ip & X & Ew & A' & Qt & V & B1 & B2).
  assert (Qt0 : quote e w0 x y (bal w x ROUTER) = Some (XykModel.so_return so)).
  { rewrite <- Qt. unfold quote. rewrite (same_quote e w w0 x y _ _ S (or_introl eq_refl)). reflexivity. }
  cbn [simulate_path end_of]. rewrite Qt0. destruct l as [|o' l'].
  - cbn [hops] in H. injection H as <-. exists (XykModel.so_return so). split; [reflexivity|]. subst to. split; intros z.
    + rewrite B2, Z.eqb_refl, andb_true_r. reflexivity.
    + rewrite B1. destruct A as (_ & R & _). destruct (Z.eqb_spec (receiver q) ROUTER); [congruence|]. rewrite andb_false_r.
      destruct (asset_eqb x z) eqn:Ez; [lia|]. apply asset_eqb_neq in Ez. rewrite (Cl z) by congruence. lia.
  - assert (S1 : same w1 w0 (o' :: l')) by (subst w1; eapply same_step; eauto).
    assert (D1 : NoDup (visited w0 (o' :: l'))). { cbn [visited] in D. destruct (S x y (or_introl eq_refl)) as (L0 & _). rewrite L in L0. rewrite <- L0 in D. inversion D; auto. }
    assert (Cl1 : clean y w1). { intros z Nz. rewrite B1. destruct (asset_eqb y z) eqn:Ez; [apply asset_eqb_iff in Ez; congruence|]. cbn [andb].
      destruct (asset_eqb x z) eqn:Ex; [lia|]. apply asset_eqb_neq in Ex. rewrite (Cl z) by congruence. lia. }
    destruct (IH w1 w' y ltac:(discriminate) A' S1 D1 C' Cl1 H) as (got & G1 & G2 & G3). exists got.
    assert (By : bal w1 y ROUTER = XykModel.so_return so).
    { rewrite B1. destruct (asset_eqb x y) eqn:Ez; [apply asset_eqb_iff in Ez; congruence|]. rewrite (Cl y) by congruence. rewrite asset_eqb_refl. subst to. cbn. lia. }
    rewrite By in G1. split; [exact G1|]. split; [|exact G3]. intros z. rewrite G2, B2. destruct A as (_ & R & _). subst to.
    destruct (Z.eqb_spec ROUTER (receiver q)); [congruence|]. rewrite andb_false_r. lia.
Qed.

Lemma end_last x l : l <> [] -> (forall o, In o l -> exists a b, o = AstroSwap a b) -> List.last (map Some l) None = Some (AstroSwap x (end_of x l)) \/
  exists a, List.last (map Some l) None = Some (AstroSwap a (end_of x l)).
Proof.
  revert x. induction l as [|o l IH]; intros x N F; [congruence|]. right. destruct (F o (or_introl eq_refl)) as (a & b & ->).
  destruct l as [|o' l']; [exists a; reflexivity|]. destruct (IH b ltac:(discriminate) (fun o H => F o (or_intror H))) as [E|(a' & E)]; eexists; exact E.
Qed.
Lemma path_swaps c l : check_path c l = true -> forall o, In o l -> exists a b, o = AstroSwap a b.
Proof.
  revert c. induction l as [|o l IH]; intros c H o' I; [contradiction|]. destruct o as [x y|]; [|discriminate]. cbn [check_path] in H.
  apply andb_true_iff in H. destruct H as (_ & H). destruct I as [<-|I]; [eauto|eapply IH; eauto].
Qed.
Lemma begin_inv b q s0 : begin (mkState b None) q = Some s0 -> exists x, assert_operations (ops q) = true /\ ops q <> [] /\ first_offer (ops q) = Some x /\
  check_path (Some x) (ops q) = true /\
  s0 = mkState b (Some (mkRD (end_of x (ops q)) (b (end_of x (ops q)) (receiver q)) (minimum q) (receiver q))).
Proof.
  intros H. unfold begin in H. unguard H G. unbind H as o L. injection H as <-. pose proof G as G'. unfold assert_operations in G. apply andb_true_iff in G. destruct G as (G & P).
  apply andb_true_iff in G. destruct G as (G1 & _). destruct (ops q) as [|[x y|d1 d2] r] eqn:E; [discriminate| |discriminate].
  exists x. split; [first [exact G'|reflexivity]|]. split; [discriminate|]. split; [reflexivity|]. split.
  - cbn [check_path] in P |- *. rewrite asset_eqb_refl. exact P.
  - destruct (end_last x (AstroSwap x y :: r) ltac:(discriminate) (path_swaps _ _ P)) as [E1|(a & E1)]; rewrite E1 in L; injection L as <-; reflexivity.
Qed.
Lemma same_refl w l : same w w l.
Proof. intros x y _. split; auto. Qed.

(** ** When a hop succeeds *)
Lemma upd_ok e w p : ready e w p -> XykModel.upd_prices (xenv e p) (sync (bal w) p) <> None.
Proof.
  intros (_ & _ & _ & P0 & P1 & A). cbv zeta in *. unfold XykModel.upd_prices, XykModel.accumulate_prices, sync, xenv. cbn [XykModel.now XykModel.last_t XykModel.c0 XykModel.c1 XykModel.r0 XykModel.r1].
  set (x := bal w (pa0 p) (addr p)) in *. set (y := bal w (pa1 p) (addr p)) in *. set (t := now e - XykModel.last_t (st p)) in *.
  destruct (Z.leb_spec (now e) (XykModel.last_t (st p))); [discriminate|].
  destruct (Z.eqb_spec x 0) as [|N0]; [discriminate|]. destruct (Z.eqb_spec y 0) as [|N1]; [discriminate|]. cbn [negb andb].
  destruct A as [A|[A|[A|(A1 & A2 & A3)]]]; try lia.
  assert (Q0 : 0 <= t * 10 ^ 6 * y / x) by (apply Z.div_pos; nia). assert (Q1 : 0 <= t * 10 ^ 6 * x / y) by (apply Z.div_pos; nia).
  assert (E1 : mul128 t XykModel.TWAP_UNIT = Some (t * 10 ^ 6)). { apply mul128_Some. unfold XykModel.TWAP_UNIT, U128MAX in *. lia. }
  rewrite E1. assert (E2 : muldiv128 (t * 10 ^ 6) y x = Some (t * 10 ^ 6 * y / x)). { apply muldiv128_Some. unfold U128MAX. lia. }
  assert (E3 : muldiv128 (t * 10 ^ 6) x y = Some (t * 10 ^ 6 * x / y)). { apply muldiv128_Some. unfold U128MAX. lia. }
  rewrite E2, E3. discriminate.
Qed.
Lemma one_side x y p : is_pair x y p = true -> pa0 p <> pa1 p ->
  x = pa1 p /\ y = pa0 p /\ asset_eqb x (pa1 p) = true \/ x = pa0 p /\ y = pa1 p /\ asset_eqb x (pa1 p) = false.
Proof.
  unfold is_pair. intros H N. apply orb_true_iff in H. rewrite !andb_true_iff, !asset_eqb_iff in H. destruct H as [[-> ->]|[-> ->]]; [right|left].
  - split; [reflexivity|]. split; [reflexivity|]. apply asset_eqb_neq. exact N.
  - rewrite asset_eqb_refl. auto.
Qed.
Lemma swap_ok e w p one a blf spr ret sp com : ready e w p -> 0 < a < 2 ^ 127 ->
  XykModel.query_simulation (xenv e p) (sync (bal w) p) one a = Some (ret, sp, com) ->
  XykModel.assert_max_spread blf spr a (ret + com) sp = Some tt ->
  exists s' so, XykModel.step (xenv e p) (XykModel.Swap one a blf spr) (sync (bal w) p) = Some (s', XykModel.OSwap so) /\
    XykModel.so_return so = ret /\ 0 <= XykModel.so_return so /\ 0 <= XykModel.so_share so /\ 0 <= XykModel.so_maker so /\
    XykModel.so_return so + XykModel.so_share so + XykModel.so_maker so <= (if one then bal w (pa0 p) (addr p) else bal w (pa1 p) (addr p)).
Proof.
  intros Rd Ha Hq Hs. pose proof Rd as (F1 & F2 & F3 & P0 & P1 & _). cbv zeta in *. pose proof (upd_ok _ _ _ Rd) as Up.
  unfold XykModel.query_simulation, sync, xenv in Hq. cbn [XykModel.r0 XykModel.r1 XykModel.fees] in Hq.
  set (o := if one then bal w (pa1 p) (addr p) else bal w (pa0 p) (addr p)) in *.
  set (x := if one then bal w (pa0 p) (addr p) else bal w (pa1 p) (addr p)) in *.
  assert (Bo : 0 <= o < 2 ^ 127) by (unfold o; destruct one; lia). assert (Bx : 0 <= x < 2 ^ 127) by (unfold x; destruct one; lia).
  pose proof (XykProofs.compute_swap_inv _ _ _ _ _ _ _ Hq ltac:(lia) ltac:(lia) ltac:(lia)) as C. cbv zeta in C.
  destruct C as (C1 & C2 & _ & C4 & C5 & C6 & C7 & C8 & _).
  destruct (XykProofs.swap_core o x a C1 C2 ltac:(lia)) as (Cg & _). cbv zeta in Cg. rewrite <- C5 in Cg.
  cbn [XykModel.step]. rewrite (proj2 (Z.ltb_lt 0 a)) by lia. unfold XykModel.swap. cbv zeta.
  change (XykModel.r1 (sync (bal w) p)) with (bal w (pa1 p) (addr p)). change (XykModel.r0 (sync (bal w) p)) with (bal w (pa0 p) (addr p)).
  change (XykModel.fshare (sync (bal w) p)) with (XykModel.fshare (st p)). change (XykModel.fees (xenv e p)) with (fees_of p). fold o. fold x.
  unfold XykModel.swap_amounts. rewrite Hq. assert (E1 : add128 ret com = Some (ret + com)). { apply add128_Some. unfold U128MAX. lia. }
  rewrite E1, Hs.
  assert (Sh : exists shr, (match XykModel.fshare (st p) with Some b => do rate <- dratio b 10000; umul com rate | None => Some 0 end) = Some shr /\ 0 <= shr <= com).
  { destruct (XykModel.fshare (st p)) as [bp|]; [|exists 0; split; [reflexivity|lia]].
    assert (D : 0 <= bp * DEC / 10000 <= DEC). { split; [apply Z.div_pos; unfold DEC; lia|apply Z.div_le_upper_bound; unfold DEC; lia]. }
    assert (E2 : dratio bp 10000 = Some (bp * DEC / 10000)). { apply dratio_Some. unfold U128MAX, DEC in *. lia. }
    rewrite E2. pose proof (XykProofs.frac_le com (bp * DEC / 10000) ltac:(lia) ltac:(lia)). exists (com * (bp * DEC / 10000) / DEC). split; [apply umul_Some; unfold U128MAX in *; lia|lia]. }
  destruct Sh as (shr & Es & Bs). rewrite Es.
  assert (Mk : exists mk, (if XykModel.maker_on (fees_of p) then umul (ssub com shr) (XykModel.maker_rate (fees_of p)) else Some 0) = Some mk /\ 0 <= mk <= com - shr).
  { destruct (XykModel.maker_on (fees_of p)); [|exists 0; split; [reflexivity|lia]]. unfold ssub. rewrite Z.max_r by lia.
    pose proof (XykProofs.frac_le (com - shr) (XykModel.maker_rate (fees_of p)) ltac:(lia) ltac:(unfold DEC; lia)).
    eexists. split; [apply umul_Some; split; [reflexivity|unfold U128MAX in *; lia]|lia]. }
  destruct Mk as (mk & Em & Bm). rewrite Em. cbn [XykModel.so_return XykModel.so_maker XykModel.so_share].
  assert (A1 : add128 o a = Some (o + a)) by (apply add128_Some; unfold U128MAX; lia).
  assert (S1 : sub128 x ret = Some (x - ret)) by (apply sub128_Some; unfold U128MAX; lia).
  assert (S2 : sub128 (x - ret) mk = Some (x - ret - mk)) by (apply sub128_Some; unfold U128MAX; lia).
  assert (S3 : sub128 (x - ret - mk) shr = Some (x - ret - mk - shr)) by (apply sub128_Some; unfold U128MAX; lia).
  rewrite A1, S1, S2, S3. destruct (XykModel.upd_prices (xenv e p) (sync (bal w) p)) as [[[c0' c1'] t']|]; [|congruence].
  destruct (XykModel.track_save _ _ _ _) as [h0' h1']. do 2 eexists. split; [reflexivity|]. cbn. lia.
Qed.

Lemma hop_ok e q x y to blf w p ret sp com : apart e q w -> to = ROUTER \/ to = receiver q -> lookup w x y = Some p -> ready e w p ->
  0 < bal w x ROUTER < 2 ^ 127 -> quote3 e w x y (bal w x ROUTER) = Some (ret, sp, com) ->
  XykModel.assert_max_spread blf (spread q) (bal w x ROUTER) (ret + com) sp = Some tt ->
  ret < 2 ^ 127 /\ exists w', hop e (AstroSwap x y) to blf (spread q) w = Some w'.
Proof.
  intros A T L Rd Ha Hq Hs. destruct (lookup_in _ _ _ _ L) as (Ip & Q). pose proof A as (N & R & M & M' & F). rewrite Forall_forall in F.
  destruct (F _ Ip) as (A1 & A2 & A3 & A4 & A5 & A6 & A7). rewrite Forall_forall in A7. pose proof (A7 _ Ip) as A8.
  assert (At : addr p <> to) by (destruct T; congruence).
  unfold quote3 in Hq. rewrite L in Hq. destruct (swap_ok _ _ _ _ _ _ _ _ _ _ Rd Ha Hq Hs) as (s' & so & Es & Er & B0 & B1 & B2 & B3).
  assert (X : x <> y) by (eapply is_pair_neq; eauto).
  assert (By : (if asset_eqb x (pa1 p) then bal w (pa0 p) (addr p) else bal w (pa1 p) (addr p)) = bal w y (addr p)).
  { destruct (one_side x y p Q A4) as [(_ & -> & E)|(_ & -> & E)]; rewrite E; reflexivity. }
  rewrite By in B3. assert (Xy : asset_eqb x y = false) by (apply asset_eqb_neq; exact X). split.
  - destruct Rd as (_ & _ & _ & P0 & P1 & _). cbv zeta in *. destruct (asset_eqb x (pa1 p)); rewrite <- By in B3; lia.
  - cbn [hop]. rewrite L. cbv zeta. rewrite Es. destruct (pay_ok (bal w) x ROUTER (addr p) (bal w x ROUTER)) as (b1 & P1); [lia|]. rewrite P1.
    pose proof (pay_spec _ _ _ _ _ _ P1 (not_eq_sym A1)) as V1.
    assert (H1 : b1 y (addr p) = bal w y (addr p)) by (rewrite V1, Xy; cbn [andb]; lia).
    destruct (pay_ok b1 y (addr p) to (XykModel.so_return so)) as (b2 & P2); [lia|]. rewrite P2. pose proof (pay_spec _ _ _ _ _ _ P2 At) as V2.
    assert (H2 : b2 y (addr p) = bal w y (addr p) - XykModel.so_return so).
    { rewrite V2, asset_eqb_refl, Z.eqb_refl. cbn [andb]. destruct (Z.eqb_spec (addr p) to); [congruence|]. lia. }
    destruct (pay_ok b2 y (addr p) (share_to p) (XykModel.so_share so)) as (b3 & P3); [lia|]. rewrite P3. pose proof (pay_spec _ _ _ _ _ _ P3 A8) as V3.
    assert (H3 : b3 y (addr p) = bal w y (addr p) - XykModel.so_return so - XykModel.so_share so).
    { rewrite V3, asset_eqb_refl, Z.eqb_refl. cbn [andb]. destruct (Z.eqb_spec (addr p) (share_to p)); [congruence|]. lia. }
    destruct (pay_ok b3 y (addr p) (maker e) (XykModel.so_maker so)) as (b4 & P4); [lia|]. rewrite P4. eexists. reflexivity.
Qed.
Lemma same_ready e w w0 l x y p : same w w0 l -> In (AstroSwap x y) l -> lookup w0 x y = Some p -> ready e w0 p -> ready e w p.
Proof. intros S I L. destruct (S x y I) as (_ & B). unfold ready. rewrite !(B p L). auto. Qed.

Lemma hops_ok e q w0 : forall l w cur x, l <> [] -> apart e q w -> same w w0 l -> NoDup (visited w0 l) -> check_path (Some cur) l = true ->
  clean cur w -> (forall a b p, In (AstroSwap a b) l -> lookup w0 a b = Some p -> ready e w0 p) -> 0 <= bal w cur ROUTER < 2 ^ 127 ->
  simulate_path (quote e w0) l (bal w cur ROUTER) = Some x ->
  (forall a b amount ret sp com, In (AstroSwap a b) l -> 0 <= amount -> 0 <= ret + com -> 0 <= sp -> quote3 e w0 a b amount = Some (ret, sp, com) ->
     (forall o, l = [o] -> amount = bal w cur ROUTER) ->
     XykModel.assert_max_spread (belief (Z.of_nat (length (ops q)) =? 1)) (spread q) amount (ret + com) sp = Some tt) ->
  exists w', hops e q l w = Some w'.
Proof.
  induction l as [|o l IH]; intros w cur x0 Nl A S D C Cl Rd B Si Sp; [congruence|]. clear Nl. destruct o as [x y|]; [|discriminate].
  cbn [check_path] in C. apply andb_true_iff in C. destruct C as (C & C'). apply andb_true_iff in C. destruct C as (_ & C).
  apply asset_eqb_iff in C. subst cur. cbn [hops].
  set (to := match l with [] => receiver q | _ => ROUTER end) in *.
  assert (T : to = ROUTER \/ to = receiver q) by (unfold to; destruct l; auto).
  cbn [simulate_path] in Si. unbind Si as ret Eq. unfold quote in Eq. unbind Eq as [[ret' sp] com] Eq3. injection Eq as ->.
  pose proof Eq3 as Eq4. rewrite <- (same_quote e w w0 x y _ _ S (or_introl eq_refl)) in Eq4.
  destruct (S x y (or_introl eq_refl)) as (L & _). unfold quote3 in Eq3. destruct (lookup w0 x y) as [p|] eqn:L0; [|discriminate].
  assert (Rp : ready e w p) by (eapply same_ready; [exact S|left; reflexivity|exact L0|eapply Rd; [left; reflexivity|exact L0]]).
  assert (Pos : 0 < bal w x ROUTER /\ 0 <= ret /\ 0 <= com /\ 0 <= sp).
  { unfold quote3 in Eq4. rewrite L in Eq4. unfold XykModel.query_simulation in Eq4. pose proof Rp as (_ & _ & _ & P0 & P1 & _). cbv zeta in P0, P1.
    apply XykProofs.compute_swap_inv in Eq4; [|unfold sync; cbn [XykModel.r0 XykModel.r1]; destruct (asset_eqb x (pa1 p)); lia..|lia]. cbv zeta in Eq4. lia. }
  destruct Pos as (Pa & Pr & Pc & Psp).
  assert (Ck : XykModel.assert_max_spread (belief (Z.of_nat (length (ops q)) =? 1)) (spread q) (bal w x ROUTER) (ret + com) sp = Some tt).
  { apply (Sp x y (bal w x ROUTER) ret sp com); auto; try lia. left. reflexivity. unfold quote3. rewrite L0. exact Eq3. }
  destruct (hop_ok e q x y to _ w p ret sp com A T L Rp ltac:(lia) Eq4 Ck) as (Br & w1 & H1). rewrite H1.
  destruct l as [|o' l']; [eexists; reflexivity|].
  destruct (hop_facts _ _ _ _ _ _ _ _ _ A T H1) as (p' & s' & so & b & L' & Ip & X & Ew & A' & Qt & V & B1 & B2).
  rewrite L in L'. injection L' as <-. assert (Er : XykModel.so_return so = ret) by (unfold quote in Qt; rewrite Eq4 in Qt; congruence).
  assert (S1 : same w1 w0 (o' :: l')) by (subst w1; eapply same_step; eauto).
  assert (D1 : NoDup (visited w0 (o' :: l'))) by (cbn [visited] in D; rewrite L0 in D; inversion D; auto).
  assert (Cl1 : clean y w1). { intros z Nz. rewrite B1. destruct (asset_eqb y z) eqn:Ez; [apply asset_eqb_iff in Ez; congruence|]. cbn [andb].
    destruct (asset_eqb x z) eqn:Ex; [lia|]. apply asset_eqb_neq in Ex. rewrite (Cl z) by congruence. lia. }
  assert (By : bal w1 y ROUTER = ret).
  { rewrite B1. destruct (asset_eqb x y) eqn:Ez; [apply asset_eqb_iff in Ez; congruence|]. rewrite (Cl y) by congruence. rewrite asset_eqb_refl. subst to. cbn. lia. }
  apply (IH w1 y x0); auto; try discriminate; try lia.
  - intros a' b' p' I. apply Rd. right. exact I.
  - rewrite By. exact Si.
  - intros a' b' am r' s1 c1 I Q1 Q2 Q3 Q4 Q5. apply (Sp a' b' am r' s1 c1); auto; [right; exact I|]. intros o E. discriminate.
Qed.
