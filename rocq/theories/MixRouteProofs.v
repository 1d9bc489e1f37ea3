(** Proofs for C140. *)
From Coq Require Import ZArith Lia Bool List.
From Verif Require Import Num Bytes FactoryModel RouterModel RouterProps.
From Verif Require XykModel XykProps StableModel PclModel PclSwapProps SaleTaxModel SaleTaxProps TransmuterModel Ledger.
From Verif Require Import MixRouteModel MixRouteSpec.
Import ListNotations.
Open Scope Z_scope.

(** ** Finding and replacing pairs *)
Definition renew (p : pool) (s : store) : pool := mkP (addr p) (pa0 p) (pa1 p) s (share_to p) (fees_of p).
Lemma lookup_in w x y p : lookup w x y = Some p -> In p (pools w) /\ is_pair x y p = true.
Proof. apply find_some. Qed.
Lemma put_addrs p l : map addr (put p l) = map addr l.
Proof. unfold put. rewrite map_map. apply map_ext. intros r. destruct (Z.eqb_spec (addr r) (addr p)); auto. Qed.
Lemma nodup_addr (l : list pool) p p' : NoDup (map addr l) -> In p l -> In p' l -> addr p = addr p' -> p = p'.
Proof.
  induction l as [|r l IH]; cbn; intros N I I' E; [contradiction|]. inversion N as [|a b N1 N2]; subst.
  destruct I as [->|I], I' as [->|I']; auto; exfalso; apply N1; [rewrite E|rewrite <- E]; apply in_map; auto.
Qed.
Lemma put_find x y p s l : NoDup (map addr l) -> In p l ->
  List.find (is_pair x y) (put (renew p s) l) =
  option_map (fun r => if addr r =? addr p then renew p s else r) (List.find (is_pair x y) l).
Proof.
  intros N I. assert (K : forall r, In r l -> addr r = addr p -> r = p) by (intros r Hr E; eapply nodup_addr; eauto).
  clear N I. induction l as [|r l IH]; [reflexivity|]. cbn [put map List.find]. change (addr (renew p s)) with (addr p).
  assert (Q : is_pair x y (if addr r =? addr p then renew p s else r) = is_pair x y r).
  { destruct (Z.eqb_spec (addr r) (addr p)) as [E|]; [|reflexivity]. rewrite (K r (or_introl eq_refl) E). reflexivity. }
  rewrite Q. destruct (is_pair x y r); [reflexivity|]. apply IH. intros r' Hr. apply K. right. exact Hr.
Qed.
Lemma put_in p s l r : taxers (renew p s) = taxers p -> NoDup (map addr l) -> In p l -> In r (put (renew p s) l) ->
  exists r0, In r0 l /\ addr r = addr r0 /\ pa0 r = pa0 r0 /\ pa1 r = pa1 r0 /\ payees r = payees r0.
Proof.
  intros T N I H. unfold put in H. apply in_map_iff in H. destruct H as (r0 & E & H). exists r0. split; [exact H|].
  change (addr (renew p s)) with (addr p) in E. destruct (Z.eqb_spec (addr r0) (addr p)) as [A|]; subst r; [|auto].
  rewrite (nodup_addr _ _ _ N H I A). unfold payees. rewrite T. cbn. auto.
Qed.
Lemma put_pools (P : pool -> Prop) p s l : taxers (renew p s) = taxers p -> NoDup (map addr l) -> In p l ->
  (forall r r0, addr r = addr r0 -> pa0 r = pa0 r0 -> pa1 r = pa1 r0 -> payees r = payees r0 -> P r0 -> P r) ->
  Forall P l -> Forall P (put (renew p s) l).
Proof.
  intros T N I C F. apply Forall_forall. intros r H. destruct (put_in _ _ _ _ T N I H) as (r0 & H0 & A & B & B' & D).
  apply (C r r0 A B B' D). eapply Forall_forall; eauto.
Qed.
Lemma apart_put e q b b' l p s : apart e q (mkW b l) -> In p l -> taxers (renew p s) = taxers p -> apart e q (mkW b' (put (renew p s) l)).
Proof.
  intros (N & R & M & M' & F) I T. cbn [pools] in *. unfold apart. cbn [pools]. rewrite put_addrs. repeat (split; [assumption|]).
  apply put_pools; auto.
  - intros r r0 -> -> -> ->. auto.
  - eapply Forall_impl; [|exact F]. intros r (A & B & C & D & X). repeat (split; [assumption|]). intros u Hu. destruct (X u Hu) as (X1 & X2 & X3). repeat (split; [assumption|]).
    apply put_pools; auto. intros r1 r0 -> _ _ _. auto.
Qed.

(** ** What one hop does *)
Lemma pay_ok w0 a f t n : 0 <= n <= w0 a f -> exists w1, pay w0 a f t n = Some w1.
Proof.
  intros H. unfold pay. rewrite (proj2 (Z.leb_le 0 n)), (proj2 (Z.leb_le n (w0 a f))) by lia. cbn [andb]. eexists. reflexivity.
Qed.
Definition moved (e : env) (p : pool) (offer ask : asset) (to amount : Z) (so : paid) (b b' : RouterModel.world) : Prop :=
  forall x u, b' x u = b x u
    + (if asset_eqb offer x then (if u =? addr p then amount else 0) - (if u =? ROUTER then amount else 0) else 0)
    + (if asset_eqb ask x then (if u =? to then ret so else 0) + (if u =? share_to p then shr so else 0)
         + (if u =? maker e then mkr so else 0)
         - (if u =? addr p then ret so + shr so + mkr so else 0) else 0)
    + (match tax so with Some (v, n) => if asset_eqb offer x then (if u =? v then n else 0) - (if u =? addr p then n else 0) else 0 | None => 0 end).
Lemma is_pair_neq x y p : is_pair x y p = true -> pa0 p <> pa1 p -> x <> y.
Proof. unfold is_pair. intros H N. apply orb_true_iff in H. rewrite !andb_true_iff, !asset_eqb_iff in H. destruct H as [[-> ->]|[-> ->]]; congruence. Qed.
(** The pair answers the simulation with what it pays; it pays taxes to the recipients in its configuration, and keeps them. *)
Lemma pswap_facts e fi s one a blf spr s' o : pswap e fi s one a blf spr = Some (s', o) ->
  psim e fi s one a = Some (ret o) /\
  (forall k x y b t f, taxers (mkP k x y s' t f) = taxers (mkP k x y s t f) /\
    forall u n, tax o = Some (u, n) -> In u (taxers (mkP k x y s t f)) /\ (forall v w, taxers (mkP k x y (sync v w s) t b) = taxers (mkP k x y s t f))).
Proof.
  intros H. destruct s as [s|s|s|s|s]; cbn [pswap psim] in *.
  - unbind H as [s1 r] E. destruct r as [| |so|]; try discriminate. injection H as <- <-. cbn [XykModel.step] in E. unguard E G. apply XykProps.c09_simulation_exact in E. rewrite E.
    split; [reflexivity|]. intros. split; [reflexivity|discriminate].
  - unbind H as [s1 r] E. destruct r as [|  |r0 sp cm mk sh|]; try discriminate. injection H as <- <-. cbn [StableModel.step] in E. unguard E G. unfold StableModel.swap in E.
    unbind E as [[ret0 spr0] com0] Eq. unbind E as gr E1. unbind E as ok E2. unbind E as sh0 E3. unbind E as mk0 E4. cbv zeta in E. unbind E as no E5. unbind E as k1 E6. unbind E as k2 E7. unbind E as na E8.
    unbind E as x0 E9. unbind E as y0 E10. unbind E as c E11. injection E as _ <- <- <- <- <-.
    split; [|intros; split; [reflexivity|discriminate]]. unfold StableModel.query_simulation.
    assert (N : (StableModel.r0 s =? 0) || (StableModel.r1 s =? 0) || (a =? 0) = false).
    { unfold StableModel.quote in Eq. rewrite E9, E10 in Eq. unguard Eq Gq. destruct (StableModel.r0 s =? 0), (StableModel.r1 s =? 0), (a =? 0); try discriminate; reflexivity. }
    rewrite N, Eq. reflexivity.
  - unbind H as [s1 r] E. destruct r as [| |r0 sp cm mk sh|]; try discriminate. injection H as <- <-. apply PclSwapProps.c92_simulation in E. rewrite E.
    split; [reflexivity|]. intros. split; [reflexivity|discriminate].
  - unbind H as [s1 r] E. destruct (SaleTaxModel.main r) as [| |so|] eqn:Em; try discriminate. injection H as <- <-. rewrite (SaleTaxProps.c49_simulation _ _ _ _ _ _ _ _ _ E Em).
    split; [reflexivity|]. intros. cbn [SaleTaxModel.step] in E. unguard E G. unfold SaleTaxModel.swap in E. cbv zeta in E.
    unbind E as i E1. unbind E as [[[[r0 sp] cm] net] tx] E2. unbind E as gr E3. unbind E as ok E4. unbind E as mk E5. unbind E as no E6. unbind E as k1 E7. unbind E as na E8. unbind E as [[c0 c1] t'] E9.
    destruct (XykModel.track_save _ _ _ _) as [h0 h1]. injection E as <- <-. cbn [SaleTaxModel.taxed tax]. split; [reflexivity|]. intros u n Hu. split; [|reflexivity].
    unfold taxers. cbn [st]. unfold SaleTaxModel.tax_of in Hu. destruct one.
    + destruct (SaleTaxModel.tax1 s) as [t1|]; [|discriminate]. destruct (tx =? 0); [discriminate|]. injection Hu as <- _. apply in_or_app. right. left. reflexivity.
    + destruct (SaleTaxModel.tax0 s) as [t0|]; [|discriminate]. destruct (tx =? 0); [discriminate|]. injection Hu as <- _. apply in_or_app. left. left. reflexivity.
  - unbind H as [s1 l] E. destruct l as [|[d r] [|]]; try discriminate. unguard H Gd. injection H as <- <-. apply Z.eqb_eq in Gd. cbn [TransmuterModel.step] in E. unguard E G. cbv zeta in E.
    unbind E as out Eo. unbind E as pl Ep. injection E as <- ->. split; [|intros; split; [reflexivity|discriminate]].
    assert (Q : TransmuterModel.swap_out (TransmuterModel.cfg s) (TransmuterModel.pools s) (if one then 1 else 0, a) (Some (if one then 0 else 1)) = Some (d, r)).
    { unfold TransmuterModel.swap_out in *. unbind Eo as n En. unbind Eo as ad Ed. unguard Eo Gi. unbind Eo as v Ev. unguard Eo Gv. injection Eo as -> ->.
      cbn [TransmuterModel.credit fst snd] in Gv. rewrite Ledger.get_set_other in Gv by (destruct one; subst d; discriminate). rewrite Gv. reflexivity. }
    rewrite Q. reflexivity.
Qed.
Lemma read_taxers b p k x y t f : taxers (mkP k x y (read b p) t f) = taxers p.
Proof. unfold taxers, read. cbn [st]. destruct (st p); reflexivity. Qed.
Lemma hop_inv e x y to blf spr w w' : hop e (AstroSwap x y) to blf spr w = Some w' -> exists p s' so b,
  lookup w x y = Some p /\
  quote e w x y (bal w x ROUTER) = Some (ret so) /\
  w' = mkW b (put (renew p s') (pools w)) /\ taxers (renew p s') = taxers p /\
  (forall u n, tax so = Some (u, n) -> In u (taxers p)) /\
  (addr p <> ROUTER -> addr p <> to -> (forall u, In u (payees p) -> addr p <> u) -> addr p <> maker e -> moved e p x y to (bal w x ROUTER) so (bal w) b) /\
  pswap e (fees_of p) (read (bal w) p) (asset_eqb x (pa1 p)) (bal w x ROUTER) blf spr = Some (s', so).
Proof.
  intros H. cbn [hop] in H. unbind H as p E0. cbv zeta in H. unbind H as [s' r] E1.
  unbind H as b1 P1. unbind H as b2 P2. unbind H as b3 P3. unbind H as b4 P4. unbind H as b5 P5. injection H as <-.
  destruct (pswap_facts _ _ _ _ _ _ _ _ _ E1) as (F1 & F2). specialize (F2 (addr p) (pa0 p) (pa1 p) (fees_of p) (share_to p) (fees_of p)). rewrite read_taxers in F2. destruct F2 as (F2 & F3).
  assert (Ft : forall u n, tax r = Some (u, n) -> In u (taxers p)) by (intros u n Hu; exact (proj1 (F3 u n Hu))).
  exists p, s', r, b5. split; [reflexivity|]. split; [unfold quote; rewrite E0; exact F1|]. split; [reflexivity|]. split; [exact F2|]. split; [exact Ft|]. split; [|exact E1].
  intros A1 A2 A3 A4 z u. pose proof (A3 (share_to p) (or_introl eq_refl)) as A5.
  assert (B5 : b5 z u = b4 z u + match tax r with Some (v, n) => if asset_eqb x z then (if u =? v then n else 0) - (if u =? addr p then n else 0) else 0 | None => 0 end).
  { destruct (tax r) as [[v n]|] eqn:Et; [|injection P5 as ->; lia]. assert (A6 : addr p <> v) by (apply A3; right; eapply Ft; reflexivity).
    rewrite (pay_spec _ _ _ _ _ _ P5 A6). destruct (asset_eqb x z); cbn [andb]; destruct (u =? addr p), (u =? v); lia. }
  rewrite B5, (pay_spec _ _ _ _ _ _ P4 A4), (pay_spec _ _ _ _ _ _ P3 A5), (pay_spec _ _ _ _ _ _ P2 A2), (pay_spec _ _ _ _ _ _ P1 (not_eq_sym A1)).
  destruct (asset_eqb x z), (asset_eqb y z); cbn [andb];
    destruct (u =? addr p), (u =? ROUTER), (u =? to), (u =? share_to p), (u =? maker e); lia.
Qed.

(** Pairs that a route is still to visit are as they were at its start. *)
Definition same (w w0 : world) (l : list op) : Prop :=
  forall x y, In (AstroSwap x y) l -> lookup w x y = lookup w0 x y /\
    (forall p, lookup w0 x y = Some p -> forall z, bal w z (addr p) = bal w0 z (addr p)).
Lemma visited_in w x y p l : In (AstroSwap x y) l -> lookup w x y = Some p -> In (addr p) (visited w l).
Proof.
  induction l as [|o l IH]; [contradiction|]. intros [->|H] L; cbn [visited].
  - rewrite L. left. reflexivity.
  - destruct o as [a b|]; [|auto]. destruct (lookup w a b); [right|]; auto.
Qed.
Lemma same_quote e w w0 x y l a : same w w0 l -> In (AstroSwap x y) l -> quote e w x y a = quote e w0 x y a.
Proof.
  intros S I. destruct (S x y I) as (L & B). unfold quote. rewrite L. destruct (lookup w0 x y) as [p|]; [|reflexivity].
  unfold read. rewrite !(B p eq_refl). reflexivity.
Qed.
Lemma same_step e q w w0 x y l p s so b to : apart e q w -> to = ROUTER \/ to = receiver q -> lookup w x y = Some p ->
  same w w0 (AstroSwap x y :: l) -> NoDup (visited w0 (AstroSwap x y :: l)) ->
  (forall u n, tax so = Some (u, n) -> In u (taxers p)) -> moved e p x y to (bal w x ROUTER) so (bal w) b -> same (mkW b (put (renew p s) (pools w))) w0 l.
Proof.
  intros (N & R & M & M' & F) T L S D Tx V x' y' I. destruct (S x y (or_introl eq_refl)) as (L0 & _). rewrite L in L0. symmetry in L0.
  cbn [visited] in D. rewrite L0 in D. inversion D as [|? ? D1 _]; subst. destruct (S x' y' (or_intror I)) as (L1 & B1).
  destruct (lookup_in _ _ _ _ L) as (Ip & _). split.
  - unfold lookup. cbn [pools]. rewrite put_find by assumption. fold (lookup w x' y'). fold (lookup w0 x' y'). rewrite L1.
    destruct (lookup w0 x' y') as [p'|] eqn:E; [|reflexivity]. cbn [option_map]. destruct (Z.eqb_spec (addr p') (addr p)) as [A|]; [|reflexivity].
    exfalso. apply D1. rewrite <- A. eapply visited_in; eauto.
  - intros p' E z. cbn [bal]. rewrite V, <- (B1 p' E). rewrite E in L1. destruct (lookup_in _ _ _ _ L1) as (Ip' & _).
    assert (A : addr p' <> addr p). { intros A. apply D1. rewrite <- A. eapply visited_in; eauto. }
    rewrite Forall_forall in F. destruct (F _ Ip') as (A1 & A2 & A3 & _). destruct (F _ Ip) as (_ & _ & _ & _ & A4).
    assert (A5 : forall u, In u (payees p) -> addr p' <> u). { intros u Hu. destruct (A4 u Hu) as (_ & _ & A5). rewrite Forall_forall in A5. apply A5, Ip'. }
    pose proof (A5 _ (or_introl eq_refl)) as A6.
    destruct (Z.eqb_spec (addr p') (addr p)); [congruence|]. destruct (Z.eqb_spec (addr p') ROUTER); [congruence|].
    destruct (Z.eqb_spec (addr p') to); [destruct T; congruence|]. destruct (Z.eqb_spec (addr p') (share_to p)); [congruence|].
    destruct (Z.eqb_spec (addr p') (maker e)); [congruence|].
    assert (B7 : match tax so with Some (v, n) => if asset_eqb x z then (if addr p' =? v then n else 0) - 0 else 0 | None => 0 end = 0).
    { destruct (tax so) as [[v n']|] eqn:Et; [|reflexivity]. pose proof (A5 v (or_intror (Tx _ _ eq_refl))) as A7. destruct (Z.eqb_spec (addr p') v); [congruence|]. destruct (asset_eqb x z); reflexivity. }
    rewrite B7. destruct (asset_eqb x z), (asset_eqb y z); lia.
Qed.

(** Everything a hop does to the accounts that matter. *)
Lemma hop_facts e q x y to blf spr w w' : apart e q w -> to = ROUTER \/ to = receiver q -> hop e (AstroSwap x y) to blf spr w = Some w' ->
  exists p s' so b, lookup w x y = Some p /\ In p (pools w) /\ x <> y /\ w' = mkW b (put (renew p s') (pools w)) /\ apart e q w' /\
    quote e w x y (bal w x ROUTER) = Some (ret so) /\ taxers (renew p s') = taxers p /\ (forall u n, tax so = Some (u, n) -> In u (taxers p)) /\
    moved e p x y to (bal w x ROUTER) so (bal w) b /\
    (forall z, bal w' z ROUTER = (if asset_eqb x z then 0 else bal w z ROUTER) + (if asset_eqb y z && (to =? ROUTER) then ret so else 0)) /\
    (forall z, bal w' z (receiver q) = bal w z (receiver q) + (if asset_eqb y z && (to =? receiver q) then ret so else 0)).
Proof.
  intros A T H. destruct (hop_inv _ _ _ _ _ _ _ _ H) as (p & s' & so & b & L & Qt & -> & Tk & Tx & V & _).
  destruct (lookup_in _ _ _ _ L) as (Ip & Q). pose proof A as (N & R & M & M' & F). rewrite Forall_forall in F.
  destruct (F _ Ip) as (A1 & A2 & A3 & A4 & A5).
  assert (At : addr p <> to) by (destruct T; congruence).
  assert (A7 : forall u, In u (payees p) -> addr p <> u). { intros u Hu. destruct (A5 u Hu) as (_ & _ & A7). rewrite Forall_forall in A7. apply A7, Ip. }
  specialize (V A1 At A7 A3).
  assert (X : x <> y) by (eapply is_pair_neq; eauto).
  exists p, s', so, b. split; [exact L|]. split; [exact Ip|]. split; [exact X|]. split; [reflexivity|].
  split; [destruct w; eapply apart_put; eauto|]. split; [exact Qt|]. split; [exact Tk|]. split; [exact Tx|]. split; [exact V|].
  assert (Tz : forall z u, u = ROUTER \/ u = receiver q -> u <> addr p -> match tax so with Some (v, n) => if asset_eqb x z then (if u =? v then n else 0) - (if u =? addr p then n else 0) else 0 | None => 0 end = 0).
  { intros z u Hu Nu. destruct (tax so) as [[v n]|] eqn:Et; [|reflexivity]. destruct (A5 v (or_intror (Tx _ _ eq_refl))) as (B1 & B2 & _).
    destruct (Z.eqb_spec u v); [destruct Hu; congruence|]. destruct (Z.eqb_spec u (addr p)); [congruence|]. destruct (asset_eqb x z); reflexivity. }
  destruct (A5 (share_to p) (or_introl eq_refl)) as (A8 & A9 & _).
  cbn [bal]. split; intros z; rewrite V, Tz; auto.
  - rewrite Z.eqb_refl. destruct (Z.eqb_spec ROUTER (addr p)); [congruence|]. destruct (Z.eqb_spec ROUTER (share_to p)); [congruence|].
    destruct (Z.eqb_spec ROUTER (maker e)); [congruence|]. rewrite (Z.eqb_sym to). destruct (asset_eqb x z) eqn:Ez; [apply asset_eqb_iff in Ez; subst z|];
      destruct (asset_eqb y _), (ROUTER =? to); cbn [andb]; lia.
  - destruct (Z.eqb_spec (receiver q) (addr p)); [congruence|]. destruct (Z.eqb_spec (receiver q) (share_to p)); [congruence|].
    destruct (Z.eqb_spec (receiver q) (maker e)); [congruence|]. destruct (Z.eqb_spec (receiver q) ROUTER); [congruence|]. rewrite (Z.eqb_sym to).
    destruct (asset_eqb x z), (asset_eqb y z), (receiver q =? to); cbn [andb]; lia.
Qed.

(** The last asset of a path. *)
Fixpoint end_of (a : asset) (l : list op) : asset := match l with AstroSwap _ y :: r => end_of y r | _ :: r => end_of a r | [] => a end.

Lemma hops_sim e q w0 : forall l w w' cur, l <> [] -> apart e q w -> same w w0 l -> NoDup (visited w0 l) -> check_path (Some cur) l = true ->
  clean cur w -> hops e q l w = Some w' ->
  exists got, simulate_path (quote e w0) l (bal w cur ROUTER) = Some got /\
    (forall z, bal w' z (receiver q) = bal w z (receiver q) + (if asset_eqb (end_of cur l) z then got else 0)) /\
    (forall z, bal w' z ROUTER = 0).
Proof.
  induction l as [|o l IH]; intros w w' cur Nl A S D C Cl H; [congruence|]. clear Nl. destruct o as [x y|]; [|discriminate].
  cbn [check_path] in C. apply andb_true_iff in C. destruct C as (C & C'). apply andb_true_iff in C. destruct C as (_ & C).
  apply asset_eqb_iff in C. subst cur. cbn [hops] in H. unbind H as w1 E1.
  set (to := match l with [] => receiver q | _ => ROUTER end) in *.
  assert (T : to = ROUTER \/ to = receiver q) by (unfold to; destruct l; auto).
  destruct (hop_facts _ _ _ _ _ _ _ _ _ A T E1) as (p & s' & so & b & L & Ip & X & Ew & A' & Qt & Tk & Tx & V & B1 & B2).
  assert (Qt0 : quote e w0 x y (bal w x ROUTER) = Some (ret so)).
  { rewrite <- Qt. symmetry. exact (same_quote e w w0 x y _ _ S (or_introl eq_refl)). }
  cbn [simulate_path end_of]. rewrite Qt0. destruct l as [|o' l'].
  - cbn [hops] in H. injection H as <-. exists (ret so). split; [reflexivity|]. subst to. split; intros z.
    + rewrite B2, Z.eqb_refl, andb_true_r. reflexivity.
    + rewrite B1. destruct A as (_ & R & _). destruct (Z.eqb_spec (receiver q) ROUTER); [congruence|]. rewrite andb_false_r.
      destruct (asset_eqb x z) eqn:Ez; [lia|]. apply asset_eqb_neq in Ez. rewrite (Cl z) by congruence. lia.
  - assert (S1 : same w1 w0 (o' :: l')) by (subst w1; eapply same_step; eauto).
    assert (D1 : NoDup (visited w0 (o' :: l'))). { cbn [visited] in D. destruct (S x y (or_introl eq_refl)) as (L0 & _). rewrite L in L0. rewrite <- L0 in D. inversion D; auto. }
    assert (Cl1 : clean y w1). { intros z Nz. rewrite B1. destruct (asset_eqb y z) eqn:Ez; [apply asset_eqb_iff in Ez; congruence|]. cbn [andb].
      destruct (asset_eqb x z) eqn:Ex; [lia|]. apply asset_eqb_neq in Ex. rewrite (Cl z) by congruence. lia. }
    destruct (IH w1 w' y ltac:(discriminate) A' S1 D1 C' Cl1 H) as (got & G1 & G2 & G3). exists got.
    assert (By : bal w1 y ROUTER = ret so).
    { rewrite B1. destruct (asset_eqb x y) eqn:Ez; [apply asset_eqb_iff in Ez; congruence|]. rewrite (Cl y) by congruence. rewrite asset_eqb_refl. subst to. cbn. lia. }
    rewrite By in G1. split; [exact G1|]. split; [|exact G3]. intros z. rewrite G2, B2. destruct A as (_ & R & _). subst to.
    destruct (Z.eqb_spec ROUTER (receiver q)); [congruence|]. rewrite andb_false_r. lia.
Qed.

Lemma end_last x l : l <> [] -> (forall o, In o l -> exists a b, o = AstroSwap a b) -> List.last (map Some l) None = Some (AstroSwap x (end_of x l)) \/
  exists a, List.last (map Some l) None = Some (AstroSwap a (end_of x l)).
Proof.
  revert x. induction l as [|o l IH]; intros x N F; [congruence|]. right. destruct (F o (or_introl eq_refl)) as (a & b & ->).
  destruct l as [|o' l']; [exists a; reflexivity|]. destruct (IH b ltac:(discriminate) (fun o H => F o (or_intror H))) as [E|(a' & E)]; eexists; exact E.
Qed.
Lemma path_swaps c l : check_path c l = true -> forall o, In o l -> exists a b, o = AstroSwap a b.
Proof.
  revert c. induction l as [|o l IH]; intros c H o' I; [contradiction|]. destruct o as [x y|]; [|discriminate]. cbn [check_path] in H.
  apply andb_true_iff in H. destruct H as (_ & H). destruct I as [<-|I]; [eauto|eapply IH; eauto].
Qed.
Lemma begin_inv b q s0 : begin (mkState b None) q = Some s0 -> exists x, assert_operations (ops q) = true /\ ops q <> [] /\ first_offer (ops q) = Some x /\
  check_path (Some x) (ops q) = true /\
  s0 = mkState b (Some (mkRD (end_of x (ops q)) (b (end_of x (ops q)) (receiver q)) (minimum q) (receiver q))).
Proof.
  intros H. unfold begin in H. unguard H G. unbind H as o L. injection H as <-. pose proof G as G'. unfold assert_operations in G. apply andb_true_iff in G. destruct G as (G & P).
  apply andb_true_iff in G. destruct G as (G1 & _). destruct (ops q) as [|[x y|d1 d2] r] eqn:E; [discriminate| |discriminate].
  exists x. split; [first [exact G'|reflexivity]|]. split; [discriminate|]. split; [reflexivity|]. split.
  - cbn [check_path] in P |- *. rewrite asset_eqb_refl. exact P.
  - destruct (end_last x (AstroSwap x y :: r) ltac:(discriminate) (path_swaps _ _ P)) as [E1|(a & E1)]; rewrite E1 in L; injection L as <-; reflexivity.
Qed.
Lemma same_refl w l : same w w l.
Proof. intros x y _. split; auto. Qed.
