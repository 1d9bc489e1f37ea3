(** C138: a route through constant-product pairs delivers what its simulation announces. *)
From Coq Require Import ZArith Lia Bool List.
From Verif Require Import Num Bytes FactoryModel RouterModel RouterProps.
From Verif Require XykModel XykSpec XykProps.
From Verif Require Import RouteWorldModel RouteWorldSpec RouteWorldProofs.
Import ListNotations.
Open Scope Z_scope.

Lemma end_final x l t : final_asset l = Some t -> end_of x l = t.
Proof.
  unfold final_asset. destruct (rev l) as [|o r] eqn:E; [discriminate|]. destruct o as [a b|]; [|discriminate]. intros [= <-].
  assert (El : l = rev r ++ [AstroSwap a b]) by (rewrite <- (rev_involutive l), E; reflexivity). subst l. clear E. generalize (rev r) as k. clear r.
  intros k. revert x. induction k as [|o k IH]; intros x; [reflexivity|]. destruct o; cbn [app end_of]; apply IH.
Qed.

Section Facts.
  Variables (e : env) (q : request) (w : world) (a t : asset).
  Hypothesis Ap : apart e q w.
  Hypothesis Fi : first_offer (ops q) = Some a.
  Hypothesis Fl : final_asset (ops q) = Some t.
  Hypothesis Cl : clean a w.
  Hypothesis Nd : NoDup (visited w (ops q)).

  (** A route that succeeds gives the receiver exactly what the simulation at the same moment announces, no less than
      the minimum asked for, and nothing else; nothing stays at the router. *)
  Theorem c138_simulated w' got : route e q w = Some (w', got) ->
    simulate_route e w (ops q) (bal w a ROUTER) = Some got /\
    (forall z, bal w' z (receiver q) = bal w z (receiver q) + if asset_eqb t z then got else 0) /\
    (forall z, bal w' z ROUTER = 0) /\ (forall m, minimum q = Some m -> m <= got).
  Proof.
    intros H. unfold route in H. unbind H as s0 E0. unbind H as w1 E1. unbind H as g E2. injection H as <- <-.
    apply begin_inv in E0. destruct E0 as (x & Ok & Ne & Fx & P & ->). assert (x = a) by congruence. subst x.
    rewrite (end_final a _ _ Fl) in E2. cbn [rd] in E2.
    destruct (hops_sim e q w (ops q) w w1 a Ne Ap (same_refl _ _) Nd P Cl E1) as (got & G1 & G2 & G3). rewrite (end_final a _ _ Fl) in G2.
    unfold reply in E2. cbn [rd rd_asset rd_receiver rd_prev rd_min RouterModel.w] in E2. unbind E2 as g' Es. unguard E2 Gm. injection E2 as ->.
    rewrite G2, asset_eqb_refl in Es. apply sub128_Some in Es. assert (g = got) by lia. subst got.
    split; [unfold simulate_route, simulate; rewrite Ok; exact G1|]. split; [exact G2|]. split; [exact G3|].
    intros m Em. rewrite Em in Gm. apply negb_true_iff, Z.ltb_ge in Gm. exact Gm.
  Qed.

  (** Conversely a route succeeds if its simulation does and announces at least the minimum, the pairs on it can
      trade, and a single hop stays within the limit on the spread (which is not looked at on longer routes). *)
  Theorem c138_executes x : simulate_route e w (ops q) (bal w a ROUTER) = Some x -> (forall m, minimum q = Some m -> m <= x) ->
    0 <= limit q <= 5 * 10 ^ 17 -> within e q w (bal w a ROUTER) -> 0 <= bal w a ROUTER < 2 ^ 127 ->
    (forall b c p, In (AstroSwap b c) (ops q) -> lookup w b c = Some p -> ready e w p) ->
    0 <= bal w t (receiver q) -> bal w t (receiver q) + x < 2 ^ 128 ->
    exists w', route e q w = Some (w', x).
  Proof.
    intros Si Mi Li Wi Ba Rd Bt Bx. unfold simulate_route, simulate in Si. unguard Si Ok. assert (E0 : exists s0, begin (mkState (bal w) None) q = Some s0).
    { unfold begin. rewrite Ok. destruct (List.last (map Some (ops q)) None) as [o|] eqn:E; [eexists; reflexivity|]. exfalso.
      unfold assert_operations in Ok. apply andb_true_iff in Ok. destruct Ok as (_ & Pt). unfold final_asset in Fl. destruct (ops q) as [|o l] eqn:Eo; [discriminate|].
      destruct (end_last a (o :: l) ltac:(discriminate) (path_swaps _ _ Pt)) as [X|(y & X)]; rewrite X in E; discriminate. }
    destruct E0 as (s0 & E0). unfold route. rewrite E0. apply begin_inv in E0. destruct E0 as (y & _ & Ne & Fx & P & ->). assert (y = a) by congruence. subst y.
    assert (Sp : forall b c amount ret sp com, In (AstroSwap b c) (ops q) -> 0 <= amount -> 0 <= ret + com -> 0 <= sp -> quote3 e w b c amount = Some (ret, sp, com) ->
      (forall o, ops q = [o] -> amount = bal w a ROUTER) ->
      XykModel.assert_max_spread (belief (Z.of_nat (length (ops q)) =? 1)) (spread q) amount (ret + com) sp = Some tt).
    { intros b c am ret sp com I P1 P2 P3 Q3 One. destruct (Z.eqb_spec (Z.of_nat (length (ops q))) 1) as [L1|L1].
      - unfold within in Wi. destruct (ops q) as [|o [|o' l]]; cbn [length] in L1; try lia. destruct I as [->|[]]. rewrite <- (One _ eq_refl) in Wi.
        destruct (Wi _ _ _ Q3) as (W1 & W2). unfold belief, XykModel.assert_max_spread. unfold limit in *.
        assert (M : (match spread q with Some s => s | None => XykModel.DEFAULT_SLIPPAGE end) = match spread q with Some s => s | None => 5 * 10 ^ 15 end) by (destruct (spread q); reflexivity).
        rewrite M. rewrite (proj2 (Z.leb_le _ XykModel.MAX_ALLOWED_SLIPPAGE)) by (unfold XykModel.MAX_ALLOWED_SLIPPAGE; lia).
        assert (Ea : add128 (ret + com) sp = Some (ret + com + sp)) by (apply add128_Some; unfold U128MAX; lia). rewrite Ea.
        assert (Dv : 0 <= sp * 10 ^ 18 / (ret + com + sp)) by (apply Z.div_pos; lia).
        assert (Er : dratio sp (ret + com + sp) = Some (sp * 10 ^ 18 / (ret + com + sp))) by (apply dratio_Some; unfold U128MAX, DEC; change (10 ^ 18) with 1000000000000000000 in *; lia).
        rewrite Er. rewrite (proj2 (Z.leb_le _ _) W2). reflexivity.
      - unfold belief. apply c62_no_spread_check; auto. intros m Em. unfold limit in Li. rewrite Em in Li. unfold XykModel.MAX_ALLOWED_SLIPPAGE. lia. }
    destruct (hops_ok e q w (ops q) w a x Ne Ap (same_refl _ _) Nd P Cl Rd Ba Si Sp) as (w1 & E1). rewrite E1.
    destruct (hops_sim e q w (ops q) w w1 a Ne Ap (same_refl _ _) Nd P Cl E1) as (got & G1 & G2 & _).
    rewrite Si in G1. injection G1 as <-. rewrite (end_final a _ _ Fl) in G2 |- *. cbn [rd]. unfold reply. cbn [rd rd_asset rd_receiver rd_prev rd_min RouterModel.w].
    assert (Px : 0 <= x). 
    { clear - Si Rd Ba. revert Si Rd Ba. generalize (bal w a ROUTER) as v. generalize (ops q) as l. induction l as [|o l IH]; intros v Si Rd B; cbn [simulate_path] in Si; [injection Si as <-; lia|].
      destruct o as [b c|]; [|discriminate]. unbind Si as r Eq. unfold quote, quote3 in Eq. destruct (lookup w b c) as [p|] eqn:L; [|discriminate].
      destruct (XykModel.query_simulation _ _ _ _) as [[[r' sp] com]|] eqn:Eq'; [|discriminate]. injection Eq as ->. unfold XykModel.query_simulation in Eq'.
      destruct (Rd b c p (or_introl eq_refl) L) as (_ & _ & _ & P0 & P1 & _). cbv zeta in P0, P1. pose proof Eq' as Eq2.
      apply XykProofs.compute_swap_inv in Eq'; [|unfold sync; cbn [XykModel.r0 XykModel.r1]; destruct (asset_eqb b (pa1 p)); lia..|lia]. cbv zeta in Eq'.
      destruct Eq' as (C1 & C2 & C3 & C4 & C5 & C6 & C7 & C8 & _). destruct (XykProofs.swap_core _ _ _ C1 C2 C3) as (Cg & _). cbv zeta in Cg. rewrite <- C5 in Cg.
      apply (IH r); [exact Si|intros b' c' p' I'; apply Rd; right; exact I'|]. unfold sync in Cg. cbn [XykModel.r0 XykModel.r1] in Cg. destruct (asset_eqb b (pa1 p)); lia. }
    assert (Es : sub128 (bal w1 t (receiver q)) (bal w t (receiver q)) = Some x). { rewrite G2, asset_eqb_refl. apply sub128_Some. unfold U128MAX. lia. }
    rewrite Es. assert (Gm : match minimum q with Some m => negb (x <? m) | None => true end = true).
    { destruct (minimum q) as [m|]; [|reflexivity]. apply negb_true_iff, Z.ltb_ge. apply Mi. reflexivity. }
    rewrite Gm. eexists. reflexivity.
  Qed.
End Facts.
Print Assumptions c138_simulated.
Print Assumptions c138_executes.

(** Whatever the route (pairs visited repeatedly, coins left at the router): accounts that take no part keep their balances. *)
Theorem c138_others e q w w' got u : apart e q w -> outsider e q w u -> route e q w = Some (w', got) -> forall z, bal w' z u = bal w z u.
Proof.
  intros A O H. unfold route in H. unbind H as s0 E0. unbind H as w1 E1. unbind H as g E2. injection H as <- <-. clear E0 E2 s0 g. revert w A O E1.
  generalize (ops q) at 1 as l. induction l as [|o l IH]; intros w A O E1 z; cbn [hops] in E1; [injection E1 as ->; reflexivity|].
  unbind E1 as w2 E2. destruct o as [x y|]; [|discriminate].
  assert (T : match l with [] => receiver q | _ => ROUTER end = ROUTER \/ match l with [] => receiver q | _ => ROUTER end = receiver q) by (destruct l; auto).
  destruct (hop_facts _ _ _ _ _ _ _ _ _ A T E2) as (p & s' & so & b & L & Ip & X & -> & A' & _ & V & _). pose proof O as (O1 & O2 & O3 & O4).
  pose proof A as (N & _). assert (O' : outsider e q (mkW b (put (renew p s') (pools w))) u).
  { repeat (split; [assumption|]). cbn [pools]. apply put_pools; auto. intros r r0 -> _ _ ->. auto. }
  rewrite (IH _ A' O' E1). cbn [bal]. rewrite V. rewrite Forall_forall in O4. destruct (O4 _ Ip) as (U1 & U2).
  destruct (Z.eqb_spec u (addr p)); [congruence|]. destruct (Z.eqb_spec u ROUTER); [congruence|]. destruct (Z.eqb_spec u (share_to p)); [congruence|].
  destruct (Z.eqb_spec u (maker e)); [congruence|].
  destruct (Z.eqb_spec u (match l with [] => receiver q | _ => ROUTER end)) as [Eu|]; [destruct T; congruence|].
  destruct (asset_eqb x z), (asset_eqb y z); lia.
Qed.
Print Assumptions c138_others.

(** The same route in the model of the router with arbitrary pairs (RouterModel): what is proved there holds here. *)
Theorem c138_refines e q w w' got r : route e q w = Some (w', got) -> exists b r' out, no_calls b /\
  RouterModel.exec 1 (Route q b) (mkState (bal w) r) = Some (mkState (bal w') r', got, out).
Proof.
  intros H. unfold route in H. unbind H as s0 E0. unbind H as w1 E1. unbind H as g E2. injection H as <- <-.
  assert (E0' : begin (mkState (bal w) r) q = Some s0) by exact E0.
  assert (K : forall l w w1 r, hops e q l w = Some w1 -> exists b out, no_calls b /\ RouterModel.hops (RouterModel.exec 0) q l b (mkState (bal w) r) = Some (mkState (bal w1) r, out)).
  { clear. induction l as [|o l IH]; intros w w1 r H; cbn [hops] in H.
    - injection H as <-. exists [], []. split; [constructor|reflexivity].
    - unbind H as w2 E. destruct (IH w2 w1 r H) as (b & out & N & Hb). destruct o as [x y|]; [|discriminate]. cbn [hop] in E. unbind E as p E0. cbv zeta in E.
      unbind E as [s' ro] E1. destruct ro as [| |so|]; try discriminate. unbind E as b1 P1. unbind E as b2 P2. unbind E as b3 P3. unbind E as b4 P4. injection E as <-.
      exists ((addr p, [Change (fun _ => Some b4)]) :: b). eexists. split; [constructor; [repeat constructor|exact N]|].
      cbn [RouterModel.hops hand_over RouterModel.w rd]. cbv zeta. rewrite P1. cbn [acts RouterModel.w rd]. cbn [bal] in Hb. rewrite Hb. reflexivity. }
  assert (Er : s0 = mkState (bal w) (rd s0)) by (apply begin_inv in E0; destruct E0 as (x & _ & _ & _ & _ & ->); reflexivity).
  destruct (K (ops q) w w1 (rd s0) E1) as (b & out & N & Hb). exists b, (rd s0), out. split; [exact N|]. rewrite <- Er in Hb. cbn [RouterModel.exec] in Hb |- *. rewrite E0', Hb.
  rewrite E2. reflexivity.
Qed.
Print Assumptions c138_refines.

(** ** Cases: three pairs, 10^9 against 2 * 10^9 units each. *)
Definition rp (k : Z) (x y : asset) : pool := mkP k x y XykProps.ex_pool 41 XykProps.ex_fees.
Definition rpools : list pool := [rp 101 A1 B1; rp 102 C1 B1; rp 103 C1 A1].
Definition rbal (stray : Z) : RouterModel.world := fun x u =>
  if u =? ROUTER then (if asset_eqb x A1 then 1000000 else if asset_eqb x B1 then stray else 0)
  else if u =? 101 then (if asset_eqb x A1 then 1000000000 else if asset_eqb x B1 then 2000000000 else 0)
  else if u =? 102 then (if asset_eqb x C1 then 1000000000 else if asset_eqb x B1 then 2000000000 else 0)
  else if u =? 103 then (if asset_eqb x C1 then 1000000000 else if asset_eqb x A1 then 2000000000 else 0)
  else if u =? 7 then 5000 else 0.
Definition rw (stray : Z) : world := mkW (rbal stray) rpools.
Definition re : env := mkEnv 1000 100 40.
Definition rq (l : list asset) (m : option Z) : request := mkReq (path_ops A1 l) m 7 None.
Lemma rw_apart s l m : apart re (rq l m) (rw s).
Proof.
  unfold apart. cbn [rw pools rpools map addr rp receiver rq maker re].
  split; [repeat constructor; cbn; intros H; repeat destruct H as [H|H]; try discriminate; exact H|].
  repeat (split; [discriminate|]). repeat constructor; try discriminate; intros H; apply asset_eqb_iff in H; vm_compute in H; discriminate.
Qed.
Lemma rw_clean : clean A1 (rw 0).
Proof. intros x N. cbn [bal rw]. unfold rbal. rewrite Z.eqb_refl. rewrite (proj2 (asset_eqb_neq x A1) N). destruct (asset_eqb x B1); reflexivity. Qed.
Example rw_two : NoDup (visited (rw 0) (ops (rq [B1; C1] (Some 980000)))) /\
  simulate_route re (rw 0) (ops (rq [B1; C1] (Some 980000))) 1000000 = Some 992027 /\
  match route re (rq [B1; C1] (Some 980000)) (rw 0) with Some (w', got) => got = 992027 /\ bal w' C1 7 = 5000 + 992027 /\ bal w' B1 7 = 5000 | None => False end /\
  route re (rq [B1; C1] (Some 1000000)) (rw 0) = None.
Proof.
  split; [clear; vm_compute; repeat constructor; cbn; intros H; repeat destruct H as [H|H]; try discriminate; exact H|].
  split; [vm_compute; reflexivity|]. split; vm_compute; auto.
Qed.

Example rw_ready : (forall p, In p rpools -> ready re (rw 0) p) /\ (forall l m, 0 <= limit (rq l m) <= 5 * 10 ^ 17) /\
  within re (rq [B1] None) (rw 0) (bal (rw 0) A1 ROUTER) /\ (exists w' got, route re (rq [B1] None) (rw 0) = Some (w', got)).
Proof.
  split; [|split; [|split]].
  - intros p [<-|[<-|[<-|[]]]]; vm_compute; repeat split; try discriminate; right; right; right; repeat split.
  - intros l m. unfold limit. cbn [spread rq]. lia.
  - unfold within. intros ret spr com H. vm_compute in H. injection H as <- <- <-. vm_compute. repeat split; discriminate.
  - destruct (route re (rq [B1] None) (rw 0)) as [[w' got]|] eqn:E; [eauto|vm_compute in E; discriminate].
Qed.

(** A pair visited twice in the same direction: the simulation announces more than the route delivers. *)
Theorem c138_twice_refuted : exists e q w a w' got x, apart e q w /\ first_offer (ops q) = Some a /\ clean a w /\
  route e q w = Some (w', got) /\ simulate_route e w (ops q) (bal w a ROUTER) = Some x /\ got < x.
Proof.
  destruct (route re (rq [B1; C1; A1; B1] None) (rw 0)) as [[w' got]|] eqn:E; [|vm_compute in E; discriminate].
  exists re, (rq [B1; C1; A1; B1] None), (rw 0), A1, w', got.
  assert (G : option_map snd (route re (rq [B1; C1; A1; B1] None) (rw 0)) = Some got) by (rewrite E; reflexivity).
  destruct (simulate_route re (rw 0) (ops (rq [B1; C1; A1; B1] None)) (bal (rw 0) A1 ROUTER)) as [x|] eqn:Es; [|vm_compute in Es; discriminate].
  exists x. split; [apply rw_apart|]. split; [reflexivity|]. split; [apply rw_clean|]. split; [exact E|]. split; [reflexivity|].
  vm_compute in G. vm_compute in Es. injection G as <-. injection Es as <-. reflexivity.
Qed.
Print Assumptions c138_twice_refuted.
(** Visited there and back, it announces less. *)
Example rw_back : option_map snd (route re (rq [B1; A1] None) (rw 0)) = Some 994009 /\
  simulate_route re (rw 0) (ops (rq [B1; A1] None)) 1000000 = Some 992027.
Proof. split; vm_compute; reflexivity. Qed.
(** Coins left at the router go to whoever routes through them next. *)
Theorem c138_stray_refuted : exists e q w a w' got x, apart e q w /\ first_offer (ops q) = Some a /\ NoDup (visited w (ops q)) /\
  route e q w = Some (w', got) /\ simulate_route e w (ops q) (bal w a ROUTER) = Some x /\ x + 200000 < got.
Proof.
  destruct (route re (rq [B1; C1] None) (rw 500000)) as [[w' got]|] eqn:E; [|vm_compute in E; discriminate].
  exists re, (rq [B1; C1] None), (rw 500000), A1, w', got.
  assert (G : option_map snd (route re (rq [B1; C1] None) (rw 500000)) = Some got) by (rewrite E; reflexivity).
  destruct (simulate_route re (rw 500000) (ops (rq [B1; C1] None)) (bal (rw 500000) A1 ROUTER)) as [x|] eqn:Es; [|vm_compute in Es; discriminate].
  exists x. split; [apply rw_apart|]. split; [reflexivity|]. split; [clear; vm_compute; repeat constructor; cbn; intros H; repeat destruct H as [H|H]; try discriminate; exact H|].
  split; [exact E|]. split; [reflexivity|]. vm_compute in G. vm_compute in Es. injection G as <-. injection Es as <-. reflexivity.
Qed.
Print Assumptions c138_stray_refuted.
