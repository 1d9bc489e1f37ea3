(** C140: a route through pairs of all kinds delivers what its simulation announces. *)
From Coq Require Import ZArith Lia Bool List.
From Verif Require Import Num Bytes FactoryModel RouterModel RouterProps.
From Verif Require XykModel XykProps StableModel StableProps PclModel PclSwapProps SaleTaxModel SaleTaxProps TransmuterModel.
From Verif Require Import MixRouteModel MixRouteSpec MixRouteProofs.
Import ListNotations.
Open Scope Z_scope.

Lemma end_final x l t : final_asset l = Some t -> end_of x l = t.
Proof.
  unfold final_asset. destruct (rev l) as [|o r] eqn:E; [discriminate|]. destruct o as [a b|]; [|discriminate]. intros [= <-].
  assert (El : l = rev r ++ [AstroSwap a b]) by (rewrite <- (rev_involutive l), E; reflexivity). subst l. clear E. generalize (rev r) as k. clear r.
  intros k. revert x. induction k as [|o k IH]; intros x; [reflexivity|]. destruct o; cbn [app end_of]; apply IH.
Qed.

Section Facts.
  Variables (e : env) (q : request) (w : world) (a t : asset).
  Hypothesis Ap : apart e q w.
  Hypothesis Fi : first_offer (ops q) = Some a.
  Hypothesis Fl : final_asset (ops q) = Some t.
  Hypothesis Cl : clean a w.
  Hypothesis Nd : NoDup (visited w (ops q)).

  (** A route that succeeds gives the receiver exactly what the simulation at the same moment announces, no less than
      the minimum asked for, and nothing else; nothing stays at the router. *)
  Theorem c140_simulated w' got : route e q w = Some (w', got) ->
    simulate_route e w (ops q) (bal w a ROUTER) = Some got /\
    (forall z, bal w' z (receiver q) = bal w z (receiver q) + if asset_eqb t z then got else 0) /\
    (forall z, bal w' z ROUTER = 0) /\ (forall m, minimum q = Some m -> m <= got).
  Proof.
    intros H. unfold route in H. unbind H as s0 E0. unbind H as w1 E1. unbind H as g E2. injection H as <- <-.
    apply begin_inv in E0. destruct E0 as (x & Ok & Ne & Fx & P & ->). assert (x = a) by congruence. subst x.
    rewrite (end_final a _ _ Fl) in E2. cbn [rd] in E2.
    destruct (hops_sim e q w (ops q) w w1 a Ne Ap (same_refl _ _) Nd P Cl E1) as (got & G1 & G2 & G3). rewrite (end_final a _ _ Fl) in G2.
    unfold reply in E2. cbn [rd rd_asset rd_receiver rd_prev rd_min RouterModel.w] in E2. unbind E2 as g' Es. unguard E2 Gm. injection E2 as ->.
    rewrite G2, asset_eqb_refl in Es. apply sub128_Some in Es. assert (g = got) by lia. subst got.
    split; [unfold simulate_route, simulate; rewrite Ok; exact G1|]. split; [exact G2|]. split; [exact G3|].
    intros m Em. rewrite Em in Gm. apply negb_true_iff, Z.ltb_ge in Gm. exact Gm.
  Qed.

End Facts.
Print Assumptions c140_simulated.

(** Pairs compute with what they hold at the moment, of their own two assets in the order in which they list them; a pair
    whose books agree with its holdings is not changed by looking at them. *)
Theorem c140_reserves b p : reserves (read b p) = (b (pa0 p) (addr p), b (pa1 p) (addr p)) /\
  (reserves (st p) = (b (pa0 p) (addr p), b (pa1 p) (addr p)) -> match st p with Trans _ => True | s => read b p = s end).
Proof.
  unfold read, reserves. destruct (st p) as [s|s|s|s|s]; cbn; (split; [reflexivity|]); try (intros _; exact Logic.I); intros [= <- <-]; destruct s; try reflexivity.
  cbn. destruct base; reflexivity.
Qed.
Print Assumptions c140_reserves.

(** Whatever the route (pairs visited repeatedly, coins left at the router): accounts that take no part keep their balances. *)
Theorem c140_others e q w w' got u : apart e q w -> outsider e q w u -> route e q w = Some (w', got) -> forall z, bal w' z u = bal w z u.
Proof.
  intros A O H. unfold route in H. unbind H as s0 E0. unbind H as w1 E1. unbind H as g E2. injection H as <- <-. clear E0 E2 s0 g. revert w A O E1.
  generalize (ops q) at 1 as l. induction l as [|o l IH]; intros w A O E1 z; cbn [hops] in E1; [injection E1 as ->; reflexivity|].
  unbind E1 as w2 E2. destruct o as [x y|]; [|discriminate].
  assert (T : match l with [] => receiver q | _ => ROUTER end = ROUTER \/ match l with [] => receiver q | _ => ROUTER end = receiver q) by (destruct l; auto).
  destruct (hop_facts _ _ _ _ _ _ _ _ _ A T E2) as (p & s' & so & b & L & Ip & X & -> & A' & _ & Tk & Tx & V & _). pose proof O as (O1 & O2 & O3 & O4).
  pose proof A as (N & _). assert (O' : outsider e q (mkW b (put (renew p s') (pools w))) u).
  { repeat (split; [assumption|]). cbn [pools]. apply put_pools; auto. intros r r0 -> _ _ ->. auto. }
  rewrite (IH _ A' O' E1). cbn [bal]. rewrite V. rewrite Forall_forall in O4. destruct (O4 _ Ip) as (U1 & U2).
  assert (U3 : u <> share_to p) by (intros ->; apply U2; left; reflexivity).
  assert (U4 : match tax so with Some (v, n) => if asset_eqb x z then (if u =? v then n else 0) - (if u =? addr p then n else 0) else 0 | None => 0 end = 0).
  { destruct (tax so) as [[v n]|] eqn:Et; [|reflexivity]. destruct (Z.eqb_spec u v) as [->|]; [exfalso; apply U2; right; eapply Tx; reflexivity|]. destruct (Z.eqb_spec u (addr p)); [congruence|]. destruct (asset_eqb x z); reflexivity. }
  rewrite U4.
  destruct (Z.eqb_spec u (addr p)); [congruence|]. destruct (Z.eqb_spec u ROUTER); [congruence|]. destruct (Z.eqb_spec u (share_to p)); [congruence|].
  destruct (Z.eqb_spec u (maker e)); [congruence|].
  destruct (Z.eqb_spec u (match l with [] => receiver q | _ => ROUTER end)) as [Eu|]; [destruct T; congruence|].
  destruct (asset_eqb x z), (asset_eqb y z); lia.
Qed.
Print Assumptions c140_others.

(** The same route in the model of the router with arbitrary pairs (RouterModel): what is proved there holds here. *)
Theorem c140_refines e q w w' got r : route e q w = Some (w', got) -> exists b r' out, no_calls b /\
  RouterModel.exec 1 (Route q b) (mkState (bal w) r) = Some (mkState (bal w') r', got, out).
Proof.
  intros H. unfold route in H. unbind H as s0 E0. unbind H as w1 E1. unbind H as g E2. injection H as <- <-.
  assert (E0' : begin (mkState (bal w) r) q = Some s0) by exact E0.
  assert (K : forall l w w1 r, hops e q l w = Some w1 -> exists b out, no_calls b /\ RouterModel.hops (RouterModel.exec 0) q l b (mkState (bal w) r) = Some (mkState (bal w1) r, out)).
  { clear. induction l as [|o l IH]; intros w w1 r H; cbn [hops] in H.
    - injection H as <-. exists [], []. split; [constructor|reflexivity].
    - unbind H as w2 E. destruct (IH w2 w1 r H) as (b & out & N & Hb). destruct o as [x y|]; [|discriminate]. cbn [hop] in E. unbind E as p E0. cbv zeta in E.
      unbind E as [s' ro] E1. unbind E as b1 P1. unbind E as b2 P2. unbind E as b3 P3. unbind E as b4 P4. unbind E as b5 P5. injection E as <-.
      exists ((addr p, [Change (fun _ => Some b5)]) :: b). eexists. split; [constructor; [repeat constructor|exact N]|].
      cbn [RouterModel.hops hand_over RouterModel.w rd]. cbv zeta. rewrite P1. cbn [acts RouterModel.w rd]. cbn [bal] in Hb. rewrite Hb. reflexivity. }
  assert (Er : s0 = mkState (bal w) (rd s0)) by (apply begin_inv in E0; destruct E0 as (x & _ & _ & _ & _ & ->); reflexivity).
  destruct (K (ops q) w w1 (rd s0) E1) as (b & out & N & Hb). exists b, (rd s0), out. split; [exact N|]. rewrite <- Er in Hb. cbn [RouterModel.exec] in Hb |- *. rewrite E0', Hb.
  rewrite E2. reflexivity.
Qed.
Print Assumptions c140_refines.

(** ** Case: five hops, one of each kind (stable, concentrated, with sale tax, transmuter, constant product). *)
Definition D1 : asset := mkAsset true [117; 100; 100].
Definition E1 : asset := mkAsset true [117; 101; 101].
Definition F1 : asset := mkAsset true [117; 102; 102].
Definition mt : TransmuterModel.state := TransmuterModel.mkState [(0, 100); (1, 1)] [] [(5, 500)].
Definition mpools : list pool :=
  [mkP 101 A1 B1 (Stable StableProps.ex_t) 41 StableProps.ex_fee; mkP 102 B1 C1 (Pcl PclSwapProps.ex_balanced) 41 XykProps.ex_fees;
   mkP 103 C1 D1 (Tax SaleTaxProps.k_pool) 41 XykProps.ex_fees; mkP 104 D1 E1 (Trans mt) 41 XykProps.ex_fees;
   mkP 105 E1 F1 (Xyk XykProps.ex_pool) 41 XykProps.ex_fees].
Definition mbal : RouterModel.world := fun x u =>
  if u =? ROUTER then (if asset_eqb x A1 then 1000000 else 0)
  else if u =? 101 then (if asset_eqb x A1 then 1000000000 else if asset_eqb x B1 then 2000000000 else 0)
  else if u =? 102 then (if asset_eqb x B1 then 2000000000 else if asset_eqb x C1 then 1000000000 else 0)
  else if u =? 103 then (if asset_eqb x C1 then 1000000000 else if asset_eqb x D1 then 2000000000 else 0)
  else if u =? 104 then (if asset_eqb x D1 then 1000000000 else if asset_eqb x E1 then 200000000000 else 0)
  else if u =? 105 then (if asset_eqb x E1 then 100000000000 else if asset_eqb x F1 then 2000000000 else 0)
  else if u =? 7 then 5000 else 0.
Definition mw : world := mkW mbal mpools.
Definition me : env := mkEnv 3000 100 40.
Definition mq (m : option Z) : request := mkReq (path_ops A1 [B1; C1; D1; E1; F1]) m 7 None.
Lemma mw_apart m : apart me (mq m) mw.
Proof.
  unfold apart. cbn [mw pools mpools map addr receiver mq maker me].
  split; [repeat constructor; cbn; intros H; repeat destruct H as [H|H]; try discriminate; exact H|].
  repeat (split; [discriminate|]).
  assert (P : forall p, In p mpools -> forall u, In u (payees p) -> u = 41 \/ u = 55 \/ u = 56 \/ u = 60 \/ u = 61 \/ u = 70 \/ u = 77 \/ u = 88).
  { intros p Hp u Hu. cbn [mpools In] in Hp. repeat destruct Hp as [<-|Hp]; try contradiction; vm_compute in Hu; repeat destruct Hu as [<-|Hu]; try contradiction; tauto. }
  assert (K : forall p, In p mpools -> forall u, In u (payees p) -> u <> ROUTER /\ u <> 7 /\ Forall (fun p' => addr p' <> u) mpools).
  { intros p Hp u Hu. apply (P p Hp) in Hu. unfold ROUTER. split; [lia|]. split; [lia|]. repeat constructor; cbn [addr]; lia. }
  apply Forall_forall. intros p Hp. split; [|split; [|split; [|split; [|exact (K p Hp)]]]]; cbn [mpools In] in Hp; repeat destruct Hp as [<-|Hp]; try contradiction; try discriminate;
    cbn [pa0 pa1]; intros H; apply asset_eqb_iff in H; vm_compute in H; discriminate.
Qed.
Lemma mw_clean : clean A1 mw.
Proof. intros x N. cbn [bal mw]. unfold mbal. rewrite Z.eqb_refl. rewrite (proj2 (asset_eqb_neq x A1) N). reflexivity. Qed.
Example mw_five : NoDup (visited mw (ops (mq (Some 2600000)))) /\ first_offer (ops (mq (Some 2600000))) = Some A1 /\ final_asset (ops (mq (Some 2600000))) = Some F1 /\
  simulate_route me mw (ops (mq (Some 2600000))) 1000000 = Some 2694802 /\
  option_map (fun r => (snd r, bal (fst r) F1 7, bal (fst r) C1 41)) (route me (mq (Some 2600000)) mw) = Some (2694802, 2699802, 0).
Proof.
  split; [clear; vm_compute; repeat constructor; cbn; intros H; repeat destruct H as [H|H]; try discriminate; exact H|].
  split; [reflexivity|]. split; [reflexivity|]. split; [vm_compute; reflexivity|]. vm_compute. reflexivity.
Qed.
