(** C140: what pairs on a route pay is what leaves their reserves. *)
From Coq Require Import ZArith Lia Bool List.
From Verif Require Import Num Bytes FactoryModel RouterModel RouterProps.
From Verif Require XykModel StableModel PclModel SaleTaxModel TransmuterModel Ledger.
From Verif Require Import MixRouteModel MixRouteSpec MixRouteProofs MixRouteProps.
Import ListNotations.
Open Scope Z_scope.

(** Every pair holds what its reserves say. *)
Definition booked (w : world) : Prop :=
  Forall (fun p => reserves (st p) = (bal w (pa0 p) (addr p), bal w (pa1 p) (addr p))) (pools w).
Definition taxed_off (o : paid) : Z := match tax o with Some (_, n) => n | None => 0 end.

Lemma sync_reserves x y s : reserves (sync x y s) = (x, y).
Proof. destruct s; reflexivity. Qed.
Lemma read_id b p : reserves (read b p) = (b (pa0 p) (addr p), b (pa1 p) (addr p)).
Proof. apply sync_reserves. Qed.

Lemma pswap_books e fi s one a blf spr s' o : pswap e fi s one a blf spr = Some (s', o) ->
  reserves s' = if one then (fst (reserves s) - ret o - shr o - mkr o, snd (reserves s) + a - taxed_off o)
                else (fst (reserves s) + a - taxed_off o, snd (reserves s) - ret o - shr o - mkr o).
Proof.
  intros H. unfold taxed_off. destruct s as [s|s|s|s|s]; cbn [pswap reserves fst snd] in *.
  - unbind H as [s1 r] E. destruct r as [| |so|]; try discriminate. injection H as <- <-. cbn [ret shr mkr tax reserves]. cbn [XykModel.step] in E. unguard E G. unfold XykModel.swap in E.
    unbind E as o E1. unbind E as no E2. unbind E as k1 E3. unbind E as k2 E4. unbind E as na E5. unbind E as [[c0 c1] t'] E6. destruct (XykModel.track_save _ _ _ _). injection E as <- ->.
    apply sub128_Some in E3, E4, E5. apply add128_Some in E2. cbn [XykModel.r0 XykModel.r1]. destruct one; f_equal; lia.
  - unbind H as [s1 r] E. destruct r as [|  |r0 sp cm mk sh|]; try discriminate. injection H as <- <-. cbn [ret shr mkr tax reserves]. cbn [StableModel.step] in E. unguard E G. unfold StableModel.swap in E.
    unbind E as [[ret0 spr0] com0] Eq. unbind E as gr E1. unbind E as ok E2. unbind E as sh0 E3. unbind E as mk0 E4. cbv zeta in E. unbind E as no E5. unbind E as k1 E6. unbind E as k2 E7. unbind E as na E8.
    unbind E as x0 E9. unbind E as y0 E10. unbind E as c E11. injection E as <- <- <- <- <- <-. apply sub128_Some in E6, E7, E8. apply add128_Some in E5.
    destruct c as [[? ?] ?]. cbn [StableModel.set_core StableModel.r0 StableModel.r1]. destruct one; f_equal; lia.
  - unbind H as [s1 r] E. destruct r as [| |r0 sp cm mk sh|]; try discriminate. injection H as <- <-. cbn [ret shr mkr tax reserves]. cbn [PclModel.step] in E. unguard E G. unfold PclModel.swap in E.
    unbind E as off E1. unbind E as x0 E2. unbind E as x1 E3. cbv zeta in E. unguard E G1. unbind E as old E4. unbind E as fs E5. unbind E as res E6. unbind E as ou E7. unbind E as n1 E8. unbind E as n2 E9.
    unbind E as re E10. unbind E as sr E11. unbind E as ok E12. unbind E as tot E13. unbind E as ps E14. unguard E G2. unbind E as shr0 E15. unbind E as mk0 E16. unbind E as c E17. unbind E as ob E18. unbind E as pe E19.
    unbind E as cm0 E20. unbind E as m1 E21. unbind E as k1 E22. unbind E as k2 E23. unbind E as m2 E24. injection E as <- <- _ _ <- <-. apply sub128_Some in E22, E23, E24. apply add128_Some in E21.
    destruct c as [[? ?] ?]. unfold PclModel.set_pools. repeat match goal with |- context [let '(_, _) := ?x in _] => destruct x end. cbn [PclModel.r0 PclModel.r1]. destruct one; f_equal; lia.
  - unbind H as [s1 r] E. destruct (SaleTaxModel.main r) as [| |so|] eqn:Em; try discriminate. injection H as <- <-. cbn [ret shr mkr tax reserves].
    cbn [SaleTaxModel.step] in E. unguard E G. unfold SaleTaxModel.swap in E. cbv zeta in E.
    unbind E as i E1. unbind E as [[[[r0 sp] cm] net] tx] E2. unbind E as gr E3. unbind E as ok E4. unbind E as mk E5. unbind E as no E6. unbind E as k1 E7. unbind E as na E8. unbind E as [[c0 c1] t'] E9.
    destruct (XykModel.track_save _ _ _ _) as [h0 h1]. injection E as <- <-. cbn [SaleTaxModel.taxed SaleTaxModel.main] in *. injection Em as <-. cbn [XykModel.so_return XykModel.so_maker].
    unfold SaleTaxModel.compute_swap in E2. unbind E2 as tx' T1. unbind E2 as net' T2. unbind E2 as [[r1 sp1] cm1] T3. injection E2 as -> -> -> -> ->.
    apply sub128_Some in E7, E8, T2. apply add128_Some in E6. cbn [SaleTaxModel.with_base SaleTaxModel.base XykModel.r0 XykModel.r1].
    destruct (SaleTaxModel.tax_of s one) as [t|] eqn:Et; [destruct (Z.eqb_spec tx 0)|]; destruct one; f_equal; try (injection T1 as <-); lia.
  - unbind H as [s1 l] E. destruct l as [|[d r] [|]]; try discriminate. unguard H Gd. injection H as <- <-. apply Z.eqb_eq in Gd. cbn [ret shr mkr tax reserves]. cbn [TransmuterModel.step] in E. unguard E G. cbv zeta in E.
    unbind E as out Eo. unbind E as pl Ep. injection E as <- ->. cbn [TransmuterModel.debit] in Ep. unbind Ep as v Ev. injection Ep as <-. apply sub128_Some in Ev.
    cbn [TransmuterModel.pools TransmuterModel.credit] in *. destruct one; subst d;
      rewrite ?Ledger.get_set_same, ?Ledger.get_set_other, ?Ledger.get_set_same in * by discriminate; rewrite ?Ledger.get_set_other in * by discriminate; f_equal; lia.
Qed.

Lemma hop_booked e q o to blf spr w w' : apart e q w -> to = ROUTER \/ to = receiver q -> booked w -> hop e o to blf spr w = Some w' -> apart e q w' /\ booked w'.
Proof.
  intros A T B H. destruct o as [x y|]; [|discriminate]. split.
  { destruct (hop_facts _ _ _ _ _ _ _ _ _ A T H) as (p & s' & so & b & L & Ip & X & -> & A' & _). exact A'. }
  destruct (hop_inv _ _ _ _ _ _ _ _ H) as (p & s' & so & b & L & _ & -> & Tk & Tx & V & P).
  destruct (lookup_in _ _ _ _ L) as (Ip & Q). pose proof A as (N & R & M & M' & F). rewrite Forall_forall in F.
  destruct (F _ Ip) as (A1 & A2 & A3 & A4 & A5).
  assert (At : addr p <> to) by (destruct T; congruence).
  assert (A7 : forall u, In u (payees p) -> forall p', In p' (pools w) -> addr p' <> u). { intros u Hu. destruct (A5 u Hu) as (_ & _ & A7). rewrite Forall_forall in A7. exact A7. }
  specialize (V A1 At (fun u Hu => A7 u Hu p Ip) A3). assert (X : x <> y) by (eapply is_pair_neq; eauto).
  apply pswap_books in P. rewrite read_id in P. cbn [fst snd] in P.
  unfold booked in *. cbn [pools bal]. apply Forall_forall. intros r Hr. unfold put in Hr. apply in_map_iff in Hr. destruct Hr as (r0 & E & Hr).
  change (addr (renew p s')) with (addr p) in E. destruct (Z.eqb_spec (addr r0) (addr p)) as [Ea|Ea]; subst r.
  - cbn [renew st pa0 pa1 addr]. rewrite P, !V. rewrite Z.eqb_refl, (proj2 (Z.eqb_neq _ _) A1), (proj2 (Z.eqb_neq _ _) At), (proj2 (Z.eqb_neq _ _) A3),
      (proj2 (Z.eqb_neq _ _) (A7 _ (or_introl eq_refl) p Ip)).
    assert (Tz : forall z, match tax so with Some (v, n) => if asset_eqb x z then (if addr p =? v then n else 0) - n else 0 | None => 0 end = if asset_eqb x z then - taxed_off so else 0).
    { intros z. unfold taxed_off. destruct (tax so) as [[v n]|]; [|destruct (asset_eqb x z); reflexivity].
      rewrite (proj2 (Z.eqb_neq _ _) (A7 v (or_intror (Tx v n eq_refl)) p Ip)). destruct (asset_eqb x z); lia. }
    rewrite !Tz. unfold is_pair in Q. apply orb_true_iff in Q. rewrite !andb_true_iff, !asset_eqb_iff in Q. destruct Q as [[-> ->]|[-> ->]]; rewrite !asset_eqb_refl.
    + assert (E1 : asset_eqb (pa0 p) (pa1 p) = false) by (apply not_true_is_false; rewrite asset_eqb_iff; exact A4).
      assert (E2 : asset_eqb (pa1 p) (pa0 p) = false) by (apply not_true_is_false; rewrite asset_eqb_iff; congruence). rewrite E1, E2. f_equal; lia.
    + assert (E1 : asset_eqb (pa0 p) (pa1 p) = false) by (apply not_true_is_false; rewrite asset_eqb_iff; exact A4).
      assert (E2 : asset_eqb (pa1 p) (pa0 p) = false) by (apply not_true_is_false; rewrite asset_eqb_iff; congruence). rewrite E1, E2. f_equal; lia.
  - rewrite Forall_forall in B. rewrite (B _ Hr), !V. destruct (F _ Hr) as (C1 & C2 & C3 & C4 & C5).
    rewrite (proj2 (Z.eqb_neq _ _) Ea), (proj2 (Z.eqb_neq _ _) C1), (proj2 (Z.eqb_neq _ _) C3), (proj2 (Z.eqb_neq _ _) (A7 _ (or_introl eq_refl) r0 Hr)).
    assert (Ct : addr r0 <> to) by (destruct T; congruence). rewrite (proj2 (Z.eqb_neq _ _) Ct).
    assert (Tz : forall z, match tax so with Some (v, n) => if asset_eqb x z then (if addr r0 =? v then n else 0) - 0 else 0 | None => 0 end = 0).
    { intros z. destruct (tax so) as [[v n]|]; [|reflexivity].
      rewrite (proj2 (Z.eqb_neq _ _) (A7 v (or_intror (Tx v n eq_refl)) r0 Hr)). destruct (asset_eqb x z); lia. }
    rewrite !Tz. destruct (asset_eqb x (pa0 r0)), (asset_eqb y (pa0 r0)), (asset_eqb x (pa1 r0)), (asset_eqb y (pa1 r0)); f_equal; lia.
Qed.
Lemma hops_booked e q l w w' : apart e q w -> booked w -> hops e q l w = Some w' -> booked w'.
Proof.
  revert w. induction l as [|o l IH]; intros w A B H; cbn [hops] in H; [injection H as <-; exact B|]. unbind H as w1 E.
  assert (T : match l with [] => receiver q | _ => ROUTER end = ROUTER \/ match l with [] => receiver q | _ => ROUTER end = receiver q) by (destruct l; auto).
  destruct (hop_booked _ _ _ _ _ _ _ _ A T B E) as (A' & B'). exact (IH w1 A' B' H).
Qed.
(** A route leaves every pair, of whatever kind, holding exactly the reserves that it computes with: what it took in and
    paid to trader, fee recipients, maker and tax collectors is what it booked. Even a pair visited twice. *)
Theorem c140_booked e q w w' got : apart e q w -> booked w -> route e q w = Some (w', got) -> booked w'.
Proof. intros A B H. unfold route in H. unbind H as s0 E0. unbind H as w1 E1. unbind H as g E2. injection H as <- _. exact (hops_booked _ _ _ _ _ A B E1). Qed.
Print Assumptions c140_booked.

(** ** Case: the five hops of [mw_five], the pairs' reserves being what they hold. *)
Definition mwb : world := mkW mbal (map (fun p => renew p (read mbal p)) mpools).
Example mwb_booked : booked mwb /\ apart me (mq None) mwb /\ option_map snd (route me (mq None) mwb) = Some 2694802.
Proof.
  split; [repeat constructor|]. split; [|vm_compute; reflexivity].
  destruct (mw_apart None) as (N & R & M & M' & F). unfold apart. cbn [mw mwb pools] in *.
  assert (K : forall r, In r (map (fun p => renew p (read mbal p)) mpools) -> exists r0, In r0 mpools /\ addr r = addr r0 /\ pa0 r = pa0 r0 /\ pa1 r = pa1 r0 /\ payees r = payees r0).
  { intros r Hr. apply in_map_iff in Hr. destruct Hr as (r0 & <- & Hr). exists r0. repeat (split; [auto|]). unfold payees. f_equal. apply read_taxers. }
  split; [rewrite map_map; exact N|]. repeat (split; [assumption|]). rewrite Forall_forall in *. intros r Hr.
  destruct (K r Hr) as (r0 & H0 & -> & -> & -> & ->). destruct (F r0 H0) as (F1' & F2 & F3 & F4 & F5). repeat (split; [assumption|]).
  intros u Hu. destruct (F5 u Hu) as (G1 & G2 & G3). split; [exact G1|]. split; [exact G2|]. rewrite Forall_forall in *. intros r1 Hr1.
  destruct (K r1 Hr1) as (r2 & H2 & -> & _). exact (G3 r2 H2).
Qed.
