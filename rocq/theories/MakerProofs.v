(** Proofs about the maker. *)
From Coq Require Import ZArith Lia Bool List.
From Verif Require Import Num Ledger Amap MakerModel MakerSpec.
From Verif Require OwnershipModel.
Import ListNotations.
Open Scope Z_scope.

Lemma mem_In x l : mem x l = true <-> In x l.
Proof.
  induction l as [|y l IH]; simpl; [split; [discriminate | tauto]|].
  rewrite orb_true_iff, IH, Z.eqb_eq. intuition congruence.
Qed.

Lemma paid_app a t x y : paid a t (x ++ y) = paid a t x + paid a t y.
Proof. induction x as [|[]]; simpl; lia. Qed.
Lemma spent_app a x y : spent a (x ++ y) = spent a x + spent a y.
Proof. induction x as [|[]]; simpl; lia. Qed.
Lemma gained_app a x y : gained a (x ++ y) = gained a x + gained a y.
Proof. induction x as [|[]]; simpl; lia. Qed.
Lemma offered_app a b x y : offered a b (x ++ y) = offered a b x + offered a b y.
Proof. induction x as [|[]]; simpl; lia. Qed.

(** Only balances change, by exactly what the effects say. *)
Definition F (s : state) (os : list out) (s' : state) : Prop :=
  (forall a, get (bal s') a = get (bal s) a + gained a os - spent a os) /\
  (nonneg (bal s) -> nonneg (bal s')) /\
  s' = set_bal s (bal s').

Lemma F_nil s : F s [] s.
Proof. repeat split; intros; simpl; auto; try lia. destruct s; reflexivity. Qed.
Lemma F_trans s o1 s1 o2 s2 : F s o1 s1 -> F s1 o2 s2 -> F s (o1 ++ o2) s2.
Proof.
  intros (A & B & C) (A2 & B2 & C2). repeat split; auto.
  - intros a. rewrite gained_app, spent_app, A2, A. lia.
  - rewrite C2, C. reflexivity.
Qed.
Lemma F_cfg s os s' : F s os s' -> cfg s' = cfg s.
Proof. intros (_ & _ & ->). reflexivity. Qed.

Lemma send_spec e a to v s s' o :
  send e a to v s = Some (s', o) ->
  o = Paid a to v /\ 0 <= v <= get (bal s) a /\ F s [o] s' /\
  bal s' = set (bal s) a (get (bal s) a - v).
Proof.
  unfold send. intros H. unguard H G1. unguard H G2. injection H as <- <-. bools.
  repeat split; auto; try lia.
  - intros b. simpl. destruct (Z.eqb_spec b a) as [->|].
    + rewrite get_set_same. lia.
    + rewrite get_set_other by auto. lia.
  - intros N. simpl. apply nonneg_set; auto. lia.
Qed.

Lemma trade_spec e k a t v s s' o :
  trade e k a t v s = Some (s', o) ->
  exists q, quote e k a t v = Some q /\ 0 <= q /\ o = Swapped a t v q /\ 0 <= v <= get (bal s) a /\
    F s [o] s'.
Proof.
  unfold trade. intros H. unguard H G1. unbind H as q E1. cbv zeta in H. unguard H G2.
  unbind H as n E2. injection H as <- <-. bools.
  apply add128_Some in E2. destruct E2 as (-> & R).
  exists q. repeat split; auto; try lia.
  - intros b. simpl. destruct (Z.eqb_spec b t) as [->|].
    + rewrite get_set_same. destruct (Z.eqb_spec t a) as [->|].
      * rewrite get_set_same. lia.
      * rewrite get_set_other by auto. lia.
    + rewrite get_set_other by auto. destruct (Z.eqb_spec b a) as [->|].
      * rewrite get_set_same. lia.
      * rewrite get_set_other by auto. lia.
  - intros N. simpl. apply nonneg_set; [apply nonneg_set; auto; lia | lia].
Qed.

Definition payl (a to v : Z) : list out := if v =? 0 then [] else [Paid a to v].

Lemma send_opt_spec e a to v s s' os :
  send_opt e a to v s = Some (s', os) -> os = payl a to v /\ F s os s' /\ (v <> 0 -> 0 <= v <= get (bal s) a).
Proof.
  unfold send_opt, payl. destruct (v =? 0) eqn:Z0.
  - intros H. injection H as <- <-. repeat split; try apply F_nil; bools; lia.
  - intros H. unbind H as (s1, o) E. injection H as <- <-.
    apply send_spec in E. destruct E as (-> & B & C & _). repeat split; auto; try apply C; lia.
Qed.

Lemma trades_spec e ms : forall k s k' s' os,
  trades e k ms s = Some (k', s', os) ->
  F s os s' /\ (forall a t, paid a t os = 0) /\
  (forall a, ~ In a (map (fun m => fst (fst m)) ms) -> spent a os = 0) /\
  ((forall a, 0 <= gained a os) /\ (forall a b, 0 <= offered a b os <= spent a os)).
Proof.
  induction ms as [|[[a t] v] ms IH]; intros k s k' s' os H; simpl in H.
  - injection H as <- <- <-. split; [apply F_nil|]. repeat split; auto; simpl; lia.
  - unbind H as (s1, o) E1. unbind H as ((k2, s2), os2) E2. injection H as <- <- <-.
    apply trade_spec in E1. destruct E1 as (q & _ & Q0 & -> & V & F1).
    destruct (IH _ _ _ _ _ E2) as (F2 & P2 & S2 & G2 & O2).
    split; [exact (F_trans _ [_] _ _ _ F1 F2)|]. split; [|split; [|split]].
    + intros b t2. simpl. apply P2.
    + intros b N. simpl in N. simpl. destruct (Z.eqb_spec b a); [subst; tauto|].
      rewrite S2 by tauto. lia.
    + intros b. simpl. specialize (G2 b). destruct (b =? t); lia.
    + intros b c. simpl. specialize (O2 b c). destruct (b =? a), (c =? t); simpl; lia.
Qed.

(** What [distributable] returns. *)
Lemma distributable_spec e s c am :
  distributable e s = Some (c, am) ->
  let c0 := cfg s in let x := get (bal s) (astro c0) in
  (staking c = staking c0 /\ dev c = dev c0 /\ gov c = gov c0 /\ second c = second c0 /\
   pct c = pct c0 /\ astro c = astro c0 /\ factory c = factory c0 /\ own c = own c0 /\
   dbridge c = dbridge c0 /\ spread c = spread c0 /\ enabled c = enabled c0 /\
   pblocks c = pblocks c0 /\ cooldown c = cooldown c0) /\
  match am with
  | None =>
      (c = c0 /\ (x = 0 \/ (enabled c0 = true /\ remainder c0 <> 0 /\ height e = lastblk c0))) \/
      (enabled c0 = false /\ remainder c = x /\ preamt c = x /\ lastblk c = lastblk c0 /\ x <> 0)
  | Some y =>
      x <> 0 /\ enabled c0 = true /\ preamt c = preamt c0 /\
      ((c = c0 /\ remainder c0 = 0 /\ y = x) \/
       (remainder c0 <> 0 /\ lastblk c0 < height e /\ pblocks c0 <> 0 /\ lastblk c = height e /\
        remainder c0 <= x /\
        remainder c = remainder c0
          - Z.min ((height e - lastblk c0) * (preamt c0 / pblocks c0)) (remainder c0) /\
        y = x - remainder c /\ 0 <= remainder c))
  end.
Proof.
  intros H c0 x. unfold distributable in H. cbv zeta in H. fold c0 in H. fold x in H.
  destruct (x =? 0) eqn:X0; bools.
  { injection H as <- <-. split; [repeat split|]. left. auto. }
  destruct (enabled c0) eqn:EN; cbn [negb] in H.
  2:{ injection H as <- <-. split; [repeat split; auto|]. right. auto. }
  destruct (remainder c0 =? 0) eqn:R0; bools.
  { injection H as <- <-. split; [repeat split; auto|]. repeat split; auto. }
  unbind H as p E1. apply sub64_Some in E1. destruct E1 as (-> & P).
  destruct (height e - lastblk c0 =? 0) eqn:P0; bools.
  { injection H as <- <-. split; [repeat split; auto|]. left. split; auto. right. repeat split; auto. lia. }
  unguard H G. bools. unbind H as y E2. apply mul128_Some in E2. destruct E2 as (-> & Y).
  unbind H as pu E3. apply sub128_Some in E3. destruct E3 as (-> & PU).
  unbind H as am0 E4. apply add128_Some in E4. destruct E4 as (-> & AM).
  unbind H as rm E5. apply sub128_Some in E5. destruct E5 as (-> & RM).
  injection H as <- <-. split; [repeat split; auto|]. cbn [remainder lastblk preamt].
  repeat split; auto. right. repeat split; auto; try lia.
Qed.

(** What [distribute] does when there is something to share out. *)
Lemma distribute_spec e k s s' os :
  distribute e k s = Some (s', os) ->
  exists c am, distributable e s = Some (c, am) /\ F (set_cfg s c) os s' /\
  match am with
  | None => s' = set_cfg s c /\ os = []
  | Some x => exists sec gv dv st q all,
      match second c with Some (_, cut) => muldiv128 x cut 100 | None => Some 0 end = Some sec /\
      match gov c with
      | Some _ => do y <- sub128 x sec; muldiv128 y (pct c) 100 | None => Some 0 end = Some gv /\
      match dev c with
      | Some d => umul x (d_share d) = Some dv /\ (dv <> 0 -> pool e (factory c) (astro c) (d_asset d) = true)
      | None => dv = 0 end /\
      match staking c with Some _ => st = x - gv - sec - dv /\ 0 <= st | None => st = 0 end /\
      0 <= q /\
      os = match second c with Some (to, _) => payl (astro c) to sec | None => [] end ++
           match gov c with Some to => payl (astro c) to gv | None => [] end ++
           match dev c with
           | Some d => if dv =? 0 then [] else
                         [Swapped (astro c) (d_asset d) dv q; Paid (d_asset d) (d_to d) all]
           | None => [] end ++
           match staking c with Some to => payl (astro c) to st | None => [] end
  end.
Proof.
  unfold distribute. intros H. unbind H as (c, am) E0. exists c, am. split; auto.
  cbv zeta in H. destruct am as [x|].
  2:{ injection H as <- <-. split; [apply F_nil | auto]. }
  unbind H as sec E1. unbind H as gv E2. unbind H as dv E3. unbind H as st E4.
  unbind H as (s1, o1) E5. unbind H as (s2, o2) E6. unbind H as (s3, o3) E7.
  unbind H as (s4, o4) E8. injection H as <- <-.
  assert (A1 : o1 = match second c with Some (to, _) => payl (astro c) to sec | None => [] end
               /\ F (set_cfg s c) o1 s1).
  { destruct (second c) as [[to cut]|].
    - apply send_opt_spec in E5. destruct E5 as (-> & F1 & _). auto.
    - injection E5 as <- <-. split; auto. apply F_nil. }
  assert (A2 : o2 = match gov c with Some to => payl (astro c) to gv | None => [] end /\ F s1 o2 s2).
  { destruct (gov c) as [to|].
    - apply send_opt_spec in E6. destruct E6 as (-> & F1 & _). auto.
    - injection E6 as <- <-. split; auto. apply F_nil. }
  assert (A4 : o4 = match staking c with Some to => payl (astro c) to st | None => [] end /\ F s3 o4 s4).
  { destruct (staking c) as [to|].
    - apply send_opt_spec in E8. destruct E8 as (-> & F1 & _). auto.
    - injection E8 as <- <-. split; auto. apply F_nil. }
  assert (A3 : exists q all, 0 <= q /\ o3 = match dev c with
           | Some d => if dv =? 0 then [] else
                         [Swapped (astro c) (d_asset d) dv q; Paid (d_asset d) (d_to d) all]
           | None => [] end /\ F s2 o3 s3).
  { destruct (dev c) as [d|].
    - destruct (dv =? 0) eqn:D0.
      + injection E7 as <- <-. exists 0, 0. repeat split; try lia; apply F_nil.
      + unbind E7 as (sa, oa) E7a. unbind E7 as (sb, ob) E7b. injection E7 as <- <-.
        apply trade_spec in E7a. destruct E7a as (q & _ & Q0 & -> & _ & Fa).
        apply send_spec in E7b. destruct E7b as (-> & _ & Fb & _).
        exists q, (get (bal sa) (d_asset d)). split; [exact Q0|]. split; [reflexivity|].
        exact (F_trans _ [_] _ [_] _ Fa Fb).
    - injection E7 as <- <-. exists 0, 0. repeat split; try lia; apply F_nil. }
  destruct A1 as (-> & F1), A2 as (-> & F2), A4 as (-> & F4), A3 as (q & all & Q0 & -> & F3).
  split; [eapply F_trans; [exact F1|]; eapply F_trans; [exact F2|]; eapply F_trans; [exact F3 | exact F4]|].
  exists sec, gv, dv, st, q, all. repeat split; auto.
  - destruct (dev c) as [d|].
    + unbind E3 as v E3a. unguard E3 G. injection E3 as <-. split; auto. intros N.
      apply orb_true_iff in G. destruct G; bools; congruence.
    + congruence.
  - destruct (staking c) as [to|].
    + unbind E4 as y E4a. unbind E4 as z E4b. num_inv. lia.
    + congruence.
Qed.

(** Amounts of one distribution. *)
Lemma spent_payl a b t v : spent a (payl b t v) = if a =? b then v else 0.
Proof. unfold payl. destruct (Z.eqb_spec v 0); simpl; destruct (a =? b); lia. Qed.
Lemma paid_payl a t b u v : paid a t (payl b u v) = if (a =? b) && (t =? u) then v else 0.
Proof. unfold payl. destruct (Z.eqb_spec v 0); simpl; destruct ((a =? b) && (t =? u)); lia. Qed.
Lemma gained_payl a b t v : gained a (payl b t v) = 0.
Proof. unfold payl. destruct (Z.eqb_spec v 0); reflexivity. Qed.
Lemma offered_payl a b c t v : offered a b (payl c t v) = 0.
Proof. unfold payl. destruct (Z.eqb_spec v 0); reflexivity. Qed.

(** [swap_assets]: what is offered, and where it goes. *)
Lemma swap_assets_spec e s l : forall ms bs,
  swap_assets e s l = Some (ms, bs) ->
  (forall a t v, In (a, t, v) ms ->
     exists lim br, In (a, lim) l /\ v = take s a lim /\ v <> 0 /\ target e s a = Some (t, br)) /\
  (forall b, In b bs -> exists a, target e s a = Some (b, true)).
Proof.
  induction l as [|[a lim] l IH]; intros ms bs H; simpl in H.
  - injection H as <- <-. simpl. tauto.
  - destruct (take s a lim =? 0) eqn:T0.
    + destruct (IH _ _ H) as (A & B). split; auto.
      intros x t v I. destruct (A _ _ _ I) as (lm & br & I2 & R). exists lm, br. simpl. auto.
    + unbind H as (t, br) E1. unbind H as (ms2, bs2) E2. injection H as <- <-.
      destruct (IH _ _ eq_refl) as (A & B). bools. split.
      * intros x t2 v [I|I].
        -- injection I as <- <- <-. exists lim, br. simpl. auto.
        -- destruct (A _ _ _ I) as (lm & br2 & I2 & R). exists lm, br2. simpl. auto.
      * intros b I. destruct br; cbn [andb] in I; [|auto].
        destruct (negb (mem t bs2)); [|auto]. destruct I as [<-|I]; auto.
        exists a. auto.
Qed.

Lemma target_astro e s t br :
  sane e -> find (astro (cfg s)) (bridges s) = None ->
  target e s (astro (cfg s)) = Some (t, br) -> dbridge (cfg s) = Some t /\ t <> astro (cfg s).
Proof.
  unfold target. intros (SA & _) N. cbv zeta. rewrite N. destruct (dbridge (cfg s)) as [d|] eqn:D.
  - destruct (negb (astro (cfg s) =? d) && pool e (factory (cfg s)) (astro (cfg s)) d) eqn:B.
    + intros H. injection H as <- <-. bools. auto.
    + rewrite SA. discriminate.
  - rewrite SA. discriminate.
Qed.
Lemma target_bridge e s a b :
  target e s a = Some (b, true) -> b = astro (cfg s) -> dbridge (cfg s) = Some b.
Proof.
  unfold target. cbv zeta. intros H ->. destruct (find a (bridges s)) as [b|].
  - unguard H G. injection H as E1 E2. rewrite E1, Z.eqb_refl in E2. discriminate.
  - destruct (dbridge (cfg s)) as [d|].
    + destruct (negb (a =? d) && pool e (factory (cfg s)) a d).
      * injection H as ->. reflexivity.
      * destruct (pool e (factory (cfg s)) a (astro (cfg s))); discriminate.
    + destruct (pool e (factory (cfg s)) a (astro (cfg s))); discriminate.
Qed.

(** The swaps of a collection: only balances move, nothing is paid, ASTRO is not offered. [pre] is
    the state in which [distribute] starts. *)
Definition swaps (s : state) (os : list out) (pre : state) : Prop :=
  F s os pre /\ (forall a t, paid a t os = 0) /\
  ((forall a, 0 <= gained a os) /\ (forall a b, 0 <= offered a b os <= spent a os)).
Lemma swaps_nil s : swaps s [] s.
Proof. split; [apply F_nil|]. repeat split; intros; simpl; lia. Qed.
Lemma swaps_trans s o1 s1 o2 s2 : swaps s o1 s1 -> swaps s1 o2 s2 -> swaps s (o1 ++ o2) s2.
Proof.
  intros (A & B & C & D) (A2 & B2 & C2 & D2). split; [eapply F_trans; eauto|]. split; [|split]; intros.
  - rewrite paid_app, B, B2. reflexivity.
  - rewrite gained_app. specialize (C a). specialize (C2 a). lia.
  - rewrite offered_app, spent_app. specialize (D a b). specialize (D2 a b). lia.
Qed.

Lemma bridge_spec fuel : forall e k bs s s' os,
  bridge fuel e k bs s = Some (s', os) ->
  exists k' pre o1 o2, swaps s o1 pre /\ distribute e k' pre = Some (s', o2) /\ os = o1 ++ o2 /\
    (sane e -> find (astro (cfg s)) (bridges s) = None ->
     (In (astro (cfg s)) bs -> dbridge (cfg s) = Some (astro (cfg s))) ->
     spent (astro (cfg s)) o1 = 0).
Proof.
  assert (Nil : forall e k s s' os, distribute e k s = Some (s', os) ->
    exists k' pre o1 o2, swaps s o1 pre /\ distribute e k' pre = Some (s', o2) /\ os = o1 ++ o2 /\
    spent (astro (cfg s)) o1 = 0).
  { intros. exists k, s, [], os. split; [apply swaps_nil | auto]. }
  induction fuel as [|f IH]; intros e k bs s s' os H.
  - destruct bs; [|discriminate H]. destruct (Nil _ _ _ _ _ H) as (k' & pre & o1 & o2 & A & B & C & D).
    exists k', pre, o1, o2. auto.
  - destruct bs as [|b bs].
    { destruct (Nil _ _ _ _ _ H) as (k' & pre & o1 & o2 & A & B & C & D). exists k', pre, o1, o2. auto. }
    cbn [bridge] in H. set (L := map (fun a : Z => (a, None)) (b :: bs)) in H.
    unbind H as (ms, nb) E1. destruct ms as [|m ms]; [discriminate H|].
    unbind H as ((k2, s1), o1) E2. unbind H as (s2, o2) E3. injection H as <- <-.
    destruct (swap_assets_spec _ _ _ _ _ E1) as (SA & SB).
    destruct (trades_spec _ _ _ _ _ _ _ E2) as (F1 & P1 & S1 & G1).
    destruct (IH _ _ _ _ _ _ E3) as (k3 & pre & oa & ob & A & B & C & D).
    exists k3, pre, (o1 ++ oa), ob. split; [|split; [exact B|]].
    { eapply swaps_trans; [|exact A]. split; auto. }
    split; [rewrite C; apply app_assoc|].
    intros Sn N I. rewrite spent_app.
    assert (EC : cfg s1 = cfg s) by (eapply F_cfg; eauto).
    assert (EB : bridges s1 = bridges s) by (destruct F1 as (_ & _ & ->); reflexivity).
    rewrite EC, EB in D. rewrite D; auto.
    + rewrite S1; [reflexivity|]. intros J. apply in_map_iff in J. destruct J as ([[a t] v] & J1 & J2).
      cbn [fst] in J1. subst a. destruct (SA _ _ _ J2) as (lim & br & K1 & K2 & K3 & K4).
      destruct (target_astro _ _ _ _ Sn N K4) as (D1 & D2).
      assert (K5 : In (astro (cfg s)) (b :: bs)).
      { unfold L in K1. apply in_map_iff in K1. destruct K1 as (x & Q1 & Q2). injection Q1 as -> _. exact Q2. }
      apply I in K5. congruence.
    + intros J. destruct Sn as (_ & Pm).
      apply (Permutation.Permutation_in _ (Permutation.Permutation_sym (Pm nb))) in J.
      destruct (SB _ J) as (a & T). eapply target_bridge; eauto.
Qed.

(** A collection is a series of swaps and one distribution. *)
Lemma collect_spec e l s s' os :
  collect e l s = Some (s', os) ->
  (forall cd, cooldown (cfg s) = Some cd -> lastcol s + cd <= now e) /\
  exists k pre o1 o2,
    swaps (mkState (cfg s) (now e) (bridges s) (seize_to s) (seizable s) (bal s)) o1 pre /\
    distribute e k pre = Some (s', o2) /\ os = o1 ++ o2 /\
    (sane e -> find (astro (cfg s)) (bridges s) = None -> spent (astro (cfg s)) o1 = 0).
Proof.
  unfold collect. cbv zeta. intros H. unguard H G1. unbind H as ok E0. unguard H G2. unguard H G3.
  set (s0 := mkState (cfg s) (now e) (bridges s) (seize_to s) (seizable s) (bal s)) in *.
  unbind H as (ms, bs) E1. split.
  { intros cd C. rewrite C in E0. unbind E0 as t E2. injection E0 as E0. rewrite <- E0 in G2. num_inv. bools. lia. }
  destruct (swap_assets_spec _ _ _ _ _ E1) as (SA & SB).
  destruct ms as [|m ms].
  { exists 0%nat, s0, [], os. split; [apply swaps_nil | auto]. }
  unbind H as ((k2, s1), o1) E2. unbind H as (s2, o2) E3. injection H as <- <-.
  destruct (trades_spec _ _ _ _ _ _ _ E2) as (F1 & P1 & S1 & G4).
  destruct (bridge_spec _ _ _ _ _ _ _ E3) as (k3 & pre & oa & ob & A & B & C & D).
  exists k3, pre, (o1 ++ oa), ob. split; [|split; [exact B|]].
  { eapply swaps_trans; [|exact A]. split; auto. }
  split; [rewrite C; apply app_assoc|].
  intros Sn N. rewrite spent_app.
  assert (EC : cfg s1 = cfg s) by (rewrite (F_cfg _ _ _ F1); reflexivity).
  assert (EB : bridges s1 = bridges s) by (destruct F1 as (_ & _ & ->); reflexivity).
  rewrite EC, EB in D. rewrite D; auto.
  - rewrite S1; [reflexivity|]. intros J. apply in_map_iff in J. destruct J as ([[a t] v] & J1 & J2).
    cbn [fst] in J1. subst a. destruct (SA _ _ _ J2) as (lim & br & K1 & _).
    apply filter_In in K1. destruct K1 as (_ & K1). cbn [fst] in K1. rewrite Z.eqb_refl in K1. discriminate.
  - intros J. destruct Sn as (_ & Pm).
    apply (Permutation.Permutation_in _ (Permutation.Permutation_sym (Pm bs))) in J.
    destruct (SB _ J) as (a & T). exact (target_bridge _ _ _ _ T eq_refl).
Qed.

(** ** One distribution *)

Lemma muldiv_share x n d v : 0 < d -> muldiv128 x n d = Some v -> is_share v n d x.
Proof.
  intros D H. num_inv. pose proof (div_mul_le (x * n) d D). pose proof (div_mul_gt (x * n) d D).
  unfold is_share. nia.
Qed.
Lemma umul_share x n v : umul x n = Some v -> is_share v n DEC x.
Proof.
  intros H. apply umul_Some in H. destruct H as (-> & _).
  pose proof (div_mul_le (x * n) DEC DEC_pos). pose proof (div_mul_gt (x * n) DEC DEC_pos).
  unfold is_share. generalize dependent (x * n / DEC). intros. pose proof DEC_pos. nia.
Qed.
Lemma is_share_0 n d : 0 < d -> is_share 0 n d 0.
Proof. unfold is_share. lia. Qed.

(** The parts a distribution is made of, when a staking contract is set. *)
Record parts (c : config) (st : Z) (os : list out) : Prop := mkParts {
  pt_sec : forall r k, second c = Some (r, k) -> gov c <> Some r -> r <> st ->
             is_share (paid (astro c) r os) k 100 (spent (astro c) os);
  pt_gov : forall g r k, gov c = Some g -> second c = Some (r, k) -> g <> r -> g <> st -> r <> st ->
             is_share (paid (astro c) g os) (pct c) 100 (spent (astro c) os - paid (astro c) r os);
  pt_gov0 : forall g, gov c = Some g -> second c = None -> g <> st ->
             is_share (paid (astro c) g os) (pct c) 100 (spent (astro c) os);
  pt_dev : forall d, dev c = Some d ->
             is_share (offered (astro c) (d_asset d) os) (d_share d) DEC (spent (astro c) os);
  pt_st : forall d a2, (match dev c with Some x => d_asset x = d | None => a2 = 0 end) ->
             a2 = match dev c with Some _ => offered (astro c) d os | None => 0 end ->
             paid (astro c) st os
               + (match second c with Some (r, _) => if r =? st then 0 else paid (astro c) r os | None => 0 end)
               + (match gov c with
                  | Some g => if (g =? st) || match second c with Some (r, _) => g =? r | None => false end
                              then 0 else paid (astro c) g os
                  | None => 0 end)
               + a2 = spent (astro c) os }.

Lemma distribute_parts e k s s' os st :
  distribute e k s = Some (s', os) -> sane e -> staking (cfg s) = Some st ->
  exists c am, distributable e s = Some (c, am) /\
    (exists b, s' = set_bal (set_cfg s c) b) /\
    (forall a, holds s' a = holds s a + gained a os - spent a os) /\
    spent (astro (cfg s)) os = match am with Some x => x | None => 0 end /\
    gained (astro (cfg s)) os = 0 /\
    parts (cfg s) st os.
Proof.
  intros H (Sn & _) ST. destruct (distribute_spec _ _ _ _ _ H) as (c & am & E0 & Fl & X).
  destruct (distributable_spec _ _ _ _ E0) as ((K1 & K2 & K3 & K4 & K5 & K6 & K7 & _) & _).
  exists c, am. split; auto. destruct Fl as (A & B & C). split; [eauto|]. split; [exact A|].
  destruct am as [x|].
  2:{ destruct X as (_ & ->). simpl. split; auto. split; auto.
      constructor; intros; simpl; try (apply is_share_0; try lia; exact DEC_pos).
      destruct (dev (cfg s)); subst; simpl; destruct (second (cfg s)) as [[? ?]|], (gov (cfg s));
        repeat match goal with |- context [if ?b then _ else _] => destruct b end; reflexivity. }
  destruct X as (sec & gv & dv & stv & q & all & Q1 & Q2 & Q3 & Q4 & Q5 & ->).
  rewrite K1, ST in *. rewrite K2, K3, K4, K5, K6, K7 in *. destruct Q4 as (-> & St0).
  assert (D0 : forall d, dev (cfg s) = Some d -> dv <> 0 -> (astro (cfg s) =? d_asset d) = false).
  { intros d Ed N. rewrite Ed in Q3. destruct Q3 as (_ & P). specialize (P N).
    apply Z.eqb_neq. intros Eq. rewrite <- Eq, Sn in P. discriminate. }
  assert (Sp : spent (astro (cfg s)) (match dev (cfg s) with
           | Some d => if dv =? 0 then [] else
                         [Swapped (astro (cfg s)) (d_asset d) dv q; Paid (d_asset d) (d_to d) all]
           | None => [] end) = dv).
  { destruct (dev (cfg s)) as [d|] eqn:Ed; [|simpl; lia]. destruct (Z.eqb_spec dv 0); [simpl; lia|].
    simpl. rewrite Z.eqb_refl, (D0 d) by auto. lia. }
  assert (Gp : gained (astro (cfg s)) (match dev (cfg s) with
           | Some d => if dv =? 0 then [] else
                         [Swapped (astro (cfg s)) (d_asset d) dv q; Paid (d_asset d) (d_to d) all]
           | None => [] end) = 0).
  { destruct (dev (cfg s)) as [d|] eqn:Ed; [|simpl; lia]. destruct (Z.eqb_spec dv 0); [simpl; lia|].
    simpl. rewrite (D0 d) by auto. lia. }
  assert (Pp : forall r, paid (astro (cfg s)) r (match dev (cfg s) with
           | Some d => if dv =? 0 then [] else
                         [Swapped (astro (cfg s)) (d_asset d) dv q; Paid (d_asset d) (d_to d) all]
           | None => [] end) = 0).
  { intros r. destruct (dev (cfg s)) as [d|] eqn:Ed; [|simpl; lia]. destruct (Z.eqb_spec dv 0); [simpl; lia|].
    simpl. rewrite (D0 d) by auto. simpl. lia. }
  assert (Op : forall d, dev (cfg s) = Some d -> offered (astro (cfg s)) (d_asset d) (match dev (cfg s) with
           | Some d => if dv =? 0 then [] else
                         [Swapped (astro (cfg s)) (d_asset d) dv q; Paid (d_asset d) (d_to d) all]
           | None => [] end) = dv).
  { intros d Ed. rewrite Ed. destruct (Z.eqb_spec dv 0); [simpl; lia|].
    simpl. rewrite !Z.eqb_refl. simpl. lia. }
  set (mid := match dev (cfg s) with
           | Some d => if dv =? 0 then [] else
                         [Swapped (astro (cfg s)) (d_asset d) dv q; Paid (d_asset d) (d_to d) all]
           | None => [] end) in *.
  set (l1 := match second (cfg s) with Some (to, _) => payl (astro (cfg s)) to sec | None => [] end).
  set (l2 := match gov (cfg s) with Some to => payl (astro (cfg s)) to gv | None => [] end).
  assert (S1 : spent (astro (cfg s)) l1 = sec).
  { unfold l1. destruct (second (cfg s)) as [[r k0]|]; [|injection Q1 as <-; reflexivity].
    rewrite spent_payl, Z.eqb_refl. reflexivity. }
  assert (S2 : spent (astro (cfg s)) l2 = gv).
  { unfold l2. destruct (gov (cfg s)) as [g|]; [|injection Q2 as <-; reflexivity].
    rewrite spent_payl, Z.eqb_refl. reflexivity. }
  assert (P1 : forall r, paid (astro (cfg s)) r l1 =
             match second (cfg s) with Some (to, _) => if r =? to then sec else 0 | None => 0 end).
  { intros r. unfold l1. destruct (second (cfg s)) as [[to k0]|]; [|reflexivity].
    rewrite paid_payl, Z.eqb_refl. reflexivity. }
  assert (P2 : forall r, paid (astro (cfg s)) r l2 =
             match gov (cfg s) with Some to => if r =? to then gv else 0 | None => 0 end).
  { intros r. unfold l2. destruct (gov (cfg s)) as [to|]; [|reflexivity].
    rewrite paid_payl, Z.eqb_refl. reflexivity. }
  assert (O1 : forall d, offered (astro (cfg s)) d l1 = 0).
  { intros. unfold l1. destruct (second (cfg s)) as [[r k0]|]; [apply offered_payl | reflexivity]. }
  assert (O2 : forall d, offered (astro (cfg s)) d l2 = 0).
  { intros. unfold l2. destruct (gov (cfg s)) as [r|]; [apply offered_payl | reflexivity]. }
  assert (G12 : gained (astro (cfg s)) l1 = 0 /\ gained (astro (cfg s)) l2 = 0).
  { unfold l1, l2. split; [destruct (second (cfg s)) as [[r k0]|] | destruct (gov (cfg s))];
      try apply gained_payl; reflexivity. }
  assert (SP : spent (astro (cfg s)) (l1 ++ l2 ++ mid ++ payl (astro (cfg s)) st (x - gv - sec - dv)) = x).
  { rewrite !spent_app, S1, S2, Sp, spent_payl, Z.eqb_refl. lia. }
  split; [exact SP|]. split.
  { rewrite !gained_app, Gp, gained_payl. lia. }
  clearbody l1 l2 mid.
  constructor.
  - intros r k0 Er N1 N2. rewrite SP, !paid_app, P1, P2, Pp, paid_payl, Er, Z.eqb_refl.
    rewrite Er in Q1. apply muldiv_share in Q1; [|lia].
    destruct (gov (cfg s)) as [g|]; [destruct (Z.eqb_spec r g); [subst; congruence|]|];
      (destruct (Z.eqb_spec r st); [congruence|]); rewrite andb_false_r, !Z.add_0_r; exact Q1.
  - intros g r k0 Eg Er N1 N2 N3. rewrite SP, !paid_app, !P1, !P2, !Pp, !paid_payl, Er, Eg, !Z.eqb_refl.
    rewrite Eg in Q2. unbind Q2 as y Q2a. apply sub128_Some in Q2a. destruct Q2a as (-> & _).
    apply muldiv_share in Q2; [|lia].
    destruct (Z.eqb_spec g r); [congruence|]. destruct (Z.eqb_spec g st); [congruence|].
    destruct (Z.eqb_spec r g); [congruence|]. destruct (Z.eqb_spec r st); [congruence|].
    rewrite !andb_false_r, !Z.add_0_r, Z.add_0_l. exact Q2.
  - intros g Eg Er N2. rewrite SP, !paid_app, P1, P2, Pp, paid_payl, Er, Eg, !Z.eqb_refl.
    rewrite Er in Q1. injection Q1 as <-.
    rewrite Eg in Q2. unbind Q2 as y Q2a. apply sub128_Some in Q2a. destruct Q2a as (-> & _).
    apply muldiv_share in Q2; [|lia]. rewrite Z.sub_0_r in Q2.
    destruct (Z.eqb_spec g st); [congruence|]. rewrite !andb_false_r, !Z.add_0_r, Z.add_0_l. exact Q2.
  - intros d Ed. rewrite SP, !offered_app, O1, O2, (Op d Ed), offered_payl.
    rewrite Ed in Q3. destruct Q3 as (Q3 & _). apply umul_share in Q3.
    rewrite Z.add_0_r, !Z.add_0_l. exact Q3.
  - intros d a2 Hd Ha. rewrite SP.
    assert (a2 = dv).
    { destruct (dev (cfg s)) as [d0|]; [|congruence]. rewrite Ha, <- Hd.
      rewrite !offered_app, O1, O2, (Op d0 eq_refl), offered_payl. lia. }
    subst a2. rewrite H0.
    assert (PS : forall r, paid (astro (cfg s)) r
        (l1 ++ l2 ++ mid ++ payl (astro (cfg s)) st (x - gv - sec - dv)) =
      match second (cfg s) with Some (to, _) => if r =? to then sec else 0 | None => 0 end +
      match gov (cfg s) with Some to => if r =? to then gv else 0 | None => 0 end +
      if r =? st then x - gv - sec - dv else 0).
    { intros r. rewrite !paid_app, P1, P2, Pp, paid_payl, Z.eqb_refl. cbn [andb]. lia. }
    rewrite PS, Z.eqb_refl.
    destruct (second (cfg s)) as [[r k0]|]; destruct (gov (cfg s)) as [g|]; rewrite ?PS, ?Z.eqb_refl;
      try (injection Q1 as Q1); try (injection Q2 as Q2);
      repeat match goal with |- context [?a =? ?b] => destruct (Z.eqb_spec a b) end; subst; cbn [orb]; try congruence; try lia.
Qed.

(** ** Every message *)

Lemma send_all_spec e to l : forall s s' os, send_all e to l s = Some (s', os) ->
  F s os s' /\ os = map (fun p => Paid (fst p) to (snd p)) l.
Proof.
  induction l as [|[a v] l IH]; intros s s' os H; simpl in H.
  - injection H as <- <-. split; [apply F_nil | reflexivity].
  - unbind H as (s1, o) E1. unbind H as (s2, os2) E2. injection H as <- <-.
    apply send_spec in E1. destruct E1 as (-> & _ & F1 & _).
    destruct (IH _ _ _ E2) as (F2 & ->). split; [exact (F_trans _ [_] _ _ _ F1 F2) | reflexivity].
Qed.

Lemma seize_spec e l s s' os : seize e l s = Some (s', os) ->
  limits_ok l = true /\ F s os s' /\ (forall x, In x l -> In (fst x) (seizable s)) /\
  (os = [] \/ exists to, seize_to s = Some to /\ os = map (fun p => Paid (fst p) to (snd p)) (seize_plan (bal s) l)).
Proof.
  unfold seize. intros H. unguard H G0. unguard H G1. unguard H G2. unguard H G3.
  assert (A : forall x, In x l -> In (fst x) (seizable s)).
  { intros x I. rewrite forallb_forall in G3. apply mem_In. auto. }
  split; auto. destruct (seize_plan (bal s) l) as [|p r] eqn:P.
  - injection H as <- <-. split; [apply F_nil | auto].
  - unbind H as to E1. apply send_all_spec in H. destruct H as (Fl & O). split; [exact Fl|].
    split; [exact A|]. right. exists to. auto.
Qed.

Lemma distribute_F e k s s' os : distribute e k s = Some (s', os) ->
  exists c, F (set_cfg s c) os s' /\ own c = own (cfg s).
Proof.
  intros H. destruct (distribute_spec _ _ _ _ _ H) as (c & am & E0 & Fl & _).
  exists c. split; auto. destruct (distributable_spec _ _ _ _ E0) as (K & _). tauto.
Qed.

Lemma step_flow e sender m s s' os :
  step e sender m s = Some (s', os) -> (forall a v, m <> Receive a v) ->
  (forall a, holds s' a = holds s a + gained a os - spent a os) /\ (nonneg (bal s) -> nonneg (bal s')).
Proof.
  assert (Z0 : forall s1 s2, bal s1 = bal s2 ->
    (forall a, holds s2 a = holds s1 a + gained a [] - spent a []) /\ (nonneg (bal s1) -> nonneg (bal s2))).
  { intros s1 s2 E. unfold holds. rewrite E. split; auto. intros. simpl. lia. }
  assert (Si : forall o, silent o = Some (s', os) -> exists s2, o = Some s2 /\ s' = s2 /\ os = []).
  { intros o H. unfold silent in H. unbind H as s2 E. injection H as <- <-. eauto. }
  assert (Ds : forall e k s0 s2 os2, distribute e k s0 = Some (s2, os2) ->
    (forall a, holds s2 a = holds s0 a + gained a os2 - spent a os2) /\ (nonneg (bal s0) -> nonneg (bal s2))).
  { intros e0 k s0 s2 os2 H. apply distribute_F in H. destruct H as (c & (A & B & _) & _). split; auto. }
  assert (Cm : forall s0 o1 pre o2 s2, swaps s0 o1 pre ->
    ((forall a, holds s2 a = holds pre a + gained a o2 - spent a o2) /\ (nonneg (bal pre) -> nonneg (bal s2))) ->
    (forall a, holds s2 a = holds s0 a + gained a (o1 ++ o2) - spent a (o1 ++ o2)) /\ (nonneg (bal s0) -> nonneg (bal s2))).
  { intros s0 o1 pre o2 s2 ((A & B & _) & _) (C & D). split; [|auto]. intros a.
    rewrite C, gained_app, spent_app. unfold holds. rewrite A. lia. }
  intros H NR. destruct m; simpl in H.
  - destruct (collect_spec _ _ _ _ _ H) as (_ & k & pre & o1 & o2 & A & B & -> & _).
    exact (Cm _ _ _ _ _ A (Ds _ _ _ _ _ B)).
  - destruct (Si _ H) as (s2 & E & -> & ->). apply Z0. unfold update_config in E. cbv zeta in E.
    repeat (match type of E with (if ?b then _ else None) = Some _ => destruct b; [|discriminate E] end).
    injection E as <-. reflexivity.
  - destruct (Si _ H) as (s2 & E & -> & ->). apply Z0. unfold update_bridges in E.
    unguard E G. enough (forall l s0, add_bridges e l s0 = Some s2 -> bal s2 = bal s0) as X
      by (apply X in E; symmetry; exact E).
    clear. induction l as [|[a b] l IH]; intros s0 H; simpl in H; [congruence|].
    unguard H G1. unguard H G2. apply IH in H. exact H.
  - unguard H G. destruct bs as [|b bs].
    + injection H as <- <-. apply Z0. reflexivity.
    + destruct (bridge_spec _ _ _ _ _ _ _ H) as (k & pre & o1 & o2 & A & B & -> & _).
      exact (Cm _ _ _ _ _ A (Ds _ _ _ _ _ B)).
  - unguard H G. eauto.
  - destruct (Si _ H) as (s2 & E & -> & ->). unbind E as o E1. injection E as <-. apply Z0. reflexivity.
  - destruct (Si _ H) as (s2 & E & -> & ->). apply Z0. unfold enable in E. cbv zeta in E.
    unguard E G1. unguard E G2. unguard E G3. injection E as <-. reflexivity.
  - destruct (seize_spec _ _ _ _ _ H) as (_ & (A & B & _) & _). split; auto.
  - unguard H G. injection H as <- <-. apply Z0. reflexivity.
  - exfalso. exact (NR a v eq_refl).
Qed.

(** Configuration after a message: what may differ without the owner. *)
Definition same_setup (c c' : config) : Prop :=
  staking c' = staking c /\ dev c' = dev c /\ gov c' = gov c /\ second c' = second c /\
  pct c' = pct c /\ astro c' = astro c /\ factory c' = factory c /\ dbridge c' = dbridge c /\
  spread c' = spread c /\ cooldown c' = cooldown c.
Lemma same_setup_refl c : same_setup c c.
Proof. repeat split. Qed.

(** The ledger of the pre-upgrade reward: unchanged, recorded before enabling, or reduced. *)
Definition reward_step (e : env) (c c' : config) : Prop :=
  (remainder c' = remainder c /\ preamt c' = preamt c /\ pblocks c' = pblocks c /\
   lastblk c' = lastblk c /\ enabled c' = enabled c) \/
  (enabled c = false /\ enabled c' = false /\ remainder c' = preamt c' /\ pblocks c' = pblocks c /\ 
   lastblk c' = lastblk c) \/
  (enabled c = false /\ enabled c' = true /\ remainder c' = remainder c /\ preamt c' = preamt c /\
   lastblk c' = height e /\ 0 < pblocks c') \/
  (enabled c = true /\ enabled c' = true /\ preamt c' = preamt c /\ pblocks c' = pblocks c /\
   lastblk c < height e /\ lastblk c' = height e /\
   remainder c' = remainder c - Z.min ((height e - lastblk c) * (preamt c / pblocks c)) (remainder c)).

Lemma distribute_reward e k s s' os :
  distribute e k s = Some (s', os) ->
  reward_step e (cfg s) (cfg s') /\ same_setup (cfg s) (cfg s') /\ own (cfg s') = own (cfg s) /\
  lastcol s' = lastcol s /\ bridges s' = bridges s /\ seize_to s' = seize_to s /\ seizable s' = seizable s.
Proof.
  intros H. destruct (distribute_spec _ _ _ _ _ H) as (c & am & E0 & (_ & _ & ->) & _).
  destruct (distributable_spec _ _ _ _ E0) as (K & X). cbn [cfg set_bal set_cfg lastcol bridges seize_to seizable].
  split; [|repeat split; tauto]. destruct K as (_ & _ & _ & _ & _ & _ & _ & _ & _ & _ & K11 & K12 & _).
  destruct am as [y|].
  - destruct X as (_ & En & Pa & [(-> & _)|(R & L & P & L2 & _ & R2 & _)]).
    + left. auto.
    + right; right; right. repeat split; auto; congruence.
  - destruct X as [(-> & _)|(En & R & P & L & _)].
    + left. auto.
    + right; left. repeat split; auto; congruence.
Qed.

Lemma swaps_rest s os s' : swaps s os s' -> s' = set_bal s (bal s').
Proof. intros ((_ & _ & H) & _). exact H. Qed.

Lemma collect_reward e l s s' os :
  collect e l s = Some (s', os) ->
  reward_step e (cfg s) (cfg s') /\ same_setup (cfg s) (cfg s') /\ own (cfg s') = own (cfg s) /\
  lastcol s' = now e /\ bridges s' = bridges s /\ seize_to s' = seize_to s /\ seizable s' = seizable s.
Proof.
  intros H. destruct (collect_spec _ _ _ _ _ H) as (_ & k & pre & o1 & o2 & A & B & _).
  apply swaps_rest in A. apply distribute_reward in B. rewrite A in B.
  cbn [cfg set_bal lastcol bridges seize_to seizable] in B. exact B.
Qed.

Lemma update_config_reward e sender u s s' :
  update_config e sender u s = Some s' ->
  sender = owner s /\ reward_step e (cfg s) (cfg s') /\ own (cfg s') = own (cfg s) /\
  (u_astro u = None -> astro (cfg s') = astro (cfg s)) /\
  (staking (cfg s) <> None -> staking (cfg s') <> None) /\
  lastcol s' = lastcol s /\ bridges s' = bridges s /\ bal s' = bal s /\
  seize_to s' = seize_to s /\ seizable s' = seizable s /\
  (cooldown (cfg s) <> None -> cooldown (cfg s') <> None) /\
  (good_config (cfg s) -> good_config (cfg s')).
Proof.
  unfold update_config. cbv zeta. intros H. unguard H G0. unguard H G1. unguard H G2. unguard H G3.
  unguard H G4. unguard H G5. unguard H G6. injection H as <-.
  cbn [cfg set_cfg staking dev dbridge gov pct astro spread enabled pblocks lastblk remainder preamt
       second cooldown own lastcol bridges bal seize_to seizable].
  split; [apply Z.eqb_eq; exact G0|]. split; [left; auto|]. split; [reflexivity|].
  split; [intros ->; reflexivity|]. split; [destruct (u_staking u); simpl; congruence|].
  do 5 (split; [reflexivity|]). split; [destruct (u_cooldown u); simpl; congruence|].
  intros (P1 & P2 & P3 & P4 & P5 & P6). unfold good_config.
  cbn [cfg set_cfg staking dev dbridge gov pct astro spread enabled pblocks lastblk remainder preamt
       second cooldown own]. repeat split.
  - destruct (u_pct u); simpl; [bools; lia | lia].
  - destruct (u_pct u); simpl; [bools; lia | lia].
  - destruct (u_spread u); simpl in *; [bools; unfold MAX_SPREAD in *; lia | lia].
  - destruct (u_spread u); simpl in *; [bools; unfold MAX_SPREAD in *; lia | lia].
  - intros. destruct (u_second u) as [[? ?]|]; simpl in *.
    + injection H as -> ->. bools. lia.
    + apply P3 in H. lia.
  - intros. destruct (u_second u) as [[? ?]|]; simpl in *.
    + injection H as -> ->. bools. unfold MAX_CUT in *. lia.
    + apply P3 in H. lia.
  - intros. destruct (u_cooldown u); simpl in *.
    + injection H as ->. bools. unfold MIN_COOLDOWN in *. lia.
    + apply P4 in H. lia.
  - intros. destruct (u_cooldown u); simpl in *.
    + injection H as ->. bools. unfold MAX_COOLDOWN in *. lia.
    + apply P4 in H. lia.
  - intros. destruct (u_dev u) as [[?|]|]; simpl in *; try discriminate.
    + injection H as ->. bools. lia.
    + apply P5 in H. lia.
  - intros. destruct (u_dev u) as [[?|]|]; simpl in *; try discriminate.
    + injection H as ->. bools. lia.
    + apply P5 in H. lia.
  - destruct (u_staking u); simpl in *; [discriminate|]. destruct (P6 H) as (P7 & _).
    rewrite H in G2. destruct (u_pct u); simpl; [|exact P7]. bools. assumption.
  - destruct (u_staking u); simpl in *; [discriminate|]. destruct (P6 H) as (_ & P8).
    rewrite H in G1. destruct (u_gov u) as [[?|]|]; simpl; congruence.
Qed.

Lemma enable_reward e sender b s s' :
  enable e sender b s = Some s' ->
  sender = owner s /\ reward_step e (cfg s) (cfg s') /\ same_setup (cfg s) (cfg s') /\
  own (cfg s') = own (cfg s) /\ pblocks (cfg s') = b /\ enabled (cfg s') = true /\ enabled (cfg s) = false /\
  lastblk (cfg s') = height e /\ remainder (cfg s') = remainder (cfg s) /\ preamt (cfg s') = preamt (cfg s) /\
  s' = set_cfg s (cfg s').
Proof.
  unfold enable. cbv zeta. intros H. unguard H G0. unguard H G1. unguard H G2. injection H as <-.
  apply andb_true_iff in G2. destruct G2 as (G2 & G3). apply fits_iff in G2. bools.
  cbn [cfg set_cfg pblocks enabled own lastblk remainder preamt]. repeat split; auto.
  right; right; left. cbn [pblocks enabled own lastblk remainder preamt]. repeat split; auto. lia.
Qed.

Lemma add_bridges_spec e l : forall s s', add_bridges e l s = Some s' ->
  s' = set_bridges s (bridges s') /\
  (forall a, ~ In a (map fst l) -> find a (bridges s') = find a (bridges s)).
Proof.
  induction l as [|[x b] l IH]; intros s s' H; simpl in H.
  - injection H as <-. split; auto. destruct s; reflexivity.
  - unguard H G1. unguard H G2. destruct (IH _ _ H) as (A & B). split; [rewrite A; reflexivity|].
    intros a N. simpl in N. rewrite B by tauto. simpl. apply find_put_other. intros ->. tauto.
Qed.
Lemma find_dels (l : list Z) : forall (m : amap Z) a, find a m = None -> find a (fold_left (fun m a => del a m) l m) = None.
Proof.
  induction l as [|x l IH]; intros m a H; simpl; auto. apply IH.
  destruct (Z.eq_dec x a) as [->|N]; [apply find_del_same | rewrite find_del_other; auto].
Qed.

Lemma update_bridges_spec e sender a r s s' :
  update_bridges e sender a r s = Some s' ->
  sender = owner s /\ s' = set_bridges s (bridges s') /\
  (forall x, ~ In x (map fst a) -> find x (bridges s) = None -> find x (bridges s') = None).
Proof.
  unfold update_bridges. intros H. unguard H G. bools. destruct (add_bridges_spec _ _ _ _ H) as (A & B).
  split; auto. split; [rewrite A; reflexivity|]. intros x N E. rewrite B by auto. simpl. apply find_dels. exact E.
Qed.
