(** C114: a deposit, swap or withdrawal is credited exactly the coins that came with it. *)
From Coq Require Import ZArith Lia Bool List Permutation.
From Verif Require Import Num AttachModel.
From Verif Require StableModel StableMath.
Import ListNotations.
Open Scope Z_scope.

(** ** Specification, without reference to the model *)

(** All coins of a denom attached to a message. *)
Fixpoint attached (funds : list (Z * Z)) (d : Z) : Z :=
  match funds with [] => 0 | (e, v) :: r => (if e =? d then v else 0) + attached r d end.

(** Coins as the chain delivers them: distinct denoms, positive 128-bit amounts. *)
Definition delivered (funds : list (Z * Z)) : Prop :=
  NoDup (map fst funds) /\ Forall (fun c => 0 < snd c <= U128MAX) funds.

(** What the sender hands over of an asset: attached coins, or tokens the pair pulls. *)
Definition handed (funds : list (Z * Z)) (pulled : list asset) (i : info) : Z :=
  match i with
  | Native d => attached funds d
  | Token _ => fold_right (fun a s => (if info_eqb (fst a) i then snd a else 0) + s) 0 pulled
  end.

(** The amount a list states for an asset, all entries added. *)
Fixpoint stated (l : list asset) (i : info) : Z :=
  match l with [] => 0 | (j, v) :: r => (if info_eqb j i then v else 0) + stated r i end.

(** ** Lemmas *)
Lemma eqb_spec a b : reflect (a = b) (info_eqb a b).
Proof.
  destruct a, b; simpl; try (destruct (Z.eqb_spec denom denom0)); try (destruct (Z.eqb_spec contract contract0));
    constructor; congruence.
Qed.
Lemma eqb_refl a : info_eqb a a = true.
Proof. destruct (eqb_spec a a); congruence. Qed.
Lemma contains_In l i : contains l i = true <-> In i l.
Proof.
  unfold contains. rewrite existsb_exists. split.
  - intros (x & Hx & E). destruct (eqb_spec i x); [subst; auto|discriminate].
  - intros H. exists i. split; [auto|apply eqb_refl].
Qed.
Lemma unique_NoDup l : all_unique l = true <-> NoDup l.
Proof.
  induction l as [|i r IH]; simpl; [split; [constructor|auto]|].
  rewrite andb_true_iff, negb_true_iff, IH. split.
  - intros [H N]. constructor; auto. intros X. apply contains_In in X. congruence.
  - intros N. inversion N; subst. split; auto. destruct (contains r i) eqn:E; auto. apply contains_In in E. easy.
Qed.
Lemma attached_zero funds d : ~ In d (map fst funds) -> attached funds d = 0.
Proof.
  induction funds as [|[e v] r IH]; simpl; auto. intros H. destruct (Z.eqb_spec e d); [exfalso; apply H; auto|].
  rewrite IH; auto.
Qed.
Lemma coin_amount_attached funds d : NoDup (map fst funds) -> coin_amount funds d = attached funds d.
Proof.
  unfold coin_amount. induction funds as [|[e v] r IH]; simpl; auto. intros N. inversion N; subst.
  destruct (Z.eqb_spec e d); simpl; [|auto]. subst. rewrite attached_zero; auto. lia.
Qed.
Lemma attached_nonneg funds d : Forall (fun c => 0 < snd c <= U128MAX) funds -> 0 <= attached funds d.
Proof. intros H. induction H as [|[e v] r Hv Hr IH]; simpl in *; [lia|]. destruct (e =? d); lia. Qed.
Lemma attached_pos funds c : Forall (fun c => 0 < snd c <= U128MAX) funds -> In c funds -> 0 < attached funds (fst c).
Proof.
  intros H. induction H as [|[e v] r Hv Hr IH]; simpl in *; [easy|]. pose proof (attached_nonneg _ (fst c) Hr).
  intros [E|Hc]; [subst c; simpl in *; rewrite Z.eqb_refl; lia|]. specialize (IH Hc). destruct (e =? fst c); lia.
Qed.

Ltac bools := repeat match goal with
  | H : (_ && _)%bool = true |- _ => apply andb_true_iff in H; destruct H
  | H : negb _ = true |- _ => apply negb_true_iff in H
  | H : (_ || _)%bool = false |- _ => apply orb_false_iff in H; destruct H
  end.

Lemma sent_iff funds l p0 p1 : NoDup (map fst funds) ->
  (coins_properly_sent funds l [p0; p1] = true <->
   l <> [] /\ NoDup (map fst l) /\ (forall a, In a l -> fst a = p0 \/ fst a = p1) /\
   (forall d v, In (Native d, v) l -> attached funds d = v) /\
   (forall c, In c funds -> Native (fst c) = p0 \/ Native (fst c) = p1)).
Proof.
  intros N. unfold coins_properly_sent. rewrite !andb_true_iff, negb_true_iff, unique_NoDup, !forallb_forall. split.
  - intros (((H1 & H2) & H3) & H4). split; [destruct l; easy|]. split; [auto|]. split; [|split].
    + intros a Ha. apply H3 in Ha. apply andb_true_iff in Ha. destruct Ha as [Ha _]. apply contains_In in Ha.
      simpl in Ha. intuition.
    + intros d v Ha. apply H3 in Ha. apply andb_true_iff in Ha. destruct Ha as [_ Ha]. simpl in Ha.
      apply Z.eqb_eq in Ha. rewrite <- coin_amount_attached; auto.
    + intros c Hc. apply H4 in Hc. apply contains_In in Hc. simpl in Hc. intuition.
  - intros (H1 & H2 & H3 & H4 & H5). split; [split; [split|]|]; auto.
    + destruct l; easy.
    + intros [i v] Ha. apply andb_true_iff. split.
      * apply contains_In. apply H3 in Ha. simpl in *. intuition.
      * simpl. destruct i; auto. apply Z.eqb_eq. rewrite coin_amount_attached; auto.
    + intros c Hc. apply contains_In. apply H5 in Hc. simpl. intuition.
Qed.

(** What the check establishes: pool assets only, natives matching, no foreign coin. *)
Lemma sent_inv funds l p0 p1 : coins_properly_sent funds l [p0; p1] = true -> NoDup (map fst funds) ->
  NoDup (map fst l) /\ (forall i v, In (i, v) l -> i = p0 \/ i = p1) /\
  (forall d v, In (Native d, v) l -> attached funds d = v) /\
  (forall d, Native d <> p0 -> Native d <> p1 -> attached funds d = 0).
Proof.
  intros H N. apply sent_iff in H; auto. destruct H as (_ & U & A & M & F). split; [auto|]. split; [|split]; auto.
  - intros i v Hi. apply A in Hi. auto.
  - intros d N0 N1. apply attached_zero. intros X. apply in_map_iff in X. destruct X as ([e v] & E & Hi). simpl in E.
    subst e. apply F in Hi. simpl in Hi. intuition.
Qed.

Lemma find_In (l : list asset) i v : amount_of l i = Some v -> In (i, v) l.
Proof.
  unfold amount_of. destruct (List.find (fun a => info_eqb (fst a) i) l) as [[j w]|] eqn:E; [|discriminate]. simpl. intros X. injection X as <-.
  apply find_some in E. destruct E as [E1 E2]. simpl in E2. destruct (eqb_spec j i); [subst; auto|discriminate].
Qed.

Lemma attached_perm f g d : Permutation f g -> attached f d = attached g d.
Proof. induction 1 as [|[? ?]|[? ?] [? ?]|]; simpl; lia. Qed.

(** The list of deposits: each pool asset once, with the stated amount. *)
Lemma deposits_inv k p0 p1 assets funds l : p0 <> p1 -> NoDup (map fst funds) ->
  deposits k p0 p1 assets funds = Some l ->
  exists d0 d1, (l = [(p0, d0); (p1, d1)] \/ k = Stable /\ l = [(p1, d1); (p0, d0)]) /\
    stated assets p0 = d0 /\ stated assets p1 = d1 /\
    (forall a, In a assets -> fst a = p0 \/ fst a = p1) /\
    (forall d, p0 = Native d -> d0 = attached funds d) /\ (forall d, p1 = Native d -> d1 = attached funds d) /\
    (forall d, Native d <> p0 -> Native d <> p1 -> attached funds d = 0).
Proof.
  intros Np N H.
  assert (Two : forall a b : asset, fst a <> fst b -> (fst a = p0 \/ fst a = p1) -> (fst b = p0 \/ fst b = p1) ->
     (fst a = p0 /\ fst b = p1) \/ (fst a = p1 /\ fst b = p0)) by (intros ? ? ? [|] [|]; intuition congruence).
  assert (E01 : info_eqb p0 p1 = false) by (destruct (eqb_spec p0 p1); congruence).
  assert (E10 : info_eqb p1 p0 = false) by (destruct (eqb_spec p1 p0); congruence).
  assert (K : forall a b, coins_properly_sent funds [a; b] [p0; p1] = true -> exists d0 d1,
     (([a; b] = [(p0, d0); (p1, d1)]) \/ ([a; b] = [(p1, d1); (p0, d0)])) /\
     (forall d, p0 = Native d -> d0 = attached funds d) /\ (forall d, p1 = Native d -> d1 = attached funds d) /\
     (forall d, Native d <> p0 -> Native d <> p1 -> attached funds d = 0)).
  { intros [i v] [j w] Hs. pose proof (sent_inv _ _ _ _ Hs N) as (U & M & A & F). simpl in *.
    assert (Nij : i <> j) by (inversion U as [|? ? Hn _]; subst; simpl in Hn; intuition).
    assert (T2 : (i = p0 /\ j = p1) \/ (i = p1 /\ j = p0)) by (apply (Two (i, v) (j, w)); simpl; eauto).
    destruct T2 as [[-> ->]|[-> ->]].
    - exists v, w. split; [auto|]. split; [|split]; auto; intros d E; symmetry; apply A; rewrite <- E; auto.
    - exists w, v. split; [auto|]. split; [|split]; auto; intros d E; symmetry; apply A; rewrite <- E; auto. }
  assert (St : forall a b d0 d1, ([a; b] = [(p0, d0); (p1, d1)]) \/ ([a; b] = [(p1, d1); (p0, d0)]) ->
     stated [a; b] p0 = d0 /\ stated [a; b] p1 = d1 /\ (forall x, In x [a; b] -> fst x = p0 \/ fst x = p1)).
  { intros a b d0 d1 [E|E]; injection E as -> ->; simpl; rewrite ?eqb_refl, ?E01, ?E10; repeat split; try lia;
      intros x [<-|[<-|[]]]; simpl; auto. }
  destruct k; simpl in H.
  - unbind H as d Ed. unguard H G. injection H as <-. unfold get_deposits_from_assets in Ed. unguard Ed Gl.
    destruct assets as [|a [|b [|? ?]]]; try discriminate Gl. unbind Ed as d0 E0. unbind Ed as d1 E1. unguard Ed Gz.
    injection Ed as <-. destruct (K _ _ G) as (x0 & x1 & Ex & A0 & A1 & F). destruct (St _ _ _ _ Ex) as (S0 & S1 & S2).
    assert (X : d0 = x0 /\ d1 = x1).
    { apply find_In in E0, E1. destruct Ex as [Ex|Ex]; injection Ex as -> ->; simpl in E0, E1;
        intuition congruence. }
    destruct X as [-> ->]. exists x0, x1. simpl fst. simpl snd. repeat (split; [solve [auto]|]). auto.
  - unbind H as x Ex. unguard H G. injection H as <-. unfold get_assets_collection in Ex. unguard Ex G1. unguard Ex Gl.
    unguard Ex G2. unguard Ex G3. injection Ex as <-. destruct assets as [|a [|b [|? ?]]]; try discriminate Gl.
    destruct (K _ _ G) as (x0 & x1 & Ex & A0 & A1 & F). destruct (St _ _ _ _ Ex) as (S0 & S1 & S2).
    exists x0, x1. split; [|repeat (split; [solve [auto]|]); auto].
    simpl. destruct Ex as [Ex|Ex]; injection Ex as -> ->; auto.
  - unbind H as x Ex. unguard H G. injection H as <-. unfold get_assets in Ex. unbind Ex as y Ey. unguard Ex G1.
    unguard Ex G2. injection Ex as <-.
    destruct assets as [|a [|b [|? ?]]]; try discriminate Ey.
    + destruct a as [i v]. simpl in Ey. destruct (eqb_spec p0 i) as [<-|Hi].
      * injection Ey as <-. cbn iota beta in G, G2 |- *. simpl fst in *. rewrite E01 in *.
        destruct (K _ _ G) as (x0 & x1 & Ex & A0 & A1 & F). assert (Ex' : x0 = v /\ x1 = 0) by
          (destruct Ex as [Ex|Ex]; inversion Ex; subst; auto; congruence).
        destruct Ex' as [-> ->]. exists v, 0. split; [auto|]. simpl. rewrite eqb_refl, E01.
        repeat (split; [solve [lia|auto|intros ? [<-|[]]; auto]|]). auto.
      * destruct (eqb_spec p1 i) as [<-|Hj]; [|discriminate]. injection Ey as <-. cbn iota beta in G, G2 |- *.
        simpl fst in *. rewrite eqb_refl in *. simpl fst in *.
        destruct (K _ _ G) as (x0 & x1 & Ex & A0 & A1 & F). assert (Ex' : x0 = 0 /\ x1 = v) by
          (destruct Ex as [Ex|Ex]; inversion Ex; subst; auto; congruence).
        destruct Ex' as [-> ->]. exists 0, v. split; [auto|]. simpl. rewrite eqb_refl, E10.
        repeat (split; [solve [lia|auto|intros ? [<-|[]]; auto]|]). auto.
    + injection Ey as <-. cbn iota beta in *. destruct (info_eqb p0 (fst b)) eqn:Eb.
      * destruct (K _ _ G) as (x0 & x1 & Ex & A0 & A1 & F). destruct (eqb_spec p0 (fst b)) as [Hb|]; [|discriminate].
        assert (Ex' : [b; a] = [(p0, x0); (p1, x1)]).
        { destruct Ex as [Ex|Ex]; auto. injection Ex as -> ->. simpl in Hb. congruence. }
        exists x0, x1. rewrite Ex'. injection Ex' as -> ->. split; [auto|]. simpl. rewrite !eqb_refl, E01, E10.
        repeat (split; [solve [lia|auto|intros ? [<-|[<-|[]]]; auto]|]). auto.
      * destruct (K _ _ G) as (x0 & x1 & Ex & A0 & A1 & F).
        assert (Ex' : [a; b] = [(p0, x0); (p1, x1)]).
        { destruct Ex as [Ex|Ex]; auto. injection Ex as -> ->. simpl in Eb. rewrite eqb_refl in Eb. discriminate. }
        exists x0, x1. rewrite Ex'. destruct (St _ _ _ _ (or_introl Ex')) as (S0 & S1 & S2).
        injection Ex' as -> ->. split; [auto|]. repeat (split; [solve [auto]|]). auto.
Qed.

Lemma sub_back x y : 0 <= x <= U128MAX -> sub128 (x + y) y = Some x.
Proof. intros H. apply sub128_Some. lia. Qed.

(** ** Deposits *)

(** The pair credits for each pool asset exactly what the sender hands over of it, which is what the message
    states; it works with the reserves it had before the message; nothing else may be attached or is pulled. *)
Theorem c114_provide k p0 p1 b assets funds r :
  p0 <> p1 -> delivered funds -> (forall i, 0 <= b i <= U128MAX) ->
  provide_coins k p0 p1 b assets funds = Some r ->
  (forall i, stated (deposited r) i = handed funds (pulls r) i /\ stated assets i = stated (deposited r) i) /\
  (forall i, i = p0 \/ i = p1 -> stated (reserves r) i = b i) /\
  (forall d, Native d <> p0 -> Native d <> p1 -> attached funds d = 0) /\
  (forall a, In a assets -> fst a = p0 \/ fst a = p1) /\
  Permutation (map fst (deposited r)) [p0; p1] /\ map fst (reserves r) = map fst (deposited r).
Proof.
  intros Np [Nd Fp] Hb H. unfold provide_coins in H. unbind H as l El. unbind H as x Ex. injection H as <-. cbn.
  destruct (deposits_inv _ _ _ _ _ _ Np Nd El) as (d0 & d1 & Hl & S0 & S1 & Sf & A0 & A1 & F).
  assert (E01 : info_eqb p0 p1 = false) by (destruct (eqb_spec p0 p1); congruence).
  assert (E10 : info_eqb p1 p0 = false) by (destruct (eqb_spec p1 p0); congruence).
  assert (Fst : forall i, i <> p0 -> i <> p1 -> stated assets i = 0).
  { intros i H0 H1. clear - Sf H0 H1. induction assets as [|[j v] q IH]; simpl; auto.
    destruct (eqb_spec j i) as [->|]; [destruct (Sf (i, v)); simpl in *; auto; congruence|]. rewrite IH; auto.
    intros a Ha. apply Sf. now right. }
  assert (Set_ : fst x = map (fun a => (fst a, b (fst a))) l /\
     snd x = filter (fun a => match fst a with Token _ => (match k with Xyk => true | _ => false end) ||
                                negb (snd a =? 0) | _ => false end) l).
  { assert (Q : forall i v, In (i, v) l -> match i with Native d => v = attached funds d | Token _ => True end).
    { intros i v Hi. destruct i; auto.
      destruct Hl as [->|[_ ->]]; destruct Hi as [E|[E|[]]]; inversion E as [[E1 E2]]; rewrite <- E2; auto. }
    clear - Q Ex Hb Nd. revert x Ex. induction l as [|[i v] q IH]; intros x Ex; simpl in Ex.
    - injection Ex as <-. auto.
    - specialize (IH (fun j w Hi => Q j w (or_intror Hi))). pose proof (Q i v (or_introl eq_refl)) as Qi.
      destruct i as [d|c].
      + unfold queried in Ex at 1. rewrite coin_amount_attached, <- Qi, sub_back in Ex by auto. unbind Ex as y Ey.
        injection Ex as <-. destruct (IH _ eq_refl) as [-> ->]. auto.
      + unbind Ex as y Ey. injection Ex as <-. destruct (IH _ eq_refl) as [-> ->]. cbn. unfold queried.
        rewrite Z.add_0_r. split; auto. }
  destruct Set_ as [-> ->].
  assert (Z0 : forall c, p0 = Token c -> fold_right (fun a s => (if info_eqb (fst a) (Token c) then snd a else 0) + s) 0
     (filter (fun a => match fst a with Token _ => (match k with Xyk => true | _ => false end) ||
                                negb (snd a =? 0) | _ => false end) l) = d0).
  { intros c ->. destruct Hl as [->|[_ ->]]; cbn; destruct p1; cbn; rewrite ?Z.eqb_refl; simpl in E01, E10;
      repeat (match goal with |- context [if ?t then _ else _] => destruct t eqn:? end; cbn;
              rewrite ?Z.eqb_refl, ?E01, ?E10); bools; try lia. }
  assert (Z1 : forall c, p1 = Token c -> fold_right (fun a s => (if info_eqb (fst a) (Token c) then snd a else 0) + s) 0
     (filter (fun a => match fst a with Token _ => (match k with Xyk => true | _ => false end) ||
                                negb (snd a =? 0) | _ => false end) l) = d1).
  { intros c ->. destruct Hl as [->|[_ ->]]; cbn; destruct p0; cbn; rewrite ?Z.eqb_refl; simpl in E01, E10;
      repeat (match goal with |- context [if ?t then _ else _] => destruct t eqn:? end; cbn;
              rewrite ?Z.eqb_refl, ?E01, ?E10); bools; try lia. }
  assert (Zo : forall i, i <> p0 -> i <> p1 -> handed funds (filter (fun a => match fst a with Token _ =>
     (match k with Xyk => true | _ => false end) || negb (snd a =? 0) | _ => false end) l) i = 0).
  { intros i H0 H1. destruct i as [d|c]; [apply F; auto|]. unfold handed.
    assert (G : forall q, (forall a, In a q -> fst a <> Token c) ->
      fold_right (fun a s => (if info_eqb (fst a) (Token c) then snd a else 0) + s) 0 q = 0).
    { induction q as [|a q IH]; simpl; auto. intros Hq. destruct (eqb_spec (fst a) (Token c)) as [E|E].
      - exfalso. eapply Hq; eauto.
      - rewrite IH; auto. }
    apply G. intros a Ha. apply filter_In in Ha. destruct Ha as [Ha _].
    destruct Hl as [->|[_ ->]]; simpl in Ha; intuition; subst; auto. }
  assert (Dl : stated l p0 = d0 /\ stated l p1 = d1 /\ (forall i, i <> p0 -> i <> p1 -> stated l i = 0)).
  { destruct Hl as [->|[_ ->]]; simpl; rewrite !eqb_refl, ?E01, ?E10; repeat split; try lia; intros i H0 H1;
      destruct (eqb_spec p0 i), (eqb_spec p1 i); congruence || lia. }
  destruct Dl as (D0 & D1 & Do). split; [|split; [|split; [|split; [|split]]]].
  - intros i. destruct (eqb_spec i p0) as [->|H0]; [|destruct (eqb_spec i p1) as [->|H1]].
    + split; [|lia]. rewrite D0. unfold handed. destruct p0; [apply A0|symmetry; apply Z0]; auto.
    + split; [|lia]. rewrite D1. unfold handed. destruct p1; [apply A1|symmetry; apply Z1]; auto.
    + rewrite Do, Fst, Zo; auto.
  - intros i Hi. destruct Hl as [->|[_ ->]]; destruct Hi as [->| ->]; simpl; rewrite ?eqb_refl, ?E01, ?E10; lia.
  - auto.
  - auto.
  - destruct Hl as [->|[_ ->]]; simpl; [auto|constructor].
  - rewrite map_map. reflexivity.
Qed.

(** A deposit stated correctly is accepted: the constant-product pairs want both amounts, the stable pair one. *)
Definition wanted (k : kind) (d0 d1 : Z) : Prop :=
  match k with Xyk => d0 <> 0 /\ d1 <> 0 | Stable => d0 <> 0 \/ d1 <> 0 | Pcl => True end.
Theorem c114_accepted k p0 p1 b assets funds d0 d1 :
  p0 <> p1 -> delivered funds -> (forall i, 0 <= b i <= U128MAX) -> wanted k d0 d1 ->
  Permutation assets [(p0, d0); (p1, d1)] ->
  (forall d, p0 = Native d -> attached funds d = d0) -> (forall d, p1 = Native d -> attached funds d = d1) ->
  (forall c, In c funds -> Native (fst c) = p0 \/ Native (fst c) = p1) ->
  exists r, provide_coins k p0 p1 b assets funds = Some r /\
    stated (deposited r) p0 = d0 /\ stated (deposited r) p1 = d1 /\
    (k <> Stable -> deposited r = [(p0, d0); (p1, d1)]).
Proof.
  intros Np [Nd Fp] Hb W P M0 M1 F.
  assert (E01 : info_eqb p0 p1 = false) by (destruct (eqb_spec p0 p1); congruence).
  assert (E10 : info_eqb p1 p0 = false) by (destruct (eqb_spec p1 p0); congruence).
  assert (A : forall l, Permutation l [(p0, d0); (p1, d1)] -> coins_properly_sent funds l [p0; p1] = true).
  { intros l Pl. apply sent_iff; auto. split; [intros ->; apply Permutation_nil in Pl; discriminate|]. split.
    - apply (Permutation_NoDup (l := [p0; p1])); [apply (Permutation_map fst) in Pl; simpl in Pl; symmetry; exact Pl|].
      repeat constructor; simpl; intuition.
    - split; [|split; [|exact F]].
      + intros a Ha. apply (Permutation_in _ Pl) in Ha. destruct Ha as [<-|[<-|[]]]; auto.
      + intros d v Ha. apply (Permutation_in _ Pl) in Ha. destruct Ha as [E|[E|[]]]; inversion E; subst; auto. }
  assert (S : forall l, Permutation l [(p0, d0); (p1, d1)] -> exists x, settle k (queried b funds) l = Some x).
  { intros l Pl. assert (Q : forall d v, In (Native d, v) l -> v = attached funds d).
    { intros d v Ha. apply (Permutation_in _ Pl) in Ha. destruct Ha as [E|[E|[]]]; inversion E; subst; symmetry; auto. }
    clear - Q Hb Nd. induction l as [|[i v] q IH]; simpl; [eauto|].
    destruct IH as [x ->]; [intros d w Hi; apply Q; now right|]. destruct i as [d|c]; [|eauto].
    unfold queried. rewrite coin_amount_attached, <- (Q d v (or_introl eq_refl)), sub_back; auto. eauto. }
  assert (T : forall l, Permutation l [(p0, d0); (p1, d1)] -> stated l p0 = d0 /\ stated l p1 = d1).
  { intros l Pl. apply Permutation_sym, Permutation_length_2_inv in Pl.
    destruct Pl as [->| ->]; simpl; rewrite !eqb_refl, ?E01, ?E10; lia. }
  assert (D : exists l, deposits k p0 p1 assets funds = Some l /\ Permutation l [(p0, d0); (p1, d1)] /\
     (k <> Stable -> l = [(p0, d0); (p1, d1)])).
  { pose proof (A _ P) as Ap. destruct k; simpl in W |- *.
    - unfold get_deposits_from_assets, amount_of. exists [(p0, d0); (p1, d1)]. split; [|auto].
      destruct W as [W0 W1]. apply Z.eqb_neq in W0, W1. pose proof P as P'.
      apply Permutation_sym, Permutation_length_2_inv in P'.
      destruct P' as [->| ->]; simpl; rewrite ?eqb_refl, ?E01, ?E10; simpl; rewrite ?eqb_refl, ?E01, ?E10, W0, W1; simpl;
        rewrite Ap; auto.
    - exists assets. split; [|split; [auto|congruence]]. unfold get_assets_collection. pose proof Ap as Ap'. apply sent_iff in Ap'; auto.
      destruct Ap' as (_ & U & I & _ & _). apply unique_NoDup in U. rewrite U.
      assert (L : Nat.eqb (@length asset assets) 2 = true) by (unfold asset; rewrite (Permutation_length P); auto).
      rewrite L.
      assert (G : forallb (fun a => contains [p0; p1] (fst a)) assets = true).
      { apply forallb_forall. intros a Ha. apply contains_In. apply I in Ha. simpl. intuition. }
      rewrite G. assert (G2 : existsb (fun a : info * Z => negb (snd a =? 0)) assets = true).
      { apply existsb_exists. destruct W as [W|W]; [exists (p0, d0)|exists (p1, d1)]; (split;
          [apply (Permutation_in _ (Permutation_sym P)); simpl; auto|simpl; destruct (Z.eqb_spec d0 0), (Z.eqb_spec d1 0); auto]). }
      rewrite G2, Ap. rewrite map_map. simpl. rewrite map_id. reflexivity.
    - exists [(p0, d0); (p1, d1)]. split; [|auto].
      pose proof P as P'. apply Permutation_sym, Permutation_length_2_inv in P'.
      pose proof (A _ (Permutation_refl _)) as Ar.
      assert (G : get_assets p0 p1 assets = Some [(p0, d0); (p1, d1)]).
      { unfold get_assets. destruct P' as [->| ->]; simpl; rewrite ?eqb_refl, ?E01, ?E10; simpl;
          rewrite ?eqb_refl, ?E01, ?E10; simpl; rewrite ?orb_true_r; auto. }
      rewrite G, Ar. reflexivity. }
  destruct D as (l & Dl & Pl & Ol). destruct (S _ Pl) as [x Ex]. unfold provide_coins. rewrite Dl, Ex.
  eexists. split; [reflexivity|]. cbn. destruct (T _ Pl) as [-> ->]. auto.
Qed.

Lemma deposits_two k p0 p1 a1 a2 funds l : deposits k p0 p1 [a1; a2] funds = Some l -> p0 <> p1 ->
  NoDup (map fst funds) ->
  exists d0 d1, Permutation [a1; a2] [(p0, d0); (p1, d1)] /\ wanted k d0 d1 /\
    (k <> Stable -> l = [(p0, d0); (p1, d1)]) /\ Permutation l [(p0, d0); (p1, d1)].
Proof.
  intros H Np Nd. destruct (deposits_inv _ _ _ _ _ _ Np Nd H) as (d0 & d1 & Hl & S0 & S1 & Sf & _).
  assert (E01 : info_eqb p0 p1 = false) by (destruct (eqb_spec p0 p1); congruence).
  assert (E10 : info_eqb p1 p0 = false) by (destruct (eqb_spec p1 p0); congruence).
  assert (Pl : Permutation l [(p0, d0); (p1, d1)]) by (destruct Hl as [->|[_ ->]]; [auto|constructor]).
  assert (U : fst a1 <> fst a2).
  { assert (all_unique (map fst [a1; a2]) = true \/ coins_properly_sent funds [a1; a2] [p0; p1] = true).
    { destruct k; simpl in H.
      - unbind H as d Ed. unguard H G. auto.
      - unbind H as x Ex. unguard H G. auto.
      - unbind H as x Ex. unfold get_assets in Ex. unguard Ex G1. left. reflexivity. }
    assert (N : NoDup (map fst [a1; a2])).
    { destruct H0 as [G|G]; [now apply unique_NoDup|]. apply sent_iff in G; auto. tauto. }
    simpl in N. inversion N as [|? ? Hn _]. subst. simpl in Hn. intuition. }
  destruct a1 as [i v], a2 as [j w]. simpl in U.
  assert (Hi : i = p0 \/ i = p1) by (apply (Sf (i, v)); simpl; auto).
  assert (Hj : j = p0 \/ j = p1) by (apply (Sf (j, w)); simpl; auto).
  assert (Pa : Permutation [(i, v); (j, w)] [(p0, d0); (p1, d1)]).
  { destruct Hi as [->| ->], Hj as [->| ->]; try congruence; simpl in S0, S1;
      rewrite ?eqb_refl in S0, S1; rewrite ?E01, ?E10 in S0; rewrite ?E01, ?E10 in S1.
    - replace v with d0 by lia. replace w with d1 by lia. auto.
    - replace v with d1 by lia. replace w with d0 by lia. constructor. }
  exists d0, d1. split; [exact Pa|]. split; [|split; [|exact Pl]].
  - destruct k; simpl; auto.
    + simpl in H. unbind H as d Ed. unguard H G. injection H as <-. destruct Hl as [E|[E _]]; [|discriminate].
      injection E as <- <-. unfold get_deposits_from_assets in Ed. cbn [length Nat.eqb] in Ed. unbind Ed as x0 Ex0.
      unbind Ed as x1 Ex1. unguard Ed Gz. injection Ed as <-. simpl. bools. lia.
    + simpl in H. unbind H as x Ex. unguard H G. unfold get_assets_collection in Ex. unguard Ex G1. unguard Ex G2.
      unguard Ex G3. unguard Ex G4. apply existsb_exists in G4. destruct G4 as (a & Ha & Na). bools.
      apply (Permutation_in _ Pa) in Ha. destruct Ha as [<-|[<-|[]]]; simpl in Na; lia.
  - intros Nk. destruct Hl as [->|[-> _]]; congruence.
Qed.

Lemma provide_funds k p0 p1 b assets funds funds' : NoDup (map fst funds) -> Permutation funds funds' ->
  provide_coins k p0 p1 b assets funds' = provide_coins k p0 p1 b assets funds.
Proof.
  intros Nd P. assert (Nd' : NoDup (map fst funds')) by (eapply Permutation_NoDup; [apply Permutation_map; eauto|auto]).
  assert (C : forall l, coins_properly_sent funds' l [p0; p1] = coins_properly_sent funds l [p0; p1]).
  { intros l. apply eq_true_iff_eq. rewrite !sent_iff by auto.
    assert (A : forall d, attached funds' d = attached funds d) by (intros; symmetry; apply attached_perm; auto).
    assert (I : forall c, In c funds' <-> In c funds).
    { intros c. split; apply Permutation_in; [symmetry|]; auto. }
    split; intros (H1 & H2 & H3 & H4 & H5); (split; [auto|]); (split; [auto|]); (split; [auto|]); split;
      intros; try (apply H5; apply I; auto); rewrite ?A; try rewrite <- A; auto; rewrite ?A; auto. }
  assert (Q : forall l, settle k (queried b funds') l = settle k (queried b funds) l).
  { assert (E : forall i, queried b funds' i = queried b funds i).
    { intros [d|c]; unfold queried; auto. rewrite !coin_amount_attached, (attached_perm funds funds') by auto. auto. }
    induction l as [|[i v] q IH]; simpl; auto. rewrite IH, E. auto. }
  unfold provide_coins, deposits. destruct k.
  - destruct (get_deposits_from_assets p0 p1 assets); auto. rewrite C.
    destruct (coins_properly_sent _ _ _); auto. rewrite Q. auto.
  - destruct (get_assets_collection _ _ _ _); auto. rewrite C. destruct (coins_properly_sent _ _ _); auto.
    rewrite Q. auto.
  - destruct (get_assets p0 p1 assets); auto. rewrite C. destruct (coins_properly_sent _ _ _); auto. rewrite Q. auto.
Qed.

(** The order of the list and of the coins does not matter. *)
Theorem c114_order k p0 p1 b assets assets' funds funds' r :
  p0 <> p1 -> delivered funds -> (forall i, 0 <= b i <= U128MAX) ->
  Permutation assets assets' -> Permutation funds funds' ->
  provide_coins k p0 p1 b assets funds = Some r ->
  exists r', provide_coins k p0 p1 b assets' funds' = Some r' /\
    (forall i, stated (deposited r') i = stated (deposited r) i) /\
    (forall i, i = p0 \/ i = p1 -> stated (reserves r') i = stated (reserves r) i) /\
    (k <> Stable -> deposited r' = deposited r).
Proof.
  intros Np Hf Hb Pa Pf H. pose proof Hf as [Nd Fp]. rewrite (provide_funds k p0 p1 b assets' funds funds') by auto.
  pose proof (c114_provide _ _ _ _ _ _ _ Np Hf Hb H) as (C1 & C2 & C3 & C4 & C5 & C6).
  assert (Fin : forall r', provide_coins k p0 p1 b assets' funds = Some r' ->
    (forall i, stated (deposited r') i = stated (deposited r) i) /\
    (forall i, i = p0 \/ i = p1 -> stated (reserves r') i = stated (reserves r) i)).
  { intros r' Hr. pose proof (c114_provide _ _ _ _ _ _ _ Np Hf Hb Hr) as (D1 & D2 & _). split.
    - intros i. rewrite <- (proj2 (C1 i)), <- (proj2 (D1 i)). clear - Pa.
      symmetry. induction Pa as [|[? ?]|[? ?] [? ?]|]; simpl; lia.
    - intros i Hi. rewrite C2, D2; auto. }
  destruct assets as [|a1 [|a2 [|a3 q]]].
  - apply Permutation_nil in Pa. subst. exists r. auto.
  - apply Permutation_length_1_inv in Pa. subst. exists r. auto.
  - pose proof H as H'. unfold provide_coins in H'. unbind H' as l El. unbind H' as x Ex. injection H' as <-. cbn in *.
    destruct (deposits_two _ _ _ _ _ _ _ El Np Nd) as (d0 & d1 & P & W & O & Pl).
    destruct (c114_accepted k p0 p1 b assets' funds d0 d1) as (r' & Hr & _ & _ & Or); auto.
    + transitivity [a1; a2]; [symmetry; auto|auto].
    + destruct (deposits_inv _ _ _ _ _ _ Np Nd El) as (e0 & e1 & He & E0 & E1 & Ef & A0 & A1 & F).
      intros d ->.
      assert (X : In (Native d, d0) l) by (apply (Permutation_in _ (Permutation_sym Pl)); simpl; auto).
      destruct He as [->|[_ ->]]; destruct X as [X|[X|[]]]; inversion X; subst; try congruence; symmetry; auto.
    + destruct (deposits_inv _ _ _ _ _ _ Np Nd El) as (e0 & e1 & He & E0 & E1 & Ef & A0 & A1 & F).
      intros d ->.
      assert (X : In (Native d, d1) l) by (apply (Permutation_in _ (Permutation_sym Pl)); simpl; auto).
      destruct He as [->|[_ ->]]; destruct X as [X|[X|[]]]; inversion X; subst; try congruence; symmetry; auto.
    + intros c Hc. destruct (eqb_spec (Native (fst c)) p0); auto. destruct (eqb_spec (Native (fst c)) p1); auto. exfalso.
      specialize (C3 (fst c) n n0). pose proof (attached_pos _ _ Fp Hc). lia.
    + exists r'. split; [auto|]. destruct (Fin _ Hr) as [F1 F2]. split; [|split]; auto. intros Nk. rewrite Or, O; auto.
  - exfalso. unfold provide_coins in H. unbind H as l El. destruct k; simpl in El; try discriminate.
    unbind El as x Ex. unfold get_assets_collection in Ex. unguard Ex G. simpl in Ex. discriminate.
Qed.

(** The shares of a stable pair do not depend on which asset the list names first. *)
Theorem c114_stable_shares a d0 d1 x y p0 p1 g total :
  StableModel.calculate_shares a d0 d1 x y p0 p1 g total = StableModel.calculate_shares a d1 d0 y x p1 p0 g total.
Proof.
  assert (C : forall u v, StableMath.compute_d a u v = StableMath.compute_d a v u).
  { intros u v. unfold StableMath.compute_d. destruct (dratio256 a _); auto.
    destruct (dmul256 z _) as [lv|]; auto.
    destruct (dmul256 u _) as [u2|], (dmul256 v _) as [v2|]; auto.
    unfold add256. rewrite (Z.add_comm u v). destruct (u256 (v + u)) as [sm|]; auto. destruct (sm =? 0); auto.
    unfold dmul256. rewrite (Z.mul_comm u2 v2). reflexivity. }
  unfold StableModel.calculate_shares.
  destruct (StableMath.with_prec d0 p0) as [e0|], (StableMath.with_prec d1 p1) as [e1|]; auto.
  destruct (StableMath.with_prec x p0) as [dx|], (StableMath.with_prec y p1) as [dy|]; auto.
  destruct (add256 dx e0) as [nx|], (add256 dy e1) as [ny|]; auto. rewrite (C nx ny), (C dx dy). reflexivity.
Qed.

(** ** Swaps *)

(** The offer of an accepted swap is exactly the one coin attached, or exactly what the calling pool token has
    transferred; the reserves used are those before the message. *)
Theorem c114_swap p0 p1 b m a res : p0 <> p1 -> (forall i, 0 <= b i <= U128MAX) ->
  (match m with Direct _ funds => delivered funds | Hook _ v => 0 <= v end) ->
  swap_coins p0 p1 b m = Some (a, res) ->
  res = [(p0, b p0); (p1, b p1)] /\ (fst a = p0 \/ fst a = p1) /\
  match m with
  | Direct offer funds => a = offer /\ exists d, fst offer = Native d /\ funds = [(d, snd offer)]
  | Hook c v => a = (Token c, v)
  end.
Proof.
  intros Np Hb Hm H. unfold swap_coins in H. unbind H as y Ey. destruct y as [a' q]. unguard H G.
  unbind H as v0 E0. unbind H as v1 E1. injection H as <- <-. apply contains_In in G. simpl in G.
  assert (I : fst a' = p0 \/ fst a' = p1) by intuition. clear G.
  assert (Q : (forall i, q i = b i + if info_eqb i (fst a') then snd a' else 0) /\
     match m with
     | Direct offer funds => a' = offer /\ exists d, fst offer = Native d /\ funds = [(d, snd offer)]
     | Hook c v => a' = (Token c, v)
     end).
  { destruct m as [offer funds|c v].
    - destruct offer as [[d|c] v]; simpl in Ey; [|discriminate]. unguard Ey G. injection Ey as <- <-.
      unfold assert_sent in G. simpl in G. destruct (must_pay funds d) as [w|] eqn:Ew; [|discriminate].
      unfold must_pay, one_coin in Ew. destruct funds as [|[e u] [|? ?]]; try discriminate. simpl in Ew.
      destruct (u =? 0); [discriminate|]. simpl in Ew. destruct (Z.eqb_spec e d); [|discriminate]. injection Ew as <-.
      apply Z.eqb_eq in G. subst. split; [|split; [auto|exists d; auto]].
      intros [d'|c']; unfold queried, coin_amount; simpl; auto.
      rewrite (Z.eqb_sym d' d). destruct (d =? d'); auto.
    - unguard Ey G. injection Ey as <- <-. auto. }
  destruct Q as [Q M]. split; [|split]; auto.
  assert (R : forall i w, (if info_eqb i (fst a') then sub128 (q i) (snd a') else Some (q i)) = Some w -> w = b i).
  { intros i w. rewrite Q. destruct (info_eqb i (fst a')).
    - intros X. apply sub128_Some in X. lia.
    - intros X. injection X as <-. lia. }
  apply R in E0, E1. congruence.
Qed.
(** Such a swap is not refused for the coins it carries. *)
Theorem c114_swap_accepted p0 p1 b : p0 <> p1 -> (forall i, 0 <= b i <= U128MAX) ->
  (forall d v, 0 < v -> Native d = p0 \/ Native d = p1 ->
     swap_coins p0 p1 b (Direct (Native d, v) [(d, v)]) = Some ((Native d, v), [(p0, b p0); (p1, b p1)])) /\
  (forall c v, 0 <= v -> Token c = p0 \/ Token c = p1 ->
     swap_coins p0 p1 b (Hook c v) = Some ((Token c, v), [(p0, b p0); (p1, b p1)])).
Proof.
  intros Np Hb.
  assert (R : forall (i o : info) v q, (forall j, q j = b j + if info_eqb j o then v else 0) ->
     (if info_eqb i o then sub128 (q i) v else Some (q i)) = Some (b i)).
  { intros i o v q Hq. rewrite Hq. destruct (info_eqb i o); [apply sub_back; auto|f_equal; lia]. }
  split; intros z v Hv I.
  - assert (C : contains [p0; p1] (Native z) = true) by (apply contains_In; simpl; intuition).
    assert (Q : forall j, queried b [(z, v)] j = b j + if info_eqb j (Native z) then v else 0).
    { intros [d'|c']; unfold queried, coin_amount; simpl; auto. rewrite (Z.eqb_sym d' z). destruct (z =? d'); auto. }
    unfold swap_coins, assert_sent, must_pay, one_coin. cbn [fst snd]. destruct (Z.eqb_spec v 0); [lia|].
    cbn [fst snd]. rewrite Z.eqb_refl. cbn [fst snd]. rewrite Z.eqb_refl. cbn [fst snd]. rewrite C.
    rewrite (R p0 (Native z) v _ Q), (R p1 (Native z) v _ Q). reflexivity.
  - assert (C : contains [p0; p1] (Token z) = true) by (apply contains_In; simpl; intuition).
    unfold swap_coins. rewrite C. cbn [fst snd]. rewrite C.
    rewrite (R p0 (Token z) v (fun i => b i + (if info_eqb i (Token z) then v else 0))) by auto.
    rewrite (R p1 (Token z) v (fun i => b i + (if info_eqb i (Token z) then v else 0))) by auto. reflexivity.
Qed.

(** ** Withdrawals: exactly the LP tokens, nothing else. *)
Theorem c114_withdraw lp funds n :
  withdraw_coins lp funds = Some n <-> n <> 0 /\ funds = [(lp, n)].
Proof.
  unfold withdraw_coins, one_coin. split.
  - destruct funds as [|[d v] [|? ?]]; try discriminate. simpl. destruct (Z.eqb_spec v 0); [discriminate|]. simpl.
    destruct (Z.eqb_spec d lp); [|discriminate]. intros X. injection X as <-. subst. auto.
  - intros [N ->]. simpl. destruct (Z.eqb_spec n 0); [easy|]. simpl. rewrite Z.eqb_refl. reflexivity.
Qed.

(** ** Examples: a pool of denom 1 and token 9, and of denoms 1 and 2, holding 50 and 70 *)
Definition ex_b (i : info) : Z := match i with Native 1 => 50 | Native 2 => 70 | Token 9 => 70 | _ => 0 end.
Example c114_provide_example :
  provide_coins Xyk (Native 1) (Token 9) ex_b [(Token 9, 7); (Native 1, 5)] [(1, 5)] =
    Some (mkProvided [(Native 1, 50); (Token 9, 70)] [(Native 1, 5); (Token 9, 7)] [(Token 9, 7)]) /\
  provide_coins Stable (Native 1) (Native 2) ex_b [(Native 2, 7); (Native 1, 0)] [(2, 7)] =
    Some (mkProvided [(Native 2, 70); (Native 1, 50)] [(Native 2, 7); (Native 1, 0)] []) /\
  provide_coins Pcl (Native 1) (Native 2) ex_b [(Native 2, 7)] [(2, 7)] =
    Some (mkProvided [(Native 1, 50); (Native 2, 70)] [(Native 1, 0); (Native 2, 7)] []) /\
  provide_coins Pcl (Native 1) (Native 2) ex_b [(Native 2, 7)] [(1, 5); (2, 7)] = None /\
  provide_coins Xyk (Native 1) (Native 2) ex_b [(Native 1, 5); (Native 2, 7)] [(1, 5); (2, 7); (3, 1)] = None.
Proof. repeat (split; [reflexivity|]). reflexivity. Qed.
Example c114_example : delivered [(1, 5); (2, 7)] /\ (forall i, 0 <= ex_b i <= U128MAX) /\
  provide_coins Pcl (Native 1) (Native 2) ex_b [(Native 2, 7); (Native 1, 5)] [(1, 5); (2, 7)] <> None /\
  swap_coins (Native 1) (Token 9) ex_b (Direct (Native 1, 5) [(1, 5)]) =
    Some ((Native 1, 5), [(Native 1, 50); (Token 9, 70)]) /\
  swap_coins (Native 1) (Token 9) ex_b (Direct (Native 1, 5) [(1, 5); (2, 7)]) = None /\
  swap_coins (Native 1) (Token 9) ex_b (Hook 8 5) = None /\
  withdraw_coins 4 [(4, 11)] = Some 11 /\ withdraw_coins 4 [(1, 5); (4, 11)] = None.
Proof.
  split; [|split; [|split; [discriminate|repeat (split; [reflexivity|]); reflexivity]]].
  - split; [repeat constructor; simpl; intuition lia|]. repeat constructor; simpl; unfold U128MAX; lia.
  - assert (U : 70 <= U128MAX) by (unfold U128MAX; lia).
    intros [d|c]; unfold ex_b; repeat (match goal with |- context [match ?x with _ => _ end] => destruct x end; try lia).
Qed.

Print Assumptions c114_provide.
Print Assumptions c114_accepted.
Print Assumptions c114_order.
Print Assumptions c114_stable_shares.
Print Assumptions c114_swap.
Print Assumptions c114_swap_accepted.
Print Assumptions c114_withdraw.
