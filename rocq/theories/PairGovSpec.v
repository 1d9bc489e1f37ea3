(** Who owns a pair: a specification over any state machine with an optional owner of its own, the factory's owner standing in
    while there is none (contracts/pair_stable, pair_concentrated, pair_concentrated_duality). *)
From Coq Require Import ZArith Lia Bool List.
From Verif Require Import Num.
From Verif Require OwnershipModel.
Import ListNotations.
Open Scope Z_scope.

Section Gov.
Context {S E : Type} (act : E -> S -> option S) (own : S -> option Z) (fac : E -> Z) (time : E -> Z)
  (view : E -> option (Z * OwnershipModel.msg)).

Definition go (s : S) (e : E) : S := match act e s with Some s' => s' | None => s end.
Definition goes (s : S) (l : list E) : S := fold_left go l s.
(** The account whose word counts: the pair's owner, or the factory's. *)
Definition governor (e : E) (s : S) : Z := match own s with Some o => o | None => fac e end.

(** No propose, drop or claim message is accepted along [l]. *)
Definition quiet (s : S) (l : list E) : Prop := forall k e k', l = k ++ e :: k' -> forall w m, view e = Some (w, m) ->
  m <> OwnershipModel.Other -> act e (goes s k) = None.

(** [e] is an accepted claim of [who], and the last accepted ownership message before it was the proposal of [who] by the
    account governing at that time, not more than 14 days ago. *)
Definition transferred (s0 : S) (l : list E) (e : E) : Prop :=
  exists who l1 ep x l2, view e = Some (who, OwnershipModel.Claim) /\ own (go (goes s0 l) e) = Some who /\
    l = l1 ++ ep :: l2 /\ view ep = Some (governor ep (goes s0 l1), OwnershipModel.Propose who x) /\
    act ep (goes s0 l1) <> None /\ who <> governor ep (goes s0 l1) /\
    x <= 14 * 24 * 60 * 60 /\ time e <= time ep + x /\ quiet (goes s0 (l1 ++ [ep])) l2.

(** An accepted proposal can be claimed until it expires or another ownership message is accepted; the claimant then governs, whoever owns
    the factory. *)
Definition claimable (s0 : S) : Prop := forall l1 ep w who x l2 e,
  view ep = Some (w, OwnershipModel.Propose who x) -> act ep (goes s0 l1) <> None -> quiet (goes s0 (l1 ++ [ep])) l2 ->
  view e = Some (who, OwnershipModel.Claim) -> time e <= time ep + x ->
  let s := goes s0 (l1 ++ ep :: l2) in act e s <> None /\ forall e', governor e' (go s e) = who.

(** ** Proofs *)
Context (prop : S -> option OwnershipModel.proposal).
Definition shadow (e : E) (s : S) (w : Z) (m : OwnershipModel.msg) : option OwnershipModel.state :=
  OwnershipModel.step (OwnershipModel.mkEv (time e) w m) (OwnershipModel.mkState (governor e s) (prop s)).
Context (Hstep : forall e s s', act e s = Some s' -> match view e with
  | Some (w, m) => exists o, shadow e s w m = Some o /\ prop s' = OwnershipModel.prop o /\
      own s' = match m with OwnershipModel.Claim => Some (OwnershipModel.owner o) | _ => own s end
  | None => prop s' = prop s /\ own s' = own s
  end).
Context (Hback : forall e s w m o, view e = Some (w, m) -> shadow e s w m = Some o -> act e s <> None).

Lemma goes_app s l k : goes s (l ++ k) = goes (goes s l) k.
Proof. apply fold_left_app. Qed.

Lemma pending s0 l p : prop s0 = None -> prop (goes s0 l) = Some p -> exists l1 ep x l2, l = l1 ++ ep :: l2 /\
  view ep = Some (governor ep (goes s0 l1), OwnershipModel.Propose (OwnershipModel.p_owner p) x) /\
  act ep (goes s0 l1) <> None /\ OwnershipModel.p_owner p <> governor ep (goes s0 l1) /\
  x <= 14 * 24 * 60 * 60 /\ OwnershipModel.p_ttl p = time ep + x /\ quiet (goes s0 (l1 ++ [ep])) l2.
Proof.
  intros N. revert p. induction l as [|e l IH] using rev_ind; intros p H; [cbn in H; congruence|].
  rewrite goes_app in H. cbn [goes fold_left] in H. unfold go in H at 1.
  assert (Keep : forall p, prop (goes s0 l) = Some p -> (forall w m, view e = Some (w, m) -> m <> OwnershipModel.Other -> act e (goes s0 l) = None) ->
    exists l1 ep x l2, l ++ [e] = l1 ++ ep :: l2 /\
      view ep = Some (governor ep (goes s0 l1), OwnershipModel.Propose (OwnershipModel.p_owner p) x) /\
      act ep (goes s0 l1) <> None /\ OwnershipModel.p_owner p <> governor ep (goes s0 l1) /\
      x <= 14 * 24 * 60 * 60 /\ OwnershipModel.p_ttl p = time ep + x /\ quiet (goes s0 (l1 ++ [ep])) l2).
  { intros q Hq Q. destruct (IH q Hq) as (l1 & ep & x & l2 & -> & A & B & C & D & F & G).
    exists l1, ep, x, (l2 ++ [e]). rewrite <- app_assoc. cbn [app]. split; [reflexivity|]. split; [exact A|]. split; [exact B|].
    split; [exact C|]. split; [exact D|]. split; [exact F|]. intros k e' k' E'.
    destruct (destruct_list k') as [(y & k2 & Ek)|Ek]; [|].
    - destruct (exists_last (l := k')) as (k3 & z & Ez); [rewrite Ek; discriminate|]. rewrite Ez in E'.
      assert (E2 : l2 ++ [e] = (k ++ e' :: k3) ++ [z]) by (rewrite E', <- app_assoc; reflexivity).
      apply app_inj_tail in E2 as [E2 _]. exact (G _ _ _ E2).
    - subst k'. apply app_inj_tail in E' as [<- <-]. rewrite <- goes_app, <- app_assoc. exact Q. }
  change (fold_left go l s0) with (goes s0 l) in H. destruct (act e (goes s0 l)) as [s'|] eqn:A.
  - pose proof (Hstep _ _ _ A) as K. destruct (view e) as [[w m]|] eqn:V.
    + destruct K as (o & Sh & Pr & _). rewrite Pr in H. unfold shadow, OwnershipModel.step in Sh. cbn in Sh. destruct m as [n x| | |].
      * unguard Sh E1. unguard Sh E2. unguard Sh E3. unbind Sh as ttl Et. injection Sh as <-. cbn in H. injection H as <-. cbn.
        unfold OwnershipModel.MAX_PROPOSAL_TTL in E3. bools. num_inv. exists l, e, x, [].
        split; [reflexivity|]. split; [exact V|]. split; [congruence|]. split; [exact E2|]. split; [lia|]. split; [reflexivity|].
        intros [|? k] e' k' E'; discriminate E'.
      * unguard Sh E1. injection Sh as <-. discriminate H.
      * unbind Sh as q Eq. unguard Sh E1. unguard Sh E2. injection Sh as <-. discriminate H.
      * injection Sh as <-. apply Keep; [exact H|]. intros w' m' V' M. congruence.
    + destruct K as (Pr & _). rewrite Pr in H. apply Keep; [exact H|]. intros w m V'. congruence.
  - apply Keep; [exact H|]. intros; reflexivity.
Qed.

Lemma gov_transferred s0 l e : prop s0 = None -> own (go (goes s0 l) e) <> own (goes s0 l) -> transferred s0 l e.
Proof.
  intros N D. unfold go in D. destruct (act e (goes s0 l)) as [s'|] eqn:A; [|congruence].
  pose proof (Hstep _ _ _ A) as K. destruct (view e) as [[w m]|] eqn:V; [|destruct K; congruence].
  destruct K as (o & Sh & Pr & Ow). destruct m; try congruence.
  unfold shadow, OwnershipModel.step in Sh. cbn in Sh. unbind Sh as q Eq. unguard Sh E1. unguard Sh E2. injection Sh as <-.
  cbn in Ow. bools. destruct (pending _ _ _ N Eq) as (l1 & ep & x & l2 & El & P1 & P2 & P3 & P4 & P5 & P6).
  exists (OwnershipModel.p_owner q), l1, ep, x, l2. split; [congruence|]. split; [unfold go; rewrite A; exact Ow|].
  split; [exact El|]. split; [exact P1|]. split; [exact P2|]. split; [exact P3|]. split; [exact P4|]. split; [lia|exact P6].
Qed.

Lemma gov_claimable s0 : claimable s0.
Proof.
  intros l1 ep w who x l2 e V A Q Ve T s.
  assert (P : prop s = Some (OwnershipModel.mkProp who (time ep + x))).
  { unfold s. change (ep :: l2) with ([ep] ++ l2). rewrite app_assoc, goes_app. clear T s. induction l2 as [|e2 l2 IH] using rev_ind.
    - change (goes (goes s0 (l1 ++ [ep])) []) with (goes s0 (l1 ++ [ep])). rewrite goes_app. change (goes (goes s0 l1) [ep]) with (go (goes s0 l1) ep). unfold go at 1.
      destruct (act ep (goes s0 l1)) as [s'|] eqn:Ea; [|congruence]. pose proof (Hstep _ _ _ Ea) as K. rewrite V in K.
      destruct K as (o & Sh & Pr & _). rewrite Pr. unfold shadow, OwnershipModel.step in Sh. cbn in Sh.
      unguard Sh E1. unguard Sh E2. unguard Sh E3. unbind Sh as ttl Et. injection Sh as <-. num_inv. cbn. reflexivity.
    - assert (Q' : quiet (goes s0 (l1 ++ [ep])) l2).
      { intros k e' k' E'. apply (Q k e' (k' ++ [e2])). rewrite E', <- app_assoc. reflexivity. }
      specialize (IH Q'). rewrite goes_app. cbn [goes fold_left]. change (fold_left go l2 (goes s0 (l1 ++ [ep]))) with (goes (goes s0 (l1 ++ [ep])) l2).
      unfold go at 1. destruct (act e2 (goes (goes s0 (l1 ++ [ep])) l2)) as [s'|] eqn:Ea; [|exact IH].
      pose proof (Hstep _ _ _ Ea) as K. pose proof (Q l2 e2 [] eq_refl) as Qe. destruct (view e2) as [[w2 m2]|] eqn:V2.
      + destruct K as (o & Sh & Pr & _). rewrite Pr.
        destruct m2; try (rewrite (Qe _ _ eq_refl) in Ea by discriminate; discriminate Ea).
        unfold shadow, OwnershipModel.step in Sh. cbn in Sh. injection Sh as <-. exact IH.
      + destruct K as (Pr & _). rewrite Pr. exact IH. }
  assert (Sh : shadow e s who OwnershipModel.Claim = Some (OwnershipModel.mkState who None)).
  { unfold shadow, OwnershipModel.step. cbn. rewrite P. cbn. rewrite Z.eqb_refl. destruct (Z.ltb_spec (time ep + x) (time e)); [lia|]. reflexivity. }
  pose proof (Hback _ _ _ _ _ Ve Sh) as B. split; [exact B|]. intros e'. unfold go. destruct (act e s) as [s'|] eqn:Ea; [|congruence].
  pose proof (Hstep _ _ _ Ea) as K. rewrite Ve in K. destruct K as (o & Sh' & _ & Ow). rewrite Sh in Sh'. injection Sh' as <-.
  unfold governor. rewrite Ow. reflexivity.
Qed.
End Gov.
