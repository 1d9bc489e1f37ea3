(** Theorems C19: two-step ownership transfer. *)
From Coq Require Import ZArith Lia Bool List.
From Verif Require Import Num OwnershipModel.
Import ListNotations.
Open Scope Z_scope.

(** Messages which withdraw or replace a pending proposal of owner [o]. *)
Definition supersedes (o : Z) (e : event) : Prop :=
  sender e = o /\
  match what e with
  | Propose n x => n <> o /\ x <= 14 * 24 * 60 * 60 /\ 0 <= at_time e + x <= U64MAX
  | Drop => True
  | Claim | Other => False
  end.

(** A pending proposal [p] was made by the present owner [o] as the last relevant message. *)
Definition justified (o0 : Z) (l : list event) (o n ttl : Z) : Prop :=
  exists l1 tp x l2,
    l = l1 ++ mkEv tp o (Propose n x) :: l2 /\
    owner (run (init o0) l1) = o /\ n <> o /\ x <= 14 * 24 * 60 * 60 /\ ttl = tp + x /\
    Forall (fun e => ~ supersedes o e) l2.

Lemma run_app s l1 l2 : run s (l1 ++ l2) = run (run s l1) l2.
Proof. apply fold_left_app. Qed.

Lemma pending_justified o0 l p :
  prop (run (init o0) l) = Some p -> justified o0 l (owner (run (init o0) l)) (p_owner p) (p_ttl p).
Proof.
  revert p. induction l as [|e l IH] using rev_ind; intros p H; [discriminate|].
  rewrite run_app in *. cbn [run fold_left] in *. fold (run (init o0) l) in *.
  change (fold_left exec l (init o0)) with (run (init o0) l) in *.
  set (s := run (init o0) l) in *.
  assert (Keep : forall p, prop s = Some p -> ~ supersedes (owner s) e ->
                 justified o0 (l ++ [e]) (owner s) (p_owner p) (p_ttl p)).
  { intros q Hq N. destruct (IH q Hq) as (l1 & tp & x & l2 & E & A & B & C & D & F).
    exists l1, tp, x, (l2 ++ [e]). rewrite E, <- app_assoc. simpl. repeat split; auto.
    apply Forall_app; auto. }
  unfold exec in *. destruct (step e s) as [s'|] eqn:St.
  - unfold step in St. destruct e as [t a m]. simpl in *. destruct m as [n x| | |].
    + unguard St E1. unguard St E2. unguard St E3. unbind St as ttl Et. injection St as <-. simpl in *.
      injection H as <-. simpl. bools. num_inv.
      exists l, t, x, []. repeat split; auto.
    + unguard St E1. injection St as <-. discriminate.
    + unbind St as q Eq. unguard St E1. unguard St E2. injection St as <-. discriminate.
    + injection St as <-. apply Keep; auto. intros [_ []].
  - apply Keep; auto. intros [S W]. destruct e as [t a m]. simpl in *. unfold step in St. simpl in St.
    destruct m as [n x| | |]; try tauto.
    + destruct (Z.eqb_spec a (owner s)); [|congruence].
      destruct (Z.eqb_spec n (owner s)); [tauto|]. simpl in St.
      unfold MAX_PROPOSAL_TTL in St. destruct (Z.ltb_spec 1209600 x); [lia|]. simpl in St.
      unfold add64, u64 in St. destruct W as (_ & _ & W).
      rewrite (proj2 (fits_iff U64MAX _) W) in St. discriminate.
    + destruct (Z.eqb_spec a (owner s)); congruence.
Qed.

(** C19: the owner changes only in a claim by the address the current owner proposed last, within the
    deadline (at most 14 days after the proposal), with no drop and no newer proposal in between. *)
Theorem c19_owner_changes_only_by_claimed_proposal o0 l e :
  let s := run (init o0) l in
  let s' := run (init o0) (l ++ [e]) in
  owner s' <> owner s ->
  what e = Claim /\ owner s' = sender e /\
  exists l1 tp x l2,
    l = l1 ++ mkEv tp (owner s) (Propose (sender e) x) :: l2 /\
    owner (run (init o0) l1) = owner s /\
    x <= 14 * 24 * 60 * 60 /\ at_time e <= tp + x /\
    Forall (fun e' => ~ supersedes (owner s) e') l2.
Proof.
  cbv zeta. rewrite run_app. cbn [run fold_left].
  change (fold_left exec l (init o0)) with (run (init o0) l).
  intros N. unfold exec in *. destruct (step e (run (init o0) l)) as [s'|] eqn:St; [|congruence].
  unfold step in St. destruct (what e) eqn:W.
  - unguard St E1. unguard St E2. unguard St E3. unbind St as ttl Et. injection St as <-. simpl in N. congruence.
  - unguard St E1. injection St as <-. simpl in N. congruence.
  - unbind St as p Ep. unguard St E1. unguard St E2. injection St as <-. simpl in *. bools.
    split; auto. split; auto.
    destruct (pending_justified o0 l p Ep) as (l1 & tp & x & l2 & E & A & B & C & D & F).
    exists l1, tp, x, l2. rewrite E1. repeat split; auto. lia.
  - injection St as <-. congruence.
Qed.
(** A proposal is consumed by the claim: the new owner cannot be replaced by a stale proposal. *)
Theorem c19_claim_consumes_proposal o0 l e :
  owner (run (init o0) (l ++ [e])) <> owner (run (init o0) l) ->
  prop (run (init o0) (l ++ [e])) = None.
Proof.
  rewrite run_app. cbn [run fold_left]. change (fold_left exec l (init o0)) with (run (init o0) l).
  intros N. unfold exec in *. destruct (step e (run (init o0) l)) as [s'|] eqn:St; [|congruence].
  unfold step in St. destruct (what e) eqn:W.
  - unguard St E1. unguard St E2. unguard St E3. unbind St as ttl Et. injection St as <-. simpl in N. congruence.
  - unguard St E1. injection St as <-. simpl in N. congruence.
  - unbind St as p Ep. unguard St E1. unguard St E2. injection St as <-. reflexivity.
  - injection St as <-. congruence.
Qed.
(** Conversely a proposed address can claim up to the deadline. *)
Theorem c19_claim_available o0 l1 tp n x l2 t :
  let o := owner (run (init o0) l1) in
  n <> o -> x <= 14 * 24 * 60 * 60 -> 0 <= tp + x <= U64MAX ->
  Forall (fun e => ~ supersedes o e) l2 -> Forall (fun e => what e <> Claim) l2 -> t <= tp + x ->
  owner (run (init o0) (l1 ++ mkEv tp o (Propose n x) :: l2 ++ [mkEv t n Claim])) = n.
Proof.
  cbv zeta. intros Hn Hx Hr Hs Hc Ht. rewrite run_app. cbn [run fold_left].
  change (fold_left exec l1 (init o0)) with (run (init o0) l1). set (s := run (init o0) l1) in *.
  assert (E : exec s (mkEv tp (owner s) (Propose n x)) = mkState (owner s) (Some (mkProp n (tp + x)))).
  { unfold exec, step. simpl. rewrite Z.eqb_refl. destruct (Z.eqb_spec n (owner s)); [congruence|]. simpl.
    unfold MAX_PROPOSAL_TTL. destruct (Z.ltb_spec 1209600 x); [lia|]. simpl.
    unfold add64, u64. rewrite (proj2 (fits_iff U64MAX _) Hr). reflexivity. }
  rewrite E. rewrite fold_left_app.
  assert (K : fold_left exec l2 (mkState (owner s) (Some (mkProp n (tp + x)))) =
              mkState (owner s) (Some (mkProp n (tp + x)))).
  { clear E. induction l2 as [|e l2 IH]; simpl; auto. inversion Hs; subst. inversion Hc; subst.
    assert (Q : exec (mkState (owner s) (Some (mkProp n (tp + x)))) e = mkState (owner s) (Some (mkProp n (tp + x)))).
    { unfold exec. destruct (step e _) as [s'|] eqn:St; auto. unfold step in St. unfold supersedes in H1.
      destruct (what e) eqn:W; try congruence; simpl in St.
      - unguard St E1. unguard St E2. unguard St E3. unbind St as ttl Et. exfalso. apply H1.
        unfold MAX_PROPOSAL_TTL in E3. bools. num_inv. repeat split; auto; lia.
      - unguard St E1. exfalso. apply H1. bools. auto. }
    rewrite Q. auto. }
  rewrite K. simpl. unfold exec, step. simpl. rewrite Z.eqb_refl.
  destruct (Z.ltb_spec (tp + x) t); [lia|]. reflexivity.
Qed.
Example c19_example :
  let h := [mkEv 5 1 (Propose 2 100); mkEv 6 3 Claim; mkEv 7 1 (Propose 3 50); mkEv 8 2 Claim; mkEv 9 9 Drop] in
  owner (run (init 1) h) = 1 /\ owner (run (init 1) (h ++ [mkEv 57 3 Claim])) = 3 /\
  owner (run (init 1) (h ++ [mkEv 58 3 Claim])) = 1 /\
  owner (run (init 1) (h ++ [mkEv 20 1 Drop; mkEv 57 3 Claim])) = 1.
Proof. vm_compute. auto. Qed.

Print Assumptions c19_owner_changes_only_by_claimed_proposal.
Print Assumptions c19_claim_consumes_proposal.
Print Assumptions c19_claim_available.
