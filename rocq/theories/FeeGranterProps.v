(** C52, C81, C82: the fee granter. *)
From Coq Require Import ZArith Lia Bool List.
From Verif Require Import Num Amap FeeGranterModel.
From Verif Require OwnershipModel.
Import ListNotations.
Open Scope Z_scope.

(** Coins attached to messages are positive amounts, as the chain ensures. *)
Definition coins_ok (e : event) : Prop := forall c, In c (funds e) -> 0 < snd c.
Definition who_may (who : Z) (s : state) : Prop := who = owner s \/ In who (admins s).

Lemma mem_In x l : mem x l = true <-> In x l.
Proof.
  induction l as [|y l IH]; simpl; [split; [discriminate|tauto]|].
  rewrite orb_true_iff, Z.eqb_eq, IH. intuition congruence.
Qed.
Lemma allowed_may who s : allowed who s = true <-> who_may who s.
Proof. unfold allowed, who_may. rewrite orb_true_iff, Z.eqb_eq, mem_In. reflexivity. Qed.
Lemma insert_all_spec l : forall c c', insert_all l c = Some c' -> NoDup c ->
  NoDup c' /\ forall x, In x c' <-> In x l \/ In x c.
Proof.
  induction l as [|a l IH]; intros c c' H N; simpl in H.
  - injection H as <-. split; auto. intros x. simpl. tauto.
  - unguard H G. bools. assert (~ In a c) by (intros I; apply mem_In in I; congruence).
    destruct (IH _ _ H) as (A & B); [constructor; auto|]. split; auto. intros x. rewrite B. simpl. tauto.
Qed.
Lemma update_admins_spec c a r c' : update_admins c a r = Some c' -> NoDup c ->
  NoDup c' /\ Z.of_nat (length c') <= 2 /\ forall x, In x c' <-> (In x a \/ In x c) /\ ~ In x r.
Proof.
  unfold update_admins. intros H N. unbind H as l E. unguard H G. injection H as <-.
  destruct (insert_all_spec _ _ _ E N) as (A & B). apply Z.leb_le in G. unfold MAX_ADMINS in G.
  split; [apply NoDup_filter; exact A|]. split; [exact G|]. intros x. rewrite filter_In, B, negb_true_iff.
  rewrite <- (mem_In x r). destruct (mem x r); intuition congruence.
Qed.
Lemma attached_nonneg e : coins_ok e -> 0 <= attached (funds e).
Proof.
  unfold coins_ok. induction (funds e) as [|c f IH]; intros H; simpl; [lia|].
  assert (0 < snd c) by (apply H; left; reflexivity). assert (0 <= attached f) by (apply IH; intros d I; apply H; right; exact I).
  unfold attached in *. destruct (fst c =? GAS); lia.
Qed.

(** Every allowance on the chain is recorded, not above what was granted. *)
Definition keyed (m : amap Z) : Prop := NoDup (keys m).
Definition good (s : state) : Prop :=
  NoDup (admins s) /\ Z.of_nat (length (admins s)) <= 2 /\
  (forall g r, find g (allow s) = Some r -> exists a, find g (grants s) = Some a /\ 0 < r <= a).

Lemma step_good e s s' o : step e s = Some (s', o) -> good s -> good s'.
Proof.
  intros H (A & B & C). unfold step in H. destruct (what e) as [g a b|g|a t|ad rm|m|g f|a]; cbv zeta in H; cbn [own admins grants allow bal] in H.
  - unguard H G1. unguard H G2. unguard H G3. unguard H G4. injection H as <- <-. unfold good. cbn.
    split; [exact A|]. split; [exact B|]. bools. intros g2 r. rewrite !find_put. destruct (g =? g2) eqn:E.
    + intros Q. injection Q as <-. exists a. split; auto. lia.
    + apply C.
  - unguard H G1. unbind H as r E. injection H as <- <-. unfold good. cbn.
    split; [exact A|]. split; [exact B|]. intros g2 r2 Q. destruct (Z.eq_dec g g2) as [->|N].
    + rewrite find_del_same in Q. discriminate.
    + rewrite find_del_other in Q by auto. destruct (C _ _ Q) as (a & X & Y). exists a. rewrite find_del_other by auto. auto.
  - unguard H G1. unguard H G2. unguard H G3. injection H as <- <-. unfold good. cbn. auto.
  - unguard H G1. unbind H as l E. injection H as <- <-. unfold good. cbn.
    destruct (update_admins_spec _ _ _ _ E A) as (X & Y & _). auto.
  - unbind H as o2 E. injection H as <- <-. unfold good. cbn. auto.
  - unbind H as r E. unguard H G. injection H as <- <-. bools. unfold good. cbn.
    split; [exact A|]. split; [exact B|]. intros g2 r2 Q. destruct (C _ _ E) as (a & X & Y).
    destruct (r =? f) eqn:Er.
    + destruct (Z.eq_dec g g2) as [->|N]; [rewrite find_del_same in Q; discriminate|].
      rewrite find_del_other in Q by auto. apply C. exact Q.
    + apply Z.eqb_neq in Er. rewrite find_put in Q. destruct (g =? g2) eqn:Eg; [|apply C; exact Q].
      apply Z.eqb_eq in Eg. subst g2. injection Q as <-. exists a. split; auto. lia.
  - unguard H G. injection H as <- <-. unfold good. cbn. auto.
Qed.
Lemma run_good l : forall s, good s -> good (run s l).
Proof.
  induction l as [|v l IH]; intros s G; simpl; auto. apply IH. unfold exec.
  destruct (step v s) as [[s' o]|] eqn:E; auto. eapply step_good; eauto.
Qed.
Lemma init_good o a s : init o a = Some s -> good s.
Proof.
  unfold init. intros H. unbind H as l E. injection H as <-. destruct (update_admins_spec _ _ _ _ E) as (X & Y & _); [constructor|].
  split; [exact X|]. split; [exact Y|]. intros g r Q. discriminate.
Qed.

(** ** C52 *)

(** At most two admins, all different, in every reachable state. *)
Theorem c52_admins o a s0 l : init o a = Some s0 ->
  NoDup (admins (run s0 l)) /\ Z.of_nat (length (admins (run s0 l))) <= 2.
Proof. intros H. destruct (run_good l _ (init_good _ _ _ H)) as (A & B & _). auto. Qed.
(** Who can do what: the recorded grant of an address changes only by a message of the owner or an
    admin; the admins change only by a message of the owner, to the current ones plus the added minus the
    removed; coins leave only as a fee of a grantee within its allowance, or by a transfer of the owner or
    an admin. *)
Theorem c52_authority o a s0 l e s' out : init o a = Some s0 -> coins_ok e ->
  let s := run s0 l in
  step e s = Some (s', out) ->
  (forall g, grant_for g s' <> grant_for g s ->
     who_may (sender e) s /\
     ((exists v b, what e = Grant g v b /\ grant_for g s' = v /\ grant_for g s = 0) \/
      (what e = Revoke g /\ grant_for g s' = 0))) /\
  (forall x, ~ (In x (admins s') <-> In x (admins s)) ->
     sender e = owner s /\ exists ad rm, what e = UpdateAdmins ad rm /\
       forall y, In y (admins s') <-> (In y ad \/ In y (admins s)) /\ ~ In y rm) /\
  (bal s' < bal s ->
     (exists g r, what e = Spend g (bal s - bal s') /\ find g (allow s) = Some r /\ bal s - bal s' <= r) \/
     (who_may (sender e) s /\ exists v t, what e = TransferCoins v t /\ bal s - bal s' <= v)).
Proof.
  intros I Ok s H. assert (G : good s) by (apply run_good; eapply init_good; eauto). clearbody s.
  pose proof (attached_nonneg _ Ok) as At. destruct G as (Nd & _ & _).
  unfold step in H. destruct (what e) as [g v b|g|v t|ad rm|m|g f|v]; cbv zeta in H; cbn [own admins grants allow bal] in H.
  - unguard H G1. unguard H G2. unguard H G3. unguard H G4. injection H as <- <-. apply allowed_may in G1. unfold grant_for. cbn.
    split; [|split; [intros x N; tauto | lia]]. intros k N. split; [exact G1|]. left. exists v, b. rewrite find_put in *.
    destruct (g =? k) eqn:E; [|congruence]. apply Z.eqb_eq in E. subst k. destruct (find g (grants s)); [discriminate|]. auto.
  - unguard H G1. unbind H as r E. injection H as <- <-. apply allowed_may in G1. unfold grant_for. cbn.
    split; [|split; [intros x N; tauto | lia]]. intros k N. split; [exact G1|]. right.
    destruct (Z.eq_dec g k) as [->|D]; [rewrite find_del_same; auto|]. rewrite find_del_other in N by auto. congruence.
  - unguard H G1. unguard H G2. unguard H G3. injection H as <- <-. apply allowed_may in G2. bools. unfold grant_for. cbn.
    split; [intros k N; congruence|]. split; [intros x N; tauto|].
    intros L. right. split; [exact G2|]. exists v, t. split; auto. lia.
  - unguard H G1. unbind H as k E. injection H as <- <-. apply Z.eqb_eq in G1. unfold grant_for. cbn.
    destruct (update_admins_spec _ _ _ _ E Nd) as (_ & _ & Q).
    split; [intros x N; congruence|]. split; [|lia]. intros x N. split; [exact G1|]. exists ad, rm. split; auto.
  - unbind H as o2 E. injection H as <- <-. unfold grant_for. cbn.
    split; [intros k N; congruence|]. split; [intros x N; tauto | lia].
  - unbind H as r E. unguard H G. injection H as <- <-. bools. unfold grant_for. cbn.
    split; [intros k N; congruence|]. split; [intros x N; tauto|].
    intros _. left. exists g, r. replace (bal s - (bal s - f)) with f by lia. auto.
  - unguard H G. injection H as <- <-. bools. unfold grant_for. cbn.
    split; [intros k N; congruence|]. split; [intros x N; tauto | lia].
Qed.
(** Never doubled: a grant is accepted only for an address without one, then its allowance is exactly the
    amount; at any time an allowance is at most the recorded grant. *)
Theorem c52_single o a s0 l : init o a = Some s0 ->
  let s := run s0 l in
  (forall g r, find g (allow s) = Some r -> 0 < r <= grant_for g s) /\
  (forall e g v b s' out, what e = Grant g v b -> step e s = Some (s', out) ->
     find g (allow s) = None /\ find g (grants s) = None /\
     find g (allow s') = Some v /\ grant_for g s' = v /\ 0 < v /\
     (b = false -> attached (funds e) = v)).
Proof.
  intros I s. assert (G : good s) by (apply run_good; eapply init_good; eauto). clearbody s. destruct G as (_ & _ & C). split.
  - intros g r Q. destruct (C _ _ Q) as (v & X & Y). unfold grant_for. rewrite X. exact Y.
  - intros e g v b s' out We H. unfold step in H. rewrite We in H. cbv zeta in H. cbn [own admins grants allow bal] in H.
    unguard H G1. unguard H G2. unguard H G3. unguard H G4. injection H as <- <-. bools. unfold grant_for. cbn. rewrite !find_put_same.
    destruct (find g (allow s)); [discriminate|]. destruct (find g (grants s)); [discriminate|].
    repeat split; auto. intros ->. simpl in G2. unfold must_pay in G2. unfold attached.
    destruct (funds e) as [|[d x] [|]]; try discriminate. simpl in G2 |- *.
    destruct (x =? 0); [discriminate|]. simpl in G2. destruct (d =? GAS); [|discriminate]. apply Z.eqb_eq in G2. lia.
Qed.

(** ** C81: allowances are covered *)
Definition no_bypass (e : event) : Prop :=
  match what e with Grant _ _ b => b = false | TransferCoins _ _ => False | _ => True end.
Definition outstanding (s : state) : Z := sumf (fun r => r) (allow s).

Lemma find_In_keys {V} k (m : amap V) : find k m = None -> ~ In k (keys m).
Proof.
  induction m as [|[a v] m IH]; simpl; intros H; [tauto|]. destruct (a =? k) eqn:E; [discriminate|].
  apply Z.eqb_neq in E. intros [X|X]; [congruence | exact (IH H X)].
Qed.
Lemma keys_put_in {V} k x (v : V) m : In x (keys (put k v m)) -> x = k \/ In x (keys m).
Proof.
  induction m as [|[a w] m IH]; simpl; [intros [<-|[]]; auto|]. destruct (a =? k) eqn:E; simpl; [|intuition].
  apply Z.eqb_eq in E. subst a. intuition.
Qed.
Lemma keyed_put k v m : keyed m -> keyed (put k v m).
Proof.
  unfold keyed. induction m as [|[a w] m IH]; simpl; intros N; [repeat constructor; simpl; tauto|].
  inversion N as [|? ? X Y]; subst. destruct (a =? k) eqn:E; simpl; constructor; auto.
  - apply Z.eqb_eq in E. subst a. exact X.
  - intros Z. apply keys_put_in in Z. destruct Z as [Z|Z]; [|exact (X Z)]. apply Z.eqb_neq in E. congruence.
Qed.
Lemma keys_del_in {V} k x (m : amap V) : In x (keys (del k m)) -> In x (keys m).
Proof.
  induction m as [|[a w] m IH]; simpl; [tauto|]. destruct (a =? k) eqn:E; simpl; intuition.
Qed.
Lemma keyed_del k m : keyed m -> keyed (del k m).
Proof.
  unfold keyed. induction m as [|[a w] m IH]; simpl; intros N; [constructor|].
  inversion N as [|? ? X Y]; subst. destruct (a =? k) eqn:E; simpl; auto.
  constructor; auto. intros Z. apply X. eapply keys_del_in; eauto.
Qed.
Lemma del_absent {V} k (m : amap V) : ~ In k (keys m) -> del k m = m.
Proof.
  induction m as [|[a w] m IH]; simpl; intros N; auto. destruct (a =? k) eqn:E.
  - apply Z.eqb_eq in E. tauto.
  - f_equal. apply IH. tauto.
Qed.
Lemma sumf_del k r m : keyed m -> find k m = Some r -> sumf (fun x => x) (del k m) = sumf (fun x => x) m - r.
Proof.
  unfold keyed. induction m as [|[a w] m IH]; simpl; intros N F; [discriminate|].
  inversion N as [|? ? X Y]; subst. destruct (a =? k) eqn:E.
  - injection F as ->. apply Z.eqb_eq in E. subst a. rewrite del_absent by exact X. lia.
  - simpl. rewrite IH by auto. lia.
Qed.
Definition covered (s : state) : Prop := keyed (allow s) /\ outstanding s <= bal s.
Lemma step_covered e s s' o : step e s = Some (s', o) -> coins_ok e -> no_bypass e ->
  (forall g r, find g (allow s) = Some r -> 0 < r) -> covered s -> covered s'.
Proof.
  intros H Ok Nb Pos (K & C). pose proof (attached_nonneg _ Ok) as At. unfold covered, outstanding in *.
  unfold step, no_bypass in *.
  destruct (what e) as [g v b|g|v t|ad rm|m|g f|v]; cbv zeta in H; cbn [own admins grants allow bal] in H.
  - subst b. unguard H G1. unguard H G2. unguard H G3. unguard H G4. injection H as <- <-. cbn.
    split; [apply keyed_put; exact K|]. rewrite sumf_put. destruct (find g (allow s)); [bools; discriminate|].
    simpl in G2. unfold must_pay in G2. unfold attached in *.
    destruct (funds e) as [|[d x] [|]]; try discriminate. simpl in G2, At |- *.
    destruct (x =? 0); [discriminate|]. simpl in G2. destruct (d =? GAS); [|discriminate]. apply Z.eqb_eq in G2. lia.
  - unguard H G1. unbind H as r E. injection H as <- <-. cbn. split; [apply keyed_del; exact K|].
    rewrite (sumf_del _ _ _ K E). specialize (Pos _ _ E). lia.
  - contradiction.
  - unguard H G1. unbind H as k E. injection H as <- <-. cbn. split; auto. lia.
  - unbind H as o2 E. injection H as <- <-. cbn. split; auto. lia.
  - unbind H as r E. unguard H G. injection H as <- <-. bools. cbn. destruct (r =? f) eqn:Er.
    + apply Z.eqb_eq in Er. split; [apply keyed_del; exact K|]. rewrite (sumf_del _ _ _ K E). lia.
    + split; [apply keyed_put; exact K|]. rewrite sumf_put, E. lia.
  - unguard H G. injection H as <- <-. bools. cbn. split; auto. lia.
Qed.
(** As long as no grant bypasses the payment check and nobody transfers coins out, all remaining
    allowances together are covered by the contract's gas coins; so a grantee can always spend its
    whole remaining allowance. *)
Theorem c81_covered o a s0 l : init o a = Some s0 ->
  Forall (fun e => coins_ok e /\ no_bypass e) l ->
  let s := run s0 l in
  outstanding s <= bal s /\
  forall g r fee, find g (allow s) = Some r -> 0 < fee <= r ->
    exists s', step (mkEv 0 g [] (Spend g fee)) s = Some (s', []) /\ bal s' = bal s - fee.
Proof.
  intros I F s. assert (Gi : good s0) by (eapply init_good; eauto).
  assert (P : good s /\ covered s).
  { unfold s. clear s. assert (Ci : covered s0).
    { unfold init in I. unbind I as k E. injection I as <-. split; [constructor | unfold outstanding; simpl; lia]. }
    clear I. revert s0 Gi Ci F. induction l as [|v l IH]; intros s G C F; [split; auto|].
    apply Forall_cons_iff in F. destruct F as ((F1 & F2) & F). change (run s (v :: l)) with (run (exec s v) l).
    unfold exec. destruct (step v s) as [[s' out]|] eqn:E; [|apply IH; auto].
    apply IH; auto; [eapply step_good; eauto|]. eapply step_covered; eauto.
    intros g r Q. destruct G as (_ & _ & G). destruct (G _ _ Q) as (x & _ & Y). lia. }
  destruct P as ((_ & _ & Q) & K & C). split; [exact C|]. intros g r fee Fr L.
  assert (Le : r <= outstanding s).
  { unfold outstanding. assert (N : 0 <= sumf (fun x => x) (del g (allow s))).
    { apply sumf_nonneg; [|apply keyed_del; exact K]. intros k v Fv. destruct (Z.eq_dec g k) as [->|D].
      - rewrite find_del_same in Fv. discriminate.
      - rewrite find_del_other in Fv by auto. destruct (Q _ _ Fv) as (x & _ & Y). lia. }
    rewrite (sumf_del _ _ _ K Fr) in N. lia. }
  unfold step. cbn [what funds sender time]. rewrite Fr.
  rewrite (proj2 (Z.ltb_lt 0 fee)), (proj2 (Z.leb_le fee r)), (proj2 (Z.leb_le fee (bal s))) by lia.
  eexists. split; [reflexivity|]. reflexivity.
Qed.
(** With a bypassing grant the allowances are not covered: a grantee's fee payment fails. *)
Theorem c81_bypass_refuted : exists o a s0 l, init o a = Some s0 /\ Forall coins_ok l /\
  let s := run s0 l in
  (exists g r, find g (allow s) = Some r /\ step (mkEv 0 g [] (Spend g r)) s = None).
Proof.
  exists 1, [2], (mkState (OwnershipModel.init 1) [2] [] [] 0), [mkEv 10 2 [] (Grant 7 100 true)].
  split; [reflexivity|]. split; [repeat constructor; intros c []|]. exists 7, 100. vm_compute. auto.
Qed.

(** ** C82: a grant used up *)

(** A grant with something left can be taken back by the owner or an admin and given again. *)
Theorem c82_renew e1 e2 s g r v :
  find g (allow s) = Some r -> who_may (sender e1) s -> who_may (sender e2) s -> 0 < v -> g <> SELF ->
  what e1 = Revoke g -> what e2 = Grant g v false -> funds e2 = [(GAS, v)] ->
  exists s1 s2, step e1 s = Some (s1, []) /\ step e2 s1 = Some (s2, []) /\ find g (allow s2) = Some v /\ grant_for g s2 = v.
Proof.
  intros F W1 W2 V N E1 E2 Fu. unfold step. rewrite E1, E2. cbv zeta. cbn [own admins grants allow bal].
  assert (A1 : allowed (sender e1) {| own := own s; admins := admins s; grants := grants s; allow := allow s; bal := bal s + attached (funds e1) |} = true)
    by (apply allowed_may; exact W1).
  rewrite A1, F. eexists. eexists. split; [reflexivity|]. cbn [own admins grants allow bal].
  match goal with |- context [allowed (sender e2) ?x] => assert (A2 : allowed (sender e2) x = true) by (apply allowed_may; exact W2) end.
  rewrite A2, Fu. cbn [must_pay orb]. rewrite (proj2 (Z.eqb_neq v 0)), !Z.eqb_refl by lia. cbn [negb].
  rewrite !find_del_same. rewrite (proj2 (Z.eqb_neq g SELF)), (proj2 (Z.ltb_lt 0 v)) by auto. cbn [negb andb].
  rewrite Z.eqb_refl. split; [reflexivity|]. unfold grant_for. cbn. rewrite !find_put_same. auto.
Qed.
(** But once the allowance is used up completely, the record can never be removed: whatever anybody
    does, the address keeps the stale record, has no allowance, and can not be granted again. *)
Theorem c82_stuck s g a : find g (grants s) = Some a -> find g (allow s) = None ->
  forall l, let s' := run s l in
    find g (grants s') = Some a /\ find g (allow s') = None /\
    (forall t who f v b, step (mkEv t who f (Grant g v b)) s' = None) /\
    (forall t who f, step (mkEv t who f (Revoke g)) s' = None).
Proof.
  intros G A l. assert (P : find g (grants (run s l)) = Some a /\ find g (allow (run s l)) = None).
  { revert s G A. induction l as [|e l IH]; intros s G A; [auto|].
    change (run s (e :: l)) with (run (exec s e) l). unfold exec. destruct (step e s) as [[s' o]|] eqn:H; [|apply IH; auto].
    assert (Q : find g (grants s') = Some a /\ find g (allow s') = None); [|destruct Q; apply IH; auto].
    unfold step in H.
    destruct (what e) as [k v b|k|v t|ad rm|m|k f|v]; cbv zeta in H; cbn [own admins grants allow bal] in H.
    - unguard H G1. unguard H G2. unguard H G3. unguard H G4. injection H as <- <-. cbn. rewrite !find_put.
      destruct (k =? g) eqn:E; [|auto]. apply Z.eqb_eq in E. subst k. rewrite G in G3. discriminate.
    - unguard H G1. unbind H as r E. injection H as <- <-. cbn. destruct (Z.eq_dec k g) as [->|D]; [congruence|].
      rewrite !find_del_other by auto. auto.
    - unguard H G1. unguard H G2. unguard H G3. injection H as <- <-. auto.
    - unguard H G1. unbind H as q E. injection H as <- <-. auto.
    - unbind H as o2 E. injection H as <- <-. auto.
    - unbind H as r E. unguard H G1. injection H as <- <-. cbn. split; auto. destruct (Z.eq_dec k g) as [->|D]; [congruence|].
      destruct (r =? f); [rewrite find_del_other | rewrite find_put_other]; auto.
    - unguard H G1. injection H as <- <-. auto. }
  cbv zeta. destruct P as (P1 & P2). split; [exact P1|]. split; [exact P2|]. split.
  - intros t who f v b. unfold step. cbn [what sender funds]. cbv zeta. cbn [grants allow]. rewrite P1.
    destruct (allowed _ _); [|reflexivity]. destruct (_ || _); reflexivity.
  - intros t who f. unfold step. cbn [what sender funds]. cbv zeta. cbn [grants allow]. rewrite P2.
    destruct (allowed _ _); reflexivity.
Qed.
Theorem c82_refuted : exists o a s0 l g v, init o a = Some s0 /\ Forall coins_ok l /\
  find g (grants (run s0 l)) = Some v /\ find g (allow (run s0 l)) = None.
Proof.
  exists 1, [2], (mkState (OwnershipModel.init 1) [2] [] [] 0),
    [mkEv 10 2 [(GAS, 100)] (Grant 7 100 false); mkEv 11 7 [] (Spend 7 40); mkEv 12 7 [] (Spend 7 60)], 7, 100.
  split; [reflexivity|]. split; [|split; vm_compute; reflexivity].
  repeat constructor; intros c; simpl; intros Q; repeat destruct Q as [<-|Q]; simpl; try lia; try contradiction.
Qed.

(** ** Concrete case *)
Definition k0 : state := mkState (OwnershipModel.init 1) [2] [] [] 0.
Definition k_run : list event :=
  [mkEv 10 2 [(GAS, 100)] (Grant 7 100 false); mkEv 11 1 [(GAS, 50)] (Grant 8 50 false);
   mkEv 12 7 [] (Spend 7 40); mkEv 13 1 [] (UpdateAdmins [3] []); mkEv 14 2 [] (Revoke 8)].
Example k_init : init 1 [2] = Some k0 /\ init 1 [2; 3; 4] = None /\ init 1 [2; 2] = None.
Proof. vm_compute. auto. Qed.
Example k_state :
  Forall (fun e => coins_ok e /\ no_bypass e) k_run /\
  let s := run k0 k_run in
  admins s = [3; 2] /\ grants s = [(7, 100)] /\ allow s = [(7, 60)] /\ bal s = 110 /\
  step (mkEv 15 1 [] (UpdateAdmins [4] [])) s = None /\
  step (mkEv 15 2 [] (UpdateAdmins [4] [3])) s = None /\
  option_map (fun r => admins (fst r)) (step (mkEv 15 1 [] (UpdateAdmins [4] [3])) s) = Some [4; 2] /\
  step (mkEv 15 5 [(GAS, 9)] (Grant 9 9 false)) s = None /\
  step (mkEv 15 3 [(GAS, 8)] (Grant 9 9 false)) s = None /\
  step (mkEv 15 3 [(GAS, 9)] (Grant 7 9 false)) s = None /\
  option_map (fun r => grant_for 9 (fst r)) (step (mkEv 15 3 [(GAS, 9)] (Grant 9 9 false)) s) = Some 9 /\
  option_map snd (step (mkEv 15 3 [] (TransferCoins 50 (Some 6))) s) = Some [(6, 50)].
Proof.
  split; [|vm_compute; repeat split].
  repeat constructor; intros c; simpl; intros Q; repeat destruct Q as [<-|Q]; simpl; try lia; try contradiction.
Qed.
Example k_renew : let s := run k0 k_run in
  find 7 (allow s) = Some 60 /\ who_may 3 s /\ who_may 1 s.
Proof. vm_compute. auto. Qed.

Print Assumptions c52_admins.
Print Assumptions c52_authority.
Print Assumptions c52_single.
Print Assumptions c81_covered.
Print Assumptions c81_bypass_refuted.
Print Assumptions c82_renew.
Print Assumptions c82_stuck.
Print Assumptions c82_refuted.
