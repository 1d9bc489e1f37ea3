(** Byte strings (lists of integers), their lexicographic order, and maps iterated in key order
    (contract storage of cw-storage-plus [Map] with byte-string keys). *)
From Coq Require Import ZArith Lia Bool List Permutation Sorted.
Import ListNotations.
Open Scope Z_scope.

Notation bytes := (list Z) (only parsing).

Fixpoint blt (a b : bytes) : bool :=
  match a, b with
  | _, [] => false
  | [], _ :: _ => true
  | x :: a', y :: b' => (x <? y) || ((x =? y) && blt a' b')
  end.
Fixpoint beq (a b : bytes) : bool :=
  match a, b with
  | [], [] => true
  | x :: a', y :: b' => (x =? y) && beq a' b'
  | _, _ => false
  end.

Lemma beq_spec a : forall b, reflect (a = b) (beq a b).
Proof.
  induction a as [|x a IH]; destruct b as [|y b]; simpl; try (constructor; congruence).
  destruct (Z.eqb_spec x y); simpl; [|constructor; congruence].
  destruct (IH b); constructor; congruence.
Qed.
Lemma beq_refl a : beq a a = true.
Proof. destruct (beq_spec a a); congruence. Qed.
Lemma blt_irrefl a : blt a a = false.
Proof. induction a as [|x a IH]; simpl; auto. rewrite Z.ltb_irrefl, Z.eqb_refl. auto. Qed.
Lemma blt_trans a : forall b c, blt a b = true -> blt b c = true -> blt a c = true.
Proof.
  induction a as [|x a IH]; destruct b as [|y b]; destruct c as [|z c]; simpl; try congruence.
  rewrite !orb_true_iff, !andb_true_iff, !Z.ltb_lt, !Z.eqb_eq. intros [H|[-> H]] [K|[-> K]]; try (left; lia).
  right. split; auto. eauto.
Qed.
Lemma blt_total a : forall b, blt a b = true \/ a = b \/ blt b a = true.
Proof.
  induction a as [|x a IH]; destruct b as [|y b]; simpl; auto.
  rewrite !orb_true_iff, !andb_true_iff, !Z.ltb_lt, !Z.eqb_eq.
  destruct (Z.lt_total x y) as [H|[->|H]]; auto.
  destruct (IH b) as [H|[->|H]]; auto.
Qed.
Lemma blt_asym a b : blt a b = true -> blt b a = false.
Proof.
  intros H. destruct (blt b a) eqn:E; auto. pose proof (blt_trans _ _ _ H E). rewrite blt_irrefl in *. discriminate.
Qed.

(** Appending a byte not greater than any byte in use separates a key from the keys after it. *)
Lemma blt_push k c k' : Forall (fun b => c < b) k' -> blt (k ++ [c]) k' = blt k k'.
Proof.
  revert k'. induction k as [|x k IH]; intros k' F; destruct k' as [|y k']; simpl; auto; inversion F; subst.
  - destruct (Z.ltb_spec c y); [reflexivity|lia].
  - rewrite IH; auto.
Qed.

(** ** Sorting byte strings ([sorted()] of itertools: stable, ascending) *)
Fixpoint binsert (x : bytes) (l : list bytes) : list bytes :=
  match l with
  | [] => [x]
  | y :: r => if blt y x then y :: binsert x r else x :: l
  end.
Definition bsort (l : list bytes) : list bytes := fold_right binsert [] l.

Definition ble (a b : bytes) : Prop := blt b a = false.
Lemma ble_trans a b c : ble a b -> ble b c -> ble a c.
Proof.
  unfold ble. intros H K. destruct (blt c a) eqn:E; auto.
  destruct (blt_total a b) as [L|[<-|L]]; [|congruence|congruence].
  rewrite (blt_trans _ _ _ E L) in K. discriminate.
Qed.
Lemma binsert_perm x l : Permutation (binsert x l) (x :: l).
Proof.
  induction l as [|y l IH]; simpl; auto. destruct (blt y x); auto.
  rewrite IH. apply perm_swap.
Qed.
Lemma bsort_perm l : Permutation (bsort l) l.
Proof. induction l; simpl; auto. rewrite binsert_perm. auto. Qed.
Lemma binsert_sorted x l : StronglySorted ble l -> StronglySorted ble (binsert x l).
Proof.
  induction l as [|y l IH]; intros S; simpl.
  - repeat constructor.
  - inversion S; subst. destruct (blt y x) eqn:E.
    + constructor; auto. apply (Permutation_Forall (Permutation_sym (binsert_perm x l))).
      constructor; auto. unfold ble. apply blt_asym. exact E.
    + constructor; auto. constructor; auto.
      eapply Forall_impl; [|exact H2]. intros z Hz. eapply ble_trans; [exact E|exact Hz].
Qed.
Lemma bsort_sorted l : StronglySorted ble (bsort l).
Proof. induction l; simpl; [constructor|]. apply binsert_sorted. auto. Qed.
Lemma ble_antisym a b : ble a b -> ble b a -> a = b.
Proof. unfold ble. intros H K. destruct (blt_total a b) as [L|[L|L]]; congruence. Qed.
Lemma sorted_perm_eq l1 : forall l2, StronglySorted ble l1 -> StronglySorted ble l2 -> Permutation l1 l2 -> l1 = l2.
Proof.
  induction l1 as [|x l1 IH]; intros l2 S1 S2 P.
  - apply Permutation_nil in P. auto.
  - destruct l2 as [|y l2]; [apply Permutation_sym, Permutation_nil in P; discriminate|].
    inversion S1; subst. inversion S2; subst.
    assert (x = y) as <-.
    { apply ble_antisym.
      - assert (I : In y (x :: l1)) by (eapply Permutation_in; [apply Permutation_sym; exact P|left; auto]).
        destruct I as [->|I]; [unfold ble; apply blt_irrefl|]. rewrite Forall_forall in H2. auto.
      - assert (I : In x (y :: l2)) by (eapply Permutation_in; [exact P|left; auto]).
        destruct I as [->|I]; [unfold ble; apply blt_irrefl|]. rewrite Forall_forall in H4. auto. }
    f_equal. apply IH; auto. eapply Permutation_cons_inv; eauto.
Qed.
Lemma bsort_permutation l1 l2 : Permutation l1 l2 -> bsort l1 = bsort l2.
Proof.
  intros P. apply sorted_perm_eq; try apply bsort_sorted. rewrite !bsort_perm. exact P.
Qed.

(** ** Maps in key order *)
Notation bmap V := (list (list Z * V)) (only parsing).
Section Bmap.
Context {V : Type}.
Fixpoint bfind (k : bytes) (m : bmap V) : option V :=
  match m with [] => None | (k', v) :: r => if beq k' k then Some v else bfind k r end.
Fixpoint bput (k : bytes) (v : V) (m : bmap V) : bmap V :=
  match m with
  | [] => [(k, v)]
  | (k', v') :: r => if beq k' k then (k, v) :: r else if blt k' k then (k', v') :: bput k v r else (k, v) :: m
  end.
Fixpoint bdel (k : bytes) (m : bmap V) : bmap V :=
  match m with [] => [] | (k', v') :: r => if beq k' k then r else (k', v') :: bdel k r end.
Definition klt (a b : bytes * V) : Prop := blt (fst a) (fst b) = true.
Definition bsorted (m : bmap V) : Prop := StronglySorted klt m.

Lemma bfind_bput k k' v m : bfind k (bput k' v m) = if beq k' k then Some v else bfind k m.
Proof.
  induction m as [|[k1 v1] m IH]; simpl; [destruct (beq_spec k' k); auto|].
  destruct (beq_spec k1 k') as [->|N]; simpl.
  - destruct (beq_spec k' k); auto.
  - destruct (blt k1 k') eqn:L; simpl.
    + rewrite IH. destruct (beq_spec k1 k) as [->|]; auto. destruct (beq_spec k' k); congruence.
    + destruct (beq_spec k' k); auto.
Qed.
Lemma bput_in k v m p : In p (bput k v m) -> p = (k, v) \/ In p m.
Proof.
  induction m as [|[k1 v1] m IH]; simpl; [intuition|].
  destruct (beq k1 k); simpl; [intuition|]. destruct (blt k1 k); simpl; intuition.
Qed.
Lemma bput_sorted k v m : bsorted m -> bsorted (bput k v m).
Proof.
  unfold bsorted. induction m as [|[k1 v1] m IH]; intros S; simpl; [repeat constructor|].
  inversion S; subst. destruct (beq_spec k1 k) as [->|N]; [constructor; auto|].
  destruct (blt k1 k) eqn:L.
  - constructor; auto. apply Forall_forall. intros p I. apply bput_in in I. destruct I as [->|I]; [exact L|].
    rewrite Forall_forall in H2. auto.
  - assert (L' : blt k k1 = true) by (destruct (blt_total k1 k) as [|[|]]; congruence).
    constructor; auto. constructor; auto. eapply Forall_impl; [|exact H2].
    intros [k2 v2] H. unfold klt in *. simpl in *. eapply blt_trans; eauto.
Qed.
Lemma bdel_in k m p : In p (bdel k m) -> In p m.
Proof. induction m as [|[k1 v1] m IH]; simpl; auto. destruct (beq k1 k); simpl; intuition. Qed.
Lemma bdel_sorted k m : bsorted m -> bsorted (bdel k m).
Proof.
  unfold bsorted. induction m as [|[k1 v1] m IH]; intros S; simpl; auto. inversion S; subst.
  destruct (beq k1 k); auto. constructor; auto. apply Forall_forall. intros p I. apply bdel_in in I.
  rewrite Forall_forall in H2. auto.
Qed.
Lemma bfind_none_gt k m : Forall (fun p => blt k (fst p) = true) m -> bfind k m = None.
Proof.
  induction 1 as [|[k1 v1] m H F IH]; simpl in *; auto. destruct (beq_spec k1 k) as [->|]; auto.
  rewrite blt_irrefl in H. discriminate.
Qed.
Lemma bfind_bdel k k' m : bsorted m -> bfind k (bdel k' m) = if beq k' k then None else bfind k m.
Proof.
  unfold bsorted. induction m as [|[k1 v1] m IH]; intros S; simpl; [destruct (beq k' k); auto|].
  inversion S; subst. destruct (beq_spec k1 k') as [->|N]; simpl.
  - destruct (beq_spec k' k) as [->|]; auto. apply bfind_none_gt. exact H2.
  - rewrite IH by auto. destruct (beq_spec k1 k) as [->|]; auto. destruct (beq_spec k' k); congruence.
Qed.
Lemma bfind_in k m v : bfind k m = Some v -> In (k, v) m.
Proof.
  induction m as [|[k1 v1] m IH]; simpl; [discriminate|]. destruct (beq_spec k1 k) as [->|]; [intros [= ->]; auto|auto].
Qed.
Lemma in_bfind k m v : bsorted m -> In (k, v) m -> bfind k m = Some v.
Proof.
  unfold bsorted. induction m as [|[k1 v1] m IH]; intros S; simpl; [intros []|]. inversion S; subst.
  intros [[= -> ->]|I]; [rewrite beq_refl; auto|].
  destruct (beq_spec k1 k) as [->|]; auto. rewrite Forall_forall in H2. specialize (H2 _ I).
  unfold klt in H2. simpl in H2. rewrite blt_irrefl in H2. discriminate.
Qed.
End Bmap.

(** ** Paging: reading the entries after a key, in order *)
Section Paging.
Context {V : Type}.
Definition after (k : bytes) (m : bmap V) : bmap V := filter (fun p => blt k (fst p)) m.
Lemma after_cons_sorted p (m : bmap V) : bsorted (p :: m) -> after (fst p) (p :: m) = m.
Proof.
  intros S. inversion S; subst. unfold after. simpl. rewrite blt_irrefl.
  clear - H2. induction H2; simpl; auto. rewrite H. f_equal. exact IHForall.
Qed.
Lemma after_app (m1 m2 : bmap V) p : bsorted (m1 ++ p :: m2) -> after (fst p) (m1 ++ p :: m2) = m2.
Proof.
  induction m1 as [|q m1 IH]; simpl; intros S; [apply after_cons_sorted; auto|].
  inversion S; subst. unfold after. simpl. rewrite Forall_forall in H2.
  assert (L : klt q p) by (apply H2; apply in_or_app; right; left; auto).
  unfold klt in L. rewrite (blt_asym _ _ L). apply IH. auto.
Qed.
End Paging.
