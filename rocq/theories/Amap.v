(** Finite maps from addresses ([Z]) to values, as association lists (cw-storage-plus [Map]). *)
From Coq Require Import ZArith Lia Bool List.
Import ListNotations.
Open Scope Z_scope.

Section Amap.
Context {V : Type}.
Definition amap := list (Z * V).

Fixpoint find (k : Z) (m : amap) : option V :=
  match m with
  | [] => None
  | (k', v) :: r => if k' =? k then Some v else find k r
  end.

Fixpoint put (k : Z) (v : V) (m : amap) : amap :=
  match m with
  | [] => [(k, v)]
  | (k', v') :: r => if k' =? k then (k, v) :: r else (k', v') :: put k v r
  end.

Fixpoint del (k : Z) (m : amap) : amap :=
  match m with
  | [] => []
  | (k', v') :: r => if k' =? k then del k r else (k', v') :: del k r
  end.

(** Sum of [f] over all entries. *)
Fixpoint sumf (f : V -> Z) (m : amap) : Z :=
  match m with [] => 0 | (_, v) :: r => f v + sumf f r end.

Definition keys (m : amap) : list Z := map fst m.

Lemma find_put_same k v m : find k (put k v m) = Some v.
Proof.
  induction m as [|[k' v'] r IH]; simpl.
  - rewrite Z.eqb_refl. auto.
  - destruct (Z.eqb_spec k' k); simpl.
    + rewrite Z.eqb_refl. auto.
    + destruct (Z.eqb_spec k' k); [congruence|auto].
Qed.

Lemma find_put_other k k2 v m : k <> k2 -> find k2 (put k v m) = find k2 m.
Proof.
  intros N. induction m as [|[k' v'] r IH]; simpl.
  - destruct (Z.eqb_spec k k2); [congruence|auto].
  - destruct (Z.eqb_spec k' k); simpl.
    + subst. destruct (Z.eqb_spec k k2); [congruence|auto].
    + destruct (k' =? k2); auto.
Qed.

Lemma find_put k k2 v m : find k2 (put k v m) = if k =? k2 then Some v else find k2 m.
Proof.
  destruct (Z.eqb_spec k k2) as [->|N]; [apply find_put_same | apply find_put_other; auto].
Qed.

Lemma sumf_put f k v m :
  sumf f (put k v m) = sumf f m - match find k m with Some o => f o | None => 0 end + f v.
Proof.
  induction m as [|[k' v'] r IH]; simpl; [lia|].
  destruct (Z.eqb_spec k' k); simpl; [lia|]. rewrite IH. lia.
Qed.

Lemma sumf_nonneg f m : (forall k v, find k m = Some v -> 0 <= f v) -> NoDup (keys m) -> 0 <= sumf f m.
Proof.
  induction m as [|[k' v'] r IH]; simpl; intros H N; [lia|]. inversion N; subst.
  assert (0 <= f v') by (apply (H k'); rewrite Z.eqb_refl; auto).
  assert (0 <= sumf f r); [|lia].
  apply IH; auto. intros k v Hf. apply (H k).
  destruct (Z.eqb_spec k' k); auto. subst. exfalso. apply H2.
  clear - Hf. induction r as [|[a b] r IH]; simpl in *; [discriminate|].
  destruct (Z.eqb_spec a k); auto.
Qed.

Lemma find_in k v m : find k m = Some v -> In (k, v) m.
Proof.
  induction m as [|[k' v'] r IH]; simpl; [discriminate|].
  destruct (Z.eqb_spec k' k); [intros [= <-]; subst; auto | auto].
Qed.

Lemma in_put k v m p : In p (put k v m) -> p = (k, v) \/ In p m.
Proof.
  induction m as [|[k' v'] r IH]; simpl.
  - intros [<-|[]]; auto.
  - destruct (Z.eqb_spec k' k); simpl; intros [<-|H]; auto. destruct (IH H); auto.
Qed.

Lemma Forall_put P k v m : Forall P m -> P (k, v) -> Forall P (put k v m).
Proof.
  intros H Hv. apply Forall_forall. intros p Hp. apply in_put in Hp. destruct Hp as [->|Hp]; auto.
  rewrite Forall_forall in H. auto.
Qed.

Lemma sumf_Forall f m : Forall (fun p => 0 <= f (snd p)) m -> 0 <= sumf f m.
Proof. induction 1 as [|[k v] r H _ IH]; simpl in *; lia. Qed.

Lemma sumf_find_le f m k v :
  Forall (fun p => 0 <= f (snd p)) m -> find k m = Some v -> f v <= sumf f m.
Proof.
  induction m as [|[k' v'] r IH]; simpl; intros H Hf; [discriminate|].
  inversion H; subst. simpl in *. pose proof (sumf_Forall _ _ H3).
  destruct (k' =? k); [injection Hf as ->; lia|]. specialize (IH H3 Hf). lia.
Qed.

Lemma find_del_same k m : find k (del k m) = None.
Proof.
  induction m as [|[k' v'] r IH]; simpl; auto.
  destruct (Z.eqb_spec k' k); auto. simpl. destruct (Z.eqb_spec k' k); [congruence|auto].
Qed.
Lemma find_del_other k k2 m : k <> k2 -> find k2 (del k m) = find k2 m.
Proof.
  intros N. induction m as [|[k' v'] r IH]; simpl; auto.
  destruct (Z.eqb_spec k' k).
  - subst. destruct (Z.eqb_spec k k2); [congruence|auto].
  - simpl. destruct (k' =? k2); auto.
Qed.
End Amap.
Arguments amap : clear implicits.
