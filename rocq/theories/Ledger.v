(** Token ledgers: association lists from holder to amount.  The first entry of a holder is its
    balance; a missing holder has balance 0 (like cw_storage_plus maps read with
    [may_load().unwrap_or_default()] and the bank module's balances). *)
From Coq Require Import ZArith Lia Bool List.
Import ListNotations.
Open Scope Z_scope.

Definition ledger := list (Z * Z).

Fixpoint get (l : ledger) (a : Z) : Z :=
  match l with
  | [] => 0
  | (b, v) :: l' => if b =? a then v else get l' a
  end.

Fixpoint set (l : ledger) (a v : Z) : ledger :=
  match l with
  | [] => [(a, v)]
  | (b, w) :: l' => if b =? a then (b, v) :: l' else (b, w) :: set l' a v
  end.

(** Sum of all entries. *)
Fixpoint total (l : ledger) : Z :=
  match l with
  | [] => 0
  | (_, v) :: l' => v + total l'
  end.

Definition nonneg (l : ledger) : Prop := Forall (fun p => 0 <= snd p) l.

(** Has an entry (cw_storage_plus [has]). *)
Fixpoint has (l : ledger) (a : Z) : bool :=
  match l with
  | [] => false
  | (b, _) :: l' => (b =? a) || has l' a
  end.

Lemma get_set_same l a v : get (set l a v) a = v.
Proof.
  induction l as [|[b w] l IH]; simpl.
  - now rewrite Z.eqb_refl.
  - destruct (b =? a) eqn:E; simpl; rewrite E; auto.
Qed.

Lemma get_set_other l a b v : a <> b -> get (set l a v) b = get l b.
Proof.
  intros Hab. induction l as [|[c w] l IH]; simpl.
  - destruct (Z.eqb_spec a b); congruence.
  - destruct (Z.eqb_spec c a); simpl; destruct (Z.eqb_spec c b); congruence.
Qed.

Lemma total_set l a v : total (set l a v) = total l - get l a + v.
Proof.
  induction l as [|[b w] l IH]; simpl; [lia|].
  destruct (b =? a) eqn:E; simpl; lia.
Qed.

Lemma nonneg_set l a v : nonneg l -> 0 <= v -> nonneg (set l a v).
Proof.
  unfold nonneg. intros Hl Hv. induction Hl as [|[b w] l Hw Hl IH]; simpl.
  - repeat constructor; auto.
  - destruct (b =? a); constructor; simpl in *; auto.
Qed.

Lemma nonneg_get l a : nonneg l -> 0 <= get l a.
Proof.
  unfold nonneg. induction 1 as [|[b w] l Hw Hl IH]; simpl in *; [lia|].
  destruct (b =? a); lia.
Qed.

Lemma nonneg_total l : nonneg l -> 0 <= total l.
Proof. unfold nonneg. induction 1 as [|[b w] l Hw Hl IH]; simpl in *; lia. Qed.

Lemma get_le_total l a : nonneg l -> get l a <= total l.
Proof.
  unfold nonneg. induction 1 as [|[b w] l Hw Hl IH]; simpl in *; [lia|].
  pose proof (nonneg_total l Hl). destruct (b =? a); lia.
Qed.

Lemma get2_le_total l a b : nonneg l -> a <> b -> get l a + get l b <= total l.
Proof.
  unfold nonneg. intros H Hab. induction H as [|[c w] l Hw Hl IH]; simpl in *; [lia|].
  pose proof (get_le_total l a Hl). pose proof (get_le_total l b Hl).
  destruct (Z.eqb_spec c a), (Z.eqb_spec c b); lia.
Qed.

(** Move [v] from [a] to [b] (callers check the balance). *)
Definition move (l : ledger) (a b v : Z) : ledger :=
  let l1 := set l a (get l a - v) in
  set l1 b (get l1 b + v).

Lemma total_move l a b v : total (move l a b v) = total l.
Proof. unfold move. rewrite !total_set. lia. Qed.

Lemma nonneg_move l a b v : nonneg l -> 0 <= v <= get l a -> nonneg (move l a b v).
Proof.
  intros H Hv. unfold move.
  assert (nonneg (set l a (get l a - v))) by (apply nonneg_set; [auto|lia]).
  apply nonneg_set; auto. pose proof (nonneg_get _ b H0). lia.
Qed.

Lemma get_move_other l a b c v : c <> a -> c <> b -> get (move l a b v) c = get l c.
Proof. intros. unfold move. rewrite !get_set_other; auto. Qed.

Lemma get_move_to l a b v : a <> b -> get (move l a b v) b = get l b + v.
Proof. intros. unfold move. rewrite get_set_same, get_set_other; auto. Qed.

Lemma get_move_from l a b v : a <> b -> get (move l a b v) a = get l a - v.
Proof. intros. unfold move. rewrite get_set_other, get_set_same; auto. Qed.

Lemma get_move_self l a v : get (move l a a v) a = get l a.
Proof. unfold move. rewrite !get_set_same. lia. Qed.

Lemma has_set l a v b : has (set l a v) b = (a =? b) || has l b.
Proof.
  induction l as [|[c w] l IH]; simpl.
  - reflexivity.
  - destruct (Z.eqb_spec c a) as [->|]; simpl.
    + destruct (a =? b); reflexivity.
    + rewrite IH. destruct (c =? b), (a =? b); reflexivity.
Qed.
