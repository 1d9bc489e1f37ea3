(** Histories: lists of events in chronological order, with a non-decreasing stamp. *)
From Coq Require Import ZArith Lia Bool List.
Import ListNotations.
Open Scope Z_scope.

Section Hist.
Context {A : Type} (f : A -> Z).

(** Stamps never decrease (block heights or block times of successive transactions). *)
Fixpoint nondecr (l : list A) : Prop :=
  match l with
  | [] => True
  | x :: r => Forall (fun y => f x <= f y) r /\ nondecr r
  end.

Lemma nondecr_app_one l x :
  nondecr (l ++ [x]) <-> nondecr l /\ Forall (fun y => f y <= f x) l.
Proof.
  induction l as [|a l IH]; simpl.
  - split; auto.
  - rewrite Forall_app, IH, !Forall_cons_iff. intuition.
Qed.

Definition before (h : Z) (l : list A) : list A := filter (fun x => f x <? h) l.

Lemma before_all h l : Forall (fun y => f y < h) l -> before h l = l.
Proof.
  induction 1 as [|x l Hx Hl IH]; simpl; auto.
  unfold before in *. destruct (Z.ltb_spec (f x) h); [congruence|lia].
Qed.
End Hist.
