(** Vocabulary for the claims about price observations (C39, C55-C57). *)
From Coq Require Import ZArith Bool List.
From Verif Require Import Num Amap BufferModel ObservationModel.
Import ListNotations.
Open Scope Z_scope.

(** What a client sees as the newest observation. *)
Definition newest (b : store obs) : option obs :=
  match read_last b with Some r => r | None => None end.
(** The observation that became visible during a step, if any. *)
Definition fresh (s : ostate) (o : oop) : list obs :=
  match newest (buf (oexec s o)) with
  | None => []
  | Some x => match newest (buf s) with
              | None => [x]
              | Some y => if ts y =? ts x then [] else [x]
              end
  end.
(** All observations a history made visible, in order. *)
Fixpoint log (s : ostate) (l : list oop) : list obs :=
  match l with
  | [] => []
  | o :: r => fresh s o ++ log (oexec s o) r
  end.
(** The buffer holds exactly the last [cap] elements of [l]. *)
Definition holds (cap : Z) (b : store obs) (l : list obs) : Prop :=
  head b = Z.of_nat (length l) mod cap /\
  (forall j, Z.of_nat (length l) - cap <= Z.of_nat j < Z.of_nat (length l) ->
     read_single b (Z.of_nat j) = Some (nth_error l j)) /\
  (forall i, Z.of_nat (length l) <= i < cap -> read_single b i = Some None).
(** Timestamps strictly increase. *)
Fixpoint increasing (l : list obs) : Prop :=
  match l with
  | [] => True
  | x :: r => Forall (fun y => ts x < ts y) r /\ increasing r
  end.
Definition total (l : list Z) : Z := fold_right Z.add 0 l.
(** The last [n] elements of a list. *)
Definition lastn {A} (n : Z) (l : list A) : list A := skipn (length l - Z.to_nat n) l.
(** Consecutive elements. *)
Definition adjacent {A} (l : list A) (x y : A) : Prop := exists a b, l = a ++ x :: y :: b.
(** Capacities for which the index arithmetic of the code stays within u32; OBSERVATIONS_SIZE = 3000. *)
Definition cap_ok (cap : Z) : Prop := 2 <= cap /\ 4 * cap <= U32MAX.
