(** Circular buffer over contract storage: /repo/packages/circular_buffer/src/lib.rs.

    Simplification: values are an arbitrary type, serialisation is not modelled. *)
From Coq Require Import ZArith Bool List.
From Verif Require Import Num Amap.
Import ListNotations.
Open Scope Z_scope.

Definition U32MAX : Z := 4294967295.
Definition u32 (z : Z) : option Z := if fits U32MAX z then Some z else None.

Section Buffer.
Context {V : Type}.

(** lib.rs:36-40 [BufferState] and the array in storage. *)
Record store := mkStore { capacity : Z; head : Z; arr : amap V }.
(** lib.rs:66-70 [BufferManager]: its own copy of capacity and head, and the values pushed but not yet
    committed. *)
Record manager := mkMan { m_cap : Z; m_head : Z; pre : amap V }.

(** lib.rs:78-92 [init]; the storage holds no array yet. *)
Definition buf_init (cap : Z) : store := mkStore cap 0 [].
(** lib.rs:96-108 [new]. *)
Definition buf_new (s : store) : manager := mkMan (capacity s) (head s) [].
(** lib.rs:121-124 [push]: [% 0] panics. *)
Definition buf_push (m : manager) (v : V) : option manager :=
  do h <- u32 (m_head m + 1);
  guard negb (m_cap m =? 0);
  Some (mkMan (m_cap m) (h mod m_cap m) (put (m_head m) v (pre m))).
(** lib.rs:127-131 [push_many]. *)
Fixpoint push_many (m : manager) (l : list V) : option manager :=
  match l with
  | [] => Some m
  | v :: r => do m' <- buf_push m v; push_many m' r
  end.
(** lib.rs:140-152 [commit]: the order in which the precommitted values are saved does not matter because
    their keys differ. *)
Definition buf_commit (m : manager) (s : store) : option (manager * store) :=
  guard forallb (fun p => fst p <? m_cap m) (pre m);
  Some (mkMan (m_cap m) (m_head m) [],
        mkStore (m_cap m) (m_head m) (fold_left (fun a p => put (fst p) (snd p) a) (pre m) (arr s))).
(** lib.rs:134-137 [instant_push] with a fresh manager, as all callers use it. *)
Definition instant_push (s : store) (v : V) : option store :=
  do m <- buf_push (buf_new s) v;
  do '(_, s') <- buf_commit m s;
  Some s'.
(** lib.rs:219-232 [read_single]; outer [None] = panic. *)
Definition read_single (s : store) (i : Z) : option (option V) :=
  guard negb (capacity s =? 0);
  Some (find (i mod capacity s) (arr s)).
(** lib.rs:211-216 [read_last]. *)
Definition read_last (s : store) : option (option V) :=
  do a <- u32 (capacity s + head s);
  do b <- u32 (a - 1);
  guard negb (capacity s =? 0);
  read_single s (b mod capacity s).
(** lib.rs:175-203 [read]. *)
Fixpoint buf_read (s : store) (l : list Z) (stop : bool) : option (list V) :=
  match l with
  | [] => Some []
  | i :: r =>
      do c <- u32 (capacity s - 1);
      guard negb (c <? i);
      match find i (arr s) with
      | Some v => do vs <- buf_read s r stop; Some (v :: vs)
      | None => if stop then Some [] else None
      end
  end.
(** lib.rs:206-208 [read_all]. *)
Definition read_all (s : store) : option (list V) :=
  buf_read s (map Z.of_nat (seq 0 (Z.to_nat (capacity s)))) true.
(** lib.rs:241-245 [exists]. *)
Definition buf_exists (s : store) (i : Z) : option bool :=
  guard negb (capacity s =? 0);
  Some (match find (i mod capacity s) (arr s) with Some _ => true | None => false end).

(** A session: open a manager, push some values, commit. *)
Definition session (s : store) (l : list V) : option store :=
  do m <- push_many (buf_new s) l;
  do '(_, s') <- buf_commit m s;
  Some s'.
Fixpoint sessions (s : store) (ls : list (list V)) : option store :=
  match ls with
  | [] => Some s
  | l :: r => do s' <- session s l; sessions s' r
  end.
End Buffer.
Arguments store : clear implicits.
Arguments manager : clear implicits.
