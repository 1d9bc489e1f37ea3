(** cw-storage-plus 1.2.0 [SnapshotMap] / [SnapshotItem] with [Strategy::EveryBlock], for one key.
    The library is a dependency (not in /repo); it is modelled from its documented behaviour, as used
    in /repo/contracts/pair/src/state.rs (BALANCES), /repo/contracts/periphery/tokenfactory_tracker/
    src/state.rs:23-28 and /repo/contracts/tokenomics/xastro_token/src/state.rs:7-12.
    Values are amounts ([Z]); heights are [Z]. *)
From Coq Require Import ZArith Bool List.
Import ListNotations.
Open Scope Z_scope.

(** [cur]: primary value; [log]: changelog, height -> value before the first change in that block. *)
Record snap := mkSnap { cur : option Z; clog : list (Z * option Z) }.

Definition snap0 : snap := mkSnap None [].

Definition in_log (h : Z) (l : list (Z * option Z)) : bool :=
  existsb (fun e => fst e =? h) l.

(** [SnapshotMap::save(store, k, v, height)] (and [update]). *)
Definition snap_save (s : snap) (h v : Z) : snap :=
  mkSnap (Some v)
    (if in_log h (clog s) then clog s else (h, cur s) :: clog s).

(** First changelog entry (ascending height) at or after [h]. *)
Fixpoint first_ge (h : Z) (l : list (Z * option Z)) : option (Z * option Z) :=
  match l with
  | [] => None
  | (g, o) :: l' =>
      match first_ge h l' with
      | Some (g', o') => if (h <=? g) && (g <? g') then Some (g, o) else Some (g', o')
      | None => if h <=? g then Some (g, o) else None
      end
  end.

(** [may_load_at_height]. *)
Definition snap_at (s : snap) (h : Z) : option Z :=
  match first_ge h (clog s) with
  | Some (_, o) => o
  | None => cur s
  end.

(** Specification: the saves in order; the value at the beginning of block [h] is the last one
    saved in an earlier block. *)
Fixpoint last_before (h : Z) (saves : list (Z * Z)) : option Z :=
  (* [saves] is newest first *)
  match saves with
  | [] => None
  | (g, v) :: r => if g <? h then Some v else last_before h r
  end.

(** State after a list of saves, newest first. *)
Fixpoint snap_run (saves : list (Z * Z)) : snap :=
  match saves with
  | [] => snap0
  | (g, v) :: r => snap_save (snap_run r) g v
  end.

(** Heights non-increasing when read newest first. *)
Fixpoint ordered (saves : list (Z * Z)) : Prop :=
  match saves with
  | [] => True
  | (g, _) :: r => Forall (fun e => fst e <= g) r /\ ordered r
  end.
