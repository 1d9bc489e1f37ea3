(** The whitelist (cw1) contract: /repo/contracts/whitelist/src/contract.rs.

    Execute is the [execute_execute] of the cw1-whitelist library (not in /repo): it passes on the
    messages when the sender is an admin. Messages are numbers. The IBC entry points panic
    (ibc.rs) and sudo does nothing (contract.rs:79-82). Simplification: addresses are always valid. *)
From Coq Require Import ZArith Bool List.
From Verif Require Import Num.
Import ListNotations.
Open Scope Z_scope.

(** cw1_whitelist AdminList *)
Record state := mkState { admins : list Z; mutable : bool }.

Fixpoint mem (x : Z) (l : list Z) : bool := match l with [] => false | y :: r => (x =? y) || mem x r end.
Definition is_admin (a : Z) (s : state) : bool := mem a (admins s).
Definition can_modify (a : Z) (s : state) : bool := mutable s && is_admin a s.

Inductive msg := Execute (l : list Z) | Freeze | UpdateAdmins (l : list Z) | Sudo.
Record event := mkEv { sender : Z; what : msg }.

(** contract.rs:29-40 [execute], 42-56 [execute_freeze], 58-72 [execute_update_admins]; output: the
    messages sent in the name of the contract *)
Definition step (e : event) (s : state) : option (state * list Z) :=
  match what e with
  | Execute l => guard is_admin (sender e) s; Some (s, l)
  | Freeze => guard can_modify (sender e) s; Some (mkState (admins s) false, [])
  | UpdateAdmins l => guard can_modify (sender e) s; Some (mkState l (mutable s), [])
  | Sudo => Some (s, [])
  end.
Definition exec (s : state) (e : event) : state := match step e s with Some (s', _) => s' | None => s end.
Definition run (s : state) (l : list event) : state := fold_left exec l s.
