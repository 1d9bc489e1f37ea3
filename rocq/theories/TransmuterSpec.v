(** Specification vocabulary for the transmuter: normalised value. *)
From Coq Require Import ZArith Bool List.
From Verif Require Import Num Ledger TransmuterModel.
Import ListNotations.
Open Scope Z_scope.

(** Worth of one unit of [d]; 0 for assets that are not in the pool. *)
Fixpoint unit_value (c : config) (d : Z) : Z :=
  match c with [] => 0 | (e, k) :: r => if e =? d then k else unit_value r d end.
(** Worth of a list of coins, and of the reserves. *)
Definition worth (c : config) (l : list coin) : Z :=
  fold_right (fun a acc => unit_value c (fst a) * snd a + acc) 0 l.
Definition reserves (c : config) (b : ledger) : Z :=
  fold_right (fun p acc => snd p * get b (fst p) + acc) 0 c.

(** Coins a message brings in. *)
Definition brought (m : msg) : list coin :=
  match m with
  | Provide _ _ funds => funds
  | Swap offer _ => [offer]
  | Donate funds => funds
  | Withdraw _ _ _ | LpTransfer _ _ _ => []
  end.
(** Total worth brought in and paid out by the successful messages of a history. *)
Fixpoint flows (s : state) (l : list msg) : Z * Z :=
  match l with
  | [] => (0, 0)
  | m :: r =>
      match step m s with
      | None => flows s r
      | Some (s', outs) =>
          let '(i, o) := flows s' r in (worth (cfg s) (brought m) + i, worth (cfg s) outs + o)
      end
  end.
