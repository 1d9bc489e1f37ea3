(** Incentives: vocabulary of the positive half of C69 (a staker can leave). *)
From Coq Require Import ZArith Bool List.
From Verif Require Import Num Amap Ledger IncentivesModel IncentivesSpec.
Import ListNotations.
Open Scope Z_scope.

(** Query pool_info: last_update_ts. *)
Definition updated_at (lp : Z) (s : state) : Z :=
  match find lp (lps s) with Some p => last (pl p) | None => 0 end.
(** The owner removes a reward only with its upcoming schedules, while it has no orphaned part, and
    not in the second in which the pool was last updated. *)
Definition regular_removal (e : env) (m : msg) (s : state) : Prop :=
  match m with
  | RemoveReward lp a b _ => b = false /\ orphaned_of e lp a s = 0 /\ updated_at lp s < now e
  | _ => True
  end.
Fixpoint regular (s : state) (h : list (env * Z * msg)) : Prop :=
  match h with
  | [] => True
  | (e, sd, m) :: r => regular_removal e m s /\ regular (exec s (e, sd, m)) r
  end.
(** Everything the contract computes with stays in range: block time, balances, the reward indexes
    of the pool (query pool_info). *)
Definition in_range (e : env) (lp : Z) (s : state) : Prop :=
  0 <= now e <= U64MAX /\ (forall A, get (bal s) A <= U128MAX) /\
  match find lp (lps s) with
  | Some p => forall x, In x (rewards (pl p)) -> idx x < 2 ^ 255
  | None => True
  end.
