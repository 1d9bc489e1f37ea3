(** The pool queries of the incentives contract. *)
From Coq Require Import ZArith Bool List.
From Verif Require Import Num Amap Ledger IncentivesModel.
Import ListNotations.
Open Scope Z_scope.

(** contracts/tokenomics/incentives/src/query.rs:34-39 [RewardInfo]: the pool is brought up to date in memory and nothing
    is stored *)
Definition reward_info (e : env) (lp : Z) (s : state) : option (list rinfo) :=
  do p <- find lp (lps s);
  do '(q, _) <- update_rewards (now e) p;
  Some (rewards q).
(** query.rs:43-48 [PoolInfo] and state.rs:482-488 [into_response]: the pool as it was last stored *)
Definition pool_info (lp : Z) (s : state) : option pool :=
  do p <- find lp (lps s); Some (pl p).
