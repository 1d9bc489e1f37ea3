(** The ASTRO-xASTRO pair: /repo/contracts/pair_xastro/src/contract.rs and queries.rs, in front of the
    staking contract (StakingModel).

    Simplifications: the offered coins arrive with the message (the trader owns them); the pair's
    ASTRO balance is not tracked, because what arrives is forwarded in the same message; attributes
    are the reported amounts. *)
From Coq Require Import ZArith Bool List.
From Verif Require Import Num Ledger StakingModel.
Import ListNotations.
Open Scope Z_scope.

Inductive coin := ASTRO | XASTRO | OTHER.

(** contract.rs:171-188 [predict_stake]; MINIMUM_STAKE_AMOUNT is the one of staking *)
Definition predict_stake (s : state) (amount : Z) : option Z :=
  if dep s =? 0 then
    guard negb (ssub amount MINIMUM_STAKE_AMOUNT =? 0);
    sub128 amount MINIMUM_STAKE_AMOUNT
  else muldiv128 amount (supply s) (dep s).
(** contract.rs:190-207 [predict_unstake] *)
Definition predict_unstake (s : state) (amount : Z) : option Z :=
  guard amount <=? supply s;
  muldiv128 amount (dep s) (supply s).

(** queries.rs:20-39 Simulation *)
Definition simulate (s : state) (offer : coin) (amount : Z) : option Z :=
  match offer with
  | ASTRO => predict_stake s amount
  | XASTRO => predict_unstake s amount
  | OTHER => None
  end.
(** queries.rs:40-60 ReverseSimulation *)
Definition reverse (s : state) (ask : coin) (amount : Z) : option Z :=
  match ask with
  | ASTRO => predict_stake s amount
  | XASTRO => predict_unstake s amount
  | OTHER => None
  end.

(** What a swap does: the amount reported in the attributes, the coin paid, its receiver and amount. *)
Record result := mkRes { reported : Z; payee : Z; paid : Z }.

(** contract.rs:102-156 [swap] followed by the staking call it issues. [self]: the pair;
    [attached]: coins of the offered denom sent along. *)
Definition swap (s : state) (self who : Z) (offer : coin) (amount attached : Z) (to : option Z)
  : option (state * result) :=
  guard attached =? amount;                               (* assert_sent_native_token_balance *)
  let receiver := match to with Some t => t | None => who end in
  match offer with
  | ASTRO =>
      do p <- predict_stake s amount;
      do r <- enter s receiver amount;
      Some (fst r, mkRes p receiver (snd r))
  | XASTRO =>
      (* the xASTRO moves from the trader to the pair and from there to staking *)
      do t <- step (XTransfer who self amount) s;
      do p <- predict_unstake (fst t) amount;
      do r <- leave (fst t) self amount;
      Some (fst r, mkRes p receiver (snd r))
  | OTHER => None
  end.
