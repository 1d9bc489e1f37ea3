(** xASTRO staking: /repo/contracts/tokenomics/staking/src/contract.rs.

    State = ASTRO held by the contract, xASTRO supply, xASTRO balances.  Simplifications: denoms are
    assumed right ([must_pay] checks them), the sender owns the ASTRO it attaches, bank and
    tokenfactory messages always succeed and move exactly the stated amounts (a zero-amount payout is
    allowed), the enter hook call and the supply snapshot in the tracker are not part of this file. *)
From Coq Require Import ZArith Bool List.
From Verif Require Import Num Ledger.
Import ListNotations.
Open Scope Z_scope.

(** contract.rs:50 *)
Definition MINIMUM_STAKE_AMOUNT : Z := 1000.
(** The staking contract's own account. *)
Definition SELF : Z := 0.

Record state := mkState { dep : Z; supply : Z; xb : ledger }.

Inductive msg :=
| Enter (sender recipient amount : Z)
| Leave (sender amount : Z)
| Donate (amount : Z)                  (* plain ASTRO transfer to the contract *)
| XTransfer (from to amount : Z).      (* plain xASTRO transfer by anyone but the contract *)

(** Output: Enter -> minted xASTRO; Leave -> returned ASTRO. *)
Definition out := Z.

(** contract.rs:232-307 [execute_enter] and 117-127 (minted coins go to the recipient).
    [dep s] is the balance without the attached amount (the code subtracts it). *)
Definition enter (s : state) (recipient amount : Z) : option (state * out) :=
  guard 0 <? amount;
  let first := (supply s =? 0) || (dep s =? 0) in
  guard negb (first && (ssub amount MINIMUM_STAKE_AMOUNT =? 0));
  do mint <- (if first then sub128 amount MINIMUM_STAKE_AMOUNT
              else muldiv128 amount (supply s) (dep s));
  guard negb (mint =? 0);
  do dep' <- add128 (dep s) amount;
  let locked := if first then MINIMUM_STAKE_AMOUNT else 0 in
  let b1 := set (xb s) SELF (get (xb s) SELF + locked) in
  let b2 := set b1 recipient (get b1 recipient + mint) in
  Some (mkState dep' (supply s + locked + mint) b2, mint).

(** contract.rs:311-376 [execute_leave]: the attached xASTRO is burned, ASTRO paid out, and one
    xASTRO is sent from the contract to itself (so the contract must hold one). *)
Definition leave (s : state) (sender amount : Z) : option (state * out) :=
  guard negb (sender =? SELF) && (0 <? amount) && (amount <=? get (xb s) sender);
  do ret <- muldiv128 amount (dep s) (supply s);
  do dep' <- sub128 (dep s) ret;
  guard 1 <=? get (xb s) SELF;
  Some (mkState dep' (supply s - amount) (set (xb s) sender (get (xb s) sender - amount)), ret).

Definition step (m : msg) (s : state) : option (state * out) :=
  match m with
  | Enter _ recipient amount => enter s recipient amount
  | Leave sender amount => leave s sender amount
  | Donate amount =>
      guard 0 <=? amount; do d <- add128 (dep s) amount; Some (mkState d (supply s) (xb s), 0)
  | XTransfer from to amount =>
      guard negb (from =? SELF) && (0 <=? amount) && (amount <=? get (xb s) from);
      Some (mkState (dep s) (supply s) (move (xb s) from to amount), 0)
  end.

Definition exec (s : state) (m : msg) : state :=
  match step m s with Some (s', _) => s' | None => s end.
Definition run (s : state) (l : list msg) : state := fold_left exec l s.

(** contract.rs:55-99 [instantiate]: the xASTRO denom is freshly created. *)
Definition init : state := mkState 0 0 [].
