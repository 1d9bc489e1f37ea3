(** A concentrated pair with a CW20 asset after its migration to the order-book code.
    Sources: contracts/pair_concentrated_duality/src/{migrate,execute}.rs, packages/astroport/src/asset.rs.

    The instantiation of the order-book pair refuses CW20 assets (instantiate.rs:44-50); the migration has no such
    check (migrate.rs:28-49). Here the book is off, as it is right after the migration; a pair with a CW20 asset
    cannot place orders (orderbook/utils.rs:83 panics). With the book off and empty a message does what
    DualityModel.v has, without orders and settlements (theorem c113_plain), except where CW20 assets are
    concerned; those places are below. The pool carries no tracked balances and no observations ([strip] of
    DualityModel.v). *)
From Coq Require Import ZArith Bool.
From Verif Require Import Num Ledger PclModel DualityModel.
Open Scope Z_scope.

(** The pool as [swap] sees it when [offer] of a CW20 asset is named in the message but not sent: the balance is
    taken to contain the offer already (execute.rs:462). *)
Definition without (s : state) (one : bool) (offer : Z) : state :=
  set_balances s (if one then r0 s else r0 s - offer) (if one then r1 s - offer else r1 s) (lp s).

(** execute.rs:60-85, 432-613 [swap]: [assert_sent_native_token_balance] (asset.rs:256-270) checks the coins sent
    for a native offer and nothing for a CW20 offer *)
Definition mswap (e : env) (s : state) (one : bool) (offer : Z) (belief max_spread : option Z) : option (state * out) :=
  guard 0 <=? offer;
  if (if one then nat1 s else nat0 s) then
    do '(s', o) <- PclModel.swap e s one offer belief max_spread; Some (strip s', o)
  else
    guard offer <=? (if one then r1 s else r0 s);
    do '(s', o) <- PclModel.swap e (without s one offer) one offer belief max_spread; Some (strip s', o).

(** execute.rs:36-132 [execute]; 182-192: [provide_liquidity] panics on a CW20 asset; 130: there is no [Receive] *)
Definition mstep (e : env) (m : msg) (s : state) : option (state * out) :=
  match m with
  | Provide _ _ _ _ _ => guard nat0 s && nat1 s; do '(s', o) <- step e m s; Some (strip s', o)
  | Withdraw _ _ _ (Some _) => None       (* with minimum amounts: left out here, DualityModel.v has them *)
  | Swap one offer belief max_spread => mswap e s one offer belief max_spread
  | _ => do '(s', o) <- step e m s; Some (strip s', o)
  end.
