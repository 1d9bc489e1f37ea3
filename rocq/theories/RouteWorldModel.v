(** The router over constant-product pairs: /repo/contracts/router/src/{contract,operations}.rs and
    /repo/contracts/pair/src/contract.rs together.

    Scope: SwapOperations sent to the router, the pairs' swaps that it causes, SimulateSwapOperations.
    Simplifications: those of RouterModel and XykModel, and
    - coins and tokens behave (a transfer moves the amount and runs no other code), so that nothing re-enters;
    - all pairs are of constant-product types; each pair's type has its own fee rates ([fees_of]); the maker
      contract takes coins without reacting;
    - the reserves of a pair are its balances, as the code reads them, before the offer arrived. *)
From Coq Require Import ZArith Bool List.
From Verif Require Import Num Bytes FactoryModel RouterModel.
From Verif Require XykModel.
Import ListNotations.
Open Scope Z_scope.

(** A pair: address, assets, own storage, recipient of its fee share, fee rates that the factory answers. *)
Record pool := mkP { addr : Z; pa0 : asset; pa1 : asset; st : XykModel.state; share_to : Z; fees_of : XykModel.fee_info }.
Record world := mkW { bal : RouterModel.world; pools : list pool }.
(** Time, block height, address of the maker. *)
Record env := mkEnv { now : Z; height : Z; maker : Z }.

(** router/operations.rs:42-46, factory [query_pair]: the factory has one pair per set of assets. *)
Definition is_pair (x y : asset) (p : pool) : bool :=
  (asset_eqb x (pa0 p) && asset_eqb y (pa1 p)) || (asset_eqb x (pa1 p) && asset_eqb y (pa0 p)).
Definition lookup (w : world) (x y : asset) : option pool := List.find (is_pair x y) (pools w).
Definition put (p : pool) (l : list pool) : list pool := map (fun p' => if addr p' =? addr p then p else p') l.

(** pair/contract.rs:631-640: the pools are the balances of the pair less the offer. *)
Definition sync (b : RouterModel.world) (p : pool) : XykModel.state :=
  let s := st p in
  XykModel.mkState (b (pa0 p) (addr p)) (b (pa1 p) (addr p)) (XykModel.supply s) (XykModel.lp s)
    (XykModel.c0 s) (XykModel.c1 s) (XykModel.last_t s) (XykModel.fshare s) (XykModel.track s)
    (XykModel.h0 s) (XykModel.h1 s).
Definition xenv (e : env) (p : pool) : XykModel.env := XykModel.mkEnv (now e) (height e) (fees_of p) 0.

(** router/operations.rs:21-131 and pair/contract.rs:616-774: the router hands its whole balance to the pair, which
    pays the return to [to], the fee share to its recipient and the maker's part to the maker. *)
Definition hop (e : env) (o : op) (to : Z) (blf spr : option Z) (w : world) : option world :=
  match o with
  | NativeSwap _ _ => None
  | AstroSwap offer ask =>
      do p <- lookup w offer ask;
      let amount := bal w offer ROUTER in
      do '(s', r) <- XykModel.step (xenv e p) (XykModel.Swap (asset_eqb offer (pa1 p)) amount blf spr) (sync (bal w) p);
      match r with
      | XykModel.OSwap so =>
          do b1 <- pay (bal w) offer ROUTER (addr p) amount;
          do b2 <- pay b1 ask (addr p) to (XykModel.so_return so);
          do b3 <- pay b2 ask (addr p) (share_to p) (XykModel.so_share so);
          do b4 <- pay b3 ask (addr p) (maker e) (XykModel.so_maker so);
          Some (mkW b4 (put (mkP (addr p) (pa0 p) (pa1 p) s' (share_to p) (fees_of p)) (pools w)))
      | _ => None
      end
  end.
(** router/contract.rs:151-179: the last hop pays the receiver, the others the router. *)
Fixpoint hops (e : env) (q : request) (l : list op) (w : world) : option world :=
  match l with
  | [] => Some w
  | o :: r =>
      do w1 <- hop e o (match r with [] => receiver q | _ => ROUTER end)
                 (belief (Z.of_nat (length (ops q)) =? 1)) (spread q) w;
      hops e q r w1
  end.
(** router/contract.rs:136-228 [execute_swap_operations] to [reply]; the offer has arrived at the router. *)
Definition route (e : env) (q : request) (w : world) : option (world * Z) :=
  do s0 <- begin (mkState (bal w) None) q;
  do w1 <- hops e q (ops q) w;
  do got <- reply (mkState (bal w1) (rd s0));
  Some (w1, got).

(** The pair's [query_simulation] (pair/contract.rs:983-1022) as the router asks it. *)
Definition quote3 (e : env) (w : world) (offer ask : asset) (amount : Z) : option (Z * Z * Z) :=
  do p <- lookup w offer ask;
  XykModel.query_simulation (xenv e p) (sync (bal w) p) (asset_eqb offer (pa1 p)) amount.
Definition quote (e : env) (w : world) (offer ask : asset) (amount : Z) : option Z :=
  do '(ret, _, _) <- quote3 e w offer ask amount; Some ret.
(** router/contract.rs:302-347 [simulate_swap_operations]. *)
Definition simulate_route (e : env) (w : world) (l : list op) (amount : Z) : option Z :=
  simulate (quote e w) l amount.
