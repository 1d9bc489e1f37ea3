(** The router over pairs of all kinds: /repo/contracts/router/src/{contract,operations}.rs together with
    /repo/contracts/pair, pair_stable, pair_concentrated, pair_xyk_sale_tax and pair_transmuter.

    Scope: SwapOperations sent to the router, the swaps that it causes, SimulateSwapOperations.
    Simplifications: those of RouterModel and of the pair models, and
    - coins and tokens behave (a transfer moves the amount and runs no other code), so that nothing re-enters; the maker
      takes coins without reacting;
    - the factory's answers about fees do not change within the transaction, and are kept with the pair ([fees_of]);
    - a transmuter has two assets, called 0 and 1 in its model;
    - the reserves of a pair are its balances, as the code reads them, before the offer arrived. *)
From Coq Require Import ZArith Bool List.
From Verif Require Import Num Bytes FactoryModel RouterModel.
From Verif Require XykModel StableModel PclModel SaleTaxModel TransmuterModel.
Import ListNotations.
Open Scope Z_scope.

(** A pair's own storage. *)
Inductive store :=
| Xyk (s : XykModel.state)
| Stable (s : StableModel.state)
| Pcl (s : PclModel.state)
| Tax (s : SaleTaxModel.state)
| Trans (s : TransmuterModel.state).
(** A pair: address, assets, storage, recipient of its fee share, fee rates that the factory answers. *)
Record pool := mkP { addr : Z; pa0 : asset; pa1 : asset; st : store; share_to : Z; fees_of : XykModel.fee_info }.
Record world := mkW { bal : RouterModel.world; pools : list pool }.
(** Time, block height, address of the maker. *)
Record env := mkEnv { now : Z; height : Z; maker : Z }.

(** router/operations.rs:42-46, factory [query_pair]: the factory has one pair per set of assets. *)
Definition is_pair (x y : asset) (p : pool) : bool :=
  (asset_eqb x (pa0 p) && asset_eqb y (pa1 p)) || (asset_eqb x (pa1 p) && asset_eqb y (pa0 p)).
Definition lookup (w : world) (x y : asset) : option pool := List.find (is_pair x y) (pools w).
Definition put (p : pool) (l : list pool) : list pool := map (fun p' => if addr p' =? addr p then p else p') l.

(** The pairs read their reserves from the bank: pair/contract.rs:631-640, pair_stable/contract.rs:537-553,
    pair_concentrated/contract.rs:675-684, pair_xyk_sale_tax/contract.rs:608-619, pair_transmuter/utils.rs:65-96. *)
Definition sync_xyk (x y : Z) (s : XykModel.state) : XykModel.state :=
  XykModel.mkState x y (XykModel.supply s) (XykModel.lp s) (XykModel.c0 s) (XykModel.c1 s) (XykModel.last_t s)
    (XykModel.fshare s) (XykModel.track s) (XykModel.h0 s) (XykModel.h1 s).
Definition sync (x y : Z) (s : store) : store :=
  match s with
  | Xyk s => Xyk (sync_xyk x y s)
  | Stable s => Stable (StableModel.mkState x y (StableModel.p0 s) (StableModel.p1 s) (StableModel.nat0 s) (StableModel.nat1 s)
      (StableModel.supply s) (StableModel.lp s) (StableModel.c01 s) (StableModel.c10 s) (StableModel.last_t s) (StableModel.amp s)
      (StableModel.fshare s) (StableModel.owner s) (StableModel.proposal s))
  | Pcl s => Pcl (PclModel.set_balances s x y (PclModel.lp s))
  | Tax s => Tax (SaleTaxModel.with_base s (sync_xyk x y (SaleTaxModel.base s)))
  | Trans s => Trans (TransmuterModel.mkState (TransmuterModel.cfg s) [(0, x); (1, y)] (TransmuterModel.lp s))
  end.
Definition read (b : RouterModel.world) (p : pool) : store := sync (b (pa0 p) (addr p)) (b (pa1 p) (addr p)) (st p).

(** What a pair pays: to the trader, to the recipient of its fee share, to the maker; and a tax in the offered asset. *)
Record paid := mkPaid { ret : Z; shr : Z; mkr : Z; tax : option (Z * Z) }.
(** The kinds' [swap]; the pair's type decides which code runs. *)
Definition pswap (e : env) (fi : XykModel.fee_info) (s : store) (one : bool) (amount : Z) (blf spr : option Z) : option (store * paid) :=
  match s with
  | Xyk s =>
      do '(s', o) <- XykModel.step (XykModel.mkEnv (now e) (height e) fi 0) (XykModel.Swap one amount blf spr) s;
      match o with XykModel.OSwap so => Some (Xyk s', mkPaid (XykModel.so_return so) (XykModel.so_share so) (XykModel.so_maker so) None) | _ => None end
  | Stable s =>
      do '(s', o) <- StableModel.step (StableModel.mkEnv (now e) fi 0) (StableModel.Swap one amount blf spr) s;
      match o with StableModel.OSwap r _ _ m sh => Some (Stable s', mkPaid r sh m None) | _ => None end
  | Pcl s =>
      do '(s', o) <- PclModel.step (PclModel.mkEnv (now e) (height e) fi 0 true) (PclModel.Swap one amount blf spr) s;
      match o with PclModel.OSwap r _ _ m sh => Some (Pcl s', mkPaid r sh m None) | _ => None end
  | Tax s =>
      do '(s', o) <- SaleTaxModel.step (XykModel.mkEnv (now e) (height e) fi 0) (SaleTaxModel.Swap one amount blf spr) s;
      match SaleTaxModel.main o with
      | XykModel.OSwap so => Some (Tax s', mkPaid (XykModel.so_return so) 0 (XykModel.so_maker so) (SaleTaxModel.taxed o))
      | _ => None end
  | Trans s =>
      do '(s', l) <- TransmuterModel.step (TransmuterModel.Swap (if one then 1 else 0, amount) (Some (if one then 0 else 1))) s;
      match l with [(d, r)] => guard d =? (if one then 0 else 1); Some (Trans s', mkPaid r 0 0 None) | _ => None end
  end.
(** The kinds' [query_simulation], the return only. *)
Definition psim (e : env) (fi : XykModel.fee_info) (s : store) (one : bool) (amount : Z) : option Z :=
  match s with
  | Xyk s => do '(r, _, _) <- XykModel.query_simulation (XykModel.mkEnv (now e) (height e) fi 0) s one amount; Some r
  | Stable s => do '(r, _, _) <- StableModel.query_simulation (StableModel.mkEnv (now e) fi 0) s one amount; Some r
  | Pcl s => do '(r, _, _) <- PclModel.query_simulation (PclModel.mkEnv (now e) (height e) fi 0 true) s one amount; Some r
  | Tax s => do '(r, _, _) <- SaleTaxModel.query_simulation (XykModel.mkEnv (now e) (height e) fi 0) s one amount; Some r
  | Trans s =>
      (* pair_transmuter/queries.rs:20-31: the same function before the offer arrives *)
      do '(_, r) <- TransmuterModel.swap_out (TransmuterModel.cfg s) (TransmuterModel.pools s) (if one then 1 else 0, amount) (Some (if one then 0 else 1)); Some r
  end.

(** router/operations.rs:21-131 and the pair's swap: the router hands its whole balance to the pair, which pays the
    return to [to], the fee share to its recipient, the maker's part to the maker, and a tax to its recipient. *)
Definition hop (e : env) (o : op) (to : Z) (blf spr : option Z) (w : world) : option world :=
  match o with
  | NativeSwap _ _ => None
  | AstroSwap offer ask =>
      do p <- lookup w offer ask;
      let amount := bal w offer ROUTER in
      do '(s', r) <- pswap e (fees_of p) (read (bal w) p) (asset_eqb offer (pa1 p)) amount blf spr;
      do b1 <- pay (bal w) offer ROUTER (addr p) amount;
      do b2 <- pay b1 ask (addr p) to (ret r);
      do b3 <- pay b2 ask (addr p) (share_to p) (shr r);
      do b4 <- pay b3 ask (addr p) (maker e) (mkr r);
      do b5 <- match tax r with Some (u, v) => pay b4 offer (addr p) u v | None => Some b4 end;
      Some (mkW b5 (put (mkP (addr p) (pa0 p) (pa1 p) s' (share_to p) (fees_of p)) (pools w)))
  end.
(** router/contract.rs:151-179: the last hop pays the receiver, the others the router. *)
Fixpoint hops (e : env) (q : request) (l : list op) (w : world) : option world :=
  match l with
  | [] => Some w
  | o :: r =>
      do w1 <- hop e o (match r with [] => receiver q | _ => ROUTER end)
                 (belief (Z.of_nat (length (ops q)) =? 1)) (spread q) w;
      hops e q r w1
  end.
(** router/contract.rs:136-228 [execute_swap_operations] to [reply]; the offer has arrived at the router. *)
Definition route (e : env) (q : request) (w : world) : option (world * Z) :=
  do s0 <- begin (mkState (bal w) None) q;
  do w1 <- hops e q (ops q) w;
  do got <- reply (mkState (bal w1) (rd s0));
  Some (w1, got).
Definition quote (e : env) (w : world) (offer ask : asset) (amount : Z) : option Z :=
  do p <- lookup w offer ask;
  psim e (fees_of p) (read (bal w) p) (asset_eqb offer (pa1 p)) amount.
(** router/contract.rs:302-347 [simulate_swap_operations]. *)
Definition simulate_route (e : env) (w : world) (l : list op) (amount : Z) : option Z :=
  simulate (quote e w) l amount.
