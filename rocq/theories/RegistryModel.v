(** The native coin registry: /repo/contracts/periphery/native_coin_registry/src/contract.rs.

    Denoms are byte strings; the store of coins is kept sorted by denom, which is the order in which a
    range over it runs. Coins attached to a message are a list of (denom, amount); [empty_ok] says
    whether the bank accepts a transfer of no coins at all. Simplifications: addresses are always valid;
    attributes and migration are left out. *)
From Coq Require Import ZArith Bool List.
From Verif Require Import Num Bytes.
From Verif Require OwnershipModel.
Import ListNotations.
Open Scope Z_scope.

(** contract.rs:27 DEFAULT_LIMIT, 29 ALLOWED_DECIMALS *)
Definition DEFAULT_LIMIT : Z := 50.
Definition MAX_DECIMALS : Z := 18.

(** state.rs:6-9 and native_coin_registry.rs COINS_INFO *)
Record state := mkState { own : OwnershipModel.state; coins : bmap Z }.
Definition owner s := OwnershipModel.owner (own s).
Definition set_coins s c := mkState (own s) c.

Record env := mkEnv { now : Z; empty_ok : bool }.

Inductive msg :=
| Add (l : list (bytes * Z))
| Register (l : list (bytes * Z)) (funds : list (bytes * Z))
| Remove (l : list bytes)
| Own (m : OwnershipModel.msg).

Fixpoint bmem (x : bytes) (l : list bytes) : bool :=
  match l with [] => false | y :: r => beq x y || bmem x r end.
Fixpoint bnodup (l : list bytes) : bool :=
  match l with [] => true | x :: r => negb (bmem x r) && bnodup r end.

(** contract.rs:159-178: the coins are stored one after the other; an existing one is an error when
    [fresh] (the permissionless endpoint). *)
Fixpoint store (fresh : bool) (l : list (bytes * Z)) (m : bmap Z) : option (bmap Z) :=
  match l with
  | [] => Some m
  | (d, n) :: r =>
      guard (0 <=? n) && (n <=? MAX_DECIMALS);
      guard match bfind d m with Some _ => negb fresh | None => true end;
      store fresh r (bput d n m)
  end.
(** contract.rs:149-196 [inner_add] *)
Definition inner_add (fresh : bool) (l : list (bytes * Z)) (s : state) : option state :=
  guard bnodup (map fst l);
  do m <- store fresh l (coins s);
  Some (set_coins s m).

(** contract.rs:216-222: removal, each coin must exist *)
Fixpoint drop (l : list bytes) (m : bmap Z) : option (bmap Z) :=
  match l with
  | [] => Some m
  | d :: r => match bfind d m with Some _ => drop r (bdel d m) | None => None end
  end.

(** A coin sent to somebody. *)
Definition payment : Type := Z * list (bytes * Z).

(** contract.rs:50-92 [execute] with register_decimals (101-125), update_decimals (133-142), remove
    (201-226). *)
Definition step (e : env) (sender : Z) (m : msg) (s : state) : option (state * list payment) :=
  match m with
  | Add l =>
      guard sender =? owner s;
      do s1 <- inner_add false l s; Some (s1, [])
  | Register l funds =>
      guard forallb (fun x => bmem (fst x) (map fst funds)) l;
      do s1 <- inner_add true l s;
      guard match funds with [] => empty_ok e | _ => true end;
      Some (s1, [(sender, funds)])
  | Remove l =>
      guard sender =? owner s;
      guard bnodup l;
      do m <- drop l (coins s); Some (set_coins s m, [])
  | Own m =>
      do o <- OwnershipModel.step (OwnershipModel.mkEv (now e) sender m) (own s);
      Some (mkState o (coins s), [])
  end.
Record event := mkEv { ev_env : env; ev_from : Z; ev_msg : msg }.
Definition exec (s : state) (v : event) : state :=
  match step (ev_env v) (ev_from v) (ev_msg v) s with Some (s', _) => s' | None => s end.
Definition run (s : state) (l : list event) : state := fold_left exec l s.
(** contract.rs:31-47 [instantiate] *)
Definition init (o : Z) : state := mkState (OwnershipModel.init o) [].

(** contract.rs:228-236 QueryMsg::NativeToken *)
Definition query_token (d : bytes) (s : state) : option Z := bfind d (coins s).
(** contract.rs:239-253 [query_native_tokens] *)
Definition query_tokens (start : option bytes) (limit : option Z) (s : state) : list (bytes * Z) :=
  firstn (Z.to_nat (match limit with Some l => l | None => DEFAULT_LIMIT end))
    (match start with Some d => after d (coins s) | None => coins s end).
