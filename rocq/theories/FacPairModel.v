(** The factory together with the constant-product pairs it created: /repo/contracts/factory/src/contract.rs
    [execute_create_pair], [reply], [query_fee_info], [query_config]; /repo/contracts/pair/src/contract.rs and
    /repo/packages/astroport/src/querier.rs [query_fee_info], [query_factory_config].

    Scope: every message of FactoryModel to the factory, every message of XykModel to any of the pairs.
    Simplifications: those of the two models, and
    - every pair type runs the constant-product code;
    - the chain gives every new contract a new address, so a message creating pairs at used addresses does not occur;
    - a pair asks for the fees in every message (the code asks in swaps and simulations only; c139_fees shows that the
      answer never fails). *)
From Coq Require Import ZArith Bool List.
From Verif Require Import Num Amap Bytes.
From Verif Require FactoryModel XykModel.
Import ListNotations.
Open Scope Z_scope.

(** A pair: its type and state. *)
Record pair := mkP { ptype : Z; st : XykModel.state }.
Record world := mkW { fac : FactoryModel.state; prs : amap pair }.
(** Block time and height; whether a pair instantiated now is to track balances (init params). *)
Record env := mkE { now : Z; height : Z; tracks : Z -> bool }.

(** Pairs instantiated by a message, with their types. *)
Fixpoint born (m : FactoryModel.msg) : list (Z * Z) :=
  match m with
  | FactoryModel.CreatePair _ t _ addr nested =>
      (addr, t) :: (fix go l := match l with [] => [] | m' :: r => born m' ++ go r end) nested
  | _ => []
  end.
Fixpoint fresh_addrs (l : list (Z * Z)) (p : amap pair) : bool :=
  match l with
  | [] => true
  | (a, _) :: r => match find a p with Some _ => false | None => true end && negb (existsb (fun x => fst x =? a) r) && fresh_addrs r p
  end.
(** pair/contract.rs:51-112 [instantiate]. *)
Fixpoint instantiate_all (e : env) (l : list (Z * Z)) (p : amap pair) : amap pair :=
  match l with
  | [] => p
  | (a, t) :: r => put a (mkP t (XykModel.init (tracks e a))) (instantiate_all e r p)
  end.

(** querier.rs:197-213 [query_fee_info]: basis points become Decimals. *)
Definition fee_info (f : FactoryModel.state) (t : Z) : option XykModel.fee_info :=
  do '(a, total, maker) <- FactoryModel.query_fee_info f t;
  do rt <- dratio total 10000;
  do rm <- dratio maker 10000;
  Some (XykModel.mkFees rt rm (match a with Some _ => true | None => false end)).
(** What a pair of type [t] learns from the factory in a message. *)
Definition xenv (e : env) (f : FactoryModel.state) (t : Z) : option XykModel.env :=
  do fi <- fee_info f t;
  Some (XykModel.mkEnv (now e) (height e) fi (FactoryModel.owner f)).

Inductive msg := Fac (m : FactoryModel.msg) | Pair (addr : Z) (m : XykModel.msg).
Definition step (e : env) (m : msg) (w : world) : option (world * XykModel.out) :=
  match m with
  | Fac m =>
      guard fresh_addrs (born m) (prs w);
      do f <- FactoryModel.step m (fac w);
      Some (mkW f (instantiate_all e (born m) (prs w)), XykModel.ONone)
  | Pair a m =>
      do p <- find a (prs w);
      do x <- xenv e (fac w) (ptype p);
      do '(s, o) <- XykModel.step x m (st p);
      Some (mkW (fac w) (put a (mkP (ptype p) s) (prs w)), o)
  end.
(** A failed message changes nothing. *)
Definition exec (w : world) (em : env * msg) : world := match step (fst em) (snd em) w with Some (w', _) => w' | None => w end.
Definition run (w : world) (l : list (env * msg)) : world := fold_left exec l w.
Definition init (f : FactoryModel.state) : world := mkW f [].
