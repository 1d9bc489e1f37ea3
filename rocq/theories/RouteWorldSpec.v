(** Vocabulary of C138: routes through constant-product pairs (no proofs). *)
From Coq Require Import ZArith Bool List.
From Verif Require Import Num Bytes FactoryModel RouterModel.
From Verif Require Import RouteWorldModel.
Import ListNotations.
Open Scope Z_scope.

(** The pairs that the hops of a route name, in order. *)
Fixpoint visited (w : world) (l : list op) : list Z :=
  match l with
  | AstroSwap x y :: r => match lookup w x y with Some p => addr p :: visited w r | None => visited w r end
  | _ :: r => visited w r
  | [] => []
  end.
(** The asset a route begins with. *)
Definition first_offer (l : list op) : option asset :=
  match l with AstroSwap x _ :: _ => Some x | _ => None end.
(** The router, the receiver, the pairs and those who get fees are different accounts; different pairs are too. *)
Definition apart (e : env) (q : request) (w : world) : Prop :=
  NoDup (map addr (pools w)) /\ receiver q <> ROUTER /\ maker e <> ROUTER /\ maker e <> receiver q /\
  Forall (fun p => addr p <> ROUTER /\ addr p <> receiver q /\ addr p <> maker e /\ pa0 p <> pa1 p /\
    share_to p <> ROUTER /\ share_to p <> receiver q /\ Forall (fun p' => addr p' <> share_to p) (pools w)) (pools w).
(** The router holds nothing but the offer. *)
Definition clean (a : asset) (w : world) : Prop := forall x, x <> a -> bal w x ROUTER = 0.
(** Accounts that take part in no route: no pair, no recipient of fees, not the router, not the receiver. *)
Definition outsider (e : env) (q : request) (w : world) (u : Z) : Prop :=
  u <> ROUTER /\ u <> receiver q /\ u <> maker e /\ Forall (fun p => u <> addr p /\ u <> share_to p) (pools w).

(** Conditions under which a pair can trade: rates at most 100%, fee share at most 10%, reserves below 2^127, price
    accumulators that can be brought up to date. *)
Definition ready (e : env) (w : world) (p : pool) : Prop :=
  let x := bal w (pa0 p) (addr p) in let y := bal w (pa1 p) (addr p) in
  let t := now e - XykModel.last_t (st p) in
  0 <= XykModel.total_fee (fees_of p) <= 10 ^ 18 /\ 0 <= XykModel.maker_rate (fees_of p) <= 10 ^ 18 /\
  match XykModel.fshare (st p) with Some b => 1 <= b <= 1000 | None => True end /\
  0 <= x < 2 ^ 127 /\ 0 <= y < 2 ^ 127 /\
  (t <= 0 \/ x = 0 \/ y = 0 \/
   t * 10 ^ 6 < 2 ^ 128 /\ t * 10 ^ 6 * y / x < 2 ^ 128 /\ t * 10 ^ 6 * x / y < 2 ^ 128).
(** The limit on the spread: 0.5% unless given. *)
Definition limit (q : request) : Z := match spread q with Some s => s | None => 5 * 10 ^ 15 end.
(** A single hop stays within the limit, as a part of what the pool's price promises. *)
Definition within (e : env) (q : request) (w : world) (amount : Z) : Prop :=
  match ops q with
  | [AstroSwap x y] => forall ret spr com, quote3 e w x y amount = Some (ret, spr, com) ->
      0 < ret + com + spr < 2 ^ 128 /\ spr * 10 ^ 18 / (ret + com + spr) <= limit q
  | _ => True
  end.
