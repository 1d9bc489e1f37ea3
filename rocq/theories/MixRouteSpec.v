(** Vocabulary of C140: routes through pairs of all kinds (no proofs). *)
From Coq Require Import ZArith Bool List.
From Verif Require Import Num Bytes FactoryModel RouterModel.
From Verif Require XykModel StableModel PclModel SaleTaxModel TransmuterModel Ledger.
From Verif Require Import MixRouteModel.
Import ListNotations.
Open Scope Z_scope.

(** The pairs that the hops of a route name, in order. *)
Fixpoint visited (w : world) (l : list op) : list Z :=
  match l with
  | AstroSwap x y :: r => match lookup w x y with Some p => addr p :: visited w r | None => visited w r end
  | _ :: r => visited w r
  | [] => []
  end.
(** The asset a route begins with. *)
Definition first_offer (l : list op) : option asset :=
  match l with AstroSwap x _ :: _ => Some x | _ => None end.
(** Recipients of a sale tax. *)
Definition taxers (p : pool) : list Z :=
  match st p with
  | Tax s => (match SaleTaxModel.tax0 s with Some t => [SaleTaxModel.recipient t] | None => [] end) ++
             (match SaleTaxModel.tax1 s with Some t => [SaleTaxModel.recipient t] | None => [] end)
  | _ => []
  end.
Definition payees (p : pool) : list Z := share_to p :: taxers p.
(** The router, the receiver, the pairs and those who get fees and taxes are different accounts; different pairs are too. *)
Definition apart (e : env) (q : request) (w : world) : Prop :=
  NoDup (map addr (pools w)) /\ receiver q <> ROUTER /\ maker e <> ROUTER /\ maker e <> receiver q /\
  Forall (fun p => addr p <> ROUTER /\ addr p <> receiver q /\ addr p <> maker e /\ pa0 p <> pa1 p /\
    (forall u, In u (payees p) -> u <> ROUTER /\ u <> receiver q /\ Forall (fun p' => addr p' <> u) (pools w))) (pools w).
(** The router holds nothing but the offer. *)
Definition clean (a : asset) (w : world) : Prop := forall x, x <> a -> bal w x ROUTER = 0.
(** Accounts that take part in no route: no pair, no recipient of fees or taxes, not the router, not the receiver. *)
Definition outsider (e : env) (q : request) (w : world) (u : Z) : Prop :=
  u <> ROUTER /\ u <> receiver q /\ u <> maker e /\ Forall (fun p => u <> addr p /\ ~ In u (payees p)) (pools w).
(** The reserves that a pair of any kind computes with. *)
Definition reserves (s : store) : Z * Z :=
  match s with
  | Xyk s => (XykModel.r0 s, XykModel.r1 s)
  | Stable s => (StableModel.r0 s, StableModel.r1 s)
  | Pcl s => (PclModel.r0 s, PclModel.r1 s)
  | Tax s => (XykModel.r0 (SaleTaxModel.base s), XykModel.r1 (SaleTaxModel.base s))
  | Trans s => (Ledger.get (TransmuterModel.pools s) 0, Ledger.get (TransmuterModel.pools s) 1)
  end.
