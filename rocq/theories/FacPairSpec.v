(** Vocabulary of C139: pairs under their factory (no proofs). *)
From Coq Require Import ZArith Bool List.
From Verif Require Import Num Amap Bytes.
From Verif Require FactoryModel XykModel.
From Verif Require Import FacPairModel.
Import ListNotations.
Open Scope Z_scope.

(** The factory was just instantiated. *)
Definition fresh (f : FactoryModel.state) : Prop := exists o fee g l tr, FactoryModel.instantiate o fee g l tr = Some f.
(** The messages that a pair handled, with what it learned from the factory. *)
Fixpoint pair_hist (a : Z) (w : world) (l : list (env * msg)) : list (XykModel.env * XykModel.msg) :=
  match l with
  | [] => []
  | (e, m) :: r =>
      (match m with
       | Pair b m' => if b =? a then
           match find a (prs w) with
           | Some p => match xenv e (fac w) (ptype p) with Some x => [(x, m')] | None => [] end
           | None => [] end else []
       | Fac _ => [] end) ++ pair_hist a (exec w (e, m)) r
  end.
(** The rules a pair of type [t] gets from the factory: basis points of the fee and of the maker's part of it, whether
    there is a maker, who is the owner. *)
Definition terms (f : FactoryModel.state) (t : Z) : option (Z * Z * bool * Z) :=
  match find t (FactoryModel.cfgs f) with
  | Some c => Some (FactoryModel.total_fee_bps c, FactoryModel.maker_fee_bps c,
      match FactoryModel.fee_addr f with Some _ => true | None => false end, FactoryModel.owner f)
  | None => None
  end.
(** The factory's owner tells the pair to share fees or to stop it. *)
Definition orders (f : FactoryModel.state) (m : XykModel.msg) : Prop :=
  match m with
  | XykModel.EnableFeeShare sd _ | XykModel.DisableFeeShare sd => sd = FactoryModel.owner f
  | _ => False
  end.
Fixpoint ordered (a : Z) (w : world) (l : list (env * msg)) : Prop :=
  match l with
  | [] => False
  | (e, m) :: r => (match m with Pair b m' => b = a /\ orders (fac w) m' | Fac _ => False end) \/ ordered a (exec w (e, m)) r
  end.
