(** The incentives contract together with the vesting contract its ASTRO rewards are paid from.

    Simplifications: the vesting contract recorded in the configuration of the incentives contract
    stays the same (its owner could replace it, execute.rs:423-426); the transfer of vested ASTRO to
    the recipient does not fail by itself. *)
From Coq Require Import ZArith Bool List.
From Verif Require Import Num Amap.
From Verif Require IncentivesModel VestingModel.
Import ListNotations.
Open Scope Z_scope.

(** Both contracts. *)
Definition state : Type := IncentivesModel.state * VestingModel.state.

Inductive msg :=
| Inc (e : IncentivesModel.env) (sender : Z) (m : IncentivesModel.msg)
| Vest (t : Z) (m : VestingModel.msg).

(** The sender of a message to the vesting contract. *)
Definition sender_of (m : VestingModel.msg) : option Z :=
  match m with
  | VestingModel.Register a _ _ | VestingModel.Claim a _ | VestingModel.WithdrawActive a _ _ => Some a
  | VestingModel.Donate _ => None
  end.

(** The incentives model has a flag for the answer of the vesting contract: here it is set, and the
    messages to the vesting contract are executed instead. *)
Definition granted (e : IncentivesModel.env) : IncentivesModel.env :=
  IncentivesModel.mkEnv (IncentivesModel.now e) (IncentivesModel.ord e) (IncentivesModel.lp_ok e)
    (IncentivesModel.pair_assets e) (IncentivesModel.pair_type e) (IncentivesModel.bad_types e)
    (IncentivesModel.xfer_ok e) true.

(** incentives/src/utils.rs:82-92: the protocol reward is claimed from the account of the incentives
    contract [self]; a failing claim reverts the whole message (no reply is asked for). *)
Fixpoint pay (self t : Z) (o : list IncentivesModel.out) (v : VestingModel.state) : option VestingModel.state :=
  match o with
  | [] => Some v
  | IncentivesModel.Prot _ x :: r =>
      do '(v', _) <- VestingModel.step t (VestingModel.Claim self (Some x)) v;
      pay self t r v'
  | _ :: r => pay self t r v
  end.

(** A message to one of the contracts. Nobody but the incentives contract sends messages in its name. *)
Definition step (self : Z) (x : msg) (c : state) : option (state * list IncentivesModel.out) :=
  match x with
  | Inc e sd m =>
      do '(s', o) <- IncentivesModel.step (granted e) sd m (fst c);
      do v' <- pay self (IncentivesModel.now e) o (snd c);
      Some ((s', v'), o)
  | Vest t m =>
      guard match sender_of m with Some a => negb (a =? self) | None => true end;
      do '(v', _) <- VestingModel.step t m (snd c);
      Some ((fst c, v'), [])
  end.

Definition exec (self : Z) (c : state) (x : msg) : state :=
  match step self x c with Some (c', _) => c' | None => c end.
Definition run (self : Z) (c : state) (h : list msg) : state := fold_left (exec self) h c.

(** Both contracts as instantiated. *)
Definition init (own fac ast : Z) (grd : option Z) (f : option (Z * Z)) (vown : Z) : state :=
  (IncentivesModel.init own fac ast grd f, VestingModel.init vown).
