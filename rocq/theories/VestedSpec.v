(** Specification vocabulary for the incentives contract paid from vesting. *)
From Coq Require Import ZArith Bool List.
From Verif Require Import Num Amap VestedModel.
From Verif Require IncentivesModel IncentivesSpec VestingModel VestingSpec.
Import ListNotations.
Open Scope Z_scope.

(** Block times are 64-bit and do not decrease, message fields are machine integers. *)
Definition time_of (x : msg) : Z := match x with Inc e _ _ => IncentivesModel.now e | Vest t _ => t end.
Definition fields (x : msg) : Prop :=
  match x with
  | Inc e _ m => IncentivesSpec.order_ok e /\ IncentivesSpec.unsigned m
  | Vest _ m => VestingSpec.msg_ok m
  end.
Fixpoint clocked (T : Z) (h : list msg) : Prop :=
  match h with
  | [] => True
  | x :: r => T <= time_of x <= U64MAX /\ fields x /\ clocked (time_of x) r
  end.
Fixpoint clock_after (T : Z) (h : list msg) : Z :=
  match h with [] => T | x :: r => clock_after (time_of x) r end.

(** The messages of a history the incentives contract served. *)
Fixpoint served (self : Z) (c : state) (h : list msg) : list (IncentivesModel.env * Z * IncentivesModel.msg) :=
  match h with
  | [] => []
  | x :: r =>
      match step self x c with
      | Some (c', _) => match x with Inc e sd m => [(granted e, sd, m)] | Vest _ _ => [] end ++ served self c' r
      | None => served self c r
      end
  end.

(** ASTRO released by time [t] to the account of [self], and the part already paid. *)
Definition vested (self t : Z) (c : state) : Z :=
  match find self (VestingModel.accs (snd c)) with
  | Some v => VestingSpec.unlocked_all (VestingModel.schedules v) t
  | None => 0
  end.
Definition drawn (self : Z) (c : state) : Z :=
  match find self (VestingModel.accs (snd c)) with Some v => VestingModel.released v | None => 0 end.
(** The whole amount of the schedules fits 128 bits. *)
Definition fits (self : Z) (c : state) : Prop :=
  match find self (VestingModel.accs (snd c)) with
  | Some v => VestingSpec.full_all (VestingModel.schedules v) <= U128MAX
  | None => True
  end.
