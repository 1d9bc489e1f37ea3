(** Vesting: /repo/contracts/tokenomics/vesting/src/contract.rs.

    Scope: registration (native or cw20 deposit), claim, withdrawal from the active schedule.
    Simplifications: addresses are numbers and always valid; the deposit arrives in the contract
    balance [bal] with the registration; transfers out reduce [bal] and fail if it is too small;
    ownership transfer (shared helper) is modelled in OwnershipModel.v, here the owner is fixed;
    the one-off migration is in VestMigrateModel. *)
From Coq Require Import ZArith Bool List.
From Verif Require Import Num Amap.
Import ListNotations.
Open Scope Z_scope.

(** packages/astroport/src/vesting.rs:78-96 [VestingSchedule], [VestingSchedulePoint]. *)
Record point := mkPt { time : Z; amt : Z }.
Record sched := mkSch { start : point; fin : option point }.
(** vesting.rs:69-76 [VestingInfo]. *)
Record vinfo := mkInfo { schedules : list sched; released : Z }.

(** contract.rs:25-26 [SCHEDULES_LIMIT]. *)
Definition SCHEDULES_LIMIT : Z := 8.

Record state := mkState { owner : Z; bal : Z; accs : amap vinfo }.

(** contract.rs:311-330 [calc_schedule_unlocked_amount]; called only when start time <= now. *)
Definition sched_unlocked (s : sched) (now : Z) : option Z :=
  match fin s with
  | None => Some (amt (start s))
  | Some e =>
      do passed <- sub64 (Z.min now (time e)) (time (start s));
      do period <- sub64 (time e) (time (start s));
      if passed =? 0 then Some (amt (start s))
      else
        do d <- sub128 (amt e) (amt (start s));
        do rel <- muldiv128 passed d period;
        add128 (amt (start s)) rel
  end.

(** contract.rs:293-307 [compute_available_amount]. *)
Fixpoint sum_unlocked (l : list sched) (now acc : Z) : option Z :=
  match l with
  | [] => Some acc
  | s :: r =>
      if now <? time (start s) then sum_unlocked r now acc
      else do u <- sched_unlocked s now; do acc' <- add128 acc u; sum_unlocked r now acc'
  end.
Definition available (now : Z) (v : vinfo) : option Z :=
  do a <- sum_unlocked (schedules v) now 0; sub128 a (released v).

(** contract.rs:220-237 [assert_vesting_schedules]. *)
Definition sched_ok (now : Z) (s : sched) : bool :=
  match fin s with
  | None => true
  | Some e => (time (start s) <? time e) && (now <? time e) && (amt (start s) <? amt e)
  end.

(** contract.rs:174-181: the amount to deposit for a schedule. *)
Definition end_amount (s : sched) : Z :=
  match fin s with Some e => amt e | None => amt (start s) end.

Fixpoint sum_deposit (l : list sched) (acc : Z) : option Z :=
  match l with
  | [] => Some acc
  | s :: r => do a <- add128 acc (end_amount s); sum_deposit r a
  end.

(** contract.rs:158-213 [register_vesting_accounts]: the loop over accounts. *)
Fixpoint register_loop (now : Z) (l : list (Z * list sched)) (m : amap vinfo) (dep : Z)
    : option (amap vinfo * Z) :=
  match l with
  | [] => Some (m, dep)
  | (a, ss) :: r =>
      guard forallb (sched_ok now) ss;
      do dep' <- sum_deposit ss dep;
      match find a m with
      | Some old =>
          guard negb (SCHEDULES_LIMIT <? Z.of_nat (length (schedules old)) + 1);
          register_loop now r (put a (mkInfo (ss ++ schedules old) (released old)) m) dep'
      | None => register_loop now r (put a (mkInfo ss 0) m) dep'
      end
  end.

(** contract.rs:369-375: which schedules are active. *)
Definition active (now : Z) (s : sched) : bool :=
  match fin s with
  | Some e => (time (start s) <=? now) && (now <? time e)
  | None => false
  end.

(** contract.rs:377-402: cut the single active schedule. *)
Definition cut (now amount : Z) (s : sched) : option sched :=
  match fin s with
  | None => None
  | Some e =>
      do u <- sched_unlocked s now;
      do left <- sub128 (amt e) u;
      guard amount <? left;
      do e' <- sub128 (amt e) amount;
      Some (mkSch (mkPt now u) (Some (mkPt (time e) e')))
  end.
Fixpoint cut_active (now amount : Z) (l : list sched) : option (list sched) :=
  match l with
  | [] => None
  | s :: r =>
      if active now s then
        guard negb (existsb (active now) r);
        do s' <- cut now amount s; Some (s' :: r)
      else do r' <- cut_active now amount r; Some (s :: r')
  end.

Inductive msg :=
| Register (sender : Z) (accounts : list (Z * list sched)) (deposit : Z)
| Claim (sender : Z) (amount : option Z)
| WithdrawActive (sender account amount : Z)
| Donate (amount : Z).

(** contract.rs:244-283 [claim]: new account record and the amount paid. *)
Definition claim (now : Z) (s : state) (a : Z) (amount : option Z) : option (state * Z) :=
  do v <- find a (accs s);
  do av <- available now v;
  do c <- (match amount with Some x => guard x <=? av; Some x | None => Some av end);
  if c =? 0 then Some (s, 0)
  else
    do rel <- add128 (released v) c;
    do b <- sub128 (bal s) c;
    Some (mkState (owner s) b (put a (mkInfo (schedules v) rel) (accs s)), c).

(** Output: amount sent out by the contract. *)
Definition step (now : Z) (m : msg) (s : state) : option (state * Z) :=
  match m with
  | Register sender l deposit =>
      (* contract.rs:80-90, 133-151: owner only, deposit attached *)
      guard (sender =? owner s) && (0 <? deposit);
      do '(m', dep) <- register_loop now l (accs s) 0;
      guard dep =? deposit;
      do b <- add128 (bal s) deposit;
      Some (mkState (owner s) b m', 0)
  | Claim a amount =>
      guard (match amount with Some x => 0 <=? x | None => true end);
      claim now s a amount
  | WithdrawActive sender a amount =>
      (* contract.rs:348-418 *)
      guard (0 <? amount) && (sender =? owner s);
      do v <- find a (accs s);
      do l <- cut_active now amount (schedules v);
      do b <- sub128 (bal s) amount;
      Some (mkState (owner s) b (put a (mkInfo l (released v)) (accs s)), amount)
  | Donate amount =>
      guard 0 <=? amount;
      do b <- add128 (bal s) amount; Some (mkState (owner s) b (accs s), 0)
  end.

Definition exec (s : state) (tm : Z * msg) : state :=
  match step (fst tm) (snd tm) s with Some (s', _) => s' | None => s end.
Definition run (s : state) (l : list (Z * msg)) : state := fold_left exec l s.
(** contract.rs:30-49 [instantiate]. *)
Definition init (o : Z) : state := mkState o 0 [].
