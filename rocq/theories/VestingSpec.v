(** Specification vocabulary for vesting. *)
From Coq Require Import ZArith Bool List.
From Verif Require Import Num Amap Hist VestingModel.
Import ListNotations.
Open Scope Z_scope.

(** A schedule's released amount over time: nothing before the start, linear (rounded down) to the
    end, constant after; a schedule without an end releases its amount at the start. *)
Definition unlocked (s : sched) (t : Z) : Z :=
  if t <? time (start s) then 0
  else match fin s with
       | None => amt (start s)
       | Some e =>
           if time e <=? t then amt e
           else amt (start s) + (t - time (start s)) * (amt e - amt (start s)) / (time e - time (start s))
       end.
Definition unlocked_all (l : list sched) (t : Z) : Z := fold_right (fun s a => unlocked s t + a) 0 l.
Definition full_all (l : list sched) : Z := fold_right (fun s a => end_amount s + a) 0 l.

(** Well-formed schedule: 64/128-bit fields, start before end, amounts growing. *)
Definition wf (s : sched) : Prop :=
  is_u64 (time (start s)) /\ is_u128 (amt (start s)) /\
  match fin s with
  | Some e => is_u64 (time e) /\ is_u128 (amt e) /\ time (start s) < time e /\ amt (start s) < amt e
  | None => True
  end.
(** Message fields are machine integers. *)
Definition pt_ok (p : point) : Prop := is_u64 (time p) /\ is_u128 (amt p).
Definition sch_ok (s : sched) : Prop :=
  pt_ok (start s) /\ match fin s with Some e => pt_ok e | None => True end.
Definition msg_ok (m : msg) : Prop :=
  match m with
  | Register _ l _ => Forall (fun p => Forall sch_ok (snd p)) l
  | _ => True
  end.

(** What the contract still owes an account in total. *)
Definition owed (v : vinfo) : Z := full_all (schedules v) - released v.

(** Histories: block times are 64-bit and never decrease. *)
Definition hist_ok (l : list (Z * msg)) : Prop :=
  nondecr fst l /\ Forall (fun tm => is_u64 (fst tm) /\ msg_ok (snd tm)) l.

(** Total paid to [a] by successful claims of a history. *)
Fixpoint claimed (s : state) (l : list (Z * msg)) (a : Z) : Z :=
  match l with
  | [] => 0
  | (t, m) :: r =>
      match step t m s with
      | Some (s', o) => (match m with Claim b _ => if b =? a then o else 0 | _ => 0 end) + claimed s' r a
      | None => claimed s r a
      end
  end.
