(** The pair and the incentives contract together: vocabulary of the properties. *)
From Coq Require Import ZArith Bool List.
From Verif Require Import Num Ledger.
From Verif Require XykModel XykSpec IncentivesModel IncentivesSpec.
From Verif Require Import StakeWorldModel.
Import ListNotations.
Open Scope Z_scope.

(** Histories of both: one clock, times do not decrease, fee rates are at most 100%, amounts are unsigned. *)
Definition event_ok (e : wenv) (m : msg) : Prop :=
  XykModel.now (xe e) = IncentivesModel.now (ie e) /\ XykSpec.env_ok (xe e) /\ IncentivesSpec.order_ok (ie e) /\
  match m with Stake _ m => IncentivesSpec.unsigned m | _ => True end.
Fixpoint timed (T : Z) (l : list (wenv * msg)) : Prop :=
  match l with
  | [] => True
  | (e, m) :: r => T <= IncentivesModel.now (ie e) /\ event_ok e m /\ timed (IncentivesModel.now (ie e)) r
  end.
Fixpoint time_after (T : Z) (l : list (wenv * msg)) : Z :=
  match l with [] => T | (e, _) :: r => time_after (IncentivesModel.now (ie e)) r end.

(** What each contract sees of a history. *)
Definition moves (c : cfg) (e : XykModel.env) (os : list IncentivesModel.out) : list (XykModel.env * XykModel.msg) :=
  flat_map (fun o => match leaves c o with Some (to, v) => [(e, XykModel.LpTransfer (gen c) to v)] | None => [] end) os.
Definition seen_by_pair (c : cfg) (e : wenv) (m : msg) (o : out) : list (XykModel.env * XykModel.msg) :=
  match m, o with
  | Direct m, _ => [(xe e, m)]
  | AutoStake who _ d0 d1 tol ml, OAuto _ os => (xe e, XykModel.Provide who (gen c) d0 d1 tol ml) :: moves c (xe e) os
  | Stake sd m, OStake os => (xe e, XykModel.LpTransfer sd (gen c) (attached (lpd c) m)) :: moves c (xe e) os
  | _, _ => []
  end.
Definition seen_by_inc (c : cfg) (e : wenv) (m : msg) (w w' : world) (o : out)
    : list (IncentivesModel.env * Z * IncentivesModel.msg) :=
  match m, o with
  | Direct _, _ =>
      let n := get (XykModel.lp (pair w')) (gen c) - get (XykModel.lp (pair w)) (gen c) in
      if n =? 0 then [] else [(ie e, gen c, IncentivesModel.Donate (lpd c) n)]
  | AutoStake _ rcv _ _ _ _, OAuto share _ => [(ie e, XykModel.SELF, IncentivesModel.Deposit (lpd c) share (Some rcv))]
  | Stake sd m, _ => [(ie e, sd, m)]
  | _, _ => []
  end.
Fixpoint pair_hist (c : cfg) (w : world) (l : list (wenv * msg)) : list (XykModel.env * XykModel.msg) :=
  match l with
  | [] => []
  | (e, m) :: r =>
      match step c e m w with
      | Some (w', o) => seen_by_pair c e m o ++ pair_hist c w' r
      | None => pair_hist c w r
      end
  end.
Fixpoint inc_hist (c : cfg) (w : world) (l : list (wenv * msg)) : list (IncentivesModel.env * Z * IncentivesModel.msg) :=
  match l with
  | [] => []
  | (e, m) :: r =>
      match step c e m w with
      | Some (w', o) => seen_by_inc c e m w w' o ++ inc_hist c w' r
      | None => inc_hist c w r
      end
  end.

(** LP tokens that [a] receives from the incentives contract. *)
Definition received (c : cfg) (a : Z) (os : list IncentivesModel.out) : Z :=
  fold_right (fun o n => match leaves c o with Some (to, v) => if to =? a then v else 0 | None => 0 end + n) 0 os.
(** Free LP tokens of an account. *)
Definition free (w : world) (a : Z) : Z := get (XykModel.lp (pair w)) a.

(** Pairs that differ at most in how the ledger of LP tokens is stored. *)
Definition same_pair (p q : XykModel.state) : Prop :=
  XykModel.r0 p = XykModel.r0 q /\ XykModel.r1 p = XykModel.r1 q /\ XykModel.supply p = XykModel.supply q /\
  (forall a, get (XykModel.lp p) a = get (XykModel.lp q) a) /\
  XykModel.c0 p = XykModel.c0 q /\ XykModel.c1 p = XykModel.c1 q /\ XykModel.last_t p = XykModel.last_t q /\
  XykModel.fshare p = XykModel.fshare q /\ XykModel.track p = XykModel.track q /\
  XykModel.h0 p = XykModel.h0 q /\ XykModel.h1 p = XykModel.h1 q.
