(** A constant-product pair and the incentives contract together: /repo/contracts/pair/src/contract.rs and
    /repo/contracts/tokenomics/incentives/src, with the LP token moving between them.

    Scope: every message of both models (XykModel, IncentivesModel), and deposits with [auto_stake].
    Simplifications: those of the two models, and
    - one pair; its LP token is the native denom [lpd] in the incentives contract;
    - LP tokens live in the pair's ledger; the incentives contract's account there is [gen]; it never acts on its own,
      so messages sent by it and payments by it to itself are refused;
    - the mint to the pair and the transfer of the minted coins to the incentives contract are one movement. *)
From Coq Require Import ZArith Bool List.
From Verif Require Import Num Ledger.
From Verif Require XykModel IncentivesModel.
Import ListNotations.
Open Scope Z_scope.


(** LP denom, account of the incentives contract, receiver of incentivization fees. *)
Record cfg := mkCfg { lpd : Z; gen : Z; fee_to : Z }.
Record world := mkW { pair : XykModel.state; inc : IncentivesModel.state }.
Record wenv := mkE { xe : XykModel.env; ie : IncentivesModel.env }.

Inductive msg :=
| Direct (m : XykModel.msg)                                             (* to the pair, without auto-stake *)
| AutoStake (who rcv d0 d1 : Z) (tol min_lp : option Z)          (* deposit with auto_stake = true *)
| Stake (sender : Z) (m : IncentivesModel.msg).                                (* to the incentives contract *)

(** LP tokens attached to a message to the incentives contract. *)
Definition attached (d : Z) (m : IncentivesModel.msg) : Z :=
  match m with
  | IncentivesModel.Deposit l amt _ => if l =? d then amt else 0
  | IncentivesModel.Incentivize _ funds => fold_right (fun x a => (if fst x =? d then snd x else 0) + a) 0 funds
  | _ => 0
  end.
(** LP tokens the incentives contract sends: to whom and how many. *)
Definition leaves (c : cfg) (o : IncentivesModel.out) : option (Z * Z) :=
  match o with
  | IncentivesModel.Pay a to v => if a =? lpd c then Some (to, v) else None
  | IncentivesModel.Back a to v => if a =? lpd c then Some (to, v) else None
  | IncentivesModel.Fee d v => if d =? lpd c then Some (fee_to c, v) else None
  | _ => None
  end.
(** The bank moves them in the pair's LP ledger. *)
Fixpoint deliver (c : cfg) (e : XykModel.env) (os : list IncentivesModel.out) (s : XykModel.state) : option XykModel.state :=
  match os with
  | [] => Some s
  | o :: r =>
      match leaves c o with
      | Some (to, v) =>
          guard negb (to =? gen c);
          do '(s1, _) <- XykModel.step e (XykModel.LpTransfer (gen c) to v) s;
          deliver c e r s1
      | None => deliver c e r s
      end
  end.
(** Messages to the pair that the incentives contract cannot send. *)
Definition by_gen (c : cfg) (m : XykModel.msg) : bool :=
  match m with
  | XykModel.Withdraw who _ _ => who =? gen c
  | XykModel.LpTransfer from _ _ => from =? gen c
  | _ => false
  end.
(** A plain transfer to the incentives contract is [Direct (LpTransfer _ gen _)]. *)
Definition is_gift (c : cfg) (m : IncentivesModel.msg) : bool :=
  match m with IncentivesModel.Donate a _ => a =? lpd c | _ => false end.

Inductive out :=
| OPair (o : XykModel.out)
| OAuto (share : Z) (os : list IncentivesModel.out)
| OStake (os : list IncentivesModel.out).

Definition step (c : cfg) (e : wenv) (m : msg) (w : world) : option (world * out) :=
  match m with
  | Direct m =>
      guard negb (by_gen c m);
      do '(p, o) <- XykModel.step (xe e) m (pair w);
      (* LP tokens sent or minted to the incentives contract just raise its balance *)
      let n := get (XykModel.lp p) (gen c) - get (XykModel.lp (pair w)) (gen c) in
      if n =? 0 then Some (mkW p (inc w), OPair o)
      else do '(i, _) <- IncentivesModel.step (ie e) (gen c) (IncentivesModel.Donate (lpd c) n) (inc w);
           Some (mkW p i, OPair o)
  (* contracts/pair/src/contract.rs:351-450 [provide_liquidity] and 457-500 [mint_liquidity_token_message]: mint to
     the pair, then Deposit with recipient; coins of zero amount cannot be sent *)
  | AutoStake who rcv d0 d1 tol min_lp =>
      do '(p, o) <- XykModel.step (xe e) (XykModel.Provide who (gen c) d0 d1 tol min_lp) (pair w);
      match o with
      | XykModel.OProvide share =>
          guard 0 <? share;
          do '(i, os) <- IncentivesModel.step (ie e) XykModel.SELF
                           (IncentivesModel.Deposit (lpd c) share (Some rcv)) (inc w);
          do p' <- deliver c (xe e) os p;
          Some (mkW p' i, OAuto share os)
      | _ => None
      end
  | Stake sender m =>
      guard negb (sender =? gen c) && negb (is_gift c m);
      do '(p, _) <- XykModel.step (xe e) (XykModel.LpTransfer sender (gen c) (attached (lpd c) m)) (pair w);
      do '(i, os) <- IncentivesModel.step (ie e) sender m (inc w);
      do p' <- deliver c (xe e) os p;
      Some (mkW p' i, OStake os)
  end.

(** A failed message changes nothing. *)
Definition exec (c : cfg) (w : world) (em : wenv * msg) : world :=
  match step c (fst em) (snd em) w with Some (w', _) => w' | None => w end.
Definition run (c : cfg) (w : world) (l : list (wenv * msg)) : world := fold_left (exec c) l w.
Definition init (b : bool) (own fac ast : Z) (grd : option Z) (f : option (Z * Z)) : world :=
  mkW (XykModel.init b) (IncentivesModel.init own fac ast grd f).
