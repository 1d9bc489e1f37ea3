(** xASTRO cw20 token: /repo/contracts/tokenomics/xastro_token/src/contract.rs and state.rs.

    Modelled: instantiate (accounts, minter, cap), transfer/send, burn, mint, transfer-from/send-from,
    burn-from, increase/decrease allowance, balance, balance-at and total-supply-at queries.
    Not modelled: names, symbols, marketing, logos, the receiving contract's hook (it is a message of
    its own), pagination.  The allowance functions come from the cw20-base dependency (not in /repo)
    and follow its documented behaviour.  Accounts are integers; one state cell per account for the
    snapshot map (primary value plus changelog). *)
From Coq Require Import ZArith Lia Bool List.
From Verif Require Import Num Amap SnapshotModel SnapshotTrack.
Import ListNotations.
Open Scope Z_scope.

Inductive expiration := Never | AtHeight (h : Z) | AtTime (t : Z).

Record env := mkEnv { height : Z; time : Z }.

(** cw_utils [Expiration::is_expired]. *)
Definition expired (e : env) (x : expiration) : bool :=
  match x with Never => false | AtHeight h => h <=? height e | AtTime t => t <=? time e end.

Record state := mkState
  { live : bool;                               (* instantiated *)
    bals : amap snap;                          (* BALANCES, state.rs:7-12 *)
    supply : Z;                                (* TOKEN_INFO.total_supply *)
    minter : option (Z * option Z);            (* TOKEN_INFO.mint: minter and cap *)
    shist : amap Z;                            (* TOTAL_SUPPLY_HISTORY, state.rs:15 *)
    allow : list (Z * Z * (Z * expiration)) }. (* ALLOWANCES, (owner, spender) -> amount, expiry *)

Definition empty : state := mkState false [] 0 None [] [].

Definition cell (m : amap snap) (a : Z) : snap := match find a m with Some sn => sn | None => snap0 end.
Definition balance (s : state) (a : Z) : Z := dflt (cur (cell (bals s) a)).

(** [BALANCES.save]/[update] at a height. *)
Definition bsave (m : amap snap) (a h v : Z) : amap snap := put a (snap_save (cell m a) h v) m.
Definition bsub (m : amap snap) (a h amount : Z) : option (amap snap) :=
  do v <- sub128 (dflt (cur (cell m a))) amount; Some (bsave m a h v).
Definition badd (m : amap snap) (a h amount : Z) : option (amap snap) :=
  do v <- add128 (dflt (cur (cell m a))) amount; Some (bsave m a h v).

(** Allowances keyed by (owner, spender). *)
Fixpoint afind (o p : Z) (l : list (Z * Z * (Z * expiration))) : option (Z * expiration) :=
  match l with
  | [] => None
  | (o', p', v) :: r => if (o' =? o) && (p' =? p) then Some v else afind o p r
  end.
Fixpoint adel (o p : Z) (l : list (Z * Z * (Z * expiration))) : list (Z * Z * (Z * expiration)) :=
  match l with
  | [] => []
  | (o', p', v) :: r => if (o' =? o) && (p' =? p) then adel o p r else (o', p', v) :: adel o p r
  end.
Definition aput (o p : Z) (v : Z * expiration) l := (o, p, v) :: adel o p l.

Inductive msg :=
| Instantiate (accounts : list (Z * Z)) (mint : option (Z * option Z))
| Transfer (sender recipient amount : Z)                       (* also Send *)
| Burn (sender amount : Z)
| Mint (sender recipient amount : Z)
| IncreaseAllowance (sender spender amount : Z) (expires : option expiration)
| DecreaseAllowance (sender spender amount : Z) (expires : option expiration)
| TransferFrom (sender owner recipient amount : Z)             (* also SendFrom *)
| BurnFrom (sender owner amount : Z).

(** contract.rs:175-185 [create_accounts]: saves, does not add. *)
Fixpoint create_accounts (h : Z) (accounts : list (Z * Z)) (m : amap snap) (tot : Z)
    : option (amap snap * Z) :=
  match accounts with
  | [] => Some (m, tot)
  | (a, v) :: r =>
      guard (0 <=? v) && (v <=? U128MAX);
      do tot' <- add128 tot v;
      create_accounts h r (bsave m a h v) tot'
  end.

(** state.rs:44-54 [check_minter]. *)
Definition is_minter (s : state) (sender : Z) : bool :=
  match minter s with Some (m, _) => m =? sender | None => false end.

(** cw20-base [deduct_allowance]. *)
Definition deduct (s : state) (e : env) (owner spender amount : Z) : option (list (Z * Z * (Z * expiration))) :=
  do '(v, x) <- afind owner spender (allow s);
  guard negb (expired e x);
  do v' <- sub128 v amount;
  Some (aput owner spender (v', x) (allow s)).

Definition step (e : env) (m : msg) (s : state) : option state :=
  match m with
  | Instantiate accounts mint =>     (* contract.rs:101-168 *)
      guard negb (live s);
      do '(bs, tot) <- create_accounts (height e) accounts (bals s) 0;
      guard (match mint with Some (_, Some cap) => tot <=? cap | _ => true end);
      Some (mkState true bs tot mint (if tot =? 0 then shist s else put (height e) tot (shist s)) (allow s))
  | Transfer sender recipient amount =>   (* contract.rs:262-293 and 389-431 *)
      guard live s && (0 <? amount);
      do m1 <- bsub (bals s) sender (height e) amount;
      do m2 <- badd m1 recipient (height e) amount;
      Some (mkState true m2 (supply s) (minter s) (shist s) (allow s))
  | Burn sender amount =>            (* contract.rs:299-334 *)
      guard live s && (0 <? amount) && is_minter s sender;
      do m1 <- bsub (bals s) sender (height e) amount;
      do sup <- sub128 (supply s) amount;
      Some (mkState true m1 sup (minter s) (put (height e) sup (shist s)) (allow s))
  | Mint sender recipient amount =>  (* contract.rs:337-378 *)
      guard live s && (0 <? amount) && is_minter s sender;
      do sup <- add128 (supply s) amount;
      guard (match minter s with Some (_, Some cap) => sup <=? cap | _ => true end);
      do m1 <- badd (bals s) recipient (height e) amount;
      Some (mkState true m1 sup (minter s) (put (height e) sup (shist s)) (allow s))
  | IncreaseAllowance sender spender amount expires =>   (* cw20-base execute_increase_allowance *)
      guard live s && negb (spender =? sender) && (0 <=? amount);
      guard (match expires with Some x => negb (expired e x) | None => true end);
      let '(v, x) := match afind sender spender (allow s) with Some vx => vx | None => (0, Never) end in
      do v' <- add128 v amount;
      let x' := match expires with Some y => y | None => x end in
      Some (mkState true (bals s) (supply s) (minter s) (shist s) (aput sender spender (v', x') (allow s)))
  | DecreaseAllowance sender spender amount expires =>   (* cw20-base execute_decrease_allowance *)
      guard live s && negb (spender =? sender) && (0 <=? amount);
      do '(v, x) <- afind sender spender (allow s);
      if amount <? v then
        guard (match expires with Some y => negb (expired e y) | None => true end);
        let x' := match expires with Some y => y | None => x end in
        Some (mkState true (bals s) (supply s) (minter s) (shist s) (aput sender spender (v - amount, x') (allow s)))
      else
        Some (mkState true (bals s) (supply s) (minter s) (shist s) (adel sender spender (allow s)))
  | TransferFrom sender owner recipient amount =>   (* contract.rs:442-477 and 533-580 *)
      guard live s && (0 <=? amount);
      do al <- deduct s e owner sender amount;
      do m1 <- bsub (bals s) owner (height e) amount;
      do m2 <- badd m1 recipient (height e) amount;
      Some (mkState true m2 (supply s) (minter s) (shist s) al)
  | BurnFrom sender owner amount =>  (* contract.rs:484-523 *)
      guard live s && is_minter s sender && (0 <=? amount);
      do al <- deduct s e owner sender amount;
      do m1 <- bsub (bals s) owner (height e) amount;
      do sup <- sub128 (supply s) amount;
      Some (mkState true m1 sup (minter s) (put (height e) sup (shist s)) al)
  end.

Definition exec (s : state) (em : env * msg) : state :=
  match step (fst em) (snd em) s with Some s' => s' | None => s end.
Definition run (l : list (env * msg)) : state := fold_left exec l empty.

(** contract.rs:650-656 [query_balance_at]. *)
Definition balance_at (s : state) (a b : Z) : Z := dflt (snap_at (cell (bals s) a) b).

(** state.rs:29-42 [get_total_supply_at]: greatest recorded height not after [b]. *)
Fixpoint floor_entry (b : Z) (m : amap Z) : option (Z * Z) :=
  match m with
  | [] => None
  | (k, v) :: r =>
      match floor_entry b r with
      | Some (k', v') => if (k <=? b) && (k' <=? k) then Some (k, v) else Some (k', v')
      | None => if k <=? b then Some (k, v) else None
      end
  end.
Definition supply_at (s : state) (b : Z) : Z :=
  match floor_entry b (shist s) with Some (_, v) => v | None => 0 end.
