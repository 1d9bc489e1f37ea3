(** The fee granter: /repo/contracts/periphery/fee_granter/src/contract.rs and state.rs.

    Besides the contract's own records the state holds what the chain knows: the remaining fee
    allowance of every grantee of this contract and the contract's balance of the gas coin. The
    chain's fee-grant module is not part of /repo; it is modelled as in the Cosmos SDK: granting fails
    for oneself, for a zero limit or while an allowance exists; revoking fails when there is none;
    an allowance spent to zero is deleted. Simplifications: addresses are always valid; attributes,
    migration and the list query are left out; balances are not bounded. *)
From Coq Require Import ZArith Bool List.
From Verif Require Import Num Amap.
From Verif Require OwnershipModel.
Import ListNotations.
Open Scope Z_scope.

(** state.rs:15 *)
Definition MAX_ADMINS : Z := 2.
(** The contract's own address. *)
Definition SELF : Z := 0.
(** Denom of the gas coin, [Config::gas_denom]. *)
Definition GAS : Z := 0.

Record state := mkState {
  own : OwnershipModel.state;
  admins : list Z;             (* Config::admins *)
  grants : amap Z;             (* GRANTS, state.rs:10 *)
  allow : amap Z;              (* chain: remaining allowance by grantee *)
  bal : Z                      (* chain: gas coins of the contract *)
}.
Definition owner s := OwnershipModel.owner (own s).

Inductive msg :=
| Grant (grantee amount : Z) (bypass : bool)
| Revoke (grantee : Z)
| TransferCoins (amount : Z) (receiver : option Z)
| UpdateAdmins (add remove : list Z)
| Own (m : OwnershipModel.msg)
(* what the chain does without calling the contract *)
| Spend (grantee fee : Z)            (* a grantee pays a transaction fee from its allowance *)
| Deposit (amount : Z).              (* gas coins sent to the contract *)

Record event := mkEv { time : Z; sender : Z; funds : list (Z * Z); what : msg }.

Fixpoint mem (x : Z) (l : list Z) : bool := match l with [] => false | y :: r => (x =? y) || mem x r end.

(** cw_utils [must_pay]: exactly one coin, of the given denom, not zero. *)
Definition must_pay (f : list (Z * Z)) (d : Z) : option Z :=
  match f with [(x, a)] => guard negb (a =? 0); guard x =? d; Some a | _ => None end.
(** Coins attached to a message arrive at the contract before it runs. *)
Definition attached (f : list (Z * Z)) : Z :=
  fold_right (fun c t => (if fst c =? GAS then snd c else 0) + t) 0 f.

(** contract.rs:128, 191, 221: owner or admin *)
Definition allowed (who : Z) (s : state) : bool := (who =? owner s) || mem who (admins s).

(** state.rs:17-47 [update_admins_with_validation] *)
Fixpoint insert_all (l cur : list Z) : option (list Z) :=
  match l with
  | [] => Some cur
  | a :: r => guard negb (mem a cur); insert_all r (a :: cur)
  end.
Definition update_admins (cur add remove : list Z) : option (list Z) :=
  do l <- insert_all add cur;
  let l' := filter (fun a => negb (mem a remove)) l in
  guard Z.of_nat (length l') <=? MAX_ADMINS;
  Some l'.

(** A coin payment made by the message: receiver and amount. *)
Definition payments : Type := list (Z * Z).

Definition step (e : event) (s0 : state) : option (state * payments) :=
  let s := mkState (own s0) (admins s0) (grants s0) (allow s0) (bal s0 + attached (funds e)) in
  match what e with
  | Grant g a bypass =>
      (* contract.rs:120-181 [grant] *)
      guard allowed (sender e) s;
      guard bypass || match must_pay (funds e) GAS with Some x => x =? a | None => false end;
      guard match find g (grants s) with None => true | Some _ => false end;
      (* chain *)
      guard negb (g =? SELF) && (0 <? a) && match find g (allow s) with None => true | Some _ => false end;
      Some (mkState (own s) (admins s) (put g a (grants s)) (put g a (allow s)) (bal s), [])
  | Revoke g =>
      (* contract.rs:183-209 [revoke] *)
      guard allowed (sender e) s;
      (* chain *)
      do r <- find g (allow s);
      Some (mkState (own s) (admins s) (del g (grants s)) (del g (allow s)) (bal s), [])
  | TransferCoins a to =>
      (* contract.rs:211-232 [transfer_coins] *)
      guard negb (a =? 0);
      guard allowed (sender e) s;
      guard (0 <? a) && (a <=? bal s);
      Some (mkState (own s) (admins s) (grants s) (allow s) (bal s - a),
            [(match to with Some t => t | None => sender e end, a)])
  | UpdateAdmins add rem =>
      (* contract.rs:234-258 [update_admins] *)
      guard sender e =? owner s;
      do l <- update_admins (admins s) add rem;
      Some (mkState (own s) l (grants s) (allow s) (bal s), [])
  | Own m =>
      do o <- OwnershipModel.step (OwnershipModel.mkEv (time e) (sender e) m) (own s);
      Some (mkState o (admins s) (grants s) (allow s) (bal s), [])
  | Spend g fee =>
      (* chain: the fee is taken from the contract and from the allowance *)
      do r <- find g (allow s0);
      guard (0 <? fee) && (fee <=? r) && (fee <=? bal s0);
      Some (mkState (own s0) (admins s0) (grants s0)
              (if r =? fee then del g (allow s0) else put g (r - fee) (allow s0)) (bal s0 - fee), [])
  | Deposit a =>
      guard 0 <? a;
      Some (mkState (own s0) (admins s0) (grants s0) (allow s0) (bal s0 + a), [])
  end.
Definition exec (s : state) (e : event) : state := match step e s with Some (s', _) => s' | None => s end.
Definition run (s : state) (l : list event) : state := fold_left exec l s.
(** contract.rs:28-53 [instantiate] *)
Definition init (o : Z) (adm : list Z) : option state :=
  do l <- update_admins [] adm [];
  Some (mkState (OwnershipModel.init o) l [] [] 0).

(** query.rs:47-56 [grant_for] *)
Definition grant_for (g : Z) (s : state) : Z := match find g (grants s) with Some a => a | None => 0 end.
