(** The ASTRO converter and the converter pair:
    /repo/contracts/periphery/astro_converter/src/contract.rs,
    /repo/contracts/periphery/astro_converter_neutron/src/contract.rs,
    /repo/contracts/pair_astro_converter/src/contract.rs and queries.rs.

    State = the converter's holdings of old ASTRO, new ASTRO and the fee coin (untrn). Old ASTRO is a
    cw20 token (Terra) or an IBC coin (elsewhere). A cw20 "send" moves the tokens and calls the
    receiving contract ([Send]); anybody can call the same endpoint directly without moving
    anything ([Hook]). The bank refuses to send zero coins or more than is there. Simplifications:
    addresses are always valid; messages to the burn address on the other chain, its timeout refunds
    ([GiveOld]) and the cw20 contract's own accounting are only seen as changes of the holdings. *)
From Coq Require Import ZArith Bool List.
From Verif Require Import Num.
Import ListNotations.
Open Scope Z_scope.

(** Assets: a coin denom or a cw20 contract. *)
Inductive asset := Coin (d : Z) | Token (a : Z).
Definition aeq (x y : asset) : bool :=
  match x, y with Coin a, Coin b => a =? b | Token a, Token b => a =? b | _, _ => false end.

(** astro_converter.rs Config; [c_ibc] says which denoms are IBC denoms; [c_neutron]: the Neutron version. *)
Record config := mkConf { c_old : asset; c_new : Z; c_params : bool; c_neutron : bool }.
(** contract.rs:34-84 [init] *)
Definition init_ok (is_ibc : Z -> bool) (c : config) : bool :=
  negb (aeq (c_old c) (Coin (c_new c))) &&
  match c_old c with
  | Coin d => is_ibc d && c_params c
  | Token _ => negb (c_params c)
  end.

Record state := mkState { oldb : Z; newb : Z; feeb : Z }.

(** astro_converter.rs TIMEOUT_LIMITS, DEFAULT_TIMEOUT *)
Definition MIN_TIMEOUT : Z := 120.
Definition MAX_TIMEOUT : Z := 600.
Definition DEFAULT_TIMEOUT : Z := 300.
(** The fee coin's denom (astro_converter_neutron contract.rs:25). *)
Definition FEE : Z := -1.

Inductive msg :=
| Send (from amount : Z) (receiver : option Z)       (* old cw20 ASTRO sent with a hook message *)
| Hook (from amount : Z) (receiver : option Z)       (* direct call of Receive; from: cw20_msg.sender *)
| Convert (receiver : option Z)
| TransferForBurning (timeout : option Z) (fee : Z)  (* fee: what the chain asks for the IBC packet *)
| Burn
| GiveOld (amount : Z)                               (* plain transfers to the converter *)
| GiveNew (amount : Z).
Record event := mkEv { sender : Z; funds : list (Z * Z); what : msg }.

(** Effects: new ASTRO paid (receiver, amount), old ASTRO taken in by conversions, old ASTRO sent away or burned. *)
Record out := mkOut { paid : list (Z * Z); taken : Z; gone : Z }.

(** cw_utils [must_pay], [nonpayable], [may_pay] *)
Definition must_pay (f : list (Z * Z)) (d : Z) : option Z :=
  match f with [(x, a)] => guard negb (a =? 0); guard x =? d; Some a | _ => None end.
Definition nonpayable (f : list (Z * Z)) : bool := match f with [] => true | _ => false end.
Definition may_pay (f : list (Z * Z)) (d : Z) : option Z :=
  match f with [] => Some 0 | _ => must_pay f d end.

Definition or_else (o : option Z) (d : Z) : Z := match o with Some x => x | None => d end.
(** The bank message at the end of [cw20_receive] and [convert]. *)
Definition pay_new (s : state) (to amount : Z) (took : Z) : option (state * out) :=
  guard (0 <? amount) && (amount <=? newb s);
  Some (mkState (oldb s) (newb s - amount) (feeb s), mkOut [(to, amount)] took 0).

(** contract.rs:106-136 [cw20_receive]; [caller] is the calling contract *)
Definition cw20_receive (c : config) (caller from amount : Z) (receiver : option Z) (took : Z) (s : state) : option (state * out) :=
  match c_old c with
  | Token a => guard caller =? a; pay_new s (or_else receiver from) amount took
  | Coin _ => None
  end.

Definition step (c : config) (e : event) (s : state) : option (state * out) :=
  match what e with
  | Send from amount receiver =>
      (* the cw20 contract moves the tokens, then calls the converter *)
      match c_old c with
      | Token a =>
          guard 0 <? amount;
          cw20_receive c a from amount receiver amount (mkState (oldb s + amount) (newb s) (feeb s))
      | Coin _ => None
      end
  | Hook from amount receiver =>
      (* the calling address is not the cw20 contract: that one calls only as in [Send] *)
      guard match c_old c with Token a => negb (sender e =? a) | Coin _ => true end;
      cw20_receive c (sender e) from amount receiver 0 s
  | Convert receiver =>
      (* contract.rs:138-164 [convert] *)
      match c_old c with
      | Coin d =>
          do amount <- must_pay (funds e) d;
          pay_new (mkState (oldb s + amount) (newb s) (feeb s)) (or_else receiver (sender e)) amount amount
      | Token _ => None
      end
  | TransferForBurning timeout fee =>
      (* contract.rs:166-208 and astro_converter_neutron contract.rs:62-141 [ibc_transfer_for_burning] *)
      do attached <- (if c_neutron c then may_pay (funds e) FEE else guard nonpayable (funds e); Some 0);
      match c_old c with
      | Coin _ =>
          let t := or_else timeout DEFAULT_TIMEOUT in
          guard (MIN_TIMEOUT <=? t) && (t <=? MAX_TIMEOUT);
          let f := if c_neutron c then fee else 0 in
          guard (0 <=? f) && (f <=? feeb s + attached);
          guard negb (oldb s =? 0);
          guard c_params c;
          Some (mkState 0 (newb s) (feeb s + attached - f), mkOut [] 0 (oldb s))
      | Token _ => None
      end
  | Burn =>
      (* contract.rs:210-243 [burn]; astro_converter_neutron contract.rs:53 *)
      guard negb (c_neutron c);
      guard nonpayable (funds e);
      match c_old c with
      | Token _ =>
          guard negb (oldb s =? 0);
          Some (mkState 0 (newb s) (feeb s), mkOut [] 0 (oldb s))
      | Coin _ => None
      end
  | GiveOld a => guard 0 <? a; Some (mkState (oldb s + a) (newb s) (feeb s), mkOut [] 0 0)
  | GiveNew a => guard 0 <? a; Some (mkState (oldb s) (newb s + a) (feeb s), mkOut [] 0 0)
  end.

(** ** The pair in front of the converter *)

(** pair_astro_converter state.rs Config: [from] and [to] are copied from the converter at migration
    (migration.rs:24-42); the two assets of the pair contain both (migration.rs:44-70). *)
Record pair := mkPair { p_from : asset; p_to : asset; p_assets : list asset }.
Definition pair_of (c : config) (l : list asset) : option pair :=
  let to := Coin (c_new c) in
  guard Nat.eqb (length l) 2;
  guard existsb (aeq (c_old c)) l && existsb (aeq to) l;
  Some (mkPair (c_old c) to l).

Inductive pmsg :=
| PSwap (offer : asset) (amount : Z) (to : option Z)      (* ExecuteMsg::Swap *)
| PSend (from amount : Z) (to : option Z)                 (* old cw20 ASTRO sent to the pair with a swap message *)
| PHook (from amount : Z) (to : option Z)                 (* Receive called by any other contract *)
| POther.                                                 (* any other message *)

(** asset.rs assert_sent_native_token_balance: the coins of this denom attached are exactly the amount. *)
Fixpoint sent (f : list (Z * Z)) (d : Z) : Z :=
  match f with [] => 0 | (x, a) :: r => if x =? d then a else sent r d end.

(** contract.rs:95-146 [swap]: [who] is the trader; the converter call is made by the pair, [self]. *)
Definition pair_swap (c : config) (p : pair) (self who : Z) (offer : asset) (amount : Z) (to : option Z) (s : state)
  : option (state * out) :=
  guard aeq offer (p_from p);
  let receiver := or_else to who in
  match p_from p with
  | Token _ => step c (mkEv self [] (Send self amount (Some receiver))) s
  | Coin d => step c (mkEv self [(d, amount)] (Convert (Some receiver))) s
  end.
(** contract.rs:49-88 [execute], [receive_cw20] *)
Definition pair_step (c : config) (p : pair) (self : Z) (who : Z) (f : list (Z * Z)) (m : pmsg) (s : state)
  : option (state * out) :=
  match m with
  | PSwap offer amount to =>
      match offer with
      | Token _ => None
      | Coin d => guard sent f d =? amount; pair_swap c p self who offer amount to s
      end
  | PSend from amount to =>
      match p_from p with
      | Token a => guard 0 <? amount; pair_swap c p self from (Token a) amount to s
      | Coin _ => None
      end
  | PHook from amount to =>
      (* [who], the calling contract, is taken as the offered token *)
      guard match c_old c with Token a => negb (who =? a) | Coin _ => true end;
      pair_swap c p self from (Token who) amount to s
  | POther => None
  end.
(** queries.rs:21-34, 35-56: simulations *)
Definition pair_simulate (p : pair) (offer : asset) (amount : Z) : option Z :=
  guard aeq offer (p_from p); Some amount.
Definition pair_reverse (p : pair) (ask : asset) (amount : Z) : option Z :=
  guard existsb (aeq ask) (p_assets p) && negb (aeq ask (p_from p)); Some amount.
