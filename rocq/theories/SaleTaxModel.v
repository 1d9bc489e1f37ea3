(** The constant-product pair with sale tax: /repo/contracts/pair_xyk_sale_tax/src/contract.rs and
    /repo/packages/astroport/src/pair_xyk_sale_tax.rs.

    This contract is a copy of the constant-product pair (XykModel) with these differences, found by
    comparing the two files: no fee share; a tax on the offered coin in [swap], [compute_swap],
    [compute_offer_amount]; the minimum amounts of provide and withdraw are not read; other
    [update_config]. The functions with the same text are taken from XykModel ([provide] 339-431,
    [withdraw_liquidity] 490-554, [assert_max_spread], [calculate_shares], [accumulate_prices]); the
    simplifications stated there apply. *)
From Coq Require Import ZArith Bool List.
From Verif Require Import Num Ledger SnapshotModel.
From Verif Require XykModel.
Import ListNotations.
Open Scope Z_scope.

(** pair_xyk_sale_tax.rs:85: 50% *)
Definition MAX_TAX : Z := 500000000000000000.

(** pair_xyk_sale_tax.rs:8-13 [TaxConfig] *)
Record tax := mkTax { rate : Z; recipient : Z }.

(** [base]: everything the plain pair has; [nat0], [nat1]: whether the pool assets are coins (a tax
    exists only for coins); [tax0], [tax1]: Config::tax_configs; [admin]: Config::tax_config_admin. *)
Record state := mkState { base : XykModel.state; nat0 : bool; nat1 : bool; tax0 : option tax; tax1 : option tax; admin : Z }.
Definition with_base (s : state) (b : XykModel.state) := mkState b (nat0 s) (nat1 s) (tax0 s) (tax1 s) (admin s).
Definition tax_of (s : state) (one : bool) : option tax := if one then tax1 s else tax0 s.

(** Tax configurations as submitted: one entry for each pool asset at most (the map has one entry per denom),
    [foreign]: entries for anything else. pair_xyk_sale_tax.rs:79-98, 107-130 [check]. *)
Record configs := mkCfg { cfg0 : option tax; cfg1 : option tax; foreign : bool }.
Definition check1 (native : bool) (c : option tax) : bool :=
  match c with None => true | Some t => native && (0 <=? rate t) && (rate t <=? MAX_TAX) end.
Definition check (n0 n1 : bool) (c : configs) : bool :=
  negb (foreign c) && check1 n0 (cfg0 c) && check1 n1 (cfg1 c).

(** contract.rs:1148-1193 [compute_swap]: (return, spread, commission, offer after tax, tax) *)
Definition compute_swap (offer_pool ask_pool offer commission_rate : Z) (t : option tax)
  : option (Z * Z * Z * Z * Z) :=
  do sale_tax <- match t with Some t => umul offer (rate t) | None => Some 0 end;
  do net <- sub128 offer sale_tax;
  do '(ret, spread, comm) <- XykModel.compute_swap offer_pool ask_pool net commission_rate;
  Some (ret, spread, comm, net, sale_tax).
(** contract.rs:1206-1246 [compute_offer_amount]: (offer with tax, spread, commission) *)
Definition compute_offer_amount (offer_pool ask_pool ask commission_rate : Z) (t : option tax)
  : option (Z * Z * Z) :=
  do '(offer, spread, comm) <- XykModel.compute_offer_amount offer_pool ask_pool ask commission_rate;
  do gross <- match t with
              | Some t =>
                  do om <- sub128 DEC (rate t);
                  do inv <- ddiv DEC om;
                  u128 ((offer * inv + (DEC - 1)) / DEC)     (* mul_ceil *)
              | None => Some offer
              end;
  Some (gross, spread, comm).

Inductive msg :=
| Provide (who receiver d0 d1 : Z) (tol min_lp : option Z)
| Withdraw (who amount : Z) (mins : option (Z * Z))
| Swap (one : bool) (offer : Z) (belief max_spread : option Z)
| UpdateConfig (sender : Z) (cfg : option configs) (new_admin : option Z)
| Donate (asset : bool) (amount : Z)
| LpTransfer (from to amount : Z).

(** Output: what the plain pair pays, and the tax payment (recipient, amount). *)
Record out := mkOut { main : XykModel.out; taxed : option (Z * Z) }.

(** contract.rs:595-746 [swap] *)
Definition swap (e : XykModel.env) (s : state) (one : bool) (offer : Z) (belief max_spread : option Z) : option (state * out) :=
  let b := base s in
  let offer_pool := if one then XykModel.r1 b else XykModel.r0 b in
  let ask_pool := if one then XykModel.r0 b else XykModel.r1 b in
  (* the pool balance is read with the whole offer in it *)
  do _in <- add128 offer_pool offer;
  let t := tax_of s one in
  do '(ret, spread, comm, net, sale_tax) <- compute_swap offer_pool ask_pool offer (XykModel.total_fee (XykModel.fees e)) t;
  do gross <- add128 ret comm;
  do _ok <- XykModel.assert_max_spread belief max_spread net gross spread;
  do maker <- (if XykModel.maker_on (XykModel.fees e) then umul comm (XykModel.maker_rate (XykModel.fees e)) else Some 0);
  do n_offer <- add128 offer_pool net;
  do k1 <- sub128 ask_pool ret;
  do n_ask <- sub128 k1 maker;
  do '(c0', c1', t') <- XykModel.upd_prices e b;
  let n0 := if one then n_ask else n_offer in
  let n1 := if one then n_offer else n_ask in
  let '(s0, s1) := XykModel.track_save b (XykModel.height e) n0 n1 in
  Some (with_base s (XykModel.mkState n0 n1 (XykModel.supply b) (XykModel.lp b) c0' c1' t' (XykModel.fshare b) (XykModel.track b) s0 s1),
        mkOut (XykModel.OSwap (XykModel.mkSwapOut ret spread comm maker 0))
          (match t with Some t => if sale_tax =? 0 then None else Some (recipient t, sale_tax) | None => None end)).

(** contract.rs:751-781 [update_config] *)
Definition update_config (e : XykModel.env) (s : state) (sender : Z) (cfg : option configs) (new_admin : option Z) : option state :=
  guard (sender =? XykModel.factory_owner e) || (sender =? admin s);
  do s1 <- match cfg with
           | None => Some s
           | Some c =>
               guard sender =? admin s;
               guard check (nat0 s) (nat1 s) c;
               Some (mkState (base s) (nat0 s) (nat1 s) (cfg0 c) (cfg1 c) (admin s))
           end;
  match new_admin with
  | None => Some s1
  | Some a =>
      guard sender =? admin s;
      Some (mkState (base s1) (nat0 s1) (nat1 s1) (tax0 s1) (tax1 s1) a)
  end.

Definition lift (s : state) (r : option (XykModel.state * XykModel.out)) : option (state * out) :=
  do '(b, o) <- r; Some (with_base s b, mkOut o None).

(** contract.rs:222-300 [execute]: the minimums of provide and withdraw are dropped ("..") *)
Definition step (e : XykModel.env) (m : msg) (s : state) : option (state * out) :=
  match m with
  | Provide _ receiver d0 d1 tol _ => lift s (XykModel.provide e (base s) receiver d0 d1 tol None)
  | Withdraw who amount _ => lift s (XykModel.withdraw e (base s) who amount None)
  | Swap one offer belief ms => guard 0 <? offer; swap e s one offer belief ms
  | UpdateConfig sender cfg a => do s1 <- update_config e s sender cfg a; Some (s1, mkOut XykModel.ONone None)
  | Donate one amount => lift s (XykModel.step e (XykModel.Donate one amount) (base s))
  | LpTransfer from to amount => lift s (XykModel.step e (XykModel.LpTransfer from to amount) (base s))
  end.
Definition exec (s : state) (em : XykModel.env * msg) : state :=
  match step (fst em) (snd em) s with Some (s', _) => s' | None => s end.
Definition run (s : state) (l : list (XykModel.env * msg)) : state := fold_left exec l s.
(** contract.rs:56-111 [instantiate] *)
Definition init (track n0 n1 : bool) (c : configs) (a : Z) : option state :=
  guard check n0 n1 c;
  Some (mkState (XykModel.init track) n0 n1 (cfg0 c) (cfg1 c) a).

(** contract.rs:930-980 [query_simulation], 986-1031 [query_reverse_simulation] ([one]: asset 1 is asked) *)
Definition query_simulation (e : XykModel.env) (s : state) (one : bool) (offer : Z) : option (Z * Z * Z) :=
  do '(ret, spread, comm, _, _) <- compute_swap (if one then XykModel.r1 (base s) else XykModel.r0 (base s))
      (if one then XykModel.r0 (base s) else XykModel.r1 (base s)) offer (XykModel.total_fee (XykModel.fees e)) (tax_of s one);
  Some (ret, spread, comm).
Definition query_reverse_simulation (e : XykModel.env) (s : state) (one : bool) (ask : Z) : option (Z * Z * Z) :=
  compute_offer_amount (if one then XykModel.r0 (base s) else XykModel.r1 (base s))
    (if one then XykModel.r1 (base s) else XykModel.r0 (base s)) ask (XykModel.total_fee (XykModel.fees e)) (tax_of s (negb one)).
