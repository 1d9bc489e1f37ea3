(** Constant-product pair: /repo/contracts/pair/src/contract.rs.

    Scope: provide, withdraw, swap (native or cw20 offer), fee share switch, price accumulators,
    balance tracking, simulation queries.  Simplifications (whole file):
    - the two pool assets are index 0/1; asset validation, addresses and cw20/native plumbing are not
      modelled; reserves are what the pair holds *before* the caller's deposit/offer arrives (the code
      subtracts the deposit for native assets and has not yet pulled cw20 ones);
    - bank and cw20 transfers move exactly the stated amounts and LP mint/burn always succeed;
    - factory answers (fee rates, maker address present or not, owner) are part of the environment
      and may change between transactions. *)
From Coq Require Import ZArith Bool List.
From Verif Require Import Num Ledger SnapshotModel.
Import ListNotations.
Open Scope Z_scope.

(** packages/astroport/src/asset.rs:20 *)
Definition MINIMUM_LIQUIDITY : Z := 1000.
(** packages/astroport/src/pair.rs:11-17 *)
Definition DEFAULT_SLIPPAGE : Z := 5000000000000000.        (* 0.005 *)
Definition MAX_ALLOWED_SLIPPAGE : Z := 500000000000000000.  (* 0.5 *)
Definition MAX_FEE_SHARE_BPS : Z := 1000.
Definition TWAP_UNIT : Z := 1000000.                        (* 10^TWAP_PRECISION *)

(** contracts/pair/src/contract.rs:1178-1210 [compute_swap], with
    packages/astroport/src/asset.rs [check_swap_parameters] (rejects empty pools and zero offers).
    Returns (return, spread, commission). *)
Definition compute_swap (offer_pool ask_pool offer commission_rate : Z) : option (Z * Z * Z) :=
  guard negb (offer_pool =? 0) && negb (ask_pool =? 0) && negb (offer =? 0);
  do cp <- mul256 offer_pool ask_pool;
  do ask_dec <- dratio256 ask_pool 1;
  do new_offer <- add256 offer_pool offer;
  do rest_dec <- dratio256 cp new_offer;
  do diff <- sub256 ask_dec rest_dec;
  do gross <- umul256 1 diff;
  do price <- dratio256 ask_pool offer_pool;
  do ideal <- umul256 offer price;
  let spread := ssub ideal gross in
  do commission <- umul256 gross commission_rate;
  do ret <- sub256 gross commission;
  do ret' <- u128 ret;
  do spread' <- u128 spread;
  do commission' <- u128 commission;
  Some (ret', spread', commission').

(** contracts/pair/src/contract.rs:1221-1252 [compute_offer_amount]. Returns (offer, spread, commission). *)
Definition compute_offer_amount (offer_pool ask_pool ask commission_rate : Z) : option (Z * Z * Z) :=
  guard negb (offer_pool =? 0) && negb (ask_pool =? 0) && negb (ask =? 0);
  do cp <- mul256 offer_pool ask_pool;
  do omc <- sub256 DEC commission_rate;
  do inv <- ddiv256 DEC omc;
  do before0 <- umul256 ask inv;
  do before <- u128 before0;
  do denom <- sub128 ask_pool before;
  do q <- muldiv256 cp 1 denom;
  do off256 <- sub256 q offer_pool;
  do offer <- u128 off256;
  do price <- dratio ask_pool offer_pool;
  do ideal <- umul offer price;
  let spread := ssub ideal before in
  do comm <- umul256 before commission_rate;
  do comm' <- u128 comm;
  Some (offer, spread, comm').

(** contracts/pair/src/contract.rs:1351-1383 [assert_max_spread]. *)
Definition assert_max_spread (belief : option Z) (max_spread : option Z)
    (offer gross spread : Z) : option unit :=
  let max := match max_spread with Some s => s | None => DEFAULT_SLIPPAGE end in
  guard max <=? MAX_ALLOWED_SLIPPAGE;
  match belief with
  | Some b =>
      do inv <- dinv b;
      do inv' <- u128 inv;
      do expected <- umul offer inv';
      let sp := ssub expected gross in
      if gross <? expected then
        do r <- dratio sp expected;
        guard r <=? max; Some tt
      else Some tt
  | None =>
      do tot <- add128 gross spread;
      do r <- dratio spread tot;
      guard r <=? max; Some tt
  end.

(** contracts/pair/src/contract.rs:1392-1420 [assert_slippage_tolerance]. *)
Definition assert_slippage_tolerance (tol : option Z) (d0 d1 p0 p1 : Z) : option unit :=
  let t := match tol with Some s => s | None => DEFAULT_SLIPPAGE end in
  guard t <=? MAX_ALLOWED_SLIPPAGE;
  do omt <- sub256 DEC t;
  do rd01 <- dratio256 d0 d1;
  do l0 <- dmul256 rd01 omt;
  do rp01 <- dratio256 p0 p1;
  guard l0 <=? rp01;
  do rd10 <- dratio256 d1 d0;
  do l1 <- dmul256 rd10 omt;
  do rp10 <- dratio256 p1 p0;
  guard l1 <=? rp10;
  Some tt.

(** contracts/pair/src/contract.rs:1264-1301 [calculate_shares]; [integer_sqrt] is [Z.sqrt]. *)
Definition calculate_shares (d0 d1 p0 p1 total_share : Z) (tol : option Z) : option Z :=
  if total_share =? 0 then
    do share <- sub128 (Z.sqrt (d0 * d1)) MINIMUM_LIQUIDITY;
    guard negb (share =? 0); Some share
  else
    do _ok <- assert_slippage_tolerance tol d0 d1 p0 p1;
    do s0 <- muldiv128 d0 total_share p0;
    do s1 <- muldiv128 d1 total_share p1;
    Some (Z.min s0 s1).

(** contracts/pair/src/contract.rs:586-599 [get_share_in_assets], one asset. *)
Definition share_ratio (amount total_share : Z) : option Z :=
  if total_share =? 0 then Some 0 else dratio amount total_share.
Definition share_of (pool amount total_share : Z) : option Z :=
  do r <- share_ratio amount total_share;
  umul pool r.

(** contracts/pair/src/contract.rs:844-876 [accumulate_prices]: [None] inside = nothing to update. *)
Definition accumulate_prices (now last c0 c1 x y : Z) : option (option (Z * Z * Z)) :=
  if now <=? last then Some None
  else
    let elapsed := now - last in
    if negb (x =? 0) && negb (y =? 0) then
      do e <- mul128 elapsed TWAP_UNIT;
      do i0 <- muldiv128 e y x;
      do i1 <- muldiv128 e x y;
      Some (Some (wadd128 c0 i0, wadd128 c1 i1, now))
    else Some (Some (c0, c1, now)).

(** What the factory answers about fees ([query_fee_info]): rates are Decimals; [maker_on] says
    whether a fee address is configured. *)
Record fee_info := mkFees { total_fee : Z; maker_rate : Z; maker_on : bool }.

(** contracts/pair/src/contract.rs:651-742, the part of [swap] that computes amounts.
    [bps] is the fee-share setting. *)
Record swap_out := mkSwapOut
  { so_return : Z; so_spread : Z; so_commission : Z; so_maker : Z; so_share : Z }.

Definition swap_amounts (fi : fee_info) (bps : option Z) (offer_pool ask_pool offer : Z)
    (belief max_spread : option Z) : option swap_out :=
  do '(ret, spread, comm) <- compute_swap offer_pool ask_pool offer (total_fee fi);
  do gross <- add128 ret comm;
  do _ok <- assert_max_spread belief max_spread offer gross spread;
  do shr <- (match bps with
             | Some b => do rate <- dratio b 10000; umul comm rate
             | None => Some 0
             end);
  let rest := ssub comm shr in
  (* calculate_maker_fee, contract.rs:886-900 *)
  do maker <- (if maker_on fi then umul rest (maker_rate fi) else Some 0);
  Some (mkSwapOut ret spread comm maker shr).

(** ** Contract state: pair storage plus the balances it works on *)
Record state := mkState
  { r0 : Z; r1 : Z;              (* reserves held by the pair *)
    supply : Z; lp : ledger;     (* LP supply and holders *)
    c0 : Z; c1 : Z; last_t : Z;  (* price accumulators, block_time_last *)
    fshare : option Z;           (* fee_share.bps *)
    track : bool;                (* track_asset_balances *)
    h0 : snap; h1 : snap }.      (* BALANCES *)

(** The pair contract's own LP account (holds the locked minimum liquidity). *)
Definition SELF : Z := 0.

Record env := mkEnv { now : Z; height : Z; fees : fee_info; factory_owner : Z }.

Inductive msg :=
| Provide (who receiver d0 d1 : Z) (tol min_lp : option Z)
| Withdraw (who amount : Z) (mins : option (Z * Z))
| Swap (offer_ind : bool) (offer : Z) (belief max_spread : option Z)  (* true = asset 1 offered *)
| EnableFeeShare (sender bps : Z)
| DisableFeeShare (sender : Z)
| Donate (asset : bool) (amount : Z)        (* plain transfer of a pool asset to the pair *)
| LpTransfer (from to amount : Z).          (* bank transfer of LP tokens between users *)

Inductive out :=
| OProvide (share : Z)
| OWithdraw (a0 a1 : Z)
| OSwap (o : swap_out)
| ONone.

Definition track_save (s : state) (h v0 v1 : Z) : snap * snap :=
  if track s then (snap_save (h0 s) h v0, snap_save (h1 s) h v1) else (h0 s, h1 s).

Definition upd_prices (e : env) (s : state) : option (Z * Z * Z) :=
  do a <- accumulate_prices (now e) (last_t s) (c0 s) (c1 s) (r0 s) (r1 s);
  Some (match a with Some t => t | None => (c0 s, c1 s, last_t s) end).

(** contracts/pair/src/contract.rs:351-450 [provide_liquidity] (deposits must be non-zero:
    [get_deposits_from_assets] 1331-1334). *)
Definition provide (e : env) (s : state) (receiver d0 d1 : Z) (tol min_lp : option Z)
    : option (state * out) :=
  guard (0 <? d0) && (0 <? d1);
  do share <- calculate_shares d0 d1 (r0 s) (r1 s) (supply s) tol;
  let first := supply s =? 0 in
  guard (match min_lp with Some m => m | None => 0 end) <=? share;
  do n0 <- add128 (r0 s) d0;
  do n1 <- add128 (r1 s) d1;
  do '(c0', c1', t') <- upd_prices e s;
  let lp1 := if first then set (lp s) SELF (get (lp s) SELF + MINIMUM_LIQUIDITY) else lp s in
  let lp2 := set lp1 receiver (get lp1 receiver + share) in
  let sup := supply s + (if first then MINIMUM_LIQUIDITY else 0) + share in
  let '(s0, s1) := track_save s (height e) n0 n1 in
  Some (mkState n0 n1 sup lp2 c0' c1' t' (fshare s) (track s) s0 s1, OProvide share).

(** contracts/pair/src/contract.rs:503-577 [withdraw_liquidity] and 1438-1479
    [ensure_min_assets_to_receive] (given in pool order, each asset once). The sender attaches the
    LP tokens, so it must hold them. *)
Definition withdraw (e : env) (s : state) (who amount : Z) (mins : option (Z * Z))
    : option (state * out) :=
  guard (negb (who =? SELF)) && (0 <? amount) && (amount <=? get (lp s) who);
  do a0 <- share_of (r0 s) amount (supply s);
  do a1 <- share_of (r1 s) amount (supply s);
  guard (match mins with Some (m0, m1) => (m0 <=? a0) && (m1 <=? a1) | None => true end);
  do n0 <- sub128 (r0 s) a0;
  do n1 <- sub128 (r1 s) a1;
  do '(c0', c1', t') <- upd_prices e s;
  let lp' := set (lp s) who (get (lp s) who - amount) in
  let '(s0, s1) := track_save s (height e) n0 n1 in
  Some (mkState n0 n1 (supply s - amount) lp' c0' c1' t' (fshare s) (track s) s0 s1,
        OWithdraw a0 a1).

(** contracts/pair/src/contract.rs:616-774 [swap]. *)
Definition swap (e : env) (s : state) (one : bool) (offer : Z) (belief max_spread : option Z)
    : option (state * out) :=
  let offer_pool := if one then r1 s else r0 s in
  let ask_pool := if one then r0 s else r1 s in
  do o <- swap_amounts (fees e) (fshare s) offer_pool ask_pool offer belief max_spread;
  do n_offer <- add128 offer_pool offer;
  do k1 <- sub128 ask_pool (so_return o);
  do k2 <- sub128 k1 (so_maker o);
  do n_ask <- sub128 k2 (so_share o);
  do '(c0', c1', t') <- upd_prices e s;
  let n0 := if one then n_ask else n_offer in
  let n1 := if one then n_offer else n_ask in
  let '(s0, s1) := track_save s (height e) n0 n1 in
  Some (mkState n0 n1 (supply s) (lp s) c0' c1' t' (fshare s) (track s) s0 s1, OSwap o).

(** contracts/pair/src/contract.rs:779-835 [update_config]. *)
Definition set_fshare (s : state) (f : option Z) : state :=
  mkState (r0 s) (r1 s) (supply s) (lp s) (c0 s) (c1 s) (last_t s) f (track s) (h0 s) (h1 s).

Definition step (e : env) (m : msg) (s : state) : option (state * out) :=
  match m with
  | Provide _ receiver d0 d1 tol min_lp =>
      provide e s receiver d0 d1 tol min_lp
  | Withdraw who amount mins => withdraw e s who amount mins
  | Swap one offer belief max_spread => guard 0 <? offer; swap e s one offer belief max_spread
  | EnableFeeShare sender bps =>
      guard (sender =? factory_owner e) && (0 <? bps) && (bps <=? MAX_FEE_SHARE_BPS);
      Some (set_fshare s (Some bps), ONone)
  | DisableFeeShare sender =>
      guard sender =? factory_owner e; Some (set_fshare s None, ONone)
  | Donate one amount =>
      guard 0 <=? amount;
      do n <- add128 (if one then r1 s else r0 s) amount;
      Some (mkState (if one then r0 s else n) (if one then n else r1 s) (supply s) (lp s)
              (c0 s) (c1 s) (last_t s) (fshare s) (track s) (h0 s) (h1 s), ONone)
  | LpTransfer from to amount =>
      guard negb (from =? SELF) && (0 <=? amount) && (amount <=? get (lp s) from);
      Some (mkState (r0 s) (r1 s) (supply s) (move (lp s) from to amount)
              (c0 s) (c1 s) (last_t s) (fshare s) (track s) (h0 s) (h1 s), ONone)
  end.

(** A history: failed messages leave the state unchanged. *)
Definition exec (s : state) (em : env * msg) : state :=
  match step (fst em) (snd em) s with Some (s', _) => s' | None => s end.
Definition run (s : state) (l : list (env * msg)) : state := fold_left exec l s.

(** contracts/pair/src/contract.rs:51-112 [instantiate]. *)
Definition init (track_balances : bool) : state :=
  mkState 0 0 0 [] 0 0 0 None track_balances snap0 snap0.

(** contracts/pair/src/contract.rs:983-1022 [query_simulation]. *)
Definition query_simulation (e : env) (s : state) (one : bool) (offer : Z) : option (Z * Z * Z) :=
  compute_swap (if one then r1 s else r0 s) (if one then r0 s else r1 s) offer (total_fee (fees e)).
(** contracts/pair/src/contract.rs:1028-1070 [query_reverse_simulation] ([one]: asset 1 is asked). *)
Definition query_reverse_simulation (e : env) (s : state) (one : bool) (ask : Z) : option (Z * Z * Z) :=
  compute_offer_amount (if one then r0 s else r1 s) (if one then r1 s else r0 s) ask (total_fee (fees e)).
(** contracts/pair/src/contract.rs:1073-1109 [query_cumulative_prices]. *)
Definition query_cumulative (e : env) (s : state) : option (Z * Z) :=
  do '(a, b, _) <- upd_prices e s; Some (a, b).
(** contracts/pair/src/contract.rs:1163-1169 [query_asset_balances_at]. *)
Definition query_balance_at (s : state) (one : bool) (h : Z) : option Z :=
  snap_at (if one then h1 s else h0 s) h.
