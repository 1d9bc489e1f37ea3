(** Stable pair: /repo/contracts/pair_stable/src/{contract,utils,state}.rs.

    Scope: provide, withdraw, swap, price accumulators, amplification ramp, fee share switch, ownership,
    simulation queries.  Simplifications (whole file):
    - the two pool assets are index 0/1; [nat0], [nat1] tell which are native (bank) assets; reserves are what
      the pair holds *before* the caller's deposit or offer arrives; asset validation, addresses and auto
      staking are not modelled; transfers move exactly the stated amounts, LP mint and burn succeed;
    - the observation buffer is in ObservationModel.v;
    - factory answers (fees, owner) are part of the environment and may change between transactions. *)
From Coq Require Import ZArith Bool List.
From Verif Require Import Num Ledger StableMath.
From Verif Require XykModel OwnershipModel.
Import ListNotations.
Open Scope Z_scope.

Notation fee_info := XykModel.fee_info.
Notation total_fee := XykModel.total_fee.
Notation maker_rate := XykModel.maker_rate.
Notation maker_on := XykModel.maker_on.
Definition MINIMUM_LIQUIDITY : Z := 1000.      (* packages/astroport/src/asset.rs:20 *)
Definition MAX_FEE_SHARE_BPS : Z := 1000.      (* packages/astroport/src/pair.rs *)
Definition TWAP_PRECISION : Z := 6.
Definition SELF : Z := 0.                      (* the pair's own LP account *)

(** state.rs:28-36: the amplification ramp of [Config]. *)
Record ramp := mkRamp { init_amp : Z; init_t : Z; next_amp : Z; next_t : Z }.

(** utils.rs:115-142 [compute_current_amp]. *)
Definition current_amp (r : ramp) (now : Z) : option Z :=
  if now <? next_t r then
    let elapsed := ssub now (init_t r) in
    let range := ssub (next_t r) (init_t r) in
    if init_amp r <? next_amp r then
      do p <- mul128 (next_amp r - init_amp r) elapsed;
      guard negb (range =? 0);
      do a <- add128 (init_amp r) (p / range);
      u64 a
    else
      do p <- mul128 (init_amp r - next_amp r) elapsed;
      guard negb (range =? 0);
      do a <- sub128 (init_amp r) (p / range);
      u64 a
  else Some (next_amp r).

(** contract.rs:1139-1176 [start_changing_amp]. *)
Definition start_amp (r : ramp) (now next time : Z) : option ramp :=
  guard negb ((next =? 0) || (MAX_AMP <? next));
  do cur <- current_amp r now;
  do n <- u64 (next * AMP_PRECISION);
  do n10 <- u64 (n * MAX_AMP_CHANGE);
  do c10 <- u64 (cur * MAX_AMP_CHANGE);
  guard negb ((n10 <? cur) || (c10 <? n));
  do t1 <- add64 (init_t r) MIN_AMP_CHANGING_TIME;
  do t2 <- add64 now MIN_AMP_CHANGING_TIME;
  guard negb ((now <? t1) || (time <? t2));
  Some (mkRamp cur now n time).
(** contract.rs:1179-1192 [stop_changing_amp]. *)
Definition stop_amp (r : ramp) (now : Z) : option ramp :=
  do cur <- current_amp r now;
  Some (mkRamp cur now cur now).

(** utils.rs:148-162 [adjust_precision]. *)
Definition adjust_precision (v p p' : Z) : option Z :=
  if p =? p' then Some v
  else if p <? p' then mul128 v (10 ^ (p' - p))
  else Some (v / 10 ^ (p - p')).

Record state := mkState
  { r0 : Z; r1 : Z;                    (* reserves *)
    p0 : Z; p1 : Z;                    (* PRECISIONS *)
    nat0 : bool; nat1 : bool;
    supply : Z; lp : ledger;
    c01 : Z; c10 : Z; last_t : Z;      (* cumulative prices, block_time_last *)
    amp : ramp;
    fshare : option Z;
    owner : option Z; proposal : option OwnershipModel.proposal }.
Record env := mkEnv { now : Z; fees : fee_info; factory_owner : Z }.

(** state.rs:53-67 [store_precisions]: the greatest precision. *)
Definition greatest (s : state) : Z := Z.max (p0 s) (p1 s).

(** utils.rs:253-284 [compute_swap]: [offer], [offer_pool], [ask_pool] are decimals, [x], [y] the pools in order.
    Returns (return, spread). *)
Definition compute_swap (amp_ offer offer_pool ask_pool x y ask_prec : Z) : option (Z * Z) :=
  do na <- add256 offer_pool offer;
  do new_ask <- calc_y amp_ na x y ask_prec;
  do ask <- to_prec ask_pool ask_prec;
  do ret <- sub128 ask new_ask;
  do off <- to_prec offer ask_prec;
  Some (ret, ssub off ret).

(** utils.rs:289-332 [accumulate_prices]; [x], [y] are the pools passed by the caller, as decimals. *)
Definition accumulate_prices (e : env) (s : state) (x y : Z) : option (Z * Z * Z) :=
  if now e <=? last_t s then Some (c01 s, c10 s, last_t s)
  else
    let el := now e - last_t s in
    if negb (x =? 0) && negb (y =? 0) then
      do a <- current_amp (amp s) (now e);
      do '(ret01, _) <- compute_swap a DEC x y x y (p1 s);
      do v01 <- adjust_precision ret01 (p1 s) TWAP_PRECISION;
      do i01 <- mul128 el v01;
      do '(ret10, _) <- compute_swap a DEC y x x y (p0 s);
      do v10 <- adjust_precision ret10 (p0 s) TWAP_PRECISION;
      do i10 <- mul128 el v10;
      Some (wadd128 (c01 s) i01, wadd128 (c10 s) i10, now e)
    else Some (c01 s, c10 s, now e).

(** utils.rs:415-474 [calculate_shares]: deposits [d0], [d1] into pools [x], [y]. *)
Definition calculate_shares (a d0 d1 x y p0 p1 g total : Z) : option Z :=
  do dd0 <- with_prec d0 p0;
  do dd1 <- with_prec d1 p1;
  do dx <- with_prec x p0;
  do dy <- with_prec y p1;
  do nx <- add256 dx dd0;
  do ny <- add256 dy dd1;
  do deposit_d <- compute_d a nx ny;
  if total =? 0 then
    do v <- to_prec deposit_d g;
    do share <- sub128 v MINIMUM_LIQUIDITY;
    guard negb (share =? 0); Some share
  else
    do init_d <- compute_d a dx dy;
    do t <- with_prec total g;
    do m <- muldiv256 t (ssub deposit_d init_d) init_d;
    do share <- to_prec m g;
    guard negb (share =? 0); Some share.

Definition set_core (s : state) (n0 n1 sup : Z) (l : ledger) (c : Z * Z * Z) : state :=
  let '(a, b, t) := c in
  mkState n0 n1 (p0 s) (p1 s) (nat0 s) (nat1 s) sup l a b t (amp s) (fshare s) (owner s) (proposal s).

Inductive out :=
| OProvide (share : Z)
| OWithdraw (a0 a1 : Z)
| OSwap (ret spread commission maker share : Z)
| ONone.

(** contract.rs:338-450 [provide_liquidity].  The price update at the end uses the balances queried at the
    start, which already contain the deposit of native assets. *)
Definition provide (e : env) (s : state) (receiver d0 d1 : Z) (min_lp : option Z) : option (state * out) :=
  guard (0 <=? d0) && (0 <=? d1) && negb ((d0 =? 0) && (d1 =? 0));
  guard negb ((d0 =? 0) && (r0 s =? 0)) && negb ((d1 =? 0) && (r1 s =? 0));
  do a <- current_amp (amp s) (now e);
  do share <- calculate_shares a d0 d1 (r0 s) (r1 s) (p0 s) (p1 s) (greatest s) (supply s);
  let first := supply s =? 0 in
  guard (match min_lp with Some m => m | None => 0 end) <=? share;
  do n0 <- add128 (r0 s) d0;
  do n1 <- add128 (r1 s) d1;
  do x <- with_prec (if nat0 s then n0 else r0 s) (p0 s);
  do y <- with_prec (if nat1 s then n1 else r1 s) (p1 s);
  do c <- accumulate_prices e s x y;
  let lp1 := if first then set (lp s) SELF (get (lp s) SELF + MINIMUM_LIQUIDITY) else lp s in
  let lp2 := set lp1 receiver (get lp1 receiver + share) in
  let sup := supply s + (if first then MINIMUM_LIQUIDITY else 0) + share in
  Some (set_core s n0 n1 sup lp2 c, OProvide share).

(** contract.rs:453-511 [withdraw_liquidity], utils.rs:219-236 [get_share_in_assets] (as in the
    constant-product pair), contract.rs:1210-1251 [ensure_min_assets_to_receive] (in pool order, each asset once). *)
Definition withdraw (e : env) (s : state) (who amount : Z) (mins : option (Z * Z)) : option (state * out) :=
  guard (negb (who =? SELF)) && (0 <? amount) && (amount <=? get (lp s) who);
  do a0 <- XykModel.share_of (r0 s) amount (supply s);
  do a1 <- XykModel.share_of (r1 s) amount (supply s);
  guard (match mins with Some (m0, m1) => (m0 <=? a0) && (m1 <=? a1) | None => true end);
  do n0 <- sub128 (r0 s) a0;
  do n1 <- sub128 (r1 s) a1;
  do x <- with_prec (r0 s) (p0 s);
  do y <- with_prec (r1 s) (p1 s);
  do c <- accumulate_prices e s x y;
  Some (set_core s n0 n1 (supply s - amount) (set (lp s) who (get (lp s) who - amount)) c, OWithdraw a0 a1).

(** contract.rs:536-595 and 805-872: the amounts computed alike by [swap] and [query_simulation]:
    (return after commission, spread, commission). [one]: asset 1 is offered. *)
Definition quote (e : env) (s : state) (one : bool) (offer : Z) : option (Z * Z * Z) :=
  do x <- with_prec (r0 s) (p0 s);
  do y <- with_prec (r1 s) (p1 s);
  guard negb (r0 s =? 0) && negb (r1 s =? 0) && negb (offer =? 0);
  do off <- with_prec offer (if one then p1 s else p0 s);
  do a <- current_amp (amp s) (now e);
  do '(gross, spread) <- compute_swap a off (if one then y else x) (if one then x else y) x y
                           (if one then p0 s else p1 s);
  do comm <- umul gross (total_fee (fees e));
  Some (ssub gross comm, spread, comm).

(** contract.rs:525-696 [swap]; [assert_max_spread] (1008-1043) is that of the constant-product pair. *)
Definition swap (e : env) (s : state) (one : bool) (offer : Z) (belief max_spread : option Z)
    : option (state * out) :=
  do '(ret, spread, comm) <- quote e s one offer;
  do gross <- add128 ret comm;
  do _ok <- XykModel.assert_max_spread belief max_spread offer gross spread;
  do shr <- (match fshare s with
             | Some b => do rate <- dratio b 10000; umul comm rate
             | None => Some 0
             end);
  do maker <- (if maker_on (fees e) then umul (ssub comm shr) (maker_rate (fees e)) else Some 0);
  let offer_pool := if one then r1 s else r0 s in
  let ask_pool := if one then r0 s else r1 s in
  do n_offer <- add128 offer_pool offer;
  do k1 <- sub128 ask_pool ret;
  do k2 <- sub128 k1 maker;
  do n_ask <- sub128 k2 shr;
  do x <- with_prec (r0 s) (p0 s);
  do y <- with_prec (r1 s) (p1 s);
  do c <- accumulate_prices e s x y;
  Some (set_core s (if one then n_ask else n_offer) (if one then n_offer else n_ask) (supply s) (lp s) c,
        OSwap ret spread comm maker shr).

Definition set_amp (s : state) (r : ramp) : state :=
  mkState (r0 s) (r1 s) (p0 s) (p1 s) (nat0 s) (nat1 s) (supply s) (lp s) (c01 s) (c10 s) (last_t s)
    r (fshare s) (owner s) (proposal s).
Definition set_fshare (s : state) (f : option Z) : state :=
  mkState (r0 s) (r1 s) (p0 s) (p1 s) (nat0 s) (nat1 s) (supply s) (lp s) (c01 s) (c10 s) (last_t s)
    (amp s) f (owner s) (proposal s).
Definition set_owner (s : state) (o : option Z) (p : option OwnershipModel.proposal) : state :=
  mkState (r0 s) (r1 s) (p0 s) (p1 s) (nat0 s) (nat1 s) (supply s) (lp s) (c01 s) (c10 s) (last_t s)
    (amp s) (fshare s) o p.

(** contract.rs:1073-1081: the pair's owner, or the factory's owner while none is set. *)
Definition eff_owner (e : env) (s : state) : Z :=
  match owner s with Some o => o | None => factory_owner e end.

Inductive msg :=
| Provide (receiver d0 d1 : Z) (min_lp : option Z)
| Withdraw (who amount : Z) (mins : option (Z * Z))
| Swap (one : bool) (offer : Z) (belief max_spread : option Z)
| StartAmp (sender next time : Z)
| StopAmp (sender : Z)
| EnableFeeShare (sender bps : Z)
| DisableFeeShare (sender : Z)
| Ownership (sender : Z) (what : OwnershipModel.msg)
| Donate (one : bool) (amount : Z)           (* plain transfer of a pool asset to the pair *)
| LpTransfer (from to amount : Z).           (* bank transfer of LP tokens *)

(** contract.rs:189-284 [execute], 1064-1132 [update_config]. *)
Definition step (e : env) (m : msg) (s : state) : option (state * out) :=
  match m with
  | Provide receiver d0 d1 min_lp => provide e s receiver d0 d1 min_lp
  | Withdraw who amount mins => withdraw e s who amount mins
  | Swap one offer belief max_spread => guard 0 <? offer; swap e s one offer belief max_spread
  | StartAmp sender next time =>
      guard sender =? eff_owner e s;
      do r <- start_amp (amp s) (now e) next time; Some (set_amp s r, ONone)
  | StopAmp sender =>
      guard sender =? eff_owner e s;
      do r <- stop_amp (amp s) (now e); Some (set_amp s r, ONone)
  | EnableFeeShare sender bps =>
      guard (sender =? eff_owner e s) && (0 <? bps) && (bps <=? MAX_FEE_SHARE_BPS);
      Some (set_fshare s (Some bps), ONone)
  | DisableFeeShare sender =>
      guard sender =? eff_owner e s; Some (set_fshare s None, ONone)
  | Ownership sender what =>
      do o <- OwnershipModel.step (OwnershipModel.mkEv (now e) sender what)
                (OwnershipModel.mkState (eff_owner e s) (proposal s));
      Some (set_owner s (match what with OwnershipModel.Claim => Some (OwnershipModel.owner o) | _ => owner s end)
              (OwnershipModel.prop o), ONone)
  | Donate one amount =>
      guard 0 <=? amount;
      do n <- add128 (if one then r1 s else r0 s) amount;
      Some (set_core s (if one then r0 s else n) (if one then n else r1 s) (supply s) (lp s)
              (c01 s, c10 s, last_t s), ONone)
  | LpTransfer from to amount =>
      guard negb (from =? SELF) && (0 <=? amount) && (amount <=? get (lp s) from);
      Some (set_core s (r0 s) (r1 s) (supply s) (move (lp s) from to amount) (c01 s, c10 s, last_t s), ONone)
  end.
Definition exec (s : state) (em : env * msg) : state :=
  match step (fst em) (snd em) s with Some (s', _) => s' | None => s end.
Definition run (s : state) (l : list (env * msg)) : state := fold_left exec l s.

(** contract.rs:63-130 [instantiate]. *)
Definition instantiate (now_ amp_ : Z) (o : option Z) (p0 p1 : Z) (n0 n1 : bool) : option state :=
  guard negb ((amp_ =? 0) || (MAX_AMP <? amp_));
  let a := amp_ * AMP_PRECISION in
  Some (mkState 0 0 p0 p1 n0 n1 0 [] 0 0 0 (mkRamp a now_ a now_) None o None).

(** contract.rs:805-872 [query_simulation]: a zero answer when a pool or the offer is zero. *)
Definition query_simulation (e : env) (s : state) (one : bool) (offer : Z) : option (Z * Z * Z) :=
  if (r0 s =? 0) || (r1 s =? 0) || (offer =? 0) then Some (0, 0, 0) else quote e s one offer.

(** contract.rs:881-955 [query_reverse_simulation]; [one]: asset 1 is asked.  Returns (offer, spread, commission). *)
Definition query_reverse_simulation (e : env) (s : state) (one : bool) (ask : Z) : option (Z * Z * Z) :=
  if (r0 s =? 0) || (r1 s =? 0) || (ask =? 0) then Some (0, 0, 0) else
  do x <- with_prec (r0 s) (p0 s);
  do y <- with_prec (r1 s) (p1 s);
  let ask_p := if one then p1 s else p0 s in
  let offer_p := if one then p0 s else p1 s in
  do omc <- sub256 DEC (total_fee (fees e));
  do inv <- dinv omc;
  do askd <- with_prec ask ask_p;
  do before <- dmul256 inv askd;
  do a <- current_amp (amp s) (now e);
  do na <- sub256 (if one then y else x) before;
  do new_offer <- calc_y a na x y (greatest s);
  do old <- to_prec (if one then x else y) (greatest s);
  do off0 <- sub128 new_offer old;
  do off <- adjust_precision off0 (greatest s) offer_p;
  do b1 <- to_prec before offer_p;
  do b2 <- to_prec before ask_p;
  do comm <- umul b2 (total_fee (fees e));
  Some (off, ssub off b1, comm).
