(** Concentrated pair: /repo/packages/astroport_pcl_common/src/{consts,state,utils}.rs and
    /repo/contracts/pair_concentrated/src/{contract,utils,queries}.rs.

    Scope: instantiation, provide, withdraw, swap, parameter updates, amp/gamma promotion, fee share,
    ownership, price accumulators, observations, tracked balances and the queries.
    Simplifications (whole file):
    - the pool assets are index 0/1 with precisions at most 18 (as the native coin registry enforces; for such
      precisions converting a reserve to a Decimal256 and back is exact, so tracked balances are written here as
      plain amounts); [nat0], [nat1] tell which are native; reserves are what the pair holds *before* the
      caller's deposit or offer arrives;
    - asset and address validation and auto staking are not modelled; transfers move exactly the stated amounts,
      LP mint and burn succeed; a bank transfer of amount zero fails, a cw20 transfer of amount zero does not;
    - factory answers (fees, owner, registration) are part of the environment and may change between
      transactions. *)
From Coq Require Import ZArith Bool List.
From Verif Require Import Num Ledger SnapshotModel BufferModel PclMath.
From Verif Require XykModel OwnershipModel ObservationModel.
Import ListNotations.
Open Scope Z_scope.

Notation fee_info := XykModel.fee_info.
Notation maker_rate := XykModel.maker_rate.
Notation maker_on := XykModel.maker_on.

(** consts.rs:4-16, 27-61 *)
Definition DEFAULT_SLIPPAGE : Z := 50000000000000000.
Definition MAX_ALLOWED_SLIPPAGE : Z := 500000000000000000.
Definition OFFER_PERCENT : Z := 100000000000000.
Definition FEE_TOL : Z := 1000000000000000.
Definition TWAP_PRECISION_DEC : Z := 1000000000000000000000000.
Definition MIN_FEE : Z := 50000000000000.
Definition MAX_FEE : Z := 10000000000000000.
Definition REPEG_MAX : Z := 10000000000000000.
Definition MA_HALF_TIME_MAX : Z := 604800.
Definition AMP_MIN : Z := 100000000000000000.
Definition AMP_MAX : Z := 100000000000000000000000.
Definition GAMMA_MIN : Z := 10000000000.
Definition GAMMA_MAX : Z := 20000000000000000.
Definition MIN_AMP_CHANGING_TIME : Z := 86400.
Definition MAX_CHANGE : Z := 10000000000000000000.
Definition MIN_TRADE_SIZE : Z := 10000000000000.     (* packages/astroport/src/pair.rs:22 *)
Definition MAX_FEE_SHARE_BPS : Z := 1000.            (* packages/astroport/src/pair.rs:15 *)
Definition MINIMUM_LIQUIDITY : Z := 1000.            (* packages/astroport/src/asset.rs:20 *)
Definition LP_PREC : Z := 6.                         (* pair_concentrated/src/contract.rs:59 *)
Definition SELF : Z := 0.                            (* the pair's own LP account *)
Definition TENTH : Z := 100000000000000000.

(** packages/astroport/src/asset.rs:870-876 [with_precision] for precisions up to 18,
    packages/astroport/src/cosmwasm_ext.rs:48-53 [to_uint]. *)
Definition with_prec (v p : Z) : option Z := u256 (v * 10 ^ (18 - p)).
Definition to_uint (v p : Z) : option Z := do w <- u256 (10 ^ p * v); u128 (w / DEC).

(** ** Pool parameters *)

(** state.rs:48-65 [PoolParams] *)
Record params := mkParams
  { mid_fee : Z; out_fee : Z; fee_gamma : Z; repeg : Z; min_delta : Z; half_time : Z }.
Definition params0 : params := mkParams 0 0 0 0 0 0.
Record update := mkUpdate
  { u_mid : option Z; u_out : option Z; u_fgamma : option Z; u_repeg : option Z; u_delta : option Z;
    u_half : option Z }.

(** state.rs:68-81 [validate_param]: an omitted value keeps the old one *)
Definition validated (o : option Z) (old lo hi : Z) : option Z :=
  match o with None => Some old | Some v => guard (lo <=? v) && (v <=? hi); Some v end.
(** state.rs:88-158 [update_params] *)
Definition update_params (p : params) (u : update) : option params :=
  do m <- validated (u_mid u) (mid_fee p) MIN_FEE MAX_FEE;
  do o <- validated (u_out u) (out_fee p) MIN_FEE MAX_FEE;
  guard (match u_out u with Some _ => m <? o | None => true end);
  do g <- validated (u_fgamma u) (fee_gamma p) 0 DEC;
  do r <- validated (u_repeg u) (repeg p) 0 REPEG_MAX;
  do d <- validated (u_delta u) (min_delta p) 0 DEC;
  do h <- validated (u_half u) (half_time p) 1 MA_HALF_TIME_MAX;
  Some (mkParams m o g r d h).

(** state.rs:160-172 [fee]: [x0], [x1] in the internal representation *)
Definition fee (p : params) (x0 x1 : Z) : option Z :=
  do sum <- add256 x0 x1;
  do m <- dmul256 x0 x1;
  do n <- dmul256 m FOUR_D;
  do s2 <- dmul256 sum sum;
  do k0 <- ddiv256 n s2;
  do a <- add256 (fee_gamma p) DEC;
  do b <- sub256 a k0;
  do k1 <- ddiv256 (fee_gamma p) b;
  let k := if k1 <=? FEE_TOL then 0 else k1 in
  do t1 <- dmul256 k (mid_fee p);
  do r <- sub256 DEC k;
  do t2 <- dmul256 r (out_fee p);
  add256 t1 t2.

(** ** Amp and gamma *)

(** state.rs:213-226 [PoolState] without the price state *)
Record ramp := mkRamp
  { i_amp : Z; i_gamma : Z; f_amp : Z; f_gamma : Z; i_time : Z; f_time : Z }.

(** state.rs:290-293: one interpolated value *)
Definition interp (a b left passed total : Z) : option Z :=
  do x <- dmul a left; do y <- dmul b passed; do s <- add128 x y; ddiv s total.
(** state.rs:283-302 [get_amp_gamma] *)
Definition amp_gamma (r : ramp) (now : Z) : option (Z * Z) :=
  if now <? f_time r then
    do t <- sub64 (f_time r) (i_time r);
    do total <- dratio t 1;
    do p <- sub64 now (i_time r);
    do passed <- dratio p 1;
    do left <- sub128 total passed;
    do a <- interp (i_amp r) (f_amp r) left passed total;
    do g <- interp (i_gamma r) (f_gamma r) left passed total;
    Some (a, g)
  else Some (f_amp r, f_gamma r).

(** state.rs:185-190 [AmpGamma::new] *)
Definition valid_amp_gamma (a g : Z) : bool :=
  (AMP_MIN <=? a) && (a <=? AMP_MAX) && (GAMMA_MIN <=? g) && (g <=? GAMMA_MAX).
(** state.rs:232-272 [promote_params] *)
Definition promote (r : ramp) (now a g t : Z) : option ramp :=
  do t1 <- add64 (i_time r) MIN_AMP_CHANGING_TIME;
  guard t1 <=? now;
  do t2 <- add64 now MIN_AMP_CHANGING_TIME;
  guard t2 <=? t;
  guard valid_amp_gamma a g;
  do '(ca, cg) <- amp_gamma r now;
  do qa <- ddiv (Z.max ca a) (Z.min ca a);
  guard qa <=? MAX_CHANGE;
  do qg <- ddiv (Z.max cg g) (Z.min cg g);
  guard qg <=? MAX_CHANGE;
  Some (mkRamp ca cg a g now t).
(** state.rs:275-278 [stop_promotion] *)
Definition stop (r : ramp) (now : Z) : option ramp :=
  do '(ca, cg) <- amp_gamma r now;
  Some (mkRamp (i_amp r) (i_gamma r) ca cg (i_time r) now).

(** ** Price state *)

(** state.rs:195-211 [PriceState] *)
Record pstate := mkPs
  { oracle : Z; last : Z; scale : Z; upd : Z; xcp : Z; xreal : Z }.

(** state.rs:322-332: the moving average and the new last price *)
Definition move_oracle (p : params) (ps : pstate) (now price : Z) : option pstate :=
  if upd ps <? now then
    do arg <- dratio256 (now - upd ps) (half_time p);
    do alpha <- half_float_pow arg;
    do om <- sub256 DEC alpha;
    do t1 <- dmul256 (last ps) om;
    do t2 <- dmul256 (oracle ps) alpha;
    do o <- add256 t1 t2;
    Some (mkPs o price (scale ps) now (xcp ps) (xreal ps))
  else Some (mkPs (oracle ps) price (scale ps) (upd ps) (xcp ps) (xreal ps)).

(** state.rs:334-350: profit bookkeeping; [ramping] = the block time is before the end of a ramp *)
Definition book_profit (ps : pstate) (ramping : bool) (a g total x0 x1 : Z) : option pstate :=
  do d <- newton_d x0 x1 a g;
  do x <- get_xcp d (scale ps);
  if xreal ps =? 0 then Some ps
  else
    do r <- ddiv256 x total;
    guard (xreal ps <=? r) || ramping;
    do m <- dmul256 (xcp ps) r;
    do xp <- ddiv256 m (xreal ps);
    Some (mkPs (oracle ps) (last ps) (scale ps) (upd ps) xp r).

(** state.rs:354-380: the repeg *)
Definition try_repeg (p : params) (ps : pstate) (a g total x0 x1 : Z) : option pstate :=
  do q <- ddiv256 (oracle ps) (scale ps);
  let norm := Z.abs (q - DEC) in
  do tenth <- dmul256 norm TENTH;
  let delta := Z.max (min_delta p) tenth in
  if delta <=? norm then
    do pr <- sub256 (xreal ps) DEC;
    do px <- sub256 (xcp ps) DEC;
    do hx <- ddiv256 px TWO_D;
    do th <- add256 hx (repeg p);
    if th <? pr then
      do nd <- sub256 norm delta;
      do n1 <- dmul256 (scale ps) nd;
      do n2 <- dmul256 delta (oracle ps);
      do num <- add256 n1 n2;
      do ns <- ddiv256 num norm;
      do y1 <- dmul256 x1 ns;
      do y <- ddiv256 y1 (scale ps);
      do d <- newton_d x0 y a g;
      do x <- get_xcp d ns;
      do r <- ddiv256 x total;
      do lhs <- dmul256 TWO_D r;
      do rhs <- add256 (xcp ps) DEC;
      if rhs <? lhs then Some (mkPs (oracle ps) (last ps) ns (upd ps) (xcp ps) r) else Some ps
    else Some ps
  else Some ps.

(** state.rs:310-383 [update_price]: [x0], [x1] internal volumes, [total] LP tokens, [price] the new price *)
Definition update_price (p : params) (r : ramp) (ps : pstate) (now total x0 x1 price : Z) : option pstate :=
  do '(a, g) <- amp_gamma r now;
  do ps1 <- move_oracle p ps now price;
  do ps2 <- book_profit ps1 (now <? f_time r) a g total x0 x1;
  try_repeg p ps2 a g total x0 x1.

(** ** Swap computation *)

(** utils.rs:188-195 [SwapResult] *)
Record result := mkRes { dy : Z; spread_fee : Z; maker_fee : Z; share_fee : Z; total_fee : Z }.
(** the part of the pool's output which leaves the pool *)
Definition outflow (r : result) : option Z :=
  do a <- add256 (dy r) (maker_fee r); add256 a (share_fee r).
(** utils.rs:199-205 [calc_last_price] *)
Definition last_price (r : result) (offer : Z) (one : bool) : option Z :=
  do o <- outflow r; if one then ddiv256 o offer else ddiv256 offer o.

(** utils.rs:260-308 [compute_swap]; [one]: asset 1 is offered (asset 0 is asked) *)
Definition compute_swap (p : params) (r : ramp) (ps : pstate) (now x0 x1 offer : Z) (one : bool)
    (maker_share fee_share_ : Z) : option result :=
  do y1 <- dmul256 x1 (scale ps);
  do '(a, g) <- amp_gamma r now;
  do d <- newton_d x0 y1 a g;
  do off <- (if one then dmul256 offer (scale ps) else Some offer);
  do n_off <- add256 (if one then y1 else x0) off;
  do ny <- newton_y d n_off a g (negb one);
  do dyi <- sub256 (if one then x0 else y1) ny;
  do gross <- (if one then Some dyi else ddiv256 dyi (scale ps));
  do expect <- (if one then dmul256 offer (oracle ps) else ddiv256 offer (oracle ps));
  do rate <- (if one then fee p ny n_off else fee p n_off ny);
  do tf <- dmul256 rate gross;
  do ret <- sub256 gross tf;
  do sf <- dmul256 tf fee_share_;
  do rest <- sub256 tf sf;
  do mf <- dmul256 rest maker_share;
  Some (mkRes ret (ssub expect gross) mf sf tf).

(** utils.rs:209-227 [calc_last_prices] *)
Definition calc_last_prices (p : params) (r : ramp) (ps : pstate) (now x0 x1 : Z) : option Z :=
  do m <- dmul256 x0 OFFER_PERCENT;
  let o := Z.min DEC m in
  let offer := if o =? 0 then 1 else o in
  do res <- compute_swap p r ps now x0 x1 offer false 0 0;
  last_price res offer false.

(** utils.rs:143-173 [assert_max_spread] *)
Definition assert_max_spread (belief max_spread : option Z) (offer ret spread : Z) : option unit :=
  let max := match max_spread with Some s => s | None => DEFAULT_SLIPPAGE end in
  guard max <=? MAX_ALLOWED_SLIPPAGE;
  match belief with
  | Some b =>
      do inv <- dinv b;
      do inv' <- u128 inv;
      do expected <- umul offer inv';
      if ret <? expected then
        do r <- dratio256 (ssub expected ret) expected;
        guard r <=? max; Some tt
      else Some tt
  | None =>
      do tot <- add128 ret spread;
      do r <- dratio256 spread tot;
      guard r <=? max; Some tt
  end.

(** utils.rs:311-350 [compute_offer_amount]: (offer, spread, fee); [one]: asset 1 is asked *)
Definition compute_offer (p : params) (r : ramp) (ps : pstate) (now x0 x1 want : Z) (one : bool)
    : option (Z * Z * Z) :=
  do w <- (if one then dmul256 want (scale ps) else Some want);
  do y1 <- dmul256 x1 (scale ps);
  do '(a, g) <- amp_gamma r now;
  do d <- newton_d x0 y1 a g;
  do rest <- sub256 DEC (out_fee p);
  do inv <- dinv rest;
  do before <- dmul256 w inv;
  do fe <- sub256 before w;
  do n_ask <- sub256 (if one then y1 else x0) before;
  do ny <- newton_y d n_ask a g (negb one);
  do di <- sub256 ny (if one then x0 else y1);
  let sp := ssub di before in
  if one then Some (di, sp, fe)
  else
    do di' <- ddiv256 di (scale ps);
    do sp' <- ddiv256 sp (scale ps);
    do fe' <- ddiv256 fe (scale ps);
    Some (di', sp', fe').

(** ** The contract *)

Record state := mkState
  { r0 : Z; r1 : Z;                    (* reserves *)
    p0 : Z; p1 : Z;                    (* PRECISIONS *)
    nat0 : bool; nat1 : bool;
    supply : Z; lp : ledger;
    par : params; rmp : ramp; pst : pstate;
    c01 : Z; c10 : Z; last_t : Z;      (* cumulative prices, block_time_last *)
    fshare : option Z;
    owner : option Z; proposal : option OwnershipModel.proposal;
    track : bool; h0 : snap; h1 : snap;          (* BALANCES *)
    obs : store ObservationModel.obs; pend : option ObservationModel.precommit }.
Record env := mkEnv { now : Z; height : Z; fees : fee_info; factory_owner : Z; registered : bool }.

Definition set_pools (s : state) (n0 n1 sup : Z) (l : ledger) (ps : pstate) (c : Z * Z * Z) (h : Z)
    (ob : store ObservationModel.obs) (pe : option ObservationModel.precommit) : state :=
  let '(a, b, t) := c in
  mkState n0 n1 (p0 s) (p1 s) (nat0 s) (nat1 s) sup l (par s) (rmp s) ps a b t (fshare s) (owner s)
    (proposal s) (track s)
    (if track s then snap_save (h0 s) h n0 else h0 s)
    (if track s then snap_save (h1 s) h n1 else h1 s) ob pe.
Definition set_cfg (s : state) (pa : params) (ra : ramp) (f o : option Z) (pr : option OwnershipModel.proposal)
    : state :=
  mkState (r0 s) (r1 s) (p0 s) (p1 s) (nat0 s) (nat1 s) (supply s) (lp s) pa ra (pst s) (c01 s) (c10 s)
    (last_t s) f o pr (track s) (h0 s) (h1 s) (obs s) (pend s).
Definition set_balances (s : state) (n0 n1 : Z) (l : ledger) : state :=
  mkState n0 n1 (p0 s) (p1 s) (nat0 s) (nat1 s) (supply s) l (par s) (rmp s) (pst s) (c01 s) (c10 s)
    (last_t s) (fshare s) (owner s) (proposal s) (track s) (h0 s) (h1 s) (obs s) (pend s).

(** utils.rs:230-257 [accumulate_prices] *)
Definition accumulate_prices (s : state) (t price : Z) : option (Z * Z * Z) :=
  if t <=? last_t s then Some (c01 s, c10 s, last_t s)
  else
    let el := t - last_t s in
    do inv <- dinv price;
    do q0 <- dmul256 inv TWAP_PRECISION_DEC;
    do v0 <- u128 (q0 / DEC);
    do i0 <- mul128 el v0;
    do q1 <- dmul256 price TWAP_PRECISION_DEC;
    do v1 <- u128 (q1 / DEC);
    do i1 <- mul128 el v1;
    Some (wadd128 (c01 s) i0, wadd128 (c10 s) i1, t).

(** utils.rs:355-364 [calc_provide_fee] *)
Definition provide_fee (p : params) (d0 d1 x0 x1 : Z) : option Z :=
  do sum <- add256 d0 d1;
  do avg <- ddiv256 sum TWO_D;
  do f <- fee p x0 x1;
  do m <- dmul256 (Z.abs (d0 - avg)) f;
  ddiv256 m sum.
(** utils.rs:367-391 [assert_slippage_tolerance] *)
Definition provide_slippage (ps : pstate) (tol : option Z) (d0 d1 share : Z) : option Z :=
  let t := match tol with Some v => v | None => DEFAULT_SLIPPAGE end in
  guard t <=? MAX_ALLOWED_SLIPPAGE;
  do v1 <- dmul256 d1 (scale ps);
  do v <- add256 d0 v1;
  do hv <- ddiv256 v TWO_D;
  do m <- dmul256 hv v;
  do dn <- dmul256 TWO_D (scale ps);
  do q <- ddiv256 m dn;
  do expected <- ddiv256 (dsqrt q) (xreal ps);
  do sl <- ddiv256 (ssub expected share) expected;
  guard sl <=? t; Some sl.

(** contracts/pair_concentrated/src/utils.rs:170-253 [calculate_shares]: pools [x0], [x1], deposits [d0], [d1]
    as decimals. Returns the LP amount and the price state. *)
Definition calculate_shares (e_now : Z) (p : params) (r : ramp) (ps : pstate) (x0 x1 total d0 d1 : Z)
    (tol : option Z) : option (Z * pstate) :=
  guard negb ((total =? 0) && ((d0 =? 0) || (d1 =? 0)));
  do n0 <- add256 x0 d0;
  do m1 <- add256 x1 d1;
  do n1 <- dmul256 m1 (scale ps);
  do '(a, g) <- amp_gamma r e_now;
  do nd <- newton_d n0 n1 a g;
  do '(share, ps1) <-
    (if total =? 0 then
       do x <- get_xcp nd (scale ps);
       do m <- sub256 x (MINIMUM_LIQUIDITY * 10 ^ (18 - LP_PREC));
       guard negb (m =? 0);
       Some (m, mkPs (oracle ps) (last ps) (scale ps) (upd ps) DEC DEC)
     else
       do o1 <- dmul256 x1 (scale ps);
       do od <- newton_d x0 o1 a g;
       do m <- dmul256 total nd;
       do q <- ddiv256 m od;
       do i1 <- dmul256 d1 (scale ps);
       do pf <- provide_fee p d0 i1 n0 n1;
       do k <- sub256 DEC pf;
       do sh <- dmul256 (ssub q total) k;
       Some (sh, ps));
  do tot <- add256 total share;
  do ratio <- ddiv256 share tot;
  do b0 <- dmul256 n0 ratio;
  do b1' <- dmul256 n1 ratio;
  do b1 <- ddiv256 b1' (scale ps);
  let e0 := Z.abs (d0 - b0) in
  let e1 := Z.abs (d1 - b1) in
  do ps2 <-
    (if (MIN_TRADE_SIZE <=? e0) && (MIN_TRADE_SIZE <=? e1) then
       do _sl <- provide_slippage ps1 tol d0 d1 share;
       do price <- ddiv256 e0 e1;
       update_price p r ps1 e_now tot n0 n1 price
     else Some ps1);
  do amount <- to_uint share LP_PREC;
  Some (amount, ps2).

Inductive out :=
| OProvide (share : Z)
| OWithdraw (a0 a1 : Z)
| OSwap (ret spread commission maker share : Z)
| ONone.

(** contract.rs:424-548 [provide_liquidity]; utils.rs:117-168 (the deposits in pool order, an omitted one zero) *)
Definition provide (e : env) (s : state) (receiver d0 d1 : Z) (tol min_lp : option Z) : option (state * out) :=
  guard (0 <=? d0) && (0 <=? d1) && registered e;
  do total <- with_prec (supply s) LP_PREC;
  do x0 <- with_prec (r0 s) (p0 s);
  do x1 <- with_prec (r1 s) (p1 s);
  do e0 <- with_prec d0 (p0 s);
  do e1 <- with_prec d1 (p1 s);
  do '(share, ps) <- calculate_shares (now e) (par s) (rmp s) (pst s) x0 x1 total e0 e1 tol;
  guard (match min_lp with Some m => m | None => 0 end) <=? share;
  do n0 <- add128 (r0 s) d0;
  do n1 <- add128 (r1 s) d1;
  let first := supply s =? 0 in
  let lp1 := if first then set (lp s) SELF (get (lp s) SELF + MINIMUM_LIQUIDITY) else lp s in
  let lp2 := set lp1 receiver (get lp1 receiver + share) in
  do sup <- u128 (supply s + (if first then MINIMUM_LIQUIDITY else 0) + share);
  do c <- accumulate_prices s (now e) (last (pst s));
  Some (set_pools s n0 n1 sup lp2 ps c (height e) (obs s) (pend s), OProvide share).

(** utils.rs:111-129 [get_share_in_assets] on decimals, followed by the conversion to integers
    (contract.rs:601-611, queries.rs:126-139): (decimal share, integer share). *)
Definition share_ratio (amount total : Z) : option Z :=
  if total =? 0 then Some 0 else dratio256 amount total.
Definition refund (x p ratio : Z) : option (Z * Z) :=
  do d <- dmul256 x ratio; do a <- to_uint d p; Some (d, a).

(** A transfer of a native asset must be positive (bank module). *)
Definition can_send (native : bool) (amount : Z) : bool := negb (native && (amount =? 0)).

(** contract.rs:555-647 [withdraw_liquidity]; the message's minimum amounts are dropped by [execute]
    (contract.rs:369) *)
Definition withdraw (e : env) (s : state) (who amount : Z) (imbalanced : bool) (mins : option (Z * Z))
    : option (state * out) :=
  guard negb (who =? SELF) && (0 <? amount) && (amount <=? get (lp s) who);
  do x0 <- with_prec (r0 s) (p0 s);
  do x1 <- with_prec (r1 s) (p1 s);
  guard negb imbalanced;
  do ratio <- share_ratio (ssub amount 1) (supply s);
  do '(f0, a0) <- refund x0 (p0 s) ratio;
  do '(f1, a1) <- refund x1 (p1 s) ratio;
  do y0 <- sub256 x0 f0;
  do y1' <- sub256 x1 f1;
  do y1 <- dmul256 y1' (scale (pst s));
  do '(a, g) <- amp_gamma (rmp s) (now e);
  do d <- newton_d y0 y1 a g;
  do x <- get_xcp d (scale (pst s));
  do left <- sub128 (supply s) amount;
  do ld <- with_prec left LP_PREC;
  do xr <- ddiv256 x ld;
  guard can_send (nat0 s) a0 && can_send (nat1 s) a1;
  do n0 <- sub128 (r0 s) a0;
  do n1 <- sub128 (r1 s) a1;
  let ps := pst s in
  Some (set_pools s n0 n1 left (set (lp s) who (get (lp s) who - amount))
          (mkPs (oracle ps) (last ps) (scale ps) (upd ps) (xcp ps) xr)
          (c01 s, c10 s, last_t s) (height e) (obs s) (pend s), OWithdraw a0 a1).

(** contract.rs:691-705, queries.rs:168-182: shares of the fee *)
Definition maker_share (e : env) : Z := if maker_on (fees e) then maker_rate (fees e) else 0.
Definition fee_share_rate (s : state) : option Z :=
  match fshare s with Some b => dratio256 b 10000 | None => Some 0 end.

(** contract.rs:661-827 [swap] *)
Definition swap (e : env) (s : state) (one : bool) (offer : Z) (belief max_spread : option Z)
    : option (state * out) :=
  do off <- with_prec offer (if one then p1 s else p0 s);
  do x0 <- with_prec (r0 s) (p0 s);
  do x1 <- with_prec (r1 s) (p1 s);
  let pa := if one then p0 s else p1 s in
  guard negb (off =? 0) && negb (x0 =? 0) && negb (x1 =? 0);
  do old <- calc_last_prices (par s) (rmp s) (pst s) (now e) x0 x1;
  do fs <- fee_share_rate s;
  do res <- compute_swap (par s) (rmp s) (pst s) (now e) x0 x1 off one (maker_share e) fs;
  do of_ <- outflow res;
  do n_off <- add256 (if one then x1 else x0) off;
  do n_ask <- sub256 (if one then x0 else x1) of_;
  do ret <- to_uint (dy res) pa;
  do spread <- to_uint (spread_fee res) pa;
  do _ok <- assert_max_spread belief max_spread offer ret spread;
  do total <- with_prec (supply s) LP_PREC;
  do ps <-
    (if (MIN_TRADE_SIZE <=? of_) && (MIN_TRADE_SIZE <=? off) then
       do price <- last_price res off one;
       do y1 <- dmul256 (if one then n_off else n_ask) (scale (pst s));
       update_price (par s) (rmp s) (pst s) (now e) total (if one then n_ask else n_off) y1 price
     else Some (pst s));
  guard can_send (if one then nat0 s else nat1 s) ret;
  do shr <- (match fshare s with Some _ => to_uint (share_fee res) pa | None => Some 0 end);
  do maker <- (if maker_on (fees e) then to_uint (maker_fee res) pa else Some 0);
  do c <- accumulate_prices s (now e) old;
  do ob <- ObservationModel.accumulate (now e) (obs s) (pend s);
  do pe <-
    (if (MIN_TRADE_SIZE <=? off) && (MIN_TRADE_SIZE <=? dy res) then
       do pc <- ObservationModel.pre_save (now e) (pend s) (if one then ret else offer) (if one then offer else ret);
       Some (Some pc)
     else Some (pend s));
  do comm <- to_uint (total_fee res) pa;
  do m_off <- add128 (if one then r1 s else r0 s) offer;
  do k1 <- sub128 (if one then r0 s else r1 s) ret;
  do k2 <- sub128 k1 maker;
  do m_ask <- sub128 k2 shr;
  Some (set_pools s (if one then m_ask else m_off) (if one then m_off else m_ask) (supply s) (lp s) ps c
          (height e) ob pe,
        OSwap ret spread comm maker shr).

(** contract.rs:838-844: the pair's owner, or the factory's owner while none is set *)
Definition eff_owner (e : env) (s : state) : Z :=
  match owner s with Some o => o | None => factory_owner e end.

Inductive msg :=
| Provide (receiver d0 d1 : Z) (tol min_lp : option Z)
| Withdraw (who amount : Z) (imbalanced : bool) (mins : option (Z * Z))
| Swap (one : bool) (offer : Z) (belief max_spread : option Z)
| UpdateParams (sender : Z) (u : update)
| Promote (sender a g t : Z)
| StopPromotion (sender : Z)
| EnableFeeShare (sender bps : Z)
| DisableFeeShare (sender : Z)
| Ownership (sender : Z) (what : OwnershipModel.msg)
| Donate (one : bool) (amount : Z)           (* plain transfer of a pool asset to the pair *)
| LpTransfer (from to amount : Z).           (* bank transfer of LP tokens *)

(** contract.rs:277-407 [execute] and [receive_cw20], 832-901 [update_config] *)
Definition step (e : env) (m : msg) (s : state) : option (state * out) :=
  match m with
  | Provide receiver d0 d1 tol min_lp => provide e s receiver d0 d1 tol min_lp
  | Withdraw who amount imb mins => withdraw e s who amount imb mins
  | Swap one offer belief max_spread => guard 0 <=? offer; swap e s one offer belief max_spread
  | UpdateParams sender u =>
      guard sender =? eff_owner e s;
      do p <- update_params (par s) u;
      Some (set_cfg s p (rmp s) (fshare s) (owner s) (proposal s), ONone)
  | Promote sender a g t =>
      guard (sender =? eff_owner e s) && fits U64MAX t;
      do r <- promote (rmp s) (now e) a g t;
      Some (set_cfg s (par s) r (fshare s) (owner s) (proposal s), ONone)
  | StopPromotion sender =>
      guard sender =? eff_owner e s;
      do r <- stop (rmp s) (now e);
      Some (set_cfg s (par s) r (fshare s) (owner s) (proposal s), ONone)
  | EnableFeeShare sender bps =>
      guard (sender =? eff_owner e s) && (0 <? bps) && (bps <=? MAX_FEE_SHARE_BPS);
      Some (set_cfg s (par s) (rmp s) (Some bps) (owner s) (proposal s), ONone)
  | DisableFeeShare sender =>
      guard sender =? eff_owner e s;
      Some (set_cfg s (par s) (rmp s) None (owner s) (proposal s), ONone)
  | Ownership sender what =>
      do o <- OwnershipModel.step (OwnershipModel.mkEv (now e) sender what)
                (OwnershipModel.mkState (eff_owner e s) (proposal s));
      Some (set_cfg s (par s) (rmp s) (fshare s)
              (match what with OwnershipModel.Claim => Some (OwnershipModel.owner o) | _ => owner s end)
              (OwnershipModel.prop o), ONone)
  | Donate one amount =>
      guard 0 <=? amount;
      do n <- add128 (if one then r1 s else r0 s) amount;
      Some (set_balances s (if one then r0 s else n) (if one then n else r1 s) (lp s), ONone)
  | LpTransfer from to amount =>
      guard negb (from =? SELF) && (0 <=? amount) && (amount <=? get (lp s) from);
      Some (set_balances s (r0 s) (r1 s) (move (lp s) from to amount), ONone)
  end.
Definition exec (s : state) (em : env * msg) : state :=
  match step (fst em) (snd em) s with Some (s', _) => s' | None => s end.
Definition run (s : state) (l : list (env * msg)) : state := fold_left exec l s.

(** contract.rs:63-172 [instantiate] (a [Decimal] price scale) *)
Definition instantiate (t h : Z) (u : update) (amp gamma price_scale : Z) (track_ : bool) (q0 q1 : Z)
    (n0 n1 : bool) : option state :=
  guard fits 18 q0 && fits 18 q1 && fits U128MAX price_scale && negb (price_scale =? 0);
  guard (match u_mid u, u_out u, u_fgamma u, u_repeg u, u_delta u, u_half u with
         | Some _, Some _, Some _, Some _, Some _, Some _ => true
         | _, _, _, _, _, _ => false
         end);
  do p <- update_params params0 u;
  guard valid_amp_gamma amp gamma;
  let h_ := if track_ then snap_save snap0 h 0 else snap0 in
  Some (mkState 0 0 q0 q1 n0 n1 0 [] p (mkRamp 0 0 amp gamma 0 t)
          (mkPs price_scale price_scale price_scale t 0 0) 0 0 t None None None track_ h_ h_
          (buf_init ObservationModel.OBSERVATIONS_SIZE) None).

(** ** Queries *)

(** queries.rs:115-142 [query_share] (also SimulateWithdraw) *)
Definition query_share (s : state) (amount : Z) : option (Z * Z) :=
  do x0 <- with_prec (r0 s) (p0 s);
  do x1 <- with_prec (r1 s) (p1 s);
  do ratio <- share_ratio (ssub amount 1) (supply s);
  do '(_, a0) <- refund x0 (p0 s) ratio;
  do '(_, a1) <- refund x1 (p1 s) ratio;
  Some (a0, a1).
(** queries.rs:145-199 [query_simulation]: (return, spread, commission) *)
Definition query_simulation (e : env) (s : state) (one : bool) (offer : Z) : option (Z * Z * Z) :=
  do off <- with_prec offer (if one then p1 s else p0 s);
  do x0 <- with_prec (r0 s) (p0 s);
  do x1 <- with_prec (r1 s) (p1 s);
  let pa := if one then p0 s else p1 s in
  guard negb (off =? 0) && negb (x0 =? 0) && negb (x1 =? 0);
  do fs <- fee_share_rate s;
  do res <- compute_swap (par s) (rmp s) (pst s) (now e) x0 x1 off one (maker_share e) fs;
  do ret <- to_uint (dy res) pa;
  do spread <- to_uint (spread_fee res) pa;
  do comm <- to_uint (total_fee res) pa;
  Some (ret, spread, comm).
(** queries.rs:202-230 [query_reverse_simulation]; [one]: asset 1 is asked *)
Definition query_reverse_simulation (e : env) (s : state) (one : bool) (ask : Z) : option (Z * Z * Z) :=
  do w <- with_prec ask (if one then p1 s else p0 s);
  do x0 <- with_prec (r0 s) (p0 s);
  do x1 <- with_prec (r1 s) (p1 s);
  let po := if one then p0 s else p1 s in
  do '(o, sp, fe) <- compute_offer (par s) (rmp s) (pst s) (now e) x0 x1 w one;
  do oa <- to_uint o po;
  do sa <- to_uint sp po;
  do fa <- to_uint fe po;
  Some (oa, sa, fa).
(** queries.rs:256-276 [query_lp_price] *)
Definition query_lp_price (t : Z) (s : state) : option Z :=
  do total <- with_prec (supply s) LP_PREC;
  if total =? 0 then Some 0
  else
    do x0 <- with_prec (r0 s) (p0 s);
    do x1 <- with_prec (r1 s) (p1 s);
    do y1 <- dmul256 x1 (scale (pst s));
    do '(a, g) <- amp_gamma (rmp s) t;
    do d <- newton_d x0 y1 a g;
    do x <- get_xcp d (scale (pst s));
    ddiv256 x total.
(** queries.rs:313-331 [query_compute_d] *)
Definition query_compute_d (t : Z) (s : state) : option Z :=
  do x0 <- with_prec (r0 s) (p0 s);
  do x1 <- with_prec (r1 s) (p1 s);
  guard negb ((x0 =? 0) || (x1 =? 0));
  do y1 <- dmul256 x1 (scale (pst s));
  do '(a, g) <- amp_gamma (rmp s) t;
  newton_d x0 y1 a g.
(** queries.rs:336-342 [query_asset_balances_at] *)
Definition balance_at (s : state) (one : bool) (h : Z) : option Z := snap_at (if one then h1 s else h0 s) h.
(** queries.rs:344-375 [query_simulate_provide]: nothing has been transferred, so nothing is subtracted *)
Definition query_simulate_provide (e : env) (s : state) (d0 d1 : Z) (tol : option Z) : option Z :=
  guard registered e;
  do total <- with_prec (supply s) LP_PREC;
  do x0 <- with_prec (r0 s) (p0 s);
  do x1 <- with_prec (r1 s) (p1 s);
  do e0 <- with_prec d0 (p0 s);
  do e1 <- with_prec d1 (p1 s);
  do '(share, _) <- calculate_shares (now e) (par s) (rmp s) (pst s) x0 x1 total e0 e1 tol;
  Some share.
