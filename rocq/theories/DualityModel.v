(** Concentrated pair with orders on the Duality order book: /repo/contracts/pair_concentrated_duality/src
    ({instantiate,execute,reply,utils,queries}.rs and orderbook/{consts,execute,state,utils}.rs).

    The pool itself (parameters, price state, shares, swap computation) is the code shared with the concentrated
    pair and is taken from PclModel. Here are the order book side, the settlement of filled orders and the
    messages. [pool] holds what the contract itself owns ([r0], [r1]); what lies in the order book is [dex].

    The order book module is not part of /repo. It is modelled as a map from order keys to resting orders:
    - cancelling, or simulating the cancellation of, a key that is not there fails;
    - a cancellation pays the unsold part and the proceeds to the pair and removes the key;
    - anybody may fill a resting order ([Fill]);
    - what happens when the pair places orders is an input of the message: the resting orders that result
      ([placed]) and the coins that matching against other orders pays out at once ([got0], [got1]).
    Simplifications: both assets are native (ObMigrateModel has the pairs migrated with a CW20 asset); the pool assets are index 0/1; asset and address validation,
    attributes and the reply for the LP denom are left out; the simulated cancellation reports
    both coins (the code fills in a missing coin as zero); [flip] stands for the iteration order of the hash map
    of trades. *)
From Coq Require Import ZArith Bool List.
From Verif Require Import Num Ledger SnapshotModel BufferModel PclMath PclModel.
From Verif Require Amap XykModel ObservationModel.
Import ListNotations.
Open Scope Z_scope.

(** orderbook/consts.rs:10-26 *)
Definition MAX_ORDERS : Z := 15.
Definition MIN_LIQ : Z := 10000000000000000.
Definition MAX_LIQ : Z := 500000000000000000.
Definition MIN_ADJ : Z := 100000000000000.
Definition MAX_ADJ : Z := 3000000000000000.
Definition DUALITY_ADJ : Z := 1000000000.

(** A resting order, or a trade made at once: orderbook/state.rs:49-52 [OrderState]. [buy] = the pair buys asset 0
    with asset 1 (maker coin: asset 1, taker coin: asset 0). *)
Record order := mkOrder { buy : bool; maker : Z; taker : Z }.
Definition book := list (Z * order).

(** orderbook/state.rs:55-84 [OrderbookState] ([orders_state] lives only in memory); [pre] = None: empty list *)
Record obook := mkOb
  { enabled : bool; executor : option Z; num : Z; min0 : Z; min1 : Z; liq : Z; adj : Z;
    keys : list Z; pre : option (Z * Z); delayed : option order; sizes : option (Z * Z) }.

Record dstate := mkD { pool : state; ob : obook; dex : book }.
Record denv := mkDEnv
  { base : env; flip : bool; placed : book; got0 : Z; got1 : Z }.

(** ** What lies in the order book *)

(** orderbook/state.rs:236-326 [query_ob_liquidity]: the orders behind the stored keys *)
Fixpoint lookup (ks : list Z) (d : book) : option (list order) :=
  match ks with
  | [] => Some []
  | k :: r => do o <- Amap.find k d; do os <- lookup r d; Some (o :: os)
  end.
Fixpoint lying (one : bool) (os : list order) : Z :=
  match os with
  | [] => 0
  | o :: r => (if eqb (buy o) one then maker o else taker o) + lying one r
  end.

(** orderbook/state.rs:414-426 [cancel_orders], as executed by the order book *)
Fixpoint cancel (ks : list Z) (d : book) : option (list order * book) :=
  match ks with
  | [] => Some ([], d)
  | k :: r => do o <- Amap.find k d; do '(os, d') <- cancel r (Amap.del k d); Some (o :: os, d')
  end.

(** ** Filled orders *)

(** A trade: [t_buy] = asset 0 came in ([t_in]) and asset 1 went out ([t_out]), otherwise the other way round.
    orderbook/execute.rs:28-34 [CumulativeTrade] *)
Record trade := mkTrade { t_buy : bool; t_in : Z; t_out : Z }.

(** orderbook/state.rs:380-398: the sums of one side *)
Fixpoint sum_in (b : bool) (os : list order) : Z :=
  match os with [] => 0 | o :: r => (if eqb (buy o) b then taker o else 0) + sum_in b r end.
Fixpoint sum_out (b : bool) (size : Z) (os : list order) : Z :=
  match os with [] => 0 | o :: r => (if eqb (buy o) b then ssub size (maker o) else 0) + sum_out b size r end.

(** orderbook/state.rs:366-412 [fetch_cumulative_trades]; without stored sizes the code panics (396) *)
Definition fetch_trades (b : obook) (os : list order) (q0 q1 : Z) (flp : bool) : option (list trade) :=
  let all := os ++ (match delayed b with Some o => [o] | None => [] end) in
  match all with
  | [] => Some []
  | _ =>
      do '(s0, s1) <- sizes b;
      do i0 <- u128 (sum_in true all);
      do o1 <- u128 (sum_out true s1 all);
      do i1 <- u128 (sum_in false all);
      do o0 <- u128 (sum_out false s0 all);
      do di0 <- with_prec i0 q0;
      do do1 <- with_prec o1 q1;
      do di1 <- with_prec i1 q1;
      do do0 <- with_prec o0 q0;
      let buys := if i0 =? 0 then [] else [mkTrade true di0 do1] in
      let sells := if i1 =? 0 then [] else [mkTrade false di1 do0] in
      Some (if flp then sells ++ buys else buys ++ sells)
  end.

(** orderbook/execute.rs:87-140: the fee of one trade, taken from the asset that went out; returns the volume
    that is left and the amounts sent to the fee-share recipient and to the maker *)
Definition charge (e : env) (s : state) (t : trade) (x prec : Z) : option (Z * Z * Z) :=
  do tf <- dmul256 (out_fee (par s)) (t_out t);
  do sh <- (match fshare s with
            | Some b => do rate <- dratio256 b 10000; dmul256 tf rate
            | None => Some 0
            end);
  do x1 <- sub256 x sh;
  do sa <- to_uint sh prec;
  do mk <- (if maker_on (fees e) then do rest <- sub256 tf sh; dmul256 rest (maker_rate (fees e)) else Some 0);
  do x2 <- sub256 x1 mk;
  do ma <- to_uint mk prec;
  Some (x2, sa, ma).
(** all trades; the amounts paid out of asset 0 and asset 1 *)
Fixpoint charge_all (e : env) (s : state) (ts : list trade) (x0 x1 : Z) : option (Z * Z * Z * Z) :=
  match ts with
  | [] => Some (x0, x1, 0, 0)
  | t :: r =>
      if t_buy t then
        do '(y, sa, ma) <- charge e s t x1 (p1 s);
        do '(z0, z1, f0, f1) <- charge_all e s r x0 y;
        Some (z0, z1, f0, sa + ma + f1)
      else
        do '(y, sa, ma) <- charge e s t x0 (p0 s);
        do '(z0, z1, f0, f1) <- charge_all e s r y x1;
        Some (z0, z1, sa + ma + f0, f1)
  end.

(** orderbook/execute.rs:144-160: one or two trades as one *)
Definition combine (ts : list trade) : option trade :=
  match ts with
  | [t] => Some t
  | [t; u] =>
      if t_in t <? t_out u then Some (mkTrade (t_buy u) (t_in u) (t_in t))
      else if t_out u <? t_in t then Some (mkTrade (t_buy t) (t_in t) (t_in u))
      else None
  | _ => None
  end.
(** orderbook/execute.rs:171-175 *)
Definition trade_price (t : trade) : option Z :=
  if t_buy t then ddiv256 (t_in t) (t_out t) else ddiv256 (t_out t) (t_in t).

(** orderbook/execute.rs:65-193 [process_cumulative_trades], skipped when there are none: the volumes left, the
    fees paid in each asset, the price state *)
Definition process (e : env) (s : state) (ts : list trade) (x0 x1 : Z) : option (Z * Z * Z * Z * pstate) :=
  match ts with
  | [] => Some (x0, x1, 0, 0, pst s)
  | _ =>
      do '(z0, z1, f0, f1) <- charge_all e s ts x0 x1;
      do t <- combine ts;
      do ps <-
        (if (MIN_TRADE_SIZE <=? t_in t) && (MIN_TRADE_SIZE <=? t_out t) then
           do price <- trade_price t;
           do total <- with_prec (supply s) LP_PREC;
           do y1 <- dmul256 z1 (scale (pst s));
           update_price (par s) (rmp s) (pst s) (now e) total z0 y1 price
         else Some (pst s));
      Some (z0, z1, f0, f1, ps)
  end.

(** ** New orders *)

(** orderbook/utils.rs:21-55 [compute_offer_amount]; [sell0] = asset 0 is asked and asset 1 offered; [x0], [x1]
    internal volumes *)
Definition offer_for (p : params) (sc a g d x0 x1 ask : Z) (sell0 : bool) : option Z :=
  do w <- (if sell0 then Some ask else dmul256 ask sc);
  do rest <- sub256 DEC (out_fee p);
  do inv <- dinv rest;
  do before <- dmul256 w inv;
  do n <- sub256 (if sell0 then x0 else x1) before;
  do ny <- newton_y d n a g sell0;
  do dx <- sub256 ny (if sell0 then x1 else x0);
  if sell0 then ddiv256 dx sc else Some dx.

(** orderbook/utils.rs:143-175: price of the [i]-th order of one side, given the value of the earlier ones *)
Definition next_price (size i total_offer sofar : Z) : option Z :=
  if 1 <? i then do r <- sub256 total_offer sofar; ddiv256 r size
  else do amount <- dmul256 size (i * DEC); ddiv256 total_offer amount.
(** orderbook/utils.rs:132-178 [construct_orders]: (sell price, buy price) for each step, [None] when a price is
    zero. [ls], [lb]: value of the earlier orders of each side (120-128 [orderbook_one_side_liquidity], a sum
    which cannot overflow). *)
Fixpoint construct (n : nat) (i : Z) (p : params) (sc a g d x0 x1 s0 s1 ls lb : Z)
    : option (option (list (Z * Z))) :=
  match n with
  | O => Some (Some [])
  | S n' =>
      do k0 <- dmul256 s0 (i * DEC);
      do o1 <- offer_for p sc a g d x0 x1 k0 true;
      do sp <- next_price s0 i o1 ls;
      do k1 <- dmul256 s1 (i * DEC);
      do o0 <- offer_for p sc a g d x0 x1 k1 false;
      do bp <- next_price s1 i o0 lb;
      if (sp =? 0) || (bp =? 0) then Some None
      else
        do vs <- dmul256 sp s0;
        do vb <- dmul256 bp s1;
        do rest <- construct n' (i + 1) p sc a g d x0 x1 s0 s1 (ls + vs) (lb + vb);
        match rest with Some l => Some (Some ((sp, bp) :: l)) | None => Some None end
  end.

(** orderbook/utils.rs:295-313 [price_to_duality_notation]: 27 digits, in the smallest units of both coins *)
Definition duality_price (price bp qp : Z) : option Z :=
  do q <- (if qp <? bp then ddiv256 price (10 ^ (bp - qp) * DEC)
           else if bp <? qp then dmul256 price (10 ^ (qp - bp) * DEC)
           else Some price);
  mul256 q DUALITY_ADJ.
(** A MsgPlaceLimitOrder: [w_amount] of asset 1 ([w_buy]) or of asset 0 *)
Record post := mkPost { w_buy : bool; w_amount : Z; w_limit : Z; w_avg : Z }.
(** orderbook/utils.rs:216-290 [collect_spot_orders] for one order *)
Definition to_post (ad q0 q1 price size : Z) (b : bool) : option post :=
  do x <- dmul256 ad price;
  do limit <- add256 price x;
  let bp := if b then q1 else q0 in
  let qp := if b then q0 else q1 in
  do l <- duality_price limit bp qp;
  do av <- duality_price price bp qp;
  do m <- dmul256 size (10 ^ bp * DEC);
  do amount <- u128 (m / DEC);
  Some (mkPost b amount l av).
Fixpoint to_posts (ad q0 q1 s0 s1 : Z) (l : list (Z * Z)) : option (list post) :=
  match l with
  | [] => Some []
  | (sp, bp) :: r =>
      do a <- to_post ad q0 q1 sp s0 false;
      do b <- to_post ad q0 q1 bp s1 true;
      do rs <- to_posts ad q0 q1 s0 s1 r;
      Some (a :: b :: rs)
  end.
Fixpoint posted (one : bool) (l : list post) : Z :=
  match l with [] => 0 | w :: r => (if eqb (w_buy w) one then w_amount w else 0) + posted one r end.

(** orderbook/state.rs:443-461: order size of one asset *)
Definition order_size (b : obook) (x : Z) : option Z :=
  do h <- ddiv256 (liq b) TWO_D;
  do l <- dmul256 x h;
  ddiv256 l (num b * DEC).
(** orderbook/state.rs:428-510 [deploy_orders]: the messages and the recorded sizes *)
Definition deploy (b : obook) (s : state) (t x0 x1 : Z) (ps : pstate) : option (list post * option (Z * Z)) :=
  if negb (enabled b) then Some ([], sizes b)
  else
    do m0 <- with_prec (min0 b) (p0 s);
    do m1 <- with_prec (min1 b) (p1 s);
    do s0 <- order_size b x0;
    do s1 <- order_size b x1;
    if (s0 <? m0) || (s1 <? m1) then Some ([], sizes b)
    else
      do u0 <- to_uint s0 (p0 s);
      do u1 <- to_uint s1 (p1 s);
      do '(a, g) <- amp_gamma (rmp s) t;
      do y1 <- dmul256 x1 (scale ps);
      do d <- newton_d x0 y1 a g;
      do c <- construct (Z.to_nat (num b)) 1 (par s) (scale ps) a g d x0 y1 s0 s1 0 0;
      match c with
      | None => Some ([], Some (u0, u1))
      | Some l => do ws <- to_posts (adj b) (p0 s) (p1 s) s0 s1 l; Some (ws, Some (u0, u1))
      end.

(** orderbook/utils.rs:374-417 [fetch_autoexecuted_trade] *)
Definition autoexecuted (before : Z * Z) (b0 b1 : Z) : option order :=
  if fst before <? b0 then Some (mkOrder true 0 (b0 - fst before))
  else if snd before <? b1 then Some (mkOrder false 0 (b1 - snd before))
  else None.

(** orderbook/state.rs:337: at most 30 orders are fetched *)
Definition PAGE : nat := 30.

(** The end of every message (execute.rs:257-282, 384-400, 576-593, orderbook/execute.rs:236-254, state.rs:514-537
    and reply.rs:39-66): from the contract's balances [b0], [b1] the book fees are paid, all orders are cancelled,
    the payouts made, the new orders placed; the callback then records the orders and, when some are missing, the
    trade that was made at once. [x0], [x1] are the volumes to deploy. *)
Definition settle (de : denv) (s : state) (o : obook) (d : book) (b0 b1 f0 f1 w0 w1 x0 x1 : Z) (ps : pstate)
    : option (Z * Z * obook * book * list post) :=
  do '(ws, sz) <- deploy o s (now (base de)) x0 x1 ps;
  do a0 <- sub128 b0 f0;
  do a1 <- sub128 b1 f1;
  do '(os, d1) <- cancel (keys o) d;
  do c0 <- add128 a0 (lying false os);
  do c1 <- add128 a1 (lying true os);
  do e0 <- sub128 c0 w0;
  do e1 <- sub128 c1 w1;
  match ws with
  | [] => Some (e0, e1, mkOb (enabled o) (executor o) (num o) (min0 o) (min1 o) (liq o) (adj o) (keys o) None None sz, d1, [])
  | _ =>
      do n0 <- to_uint x0 (p0 s);
      do n1 <- to_uint x1 (p1 s);
      do q0 <- sub128 n0 (posted false ws);
      do q1 <- sub128 n1 (posted true ws);
      do g0 <- sub128 e0 (posted false ws);
      do g1 <- sub128 e1 (posted true ws);
      guard (0 <=? got0 de) && (0 <=? got1 de);
      do k0 <- add128 g0 (got0 de);
      do k1 <- add128 g1 (got1 de);
      let d2 := placed de ++ d1 in
      let ks := firstn PAGE (map fst d2) in
      do dl <- (if Z.of_nat (length ks) <? 2 * num o then do t <- autoexecuted (q0, q1) k0 k1; Some (Some t)
                else Some None);
      Some (k0, k1, mkOb (enabled o) (executor o) (num o) (min0 o) (min1 o) (liq o) (adj o) ks (Some (q0, q1)) dl sz, d2, ws)
  end.

(** ** Messages *)

(** What every message does first: the volumes of contract and book together and the filled orders
    (execute.rs:163-214, 312-345, 446-492, orderbook/execute.rs:206-230). [b0], [b1]: the contract's balances
    including coins attached to the message, [a0], [a1]: the attached amounts, not part of the pool yet. *)
Definition open_book (de : denv) (st : dstate) (b0 b1 a0 a1 : Z) : option (list trade * Z * Z) :=
  let s := pool st in
  do os <- lookup (keys (ob st)) (dex st);
  do ts <- fetch_trades (ob st) os (p0 s) (p1 s) (flip de);
  do t0 <- add128 b0 (lying false os);
  do t1 <- add128 b1 (lying true os);
  do v0 <- with_prec t0 (p0 s);
  do v1 <- with_prec t1 (p1 s);
  do z0 <- with_prec a0 (p0 s);
  do z1 <- with_prec a1 (p1 s);
  do x0 <- sub256 v0 z0;
  do x1 <- sub256 v1 z1;
  Some (ts, x0, x1).

(** The pool after a message *)
Definition close (st : dstate) (b0 b1 sup : Z) (l : ledger) (ps : pstate) (c : Z * Z * Z) (o : obook) (d : book) : dstate :=
  mkD (set_pools (pool st) b0 b1 sup l ps c 0 (obs (pool st)) (pend (pool st))) o d.

(** What a message returns: its result, the orders it places and the fees of filled orders it pays in each asset *)
Record dout := mkOut { o_res : out; o_posts : list post; o_fee0 : Z; o_fee1 : Z }.

(** execute.rs:148-292 [provide_liquidity] *)
Definition provide (de : denv) (st : dstate) (receiver d0 d1 : Z) (tol min_lp : option Z) : option (dstate * dout) :=
  let s := pool st in let e := base de in
  guard (0 <=? d0) && (0 <=? d1) && registered e;
  do total <- with_prec (supply s) LP_PREC;
  do b0 <- add128 (r0 s) d0;
  do b1 <- add128 (r1 s) d1;
  do '(ts, x0, x1) <- open_book de st b0 b1 d0 d1;
  do e0 <- with_prec d0 (p0 s);
  do e1 <- with_prec d1 (p1 s);
  do '(y0, y1, f0, f1, ps1) <- process e s ts x0 x1;
  do '(share, ps2) <- calculate_shares (now e) (par s) (rmp s) ps1 y0 y1 total e0 e1 tol;
  guard (match min_lp with Some m => m | None => 0 end) <=? share;
  let first := supply s =? 0 in
  let lp1 := if first then set (lp s) SELF (get (lp s) SELF + MINIMUM_LIQUIDITY) else lp s in
  let lp2 := set lp1 receiver (get lp1 receiver + share) in
  do sup <- u128 (supply s + (if first then MINIMUM_LIQUIDITY else 0) + share);
  do c <- accumulate_prices s (now e) (last (pst s));
  do n0 <- add256 y0 e0;
  do n1 <- add256 y1 e1;
  do '(k0, k1, o, d, ws) <- settle de s (ob st) (dex st) b0 b1 f0 f1 0 0 n0 n1 ps2;
  Some (close st k0 k1 sup lp2 ps2 c o d, mkOut (OProvide share) ws f0 f1).

(** execute.rs:301-418 [withdraw_liquidity]; [mins]: the minimum amounts in pool order
    (utils.rs:172-227 [ensure_min_assets_to_receive]) *)
Definition withdraw (de : denv) (st : dstate) (who amount : Z) (imbalanced : bool) (mins : option (Z * Z))
    : option (dstate * dout) :=
  let s := pool st in let e := base de in
  guard negb (who =? SELF) && (0 <? amount) && (amount <=? get (lp s) who);
  do '(ts, x0, x1) <- open_book de st (r0 s) (r1 s) 0 0;
  do '(y0, y1, f0, f1, ps) <- process e s ts x0 x1;
  guard negb imbalanced;
  do ratio <- share_ratio (ssub amount 1) (supply s);
  do '(g0, a0) <- refund y0 (p0 s) ratio;
  do '(g1, a1) <- refund y1 (p1 s) ratio;
  do n0 <- sub256 y0 g0;
  do n1 <- sub256 y1 g1;
  guard (match mins with Some (m0, m1) => (m0 <=? a0) && (m1 <=? a1) | None => true end);
  guard can_send true a0 && can_send true a1;
  do '(k0, k1, o, d, ws) <- settle de s (ob st) (dex st) (r0 s) (r1 s) f0 f1 a0 a1 n0 n1 ps;
  do i1 <- dmul256 n1 (scale ps);
  do '(am, ga) <- amp_gamma (rmp s) (now e);
  do dd <- newton_d n0 i1 am ga;
  do x <- get_xcp dd (scale ps);
  do left <- sub128 (supply s) amount;
  do ld <- with_prec left LP_PREC;
  do xr <- ddiv256 x ld;
  Some (close st k0 k1 left (set (lp s) who (get (lp s) who - amount))
          (mkPs (oracle ps) (last ps) (scale ps) (upd ps) (xcp ps) xr) (c01 s, c10 s, last_t s) o d,
        mkOut (OWithdraw a0 a1) ws f0 f1).

(** execute.rs:432-611 [swap]; [one]: asset 1 is offered *)
Definition swap (de : denv) (st : dstate) (one : bool) (offer : Z) (belief max_spread : option Z)
    : option (dstate * dout) :=
  let s := pool st in let e := base de in
  do off <- with_prec offer (if one then p1 s else p0 s);
  do b0 <- (if one then Some (r0 s) else add128 (r0 s) offer);
  do b1 <- (if one then add128 (r1 s) offer else Some (r1 s));
  do '(ts, x0, x1) <- open_book de st b0 b1 (if one then 0 else offer) (if one then offer else 0);
  let pa := if one then p0 s else p1 s in
  guard negb (off =? 0) && negb (x0 =? 0) && negb (x1 =? 0);
  do '(y0, y1, f0, f1, ps1) <- process e s ts x0 x1;
  do old <- calc_last_prices (par s) (rmp s) ps1 (now e) y0 y1;
  do fs <- fee_share_rate s;
  do res <- compute_swap (par s) (rmp s) ps1 (now e) y0 y1 off one (maker_share e) fs;
  do of_ <- outflow res;
  do n_off <- add256 (if one then y1 else y0) off;
  do n_ask <- sub256 (if one then y0 else y1) of_;
  do ret <- to_uint (dy res) pa;
  do spread <- to_uint (spread_fee res) pa;
  do _ok <- assert_max_spread belief max_spread offer ret spread;
  do total <- with_prec (supply s) LP_PREC;
  let n0 := if one then n_ask else n_off in
  let n1 := if one then n_off else n_ask in
  do ps <-
    (if (MIN_TRADE_SIZE <=? of_) && (MIN_TRADE_SIZE <=? off) then
       do price <- last_price res off one;
       do i1 <- dmul256 n1 (scale ps1);
       update_price (par s) (rmp s) ps1 (now e) total n0 i1 price
     else Some ps1);
  guard can_send true ret;
  do shr <- (match fshare s with Some _ => to_uint (share_fee res) pa | None => Some 0 end);
  do mak <- (if maker_on (fees e) then to_uint (maker_fee res) pa else Some 0);
  do c <- accumulate_prices s (now e) old;
  do comm <- to_uint (total_fee res) pa;
  let w := ret + mak + shr in
  do '(k0, k1, o, d, ws) <- settle de s (ob st) (dex st) b0 b1 f0 f1 (if one then w else 0) (if one then 0 else w) n0 n1 ps;
  Some (close st k0 k1 (supply s) (lp s) ps c o d, mkOut (OSwap ret spread comm mak shr) ws f0 f1).

(** orderbook/execute.rs:195-262 [sync_pool_with_orderbook] *)
Definition sync (de : denv) (st : dstate) (sender : Z) : option (dstate * dout) :=
  let s := pool st in let e := base de in
  guard (match executor (ob st) with Some x => sender =? x | None => true end);
  do '(ts, x0, x1) <- open_book de st (r0 s) (r1 s) 0 0;
  match ts with
  | [] => None
  | _ =>
      do old <- calc_last_prices (par s) (rmp s) (pst s) (now e) x0 x1;
      do '(y0, y1, f0, f1, ps) <- process e s ts x0 x1;
      do c <- accumulate_prices s (now e) old;
      do '(k0, k1, o, d, ws) <- settle de s (ob st) (dex st) (r0 s) (r1 s) f0 f1 0 0 y0 y1 ps;
      Some (close st k0 k1 (supply s) (lp s) ps c o d, mkOut ONone ws f0 f1)
  end.

(** orderbook/state.rs:210-230 [validate] *)
Definition valid_ob (o : obook) : bool :=
  (1 <=? num o) && (num o <=? MAX_ORDERS) && (MIN_LIQ <=? liq o) && (liq o <=? MAX_LIQ) &&
  (MIN_ADJ <=? adj o) && (adj o <=? MAX_ADJ) && negb (min0 o =? 0) && negb (min1 o =? 0).

(** packages/astroport/src/pair_concentrated_duality.rs:27-47 [UpdateDualityOrderbook] *)
Record ob_update := mkObUpd
  { v_enable : option bool; v_executor : option Z; v_remove : bool; v_num : option Z; v_min0 : option Z;
    v_min1 : option Z; v_liq : option Z; v_adj : option Z }.
Definition orelse {A} (o : option A) (d : A) : A := match o with Some x => x | None => d end.
(** execute.rs:692-716, orderbook/state.rs:119-178 [update_config] *)
Definition update_ob (de : denv) (st : dstate) (sender : Z) (u : ob_update) : option (dstate * dout) :=
  let s := pool st in let o := ob st in
  guard sender =? eff_owner (base de) s;
  guard negb (v_remove u) || (match v_executor u with None => true | Some _ => false end);
  guard (match v_num u with Some x => fits 255 x | None => true end) &&
        (match v_min0 u with Some x => fits U128MAX x | None => true end) &&
        (match v_min1 u with Some x => fits U128MAX x | None => true end);
  let off := match v_enable u with Some false => true | _ => false end in
  do '(os, d) <- cancel (if off then keys o else []) (dex st);
  let o' := mkOb (orelse (v_enable u) (enabled o))
              (match v_executor u with Some x => Some x | None => if v_remove u then None else executor o end)
              (orelse (v_num u) (num o)) (orelse (v_min0 u) (min0 o)) (orelse (v_min1 u) (min1 o))
              (orelse (v_liq u) (liq o)) (orelse (v_adj u) (adj o))
              (if off then [] else keys o) (pre o) (delayed o) (sizes o) in
  guard valid_ob o';
  do k0 <- add128 (r0 s) (lying false os);
  do k1 <- add128 (r1 s) (lying true os);
  Some (mkD (set_balances s k0 k1 (lp s)) o' d, mkOut ONone [] 0 0).

Inductive dmsg :=
| DProvide (receiver d0 d1 : Z) (tol min_lp : option Z)
| DWithdraw (who amount : Z) (imbalanced : bool) (mins : option (Z * Z))
| DSwap (one : bool) (offer : Z) (belief max_spread : option Z)
| DSync (sender : Z)
| DUpdateOb (sender : Z) (u : ob_update)
| DConfig (m : msg)                       (* parameters, fee share, ownership, plain transfers *)
| Fill (key m t : Z).                     (* a trader on the order book fills an order *)

(** the messages which are handled as in the concentrated pair (execute.rs:90-129, 616-682: the same text) *)
Definition config_msg (m : msg) : bool :=
  match m with Provide _ _ _ _ _ | Withdraw _ _ _ _ | Swap _ _ _ _ => false | _ => true end.

(** execute.rs:36-132 [execute] *)
Definition dstep (de : denv) (m : dmsg) (st : dstate) : option (dstate * dout) :=
  match m with
  | DProvide receiver d0 d1 tol min_lp => provide de st receiver d0 d1 tol min_lp
  | DWithdraw who amount imb mins => withdraw de st who amount imb mins
  | DSwap one offer belief max_spread => guard 0 <=? offer; swap de st one offer belief max_spread
  | DSync sender => sync de st sender
  | DUpdateOb sender u => update_ob de st sender u
  | DConfig m =>
      guard config_msg m;
      do '(s, o) <- step (base de) m (pool st);
      Some (mkD s (ob st) (dex st), mkOut o [] 0 0)
  | Fill k m t =>
      do o <- Amap.find k (dex st);
      guard (0 <=? m) && (m <=? maker o) && (taker o <=? t);
      Some (mkD (pool st) (ob st) (Amap.put k (mkOrder (buy o) m t) (dex st)), mkOut ONone [] 0 0)
  end.
Definition dexec (s : dstate) (em : denv * dmsg) : dstate :=
  match dstep (fst em) (snd em) s with Some (s', _) => s' | None => s end.
Definition drun (s : dstate) (l : list (denv * dmsg)) : dstate := fold_left dexec l s.

(** instantiate.rs:31-144, orderbook/state.rs:89-107 [OrderbookState::new] *)
Definition dinstantiate (t : Z) (u : update) (amp gamma price_scale q0 q1 : Z) (ex : option Z)
    (n m0 m1 lq ad : Z) : option dstate :=
  do s <- instantiate t 0 u amp gamma price_scale false q0 q1 true true;
  let o := mkOb false ex n m0 m1 lq ad [] None None None in
  guard fits 255 n && fits U128MAX m0 && fits U128MAX m1 && valid_ob o;
  Some (mkD s o []).

(** migrate.rs:23-69 [migrate] with MigrateToOrderbook: a concentrated pair becomes an order-book pair.
    [from_pcl]: the stored contract name is that of the concentrated pair, with a version of at least 4.0.0 and
    below 5.0.0. Of the stored configuration only the pair type changes. The order-book code never reads or
    writes tracked balances and observations (queries.rs:68-70, 74-76 refuse these queries), so they are left
    out of the pool here ([strip]); the configuration's flag for tracked balances keeps its value but has no
    effect. *)
Definition strip (s : state) : state :=
  mkState (r0 s) (r1 s) (p0 s) (p1 s) (nat0 s) (nat1 s) (supply s) (lp s) (par s) (rmp s) (pst s) (c01 s) (c10 s)
    (last_t s) (fshare s) (owner s) (proposal s) false snap0 snap0
    (buf_init ObservationModel.OBSERVATIONS_SIZE) None.
Definition migrate_ob (from_pcl : bool) (s : state) (ex : option Z) (n m0 m1 lq ad : Z) : option dstate :=
  let o := mkOb false ex n m0 m1 lq ad [] None None None in
  guard from_pcl && fits 255 n && fits U128MAX m0 && fits U128MAX m1 && valid_ob o;
  Some (mkD (strip s) o []).

(** ** Queries *)

(** queries.rs:105-151 [query_share] *)
Definition dquery_share (de : denv) (st : dstate) (amount : Z) : option (Z * Z) :=
  let s := pool st in
  do '(ts, x0, x1) <- open_book de st (r0 s) (r1 s) 0 0;
  do '(y0, y1, _, _, _) <- process (base de) s ts x0 x1;
  do ratio <- share_ratio (ssub amount 1) (supply s);
  do '(_, a0) <- refund y0 (p0 s) ratio;
  do '(_, a1) <- refund y1 (p1 s) ratio;
  Some (a0, a1).
(** queries.rs:154-234 [query_simulation] *)
Definition dquery_simulation (de : denv) (st : dstate) (one : bool) (offer : Z) : option (Z * Z * Z) :=
  let s := pool st in let e := base de in
  do off <- with_prec offer (if one then p1 s else p0 s);
  do '(ts, x0, x1) <- open_book de st (r0 s) (r1 s) 0 0;
  do '(y0, y1, _, _, ps1) <- process e s ts x0 x1;
  let pa := if one then p0 s else p1 s in
  guard negb (off =? 0) && negb (y0 =? 0) && negb (y1 =? 0);
  do fs <- fee_share_rate s;
  do res <- compute_swap (par s) (rmp s) ps1 (now e) y0 y1 off one (maker_share e) fs;
  do ret <- to_uint (dy res) pa;
  do spread <- to_uint (spread_fee res) pa;
  do comm <- to_uint (total_fee res) pa;
  Some (ret, spread, comm).
(** queries.rs:474-528 [query_simulate_provide] *)
Definition dquery_simulate_provide (de : denv) (st : dstate) (d0 d1 : Z) (tol : option Z) : option Z :=
  let s := pool st in let e := base de in
  do total <- with_prec (supply s) LP_PREC;
  do '(ts, x0, x1) <- open_book de st (r0 s) (r1 s) 0 0;
  do '(y0, y1, _, _, ps1) <- process e s ts x0 x1;
  guard registered e;
  do e0 <- with_prec d0 (p0 s);
  do e1 <- with_prec d1 (p1 s);
  do '(share, _) <- calculate_shares (now e) (par s) (rmp s) ps1 y0 y1 total e0 e1 tol;
  Some share.
