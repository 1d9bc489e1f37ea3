(** Trade-price observations of the stable and concentrated pairs:
    /repo/packages/astroport/src/observation.rs, /repo/contracts/pair_stable/src/utils.rs:334-392
    (the same code in /repo/contracts/pair_concentrated/src/utils.rs:57-115) and the two calls made by a
    swap (/repo/contracts/pair_stable/src/contract.rs:659-673,
    /repo/contracts/pair_concentrated/src/contract.rs:776-789).

    Simplifications: the amounts of a trade are inputs (the swap curve is modelled elsewhere); whether both
    amounts reach MIN_TRADE_SIZE is a flag of the trade. Decimals are their 18-digit atomics. *)
From Coq Require Import ZArith Bool List.
From Verif Require Import Num Amap BufferModel.
Import ListNotations.
Open Scope Z_scope.

(** observation.rs:13 *)
Definition OBSERVATIONS_SIZE : Z := 3000.

(** observation.rs:17-26 [Observation] *)
Record obs := mkObs { ts : Z; price : Z; sma : Z }.
(** observation.rs:155-160 [PrecommitObservation] *)
Record precommit := mkPre { base : Z; quote : Z; pre_ts : Z }.

(** observation.rs:196-200 [try_dec256_into_dec]: Decimal::from_ratio(numerator, 10^18). *)
Definition dec256_into_dec (v : Z) : option Z :=
  do n <- u128 v; dratio n DEC.
(** observation.rs:202-218 [safe_sma_calculation]; Uint128::full_mul cannot overflow. *)
Definition sma_full (s oldest count new : Z) : option Z :=
  do a <- add256 (s * count) new;
  do b <- sub256 a oldest;
  do r <- dratio256 b (DEC * count);
  dec256_into_dec r.
(** observation.rs:220-234 [safe_sma_buffer_not_full] *)
Definition sma_not_full (s count new : Z) : option Z :=
  do a <- add256 (s * count) new;
  do r <- dratio256 a (DEC * (count + 1));
  dec256_into_dec r.

(** pair_stable/src/utils.rs:335-392 [accumulate_swap_sizes]. *)
Definition accumulate (now : Z) (b : store obs) (pc : option precommit) : option (store obs) :=
  match pc with
  | None => Some b
  | Some p =>
      do observed <- dratio (base p) (quote p);
      do lo <- read_last b;
      match lo with
      | Some last =>
          if ts last <? pre_ts p then
            do i <- u32 (head b + 1);
            do o <- read_single b i;
            do s <- (match o with
                     | Some oldest => sma_full (sma last) (price oldest) (capacity b) observed
                     | None => sma_not_full (sma last) (head b) observed
                     end);
            instant_push b (mkObs (pre_ts p) observed s)
          else Some b
      | None =>
          if pre_ts p <? now then instant_push b (mkObs (pre_ts p) observed observed) else Some b
      end
  end.

(** observation.rs:167-187 [PrecommitObservation::save]. *)
Definition pre_save (now : Z) (pc : option precommit) (b q : Z) : option precommit :=
  match pc with
  | Some p =>
      if now =? pre_ts p then
        do b' <- add128 (base p) b; do q' <- add128 (quote p) q; Some (mkPre b' q' now)
      else Some (mkPre b q now)
  | None => Some (mkPre b q now)
  end.

(** The part of the pair state concerned, with the chain's clock in seconds. *)
Record ostate := mkO { clock : Z; buf : store obs; pend : option precommit }.

(** contract.rs:659-673: effect of one swap; [big] = both amounts reach MIN_TRADE_SIZE. *)
Definition trade (s : ostate) (b q : Z) (big : bool) : option ostate :=
  do bf <- accumulate (clock s) (buf s) (pend s);
  if big then do pc <- pre_save (clock s) (pend s) b q; Some (mkO (clock s) bf (Some pc))
  else Some (mkO (clock s) bf (pend s)).

Inductive oop := Wait (d : Z) | Trade (b q : Z) (big : bool).
(** Time passes; a trade that fails leaves the state unchanged. *)
Definition oexec (s : ostate) (o : oop) : ostate :=
  match o with
  | Wait d => if 0 <=? d then mkO (clock s + d) (buf s) (pend s) else s
  | Trade b q big =>
      if (0 <=? b) && (0 <=? q) then match trade s b q big with Some s' => s' | None => s end else s
  end.
Definition orun (s : ostate) (l : list oop) : ostate := fold_left oexec l s.
(** A new pair: the buffer is initialised empty (pair_stable/src/contract.rs, BufferManager::init). *)
Definition oinit (cap t0 : Z) : ostate := mkO t0 (buf_init cap) None.

(** observation.rs:119-152 [binary_search]; [fuel] bounds the loop, running out counts as failure. *)
Fixpoint bsearch (fuel : nat) (b : store obs) (target start fin : Z) : option (obs * obs) :=
  match fuel with
  | O => None
  | S f =>
      do sum <- u32 (start + fin);
      let mid := sum / 2 in
      do l <- read_single b mid;
      do l <- l;
      do m1 <- u32 (mid + 1);
      do r <- read_single b m1;
      do r <- r;
      if (ts l <=? target) && (target <=? ts r) then Some (l, r)
      else if target <? ts l then do e <- u32 (mid - 1); bsearch f b target start e
      else bsearch f b target m1 fin
  end.
(** observation.rs:91-109: price between two neighbours. *)
Definition interpolate (l r : obs) (target : Z) : option Z :=
  if ts l =? target then Some (sma l)
  else if ts r =? target then Some (sma r)
  else if sma l =? sma r then Some (sma l)
  else
    do dt <- sub64 (ts r) (ts l);
    do inv <- dratio 1 dt;
    do slope <- dmul (Z.abs (sma r - sma l)) inv;
    do el <- sub64 target (ts l);
    do ti <- dratio el 1;
    do ch <- dmul slope ti;
    if sma r <? sma l then sub128 (sma l) ch else add128 (sma l) ch.
(** observation.rs:34-115 [query_observation]; the returned timestamp is the target. *)
Definition query_observation (s : ostate) (seconds_ago : Z) : option (Z * Z) :=
  do target <- sub64 (clock s) seconds_ago;
  let b := buf s in
  do newest0 <- (do a <- u32 (head b + capacity b); u32 (a - 1));
  do ex <- buf_exists b (head b);
  if negb ex && negb (0 <? head b) then
    match pend s with
    | Some p => if pre_ts p <=? target then do x <- dratio (base p) (quote p); Some (target, x) else None
    | None => None
    end
  else
    let oldest := if ex then head b else 0 in
    let newest := if ex then newest0 else newest0 mod capacity b in
    do n <- read_single b newest; do n <- n;
    if ts n <=? target then Some (target, sma n)
    else
      do o <- read_single b oldest; do o <- o;
      if target =? ts o then Some (target, sma o)
      else if target <? ts o then None
      else
        do '(l, r) <- bsearch (S (Z.to_nat newest)) b target oldest newest;
        do p <- interpolate l r target;
        Some (target, p).
