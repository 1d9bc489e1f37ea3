(** Numerical core of the stable pair: /repo/contracts/pair_stable/src/math.rs.
    Decimal256 values are their atomics (units of 10^-18). *)
From Coq Require Import ZArith Bool List.
From Verif Require Import Num.
Open Scope Z_scope.

(** math.rs:8-18 *)
Definition ITERATIONS : nat := 64.
Definition MAX_AMP : Z := 1000000.
Definition MAX_AMP_CHANGE : Z := 10.
Definition MIN_AMP_CHANGING_TIME : Z := 86400.
Definition AMP_PRECISION : Z := 100.
Definition N_COINS : Z := 2000000000000000000.
Definition TOL : Z := 1000000000000.

(** packages/astroport/src/asset.rs:870-876 [with_precision] and 833-843 [to_uint128_with_precision].
    Precisions above 18 make the second one panic, so every swap fails; the model rejects them in both. *)
Definition with_prec (v p : Z) : option Z :=
  guard (0 <=? p) && (p <=? 18); u256 (v * 10 ^ (18 - p)).
Definition to_prec (v p : Z) : option Z :=
  guard (0 <=? p) && (p <=? 18); u128 (v / 10 ^ (18 - p)).

(** Decimal256::pow(3) and checked_pow(2): exponentiation by squaring, each product floored. *)
Definition pow3 (d : Z) : option Z :=
  do x2 <- dmul256 d d;
  dmul256 x2 d.
Definition pow2 (d : Z) : option Z := dmul256 d d.

(** math.rs:58-77 [calculate_step]. *)
Definition calculate_step (d leverage sum_x dp : Z) : option Z :=
  do lm <- dmul256 leverage sum_x;
  do dpm <- dmul256 dp N_COINS;
  do l0 <- add256 lm dpm;
  do l_val <- dmul256 l0 d;
  do lev1 <- sub256 leverage DEC;
  do ls <- dmul256 d lev1;
  do ns <- dmul256 dp (N_COINS + DEC);
  do r_val <- add256 ls ns;
  ddiv256 l_val r_val.

(** math.rs:36-46: the iteration; [ab] is the product of the doubled reserves. *)
Fixpoint d_loop (n : nat) (leverage sum_x ab d : Z) : option Z :=
  match n with
  | O => None
  | S n' =>
      do p <- pow3 d;
      do dp <- ddiv256 p ab;
      do d' <- calculate_step d leverage sum_x dp;
      if Z.abs (d' - d) <=? TOL then Some d' else d_loop n' leverage sum_x ab d'
  end.

(** math.rs:25-52 [compute_d]. *)
Definition compute_d (amp x y : Z) : option Z :=
  do a <- dratio256 amp AMP_PRECISION;
  do leverage <- dmul256 a N_COINS;
  do x2 <- dmul256 x N_COINS;
  do y2 <- dmul256 y N_COINS;
  do sum_x <- add256 x y;
  if sum_x =? 0 then Some 0
  else do ab <- dmul256 x2 y2; d_loop ITERATIONS leverage sum_x ab sum_x.

(** math.rs:104-114: the iteration for y. *)
Fixpoint y_loop (n : nat) (b c d y : Z) : option Z :=
  match n with
  | O => None
  | S n' =>
      do y2 <- pow2 y;
      do num <- add256 y2 c;
      do y2n <- dmul256 y N_COINS;
      do q0 <- add256 y2n b;
      do q <- sub256 q0 d;
      do y' <- ddiv256 num q;
      if Z.abs (y' - y) <=? TOL then Some y' else y_loop n' b c d y'
  end.

(** math.rs:86-119 [calc_y]; [y_raw] is the result before conversion to the target precision. *)
Definition y_raw (amp new_amount x y : Z) : option Z :=
  do d <- compute_d amp x y;
  do a <- dratio256 amp 1;
  do leverage <- dmul256 a N_COINS;
  do amp_prec <- dratio256 AMP_PRECISION 1;
  do p <- pow3 d;
  do num <- dmul256 p amp_prec;
  do nn <- dmul256 N_COINS N_COINS;
  do n4 <- dmul256 new_amount nn;
  do den <- dmul256 n4 leverage;
  do c <- ddiv256 num den;
  do da <- dmul256 d amp_prec;
  do db <- ddiv256 da leverage;
  do b <- add256 new_amount db;
  y_loop ITERATIONS b c d d.
Definition calc_y (amp new_amount x y target_precision : Z) : option Z :=
  do r <- y_raw amp new_amount x y; to_prec r target_precision.
