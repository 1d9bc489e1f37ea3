(** Mathematics of the concentrated pair:
    /repo/packages/astroport_pcl_common/src/math/{mod,math_decimal,signed_decimal}.rs.

    A [SignedDecimal256] (a Decimal256 magnitude and a sign) is a [Z] here; its products and quotients round
    the magnitude down, i.e. towards zero ([Z.quot]). The two zeros of the sign-magnitude form are not
    distinguished: no operation of the file tells them apart (signed_decimal.rs:34-40 [diff], 55-68
    [try_into]). Every intermediate result must fit 256 bits, otherwise the transaction reverts. *)
From Coq Require Import ZArith Bool List.
From Verif Require Import Num.
Import ListNotations.
Open Scope Z_scope.

(** consts.rs:13-28, math_decimal.rs:8 *)
Definition TWO_D : Z := 2000000000000000000.                     (* N and TWO: 2.0 *)
Definition FOUR_D : Z := 4000000000000000000.                    (* N_POW2 *)
Definition TOL : Z := 10000000000000.                            (* 1e-5 *)
Definition HALFPOW_TOL : Z := 100000000.                         (* 1e-10 *)
Definition PADDING : Z := 1000000000000000000000000000000000000. (* 1e18 *)
Definition MAX_ITER : nat := 64.
Definition HALF_D : Z := 500000000000000000.

(** ** SignedDecimal256 (signed_decimal.rs) *)
Definition sfit (z : Z) : option Z := if Z.abs z <=? U256MAX then Some z else None.
Definition sadd (a b : Z) := sfit (a + b).
Definition ssubt (a b : Z) := sfit (a - b).
Definition smul (a b : Z) := sfit (Z.quot (a * b) DEC).
Definition sdiv (a b : Z) := if b =? 0 then None else sfit (Z.quot (a * DEC) b).
Definition ssq (a : Z) := smul a a.                               (* pow(2) *)
Definition scube (a : Z) := do q <- smul a a; smul q a.            (* pow(3) *)

(** Decimal256::sqrt (cosmwasm-std 1.5.5 math/decimal256.rs): the highest precision that does not overflow,
    from 9 down to 0. *)
Fixpoint dsqrt_at (x : Z) (i : nat) : Z :=
  let v := x * 100 ^ Z.of_nat i in
  if v <=? U256MAX then Z.sqrt v * 10 ^ (9 - Z.of_nat i)
  else match i with S j => dsqrt_at x j | O => 0 end.
Definition dsqrt (x : Z) : Z := dsqrt_at x 9.
(** math_decimal.rs:10-12 [geometric_mean] *)
Definition geometric_mean (x y : Z) : option Z := do p <- dmul256 x y; Some (dsqrt p).

(** A * gamma^2 *)
Definition ann (a g : Z) : option Z := do q <- dmul256 g g; dmul256 a q.
Definition gamma1 (g : Z) : option Z := add256 g DEC.

(** math_decimal.rs:14-28 [f] *)
Definition f (d x0 x1 a g : Z) : option Z :=
  do mul <- smul x0 x1;
  do d2 <- ssq d;
  do prod <- smul mul FOUR_D;
  do ag <- ann a g;
  do kn <- smul ag prod;
  do g1 <- gamma1 g;
  do k0 <- sdiv prod d2;
  do gk <- ssubt g1 k0;
  do gk2 <- ssq gk;
  do kd <- smul gk2 d2;
  do k <- sdiv kn kd;
  do sum <- sadd x0 x1;
  do t1 <- smul d sum;
  do t2 <- smul t1 k;
  do t3 <- sadd t2 mul;
  do t4 <- smul k d2;
  do t5 <- ssubt t3 t4;
  do t6 <- sdiv d2 FOUR_D;
  ssubt t5 t6.

(** math_decimal.rs:31-56 [df_dd] *)
Definition df_dd (d x0 x1 a g : Z) : option Z :=
  do ag <- ann a g;
  do g1 <- gamma1 g;
  do d2 <- ssq d;
  do mul <- smul x0 x1;
  do prod <- smul mul FOUR_D;
  do sum <- sadd x0 x1;
  do k0 <- sdiv prod d2;
  do k0p <- smul (- TWO_D) prod;
  do gk <- ssubt g1 k0;
  do gk2 <- ssq gk;
  do kn <- smul ag k0;
  do k <- sdiv kn gk2;
  do pag <- dmul256 PADDING ag;
  do n1 <- smul pag k0p;
  do g1k <- sadd g1 k0;
  do kpn <- smul n1 g1k;
  do d3 <- scube d;
  do q1 <- smul PADDING d3;
  do q2 <- smul q1 gk;
  do q3 <- smul q2 gk;
  do kpd <- smul q3 gk;
  do a1 <- smul kpn d;
  do a2 <- smul a1 sum;
  do a3 <- sdiv a2 kpd;
  do a4 <- smul k sum;
  do a5 <- sadd a3 a4;
  do b1 <- smul kpn d2;
  do b2 <- sdiv b1 kpd;
  do c1 <- ssubt a5 b2;
  do b3 <- smul TWO_D k;
  do b4 <- smul b3 d;
  do c2 <- ssubt c1 b4;
  do b5 <- sdiv d TWO_D;
  ssubt c2 b5.

(** math_decimal.rs:58-75 [newton_d]: the loop, with [n] iterations left *)
Fixpoint newton_d_from (n : nat) (dp x0 x1 a g : Z) : option Z :=
  match n with
  | O => None
  | S n' =>
      do v <- f dp x0 x1 a g;
      do dv <- df_dd dp x0 x1 a g;
      do q <- sdiv v dv;
      do d <- ssubt dp q;
      do df <- u256 (Z.abs (d - dp));
      if df <=? TOL then (guard 0 <=? d; Some d) else newton_d_from n' d x0 x1 a g
  end.
Definition newton_d (x0 x1 a g : Z) : option Z :=
  do m <- geometric_mean x0 x1;
  do d0 <- dmul256 TWO_D m;
  newton_d_from MAX_ITER d0 x0 x1 a g.

(** math_decimal.rs:78-99 [df_dx]; [xr] is the volume that is not searched for *)
Definition df_dx (d x0 x1 xr a g : Z) : option Z :=
  do d2 <- dmul256 d d;
  do mul <- smul x0 x1;
  do prod <- smul mul FOUR_D;
  do k0 <- sdiv prod d2;
  do g1 <- gamma1 g;
  do gk <- ssubt g1 k0;
  do gk2 <- ssq gk;
  do ag <- ann a g;
  do kn <- smul ag k0;
  do k <- sdiv kn gk2;
  do k0x <- smul xr FOUR_D;
  do n1 <- smul k0x ag;
  do g1k <- sadd g1 k0;
  do n2 <- smul n1 g1k;
  do n3 <- smul n2 PADDING;
  do q1 <- dmul256 PADDING d2;
  do q2 <- smul q1 gk;
  do q3 <- smul q2 gk2;
  do kx <- sdiv n3 q3;
  do sum <- sadd x0 x1;
  do t1 <- smul kx sum;
  do t2 <- sadd t1 k;
  do t3 <- smul t2 d;
  do t4 <- sadd t3 xr;
  do t5 <- smul kx d2;
  ssubt t4 t5.

(** math_decimal.rs:101-123 [newton_y]; [one]: the volume searched for is that of asset 1, [xr] the other *)
Fixpoint newton_y_from (n : nat) (d xi1 xr a g : Z) (one : bool) : option Z :=
  match n with
  | O => None
  | S n' =>
      let x0 := if one then xr else xi1 in
      let x1 := if one then xi1 else xr in
      do v <- f d x0 x1 a g;
      do dv <- df_dx d x0 x1 xr a g;
      do q <- sdiv v dv;
      do xi <- ssubt xi1 q;
      do df <- u256 (Z.abs (xi - xi1));
      if df <=? TOL then (guard 0 <=? xi; Some xi) else newton_y_from n' d xi xr a g one
  end.
Definition newton_y (d xr a g : Z) (one : bool) : option Z :=
  do d2 <- dmul256 d d;
  do q <- smul FOUR_D xr;
  do y0 <- sdiv d2 q;
  newton_y_from MAX_ITER d y0 xr a g one.

(** mod.rs:41-44 [get_xcp] *)
Definition get_xcp (d scale : Z) : option Z :=
  do a <- ddiv256 d TWO_D;
  do q <- dmul256 TWO_D scale;
  do b <- ddiv256 d q;
  geometric_mean a b.

(** Decimal256::pow (cosmwasm-std): exponentiation by squaring, every product floored; [fuel] is at least the
    number of binary digits. *)
Fixpoint dpow_from (fuel : nat) (x y n : Z) : option Z :=
  match fuel with
  | O => None
  | S k =>
      if n <=? 1 then dmul256 x y
      else if Z.even n then do x2 <- dmul256 x x; dpow_from k x2 y (n / 2)
      else do y2 <- dmul256 x y; do x2 <- dmul256 x x; dpow_from k x2 y2 ((n - 1) / 2)
  end.
Definition dpow (x n : Z) : option Z := if n =? 0 then Some DEC else dpow_from 33 x DEC n.

(** math_decimal.rs:126-153 [half_float_pow]; the loop over i = 1..63 *)
Fixpoint half_from (fuel : nat) (i frac term sum result : Z) : option Z :=
  match fuel with
  | O => None
  | S k =>
      let c := Z.abs (frac - (i - 1) * DEC) in
      do t1 <- dmul256 term c;
      do t2 <- dmul256 t1 HALF_D;
      do t3 <- ddiv256 t2 (i * DEC);
      do s <- sub256 sum t3;
      if t3 <? HALFPOW_TOL then dmul256 result s else half_from k (i + 1) frac t3 s result
  end.
Definition half_float_pow (power : Z) : option Z :=
  let int := power / DEC in
  do i <- u128 int;
  do result <- dpow HALF_D (i mod 4294967296);
  half_from 63 1 (power - int * DEC) DEC DEC result.
