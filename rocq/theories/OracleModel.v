(** TWAP oracle: /repo/contracts/periphery/oracle/src/contract.rs.
    Assets are integers.  The pair's answers (cumulative prices, simulation) are inputs;
    the migration is in MiscMigrateModel, its configuration is not modelled. *)
From Coq Require Import ZArith Lia Bool List.
From Verif Require Import Num.
Import ListNotations.
Open Scope Z_scope.

Definition PERIOD : Z := 86400.            (* contract.rs:24 *)
Definition price_list := list (Z * Z * Z).  (* (from asset, to asset, value) *)

(** state.rs:13-21 [PriceCumulativeLast]; averages are Decimal256. *)
Record state := mkState { cum : price_list; avg : price_list; last_t : Z }.

(** contract.rs:28-70 [instantiate]: zero averages. *)
Definition instantiate (t : Z) (prices : price_list) : state :=
  mkState prices (map (fun p => (fst p, 0)) prices) t.

(** contract.rs:98-113: one average price. *)
Definition average (now_p last_p elapsed : Z) : option Z :=
  muldiv256 (wsub128 now_p last_p) DEC elapsed.

(** contract.rs:100-113: the two nested loops over stored and fresh cumulative prices. *)
Fixpoint inner (a b lp : Z) (fresh : price_list) (elapsed : Z) : option price_list :=
  match fresh with
  | [] => Some []
  | (a', b', p) :: r =>
      do rest <- inner a b lp r elapsed;
      if (a' =? a) && (b' =? b) then do v <- average p lp elapsed; Some ((a', b', v) :: rest)
      else Some rest
  end.
Fixpoint averages (stored fresh : price_list) (elapsed : Z) : option price_list :=
  match stored with
  | [] => Some []
  | (a, b, lp) :: r =>
      do h <- inner a b lp fresh elapsed;
      do t <- averages r fresh elapsed;
      Some (h ++ t)
  end.

(** contract.rs:87-123 [update]. *)
Definition update (s : state) (now : Z) (fresh : price_list) : option state :=
  do elapsed <- sub64 now (last_t s);
  guard PERIOD <=? elapsed;
  do av <- averages (cum s) fresh elapsed;
  Some (mkState fresh av now).

Definition exec (s : state) (x : Z * price_list) : state :=
  match update s (fst x) (snd x) with Some s' => s' | None => s end.
Definition run (s : state) (l : list (Z * price_list)) : state := fold_left exec l s.

(** contract.rs:141-187 [consult]: for every stored average starting at [token], the converted
    amount; a zero average falls back to the pair's simulation of one whole token ([spot]),
    [one] = 10^precision, TWAP_PRECISION = 6. *)
Definition consult_one (spot : Z -> option Z) (one amount to v : Z) : option (Z * Z) :=
  if v =? 0 then
    do p <- spot to;
    do r <- muldiv256 p amount one;
    Some (to, r)
  else
    do x <- umul256 amount v;
    Some (to, x / 1000000).
Fixpoint consult_all (spot : Z -> option Z) (one amount : Z) (l : list (Z * Z)) : option (list (Z * Z)) :=
  match l with
  | [] => Some []
  | (to, v) :: r =>
      do x <- consult_one spot one amount to v;
      do rest <- consult_all spot one amount r;
      Some (x :: rest)
  end.
Definition from_token (token : Z) (l : price_list) : list (Z * Z) :=
  map (fun p => (snd (fst p), snd p)) (filter (fun p => fst (fst p) =? token) l).
Definition consult (spot : Z -> option Z) (s : state) (token one amount : Z) : option (list (Z * Z)) :=
  match from_token token (avg s) with
  | [] => None
  | l => consult_all spot one amount l
  end.
