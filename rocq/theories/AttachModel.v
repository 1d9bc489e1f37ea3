(** What a message to a pair carries: attached coins, listed assets and tokens pulled or sent by a hook.
    packages/astroport/src/asset.rs:255-352 and the entry points of
    contracts/{pair,pair_xyk_sale_tax,pair_stable,pair_concentrated,pair_concentrated_duality}.

    The pair models (XykModel, SaleTaxModel, StableModel, PclModel, DualityModel) start from two deposits in
    pool order, or an offered asset and amount; this file models the code that obtains these from a message.
    Simplifications: denoms and token addresses are numbers; address checks and the factory's registration
    check succeed; coins attached to a message are on the pair's balance when it runs (as the bank does). *)
From Coq Require Import ZArith Bool List.
From Verif Require Import Num.
Import ListNotations.
Open Scope Z_scope.

(** asset.rs:354-380 [AssetInfo]. *)
Inductive info := Native (denom : Z) | Token (contract : Z).
Definition info_eqb (a b : info) : bool :=
  match a, b with
  | Native x, Native y | Token x, Token y => x =? y
  | _, _ => false
  end.
Definition asset : Type := info * Z.
Definition coin : Type := Z * Z.

(** The first element satisfying a test ([Iterator::find], [contains], [all_unique] of itertools). *)
Definition contains (l : list info) (i : info) : bool := existsb (info_eqb i) l.
Fixpoint all_unique (l : list info) : bool :=
  match l with [] => true | i :: r => negb (contains r i) && all_unique r end.
Definition amount_of (l : list asset) (i : info) : option Z :=
  option_map snd (List.find (fun a => info_eqb (fst a) i) l).

(** asset.rs:323-328: the amount of the first coin with this denom, 0 if there is none. *)
Definition coin_amount (funds : list coin) (d : Z) : Z :=
  match List.find (fun c => fst c =? d) funds with Some c => snd c | None => 0 end.

(** asset.rs:297-352 [assert_coins_properly_sent]. *)
Definition coins_properly_sent (funds : list coin) (assets : list asset) (pool : list info) : bool :=
  negb (match assets with [] => true | _ => false end) &&
  all_unique (map fst assets) &&
  forallb (fun a => contains pool (fst a) &&
                    match fst a with Native d => coin_amount funds d =? snd a | Token _ => true end) assets &&
  forallb (fun c => contains pool (Native (fst c))) funds.

(** pair/src/contract.rs:1308-1337 [get_deposits_from_assets] (same in pair_xyk_sale_tax 1301-1330). *)
Definition get_deposits_from_assets (p0 p1 : info) (assets : list asset) : option (Z * Z) :=
  guard Nat.eqb (length assets) 2;
  do d0 <- amount_of assets p0;
  do d1 <- amount_of assets p1;
  guard negb ((d0 =? 0) || (d1 =? 0));
  Some (d0, d1).

(** pair_concentrated/src/utils.rs:117-169 and pair_concentrated_duality/src/utils.rs:34-85
    [get_assets_with_precision]: the listed assets brought into pool order, a missing one appended with
    amount 0.  Simplification: amounts stay integers here (the conversion to decimals is in PclModel). *)
Definition get_assets (p0 p1 : info) (assets : list asset) : option (list asset) :=
  do l <- match assets with
          | [a] => if info_eqb p0 (fst a) then Some [a; (p1, 0)]
                   else if info_eqb p1 (fst a) then Some [a; (p0, 0)] else None
          | [a; b] => Some [a; b]
          | _ => None
          end;
  guard all_unique (map fst l);
  let l := match l with
           | [a; b] => if info_eqb p0 (fst b) then [b; a] else [a; b]
           | _ => l
           end in
  guard forallb (fun a => contains [p0; p1] (fst a)) l;
  Some l.

(** pair_stable/src/utils.rs:476-529 [get_assets_collection]: every listed asset with its pool, in the order
    of the list.  [q] are the queried balances.  The branch appending omitted assets is dead: the list has as
    many distinct assets as the pool. *)
Definition get_assets_collection (p0 p1 : info) (q : info -> Z) (assets : list asset)
  : option (list (asset * Z)) :=
  guard all_unique (map fst assets);
  guard Nat.eqb (length assets) 2;
  guard forallb (fun a => contains [p0; p1] (fst a)) assets;
  guard existsb (fun a => negb (snd a =? 0)) assets;
  Some (map (fun a => (a, q (fst a))) assets).

(** Which pair. *)
Inductive kind := Xyk | Stable | Pcl.

(** The pair's balances when the message runs: those before plus the attached coins. *)
Definition queried (b : info -> Z) (funds : list coin) (i : info) : Z :=
  b i + match i with Native d => coin_amount funds d | Token _ => 0 end.

(** The deposits the pair works with, in pool order (for the stable pair in the order of the list).
    pair/src/contract.rs:366-370, pair_stable/src/contract.rs:349-360, pair_concentrated/src/contract.rs:445-454,
    pair_concentrated_duality/src/execute.rs:176-180. *)
Definition deposits (k : kind) (p0 p1 : info) (assets : list asset) (funds : list coin) : option (list asset) :=
  match k with
  | Xyk =>
      do d <- get_deposits_from_assets p0 p1 assets;
      guard coins_properly_sent funds assets [p0; p1];
      Some [(p0, fst d); (p1, snd d)]
  | Stable =>
      do l <- get_assets_collection p0 p1 (fun _ => 0) assets;
      guard coins_properly_sent funds assets [p0; p1];
      Some (map fst l)
  | Pcl =>
      do l <- get_assets p0 p1 assets;
      guard coins_properly_sent funds l [p0; p1];
      Some l
  end.

(** A provide as far as coins are concerned: the reserves the shares are computed from and the transfers of
    CW20 tokens from the sender, each with the listed asset it belongs to.  [k] decides whether a transfer of
    zero tokens is ordered (pair/src/contract.rs:375-391 always; pair_stable/src/contract.rs:364-389 and
    pair_concentrated/src/contract.rs:456-481 only for amounts above zero).  The reserve of a native asset is
    the queried balance less the deposit. *)
Record provided := mkProvided { reserves : list asset; deposited : list asset; pulls : list asset }.
Fixpoint settle (k : kind) (q : info -> Z) (l : list asset) : option (list asset * list asset) :=
  match l with
  | [] => Some ([], [])
  | (i, d) :: r =>
      match i with
      | Token _ =>
          do x <- settle k q r;
          Some ((i, q i) :: fst x,
                if (match k with Xyk => true | _ => false end) || negb (d =? 0) then (i, d) :: snd x else snd x)
      | Native _ =>
          do v <- sub128 (q i) d;
          do x <- settle k q r;
          Some ((i, v) :: fst x, snd x)
      end
  end.
Definition provide_coins (k : kind) (p0 p1 : info) (b : info -> Z) (assets : list asset) (funds : list coin)
  : option provided :=
  do l <- deposits k p0 p1 assets funds;
  do x <- settle k (queried b funds) l;
  Some (mkProvided (fst x) l (snd x)).

(** cw_utils [one_coin] and [must_pay] (cw-utils payment.rs, a dependency): exactly one coin, not zero. *)
Definition one_coin (funds : list coin) : option coin :=
  match funds with
  | [c] => if snd c =? 0 then None else Some c
  | _ => None
  end.
Definition must_pay (funds : list coin) (d : Z) : option Z :=
  do c <- one_coin funds;
  guard fst c =? d;
  Some (snd c).

(** asset.rs:255-271 [assert_sent_native_token_balance]. *)
Definition assert_sent (a : asset) (funds : list coin) : bool :=
  match fst a with
  | Native d => match must_pay funds d with Some v => snd a =? v | None => false end
  | Token _ => true
  end.

(** A swap reaches the pair directly (with attached coins) or through a CW20 hook: the token contract calls
    with the amount already transferred. *)
Inductive swap_msg :=
| Direct (offer : asset) (funds : list coin)
| Hook (contract amount : Z).

(** Result: the offered asset and the reserves (queried balance, less the offer for the offered asset).
    pair/src/contract.rs:243-330 and 625-656, pair_xyk_sale_tax/src/contract.rs:605-631,
    pair_stable/src/contract.rs:214-232, 288-330 and 535-553, pair_concentrated/src/contract.rs:302-330, 386-412
    and its swap; the order-book pair (execute.rs:59-85) accepts direct swaps only and needs no separate test for
    native assets since its pool has no others. *)
Definition swap_coins (p0 p1 : info) (b : info -> Z) (m : swap_msg) : option (asset * list asset) :=
  do r <- match m with
          | Direct a funds =>
              match fst a with
              | Token _ => None
              | Native _ => guard assert_sent a funds; Some (a, queried b funds)
              end
          | Hook c v =>
              guard contains [p0; p1] (Token c);
              Some ((Token c, v), fun i => b i + (if info_eqb i (Token c) then v else 0))
          end;
  let '(a, q) := r in
  guard contains [p0; p1] (fst a);
  let less (i : info) := if info_eqb i (fst a) then sub128 (q i) (snd a) else Some (q i) in
  do v0 <- less p0;
  do v1 <- less p1;
  Some (a, [(p0, v0); (p1, v1)]).

(** pair/src/contract.rs:516-522, pair_stable/src/contract.rs:462-468, pair_concentrated/src/contract.rs:563-569,
    pair_xyk_sale_tax/src/contract.rs:498-504, pair_concentrated_duality/src/execute.rs:310: the LP tokens sent
    with a withdrawal. *)
Definition withdraw_coins (lp : Z) (funds : list coin) : option Z :=
  do c <- one_coin funds;
  guard fst c =? lp;
  Some (snd c).
