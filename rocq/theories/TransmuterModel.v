(** Transmuter pair (1:1 swaps between assets of equal value):
    /repo/contracts/pair_transmuter/src/{contract,utils,state,queries}.rs.

    Simplifications: denoms and users are numbers; the pair's own reserves are its bank balances
    [pools]; LP balances are the ledger [lp], whose total is the LP supply; attached LP tokens are
    moved and burned in one step; tokenfactory mints and burns succeed (also for amount 0); payments
    fail if the pair's balance does not cover them. [Donate] is a plain bank transfer to the pair,
    [LpTransfer] a plain transfer of LP tokens between users. *)
From Coq Require Import ZArith Bool List.
From Verif Require Import Num Ledger.
From Verif Require Amap.
Import ListNotations.
Open Scope Z_scope.

(** The normalisation coefficient of each pool asset, in pool order (state.rs:12-20 [Config]). *)
Definition config := list (Z * Z).
Definition coin : Type := Z * Z.

Definition coef (c : config) (d : Z) : option Z := Amap.find d c.
Definition in_pool (c : config) (d : Z) : bool := existsb (fun p => fst p =? d) c.

Fixpoint unique (l : list Z) : bool :=
  match l with [] => true | x :: r => negb (existsb (Z.eqb x) r) && unique r end.

(** state.rs:23-45 [Config::new] and contract.rs:40-44: 2 to 5 distinct native assets;
    [10u64.pow(max)] overflows above 10^19. *)
Definition new_config (decs : list (Z * Z)) : option config :=
  guard (1 <? Z.of_nat (length decs)) && (Z.of_nat (length decs) <=? 5);
  guard unique (map fst decs);
  let mx := fold_right (fun p a => Z.max (snd p) a) 0 decs in
  do _ <- u64 (10 ^ mx);
  Some (map (fun p => (fst p, 10 ^ mx / 10 ^ (snd p))) decs).

Record state := mkState { cfg : config; pools : ledger; lp : ledger }.

(** state.rs:47-54 [normalize], 56-63 [denormalize]. *)
Definition normalize (c : config) (a : coin) : option Z :=
  do k <- coef c (fst a); mul128 (snd a) k.
Definition denormalize (c : config) (d n : Z) : option Z :=
  do k <- coef c d; guard negb (k =? 0); Some (n / k).

(** Coins arriving at / leaving the pair. *)
Fixpoint credit (b : ledger) (l : list coin) : ledger :=
  match l with [] => b | (d, a) :: r => credit (set b d (get b d + a)) r end.
Fixpoint debit (b : ledger) (l : list coin) : option ledger :=
  match l with
  | [] => Some b
  | (d, a) :: r => do v <- sub128 (get b d) a; debit (set b d v) r
  end.

(** Amount of [d] among the attached coins, 0 if absent. *)
Definition sent (funds : list coin) (d : Z) : Z := get funds d.

(** packages/astroport/src/asset.rs:297-352 [assert_coins_properly_sent]. *)
Definition coins_ok (c : config) (assets funds : list coin) : bool :=
  negb (match assets with [] => true | _ => false end) &&
  unique (map fst assets) &&
  forallb (fun a => in_pool c (fst a) && (sent funds (fst a) =? snd a)) assets &&
  forallb (fun f => in_pool c (fst f)) funds.

(** Attached coins as the bank delivers them: distinct denoms, positive 128-bit amounts. *)
Definition funds_ok (funds : list coin) : bool :=
  unique (map fst funds) && forallb (fun f => (0 <? snd f) && (snd f <=? U128MAX)) funds.

Fixpoint sum_norm (c : config) (l : list coin) (acc : Z) : option Z :=
  match l with
  | [] => Some acc
  | a :: r => do n <- normalize c a; do acc' <- add128 acc n; sum_norm c r acc'
  end.

(** contract.rs:225-262 [provide_liquidity]: the minted share. *)
Definition provide_share (c : config) (assets funds : list coin) : option Z :=
  guard unique (map fst assets);
  guard coins_ok c assets funds;
  sum_norm c assets 0.

(** utils.rs:41-55 [get_share_in_assets]. *)
Fixpoint share_in (c : config) (b : ledger) (ratio : Z) : option (list coin) :=
  match c with
  | [] => Some []
  | (d, _) :: r => do a <- umul (get b d) ratio; do l <- share_in r b ratio; Some ((d, a) :: l)
  end.
Definition get_share_in_assets (s : state) (amount : Z) : option (list coin) :=
  do ratio <- dratio amount (total (lp s));
  share_in (cfg s) (pools s) ratio.

(** contract.rs:158-179: LP tokens needed for the listed assets. *)
Fixpoint required (c : config) (b : ledger) (l : list coin) (acc : Z) : option Z :=
  match l with
  | [] => Some acc
  | a :: r =>
      guard in_pool c (fst a);
      do _ <- sub128 (get b (fst a)) (snd a);
      do n <- normalize c a;
      do acc' <- add128 acc n;
      required c b r acc'
  end.

(** contract.rs:135-216 [withdraw_liquidity]: LP tokens burned and coins paid. *)
Definition withdraw (s : state) (amount : Z) (assets : list coin) : option (Z * list coin) :=
  match assets with
  | [] => do l <- get_share_in_assets s amount; Some (amount, l)
  | _ =>
      do req <- required (cfg s) (pools s) assets 0;
      do _ <- sub128 amount req;
      Some (req, assets)
  end.

(** utils.rs:57-97 [assert_and_swap]; [b] are the pair's balances at that moment. *)
Definition swap_out (c : config) (b : ledger) (offer : coin) (ask : option Z) : option coin :=
  do n <- normalize c offer;
  do ad <- (if 2 <? Z.of_nat (length c) then ask
            else option_map fst (List.find (fun p => negb (fst p =? fst offer)) c));
  guard in_pool c ad;
  do a <- denormalize c ad n;
  guard a <=? get b ad;
  Some (ad, a).

(** queries.rs:91-133 [reverse_swap]. *)
Definition reverse_swap (c : config) (b : ledger) (offer : option Z) (ask : coin) : option Z :=
  do od <- (match offer with
            | Some o => guard in_pool c o; Some o
            | None => option_map fst (List.find (fun p => negb (fst p =? fst ask)) c)
            end);
  guard in_pool c (fst ask);
  do n <- normalize c ask;
  guard n <=? get b (fst ask);
  denormalize c od n.

Inductive msg :=
| Provide (receiver : Z) (assets funds : list coin)
| Withdraw (sender amount : Z) (assets : list coin)
| Swap (offer : coin) (ask : option Z)
| Donate (funds : list coin)
| LpTransfer (from to amount : Z).

(** Result: new state and coins paid out. *)
Definition step (m : msg) (s : state) : option (state * list coin) :=
  match m with
  | Provide rcv assets funds =>
      guard funds_ok funds;
      do share <- provide_share (cfg s) assets funds;
      Some (mkState (cfg s) (credit (pools s) funds) (set (lp s) rcv (get (lp s) rcv + share)), [])
  | Withdraw u amount assets =>
      guard (0 <? amount) && (amount <=? get (lp s) u);
      guard forallb (fun a => 0 <=? snd a) assets;
      do '(burned, outs) <- withdraw s amount assets;
      do p <- debit (pools s) outs;
      Some (mkState (cfg s) p (set (lp s) u (get (lp s) u - burned)), outs)
  | Swap offer ask =>
      (* contract.rs:271-301 [swap]; the offer has already arrived *)
      guard (0 <? snd offer) && (snd offer <=? U128MAX);
      let b := credit (pools s) [offer] in
      do out <- swap_out (cfg s) b offer ask;
      do p <- debit b [out];
      Some (mkState (cfg s) p (lp s), [out])
  | Donate funds =>
      guard funds_ok funds;
      Some (mkState (cfg s) (credit (pools s) funds) (lp s), [])
  | LpTransfer from to amount =>
      guard (0 <=? amount) && (amount <=? get (lp s) from);
      Some (mkState (cfg s) (pools s) (move (lp s) from to amount), [])
  end.
Definition exec (s : state) (m : msg) : state := match step m s with Some (s', _) => s' | None => s end.
Definition run (s : state) (l : list msg) : state := fold_left exec l s.
Definition init (decs : list (Z * Z)) : option state :=
  do c <- new_config decs; Some (mkState c [] []).
