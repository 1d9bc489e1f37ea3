(** Router: /repo/contracts/router/src/{contract,operations,state}.rs.

    Modelled: route validation, execution of a route, the reply with the minimum-receive check, the two
    simulation queries.  Balances of all assets and accounts form the world.  The pairs (and token
    contracts) are not trusted: what happens during a hop after the router hands over the offer is an
    arbitrary list of actions, each an arbitrary change of the balances or a new call of the router
    (re-entrancy).  The coins or tokens offered have arrived at the router before its code runs.
    Simplification: a failing hop makes the whole call fail. *)
From Coq Require Import ZArith Lia Bool List.
From Verif Require Import Num Bytes FactoryModel.
Import ListNotations.
Open Scope Z_scope.

(** packages/astroport/src/router.rs:19-34 [SwapOperation]. *)
Inductive op := AstroSwap (offer ask : asset) | NativeSwap (offer_denom ask_denom : bytes).

Definition MAX_SWAP_OPERATIONS : Z := 50.

(** contract.rs:406-437: the loop of [assert_operations]. *)
Fixpoint check_path (prev : option asset) (l : list op) : bool :=
  match l with
  | [] => true
  | NativeSwap _ _ :: _ => false
  | AstroSwap offer ask :: r =>
      asset_ok offer && asset_ok ask && negb (asset_eqb offer ask) &&
      (match prev with Some p => asset_eqb p offer | None => true end) && check_path (Some ask) r
  end.
(** contract.rs:393-440 [assert_operations]. *)
Definition assert_operations (l : list op) : bool :=
  negb (Z.of_nat (length l) =? 0) && negb (MAX_SWAP_OPERATIONS <? Z.of_nat (length l)) && check_path None l.

(** router.rs:36-45 [get_target_asset_info]. *)
Definition target (o : op) : asset :=
  match o with AstroSwap _ ask => ask | NativeSwap _ d => mkAsset true d end.

Definition world := asset -> Z -> Z.    (* asset, account: balance *)
Definition upd (w : world) (a : asset) (u v : Z) : world :=
  fun a' u' => if asset_eqb a a' && (u =? u') then v else w a' u'.
(** Transfer of an amount; fails if not covered. *)
Definition pay (w : world) (a : asset) (from to amount : Z) : option world :=
  guard (0 <=? amount) && (amount <=? w a from);
  let w1 := upd w a from (w a from - amount) in
  Some (upd w1 a to (w1 a to + amount)).

(** The router's own account. *)
Definition ROUTER : Z := 0.

(** state.rs:18-24 [ReplyData]. *)
Record reply_data := mkRD { rd_asset : asset; rd_prev : Z; rd_min : option Z; rd_receiver : Z }.
Record state := mkState { w : world; rd : option reply_data }.

(** A message to a pair (operations.rs:88-131): the hop, the amount offered, the recipient, the belief price
    and the maximum spread. *)
Record sent := mkSent { s_op : op; s_amount : Z; s_to : Z; s_belief : option Z; s_spread : option Z }.

(** operations.rs:96 [belief_price]: None for a single hop, Decimal::MAX otherwise. *)
Definition belief (single : bool) : option Z := if single then None else Some U128MAX.

(** A route request with the (adversarial) behaviour of each hop: the pair that the factory names, and what
    happens after it received the offer. *)
Record request := mkReq { ops : list op; minimum : option Z; receiver : Z; spread : option Z }.
Inductive call := Route (q : request) (behaviour : list (Z * list action))
with action := Change (f : world -> option world) | Call (c : call).

(** operations.rs:21-72 [execute_swap_operation]: the router's whole balance of the offer asset goes to the pair. *)
Definition hand_over (s : state) (o : op) (pair : Z) : option (state * Z) :=
  match o with
  | AstroSwap offer _ =>
      let amount := w s offer ROUTER in
      do w' <- pay (w s) offer ROUTER pair amount;
      Some (mkState w' (rd s), amount)
  | NativeSwap _ _ => None
  end.

(** contract.rs:198-228 [reply]: returns the amount reported as received. *)
Definition reply (s : state) : option Z :=
  do d <- rd s;
  do got <- sub128 (w s (rd_asset d) (rd_receiver d)) (rd_prev d);
  guard (match rd_min d with Some m => negb (got <? m) | None => true end);
  Some got.

(** contract.rs:145-147, 181-191: the first part of [execute_swap_operations]. *)
Definition begin (s : state) (q : request) : option state :=
  guard assert_operations (ops q);
  do last <- List.last (map Some (ops q)) None;
  Some (mkState (w s) (Some (mkRD (target last) (w s (target last) (receiver q)) (minimum q) (receiver q)))).

(** Everything that happens after a pair got its offer; [ex] executes nested calls of the router. *)
Fixpoint acts (ex : call -> state -> option (state * Z * list sent)) (l : list action) (s : state) : option state :=
  match l with
  | [] => Some s
  | Change g :: r => do w' <- g (w s); acts ex r (mkState w' (rd s))
  | Call c :: r => do '(s', _, _) <- ex c s; acts ex r s'
  end.

(** contract.rs:151-179: one message per operation, the last one to the receiver, the others to the router. *)
Fixpoint hops ex (q : request) (l : list op) (b : list (Z * list action)) (s : state) : option (state * list sent) :=
  match l, b with
  | [], _ => Some (s, [])
  | o :: r, (pr, al) :: b' =>
      do '(s1, amount) <- hand_over s o pr;
      do s2 <- acts ex al s1;
      do '(s3, out) <- hops ex q r b' s2;
      Some (s3, mkSent o amount (match r with [] => receiver q | _ => ROUTER end)
                       (belief (Z.of_nat (length (ops q)) =? 1)) (spread q) :: out)
  | _ :: _, [] => None
  end.

(** contract.rs:136-195 [execute_swap_operations] with all its messages and the reply.
    Result: state, reported amount, messages to pairs.  [fuel] bounds the nesting of calls. *)
Fixpoint exec (fuel : nat) (c : call) (s : state) : option (state * Z * list sent) :=
  match fuel with
  | O => None
  | S f =>
      let '(Route q behaviour) := c in
      do s0 <- begin s q;
      do '(s1, out) <- hops (exec f) q (ops q) behaviour s0;
      do got <- reply s1;
      Some (s1, got, out)
  end.

(** contract.rs:302-347 [simulate_swap_operations] and 349-388 [simulate_reverse_swap_operations];
    [quote offer ask amount] is the answer of the pair named by the factory. *)
Fixpoint simulate_path (quote : asset -> asset -> Z -> option Z) (l : list op) (amount : Z) : option Z :=
  match l with
  | [] => Some amount
  | AstroSwap offer ask :: r => do x <- quote offer ask amount; simulate_path quote r x
  | NativeSwap _ _ :: _ => None
  end.
Definition simulate quote (ops : list op) (amount : Z) : option Z :=
  guard assert_operations ops; simulate_path quote ops amount.
Definition simulate_reverse quote (ops : list op) (amount : Z) : option Z :=
  guard assert_operations ops; simulate_path quote (rev ops) amount.
