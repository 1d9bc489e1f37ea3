(** Queries of the incentives contract: /repo/contracts/tokenomics/incentives/src/query.rs and
    state.rs:492-506 [list_pool_stakers].

    Simplifications, besides those of IncentivesModel: the order of storage keys is the order of the numbers that
    stand for addresses and assets; errors of parsing arguments are left out. *)
From Coq Require Import ZArith Bool List.
From Verif Require Import Num Amap IncentivesModel.
Import ListNotations.
Open Scope Z_scope.

(** packages/astroport/src/incentives.rs:28 *)
Definition MAX_PAGE_LIMIT : Z := 50.
Definition or_page (l : option Z) : Z := match l with Some n => n | None => MAX_PAGE_LIMIT end.

(** query.rs:61-90 [QueryMsg::IsFeeExpected] *)
Definition is_fee_expected (e : env) (lp a : Z) (s : state) : option bool :=
  if a =? astro s then Some false
  else
    match find lp (lps s) with
    | None => Some true
    | Some p =>
        do '(q, _) <- update_rewards (now e) p;
        Some (forallb (fun x => negb (asset_of (rw x) =? a)) (filter (fun x => is_ext (rw x)) (rewards q)))
    end.

(** query.rs:245-266: stored schedules (end, rate) as rows (rate, start, end), the first starting at [from] *)
Fixpoint rows (from : Z) (l : list (Z * Z)) : list (Z * Z * Z) :=
  match l with [] => [] | (ts, r) :: t => (r, from, ts) :: rows ts t end.
(** query.rs:202-270 [query_external_reward_schedules] *)
Definition schedules (e : env) (a lp : Z) (start limit : option Z) (s : state) : option (list (Z * Z * Z)) :=
  let lim := Z.min (or_page limit) MAX_PAGE_LIMIT in
  guard 0 <? lim;
  do p <- find lp (lps s);
  do '(q, _) <- update_rewards (now e) p;
  do x <- find_ext a (rewards q);
  let en := next_of (rw x) in
  let sa := match start with Some t => t | None => now e end in
  let sch := sched_of a (scheds p) in
  Some (if sa <? en then (rps x, now e, en) :: rows en (firstn (Z.to_nat (lim - 1)) (after en sch))
        else rows sa (firstn (Z.to_nat lim) (after sa sch))).

(** Storage range with an exclusive lower bound, cut to a page. *)
Definition page {V} (l : list (Z * V)) (start : option Z) (n : Z) : list (Z * V) :=
  firstn (Z.to_nat n) (match start with Some k => after k l | None => l end).
(** Stored maps are in key order. *)
Definition in_order {V} (m : list (Z * V)) : list (Z * V) := fold_right (fun x acc => ins (fst x) (snd x) acc) [] m.
(** state.rs:492-506 [list_pool_stakers], query.rs:49-60: the limit is at least MAX_PAGE_LIMIT ([max]) *)
Definition pool_stakers (lp : Z) (start limit : option Z) (s : state) : list (Z * Z) :=
  let us := match find lp (lps s) with Some p => users p | None => [] end in
  map (fun x => (fst x, amount (snd x))) (page (in_order us) start (Z.max (or_page limit) MAX_PAGE_LIMIT)).
(** query.rs:118-138 [list_pools] *)
Definition list_pools (start limit : option Z) (s : state) : list Z :=
  map fst (page (in_order (lps s)) start (or_page limit)).
(** query.rs:140-160 [query_blocked_tokens] *)
Definition blocked_tokens (start limit : option Z) (s : state) : list Z :=
  map fst (page (in_order (map (fun a => (a, tt)) (blocked s))) start (or_page limit)).

(** query.rs:189-197: itertools [group_by] adds up neighbouring entries of the same asset. *)
Fixpoint merge (l : list (Z * Z)) : option (list (Z * Z)) :=
  match l with
  | [] => Some []
  | (a, v) :: r =>
      do t <- merge r;
      match t with
      | (b, w) :: t' => if a =? b then do x <- add128 v w; Some ((a, x) :: t') else Some ((a, v) :: t)
      | [] => Some [(a, v)]
      end
  end.
(** query.rs:159-200 [query_pending_rewards]: finished rewards, then the active ones in the order of the pool, protocol
    reward included *)
Definition pending_rewards (e : env) (lp who : Z) (s : state) : option (list (Z * Z)) :=
  do p <- find lp (lps s);
  do u <- find who (users p);
  do '(q, rem) <- update_rewards (now e) p;
  let fl := unseen u (fins p) rem in
  do fin <- claim_fin (amount u) (uidx u) [] fl;
  do act <- calc_all (mkU (amount u) (reset (map fst fl) (uidx u)) (claimed u)) (rewards q);
  merge (fin ++ map (fun x => (snd (fst x), snd x)) act).
