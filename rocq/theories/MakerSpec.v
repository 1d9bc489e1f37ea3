(** What users of the maker see: amounts paid, spent and received during a message, and the shares
    each receiver is entitled to. Nothing here refers to how the maker computes them. *)
From Coq Require Import ZArith List Bool Permutation.
From Verif Require Import Num Ledger Amap MakerModel.
From Verif Require OwnershipModel.
Import ListNotations.
Open Scope Z_scope.

(** Amount of [a] transferred to [to], amount of [a] leaving the maker (transfers and offers of
    swaps), amount of [a] received from swaps, and amount of [a] offered for [b]. *)
Fixpoint paid (a to : Z) (os : list out) : Z :=
  match os with
  | [] => 0
  | Paid b t v :: r => (if (a =? b) && (to =? t) then v else 0) + paid a to r
  | Swapped _ _ _ _ :: r => paid a to r
  end.
Fixpoint spent (a : Z) (os : list out) : Z :=
  match os with
  | [] => 0
  | Paid b _ v :: r => (if a =? b then v else 0) + spent a r
  | Swapped b _ v _ :: r => (if a =? b then v else 0) + spent a r
  end.
Fixpoint gained (a : Z) (os : list out) : Z :=
  match os with
  | [] => 0
  | Paid _ _ _ :: r => gained a r
  | Swapped _ b _ g :: r => (if a =? b then g else 0) + gained a r
  end.
Fixpoint offered (a b : Z) (os : list out) : Z :=
  match os with
  | [] => 0
  | Paid _ _ _ :: r => offered a b r
  | Swapped x y v _ :: r => (if (a =? x) && (b =? y) then v else 0) + offered a b r
  end.

(** [v] is [n/d] of [x], rounded down. *)
Definition is_share (v n d x : Z) : Prop := d * v <= n * x < d * (v + 1).

(** Balances of the maker in an asset. *)
Definition holds (s : state) (a : Z) : Z := get (bal s) a.
(** The ASTRO token of the configuration. *)
Definition ASTRO (s : state) : Z := astro (cfg s).

(** No factory has a pair of an asset with itself; a hash map is walked in some order. *)
Definition sane (e : env) : Prop :=
  (forall f a, pool e f a a = false) /\ (forall l, Permutation l (order e l)).

(** Limits of the configuration documented for the maker. *)
Definition good_config (c : config) : Prop :=
  0 <= pct c <= 100 /\
  0 < spread c <= 500000000000000000 /\
  (forall r k, second c = Some (r, k) -> 1 <= k <= 50) /\
  (forall k, cooldown c = Some k -> 30 <= k <= 600) /\
  (forall d, dev c = Some d -> 0 < d_share d <= DEC) /\
  (staking c = None -> pct c = 100 /\ gov c <> None).

(** The fractions of the configuration, as an exact sum of 10^4 * DEC-ths: second receiver's cut,
    governance percent of the rest, dev share of the whole. *)
Definition cut_of (c : config) : Z := match second c with Some (_, k) => k | None => 0 end.
Definition pct_of (c : config) : Z := match gov c with Some _ => pct c | None => 0 end.
Definition dev_of (c : config) : Z := match dev c with Some d => d_share d | None => 0 end.
Definition fractions (c : config) : Z :=
  DEC * (100 * cut_of c + (100 - cut_of c) * pct_of c) + 10000 * dev_of c.

(** The owner does not move ASTRO by other means than distributing it: the token stays the same, no
    route starts at ASTRO, and ASTRO is not seized. *)
Definition keeps_astro (a : Z) (m : msg) : Prop :=
  match m with
  | UpdateConfig u => u_astro u = None
  | UpdateBridges add _ => ~ In a (map fst add)
  | Seize l => ~ In a (map fst l)
  | _ => True
  end.

(** Events after which time (seconds and blocks) does not go back, starting from [t] and [h]. *)
Fixpoint clock (t h : Z) (l : list event) : Prop :=
  match l with
  | [] => True
  | v :: r => t <= now (ev_env v) /\ h <= height (ev_env v) /\ clock (now (ev_env v)) (height (ev_env v)) r
  end.
(** Reached clock. *)
Fixpoint clock_end (t h : Z) (l : list event) : Z * Z :=
  match l with
  | [] => (t, h)
  | v :: r => clock_end (now (ev_env v)) (height (ev_env v)) r
  end.

(** ASTRO going to each kind of receiver during a message. *)
Definition to_second (s : state) (os : list out) : Z :=
  match second (cfg s) with Some (r, _) => paid (ASTRO s) r os | None => 0 end.
Definition to_gov (s : state) (os : list out) : Z :=
  match gov (cfg s) with Some g => paid (ASTRO s) g os | None => 0 end.
Definition to_dev (s : state) (os : list out) : Z :=
  match dev (cfg s) with Some d => offered (ASTRO s) (d_asset d) os | None => 0 end.
Definition to_staking (s : state) (os : list out) : Z :=
  match staking (cfg s) with Some x => paid (ASTRO s) x os | None => 0 end.
Definition distinct_receivers (c : config) : Prop :=
  NoDup ((match second c with Some (r, _) => [r] | None => [] end) ++
         (match gov c with Some g => [g] | None => [] end) ++
         (match staking c with Some x => [x] | None => [] end)).
(** Total ASTRO a list of effects shares out: everything ASTRO spent. *)
Definition released (c c' : config) : Z := remainder c - remainder c'.
