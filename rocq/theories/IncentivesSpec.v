(** Incentives: vocabulary of the properties. *)
From Coq Require Import ZArith Bool List Permutation.
From Verif Require Import Num Amap Ledger IncentivesModel.
Import ListNotations.
Open Scope Z_scope.

(** ** Histories *)

(** Block time of the last message. *)
Fixpoint time_after (T : Z) (h : list (env * Z * msg)) : Z :=
  match h with [] => T | (e, _, _) :: r => time_after (now e) r end.
(** Times do not decrease, the HashMap order is some permutation, amounts are unsigned. *)
Definition order_ok (e : env) : Prop := forall rem, Permutation (ord e rem) rem.
Definition unsigned (m : msg) : Prop :=
  match m with
  | Deposit _ amt _ | Withdraw _ amt | Donate _ amt => 0 <= amt
  | Incentivize l _ => Forall (fun x => 0 <= snd (snd x)) l
  | _ => True
  end.
Fixpoint timed (T : Z) (h : list (env * Z * msg)) : Prop :=
  match h with
  | [] => True
  | (e, _, m) :: r => T <= now e /\ order_ok e /\ unsigned m /\ timed (now e) r
  end.

(** Orphaned part of reward [a] of a pool at the time of a message. *)
Definition orphaned_of (e : env) (lp a : Z) (s : state) : Z :=
  match find lp (lps s) with
  | None => 0
  | Some p => match update_rewards (now e) p with
              | None => 0
              | Some (q, _) => match find_ext a (rewards q) with Some x => orph x | None => 0 end
              end
  end.
(** The owner removes reward [A] only without bypassing upcoming schedules and while it has no
    orphaned part. *)
Definition removal_ok (A : Z) (e : env) (m : msg) (s : state) : Prop :=
  match m with
  | RemoveReward lp a b _ => a = A -> b = false /\ orphaned_of e lp a s = 0
  | _ => True
  end.
Fixpoint removals_ok (A : Z) (s : state) (h : list (env * Z * msg)) : Prop :=
  match h with
  | [] => True
  | (e, sd, m) :: r => removal_ok A e m s /\ removals_ok A (exec s (e, sd, m)) r
  end.

(** ** Observations *)

(** Query deposit. *)
Definition position_of (lp who : Z) (s : state) : Z :=
  match find lp (lps s) with
  | Some p => match find who (users p) with Some u => amount u | None => 0 end
  | None => 0
  end.
(** Query pool_info: total_lp. *)
Definition total_of (lp : Z) (s : state) : Z :=
  match find lp (lps s) with Some p => total_lp (pl p) | None => 0 end.
(** Sum of the positions of all stakers (query pool_stakers). *)
Definition sum_positions (lp : Z) (s : state) : Z :=
  match find lp (lps s) with Some p => fold_right (fun x a => amount (snd x) + a) 0 (users p) | None => 0 end.

(** Sum of one asset in a list of (asset, amount). *)
Definition sum_of (A : Z) (l : list (Z * Z)) : Z :=
  fold_right (fun x a => (if fst x =? A then snd x else 0) + a) 0 l.
(** Query pending_rewards: external reward [A]; and the protocol reward. *)
Definition pend (A : Z) (e : env) (lp who : Z) (s : state) : Z :=
  match pending e lp who s with Some (l, _) => sum_of A l | None => 0 end.
Definition pend_prot (e : env) (lp who : Z) (s : state) : Z :=
  match pending e lp who s with Some (_, v) => v | None => 0 end.
(** Pending of everybody in every pool. *)
Definition total_pending (A : Z) (e : env) (s : state) : Z :=
  fold_right (fun x a =>
    fold_right (fun y b => pend A e (fst x) (fst y) s + b) 0 (users (snd x)) + a) 0 (lps s).
(** Query orphaned rewards. *)
Definition orphaned (A : Z) (s : state) : Z := match find A (orphs s) with Some v => v | None => 0 end.

(** LP tokens that came in and went out. *)
Definition came_in (lp : Z) (m : msg) : Z :=
  match m with Deposit l amt _ => if l =? lp then amt else 0 | _ => 0 end.
Definition went_out (lp : Z) (o : list out) : Z :=
  fold_right (fun x a => match x with Back l _ v => if l =? lp then v else 0 | _ => 0 end + a) 0 o.
(** Deposits minus returns of successful messages. *)
Fixpoint net (lp : Z) (s : state) (h : list (env * Z * msg)) : Z :=
  match h with
  | [] => 0
  | (e, sd, m) :: r =>
      match step e sd m s with
      | Some (s', o) => came_in lp m - went_out lp o + net lp s' r
      | None => net lp s r
      end
  end.

(** ** Emission of an external reward *)

(** Schedule pieces (end, rate), the first one starting at [prev]: amount emitted until [t]. *)
Fixpoint emitted_pieces (t prev : Z) (l : list (Z * Z)) : Z :=
  match l with
  | [] => 0
  | (ts, r) :: r' => r * (Z.min t ts - Z.min t prev) + emitted_pieces t ts r'
  end.
(** Emission between [t0] and [t] of a reward with current rate [r] until [next] and the schedules
    after that. *)
Definition emitted (t0 t r next : Z) (sch : list (Z * Z)) : Z :=
  r * (Z.min t next - t0) + emitted_pieces t next (filter (fun x => next <? fst x) sch).
(** All that is left to emit from [t0]. *)
Fixpoint pieces (prev : Z) (l : list (Z * Z)) : Z :=
  match l with [] => 0 | (ts, r) :: r' => r * (ts - prev) + pieces ts r' end.
Definition left_over (t0 r next : Z) (sch : list (Z * Z)) : Z :=
  r * (next - t0) + pieces next (filter (fun x => next <? fst x) sch).

(** A user whose stored indexes are those of the pool. *)
Definition up_to_date (lp who : Z) (s : state) : Prop :=
  exists p u, find lp (lps s) = Some p /\ find who (users p) = Some u /\
    claimed u = last (pl p) /\ uidx u = map (fun ri => (rw ri, idx ri)) (rewards (pl p)).

(** Two answers of the pending query that mean the same amounts. *)
Definition same_due (x y : option (list (Z * Z) * Z)) : Prop :=
  match x, y with
  | None, None => True
  | Some (a, v), Some (b, w) => v = w /\ forall A, sum_of A a = sum_of A b
  | _, _ => False
  end.
(** Reward tokens [A] sent out by a message, the ones lost, the protocol reward. *)
Definition paid_out (A : Z) (o : list out) : Z :=
  fold_right (fun x a => match x with Pay b _ v => if b =? A then v else 0 | _ => 0 end + a) 0 o.
Definition lost_out (A : Z) (o : list out) : Z :=
  fold_right (fun x a => match x with Lost b _ v => if b =? A then v else 0 | _ => 0 end + a) 0 o.
Definition prot_out_sum (o : list out) : Z :=
  fold_right (fun x a => match x with Prot _ v => v | _ => 0 end + a) 0 o.

(** Week boundaries counted from 2023-10-09. *)
Definition boundary (t : Z) : Prop := (t - 1696809600) mod 604800 = 0.
(** External reward [A] of a pool still to be emitted after [t]. *)
Definition future (A lp t : Z) (s : state) : Z :=
  match find lp (lps s) with
  | None => 0
  | Some p => match find_ext A (rewards (pl p)) with
              | None => 0
              | Some x => let sch := match find A (scheds p) with Some l => l | None => [] end in
                  left_over (last (pl p)) (rps x) (next_of (rw x)) sch
                  - emitted (last (pl p)) t (rps x) (next_of (rw x)) sch
              end
  end.

(** What a reward of [amt] for [n] weeks emits: it starts at once and ends [n] weeks after the next
    week boundary, at a constant rate rounded down to 18 decimal places of the smallest unit. *)
Definition next_boundary (t : Z) : Z := 1696809600 + ((t - 1696809600) / 604800 + 1) * 604800.
Definition end_of (t n : Z) : Z := next_boundary t + n * 604800.
Definition rate_of (t amt n : Z) : Z := amt * 10 ^ 18 / (end_of t n - t).
Definition promised (t amt n : Z) : Z := rate_of t amt n * (end_of t n - t).
(** Sums over the entries of an Incentivize message. *)
Fixpoint promised_all (A lp t : Z) (l : list (Z * (Z * Z * Z))) : Z :=
  match l with
  | [] => 0
  | (k, (a, amt, n)) :: r => (if (k =? lp) && (a =? A) then promised t amt n else 0) + promised_all A lp t r
  end.
Fixpoint amounts (A : Z) (l : list (Z * (Z * Z * Z))) : Z :=
  match l with
  | [] => 0
  | (_, (a, amt, _)) :: r => (if a =? A then amt else 0) + amounts A r
  end.

(** Reward records of a pool (query reward_info and external schedules). *)
Definition is_of (A : Z) (x : rinfo) : bool := match rw x with RExt b _ => b =? A | RInt _ => false end.
Definition is_protocol (x : rinfo) : bool := match rw x with RExt _ _ => false | RInt _ => true end.
(** The amount, with 18 decimals, that a pool has to distribute of external reward [A] between its
    last update and [t]; and of the protocol reward. *)
Definition accrued_ext (A t : Z) (p : lpst) : Z :=
  match List.find (is_of A) (rewards (pl p)) with
  | None => 0
  | Some x => orph x + emitted (last (pl p)) t (rps x) (next_of (rw x))
                         (match find A (scheds p) with Some l => l | None => [] end)
  end.
Definition accrued_prot (t : Z) (p : lpst) : Z :=
  match List.find is_protocol (rewards (pl p)) with
  | None => 0
  | Some x => orph x + rps x * (t - last (pl p))
  end.

(** Messages after which the pending rewards of [me] are the same. *)
Definition not_mine (me sender : Z) (m : msg) : Prop :=
  match m with
  | ClaimRewards _ | Withdraw _ _ => sender <> me
  | Deposit _ _ r => match r with Some w => w | None => sender end <> me
  | RemoveReward _ _ _ _ => False
  | _ => True
  end.

(** ** Emission of the protocol reward *)

(** Rate of the protocol reward of a pool per second, with 18 decimals (query reward_info). *)
Definition rate (lp : Z) (s : state) : Z :=
  match find lp (lps s) with
  | Some p => match List.find is_protocol (rewards (pl p)) with Some x => rps x | None => 0 end
  | None => 0
  end.
(** Messages that may change emission rates. *)
Definition sets_rates (m : msg) : bool :=
  match m with
  | SetupPools _ | SetTokensPerSecond _ | UpdateBlocked _ _ | DeactivatePool _ | DeactivateBlocked => true
  | _ => false
  end.
(** Allocation points of a list of pools. *)
Definition points (l : list (Z * Z)) : Z := sumf (fun v => v) l.
(** Regular emission messages: allocation points and speeds are unsigned, and no active pool holds
    two of the tokens blocked by one message. *)
Definition emission_ok (e : env) (m : msg) (s : state) : Prop :=
  match m with
  | SetupPools l => Forall (fun x => 0 <= snd x) l
  | SetTokensPerSecond amt => 0 <= amt
  | UpdateBlocked add _ => forall lp a b, In lp (map fst (active s)) -> In a add -> In b add ->
      In a (pair_assets e lp) -> In b (pair_assets e lp) -> a = b
  | _ => True
  end.
Fixpoint emissions_ok (s : state) (h : list (env * Z * msg)) : Prop :=
  match h with
  | [] => True
  | (e, sd, m) :: r => emission_ok e m s /\ emissions_ok (exec s (e, sd, m)) r
  end.
(** [m] gives pool [lp] a share of the emission. *)
Definition lists (lp : Z) (m : msg) : Prop :=
  match m with SetupPools l => In lp (map fst l) | _ => False end.
(** Protocol rewards paid by the successful messages of [h], and the budget: the emission speed in
    force times the time, from [T] to [t]. *)
Fixpoint prot_paid (s : state) (h : list (env * Z * msg)) : Z :=
  match h with
  | [] => 0
  | (e, sd, m) :: r =>
      match step e sd m s with
      | Some (s', o) => prot_out_sum o + prot_paid s' r
      | None => prot_paid s r
      end
  end.
Fixpoint budget (T : Z) (s : state) (h : list (env * Z * msg)) (t : Z) : Z :=
  match h with
  | [] => aps s * (t - T)
  | (e, sd, m) :: r => aps s * (now e - T) + budget (now e) (exec s (e, sd, m)) r t
  end.
(** Protocol rewards pending for everybody in every pool. *)
Definition total_pend_prot (e : env) (s : state) : Z :=
  fold_right (fun x a =>
    fold_right (fun y b => pend_prot e (fst x) (fst y) s + b) 0 (users (snd x)) + a) 0 (lps s).
(** External rewards of a pool (query reward_info). *)
Definition ext_rewards (lp : Z) (s : state) : nat :=
  match find lp (lps s) with
  | Some p => length (filter (fun x => negb (is_protocol x)) (rewards (pl p)))
  | None => O
  end.
(** ASTRO is not used as an external reward. *)
Definition no_astro (m : msg) (s : state) : Prop :=
  match m with Incentivize l _ => forall lp a amt n, In (lp, (a, amt, n)) l -> a <> astro s | _ => True end.
Fixpoint never_astro (s : state) (h : list (env * Z * msg)) : Prop :=
  match h with
  | [] => True
  | (e, sd, m) :: r => no_astro m s /\ never_astro (exec s (e, sd, m)) r
  end.
(** Pairs never change their assets. *)
Definition assets_fixed (pa : Z -> list Z) (h : list (env * Z * msg)) : Prop :=
  Forall (fun x => forall lp, pair_assets (fst (fst x)) lp = pa lp) h.
