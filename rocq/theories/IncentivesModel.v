(** Incentives: /repo/contracts/tokenomics/incentives/src (state.rs, execute.rs, utils.rs) and
    /repo/packages/astroport/src/incentives.rs.

    Scope: every execute message except the three ownership ones (shared helper, modelled in
    OwnershipModel.v; here the owner is fixed), plus the pending-rewards query.
    Simplifications:
    - assets and LP tokens are numbers in one common space (so an LP token may also be a reward);
      [a >= 0] is a native denom, [a < 0] a cw20 token; addresses are numbers and always valid;
    - the answers of other contracts (pair info, factory registration, pair types) are fields of
      [env], free to change from message to message;
    - the contract's balances [bal] move exactly as messages say; tokens sent to the contract for
      no reason are the message [Donate];
    - the HashMap [rewards_to_remove] is a list; the unspecified iteration order is the function
      [ord] of [env];
    - a payout is sent per reward entry instead of per run of equal assets (state.rs / utils.rs:71-84
      adds neighbouring entries of one asset); this is visible only if the contract lacks funds;
    - the vesting contract either pays the protocol reward or fails ([vest_ok]);
    - the transfer gas limit and the vesting/controller address updates have no effect here. *)
From Coq Require Import ZArith Bool List.
From Verif Require Import Num Amap Ledger.
Import ListNotations.
Open Scope Z_scope.

(** packages/astroport/src/incentives.rs:11-31 *)
Definition EPOCH_LENGTH : Z := 604800.
Definition EPOCHS_START : Z := 1696809600.
Definition MAX_PERIODS : Z := 25.
Definition MAX_REWARD_TOKENS : Z := 5.
Definition MAX_ORPHANED_REWARD_LIMIT : Z := 10.

(** incentives.rs:324-333 [RewardType]. *)
Inductive rtype := RInt (a : Z) | RExt (a : Z) (next : Z).
(** incentives.rs:384-394 [RewardInfo]. *)
Record rinfo := mkR { rw : rtype; rps : Z; idx : Z; orph : Z }.
(** state.rs:80-93 [PoolInfo] as serialised. *)
Record pool := mkPool { total_lp : Z; rewards : list rinfo; last : Z }.
(** state.rs:92 [rewards_to_remove]: external reward asset, (index, orphaned). *)
Definition removed := list (Z * (Z * Z)).
(** state.rs:518-525 [UserInfo]. *)
Record uinfo := mkU { amount : Z; uidx : list (rtype * Z); claimed : Z }.

(** Everything stored under one LP token: POOLS, USER_INFO, EXTERNAL_REWARD_SCHEDULES (per reward
    asset, ascending by end time) and FINISHED_REWARD_INDEXES (ascending by time), state.rs:31-40. *)
Record lpst := mkLp {
  pl : pool;
  users : amap uinfo;
  scheds : amap (list (Z * Z));
  fins : list (Z * list (Z * Z))
}.

(** Ordered storage map with u64 keys: save, and range with an exclusive lower bound. *)
Fixpoint ins {V} (k : Z) (v : V) (l : list (Z * V)) : list (Z * V) :=
  match l with
  | [] => [(k, v)]
  | (k', v') :: r =>
      if k <? k' then (k, v) :: l else if k =? k' then (k, v) :: r else (k', v') :: ins k v r
  end.
Definition after {V} (k : Z) (l : list (Z * V)) : list (Z * V) := filter (fun p => k <? fst p) l.

(** ** Accrual *)

(** [rps * Decimal256::from_ratio(n, 1u8)] *)
Definition per (r n : Z) : option Z := do d <- dratio256 n 1; dmul256 r d.

(** state.rs:133-160: walk over the schedules that end after [next]; gives the rewards collected,
    the end of the last passed schedule and the schedule active now, if any. *)
Fixpoint scan (now next coll : Z) (l : list (Z * Z)) : option (Z * Z * option (Z * Z)) :=
  match l with
  | [] => Some (coll, next, None)
  | (ts, r) :: l' =>
      if now <? ts then Some (coll, next, Some (ts, r))
      else
        do d <- sub64 ts next;
        do c <- per r d;
        do coll' <- add256 coll c;
        scan now ts coll' l'
  end.

(** state.rs:167-178: collected rewards go to the index, or are orphaned if nobody staked. *)
Definition accrue (total : Z) (ri : rinfo) (coll : Z) : option rinfo :=
  do a <- add256 (orph ri) coll;
  if total =? 0 then Some (mkR (rw ri) (rps ri) (idx ri) a)
  else
    do t <- dratio256 total 1;
    do q <- ddiv256 a t;
    do i <- add256 (idx ri) q;
    Some (mkR (rw ri) (rps ri) i 0).

(** state.rs:111-185: one reward; the flag says that it finished and must be removed. *)
Definition upd_one (now lst total : Z) (sch : list (Z * Z)) (ri : rinfo) : option (rinfo * bool) :=
  let steady := do c <- per (rps ri) (now - lst); do x <- accrue total ri c; Some (x, false) in
  match rw ri with
  | RInt _ => steady
  | RExt a next =>
      if next <=? now then
        do d <- sub64 next lst;
        do c0 <- per (rps ri) d;
        do '(c1, nx, act) <- scan now next c0 (after next sch);
        match act with
        | Some (ts, r) =>
            do c2 <- per r (now - nx);
            do c <- add256 c1 c2;
            do x <- accrue total (mkR (RExt a ts) r (idx ri) (orph ri)) c;
            Some (x, false)
        | None =>
            do x <- accrue total (mkR (RExt a next) 0 (idx ri) (orph ri)) c1;
            Some (x, true)
        end
      else steady
  end.

Definition sched_of (a : Z) (m : amap (list (Z * Z))) : list (Z * Z) :=
  match find a m with Some l => l | None => [] end.
Definition asset_of (r : rtype) : Z := match r with RInt a => a | RExt a _ => a end.
Definition is_ext (r : rtype) : bool := match r with RInt _ => false | RExt _ _ => true end.

Fixpoint upd_all (now lst total : Z) (m : amap (list (Z * Z))) (rs : list rinfo)
    : option (list rinfo * removed) :=
  match rs with
  | [] => Some ([], [])
  | ri :: r =>
      do '(x, gone) <- upd_one now lst total (sched_of (asset_of (rw ri)) m) ri;
      do '(keep, rem) <- upd_all now lst total m r;
      Some (if gone : bool then (keep, (asset_of (rw x), (idx x, orph x)) :: rem) else (x :: keep, rem))
  end.

(** state.rs:98-193 [PoolInfo::update_rewards]. *)
Definition update_rewards (now : Z) (p : lpst) : option (pool * removed) :=
  if now <=? last (pl p) then Some (pl p, [])
  else
    do '(rs, rem) <- upd_all now (last (pl p)) (total_lp (pl p)) (scheds p) (rewards (pl p));
    Some (mkPool (total_lp (pl p)) rs now, rem).

(** ** Users *)

(** incentives.rs:346-354 [RewardType::matches]. *)
Definition matches (x y : rtype) : bool :=
  match x, y with
  | RInt _, RInt _ => true
  | RExt a _, RExt b _ => a =? b
  | _, _ => false
  end.
Fixpoint u_find (r : rtype) (l : list (rtype * Z)) : option Z :=
  match l with
  | [] => None
  | (x, i) :: t => if matches x r then Some i else u_find r t
  end.

(** [Decimal256 * Uint256], then conversion to Uint128. *)
Definition credit (i amt : Z) : option Z := do v <- umul256 amt i; u128 v.

(** state.rs:54-76 [RewardInfoExt::calculate_reward]. *)
Definition calc_one (u : uinfo) (ri : rinfo) : option Z :=
  match u_find (rw ri) (uidx u) with
  | Some i => if idx ri <? i then credit (idx ri) (amount u) else credit (idx ri - i) (amount u)
  | None => credit (idx ri) (amount u)
  end.
(** state.rs:197-208 [calculate_rewards]: (is external, asset, amount). *)
Fixpoint calc_all (u : uinfo) (rs : list rinfo) : option (list (bool * Z * Z)) :=
  match rs with
  | [] => Some []
  | ri :: r =>
      do v <- calc_one u ri;
      do t <- calc_all u r;
      Some ((is_ext (rw ri), asset_of (rw ri), v) :: t)
  end.

Definition mem (a : Z) (l : list Z) : bool := existsb (Z.eqb a) l.
(** Finished indexes a user has not seen: FINISHED_REWARD_INDEXES after the last claim, then
    [rewards_to_remove] (state.rs:618-635). *)
Definition unseen (u : uinfo) (f : list (Z * list (Z * Z))) (rem : removed) : list (Z * Z) :=
  concat (map snd (after (claimed u) f)) ++ map (fun x => (fst x, fst (snd x))) rem.

(** state.rs:640-672: per reward asset the first finished index is compared with the user's. *)
Fixpoint claim_fin (amt : Z) (ui : list (rtype * Z)) (seen : list Z) (l : list (Z * Z))
    : option (list (Z * Z)) :=
  match l with
  | [] => Some []
  | (a, f) :: r =>
      do v <- (if mem a seen then credit f amt
               else
                 do d <- sub256 f (match u_find (RExt a 0) ui with Some i => i | None => 0 end);
                 credit d amt);
      do t <- claim_fin amt ui (a :: seen) r;
      Some ((a, v) :: t)
  end.

(** state.rs:569-605 [reset_user_index]. *)
Definition reset (fin : list Z) (l : list (rtype * Z)) : list (rtype * Z) :=
  map (fun p => if is_ext (fst p) && mem (asset_of (fst p)) fin then (fst p, 0) else p) l.

(** state.rs:688-696: sync the user's indexes with the pool's. *)
Definition sync (amt : Z) (p : pool) : uinfo :=
  mkU amt (map (fun ri => (rw ri, idx ri)) (rewards p)) (last p).

Fixpoint sum128 (l : list Z) (acc : Z) : option Z :=
  match l with [] => Some acc | x :: r => do a <- add128 acc x; sum128 r a end.

(** What a user is owed by an updated pool: external entries and the protocol amount
    (utils.rs:41-63; also query.rs:171-187). *)
Definition due (p : pool) (rem : removed) (f : list (Z * list (Z * Z))) (u : uinfo)
    : option (list (Z * Z) * Z) :=
  let fl := unseen u f rem in
  do fin <- claim_fin (amount u) (uidx u) [] fl;
  do act <- calc_all (mkU (amount u) (reset (map fst fl) (uidx u)) (claimed u)) (rewards p);
  do prot <- sum128 (map snd (filter (fun x => negb (fst (fst x))) act)) 0;
  Some (fin ++ map (fun x => (snd (fst x), snd x)) (filter (fun x => fst (fst x)) act), prot).

(** ** Saving *)

Record env := mkEnv {
  now : Z;                       (* block time in seconds *)
  ord : removed -> removed;      (* iteration order of the HashMap *)
  lp_ok : Z -> bool;             (* query_pair_info and is_pool_registered succeed, utils.rs:385-433 *)
  pair_assets : Z -> list Z;     (* PairInfo.asset_infos of the pair of an LP token *)
  pair_type : Z -> Z;            (* PairInfo.pair_type *)
  bad_types : list Z;            (* factory BlacklistedPairTypes *)
  xfer_ok : Z -> bool;           (* transfers of this asset do not fail by themselves *)
  vest_ok : bool                 (* the vesting contract pays *)
}.

Record state := mkState {
  owner : Z; factory : Z;
  controller : option Z; guardian : option Z;
  astro : Z;
  aps : Z;                       (* astro_per_second *)
  talloc : Z;                    (* total_alloc_points *)
  fee : option (Z * Z);          (* incentivization fee: denom, amount *)
  active : list (Z * Z);         (* ACTIVE_POOLS *)
  blocked : list Z;              (* BLOCKED_TOKENS *)
  lps : amap lpst;
  orphs : list (Z * Z);          (* ORPHANED_REWARDS, ascending by asset *)
  bal : ledger                   (* balances of the contract *)
}.

Definition set_lps (s : state) (m : amap lpst) (o : list (Z * Z)) : state :=
  mkState (owner s) (factory s) (controller s) (guardian s) (astro s) (aps s) (talloc s) (fee s)
          (active s) (blocked s) m o (bal s).
Definition set_bal (s : state) (b : ledger) : state :=
  mkState (owner s) (factory s) (controller s) (guardian s) (astro s) (aps s) (talloc s) (fee s)
          (active s) (blocked s) (lps s) (orphs s) b.
(** aps, total allocation, active pools, blocked tokens *)
Definition set_emission (s : state) (r t : Z) (ac : list (Z * Z)) (bl : list Z) : state :=
  mkState (owner s) (factory s) (controller s) (guardian s) (astro s) r t (fee s)
          ac bl (lps s) (orphs s) (bal s).

(** itertools [group_by] on consecutive elements with orphaned = 0 or not (state.rs:449). *)
Fixpoint runs (l : removed) : list (bool * removed) :=
  match l with
  | [] => []
  | x :: r =>
      let z := snd (snd x) =? 0 in
      match runs r with
      | (b, g) :: t => if Bool.eqb b z then (b, x :: g) :: t else (z, [x]) :: (b, g) :: t
      | [] => [(z, [x])]
      end
  end.

Definition oget (l : list (Z * Z)) (a : Z) : Z := match find a l with Some v => v | None => 0 end.
(** state.rs:462-472: book orphaned rewards. *)
Fixpoint book (g : removed) (o : list (Z * Z)) : option (list (Z * Z)) :=
  match g with
  | [] => Some o
  | (a, (_, orp)) :: r =>
      do v <- u128 (orp / DEC);
      do n <- add128 (oget o a) v;
      book r (ins a n o)
  end.
(** state.rs:444-478: the finished indexes of each run with zero orphaned are saved under the same
    key, the update time. *)
Fixpoint save_runs (ts : Z) (l : list (bool * removed)) (f : list (Z * list (Z * Z)))
    (o : list (Z * Z)) : option (list (Z * list (Z * Z)) * list (Z * Z)) :=
  match l with
  | [] => Some (f, o)
  | (true, g) :: r => save_runs ts r (ins ts (map (fun x => (fst x, fst (snd x))) g) f) o
  | (false, g) :: r => do o' <- book g o; save_runs ts r f o'
  end.
(** state.rs:444-480 [PoolInfo::save]. *)
Definition save (e : env) (lp : Z) (p : lpst) (rem : removed) (s : state) : option state :=
  do '(f, o) <- save_runs (last (pl p)) (runs (ord e rem)) (fins p) (orphs s);
  Some (set_lps s (put lp (mkLp (pl p) (users p) (scheds p) f) (lps s)) o).

Definition empty_lp : lpst := mkLp (mkPool 0 [] 0) [] [] [].

(** ** Payments *)

Inductive out :=
| Pay (asset to amt : Z)       (* reward tokens that left the contract *)
| Lost (asset to amt : Z)      (* a reward transfer that failed and was ignored (reply.rs) *)
| Prot (to amt : Z)            (* protocol reward paid by the vesting contract *)
| Back (lp to amt : Z)         (* LP tokens returned *)
| Fee (denom amt : Z).         (* incentivization fee forwarded *)

(** Submessage with reply on error: a failed transfer is ignored (reply.rs:13-25). *)
Definition pay (e : env) (to : Z) (s : state) (x : Z * Z) : state * list out :=
  let '(a, v) := x in
  if v =? 0 then (s, [])
  else if xfer_ok e a && (v <=? get (bal s) a) then
    (set_bal s (set (bal s) a (get (bal s) a - v)), [Pay a to v])
  else (s, [Lost a to v]).
Fixpoint pay_all (e : env) (to : Z) (s : state) (l : list (Z * Z)) : state * list out :=
  match l with
  | [] => (s, [])
  | x :: r => let '(s1, o1) := pay e to s x in let '(s2, o2) := pay_all e to s1 r in (s2, o1 ++ o2)
  end.
(** utils.rs:86-96: the protocol reward is claimed from the vesting contract for the user. *)
Definition pay_prot (e : env) (to prot : Z) : option (list out) :=
  if prot =? 0 then Some [] else guard vest_ok e; Some [Prot to prot].

(** ** Deposit, withdraw, claim *)

(** execute.rs:177-217 [deposit] of [amt] LP tokens that just arrived, for [who]. *)
Definition deposit (e : env) (lp amt who : Z) (s0 : state) : option (state * list out) :=
  guard lp_ok e lp;
  let s := set_bal s0 (set (bal s0) lp (get (bal s0) lp + amt)) in
  let p := match find lp (lps s) with Some p => p | None => empty_lp end in
  let u := match find who (users p) with Some u => u | None => mkU 0 [] (now e) end in
  do '(q, rem) <- update_rewards (now e) p;
  do '(ext, prot) <- due q rem (fins p) u;
  do a <- add128 (amount u) amt;
  do t <- add128 (total_lp q) amt;
  let q' := mkPool t (rewards q) (last q) in
  do s1 <- save e lp (mkLp q' (put who (sync a q') (users p)) (scheds p) (fins p)) rem s;
  do o2 <- pay_prot e who prot;
  let '(s2, o1) := pay_all e who s1 ext in
  Some (s2, o1 ++ o2).

(** execute.rs:219-264 [withdraw]. *)
Definition withdraw (e : env) (sender lp amt : Z) (s : state) : option (state * list out) :=
  do p <- find lp (lps s);
  do u <- find sender (users p);
  guard amt <=? amount u;
  do '(q, rem) <- update_rewards (now e) p;
  do '(ext, prot) <- due q rem (fins p) u;
  do a <- sub128 (amount u) amt;
  do t <- sub128 (total_lp q) amt;
  let q' := mkPool t (rewards q) (last q) in
  let us := if a =? 0 then del sender (users p) else put sender (sync a q') (users p) in
  do s1 <- save e lp (mkLp q' us (scheds p) (fins p)) rem s;
  do o2 <- pay_prot e sender prot;
  let '(s2, o1) := pay_all e sender s1 ext in
  guard xfer_ok e lp && (amt <=? get (bal s2) lp);
  Some (set_bal s2 (set (bal s2) lp (get (bal s2) lp - amt)), o1 ++ o2 ++ [Back lp sender amt]).

Fixpoint nodup (l : list Z) : bool :=
  match l with [] => true | x :: r => negb (mem x r) && nodup r end.

(** execute.rs:41-73 and utils.rs:24-66: the pools are updated, claimed and saved one by one (they
    are distinct); external and protocol amounts are collected. *)
Fixpoint claim_each (e : env) (sender : Z) (l : list Z) (s : state)
    : option (state * list (Z * Z) * Z) :=
  match l with
  | [] => Some (s, [], 0)
  | lp :: r =>
      do p <- find lp (lps s);
      do u <- find sender (users p);
      do '(q, rem) <- update_rewards (now e) p;
      do '(ext, prot) <- due q rem (fins p) u;
      do s1 <- save e lp (mkLp q (put sender (sync (amount u) q) (users p)) (scheds p) (fins p)) rem s;
      do '(s2, ext2, prot2) <- claim_each e sender r s1;
      do pr <- add128 prot prot2;
      Some (s2, ext ++ ext2, pr)
  end.
Definition claim (e : env) (sender : Z) (l : list Z) (s : state) : option (state * list out) :=
  guard nodup l;
  do '(s1, ext, prot) <- claim_each e sender l s;
  do o2 <- pay_prot e sender prot;
  let '(s2, o1) := pay_all e sender s1 ext in
  Some (s2, o1 ++ o2).

(** query.rs:159-203 [query_pending_rewards], before neighbouring equal assets are added up;
    the protocol amount is given separately. *)
Definition pending (e : env) (lp who : Z) (s : state) : option (list (Z * Z) * Z) :=
  do p <- find lp (lps s);
  do u <- find who (users p);
  do '(q, rem) <- update_rewards (now e) p;
  due q rem (fins p) u.

(** ** ASTRO emissions *)

Definition upd_int (f : rinfo -> rinfo) (rs : list rinfo) : list rinfo :=
  (fix go l := match l with
               | [] => []
               | r :: t => if is_ext (rw r) then r :: go t else f r :: t
               end) rs.
(** state.rs:211-228 [set_astro_rewards]. *)
Definition set_astro (ast rate total al : Z) (p : pool) : option pool :=
  do n <- mul128 rate al;
  do r <- dratio256 n total;
  Some (mkPool (total_lp p)
    (if existsb (fun x => negb (is_ext (rw x))) (rewards p)
     then upd_int (fun x => mkR (rw x) r (idx x) (orph x)) (rewards p)
     else rewards p ++ [mkR (RInt ast) r 0 0]) (last p)).
(** state.rs:240-244 [disable_astro_rewards]. *)
Definition disable_astro (p : pool) : option pool :=
  Some (mkPool (total_lp p) (upd_int (fun x => mkR (rw x) 0 (idx x) (orph x)) (rewards p)) (last p)).
(** state.rs:231-235 [is_active_pool]. *)
Definition is_active (p : pool) : bool :=
  existsb (fun x => negb (is_ext (rw x)) && negb (rps x =? 0)) (rewards p).

(** Load (or create) a pool, update its rewards, change it, save it. *)
Definition touch (e : env) (create : bool) (f : pool -> option pool) (lp : Z) (s : state)
    : option state :=
  do p <- match find lp (lps s) with
          | Some p => Some p
          | None => if create then Some empty_lp else None
          end;
  do '(q, rem) <- update_rewards (now e) p;
  do q' <- f q;
  save e lp (mkLp q' (users p) (scheds p) (fins p)) rem s.
Fixpoint touch_all (e : env) (create : bool) (f : Z -> pool -> option pool) (l : list (Z * Z))
    (s : state) : option state :=
  match l with
  | [] => Some s
  | (lp, al) :: r => do s1 <- touch e create (f al) lp s; touch_all e create f r s1
  end.

Fixpoint sum_alloc (l : list (Z * Z)) (acc : Z) : option Z :=
  match l with [] => Some acc | (_, x) :: r => do a <- add128 acc x; sum_alloc r a end.

(** execute.rs:266-344 [setup_pools]. *)
Definition pool_allowed (e : env) (s : state) (x : Z * Z) : bool :=
  lp_ok e (fst x) && negb (existsb (fun a => mem a (blocked s)) (pair_assets e (fst x)))
  && negb (mem (pair_type e (fst x)) (bad_types e)).
Definition setup_pools (e : env) (sender : Z) (l : list (Z * Z)) (s : state) : option state :=
  guard (sender =? owner s) || match controller s with Some c => sender =? c | None => false end;
  guard forallb (fun x => negb (snd x =? 0)) l && nodup (map fst l);
  guard forallb (pool_allowed e s) l;
  do s1 <- touch_all e false (fun _ => disable_astro) (active s) s;
  do t <- sum_alloc l 0;
  do s2 <- touch_all e true (set_astro (astro s) (aps s) t) l s1;
  Some (set_emission s2 (aps s) t l (blocked s)).

(** execute.rs:346-380 [set_tokens_per_second]; the active pools are distinct, so updating all and
    then setting all is done pool by pool. *)
Definition set_tokens (e : env) (sender amt : Z) (s : state) : option state :=
  guard sender =? owner s;
  do s1 <- touch_all e false (set_astro (astro s) amt (talloc s)) (active s) s;
  Some (set_emission s1 amt (talloc s) (active s) (blocked s)).

(** utils.rs:101-148 [deactivate_pool]; [swap_remove] replaces the removed element by the last. *)
Definition swap_remove {A} (n : nat) (l : list A) : list A :=
  match rev l with
  | [] => []
  | y :: _ =>
      if Nat.eqb (S n) (length l) then removelast l
      else firstn n l ++ y :: removelast (skipn (S n) l)
  end.
Fixpoint position (lp : Z) (l : list (Z * Z)) : option (nat * Z) :=
  match l with
  | [] => None
  | (x, al) :: r => if x =? lp then Some (O, al) else do '(n, v) <- position lp r; Some (S n, v)
  end.
Definition deactivate_pool (e : env) (sender lp : Z) (s : state) : option state :=
  guard sender =? factory s;
  match find lp (lps s) with
  | Some p =>
      if is_active (pl p) then
        do '(n, al) <- position lp (active s);
        let ac := swap_remove n (active s) in
        do s1 <- touch e false disable_astro lp s;
        do t <- sub128 (talloc s) al;
        do s2 <- touch_all e false (set_astro (astro s) (aps s) t) ac s1;
        Some (set_emission s2 (aps s) t ac (blocked s))
      else Some s
  | None => Some s
  end.

Definition sub_all (l : list (Z * Z)) (t : Z) : option Z :=
  fold_left (fun acc x => do a <- acc; sub128 a (snd x)) l (Some t).
(** utils.rs:151-199 [deactivate_blocked_pools]. *)
Definition deactivate_blocked (e : env) (s : state) : option state :=
  let bad := filter (fun x => mem (pair_type e (fst x)) (bad_types e)) (active s) in
  do s1 <- touch_all e false (fun _ => disable_astro) bad s;
  do t <- sub_all bad (talloc s);
  match bad with
  | [] => Some s1
  | _ =>
      let ac := filter (fun x => negb (mem (fst x) (map fst bad))) (active s) in
      do s2 <- touch_all e false (set_astro (astro s) (aps s) t) ac s1;
      Some (set_emission s2 (aps s) t ac (blocked s))
  end.

(** execute.rs:468-583 [update_blocked_pool_tokens]. *)
Fixpoint unblock (rm bl : list Z) : option (list Z) :=
  match rm with
  | [] => Some bl
  | a :: r => guard mem a bl; unblock r (filter (fun x => negb (x =? a)) bl)
  end.
(** execute.rs:514-537: pools to disable, once for every blocked token of the pair. *)
Fixpoint block (e : env) (ast : Z) (ac : list (Z * Z)) (add bl : list Z)
    : option (list (Z * Z) * list Z) :=
  match add with
  | [] => Some ([], bl)
  | a :: r =>
      guard negb (mem a bl) && negb (a =? ast);
      do '(dis, bl') <- block e ast ac r (a :: bl);
      Some (filter (fun x => mem a (pair_assets e (fst x))) ac ++ dis, bl')
  end.
Definition update_blocked (e : env) (sender : Z) (add rm : list Z) (s : state) : option state :=
  guard (sender =? owner s) || match guardian s with Some g => sender =? g | None => false end;
  guard nodup (rm ++ add);
  do bl1 <- unblock rm (blocked s);
  do '(dis, bl2) <- block e (astro s) (active s) add bl1;
  match dis with
  | [] => Some (set_emission s (aps s) (talloc s) (active s) bl2)
  | _ =>
      do s1 <- touch_all e false (fun _ => disable_astro) dis s;
      do red <- sum_alloc dis 0;
      let ac := filter (fun x => negb (mem (fst x) (map fst dis))) (active s) in
      do t <- sub128 (talloc s) red;
      do s2 <- touch_all e false (set_astro (astro s) (aps s) t) ac s1;
      Some (set_emission s2 (aps s) t ac bl2)
  end.

(** execute.rs:382-466 [update_config]: ASTRO token, controller, guardian, fee. *)
Fixpoint relabel (a : Z) (l : list (Z * Z)) (m : amap lpst) : option (amap lpst) :=
  match l with
  | [] => Some m
  | (lp, _) :: r =>
      do p <- find lp m;
      guard existsb (fun x => negb (is_ext (rw x))) (rewards (pl p));
      let q := mkPool (total_lp (pl p))
                 (upd_int (fun x => mkR (RInt a) (rps x) (idx x) (orph x)) (rewards (pl p)))
                 (last (pl p)) in
      relabel a r (put lp (mkLp q (users p) (scheds p) (fins p)) m)
  end.
Definition update_config (sender : Z) (ast ctl grd : option Z) (f : option (Z * Z)) (s : state)
    : option state :=
  guard sender =? owner s;
  do m <- match ast with Some a => relabel a (active s) (lps s) | None => Some (lps s) end;
  Some (mkState (owner s) (factory s)
    (match ctl with Some c => Some c | None => controller s end)
    (match grd with Some g => Some g | None => guardian s end)
    (match ast with Some a => a | None => astro s end)
    (aps s) (talloc s) (match f with Some x => Some x | None => fee s end)
    (active s) (blocked s) m (orphs s) (bal s)).

(** ** External rewards *)

(** incentives.rs:63-93 [IncentivesSchedule::from_input]: next epoch start, end, rate. *)
Definition from_input (t amt periods : Z) : option (Z * Z * Z) :=
  guard negb ((MAX_PERIODS <? periods) || (periods =? 0));
  let rem := t mod EPOCHS_START in
  do ne <- add64 EPOCHS_START ((rem / EPOCH_LENGTH + 1) * EPOCH_LENGTH);
  do en <- add64 ne (periods * EPOCH_LENGTH);
  do dur <- sub64 en t;
  do r <- dratio256 amt dur;
  guard DEC <=? r;
  Some (ne, en, r).

Fixpoint find_ext (a : Z) (rs : list rinfo) : option rinfo :=
  match rs with
  | [] => None
  | r :: t => match rw r with
              | RExt b _ => if b =? a then Some r else find_ext a t
              | RInt _ => find_ext a t
              end
  end.
Fixpoint upd_ext (a : Z) (f : rinfo -> rinfo) (rs : list rinfo) : list rinfo :=
  match rs with
  | [] => []
  | r :: t => match rw r with
              | RExt b _ => if b =? a then f r :: t else r :: upd_ext a f t
              | RInt _ => r :: upd_ext a f t
              end
  end.
Fixpoint del_ext (a : Z) (rs : list rinfo) : list rinfo :=
  match rs with
  | [] => []
  | r :: t => match rw r with
              | RExt b _ => if b =? a then t else r :: del_ext a t
              | RInt _ => r :: del_ext a t
              end
  end.
Definition next_of (r : rtype) : Z := match r with RExt _ n => n | RInt _ => 0 end.

(** state.rs:330-345: the schedules a new one overlaps, with the new rate added. *)
Fixpoint overlap (en r : Z) (l : list (Z * Z)) : option (list (Z * Z)) :=
  match l with
  | [] => Some [(en, r)]
  | (ts, x) :: t =>
      do n <- add256 x r;
      if en <=? ts then Some [(en, n)]
      else do u <- overlap en r t; Some ((ts, n) :: u)
  end.
Definition ins_all {V} (l : list (Z * V)) (m : list (Z * V)) : list (Z * V) :=
  fold_left (fun acc x => ins (fst x) (snd x) acc) l m.

(** state.rs:264-362 [PoolInfo::incentivize]: new rewards and new schedules of the asset. *)
Definition incentivize_pool (ast a ne en r : Z) (rs : list rinfo) (sch : list (Z * Z))
    : option (list rinfo * list (Z * Z)) :=
  let n := Z.of_nat (length (filter (fun x => is_ext (rw x)) rs)) in
  match find_ext a rs with
  | Some x =>
      let nx := next_of (rw x) in
      do r' <- add256 (rps x) r;
      if en <=? nx then
        Some (upd_ext a (fun y => mkR (RExt a en) r' (idx y) (orph y)) rs,
              if en <? nx then ins nx (rps x) sch else sch)
      else
        do sv <- overlap en r (after ne sch);
        Some (upd_ext a (fun y => mkR (rw y) r' (idx y) (orph y)) rs, ins_all sv sch)
  | None =>
      guard negb ((n =? MAX_REWARD_TOKENS) && negb (a =? ast));
      Some (rs ++ [mkR (RExt a en) r 0 0], sch)
  end.

(** Native funds attached to a message, per denom; [checked_sub] on the first matching coin. *)
Fixpoint take_coin (d v : Z) (f : list (Z * Z)) : option (list (Z * Z)) :=
  match f with
  | [] => None
  | (x, n) :: r =>
      if x =? d then do m <- sub128 n v; Some ((x, m) :: r)
      else do r' <- take_coin d v r; Some ((x, n) :: r')
  end.

(** utils.rs:201-308 [incentivize]; gives the new state, the remaining funds and the cw20 amount
    to pull; the forwarded fee is deducted from the balance. *)
Definition incentivize (e : env) (lp a amt periods : Z) (s : state) (funds : list (Z * Z))
    : option (state * list (Z * Z) * list out) :=
  do '(ne, en, r) <- from_input (now e) amt periods;
  guard negb (mem a (blocked s)) && lp_ok e lp;
  let p := match find lp (lps s) with Some p => p | None => empty_lp end in
  do '(q, rem) <- update_rewards (now e) p;
  do '(rs, sch) <- incentivize_pool (astro s) a ne en r (rewards q) (sched_of a (scheds p));
  let isnew := (Z.of_nat (length (rewards q)) <? Z.of_nat (length rs)) && negb (a =? astro s) in
  do '(f1, s1, o1) <-
    match fee s with
    | Some (d, v) =>
        if isnew then
          do f1 <- take_coin d v funds;
          guard v <=? get (bal s) d;
          Some (f1, set_bal s (set (bal s) d (get (bal s) d - v)), [Fee d v])
        else Some (funds, s, [])
    | None => Some (funds, s, [])
    end;
  do '(f2, s2) <-
    (if 0 <=? a then do f2 <- take_coin a amt f1; Some (f2, s1)
     else guard xfer_ok e a; Some (f1, set_bal s1 (set (bal s1) a (get (bal s1) a + amt))));
  do s3 <- save e lp (mkLp (mkPool (total_lp q) rs (last q)) (users p) (put a sch (scheds p)) (fins p))
             rem s2;
  Some (s3, f2, o1).

Fixpoint incentivize_each (e : env) (l : list (Z * (Z * Z * Z))) (s : state) (f : list (Z * Z))
    : option (state * list (Z * Z) * list out) :=
  match l with
  | [] => Some (s, f, [])
  | (lp, (a, amt, periods)) :: r =>
      do '(s1, f1, o1) <- incentivize e lp a amt periods s f;
      do '(s2, f2, o2) <- incentivize_each e r s1 f1;
      Some (s2, f2, o1 ++ o2)
  end.
Definition receive_coins (f : list (Z * Z)) (b : ledger) : ledger :=
  fold_left (fun acc x => set acc (fst x) (get acc (fst x) + snd x)) f b.
(** utils.rs:310-332 [incentivize_many]: all attached coins must be used up. *)
Definition incentivize_many (e : env) (l : list (Z * (Z * Z * Z))) (funds : list (Z * Z)) (s : state)
    : option (state * list out) :=
  guard nodup (map fst funds) && forallb (fun x => (0 <=? fst x) && (0 <? snd x)) funds;
  do '(s1, f, o) <- incentivize_each e l (set_bal s (receive_coins funds (bal s))) funds;
  guard forallb (fun x => snd x =? 0) f;
  Some (s1, o).

(** state.rs:399-423: rewards of the schedules after [prev]. *)
Fixpoint tail_sum (prev acc : Z) (l : list (Z * Z)) : option Z :=
  match l with
  | [] => Some acc
  | (ts, r) :: t =>
      do d <- sub64 ts prev;
      do c <- per r d;
      do acc' <- add256 acc c;
      tail_sum ts acc' t
  end.
(** state.rs:370-431 [deregister_reward]: remaining amount, new schedules, removed entry. *)
Definition deregister (a : Z) (bypass : bool) (q : pool) (sch : list (Z * Z))
    : option (pool * (Z * (Z * Z)) * list (Z * Z) * Z) :=
  do x <- find_ext a (rewards q);
  let nx := next_of (rw x) in
  do r0 <- per (rps x) (ssub nx (last q));
  let sch1 := filter (fun y => negb (fst y =? nx)) sch in
  do '(r1, sch2) <-
    (if bypass then Some (r0, sch1)
     else do r1 <- tail_sum nx r0 (after nx sch1);
          Some (r1, filter (fun y => fst y <=? nx) sch1));
  do r2 <- add256 r1 (orph x);
  do v <- u128 (r2 / DEC);
  Some (mkPool (total_lp q) (del_ext a (rewards q)) (last q), (a, (idx x, orph x)), sch2, v).

(** utils.rs:334-381 [remove_reward_from_pool]. *)
Definition remove_reward (e : env) (sender lp a : Z) (bypass : bool) (to : Z) (s : state)
    : option (state * list out) :=
  guard sender =? owner s;
  do p <- find lp (lps s);
  do '(q, rem) <- update_rewards (now e) p;
  do '(q', x, sch, v) <- deregister a bypass q (sched_of a (scheds p));
  do s1 <- save e lp (mkLp q' (users p) (put a sch (scheds p)) (fins p)) (x :: rem) s;
  Some (pay e to s1 (a, v)).

(** utils.rs:437-486 [claim_orphaned_rewards]. *)
Definition claim_orphaned (e : env) (sender : Z) (limit : option Z) (to : Z) (s : state)
    : option (state * list out) :=
  guard sender =? owner s;
  let n := Z.to_nat (Z.min (match limit with Some l => l | None => MAX_ORPHANED_REWARD_LIMIT end)
                           MAX_ORPHANED_REWARD_LIMIT) in
  let page := firstn n (orphs s) in
  guard negb (Nat.eqb (length page) 0);
  let rest := filter (fun x => snd x =? 0) page ++ skipn n (orphs s) in
  Some (pay_all e to (set_lps s (lps s) rest) page).

(** ** Messages *)

Inductive msg :=
| SetupPools (l : list (Z * Z))
| ClaimRewards (l : list Z)
| Deposit (lp amt : Z) (recipient : option Z)
| Withdraw (lp amt : Z)
| SetTokensPerSecond (amt : Z)
| Incentivize (l : list (Z * (Z * Z * Z))) (funds : list (Z * Z))
| RemoveReward (lp a : Z) (bypass : bool) (to : Z)
| ClaimOrphaned (limit : option Z) (to : Z)
| UpdateConfig (ast ctl grd : option Z) (f : option (Z * Z))
| UpdateBlocked (add rm : list Z)
| DeactivatePool (lp : Z)
| DeactivateBlocked
| Donate (a amt : Z).

Definition silent (r : option state) : option (state * list out) := do s <- r; Some (s, []).

(** execute.rs:33-175 *)
Definition step (e : env) (sender : Z) (m : msg) (s : state) : option (state * list out) :=
  match m with
  | SetupPools l => silent (setup_pools e sender l s)
  | ClaimRewards l => claim e sender l s
  | Deposit lp amt rec =>
      deposit e lp amt (match rec with Some r => r | None => sender end) s
  | Withdraw lp amt => withdraw e sender lp amt s
  | SetTokensPerSecond amt => silent (set_tokens e sender amt s)
  | Incentivize l funds => incentivize_many e l funds s
  | RemoveReward lp a bypass to => remove_reward e sender lp a bypass to s
  | ClaimOrphaned limit to => claim_orphaned e sender limit to s
  | UpdateConfig ast ctl grd f => silent (update_config sender ast ctl grd f s)
  | UpdateBlocked add rm => silent (update_blocked e sender add rm s)
  | DeactivatePool lp => silent (deactivate_pool e sender lp s)
  | DeactivateBlocked => silent (deactivate_blocked e s)
  | Donate a amt => Some (set_bal s (set (bal s) a (get (bal s) a + amt)), [])
  end.

(** A failed message changes nothing. *)
Definition exec (s : state) (x : env * Z * msg) : state :=
  let '(e, sender, m) := x in
  match step e sender m s with Some (s', _) => s' | None => s end.
Definition run (s : state) (h : list (env * Z * msg)) : state := fold_left exec h s.

(** instantiate.rs:17-50 *)
Definition init (own fac ast : Z) (grd : option Z) (f : option (Z * Z)) : state :=
  mkState own fac None grd ast 0 0 f [] [] [] [] [].
