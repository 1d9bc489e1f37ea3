(** The maker (fee collector): /repo/contracts/tokenomics/maker/src/contract.rs, utils.rs, reply.rs,
    state.rs and the types of /repo/packages/astroport/src/maker.rs.

    Assets and addresses are numbers; the balance of the maker in every asset is part of the state.
    What other contracts do during a message is given by the environment of the message:
    [pool f a b] says whether the factory [f] knows a pair of [a] and [b], [quote n a b x] is what the
    [n]-th swap of the transaction returns when [x] of [a] is offered for [b] ([None] when the pair
    rejects it, e.g. because of max_spread), [order] is the iteration order of the hash map of bridge
    assets, and [zero_ok] says whether the bank accepts a transfer of nothing. All of them are
    arbitrary.

    Simplifications: addresses are always valid; messages of the maker to other contracts do not call
    back into the maker; attributes are left out; migration and queries are in
    MakerMigrateModel. *)
From Coq Require Import ZArith Bool List.
From Verif Require Import Num Ledger Amap.
From Verif Require OwnershipModel.
Import ListNotations.
Open Scope Z_scope.

(** pair.rs: MAX_ALLOWED_SLIPPAGE = "0.5" *)
Definition MAX_SPREAD : Z := 500000000000000000.
(** maker.rs (package): COOLDOWN_LIMITS = 30..=600 *)
Definition MIN_COOLDOWN : Z := 30.
Definition MAX_COOLDOWN : Z := 600.
(** maker.rs (package): MAX_SECOND_RECEIVER_CUT *)
Definition MAX_CUT : Z := 50.
(** contract.rs:37 DEFAULT_MAX_SPREAD, percent *)
Definition DEFAULT_SPREAD : Z := 50000000000000000.

(** maker.rs (package) [DevFundConfig] *)
Record devfund := mkDev { d_to : Z; d_share : Z; d_asset : Z }.

(** maker.rs (package) [Config], with the ownership proposal of state.rs:10 *)
Record config := mkCfg {
  own : OwnershipModel.state;
  factory : Z;
  staking : option Z;
  dev : option devfund;
  dbridge : option Z;
  gov : option Z;
  pct : Z;
  astro : Z;
  spread : Z;
  enabled : bool;
  pblocks : Z;
  lastblk : Z;
  remainder : Z;
  preamt : Z;
  second : option (Z * Z);    (* receiver, percent *)
  cooldown : option Z }.

(** state.rs: CONFIG, LAST_COLLECT_TS, BRIDGES, SEIZE_CONFIG ([None]: the invalid address [""]), and
    the balances of the contract. *)
Record state := mkState {
  cfg : config;
  lastcol : Z;
  bridges : amap Z;
  seize_to : option Z;
  seizable : list Z;
  bal : ledger }.

Record env := mkEnv {
  self : Z;
  now : Z;
  height : Z;
  pool : Z -> Z -> Z -> bool;
  quote : nat -> Z -> Z -> Z -> option Z;
  order : list Z -> list Z;
  zero_ok : bool }.

(** Effects seen by others: a transfer, or a swap at a pair. *)
Inductive out :=
| Paid (asset to amount : Z)
| Swapped (from to amount got : Z).

Definition set_cfg s c := mkState c (lastcol s) (bridges s) (seize_to s) (seizable s) (bal s).
Definition set_bal s b := mkState (cfg s) (lastcol s) (bridges s) (seize_to s) (seizable s) b.
Definition set_own c o :=
  mkCfg o (factory c) (staking c) (dev c) (dbridge c) (gov c) (pct c) (astro c) (spread c) (enabled c)
    (pblocks c) (lastblk c) (remainder c) (preamt c) (second c) (cooldown c).
Definition owner s := OwnershipModel.owner (own (cfg s)).

Fixpoint mem (x : Z) (l : list Z) : bool :=
  match l with [] => false | y :: r => (x =? y) || mem x r end.
Fixpoint nodup (l : list Z) : bool :=
  match l with [] => true | x :: r => negb (mem x r) && nodup r end.

(** A transfer out of the contract: fails if the balance does not suffice. *)
Definition send (e : env) (a to v : Z) (s : state) : option (state * out) :=
  guard (0 <=? v) && (v <=? get (bal s) a);
  guard zero_ok e || (0 <? v);
  Some (set_bal s (set (bal s) a (get (bal s) a - v)), Paid a to v).

(** A swap at a pair, executed. *)
Definition trade (e : env) (k : nat) (from to v : Z) (s : state) : option (state * out) :=
  guard (0 <=? v) && (v <=? get (bal s) from);
  do q <- quote e k from to v;
  let b := set (bal s) from (get (bal s) from - v) in
  guard 0 <=? q;
  do n <- add128 (get b to) q;
  Some (set_bal s (set b to n), Swapped from to v q).

(** utils.rs:143-180 [validate_bridge], with [n = BRIDGES_MAX_DEPTH - depth] more levels allowed. *)
Fixpoint validate_bridge (e : env) (s : state) (n : nat) (from b : Z) : bool :=
  pool e (factory (cfg s)) from b &&
  (if b =? astro (cfg s) then true
   else if pool e (factory (cfg s)) b (astro (cfg s)) then true
   else match n with
        | O => false
        | S n' => match find b (bridges s) with
                  | None => false
                  | Some nb => validate_bridge e s n' b nb
                  end
        end).
(** utils.rs:21 BRIDGES_MAX_DEPTH *)
Definition MAX_DEPTH : nat := 2.
(** utils.rs:23 BRIDGES_EXECUTION_MAX_DEPTH *)
Definition EXEC_DEPTH : nat := 5.

(** contract.rs:416-475 [swap]: the asset to swap to, and whether it is a further bridge
    ([SwapTarget::Bridge]). *)
Definition target (e : env) (s : state) (from : Z) : option (Z * bool) :=
  let c := cfg s in
  match find from (bridges s) with
  | Some b =>
      guard validate_bridge e s MAX_DEPTH from b;
      Some (b, negb (b =? astro c))
  | None =>
      let direct := guard pool e (factory c) from (astro c); Some (astro c, false) in
      match dbridge c with
      | Some d => if negb (from =? d) && pool e (factory c) from d then Some (d, true) else direct
      | None => direct
      end
  end.

(** contract.rs:387-393: the amount taken of one asset. *)
Definition take (s : state) (a : Z) (limit : option Z) : Z :=
  let b := get (bal s) a in
  match limit with
  | Some l => if (l <? b) && (0 <? l) then l else b
  | None => b
  end.

(** contract.rs:377-409 [swap_assets]: the swap messages and the set of bridge assets reached. All
    balances are read before any message runs. *)
Fixpoint swap_assets (e : env) (s : state) (l : list (Z * option Z))
    : option (list (Z * Z * Z) * list Z) :=
  match l with
  | [] => Some ([], [])
  | (a, lim) :: r =>
      let v := take s a lim in
      if v =? 0 then swap_assets e s r
      else
        do '(t, br) <- target e s a;
        do '(ms, bs) <- swap_assets e s r;
        Some ((a, t, v) :: ms, if br && negb (mem t bs) then t :: bs else bs)
  end.

(** The swap messages executed one after the other; [k] counts the swaps of the transaction. *)
Fixpoint trades (e : env) (k : nat) (ms : list (Z * Z * Z)) (s : state)
    : option (nat * state * list out) :=
  match ms with
  | [] => Some (k, s, [])
  | (a, t, v) :: r =>
      do '(s1, o) <- trade e k a t v s;
      do '(k', s2, os) <- trades e (S k) r s1;
      Some (k', s2, o :: os)
  end.

(** One optional transfer: contract.rs:611-621, 632-641, 679-682. *)
Definition send_opt (e : env) (a to v : Z) (s : state) : option (state * list out) :=
  if v =? 0 then Some (s, []) else
    do '(s1, o) <- send e a to v s; Some (s1, [o]).

(** contract.rs:561-603: the part of the balance to share out and the configuration afterwards;
    [None] inside when nothing is shared out. *)
Definition distributable (e : env) (s : state) : option (config * option Z) :=
  let c := cfg s in
  let amount := get (bal s) (astro c) in
  if amount =? 0 then Some (c, None)
  else if negb (enabled c) then
    Some (mkCfg (own c) (factory c) (staking c) (dev c) (dbridge c) (gov c) (pct c) (astro c)
            (spread c) (enabled c) (pblocks c) (lastblk c) amount amount (second c) (cooldown c), None)
  else if remainder c =? 0 then Some (c, Some amount)
  else
    do passed <- sub64 (height e) (lastblk c);
    if passed =? 0 then Some (c, None)
    else
      guard negb (pblocks c =? 0);
      do x <- mul128 passed (preamt c / pblocks c);
      let cur := Z.min x (remainder c) in
      do pure <- sub128 amount (remainder c);
      do am <- add128 pure cur;
      do rem <- sub128 (remainder c) cur;
      Some (mkCfg (own c) (factory c) (staking c) (dev c) (dbridge c) (gov c) (pct c) (astro c)
              (spread c) (enabled c) (pblocks c) (height e) rem (preamt c) (second c) (cooldown c),
            Some am).

(** contract.rs:553-697 [distribute] and reply.rs:10-30, which forwards the whole balance of the dev
    fund's asset after the swap. The amounts are computed first, then the messages run in order. *)
Definition distribute (e : env) (k : nat) (s : state) : option (state * list out) :=
  do '(c, am) <- distributable e s;
  let s0 := set_cfg s c in
  match am with
  | None => Some (s0, [])
  | Some amount =>
      do sec <- match second c with Some (_, cut) => muldiv128 amount cut 100 | None => Some 0 end;
      do gv <- match gov c with
               | Some _ => do x <- sub128 amount sec; muldiv128 x (pct c) 100
               | None => Some 0
               end;
      do dv <- match dev c with
               | Some d => do v <- umul amount (d_share d);
                           guard (v =? 0) || pool e (factory c) (astro c) (d_asset d); Some v
               | None => Some 0
               end;
      do st <- match staking c with
               | Some _ => do x <- add128 gv sec; do y <- add128 x dv; sub128 amount y
               | None => Some 0
               end;
      do '(s1, o1) <- match second c with
                      | Some (to, _) => send_opt e (astro c) to sec s0 | None => Some (s0, []) end;
      do '(s2, o2) <- match gov c with
                      | Some to => send_opt e (astro c) to gv s1 | None => Some (s1, []) end;
      do '(s3, o3) <- match dev c with
                      | Some d =>
                          if dv =? 0 then Some (s2, [])
                          else
                            do '(sa, oa) <- trade e k (astro c) (d_asset d) dv s2;
                            do '(sb, ob) <- send e (d_asset d) (d_to d) (get (bal sa) (d_asset d)) sa;
                            Some (sb, [oa; ob])
                      | None => Some (s2, [])
                      end;
      do '(s4, o4) <- match staking c with
                      | Some to => send_opt e (astro c) to st s3 | None => Some (s3, []) end;
      Some (s4, o1 ++ o2 ++ o3 ++ o4)
  end.

(** utils.rs:102-127 [build_distribute_msg] and contract.rs:485-528 [swap_bridge_assets] with
    [fuel = BRIDGES_EXECUTION_MAX_DEPTH - depth]; contract.rs:518-523: no message to swap is an
    error. *)
Fixpoint bridge (fuel : nat) (e : env) (k : nat) (bs : list Z) (s : state) : option (state * list out) :=
  match bs with
  | [] => distribute e k s
  | _ =>
      match fuel with
      | O => None
      | S f =>
          do '(ms, nb) <- swap_assets e s (map (fun a => (a, None)) bs);
          match ms with
          | [] => None
          | _ =>
              do '(k', s1, o1) <- trades e k ms s;
              do '(s2, o2) <- bridge f e k' (order e nb) s1;
              Some (s2, o1 ++ o2)
          end
      end
  end.

(** Arguments are unsigned 128-bit numbers. *)
Definition limits_ok (l : list (Z * option Z)) : bool :=
  forallb (fun x => match snd x with Some v => fits U128MAX v | None => true end) l.

(** contract.rs:309-362 [collect] *)
Definition collect (e : env) (l : list (Z * option Z)) (s : state) : option (state * list out) :=
  let c := cfg s in
  guard limits_ok l;
  do ok <- match cooldown c with
           | Some cd => do t <- add64 (lastcol s) cd; Some (t <=? now e)
           | None => Some true
           end;
  guard ok;
  let s0 := mkState c (now e) (bridges s) (seize_to s) (seizable s) (bal s) in
  guard nodup (map fst l);
  do '(ms, bs) <- swap_assets e s0 (filter (fun x => negb (fst x =? astro c)) l);
  match ms with
  | [] => distribute e 0 s0
  | _ =>
      do '(k, s1, o1) <- trades e 0 ms s0;
      do '(s2, o2) <- bridge EXEC_DEPTH e k (order e bs) s1;
      Some (s2, o1 ++ o2)
  end.

(** Arguments of UpdateConfig, contract.rs:718-731. [u_gov]: [Some (Some a)] sets, [Some None] removes;
    the same for [u_dev]. *)
Record update := mkUpd {
  u_factory : option Z;
  u_staking : option Z;
  u_gov : option (option Z);
  u_pct : option Z;
  u_dbridge : option Z;
  u_spread : option Z;
  u_second : option (Z * Z);
  u_cooldown : option Z;
  u_astro : option Z;
  u_dev : option (option devfund) }.

Definition orelse {A} (o : option A) (d : A) : A := match o with Some x => x | None => d end.
Definition orsome {A} (o d : option A) : option A := match o with Some x => Some x | None => d end.

(** utils.rs:236-260 [update_second_receiver_cfg], as a check *)
Definition second_ok (o : option (Z * Z)) : bool :=
  match o with Some (_, c) => (0 <? c) && (c <=? MAX_CUT) | None => true end.
(** utils.rs:263-274 [validate_cooldown] *)
Definition cooldown_ok (o : option Z) : bool :=
  match o with Some c => (MIN_COOLDOWN <=? c) && (c <=? MAX_COOLDOWN) | None => true end.
(** contract.rs:63-71, 788-795 *)
Definition spread_ok (o : option Z) : bool :=
  match o with Some x => (0 <? x) && (x <=? MAX_SPREAD) | None => true end.

(** contract.rs:718-848 [update_config] *)
Definition update_config (e : env) (sender : Z) (u : update) (s : state) : option state :=
  let c := cfg s in
  guard sender =? owner s;
  let fac := orelse (u_factory u) (factory c) in
  let stk := orsome (u_staking u) (staking c) in
  guard match u_gov u, stk with Some None, None => false | _, _ => true end;
  let gv := orelse (u_gov u) (gov c) in
  guard match u_pct u with
        | Some p => (0 <=? p) && (p <=? 100) && match stk with None => p =? 100 | Some _ => true end
        | None => true
        end;
  guard spread_ok (u_spread u);
  guard second_ok (u_second u);
  guard cooldown_ok (u_cooldown u);
  let ast := orelse (u_astro u) (astro c) in
  guard match u_dev u with
        | Some (Some d) => (0 <? d_share d) && (d_share d <=? DEC) && pool e fac ast (d_asset d)
        | _ => true
        end;
  Some (set_cfg s
    (mkCfg (own c) fac stk (orelse (u_dev u) (dev c)) (orsome (u_dbridge u) (dbridge c)) gv
       (orelse (u_pct u) (pct c)) ast (orelse (u_spread u) (spread c)) (enabled c) (pblocks c)
       (lastblk c) (remainder c) (preamt c) (orsome (u_second u) (second c))
       (orsome (u_cooldown u) (cooldown c)))).

Definition set_bridges s b := mkState (cfg s) (lastcol s) b (seize_to s) (seizable s) (bal s).

(** contract.rs:878-898: the additions, one after the other *)
Fixpoint add_bridges (e : env) (l : list (Z * Z)) (s : state) : option state :=
  match l with
  | [] => Some s
  | (a, b) :: r =>
      guard negb (a =? b);
      guard validate_bridge e s MAX_DEPTH a b;
      add_bridges e r (set_bridges s (put a b (bridges s)))
  end.
(** contract.rs:858-901 [update_bridges] *)
Definition update_bridges (e : env) (sender : Z) (add : list (Z * Z)) (rem : list Z) (s : state)
    : option state :=
  guard sender =? owner s;
  add_bridges e add (set_bridges s (fold_left (fun m a => del a m) rem (bridges s))).

(** contract.rs:258-283 EnableRewards *)
Definition enable (e : env) (sender blocks : Z) (s : state) : option state :=
  let c := cfg s in
  guard sender =? owner s;
  guard negb (enabled c);
  guard fits U64MAX blocks && negb (blocks =? 0);
  Some (set_cfg s
    (mkCfg (own c) (factory c) (staking c) (dev c) (dbridge c) (gov c) (pct c) (astro c) (spread c)
       true blocks (height e) (remainder c) (preamt c) (second c) (cooldown c))).

(** contract.rs:931-951: the transfers of [seize], amounts from the balances before any of them *)
Fixpoint seize_plan (b : ledger) (l : list (Z * option Z)) : list (Z * Z) :=
  match l with
  | [] => []
  | (a, lim) :: r =>
      let v := match lim with Some x => Z.min x (get b a) | None => get b a end in
      if v =? 0 then seize_plan b r else (a, v) :: seize_plan b r
  end.
Fixpoint send_all (e : env) (to : Z) (l : list (Z * Z)) (s : state) : option (state * list out) :=
  match l with
  | [] => Some (s, [])
  | (a, v) :: r =>
      do '(s1, o) <- send e a to v s;
      do '(s2, os) <- send_all e to r s1;
      Some (s2, o :: os)
  end.
(** contract.rs:903-956 [seize] *)
Definition seize (e : env) (l : list (Z * option Z)) (s : state) : option (state * list out) :=
  guard limits_ok l;
  guard match l with [] => false | _ => true end;
  guard match seizable s with [] => false | _ => true end;
  guard forallb (fun x => mem (fst x) (seizable s)) l;
  match seize_plan (bal s) l with
  | [] => Some (s, [])
  | p => do to <- seize_to s; send_all e to p s
  end.

Inductive msg :=
| Collect (l : list (Z * option Z))
| UpdateConfig (u : update)
| UpdateBridges (add : list (Z * Z)) (rem : list Z)
| SwapBridge (bs : list Z) (depth : nat)
| Distribute
| Own (m : OwnershipModel.msg)
| Enable (blocks : Z)
| Seize (l : list (Z * option Z))
| UpdateSeize (to : option Z) (l : list Z)
| Receive (a v : Z).      (* fees or donations arriving *)

Definition silent (o : option state) : option (state * list out) := do s <- o; Some (s, []).

(** contract.rs:189-304 [execute]. SwapBridgeAssets and DistributeAstro sent by anybody but the
    contract itself fail; the contract sends them only inside Collect, see [bridge]. *)
Definition step (e : env) (sender : Z) (m : msg) (s : state) : option (state * list out) :=
  match m with
  | Collect l => collect e l s
  | UpdateConfig u => silent (update_config e sender u s)
  | UpdateBridges a r => silent (update_bridges e sender a r s)
  | SwapBridge bs d =>
      guard sender =? self e;
      match bs with [] => Some (s, []) | _ => bridge (EXEC_DEPTH - d) e 0 bs s end
  | Distribute => guard sender =? self e; distribute e 0 s
  | Own m =>
      silent (do o <- OwnershipModel.step (OwnershipModel.mkEv (now e) sender m) (own (cfg s));
              Some (set_cfg s (set_own (cfg s) o)))
  | Enable b => silent (enable e sender b s)
  | Seize l => seize e l s
  | UpdateSeize to l =>
      (* contract.rs:285-302 *)
      guard sender =? owner s;
      Some (mkState (cfg s) (lastcol s) (bridges s) (orsome to (seize_to s)) l (bal s), [])
  | Receive a v =>
      silent (guard 0 <=? v; do n <- add128 (get (bal s) a) v; Some (set_bal s (set (bal s) a n)))
  end.

Record event := mkEv { ev_env : env; ev_from : Z; ev_msg : msg }.
Definition exec (s : state) (v : event) : state :=
  match step (ev_env v) (ev_from v) (ev_msg v) s with Some (s', _) => s' | None => s end.
Definition run (s : state) (l : list event) : state := fold_left exec l s.

(** contract.rs:41-158 [instantiate] *)
Record inst := mkInst {
  i_owner : Z; i_dbridge : option Z; i_astro : Z; i_factory : Z; i_staking : option Z;
  i_gov : option Z; i_pct : option Z; i_spread : option Z; i_second : option (Z * Z);
  i_cooldown : option Z }.
Definition instantiate (t : Z) (i : inst) : option state :=
  let p := orelse (i_pct i) 0 in
  guard (0 <=? p) && (p <=? 100);
  guard match i_staking i with None => p =? 100 | Some _ => true end;
  guard spread_ok (i_spread i);
  guard cooldown_ok (i_cooldown i);
  guard second_ok (i_second i);
  guard match i_staking i, i_gov i with None, None => false | _, _ => true end;
  Some (mkState
    (mkCfg (OwnershipModel.init (i_owner i)) (i_factory i) (i_staking i) None (i_dbridge i) (i_gov i)
       p (i_astro i) (orelse (i_spread i) DEFAULT_SPREAD) false 0 0 0 0 (i_second i) (i_cooldown i))
    t [] None [] []).
