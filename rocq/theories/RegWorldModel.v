(** The factory and the incentives contract together: /repo/contracts/factory/src/contract.rs [deregister] tells the
    incentives contract; /repo/contracts/tokenomics/incentives/src/utils.rs [query_pair_info], [is_pool_registered]
    ask the pair and the factory.

    Scope: every message of both models (FactoryModel, IncentivesModel).
    Simplifications: those of the two models, and
    - the pair at address [a] has the LP token [lp_of a] for ever (pairs cannot change it);
    - whoever mints an LP token answers the question for its assets as it likes ([asked]): it need not be a pair;
    - the chain gives every new contract a new address;
    - DeactivatePool messages of deregistrations made while a pair is being instantiated are executed after the
      instantiation (they neither read nor change anything of the factory);
    - if the factory is configured with another incentives contract, that one accepts the message. *)
From Coq Require Import ZArith Bool List.
From Verif Require Import Num Amap Bytes.
From Verif Require FactoryModel IncentivesModel.
Import ListNotations.
Open Scope Z_scope.

(** Address of the factory, address of the incentives contract, LP token of a pair. *)
Record cfg := mkCfg { fac_addr : Z; gen : Z; lp_of : Z -> Z }.
(** [known]: addresses of the contracts that were created as pairs. *)
Record world := mkW { fac : FactoryModel.state; known : list Z; inc : IncentivesModel.state }.
(** What was told to whom: configured incentives contract, pair. *)
Definition note := (option Z * Z)%type.

(** FactoryModel.step with the messages it sends to incentives contracts: factory contract.rs:404-420 [deregister]. *)
Definition reply (x : FactoryModel.state * list Z * list note) (addr : Z) : option (FactoryModel.state * list Z * list note) :=
  let '(s, k, n) := x in
  guard negb (existsb (Z.eqb addr) k);
  do s' <- FactoryModel.reply s addr;
  Some (s', addr :: k, n).
Definition deregister (x : FactoryModel.state * list Z * list note) (sender : Z) (assets : list FactoryModel.asset)
    : option (FactoryModel.state * list Z * list note) :=
  let '(s, k, n) := x in
  do s' <- FactoryModel.deregister s sender assets;
  do a <- FactoryModel.query_pair s assets;
  Some (s', k, n ++ [(FactoryModel.generator s, a)]).
Definition plain (x : FactoryModel.state * list Z * list note) (r : option FactoryModel.state)
    : option (FactoryModel.state * list Z * list note) :=
  do s <- r; Some (s, snd (fst x), snd x).
Fixpoint logged (m : FactoryModel.msg) (x : FactoryModel.state * list Z * list note) : option (FactoryModel.state * list Z * list note) :=
  let s := fst (fst x) in
  match m with
  | FactoryModel.CreatePair sender ptype assets addr nested =>
      do x1 <- plain x (FactoryModel.create_begin s sender ptype assets);
      do x2 <- (fix go (l : list FactoryModel.msg) y :=
                  match l with [] => Some y | m' :: r => do y' <- logged m' y; go r y' end) nested x1;
      reply x2 addr
  | FactoryModel.Deregister sender assets => deregister x sender assets
  | FactoryModel.UpdateConfig sender fee g => plain x (FactoryModel.update_config s sender fee g)
  | FactoryModel.UpdatePairConfig sender ptype c => plain x (FactoryModel.update_pair_config s sender ptype c)
  | FactoryModel.UpdateTracker sender code tf => plain x (FactoryModel.update_tracker s sender code tf)
  | FactoryModel.Ownership time sender w => plain x (FactoryModel.ownership s time sender w)
  end.
(** LP tokens that this incentives contract is told to deactivate. *)
Definition told (c : cfg) (n : list note) : list Z :=
  flat_map (fun x => match fst x with Some g => if g =? gen c then [lp_of c (snd x)] else [] | None => [] end) n.
Fixpoint deactivate_all (c : cfg) (e : IncentivesModel.env) (l : list Z) (i : IncentivesModel.state) : option IncentivesModel.state :=
  match l with
  | [] => Some i
  | lp :: r => do '(i1, _) <- IncentivesModel.step e (fac_addr c) (IncentivesModel.DeactivatePool lp) i; deactivate_all c e r i1
  end.

(** incentives utils.rs:385-433 [query_pair_info], [is_pool_registered]; factory contract.rs:521-524 [query_pair]. *)
Definition is_registered (c : cfg) (asked : Z -> option (list FactoryModel.asset)) (f : FactoryModel.state) (lp : Z) : bool :=
  match asked lp with
  | Some assets => match FactoryModel.query_pair f assets with Some a => lp_of c a =? lp | None => false end
  | None => false
  end.
(** The answers of the pairs and of the factory as the incentives contract gets them. *)
Record wenv := mkE { ie : IncentivesModel.env; asked : Z -> option (list FactoryModel.asset) }.
Definition seen (c : cfg) (e : wenv) (f : FactoryModel.state) : IncentivesModel.env :=
  IncentivesModel.mkEnv (IncentivesModel.now (ie e)) (IncentivesModel.ord (ie e)) (is_registered c (asked e) f)
    (IncentivesModel.pair_assets (ie e)) (IncentivesModel.pair_type (ie e)) (IncentivesModel.bad_types (ie e))
    (IncentivesModel.xfer_ok (ie e)) (IncentivesModel.vest_ok (ie e)).

Inductive msg :=
| Fac (m : FactoryModel.msg)
| Inc (sender : Z) (m : IncentivesModel.msg).
Definition out := list IncentivesModel.out.

Definition step (c : cfg) (e : wenv) (m : msg) (w : world) : option (world * out) :=
  match m with
  | Fac m =>
      do '(f, k, n) <- logged m (fac w, known w, []);
      do i <- deactivate_all c (seen c e (fac w)) (told c n) (inc w);
      Some (mkW f k i, [])
  (* the factory sends nothing but DeactivatePool *)
  | Inc sender m =>
      guard negb (sender =? fac_addr c);
      do '(i, o) <- IncentivesModel.step (seen c e (fac w)) sender m (inc w);
      Some (mkW (fac w) (known w) i, o)
  end.
(** A failed message changes nothing. *)
Definition exec (c : cfg) (w : world) (em : wenv * msg) : world :=
  match step c (fst em) (snd em) w with Some (w', _) => w' | None => w end.
Definition run (c : cfg) (w : world) (l : list (wenv * msg)) : world := fold_left (exec c) l w.
(** The factory as instantiated, no pairs yet. *)
Definition init (c : cfg) (f : FactoryModel.state) (own ast : Z) (grd : option Z) (fe : option (Z * Z)) : world :=
  mkW f [] (IncentivesModel.init own (fac_addr c) ast grd fe).
