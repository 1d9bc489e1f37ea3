(** Factory: /repo/contracts/factory/src/{contract,state}.rs, /repo/packages/astroport/src/factory.rs.

    Modelled: all execute messages, the reply, the pair / pairs / fee-info queries.
    Simplifications: accounts, code ids and pair types are integers (the pair type's string form, which is
    the storage key, is injective: "xyk", "stable", "custom-..."); address validation is the character check
    [addr_ok]; config fields other than owner, fee address and generator are not kept; a pair's
    instantiation is an input (address of the new contract, and the factory messages the new contract may
    send while it is being instantiated, which run before the reply); the message to the incentives contract
    sent by deregistration is an output.  Migration: FactMigrateModel. *)
From Coq Require Import ZArith Lia Bool List.
From Verif Require Import Num Amap Bytes.
From Verif Require OwnershipModel.
Import ListNotations.
Open Scope Z_scope.

(** packages/astroport/src/asset.rs:365-370 [AssetInfo]: native denom or token address, with its characters. *)
Record asset := mkAsset { native : bool; ident : bytes }.
Definition asset_eqb (a b : asset) : bool := Bool.eqb (native a) (native b) && beq (ident a) (ident b).

Definition is_alpha (c : Z) : bool := ((65 <=? c) && (c <=? 90)) || ((97 <=? c) && (c <=? 122)).
Definition is_digit (c : Z) : bool := (48 <=? c) && (c <=? 57).
Definition is_sep (c : Z) : bool := (c =? 47) || (c =? 58) || (c =? 46) || (c =? 95) || (c =? 45).

(** asset.rs:574-600 [validate_native_denom]. *)
Definition denom_ok (d : bytes) : bool :=
  (3 <=? Z.of_nat (length d)) && (Z.of_nat (length d) <=? 128) &&
  match d with
  | [] => false
  | c :: r => is_alpha c && forallb (fun x => is_alpha x || is_digit x || is_sep x) r
  end.
(** [addr_validate] of the chain: bech32 text is printable ASCII (33..126). *)
Definition addr_ok (d : bytes) : bool := forallb (fun c => (33 <=? c) && (c <=? 126)) d.
(** asset.rs:556-567 [AssetInfo::check]. *)
Definition asset_ok (a : asset) : bool := if native a then denom_ok (ident a) else addr_ok (ident a).

Fixpoint all_unique (l : list asset) : bool :=
  match l with [] => true | a :: r => negb (existsb (asset_eqb a) r) && all_unique r end.
(** state.rs:101-113 [check_asset_infos]. *)
Definition check_asset_infos (l : list asset) : bool := all_unique l && forallb asset_ok l.

(** state.rs:31-39 [pair_key]: identifiers sorted and concatenated. *)
Definition pair_key (l : list asset) : bytes := concat (bsort (map ident l)).

(** packages/astroport/src/factory.rs:58-82 [PairConfig]. *)
Record pcfg := mkCfg
  { code_id : Z; total_fee_bps : Z; maker_fee_bps : Z; is_disabled : bool; generator_disabled : bool;
    permissioned : bool }.
(** factory.rs:86-88 [valid_fee_bps]; the fields are u16. *)
Definition valid_fee_bps (c : pcfg) : bool :=
  (0 <=? total_fee_bps c) && (total_fee_bps c <=? 10000) &&
  (0 <=? maker_fee_bps c) && (maker_fee_bps c <=? 10000).

Record state := mkState
  { owner : Z;
    fee_addr : option Z;
    generator : option Z;
    cfgs : amap pcfg;                          (* PAIR_CONFIGS *)
    pairs : bmap Z;                            (* PAIRS *)
    tmp : option bytes;                        (* TMP_PAIR_INFO *)
    tracker : option (Z * Z);                  (* TRACKER_CONFIG: code id, token factory *)
    proposal : option OwnershipModel.proposal }.

Definition set_pairs (s : state) (p : bmap Z) : state :=
  mkState (owner s) (fee_addr s) (generator s) (cfgs s) p (tmp s) (tracker s) (proposal s).
Definition set_tmp (s : state) (k : bytes) : state :=
  mkState (owner s) (fee_addr s) (generator s) (cfgs s) (pairs s) (Some k) (tracker s) (proposal s).

(** contract.rs:41-95 [instantiate]. *)
Fixpoint save_cfgs (l : list (Z * pcfg)) (m : amap pcfg) : option (amap pcfg) :=
  match l with
  | [] => Some m
  | (t, c) :: r => guard valid_fee_bps c; save_cfgs r (put t c m)
  end.
Fixpoint distinct (l : list Z) : bool :=
  match l with [] => true | x :: r => negb (existsb (Z.eqb x) r) && distinct r end.
Definition instantiate (o : Z) (fee gen : option Z) (l : list (Z * pcfg)) (tr : option (Z * Z)) : option state :=
  guard distinct (map fst l);
  do m <- save_cfgs l [];
  Some (mkState o fee gen m [] None tr None).

Inductive msg :=
| UpdateConfig (sender : Z) (fee gen : option Z)
| UpdatePairConfig (sender ptype : Z) (c : pcfg)
(** [addr] is the address of the contract the chain instantiates; [nested] are the messages to the factory
    caused by that instantiation (each with its time and sender). *)
| CreatePair (sender ptype : Z) (assets : list asset) (addr : Z) (nested : list msg)
| Deregister (sender : Z) (assets : list asset)
| UpdateTracker (sender code : Z) (token_factory : option Z)
| Ownership (time sender : Z) (what : OwnershipModel.msg).

(** contract.rs:355-383 [reply]. *)
Definition reply (s : state) (addr : Z) : option state :=
  do k <- tmp s;
  guard (match bfind k (pairs s) with Some _ => false | None => true end);
  Some (set_pairs s (bput k addr (pairs s))).

(** contract.rs:291-351 [execute_create_pair], up to the submessage. *)
Definition create_begin (s : state) (sender ptype : Z) (assets : list asset) : option state :=
  guard check_asset_infos assets;
  guard (match bfind (pair_key assets) (pairs s) with Some _ => false | None => true end);
  do c <- find ptype (cfgs s);
  guard negb (permissioned c && negb (sender =? owner s));
  guard negb (is_disabled c);
  Some (set_tmp s (pair_key assets)).

(** contract.rs:213-250 [execute_update_config]. *)
Definition update_config (s : state) (sender : Z) (fee gen : option Z) : option state :=
  guard sender =? owner s;
  Some (mkState (owner s) (match fee with Some f => Some f | None => fee_addr s end)
          (match gen with Some g => Some g | None => generator s end)
          (cfgs s) (pairs s) (tmp s) (tracker s) (proposal s)).

(** contract.rs:258-282 [execute_update_pair_config]. *)
Definition update_pair_config (s : state) (sender ptype : Z) (c : pcfg) : option state :=
  guard sender =? owner s;
  guard valid_fee_bps c;
  Some (mkState (owner s) (fee_addr s) (generator s) (put ptype c (cfgs s)) (pairs s) (tmp s) (tracker s) (proposal s)).

(** contract.rs:391-425 [deregister]. *)
Definition deregister (s : state) (sender : Z) (assets : list asset) : option state :=
  guard check_asset_infos assets;
  guard sender =? owner s;
  do _ <- bfind (pair_key assets) (pairs s);
  Some (set_pairs s (bdel (pair_key assets) (pairs s))).

(** contract.rs:427-454 [update_tracker_config]: the token factory address is ignored if a configuration
    exists. *)
Definition update_tracker (s : state) (sender code : Z) (tf : option Z) : option state :=
  guard sender =? owner s;
  do tr <- (match tracker s with
            | Some (_, a) => Some (code, a)
            | None => do a <- tf; Some (code, a)
            end);
  Some (mkState (owner s) (fee_addr s) (generator s) (cfgs s) (pairs s) (tmp s) (Some tr) (proposal s)).

(** contract.rs:166-199: ownership messages, see OwnershipModel.v. *)
Definition ownership (s : state) (time sender : Z) (w : OwnershipModel.msg) : option state :=
  do o <- OwnershipModel.step (OwnershipModel.mkEv time sender w)
            (OwnershipModel.mkState (owner s) (proposal s));
  Some (mkState (OwnershipModel.owner o) (fee_addr s) (generator s) (cfgs s) (pairs s) (tmp s) (tracker s)
          (OwnershipModel.prop o)).

(** contract.rs:138-205 [execute].  The messages sent during the instantiation of a pair run between the
    request and the reply; if one of them fails, so does the whole transaction. *)
Fixpoint step (m : msg) (s : state) : option state :=
  match m with
  | UpdateConfig sender fee gen => update_config s sender fee gen
  | UpdatePairConfig sender ptype c => update_pair_config s sender ptype c
  | CreatePair sender ptype assets addr nested =>
      do s1 <- create_begin s sender ptype assets;
      do s2 <- (fix go (l : list msg) (s : state) : option state :=
                  match l with [] => Some s | m' :: r => do s' <- step m' s; go r s' end) nested s1;
      reply s2 addr
  | Deregister sender assets => deregister s sender assets
  | UpdateTracker sender code tf => update_tracker s sender code tf
  | Ownership time sender w => ownership s time sender w
  end.
Fixpoint steps (l : list msg) (s : state) : option state :=
  match l with [] => Some s | m :: r => do s' <- step m s; steps r s' end.

Definition exec (s : state) (m : msg) : state := match step m s with Some s' => s' | None => s end.
Definition run (s : state) (l : list msg) : state := fold_left exec l s.

(** contract.rs:521-524 [query_pair]: the address of the pair. *)
Definition query_pair (s : state) (assets : list asset) : option Z := bfind (pair_key assets) (pairs s).
(** state.rs:56-87 [read_pairs], 93-99 [calc_range_start]; the entries are returned with their keys. *)
Definition read_pairs (s : state) (start : option (list asset)) (limit : option Z) : list (bytes * Z) :=
  let n := Z.to_nat (Z.min (match limit with Some l => l | None => 10 end) 30) in
  firstn n (match start with
            | Some assets => after (pair_key assets ++ [1]) (pairs s)
            | None => pairs s
            end).
(** contract.rs:546-555 [query_fee_info]. *)
Definition query_fee_info (s : state) (ptype : Z) : option (option Z * Z * Z) :=
  do c <- find ptype (cfgs s);
  Some (fee_addr s, total_fee_bps c, maker_fee_bps c).
