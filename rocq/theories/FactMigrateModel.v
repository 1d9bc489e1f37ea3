(** The migration of the factory: /repo/contracts/factory/src/migration.rs:8-68 and
    contract.rs:570-620.

    The storage of pair configurations maps the text of the pair type (a byte string) to the stored JSON:
    an entry written by the old code ([Old]) or by the present one ([New], which has the extra field
    "permissioned" and no "concentrated" type); reading an entry of the other form fails, since unknown
    fields and variants are refused. Simplification: the tracker's token factory address is always valid. *)
From Coq Require Import ZArith Bool List String.
From Verif Require Import Num Bytes.
Import ListNotations.
Open Scope Z_scope.

(** migration.rs:10-19 [OldPairType]; packages/astroport/src/factory.rs:28-45 [PairType] *)
Inductive otype := OXyk | OStable | OConcentrated | OCustom (s : bytes).
Inductive ptype := Xyk | Stable | Custom (s : bytes).
Definition XYK : bytes := [120; 121; 107].
Definition STABLE : bytes := [115; 116; 97; 98; 108; 101].
Definition CONCENTRATED : bytes := [99; 111; 110; 99; 101; 110; 116; 114; 97; 116; 101; 100].
Definition CUSTOM_ : bytes := [99; 117; 115; 116; 111; 109; 45].  (* "custom-" *)
(** factory.rs:47-55 [Display]; the old code also wrote "concentrated" *)
Definition okey (t : otype) : bytes :=
  match t with OXyk => XYK | OStable => STABLE | OConcentrated => CONCENTRATED | OCustom s => CUSTOM_ ++ s end.
Definition pkey (t : ptype) : bytes :=
  match t with Xyk => XYK | Stable => STABLE | Custom s => CUSTOM_ ++ s end.

(** migration.rs:22-30 [OldPairConfig] *)
Record ocfg := mkO { o_code : Z; o_type : otype; o_total : Z; o_maker : Z; o_disabled : bool; o_gen_disabled : bool }.
(** factory.rs:58-82 [PairConfig] *)
Record ncfg := mkN { n_code : Z; n_type : ptype; n_total : Z; n_maker : Z; n_disabled : bool; n_gen_disabled : bool;
                     n_permissioned : bool }.
Inductive entry := Old (c : ocfg) | New (c : ncfg).

(** migration.rs:42-47 *)
Definition new_type (t : otype) : ptype :=
  match t with OXyk => Xyk | OStable => Stable | OConcentrated => Custom CONCENTRATED | OCustom s => Custom s end.
(** migration.rs:49-57 *)
Definition new_cfg (c : ocfg) : ncfg :=
  mkN (o_code c) (new_type (o_type c)) (o_total c) (o_maker c) (o_disabled c) (o_gen_disabled c) false.
(** migration.rs:39-66: one round of the loop *)
Definition migrate_key (k : bytes) (m : bmap entry) : option (bmap entry) :=
  do e <- bfind k m;
  match e with
  | New _ => None
  | Old c =>
      let n := new_cfg c in
      if negb (beq k (pkey (n_type n))) then Some (bput (pkey (n_type n)) (New n) (bdel k m))
      else Some (bput k (New n) m)
  end.
(** migration.rs:34-68 [migrate_pair_configs]: the keys are collected first *)
Fixpoint migrate_keys (ks : list bytes) (m : bmap entry) : option (bmap entry) :=
  match ks with [] => Some m | k :: r => do m' <- migrate_key k m; migrate_keys r m' end.
Definition migrate_pair_configs (m : bmap entry) : option (bmap entry) := migrate_keys (map fst m) m.

Record fstate := mkF { f_ver : string; f_cfgs : bmap entry; f_tracker : option (Z * Z); f_pairs : bmap Z }.
(** Cargo.toml:3 *)
Definition VERSION : string := "1.9.0"%string.
(** contract.rs:572-612 [migrate] *)
Definition migrate (tr : option (Z * Z)) (s : fstate) : option fstate :=
  let tracker := match tr with Some t => Some t | None => f_tracker s end in
  if existsb (String.eqb (f_ver s)) ["1.3.1"; "1.5.1"; "1.6.0"]%string then
    do m <- migrate_pair_configs (f_cfgs s); Some (mkF VERSION m tracker (f_pairs s))
  else if String.eqb (f_ver s) "1.7.0" then Some (mkF VERSION (f_cfgs s) tracker (f_pairs s))
  else if existsb (String.eqb (f_ver s)) ["1.8.0"; "1.8.1"]%string then
    Some (mkF VERSION (f_cfgs s) (f_tracker s) (f_pairs s))
  else None.

(** What the present code reads: contract.rs:308-311, 546-555 (creation of pairs, fee query). *)
Definition config_of (t : ptype) (s : fstate) : option ncfg :=
  match bfind (pkey t) (f_cfgs s) with Some (New c) => Some c | _ => None end.
(** What the old code read. *)
Definition old_config_of (t : otype) (s : fstate) : option ocfg :=
  match bfind (okey t) (f_cfgs s) with Some (Old c) => Some c | _ => None end.
