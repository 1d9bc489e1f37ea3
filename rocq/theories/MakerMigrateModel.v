(** Migration of the maker: /repo/contracts/tokenomics/maker/src/contract.rs:1030-1091 [migrate], migration.rs, and its
    queries, contract.rs:969-1026.

    Simplifications: addresses of the message are valid; the storage is what the listed versions wrote (version 1.2.0 had
    no dev fund, no cooldown, no time of the last collection and no seize configuration; 1.4.0 and 1.5.0 no dev fund). *)
From Coq Require Import ZArith Bool List String.
From Verif Require Import Num Ledger Amap MakerModel.
From Verif Require OwnershipModel.
Import ListNotations.
Open Scope Z_scope.

(** The stored contract: cw2 name and version, and the maker's items as far as the version has them. *)
Record stored := mkStored { sname : string; sver : string; body : state }.
(** maker.rs (package) [MigrateMsg] *)
Record migmsg := mkMig { m_second : option (Z * Z); m_cooldown : option Z }.

(** contract.rs:1042-1050, 1058-1066, 1069-1077: nothing can be seized until it is configured again. *)
Definition unseizable (s : state) : state := mkState (cfg s) (lastcol s) (bridges s) None [] (bal s).
(** migration.rs:12-56 [migrate_from_v120_plus]; its two checks are utils.rs:236-274. *)
Definition from_v120 (m : migmsg) (c : config) : option config :=
  guard cooldown_ok (m_cooldown m);
  guard second_ok (m_second m);
  Some (mkCfg (own c) (factory c) (staking c) None (dbridge c) (gov c) (pct c) (astro c) (spread c) (enabled c)
          (pblocks c) (lastblk c) (remainder c) (preamt c) (orsome (m_second m) (second c)) (m_cooldown m)).
(** contract.rs:1030-1091 [migrate] *)
Definition migrate (t : Z) (m : migmsg) (o : stored) : option stored :=
  guard String.eqb (sname o) "astroport-maker";
  let s := body o in
  if String.eqb (sver o) "1.2.0" then
    do c <- from_v120 m (cfg s);
    Some (mkStored "astroport-maker" "1.7.0" (unseizable (mkState c t (bridges s) (seize_to s) (seizable s) (bal s))))
  else if String.eqb (sver o) "1.4.0" || String.eqb (sver o) "1.5.0" || String.eqb (sver o) "1.6.0" then
    Some (mkStored "astroport-maker" "1.7.0" (unseizable s))
  else None.

(** contract.rs:979-995 [query_get_config]: what the answer contains. *)
Definition query_config (s : state) :=
  let c := cfg s in
  (OwnershipModel.owner (own c), factory c, staking c, dev c, gov c, pct c, astro c, spread c, remainder c, preamt c, dbridge c, second c).
(** contract.rs:1000-1015 [query_get_balances] *)
Definition query_balances (s : state) (l : list Z) : list (Z * Z) :=
  filter (fun x => negb (snd x =? 0)) (map (fun a => (a, get (bal s) a)) l).
(** contract.rs:1018-1026 [query_bridges] (in the order of the keys, which is not modelled) *)
Definition query_bridges (s : state) : list (Z * Z) := bridges s.

(** A deployed maker: messages and migrations. *)
Inductive mev := Msg (v : event) | Migrate (e : env) (m : migmsg).
Definition mexec (o : stored) (v : mev) : stored :=
  match v with
  | Msg v => mkStored (sname o) (sver o) (exec (body o) v)
  | Migrate e m => match migrate (now e) m o with Some o' => o' | None => o end
  end.
Definition mrun (o : stored) (l : list mev) : stored := fold_left mexec l o.
