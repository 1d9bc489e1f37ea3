(** Migrations of the balance tracker, of the oracle, and the version checks of all contracts.

    Simplifications: reading the old storage succeeds (it was written by the listed versions); the oracle's
    token precisions stored along the way (oracle contract.rs:235-237) are not modelled. *)
From Coq Require Import ZArith Bool List String Ascii.
From Verif Require Import Num.
From Verif Require TrackerModel OracleModel.
Import ListNotations.
Open Scope Z_scope.

(** ** The tracker: /repo/contracts/periphery/tokenfactory_tracker/src/contract.rs:128-171 *)

(** [secs]: Config::t, whether balances are recorded by seconds instead of blocks. *)
Record tracker := mkTr { t_ver : string; secs : bool; tr : TrackerModel.state }.
Inductive tev :=
| Bank (height time : Z) (e : TrackerModel.event)
| MigrateTracker (over_seconds : bool).
Definition tstep (e : tev) (s : tracker) : option tracker :=
  match e with
  | Bank height time e =>
      (* contract.rs:58-67: the unit of the record *)
      do s' <- TrackerModel.step (if secs s then time else height) e (tr s); Some (mkTr (t_ver s) (secs s) s')
  | MigrateTracker b =>
      (* contract.rs:138-157 *)
      guard String.eqb (t_ver s) "1.0.0"; Some (mkTr "2.0.0" b (tr s))
  end.
Definition texec (s : tracker) (e : tev) : tracker := match tstep e s with Some s' => s' | None => s end.
Definition trun (s : tracker) (l : list tev) : tracker := fold_left texec l s.
(** Version 1.0.0 recorded by blocks. *)
Definition tstart : tracker := mkTr "1.0.0" false TrackerModel.init.
(** query.rs:27-40 [balance_at]: [unit]: a height or a time, depending on the configuration *)
Definition tbalance_at (s : tracker) (height time : Z) (a : Z) (unit : option Z) : Z :=
  TrackerModel.balance_at (tr s) (if secs s then time else height) a unit.

(** ** The oracle: /repo/contracts/periphery/oracle/src/contract.rs:192-252, migration.rs *)

(** migration.rs:7-18 [PriceCumulativeLastV100] *)
Record v100 := mkV100 { p0 : Z; p1 : Z; a0 : Z; a1 : Z; ts : Z }.
(** contract.rs:199-233: [x], [y]: the two assets of the oracle's pair *)
Definition migrate_oracle (ver : string) (x y : Z) (v : v100) : option OracleModel.state :=
  guard existsb (String.eqb ver) ["1.0.0"; "1.0.1"; "1.0.2"]%string;
  Some (OracleModel.mkState [(x, y, p0 v); (y, x, p1 v)] [(x, y, a0 v); (y, x, a1 v)] (ts v)).

(** ** Version checks *)

(** Version numbers: digits between dots (semver without pre-release or build parts). *)
Definition digit (c : ascii) : option Z :=
  let n := Z.of_nat (nat_of_ascii c) in if (48 <=? n) && (n <=? 57) then Some (n - 48) else None.
Fixpoint number (s : string) (acc : option Z) : option (Z * string) :=
  match s with
  | String c r =>
      match digit c with
      | Some d => number r (Some (match acc with Some a => 10 * a + d | None => d end))
      | None => match acc with Some a => Some (a, s) | None => None end
      end
  | EmptyString => match acc with Some a => Some (a, EmptyString) | None => None end
  end.
Definition dot (s : string) : option string :=
  match s with String c r => if Ascii.eqb c "."%char then Some r else None | EmptyString => None end.
Definition parse (s : string) : option (Z * Z * Z) :=
  do '(a, s1) <- number s None; do s2 <- dot s1;
  do '(b, s3) <- number s2 None; do s4 <- dot s3;
  do '(c, s5) <- number s4 None;
  guard String.eqb s5 "";
  Some (a, b, c).

(** A contract code: the name and version it writes (Cargo.toml of each contract), and the stored name and
    versions it agrees to be migrated from. *)
Inductive source := Listed (l : list string) | Semver4.
Record code := mkCode { c_name : string; c_version : string; from_name : string; from_versions : source }.
(** pair_concentrated_duality/src/migrate.rs:16, 31-38: ">=4.0.0, <5.0.0" *)
Definition semver4 (v : string) : bool := match parse v with Some (a, _, _) => a =? 4 | None => false end.
Definition accepts (k : code) (name ver : string) : bool :=
  String.eqb name (from_name k) &&
  match from_versions k with Listed l => existsb (String.eqb ver) l | Semver4 => semver4 ver end.
Open Scope string_scope.
Definition VESTING := mkCode "astroport-vesting" "1.4.0" "astroport-vesting" (Listed ["1.1.0"; "1.2.0"; "1.3.0"; "1.3.1"]).
Definition FACTORY := mkCode "astroport-factory" "1.9.0" "astroport-factory"
  (Listed ["1.3.1"; "1.5.1"; "1.6.0"; "1.7.0"; "1.8.0"; "1.8.1"]).
Definition MAKER := mkCode "astroport-maker" "1.7.0" "astroport-maker" (Listed ["1.2.0"; "1.4.0"; "1.5.0"; "1.6.0"]).
Definition ORACLE := mkCode "astroport-oracle" "2.1.2" "astroport-oracle" (Listed ["1.0.0"; "1.0.1"; "1.0.2"]).
Definition TRACKER := mkCode "astroport-tokenfactory-tracker" "2.0.0" "astroport-tokenfactory-tracker" (Listed ["1.0.0"]).
Definition REGISTRY := mkCode "astroport-native-coin-registry" "1.1.0" "astroport-native-coin-registry" (Listed ["1.0.1"]).
Definition INCENTIVES := mkCode "astroport-incentives" "1.3.0" "astroport-incentives" (Listed ["1.0.0"; "1.0.1"; "1.1.0"; "1.2.0"]).
Definition STAKING := mkCode "astroport-staking" "2.3.0" "astroport-staking" (Listed ["2.0.0"; "2.1.0"]).
Definition XASTRO := mkCode "astroport-xastro-token" "1.1.0" "astroport-xastro-token" (Listed ["1.0.0"; "1.0.1"; "1.0.2"]).
Definition ROUTER := mkCode "astroport-router" "1.3.1" "astroport-router" (Listed ["1.1.2"; "1.2.0"; "1.3.0"]).
Definition PCL := mkCode "astroport-pair-concentrated" "4.1.1" "astroport-pair-concentrated" (Listed ["4.0.0"; "4.0.1"; "4.1.0"]).
Definition DUALITY := mkCode "astroport-pair-concentrated-duality" "4.1.1" "astroport-pair-concentrated" Semver4.
Definition SALE_TAX := mkCode "astroport-pair-xyk-sale-tax" "2.1.0" "astroport-pair"
  (Listed ["1.3.0"; "1.3.1"; "1.3.3"; "1.4.0"; "1.5.0"; "1.5.1"]).
Definition CONV_PAIR := mkCode "astroport-pair-converter" "1.0.0" "astroport-pair" (Listed ["1.0.1"; "1.1.0"; "1.3.0"; "1.3.3"]).
(** pair/src/contract.rs:1424, pair_stable/src/contract.rs:1047, pair_transmuter/src/contract.rs:304: always fail *)
Definition PAIR := mkCode "astroport-pair" "2.1.0" "astroport-pair" (Listed []).
Definition STABLE := mkCode "astroport-pair-stable" "4.1.1" "astroport-pair-stable" (Listed []).
Definition TRANSMUTER := mkCode "astroport-pair-transmuter" "1.1.2" "astroport-pair-transmuter" (Listed []).
(** Every code of the workspace with a migrate entry point. *)
Definition CODES : list code :=
  [VESTING; FACTORY; MAKER; ORACLE; TRACKER; REGISTRY; INCENTIVES; STAKING; XASTRO; ROUTER; PCL; DUALITY; SALE_TAX; CONV_PAIR;
   PAIR; STABLE; TRANSMUTER].
Close Scope string_scope.
(** A migration attempt: the stored name and version afterwards (each code ends with set_contract_version). *)
Definition attempt (k : code) (i : string * string) : option (string * string) :=
  guard accepts k (fst i) (snd i); Some (c_name k, c_version k).
