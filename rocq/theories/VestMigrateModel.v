(** The migration of the vesting contract to the new ASTRO coin:
    /repo/contracts/tokenomics/vesting/src/contract.rs:522-586, together with the converter it calls
    (ConverterModel.v) and the vesting contract itself (VestingModel.v).

    Simplifications: the converter named in the migration message is the ASTRO converter (the chain-level
    admin of the contract picks it); the messages before the migration follow the rules of the present
    version of the vesting code; transfers of assets other than old and new ASTRO are left out. *)
From Coq Require Import ZArith Bool List String.
From Verif Require Import Num Amap VestingModel ConverterModel.
Import ListNotations.
Open Scope Z_scope.

(** [tok]: the configured vesting token, whose holding is [bal] of [vest]; [other]: what the contract holds
    of the other ASTRO (new ASTRO before the migration, old ASTRO after it). *)
Record world := mkW { ver : string; tok : asset; other : Z; vest : VestingModel.state; conv : ConverterModel.state }.

Inductive ev :=
| Vest (a : asset) (m : VestingModel.msg)   (* a message to the vesting contract; [a]: the asset attached *)
| Give (a : asset) (amount : Z)             (* plain transfer of old or new ASTRO to the vesting contract *)
| Conv (e : ConverterModel.event)           (* a message of anybody else to the converter *)
| Migrate.

(** Arrival of old or new ASTRO at the vesting contract (bank / cw20 contract). *)
Definition arrive (a : asset) (x : Z) (w : world) : option world :=
  if aeq a (tok w) then
    do b <- add128 (bal (vest w)) x;
    Some (mkW (ver w) (tok w) (other w) (VestingModel.mkState (owner (vest w)) b (accs (vest w))) (conv w))
  else do b <- add128 (other w) x; Some (mkW (ver w) (tok w) b (vest w) (conv w)).

Definition paid_to (who : Z) (l : list (Z * Z)) : Z :=
  fold_right (fun p t => (if fst p =? who then snd p else 0) + t) 0 l.

(** contract.rs:527-534 *)
Definition migratable (v : string) : bool :=
  existsb (String.eqb v) ["1.1.0"; "1.2.0"; "1.3.0"; "1.3.1"]%string.
(** Cargo.toml:3 *)
Definition VERSION : string := "1.4.0"%string.

(** contract.rs:522-586 [migrate]. [self]: the vesting contract's address. The configuration is switched
    when the conversion message runs, so the new coins arrive as the vesting token. *)
Definition migrate (c : config) (self : Z) (w : world) : option world :=
  guard migratable (ver w);
  guard aeq (c_old c) (tok w);
  let total := bal (vest w) in
  let e := match tok w with
           | Token a => mkEv a [] (Send self total None)
           | Coin d => mkEv self [(d, total)] (Convert None)
           end in
  do '(k, o) <- ConverterModel.step c e (conv w);
  do b <- add128 (other w) (paid_to self (paid o));
  Some (mkW VERSION (Coin (c_new c)) 0 (VestingModel.mkState (owner (vest w)) b (accs (vest w))) k).

(** Output: what the vesting contract pays out, and in which asset. *)
Definition wstep (c : config) (self : Z) (t : Z) (e : ev) (w : world) : option (world * (asset * Z)) :=
  match e with
  | Vest a m =>
      (* contract.rs:78-89, 133-152: a registration is paid in the vesting token *)
      guard match m with Register _ _ _ => aeq a (tok w) | Donate _ => false | _ => true end;
      do '(v, o) <- VestingModel.step t m (vest w);
      Some (mkW (ver w) (tok w) (other w) v (conv w), (tok w, o))
  | Give a x =>
      guard (0 <? x) && (aeq a (c_old c) || aeq a (Coin (c_new c)));
      do w' <- arrive a x w; Some (w', (a, 0))
  | Conv e =>
      (* not sent by the vesting contract; conversions may name it as receiver *)
      guard negb (sender e =? self) &&
        match what e with Send from _ _ => negb (from =? self) | Hook from _ _ => negb (from =? self) | _ => true end;
      do '(k, o) <- ConverterModel.step c e (conv w);
      do w' <- arrive (Coin (c_new c)) (paid_to self (paid o)) (mkW (ver w) (tok w) (other w) (vest w) k);
      Some (w', (Coin (c_new c), 0))
  | Migrate => do w' <- migrate c self w; Some (w', (tok w', 0))
  end.
Definition wexec (c : config) (self : Z) (w : world) (te : Z * ev) : world :=
  match wstep c self (fst te) (snd te) w with Some (w', _) => w' | None => w end.
Definition wrun (c : config) (self : Z) (w : world) (h : list (Z * ev)) : world := fold_left (wexec c self) h w.
(** A vesting contract deployed with version [v] for the asset [a], and a converter holding [k]. *)
Definition wstart (v : string) (a : asset) (o : Z) (k : ConverterModel.state) : world :=
  mkW v a 0 (VestingModel.init o) k.
