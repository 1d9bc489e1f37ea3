(** Token-factory balance tracker: /repo/contracts/periphery/tokenfactory_tracker/src/contract.rs and
    query.rs, together with the bank events that call it.

    Simplifications: one tracked denom (messages for any other denom are rejected, contract.rs:51-57);
    the tracking unit (height or seconds, contract.rs:58-63) is the stamp of each event; the token's
    hook is installed before anybody holds the token (so all balances start at 0).  The chain's token
    factory mints into the module account and then sends to the recipient, and burns by sending to the
    module account first (contract.rs:80-91 comment); both are modelled by the primitive events below. *)
From Coq Require Import ZArith Lia Bool List.
From Verif Require Import Num Ledger SnapshotModel.
Import ListNotations.
Open Scope Z_scope.

(** The token-factory module account ([config.m], state.rs:9-10). *)
Definition MODULE : Z := 0.

Record state := mkState
  { bank : ledger;              (* bank balances of the denom *)
    bsupply : Z;                (* bank supply of the denom *)
    snaps : Z -> snap;          (* BALANCES, state.rs:21-22 *)
    ssnap : snap }.             (* TOTAL_SUPPLY_HISTORY, state.rs:25-26 *)

Definition init : state := mkState [] 0 (fun _ => snap0) snap0.

Definition upd (f : Z -> snap) (a : Z) (v : snap) : Z -> snap := fun b => if b =? a then v else f b.

(** contract.rs:92-127 [track_balances], called by [sudo] (contract.rs:44-78) before the transfer. *)
Definition track_balances (s : state) (u from to amount : Z) : option state :=
  do sn <- (if from =? to then Some (snaps s)
            else
              do sn1 <- (if from =? MODULE then Some (snaps s)
                         else do nb <- sub128 (get (bank s) from) amount;
                              Some (upd (snaps s) from (snap_save (snaps s from) u nb)));
              (if to =? MODULE then Some sn1
               else do nb <- add128 (get (bank s) to) amount;
                    Some (upd sn1 to (snap_save (sn1 to) u nb))));
  Some (mkState (bank s) (bsupply s) sn (snap_save (ssnap s) u (bsupply s))).

(** Bank events of the denom. *)
Inductive event :=
| Send (from to amount : Z)       (* hook, then transfer; from/to may be the module account *)
| ModuleMint (amount : Z)         (* MintCoins into the module account *)
| ModuleBurn (amount : Z).        (* BurnCoins from the module account *)

Definition step (u : Z) (e : event) (s : state) : option state :=
  match e with
  | Send from to amount =>
      do s1 <- track_balances s u from to amount;
      guard (0 <=? amount) && (amount <=? get (bank s) from);
      Some (mkState (move (bank s1) from to amount) (bsupply s1) (snaps s1) (ssnap s1))
  | ModuleMint amount =>
      guard 0 <=? amount;
      do ns <- add128 (bsupply s) amount;
      Some (mkState (set (bank s) MODULE (get (bank s) MODULE + amount)) ns (snaps s) (ssnap s))
  | ModuleBurn amount =>
      guard (0 <=? amount) && (amount <=? get (bank s) MODULE);
      Some (mkState (set (bank s) MODULE (get (bank s) MODULE - amount)) (bsupply s - amount) (snaps s) (ssnap s))
  end.

(** A failing event leaves everything unchanged. *)
Definition exec (s : state) (ue : Z * event) : state :=
  match step (fst ue) (snd ue) s with Some s' => s' | None => s end.
Definition run (l : list (Z * event)) : state := fold_left exec l init.

(** query.rs:27-40 [balance_at], query.rs:42-55 [total_supply_at]; [now] is the current unit. *)
Definition balance_at (s : state) (now a : Z) (unit : option Z) : Z :=
  let u := match unit with Some u => u | None => now end in
  match (if u =? now then cur (snaps s a) else snap_at (snaps s a) u) with Some v => v | None => 0 end.
Definition total_supply_at (s : state) (now : Z) (unit : option Z) : Z :=
  let u := match unit with Some u => u | None => now end in
  match (if u =? now then cur (ssnap s) else snap_at (ssnap s) u) with Some v => v | None => 0 end.
