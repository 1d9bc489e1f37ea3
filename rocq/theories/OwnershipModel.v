(** Two-step ownership transfer: /repo/packages/astroport/src/common.rs, used by the factory, vesting,
    staking periphery, maker, incentives, router-side registries and pairs.

    Simplifications: addresses are numbers (address validation always succeeds); the callback of
    [claim_ownership] is the one every caller passes, which stores the new owner in the contract's
    configuration. [Other] stands for any message which does not go through these three functions
    and does not touch the owner. *)
From Coq Require Import ZArith Bool List.
From Verif Require Import Num.
Import ListNotations.
Open Scope Z_scope.

(** common.rs:7 *)
Definition MAX_PROPOSAL_TTL : Z := 1209600.

(** common.rs:13-18 [OwnershipProposal]. *)
Record proposal := mkProp { p_owner : Z; p_ttl : Z }.
Record state := mkState { owner : Z; prop : option proposal }.

Inductive msg :=
| Propose (new_owner expires_in : Z)
| Drop
| Claim
| Other.

Record event := mkEv { at_time : Z; sender : Z; what : msg }.

Definition step (e : event) (s : state) : option state :=
  match what e with
  | Propose n x =>
      (* common.rs:30-71 [propose_new_owner] *)
      guard sender e =? owner s;
      guard negb (n =? owner s);
      guard negb (MAX_PROPOSAL_TTL <? x);
      do ttl <- add64 (at_time e) x;
      Some (mkState (owner s) (Some (mkProp n ttl)))
  | Drop =>
      (* common.rs:78-96 [drop_ownership_proposal] *)
      guard sender e =? owner s;
      Some (mkState (owner s) None)
  | Claim =>
      (* common.rs:104-136 [claim_ownership] *)
      do p <- prop s;
      guard sender e =? p_owner p;
      guard negb (p_ttl p <? at_time e);
      Some (mkState (p_owner p) None)
  | Other => Some s
  end.
Definition exec (s : state) (e : event) : state := match step e s with Some s' => s' | None => s end.
Definition run (s : state) (l : list event) : state := fold_left exec l s.
Definition init (o : Z) : state := mkState o None.
