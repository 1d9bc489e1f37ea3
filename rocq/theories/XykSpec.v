(** Specification vocabulary for the constant-product pair (no proofs). *)
From Coq Require Import ZArith Bool List.
From Verif Require Import Num Ledger Hist SnapshotModel XykModel.
Import ListNotations.
Open Scope Z_scope.

Definition fees_ok (f : fee_info) : Prop :=
  0 <= total_fee f <= DEC /\ 0 <= maker_rate f <= DEC.
Definition bps_ok (b : option Z) : Prop :=
  match b with Some n => 1 <= n <= 1000 | None => True end.

(** Environments the factory can produce: fee rates at most 100%. *)
Definition env_ok (e : env) : Prop := fees_ok (fees e).

(** A message history all of whose environments are acceptable. *)
Definition envs_ok (l : list (env * msg)) : Prop := Forall (fun em => env_ok (fst em)) l.

(** States the pair can be in: any history of messages from the freshly instantiated pair. *)
Definition reachable (s : state) : Prop :=
  exists b l, envs_ok l /\ s = run (init b) l.

(** Commission that stays in the pool. *)
Definition kept (o : swap_out) : Z := so_commission o - so_maker o - so_share o.

(** A successful operation outside the rounding corner: every operation other than a swap, and a
    swap where the offer reserve after it is at most 10^18 or some commission stays in the pool. *)
Definition regular (m : msg) (s' : state) (o : out) : Prop :=
  match m, o with
  | Swap one _ _ _, OSwap so => (if one then r1 s' else r0 s') <= DEC \/ 1 <= kept so
  | _, _ => True
  end.

(** Every successful operation of a history satisfies [P]. *)
Fixpoint always (P : env -> msg -> state -> state -> out -> Prop) (s : state) (l : list (env * msg)) : Prop :=
  match l with
  | [] => True
  | (e, m) :: r =>
      match step e m s with
      | Some (s', o) => P e m s s' o /\ always P s' r
      | None => always P s r
      end
  end.

Definition all_regular : state -> list (env * msg) -> Prop :=
  always (fun _ m _ s' o => regular m s' o).

(** Liquidity operations. *)
Definition liq (m : msg) : Prop :=
  match m with Provide _ _ _ _ _ _ | Withdraw _ _ _ => True | _ => False end.

(** "The pool is alive": LP supply at least the locked minimum and both reserves positive. *)
Definition alive (s : state) : Prop := 1000 <= supply s /\ 0 < r0 s /\ 0 < r1 s.

(** Operations that touch the reserves through the contract. *)
Definition touching (m : msg) : bool :=
  match m with Provide _ _ _ _ _ _ | Withdraw _ _ _ | Swap _ _ _ _ => true | _ => false end.
Definition not_donation (m : msg) : bool := match m with Donate _ _ => false | _ => true end.

(** The successful provides, withdrawals and swaps of a history, oldest first, each with the block
    it happened in and the state it left. *)
Fixpoint events (s : state) (l : list (env * msg)) : list (env * state) :=
  match l with
  | [] => []
  | (e, m) :: r =>
      match step e m s with
      | Some (s', _) => if touching m then (e, s') :: events s' r else events s' r
      | None => events s r
      end
  end.

(** Specification: price-time integral of a step function.  [x],[y] are the reserves held from time
    [t] on; each event replaces them.  [contrib] is one interval, in units of 10^-6 per second. *)
Definition contrib (dt x y : Z) : Z :=
  if (x =? 0) || (y =? 0) then 0 else dt * 1000000 * y / x.
Fixpoint integral (t x y : Z) (evs : list (Z * Z * Z)) (T : Z) : Z :=
  match evs with
  | [] => contrib (T - t) x y
  | (t', x', y') :: r => contrib (t' - t) x y + integral t' x' y' r T
  end.

(** An event as (time, reserve 0, reserve 1), and the same with the assets exchanged. *)
Definition ev_time (p : env * state) : Z * Z * Z := (now (fst p), r0 (snd p), r1 (snd p)).
Definition swap_xy (p : Z * Z * Z) : Z * Z * Z := let '(t, x, y) := p in (t, y, x).

(** An event as (height, reserve). *)
Definition sv0 (p : env * state) : Z * Z := (height (fst p), r0 (snd p)).
Definition sv1 (p : env * state) : Z * Z := (height (fst p), r1 (snd p)).

