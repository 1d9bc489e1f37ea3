(** Vocabulary for the maker over its pairs (no proofs). *)
From Coq Require Import ZArith Bool List.
From Verif Require Import Num Ledger MakerModel MakerSpec MakerPoolModel.
From Verif Require XykModel XykSpec.
Import ListNotations.
Open Scope Z_scope.

(** A pair that the factory lists for [a] and [b]; [one] says that [a] is its second asset. *)
Definition trades_at (r : registry) (p : pair) (a b : Z) (one : bool) : Prop :=
  In p (pairs r) /\ In (pid p) (listed r) /\ (if one then a = pa1 p /\ b = pa0 p else a = pa0 p /\ b = pa1 p).

(** The effects of a message told from the side of the pairs: transfers leave them alone, and every swap is a swap of one
    listed pair at the reserves that the swaps before left, within the spread [sp]; the maker gets its return and, where the
    maker is the fee address, the maker's part of the commission. *)
Inductive story (e : env) (r : registry) (sp : Z) : (Z -> XykModel.state) -> list out -> (Z -> XykModel.state) -> Prop :=
| tell_nil : forall f, story e r sp f [] f
| tell_paid : forall f a to v os g, story e r sp f os g -> story e r sp f (Paid a to v :: os) g
| tell_sold : forall f a b v q os g p one s' so,
    trades_at r p a b one ->
    XykModel.step (XykModel.mkEnv (now e) (height e) (fees e (pid p)) (fowner e))
      (XykModel.Swap one v None (Some sp)) (f (pid p)) = Some (s', XykModel.OSwap so) ->
    q = XykModel.so_return so + (if mine e then XykModel.so_maker so else 0) ->
    story e r sp (fun j => if j =? pid p then s' else f j) os g ->
    story e r sp f (Swapped a b v q :: os) g.

(** Reserves of a pair in the offered and in the asked asset. *)
Definition offer_of (s : XykModel.state) (one : bool) : Z := if one then XykModel.r1 s else XykModel.r0 s.
Definition ask_of (s : XykModel.state) (one : bool) : Z := if one then XykModel.r0 s else XykModel.r1 s.

(** [q] is at least what [v] is worth at the price [y/x] after the spread [sp] and the fee rate [fee], both in units of
    10^-18, up to the rounding of the price to 18 digits and of the worth to a whole number. *)
Definition worth (v x y sp fee q : Z) : Prop :=
  (v * y * DEC - (v + DEC) * x) * (DEC - sp - 1) * (DEC - fee) <= q * (DEC * DEC * DEC) * x.

(** All of an asset that the maker and the pairs hold. *)
Definition reserve (a : Z) (f : Z -> XykModel.state) (p : pair) : Z :=
  (if a =? pa0 p then XykModel.r0 (f (pid p)) else 0) + (if a =? pa1 p then XykModel.r1 (f (pid p)) else 0).
Fixpoint reserves (a : Z) (f : Z -> XykModel.state) (l : list pair) : Z :=
  match l with [] => 0 | p :: r => reserve a f p + reserves a f r end.
Definition total (a : Z) (w : world) : Z := holds (mk w) a + reserves a (sts w) (pairs (reg w)).
(** All that goes out in transfers. *)
Fixpoint outgoing (a : Z) (os : list out) : Z :=
  match os with
  | [] => 0
  | Paid b _ v :: r => (if a =? b then v else 0) + outgoing a r
  | Swapped _ _ _ _ :: r => outgoing a r
  end.
(** No pair shares its fees, and the maker is the fee address: nothing leaves the maker and the pairs in a sale. *)
Definition no_leak (e : env) (w : world) : Prop :=
  (mine e = true \/ forall i, XykModel.maker_on (fees e i) = false) /\ forall i, XykModel.fshare (sts w i) = None.

(** Environments that a factory can give, with a maker that walks its hash map in some order. *)
Definition env_ok (e : env) : Prop := (forall i, XykSpec.fees_ok (fees e i)) /\ forall l, Permutation.Permutation l (order e l).
Definition envs_ok (l : list (env * msg)) : Prop := Forall (fun em => env_ok (fst em)) l.
(** Worlds: any history from a freshly instantiated maker without pairs. *)
Definition reachable (w : world) : Prop :=
  exists t i w0 l, init t i = Some w0 /\ envs_ok l /\ w = run w0 l.

(** What a trader gets from pair [i] for [v] at this moment. *)
Definition bought (e : env) (w : world) (i : Z) (one : bool) (v : Z) (bl ms : option Z) : option Z :=
  match XykModel.step (XykModel.mkEnv (now e) (height e) (fees e i) (fowner e)) (XykModel.Swap one v bl ms) (sts w i) with
  | Some (_, XykModel.OSwap so) => Some (XykModel.so_return so)
  | _ => None
  end.
(** The maker's part of the commission of a message to a pair, and the asset it is taken in. *)
Definition maker_part (p : pair) (m : XykModel.msg) (o : XykModel.out) (a : Z) : Z :=
  match m, o with
  | XykModel.Swap one _ _ _, XykModel.OSwap so => if a =? (if one then pa0 p else pa1 p) then XykModel.so_maker so else 0
  | _, _ => 0
  end.
