(** The maker over constant-product pairs: /repo/contracts/tokenomics/maker/src/{contract,utils,reply}.rs and
    /repo/contracts/pair/src/contract.rs together.

    Scope: every message to the maker, the swaps that Collect causes at the pairs, every message to a pair, the opening
    and deregistration of pairs.
    Simplifications: those of MakerModel and XykModel, and
    - all pairs are of constant-product types and belong to the one factory [fac]; the rates and the fee address that the
      factory answers are given by the environment of the message and do not change within it;
    - coins and tokens behave (a transfer moves the amount and runs no other code), so that nothing re-enters;
    - of the accounts only the maker and the pairs are followed. *)
From Coq Require Import ZArith Bool List.
From Verif Require Import Num Ledger MakerModel.
From Verif Require XykModel.
Import ListNotations.
Open Scope Z_scope.

(** A pair: number of its address, assets. *)
Record pair := mkP { pid : Z; pa0 : Z; pa1 : Z }.
(** All pairs ever opened and the addresses that the factory lists. *)
Record registry := mkR { pairs : list pair; listed : list Z }.
(** [sts]: the storages and reserves of the pairs. *)
Record world := mkW { mk : MakerModel.state; reg : registry; sts : Z -> XykModel.state }.
(** [fac]: the factory; [fees]: fee rates per pair; [mine]: the factory's fee address is the maker; [fowner]: its owner. *)
Record env := mkEnv {
  self : Z; now : Z; height : Z; fac : Z; fowner : Z;
  fees : Z -> XykModel.fee_info; mine : bool;
  order : list Z -> list Z; zero_ok : bool }.

Definition upd (f : Z -> XykModel.state) (i : Z) (s : XykModel.state) : Z -> XykModel.state :=
  fun j => if j =? i then s else f j.
Definition xenv (e : env) (p : pair) : XykModel.env := XykModel.mkEnv (now e) (height e) (fees e (pid p)) (fowner e).

(** maker/utils.rs:194-206 [get_pool], factory [query_pair]: one listed pair per set of assets. *)
Definition is_pair (a b : Z) (p : pair) : bool :=
  ((a =? pa0 p) && (b =? pa1 p)) || ((a =? pa1 p) && (b =? pa0 p)).
Definition lookup (r : registry) (a b : Z) : option pair :=
  List.find (fun p => is_pair a b p && mem (pid p) (listed r)) (pairs r).

(** maker/utils.rs:57-95 [build_swap_msg] (no belief price, the configured maximal spread, the maker as receiver) and
    pair/contract.rs:616-774 [swap]: the return and, if the maker is the fee address, the maker's part of the commission. *)
Definition sale (e : env) (r : registry) (sp : Z) (f : Z -> XykModel.state) (a b v : Z) : option ((Z -> XykModel.state) * Z) :=
  do p <- lookup r a b;
  do '(s', o) <- XykModel.step (xenv e p) (XykModel.Swap (a =? pa1 p) v None (Some sp)) (f (pid p));
  match o with
  | XykModel.OSwap so => Some (upd f (pid p) s', XykModel.so_return so + if mine e then XykModel.so_maker so else 0)
  | _ => None
  end.

(** What the maker sees of the others: the listed pairs, and what a swap at the present reserves gives. *)
Definition menv (e : env) (r : registry) (quote : nat -> Z -> Z -> Z -> option Z) : MakerModel.env :=
  MakerModel.mkEnv (self e) (now e) (height e)
    (fun f a b => (f =? fac e) && match lookup r a b with Some _ => true | None => false end)
    quote (order e) (zero_ok e).
Definition at_pools (e : env) (r : registry) (sp : Z) (f : Z -> XykModel.state) : nat -> Z -> Z -> Z -> option Z :=
  fun _ a b v => do '(_, q) <- sale e r sp f a b v; Some q.
Definition wenv (e : env) (w : world) : MakerModel.env := menv e (reg w) (at_pools e (reg w) (spread (cfg (mk w))) (sts w)).

(** The swaps among the effects happen at the pairs. *)
Fixpoint settle (e : env) (r : registry) (sp : Z) (os : list out) (f : Z -> XykModel.state) : option (Z -> XykModel.state) :=
  match os with
  | [] => Some f
  | Paid _ _ _ :: l => settle e r sp l f
  | Swapped a b v _ :: l => do '(f', _) <- sale e r sp f a b v; settle e r sp l f'
  end.

(** maker/contract.rs:377-409: the swap messages, one after the other, each at the reserves that the earlier ones left. *)
Fixpoint wtrades (e : env) (ms : list (Z * Z * Z)) (w : world) : option (world * list out) :=
  match ms with
  | [] => Some (w, [])
  | (a, t, v) :: r =>
      do '(s1, o) <- trade (wenv e w) 0 a t v (mk w);
      do f <- settle e (reg w) (spread (cfg (mk w))) [o] (sts w);
      do '(w2, os) <- wtrades e r (mkW s1 (reg w) f);
      Some (w2, o :: os)
  end.
(** maker/contract.rs:553-697: at most one swap, for the dev fund. *)
Definition wdistribute (e : env) (w : world) : option (world * list out) :=
  do '(s1, os) <- distribute (wenv e w) 0 (mk w);
  do f <- settle e (reg w) (spread (cfg (mk w))) os (sts w);
  Some (mkW s1 (reg w) f, os).
(** maker/contract.rs:485-528, as [MakerModel.bridge]. *)
Fixpoint wbridge (fuel : nat) (e : env) (bs : list Z) (w : world) : option (world * list out) :=
  match bs with
  | [] => wdistribute e w
  | _ =>
      match fuel with
      | O => None
      | S f =>
          do '(ms, nb) <- swap_assets (wenv e w) (mk w) (map (fun a => (a, None)) bs);
          match ms with
          | [] => None
          | _ =>
              do '(w1, o1) <- wtrades e ms w;
              do '(w2, o2) <- wbridge f e (order e nb) w1;
              Some (w2, o1 ++ o2)
          end
      end
  end.
(** maker/contract.rs:309-362, as [MakerModel.collect]. *)
Definition wcollect (e : env) (l : list (Z * option Z)) (w : world) : option (world * list out) :=
  let s := mk w in
  let c := cfg s in
  guard limits_ok l;
  do ok <- match cooldown c with
           | Some cd => do t <- add64 (lastcol s) cd; Some (t <=? now e)
           | None => Some true
           end;
  guard ok;
  let w0 := mkW (MakerModel.mkState c (now e) (bridges s) (seize_to s) (seizable s) (bal s)) (reg w) (sts w) in
  guard nodup (map fst l);
  do '(ms, bs) <- swap_assets (wenv e w0) (mk w0) (filter (fun x => negb (fst x =? astro c)) l);
  match ms with
  | [] => wdistribute e w0
  | _ =>
      do '(w1, o1) <- wtrades e ms w0;
      do '(w2, o2) <- wbridge EXEC_DEPTH e (order e bs) w1;
      Some (w2, o1 ++ o2)
  end.

Inductive msg :=
| Maker (sender : Z) (m : MakerModel.msg)
| Pair (i : Z) (m : XykModel.msg)          (* a message of a user to pair [i] *)
| Open (p : pair) (track : bool)           (* factory: a new pair *)
| Close (i : Z).                           (* factory: deregistration *)

(** pair/contract.rs:718-730: the maker's part of the commission goes to the fee address. *)
Definition credit (e : env) (p : pair) (m : XykModel.msg) (o : XykModel.out) (s : MakerModel.state) : option MakerModel.state :=
  match m, o with
  | XykModel.Swap one _ _ _, XykModel.OSwap so =>
      if mine e then
        let b := if one then pa0 p else pa1 p in
        do n <- add128 (get (bal s) b) (XykModel.so_maker so);
        Some (set_bal s (set (bal s) b n))
      else Some s
  | _, _ => Some s
  end.

Definition step (e : env) (m : msg) (w : world) : option (world * list out) :=
  match m with
  | Maker sender (Collect l) => wcollect e l w
  | Maker sender m =>
      (* SwapBridgeAssets and DistributeAstro come from the maker alone: contract.rs:496-498, 543-545 *)
      guard negb (sender =? self e);
      do '(s, os) <- MakerModel.step (wenv e w) sender m (mk w);
      Some (mkW s (reg w) (sts w), os)
  | Pair i m =>
      do p <- List.find (fun p => pid p =? i) (pairs (reg w));
      do '(s', o) <- XykModel.step (xenv e p) m (sts w i);
      do s <- credit e p m o (mk w);
      Some (mkW s (reg w) (upd (sts w) i s'), [])
  | Open p track =>
      guard negb (mem (pid p) (map pid (pairs (reg w)))) && negb (pa0 p =? pa1 p);
      guard match lookup (reg w) (pa0 p) (pa1 p) with Some _ => false | None => true end;
      Some (mkW (mk w) (mkR (p :: pairs (reg w)) (pid p :: listed (reg w))) (upd (sts w) (pid p) (XykModel.init track)), [])
  | Close i =>
      Some (mkW (mk w) (mkR (pairs (reg w)) (filter (fun j => negb (j =? i)) (listed (reg w)))) (sts w), [])
  end.
Definition exec (w : world) (em : env * msg) : world :=
  match step (fst em) (snd em) w with Some (w', _) => w' | None => w end.
Definition run (w : world) (l : list (env * msg)) : world := fold_left exec l w.
(** A freshly instantiated maker and no pairs. *)
Definition init (t : Z) (i : inst) : option world :=
  do s <- instantiate t i; Some (mkW s (mkR [] []) (fun _ => XykModel.init false)).
