(** Machine numbers of CosmWasm contracts (cosmwasm-std 1.5.5, see /repo/Cargo.lock:1142).

    Every value is a [Z]; an operation that would overflow, underflow or divide by zero in the
    real machine type gives [None], which stands for "the transaction reverts" (error or panic).
    Simplification: the kind of error is not recorded. *)
From Coq Require Import ZArith Lia Bool List.
Import ListNotations.
Open Scope Z_scope.

(** Sequencing of fallible steps (Rust [?] and panicking operators). *)
Notation "'do' x <- m ; k" :=
  (match m with Some x => k | None => None end)
  (at level 200, x name, m at level 100, k at level 200, right associativity).
Notation "'do' ' p <- m ; k" :=
  (match m with Some p => k | None => None end)
  (at level 200, p pattern, m at level 100, k at level 200, right associativity).
(** [ensure!(b, err)] / [if !b { return Err(err) }]. *)
Notation "'guard' b ; k" :=
  (if b then k else None)
  (at level 200, b at level 100, k at level 200, right associativity).

Definition U64MAX  : Z := 18446744073709551615.
Definition U128MAX : Z := 340282366920938463463374607431768211455.
Definition U256MAX : Z :=
  115792089237316195423570985008687907853269984665640564039457584007913129639935.
Definition TWO128 : Z := 340282366920938463463374607431768211456.
(** Decimal fractional unit 10^18, for both Decimal and Decimal256. *)
Definition DEC : Z := 1000000000000000000.

Lemma U128MAX_eq : U128MAX = 2 ^ 128 - 1. Proof. reflexivity. Qed.
Lemma TWO128_eq : TWO128 = 2 ^ 128. Proof. reflexivity. Qed.
Lemma U256MAX_eq : U256MAX = 2 ^ 256 - 1. Proof. reflexivity. Qed.
Lemma U64MAX_eq : U64MAX = 2 ^ 64 - 1. Proof. reflexivity. Qed.
Lemma DEC_eq : DEC = 10 ^ 18. Proof. reflexivity. Qed.
Lemma DEC_pos : 0 < DEC. Proof. reflexivity. Qed.

Definition fits (max z : Z) : bool := (0 <=? z) && (z <=? max).
Definition u64 (z : Z) : option Z := if fits U64MAX z then Some z else None.
Definition u128 (z : Z) : option Z := if fits U128MAX z then Some z else None.
Definition u256 (z : Z) : option Z := if fits U256MAX z then Some z else None.

(** Uint128 / Uint256 / u64: [+], [-], [*] and the checked_ variants. *)
Definition add64 a b := u64 (a + b).
Definition sub64 a b := u64 (a - b).
Definition add128 a b := u128 (a + b).
Definition sub128 a b := u128 (a - b).
Definition mul128 a b := u128 (a * b).
Definition add256 a b := u256 (a + b).
Definition sub256 a b := u256 (a - b).
Definition mul256 a b := u256 (a * b).
(** [saturating_sub]. *)
Definition ssub (a b : Z) : Z := Z.max 0 (a - b).
(** [multiply_ratio(n, d)]: full-width product, floor division; panics if d = 0 or overflow. *)
Definition muldiv128 a n d := if d =? 0 then None else u128 (a * n / d).
Definition muldiv256 a n d := if d =? 0 then None else u256 (a * n / d).
(** Uint128::wrapping_add / wrapping_sub. *)
Definition wadd128 a b := (a + b) mod TWO128.
Definition wsub128 a b := (a - b) mod TWO128.

(** Decimal::from_ratio, Decimal256::from_ratio. *)
Definition dratio a b := if b =? 0 then None else u128 (a * DEC / b).
Definition dratio256 a b := if b =? 0 then None else u256 (a * DEC / b).
(** Uint128 * Decimal, Uint256 * Decimal256, and Decimal * Decimal (floor). *)
Definition umul u d := u128 (u * d / DEC).
Definition umul256 u d := u256 (u * d / DEC).
Definition dmul a b := u128 (a * b / DEC).
Definition dmul256 a b := u256 (a * b / DEC).
(** Decimal / Decimal, Decimal256 / Decimal256. *)
Definition ddiv a b := if b =? 0 then None else u128 (a * DEC / b).
Definition ddiv256 a b := if b =? 0 then None else u256 (a * DEC / b).
(** Decimal::inv. *)
Definition dinv d := if d =? 0 then None else Some (DEC * DEC / d).

Definition is_u64 z := 0 <= z <= U64MAX.
Definition is_u128 z := 0 <= z <= U128MAX.
Definition is_u256 z := 0 <= z <= U256MAX.

(** ** Inversion lemmas *)

Lemma fits_iff max z : fits max z = true <-> 0 <= z <= max.
Proof. unfold fits. rewrite andb_true_iff, !Z.leb_le. tauto. Qed.

Lemma u64_Some z r : u64 z = Some r <-> r = z /\ 0 <= z <= U64MAX.
Proof.
  unfold u64. destruct (fits U64MAX z) eqn:E.
  - apply fits_iff in E. split; [intros [= <-]; auto | intros [-> _]; auto].
  - split; [discriminate | intros [-> H]; apply fits_iff in H; congruence].
Qed.
Lemma u128_Some z r : u128 z = Some r <-> r = z /\ 0 <= z <= U128MAX.
Proof.
  unfold u128. destruct (fits U128MAX z) eqn:E.
  - apply fits_iff in E. split; [intros [= <-]; auto | intros [-> _]; auto].
  - split; [discriminate | intros [-> H]; apply fits_iff in H; congruence].
Qed.
Lemma u256_Some z r : u256 z = Some r <-> r = z /\ 0 <= z <= U256MAX.
Proof.
  unfold u256. destruct (fits U256MAX z) eqn:E.
  - apply fits_iff in E. split; [intros [= <-]; auto | intros [-> _]; auto].
  - split; [discriminate | intros [-> H]; apply fits_iff in H; congruence].
Qed.

Lemma add64_Some a b r : add64 a b = Some r <-> r = a + b /\ 0 <= a + b <= U64MAX.
Proof. apply u64_Some. Qed.
Lemma sub64_Some a b r : sub64 a b = Some r <-> r = a - b /\ 0 <= a - b <= U64MAX.
Proof. apply u64_Some. Qed.
Lemma add128_Some a b r : add128 a b = Some r <-> r = a + b /\ 0 <= a + b <= U128MAX.
Proof. apply u128_Some. Qed.
Lemma sub128_Some a b r : sub128 a b = Some r <-> r = a - b /\ 0 <= a - b <= U128MAX.
Proof. apply u128_Some. Qed.
Lemma mul128_Some a b r : mul128 a b = Some r <-> r = a * b /\ 0 <= a * b <= U128MAX.
Proof. apply u128_Some. Qed.
Lemma add256_Some a b r : add256 a b = Some r <-> r = a + b /\ 0 <= a + b <= U256MAX.
Proof. apply u256_Some. Qed.
Lemma sub256_Some a b r : sub256 a b = Some r <-> r = a - b /\ 0 <= a - b <= U256MAX.
Proof. apply u256_Some. Qed.
Lemma mul256_Some a b r : mul256 a b = Some r <-> r = a * b /\ 0 <= a * b <= U256MAX.
Proof. apply u256_Some. Qed.
Lemma umul_Some a b r : umul a b = Some r <-> r = a * b / DEC /\ 0 <= a * b / DEC <= U128MAX.
Proof. apply u128_Some. Qed.
Lemma umul256_Some a b r : umul256 a b = Some r <-> r = a * b / DEC /\ 0 <= a * b / DEC <= U256MAX.
Proof. apply u256_Some. Qed.
Lemma dmul_Some a b r : dmul a b = Some r <-> r = a * b / DEC /\ 0 <= a * b / DEC <= U128MAX.
Proof. apply u128_Some. Qed.
Lemma dmul256_Some a b r : dmul256 a b = Some r <-> r = a * b / DEC /\ 0 <= a * b / DEC <= U256MAX.
Proof. apply u256_Some. Qed.

Lemma muldiv128_Some a n d r :
  muldiv128 a n d = Some r <-> d <> 0 /\ r = a * n / d /\ 0 <= a * n / d <= U128MAX.
Proof.
  unfold muldiv128. destruct (Z.eqb_spec d 0).
  - split; [discriminate | tauto].
  - rewrite u128_Some. tauto.
Qed.
Lemma muldiv256_Some a n d r :
  muldiv256 a n d = Some r <-> d <> 0 /\ r = a * n / d /\ 0 <= a * n / d <= U256MAX.
Proof.
  unfold muldiv256. destruct (Z.eqb_spec d 0).
  - split; [discriminate | tauto].
  - rewrite u256_Some. tauto.
Qed.
Lemma dratio_Some a b r :
  dratio a b = Some r <-> b <> 0 /\ r = a * DEC / b /\ 0 <= a * DEC / b <= U128MAX.
Proof. exact (muldiv128_Some a DEC b r). Qed.
Lemma dratio256_Some a b r :
  dratio256 a b = Some r <-> b <> 0 /\ r = a * DEC / b /\ 0 <= a * DEC / b <= U256MAX.
Proof. exact (muldiv256_Some a DEC b r). Qed.
Lemma ddiv_Some a b r :
  ddiv a b = Some r <-> b <> 0 /\ r = a * DEC / b /\ 0 <= a * DEC / b <= U128MAX.
Proof. exact (muldiv128_Some a DEC b r). Qed.
Lemma ddiv256_Some a b r :
  ddiv256 a b = Some r <-> b <> 0 /\ r = a * DEC / b /\ 0 <= a * DEC / b <= U256MAX.
Proof. exact (muldiv256_Some a DEC b r). Qed.
Lemma dinv_Some d r : dinv d = Some r <-> d <> 0 /\ r = DEC * DEC / d.
Proof.
  unfold dinv. destruct (Z.eqb_spec d 0).
  - split; [discriminate | tauto].
  - split; [intros [= <-]; auto | intros [_ ->]; auto].
Qed.

(** Turn a hypothesis [op .. = Some r] into arithmetic facts (syntactic head match). *)
Ltac num_inv1 H :=
  match type of H with
  | add64 _ _ = Some _ => apply add64_Some in H
  | sub64 _ _ = Some _ => apply sub64_Some in H
  | add128 _ _ = Some _ => apply add128_Some in H
  | sub128 _ _ = Some _ => apply sub128_Some in H
  | mul128 _ _ = Some _ => apply mul128_Some in H
  | add256 _ _ = Some _ => apply add256_Some in H
  | sub256 _ _ = Some _ => apply sub256_Some in H
  | mul256 _ _ = Some _ => apply mul256_Some in H
  | umul _ _ = Some _ => apply umul_Some in H
  | umul256 _ _ = Some _ => apply umul256_Some in H
  | dmul _ _ = Some _ => apply dmul_Some in H
  | dmul256 _ _ = Some _ => apply dmul256_Some in H
  | muldiv128 _ _ _ = Some _ => apply muldiv128_Some in H
  | muldiv256 _ _ _ = Some _ => apply muldiv256_Some in H
  | dratio _ _ = Some _ => apply dratio_Some in H
  | dratio256 _ _ = Some _ => apply dratio256_Some in H
  | ddiv _ _ = Some _ => apply ddiv_Some in H
  | ddiv256 _ _ = Some _ => apply ddiv256_Some in H
  | dinv _ = Some _ => apply dinv_Some in H
  | u64 _ = Some _ => apply u64_Some in H
  | u128 _ = Some _ => apply u128_Some in H
  | u256 _ = Some _ => apply u256_Some in H
  end.

(** Break a hypothesis that a chain of [do]/[guard] succeeds into its steps. *)
Ltac step_inv H :=
  repeat (match type of H with
  | match ?m with Some _ => _ | None => None end = Some _ =>
      let E := fresh "E" in destruct m eqn:E; [ | discriminate H ]
  | (if ?b then _ else None) = Some _ =>
      let E := fresh "E" in destruct b eqn:E; [ | discriminate H ]
  | (if ?b then None else _) = Some _ =>
      let E := fresh "E" in destruct b eqn:E; [ discriminate H | ]
  | (let '(_, _) := ?p in _) = Some _ =>
      first [ is_var p; destruct p | let E := fresh "E" in destruct p eqn:E ]
  end; cbv beta iota zeta in H).

(** One step, with chosen names: [unbind H as pat E] for [do], [unguard H E] for [guard]. *)
Tactic Notation "unbind" hyp(H) "as" simple_intropattern(p) ident(E) :=
  match type of H with
  | match ?m with Some _ => _ | None => None end = Some _ =>
      destruct m as [p|] eqn:E; [ | discriminate H ]; cbv beta iota zeta in H
  end.
Ltac unguard H E :=
  match type of H with
  | (if ?b then _ else None) = Some _ => destruct b eqn:E; [ | discriminate H ]
  | (if ?b then None else _) = Some _ => destruct b eqn:E; [ discriminate H | ]
  end; cbv beta iota zeta in H.

Ltac num_inv :=
  repeat match goal with
  | H : _ = Some _ |- _ => num_inv1 H; (destruct H as (? & ? & ?) || destruct H as (? & ?)); subst
  end.

Ltac bools :=
  repeat match goal with
  | H : (_ && _)%bool = true |- _ => apply andb_true_iff in H; destruct H
  | H : (_ || _)%bool = false |- _ => apply orb_false_iff in H; destruct H
  | H : negb _ = true |- _ => apply negb_true_iff in H
  | H : negb _ = false |- _ => apply negb_false_iff in H
  | H : (_ <=? _) = true |- _ => apply Z.leb_le in H
  | H : (_ <=? _) = false |- _ => apply Z.leb_gt in H
  | H : (_ <? _) = true |- _ => apply Z.ltb_lt in H
  | H : (_ <? _) = false |- _ => apply Z.ltb_ge in H
  | H : (_ =? _) = true |- _ => apply Z.eqb_eq in H
  | H : (_ =? _) = false |- _ => apply Z.eqb_neq in H
  end.

(** ** Division facts used everywhere *)

Lemma div_le_iff a b q : 0 < b -> a / b <= q <-> a < b * (q + 1).
Proof.
  intros Hb. split; intros H.
  - pose proof (Z.mod_pos_bound a b Hb). pose proof (Z.div_mod a b ltac:(lia)). nia.
  - apply Z.lt_succ_r. apply Z.div_lt_upper_bound; lia.
Qed.
Lemma div_ge_iff a b q : 0 < b -> q <= a / b <-> b * q <= a.
Proof.
  intros Hb. split; intros H.
  - pose proof (Z.mul_div_le a b Hb). nia.
  - apply Z.div_le_lower_bound; lia.
Qed.
Lemma div_mul_le a b : 0 < b -> b * (a / b) <= a.
Proof. intros. apply Z.mul_div_le; lia. Qed.
Lemma div_mul_gt a b : 0 < b -> a < b * (a / b) + b.
Proof.
  intros Hb. pose proof (Z.mod_pos_bound a b Hb). pose proof (Z.div_mod a b ltac:(lia)). lia.
Qed.
Lemma div_nonneg a b : 0 <= a -> 0 < b -> 0 <= a / b.
Proof. intros. apply Z.div_pos; lia. Qed.

(** Remember a quotient with its defining bounds. *)
Ltac divb a b q :=
  let H1 := fresh "Hle" in let H2 := fresh "Hgt" in
  pose proof (div_mul_le a b ltac:(lia)) as H1;
  pose proof (div_mul_gt a b ltac:(lia)) as H2;
  remember (a / b) as q.

(** Proves concrete existential conjunctions of computable facts, in order. *)
Ltac wit1 := vm_compute; first [ reflexivity | discriminate ].
Ltac wit :=
  repeat match goal with |- exists _, _ => eexists end;
  repeat match goal with |- _ /\ _ => split; [ solve [ wit1 ] | ] end; wit1.
