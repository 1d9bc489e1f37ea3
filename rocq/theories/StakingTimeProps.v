(** C152: staking and unstaking in parts and at other times. *)
From Coq Require Import ZArith Lia Bool List.
From Verif Require Import Num Ledger StakingModel StakingProofs StakingProps.
Import ListNotations.
Open Scope Z_scope.

(** The executed messages of a history with their results. *)
Fixpoint done (s : state) (h : list msg) : list (msg * Z) :=
  match h with
  | [] => []
  | m :: r => match step m s with Some (s', o) => (m, o) :: done s' r | None => done s r end
  end.
(** ASTRO put in by, and xASTRO minted for, the entries of [who]; how many there were. *)
Fixpoint put_in (who : Z) (l : list (msg * Z)) : Z * Z * Z :=
  match l with
  | [] => (0, 0, 0)
  | (m, o) :: r =>
      let '(a, x, n) := put_in who r in
      match m with Enter sd _ v => if sd =? who then (a + v, x + o, n + 1) else (a, x, n) | _ => (a, x, n) end
  end.
(** xASTRO given back by, and ASTRO paid for, the exits of [who]; how many there were. *)
Fixpoint taken_out (who : Z) (l : list (msg * Z)) : Z * Z * Z :=
  match l with
  | [] => (0, 0, 0)
  | (m, o) :: r =>
      let '(x, a, n) := taken_out who r in
      match m with Leave sd v => if sd =? who then (x + v, a + o, n + 1) else (x, a, n) | _ => (x, a, n) end
  end.

Definition better (D0 S0 : Z) (s : state) : Prop := inv s /\ 0 < supply s /\ D0 * supply s <= dep s * S0.
Lemma rate_trans D0 S0 D S1 D' S2 : 0 < S1 -> 0 <= S0 -> 0 <= S2 -> D0 * S1 <= D * S0 -> D * S2 <= D' * S1 ->
  D0 * S2 <= D' * S0.
Proof.
  intros P P0 P2 H1 H2. apply (Zmult_le_reg_r _ _ S1); [lia|].
  assert (D0 * S1 * S2 <= D * S0 * S2) by (apply Z.mul_le_mono_nonneg_r; lia).
  assert (D * S2 * S0 <= D' * S1 * S0) by (apply Z.mul_le_mono_nonneg_r; lia). lia.
Qed.
Lemma better_step D0 S0 m s s' o : 0 < S0 -> better D0 S0 s -> step m s = Some (s', o) -> better D0 S0 s'.
Proof.
  intros P0 (I & P & R) H. destruct (step_rate _ _ _ _ I P H) as (P' & R'). split; [eapply step_inv; eauto|].
  split; auto. apply (rate_trans D0 S0 (dep s) (supply s) (dep s') (supply s')); auto; lia.
Qed.

Lemma done_enter D0 S0 who h : 0 < S0 -> forall s a x n, better D0 S0 s ->
  put_in who (done s h) = (a, x, n) -> 0 <= a /\ 0 <= x /\ x * D0 <= a * S0.
Proof.
  intros P0. induction h as [|m r IH]; intros s a x n B H; cbn [done put_in] in H; [injection H as <- <- <-; lia|].
  destruct (step m s) as [[s' o]|] eqn:E; [|eauto]. cbn [put_in] in H.
  pose proof (better_step _ _ _ _ _ _ P0 B E) as B'. destruct (put_in who (done s' r)) as [[a1 x1] n1] eqn:Er.
  specialize (IH s' a1 x1 n1 B' Er).
  destruct m as [sd rc v| | |]; try (injection H as <- <- <-; auto; fail).
  destruct (sd =? who); injection H as <- <- <-; auto. cbn [step] in E. destruct B as (I & P & R).
  destruct (inv_supply _ I) as (_ & B2). specialize (B2 ltac:(lia)).
  destruct (enter_inv _ _ _ _ _ E I) as (V & O & _ & _ & M). destruct (M ltac:(lia)) as (M1 & _).
  pose proof (div_mul_le (v * supply s) (dep s) ltac:(lia)) as Q. rewrite <- M1 in Q.
  split; [lia|]. split; [lia|].
  assert (o * D0 <= v * S0).
  { apply (Zmult_le_reg_r _ _ (supply s)); [lia|].
    assert (o * (D0 * supply s) <= o * (dep s * S0)) by (apply Z.mul_le_mono_nonneg_l; lia).
    assert (o * dep s * S0 <= v * supply s * S0) by (apply Z.mul_le_mono_nonneg_r; lia). lia. }
  lia.
Qed.
Lemma done_leave D0 S0 who h : 0 < S0 -> forall s x a n, better D0 S0 s ->
  taken_out who (done s h) = (x, a, n) -> 0 <= x /\ 0 <= a /\ 0 <= n /\ x * D0 <= (a + n) * S0 /\
  (0 < n -> x * D0 < (a + n) * S0).
Proof.
  intros P0. induction h as [|m r IH]; intros s x a n B H; cbn [done taken_out] in H; [injection H as <- <- <-; lia|].
  destruct (step m s) as [[s' o]|] eqn:E; [|eauto]. cbn [taken_out] in H.
  pose proof (better_step _ _ _ _ _ _ P0 B E) as B'. destruct (taken_out who (done s' r)) as [[x1 a1] n1] eqn:Er.
  specialize (IH s' x1 a1 n1 B' Er).
  destruct m as [|sd v| |]; try (injection H as <- <- <-; auto; fail).
  destruct (sd =? who); injection H as <- <- <-; auto. cbn [step] in E. destruct B as (I & P & R).
  destruct (leave_inv _ _ _ _ _ E I) as (_ & V & _ & _ & _ & M & O & _).
  pose proof (Z.mul_succ_div_gt (v * dep s) (supply s) ltac:(lia)) as Q. rewrite <- M in Q.
  assert (v * D0 < (o + 1) * S0).
  { apply (Zmult_lt_reg_r _ _ (supply s)); [lia|].
    assert (v * (D0 * supply s) <= v * (dep s * S0)) by (apply Z.mul_le_mono_nonneg_l; lia).
    assert (v * dep s * S0 < supply s * Z.succ o * S0) by (apply Z.mul_lt_mono_pos_r; lia). lia. }
  lia.
Qed.
Lemma better_now s : reachable s -> 0 < supply s -> better (dep s) (supply s) s.
Proof. intros R P. split; [apply reachable_inv; auto|]. split; [auto|lia]. Qed.

(** Whatever else happens in between: entries made from now on, in any number and at any times, mint no more xASTRO
    than the whole sum staked at once now. *)
Theorem c152_enter s h who a x n : reachable s -> 0 < supply s -> put_in who (done s h) = (a, x, n) ->
  x <= a * supply s / dep s /\ forall rc s1 m, enter s rc a = Some (s1, m) -> x <= m.
Proof.
  intros R P H. destruct (done_enter _ _ who h P s a x n (better_now _ R P) H) as (_ & _ & K).
  pose proof (reachable_inv _ R) as I. destruct (inv_supply _ I) as (_ & B2). specialize (B2 ltac:(lia)).
  assert (L : x <= a * supply s / dep s) by (apply Z.div_le_lower_bound; lia). split; [exact L|].
  intros rc s1 m E. destruct (enter_inv _ _ _ _ _ E I) as (_ & _ & _ & _ & M). destruct (M ltac:(lia)) as (-> & _). exact L.
Qed.
(** Exits made from now on, in any number and at any times, pay no less than the whole given back at once now, but for
    less than one unit for each exit. *)
Theorem c152_leave s h who x a n : reachable s -> 0 < supply s -> taken_out who (done s h) = (x, a, n) -> 0 < n ->
  x * dep s / supply s < a + n /\ forall s1 r, leave s who x = Some (s1, r) -> r < a + n.
Proof.
  intros R P H N. destruct (done_leave _ _ who h P s x a n (better_now _ R P) H) as (_ & _ & _ & _ & K). specialize (K N).
  pose proof (reachable_inv _ R) as I.
  assert (L : x * dep s / supply s < a + n) by (apply Z.div_lt_upper_bound; lia). split; [exact L|].
  intros s1 r E. destruct (leave_inv _ _ _ _ _ E I) as (_ & _ & _ & _ & _ & -> & _). exact L.
Qed.

(** Nothing but exits of [who]. *)
Definition only_leaves (who : Z) (h : list msg) : Prop := Forall (fun m => exists v, m = Leave who v) h.
Lemma leaves_sum who h : only_leaves who h -> forall s x a n, inv s -> taken_out who (done s h) = (x, a, n) ->
  dep (run s h) = dep s - a /\ supply (run s h) = supply s - x.
Proof.
  intros F. induction F as [|m r (v & ->) F IH]; intros s x a n I H; cbn [done taken_out] in H.
  - injection H as <- <- <-. cbn. lia.
  - change (run s (Leave who v :: r)) with (run (exec s (Leave who v)) r). unfold exec.
    destruct (step (Leave who v) s) as [[s' o]|] eqn:E; [|eauto]. cbn [taken_out] in H.
    destruct (taken_out who (done s' r)) as [[x1 a1] n1] eqn:Er. rewrite Z.eqb_refl in H. injection H as <- <- <-.
    destruct (IH s' x1 a1 n1 (step_inv _ _ _ _ I E) Er) as (-> & ->).
    cbn [step] in E. destruct (leave_inv _ _ _ _ _ E I) as (_ & _ & _ & _ & _ & _ & _ & -> & -> & _). lia.
Qed.
(** With nobody else acting, an exit in any number of parts pays no more than the exit at once. *)
Theorem c152_parts s h who x a n : reachable s -> 0 < supply s -> only_leaves who h ->
  taken_out who (done s h) = (x, a, n) -> a <= x * dep s / supply s.
Proof.
  intros R P F H. pose proof (reachable_inv _ R) as I. destruct (leaves_sum who h F s x a n I H) as (E1 & E2).
  destruct (run_rate h s I P) as (_ & K). rewrite E1, E2 in K. apply Z.div_le_lower_bound; lia.
Qed.

(** Others earn, pay in and leave while 2 enters twice and leaves in two parts. *)
Definition hs : list msg :=
  [Enter 2 2 70001; Donate 12345; Leave 1 777; Enter 2 4 90007; Enter 3 3 5000; Leave 2 30000; Donate 99; Leave 2 9999].
Example c152_example : reachable ex /\ 0 < supply ex /\
  exists a x n x' a' n', put_in 2 (done ex hs) = (a, x, n) /\ taken_out 2 (done ex hs) = (x', a', n') /\
  (a, n, x', n') = (160008, 2, 39999, 2) /\ x < a * supply ex / dep ex /\ x' * dep ex / supply ex < a' /\
  (exists s1 m, enter ex 2 a = Some (s1, m)) /\ (exists s1 r, leave ex 2 x' = Some (s1, r)) /\
  only_leaves 2 [Leave 2 3; Leave 2 40] /\ snd (taken_out 2 (done ex [Leave 2 3; Leave 2 40])) = 2.
Proof.
  split; [apply ex_reachable|]. split; [vm_compute; reflexivity|].
  eexists _, _, _, _, _, _. split; [vm_compute; reflexivity|]. split; [vm_compute; reflexivity|].
  split; [reflexivity|]. split; [vm_compute; reflexivity|]. split; [vm_compute; reflexivity|].
  split; [eexists _, _; vm_compute; reflexivity|]. split; [eexists _, _; vm_compute; reflexivity|].
  split; [|vm_compute; reflexivity]. repeat constructor; eexists; reflexivity.
Qed.

(** Entering in parts can cost far more than one unit for each part, though nobody else acts: in a contract that holds
    next to nothing the rounding of the first part moves the rate for the next. *)
Theorem c152_enter_parts_refuted : exists s h who a x n s1 m, reachable s /\ 0 < supply s /\
  Forall (fun k => exists v, k = Enter who who v) h /\ put_in who (done s h) = (a, x, n) /\
  enter s who a = Some (s1, m) /\ n = 2 /\ x + 1000 * n < m.
Proof.
  exists (run init [Enter 1 1 1001; Donate 998]), [Enter 2 2 3; Enter 2 2 1000000000], 2.
  eexists _, _, _, _, _. split; [eexists; reflexivity|]. split; [vm_compute; reflexivity|].
  split; [repeat constructor; eexists; reflexivity|]. split; [vm_compute; reflexivity|].
  split; [vm_compute; reflexivity|]. split; vm_compute; reflexivity.
Qed.

Print Assumptions c152_enter.
Print Assumptions c152_leave.
Print Assumptions c152_parts.
Print Assumptions c152_enter_parts_refuted.
