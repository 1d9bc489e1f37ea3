(** C153: liquidity of the constant-product pair given and taken in parts and at other times. *)
From Coq Require Import ZArith Lia Bool List.
From Verif Require Import Num Ledger Hist SnapshotModel XykModel XykSpec XykProofs XykProps.
Import ListNotations.
Open Scope Z_scope.

(** The executed messages of a history, with the pool before each and its result. *)
Fixpoint done (s : state) (h : list (env * msg)) : list (state * msg * out) :=
  match h with
  | [] => []
  | (e, m) :: r => match step e m s with Some (s', o) => (s, m, o) :: done s' r | None => done s r end
  end.
Definition res (k : bool) (s : state) : Z := if k then r1 s else r0 s.
(** What [who] deposited of asset [k], and the LP tokens minted for it. *)
Fixpoint given (k : bool) (who : Z) (l : list (state * msg * out)) : Z * Z :=
  match l with
  | [] => (0, 0)
  | (_, m, o) :: r =>
      let '(d, x) := given k who r in
      match m, o with
      | Provide w _ d0 d1 _ _, OProvide sh => if w =? who then (d + (if k then d1 else d0), x + sh) else (d, x)
      | _, _ => (d, x)
      end
  end.
(** What rounding may cost in a withdrawal: two units and the whole 10^18 parts of the reserve. *)
Definition cost (k : bool) (s : state) : Z := 2 + res k s / DEC.
(** The LP tokens [who] gave back, what it got of asset [k], and what rounding may have cost. *)
Fixpoint taken (k : bool) (who : Z) (l : list (state * msg * out)) : Z * Z * Z :=
  match l with
  | [] => (0, 0, 0)
  | (s, m, o) :: r =>
      let '(x, a, c) := taken k who r in
      match m, o with
      | Withdraw w v _, OWithdraw a0 a1 =>
          if w =? who then (x + v, a + (if k then a1 else a0), c + cost k s) else (x, a, c)
      | _, _ => (x, a, c)
      end
  end.
(** Nobody trades. *)
Definition quiet (h : list (env * msg)) : Prop :=
  Forall (fun x => match snd x with Swap _ _ _ _ => False | _ => True end) h.

Definition better (k : bool) (R0 S0 : Z) (s : state) : Prop := inv0 s /\ 0 < supply s /\ R0 * supply s <= res k s * S0.
Lemma rate_trans D0 S0 D S1 D' S2 : 0 < S1 -> 0 <= S0 -> 0 <= S2 -> D0 * S1 <= D * S0 -> D * S2 <= D' * S1 ->
  D0 * S2 <= D' * S0.
Proof.
  intros P P0 P2 H1 H2. apply (Zmult_le_reg_r _ _ S1); [lia|].
  assert (D0 * S1 * S2 <= D * S0 * S2) by (apply Z.mul_le_mono_nonneg_r; lia).
  assert (D * S2 * S0 <= D' * S1 * S0) by (apply Z.mul_le_mono_nonneg_r; lia). lia.
Qed.
Lemma supply_stays e m s s' o : inv0 s -> 0 < supply s -> step e m s = Some (s', o) ->
  match m with Swap _ _ _ _ => False | _ => True end -> 0 < supply s' /\ forall k, env_ok e -> res k s * supply s' <= res k s' * supply s.
Proof.
  intros I P H Q. destruct m as [w rc d0 d1 tol ml|w v mins| |sd b|sd|b v|f t v]; try destruct Q.
  - assert (K : env_ok e -> r0 s * supply s' <= r0 s' * supply s /\ r1 s * supply s' <= r1 s' * supply s)
      by (intros; eapply (step_liq_per_share e (Provide w rc d0 d1 tol ml)); eauto; exact Logic.I).
    cbn [step] in H. apply provide_inv in H. destruct H as (sh & -> & D0 & D1 & C & _ & _ & _ & _ & _ & _ & _ & _ & H2).
    specialize (H2 ltac:(lia)). split; [|intros k Ok; destruct (K Ok), k; auto].
    unfold calculate_shares in C. rewrite (proj2 (Z.eqb_neq _ _)) in C by lia.
    unbind C as u C1. unbind C as x0 C2. unbind C as x1 C3. injection C as <-. num_inv. destruct H2 as (-> & _). lia.
  - assert (K : env_ok e -> r0 s * supply s' <= r0 s' * supply s /\ r1 s * supply s' <= r1 s' * supply s)
      by (intros; eapply (step_liq_per_share e (Withdraw w v mins)); eauto; exact Logic.I).
    cbn [step] in H. apply withdraw_inv in H. destruct H as (a0 & a1 & -> & N & V & _ & _ & _ & _ & _ & E & _).
    split; [|intros k Ok; destruct (K Ok), k; auto]. rewrite E. destruct I as [_ _ nn tot lock _].
    pose proof (get2_le_total _ w SELF nn N) as G. rewrite tot in G. unfold MINIMUM_LIQUIDITY in lock. lia.
  - cbn [step] in H. unguard H G. injection H as <- <-. cbn. split; [auto|]. intros k _. destruct k; cbn; lia.
  - cbn [step] in H. unguard H G. injection H as <- <-. cbn. split; [auto|]. intros k _. destruct k; cbn; lia.
  - cbn [step] in H. unguard H G. unbind H as n E. injection H as <- <-. bools. num_inv. cbn. split; [auto|].
    intros k _. destruct k, b; cbn; nia.
  - cbn [step] in H. unguard H G. injection H as <- <-. cbn. split; [auto|]. intros k _. destruct k; cbn; lia.
Qed.
Lemma better_step k R0 S0 e m s s' o : 0 < S0 -> env_ok e -> better k R0 S0 s -> step e m s = Some (s', o) ->
  match m with Swap _ _ _ _ => False | _ => True end -> better k R0 S0 s'.
Proof.
  intros P0 Ok (I & P & R) H Q. destruct (supply_stays e m s s' o I P H Q) as (P' & R').
  split; [eapply step_inv0; eauto|]. split; auto.
  apply (rate_trans R0 S0 (res k s) (supply s) (res k s') (supply s')); auto; try lia.
Qed.

Lemma given_bound k R0 S0 who h : 0 < S0 -> 0 < R0 -> envs_ok h -> quiet h -> forall s d x, better k R0 S0 s ->
  given k who (done s h) = (d, x) -> 0 <= d /\ 0 <= x /\ x * R0 <= d * S0.
Proof.
  intros P0 PR Ok Q. revert Ok Q. induction h as [|[e m] r IH]; intros Ok Q s d x B H; cbn [done given] in H;
    [injection H as <- <-; lia|].
  inversion Ok as [|? ? Ok1 Ok2]; subst. inversion Q as [|? ? Q1 Q2]; subst. cbn in Ok1, Q1.
  destruct (step e m s) as [[s' o]|] eqn:E; [|eauto]. cbn [given] in H.
  pose proof (better_step _ _ _ _ _ _ _ _ P0 Ok1 B E Q1) as B'. destruct (given k who (done s' r)) as [d' x'] eqn:Er.
  specialize (IH Ok2 Q2 s' d' x' B' Er).
  destruct m as [w rc d0 d1 tol ml| | | | | |]; try (injection H as <- <-; auto; fail).
  cbn [step] in E. destruct (provide_inv _ _ _ _ _ _ _ _ _ E) as (sh & -> & D0 & D1 & C & _).
  destruct (w =? who); injection H as <- <-; auto. destruct B as (I & P & R).
  unfold calculate_shares in C. rewrite (proj2 (Z.eqb_neq _ _)) in C by lia.
  unbind C as u C1. unbind C as x0 C2. unbind C as x1 C3. injection C as <-. num_inv.
  set (x0 := d0 * supply s / r0 s) in *. set (x1 := d1 * supply s / r1 s) in *.
  assert (PK : 0 < res k s) by (destruct I; assert (0 <= res k s) by (destruct k; auto); nia).
  assert (K : Z.min x0 x1 * res k s <= (if k then d1 else d0) * supply s).
  { destruct k; cbn [res] in *.
    - pose proof (div_mul_le (d1 * supply s) (r1 s) PK) as D. fold x1 in D. nia.
    - pose proof (div_mul_le (d0 * supply s) (r0 s) PK) as D. fold x0 in D. nia. }
  set (v := if k then d1 else d0) in *. assert (PV : 0 <= v) by (unfold v; destruct k; lia).
  assert (PO : 0 <= Z.min x0 x1) by lia. set (y := Z.min x0 x1) in *. clearbody y v. clear - IH K R P P0 PO PV PK.
  assert (y * R0 <= v * S0).
  { apply (Zmult_le_reg_r _ _ (supply s)); [lia|].
    assert (y * (R0 * supply s) <= y * (res k s * S0)) by (apply Z.mul_le_mono_nonneg_l; lia).
    assert (y * res k s * S0 <= v * supply s * S0) by (apply Z.mul_le_mono_nonneg_r; lia). lia. }
  lia.
Qed.

Lemma share_of_low p v t a : share_of p v t = Some a -> 0 <= p -> 0 < t -> p * v < (a + (2 + p / DEC)) * t.
Proof.
  unfold share_of, share_ratio. intros H Hp Ht. rewrite (proj2 (Z.eqb_neq _ _)) in H by lia. unbind H as q Eq. num_inv.
  pose proof DEC_pos as HD.
  pose proof (Z.mul_succ_div_gt (v * DEC) t Ht) as K1. set (q := v * DEC / t) in *.
  pose proof (Z.mul_succ_div_gt (p * q) DEC HD) as K2. set (a := p * q / DEC) in *.
  pose proof (Z.mul_succ_div_gt p DEC HD) as K3. set (c := p / DEC) in *. clearbody q a c.
  apply (Zmult_lt_reg_r _ _ DEC); [lia|].
  assert (p * (v * DEC) <= p * (t * Z.succ q)) by (apply Z.mul_le_mono_nonneg_l; lia).
  assert (t * (p * q + p) < t * (DEC * Z.succ a + DEC * Z.succ c)) by (apply Z.mul_lt_mono_pos_l; lia). lia.
Qed.
Lemma taken_bound k R0 S0 who h : 0 < S0 -> 0 < R0 -> envs_ok h -> quiet h -> forall s x a c, better k R0 S0 s ->
  taken k who (done s h) = (x, a, c) -> 0 <= x /\ 0 <= a /\ 0 <= c /\ x * R0 <= (a + c) * S0.
Proof.
  intros P0 PR Ok Q. revert Ok Q. induction h as [|[e m] r IH]; intros Ok Q s x a c B H; cbn [done taken] in H;
    [injection H as <- <- <-; lia|].
  inversion Ok as [|? ? Ok1 Ok2]; subst. inversion Q as [|? ? Q1 Q2]; subst. cbn in Ok1, Q1.
  destruct (step e m s) as [[s' o]|] eqn:E; [|eauto]. cbn [taken] in H.
  pose proof (better_step _ _ _ _ _ _ _ _ P0 Ok1 B E Q1) as B'. destruct (taken k who (done s' r)) as [[x' a'] c'] eqn:Er.
  specialize (IH Ok2 Q2 s' x' a' c' B' Er).
  destruct m as [|w v mins| | | | |]; try (injection H as <- <- <-; auto; fail).
  cbn [step] in E. destruct (withdraw_inv _ _ _ _ _ _ _ E) as (a0 & a1 & -> & N & V & C0 & C1 & _).
  destruct (w =? who); injection H as <- <- <-; auto. destruct B as (I & P & R).
  assert (NN : 0 <= res k s) by (destruct I, k; auto).
  assert (C : share_of (res k s) v (supply s) = Some (if k then a1 else a0)) by (destruct k; auto).
  pose proof (share_of_low _ _ _ _ C NN P) as L. destruct (share_of_bounds _ _ _ _ C NN ltac:(lia) P) as (A & _).
  set (y := if k then a1 else a0) in *. pose proof (Z.div_pos (res k s) DEC NN DEC_pos) as Dp.
  change (2 + res k s / DEC) with (cost k s) in L. assert (PZ : 0 <= cost k s) by (unfold cost; lia). set (z := cost k s) in *. clearbody y z. clear - IH L R P P0 A PZ V NN.
  assert (v * R0 <= (y + z) * S0).
  { apply (Zmult_le_reg_r _ _ (supply s)); [lia|].
    assert (v * (R0 * supply s) <= v * (res k s * S0)) by (apply Z.mul_le_mono_nonneg_l; lia).
    assert (res k s * v * S0 <= (y + z) * supply s * S0) by (apply Z.mul_le_mono_nonneg_r; lia). lia. }
  lia.
Qed.
Lemma better_now k s : reachable s -> 0 < supply s -> better k (res k s) (supply s) s.
Proof. intros R P. split; [apply reachable_inv0; auto|]. split; [auto|lia]. Qed.

Lemma better_run k R0 S0 h : 0 < S0 -> envs_ok h -> quiet h -> forall s, better k R0 S0 s -> better k R0 S0 (run s h).
Proof.
  intros P0 Ok Q. revert Ok Q. induction h as [|[e m] r IH]; intros Ok Q s B; [exact B|].
  inversion Ok as [|? ? Ok1 Ok2]; subst. inversion Q as [|? ? Q1 Q2]; subst. cbn in Ok1, Q1.
  change (run s ((e, m) :: r)) with (run (exec s (e, m)) r). apply IH; auto. unfold exec. cbn [fst snd].
  destruct (step e m s) as [[s' o]|] eqn:E; [|exact B]. eapply better_step; eauto.
Qed.
Lemma given_same who l : snd (given true who l) = snd (given false who l).
Proof.
  induction l as [|[[s m] o] r IH]; [reflexivity|]. cbn [given].
  destruct (given true who r) as [d1 x1], (given false who r) as [d0 x0]. cbn in IH. subst x1.
  destruct m; try reflexivity. destruct o; try reflexivity. destruct (_ =? _); reflexivity.
Qed.

(** While nobody trades: deposits made from now on, in any number and at any times, mint together no more LP tokens than
    the whole deposited at once now. *)
Theorem c153_deposits s h who d0 d1 x x' : reachable s -> alive s -> envs_ok h -> quiet h ->
  given false who (done s h) = (d0, x) -> given true who (done s h) = (d1, x') ->
  x' = x /\ x * r0 s <= d0 * supply s /\ x * r1 s <= d1 * supply s /\
  (forall e rc tol ml s1 y, provide e s rc d0 d1 tol ml = Some (s1, OProvide y) -> x <= y).
Proof.
  intros R (A1 & A2 & A3) Ok Q H0 H1. pose proof (given_same who (done s h)) as Es. rewrite H0, H1 in Es. cbn in Es. subst x'.
  destruct (given_bound false (r0 s) (supply s) who h ltac:(lia) A2 Ok Q s d0 x (better_now false s R ltac:(lia)) H0) as (_ & _ & K0).
  destruct (given_bound true (r1 s) (supply s) who h ltac:(lia) A3 Ok Q s d1 x (better_now true s R ltac:(lia)) H1) as (_ & _ & K1).
  cbn [res] in *. split; [reflexivity|]. split; [exact K0|]. split; [exact K1|]. intros e rc tol ml s1 y E.
  destruct (provide_inv _ _ _ _ _ _ _ _ _ E) as (sh & Eo & _ & _ & C & _). injection Eo as <-.
  unfold calculate_shares in C. rewrite (proj2 (Z.eqb_neq _ _)) in C by lia.
  unbind C as u C1. unbind C as x0 C2. unbind C as x1 C3. injection C as <-. num_inv.
  apply Z.min_glb; apply Z.div_le_lower_bound; lia.
Qed.
(** Withdrawals made from now on, in any number and at any times, pay of each asset no less than the share given back has
    now, but for the rounding of each withdrawal. *)
Theorem c153_withdrawals k s h who x a c : reachable s -> alive s -> envs_ok h -> quiet h ->
  taken k who (done s h) = (x, a, c) ->
  x * res k s <= (a + c) * supply s /\
  (forall e mins s1 a0 a1, withdraw e s who x mins = Some (s1, OWithdraw a0 a1) -> (if k then a1 else a0) <= a + c).
Proof.
  intros R (A1 & A2 & A3) Ok Q H.
  destruct (taken_bound k (res k s) (supply s) who h ltac:(lia) ltac:(destruct k; auto) Ok Q s x a c
    (better_now k s R ltac:(lia)) H) as (X & _ & _ & K).
  split; [exact K|]. intros e mins s1 a0 a1 E.
  destruct (withdraw_inv _ _ _ _ _ _ _ E) as (b0 & b1 & Eo & _ & V & C0 & C1 & _). injection Eo as <- <-.
  destruct (reachable_inv0 s R) as [I0 I1 _ _ _ _].
  assert (C : share_of (res k s) x (supply s) = Some (if k then a1 else a0)) by (destruct k; auto).
  destruct (share_of_bounds _ _ _ _ C ltac:(destruct k; auto) X ltac:(lia)) as (_ & L & _).
  apply (Zmult_le_reg_r _ _ (supply s)); [lia|]. lia.
Qed.

(** Nothing but withdrawals of [who]. *)
Definition only_out (who : Z) (h : list (env * msg)) : Prop :=
  Forall (fun x => match snd x with Withdraw w _ _ => w = who | _ => False end) h.
Lemma out_sum k who h : only_out who h -> forall s x a c, taken k who (done s h) = (x, a, c) ->
  res k (run s h) = res k s - a /\ supply (run s h) = supply s - x.
Proof.
  intros F. induction F as [|[e m] r Fm F IH]; intros s x a c H; cbn [done taken] in H.
  - injection H as <- <- <-. cbn. lia.
  - cbn in Fm. destruct m as [|w v mins| | | | |]; try destruct Fm.
    change (run s ((e, Withdraw w v mins) :: r)) with (run (exec s (e, Withdraw w v mins)) r). unfold exec. cbn [fst snd].
    destruct (step e (Withdraw w v mins) s) as [[s' o]|] eqn:E; [|eauto]. cbn [taken] in H.
    destruct (taken k w (done s' r)) as [[x1 a1] c1] eqn:Er.
    destruct (IH s' x1 a1 c1 Er) as (-> & ->). cbn [step] in E.
    destruct (withdraw_inv _ _ _ _ _ _ _ E) as (b0 & b1 & -> & _ & _ & _ & _ & _ & E0 & E1 & -> & _).
    rewrite Z.eqb_refl in H. injection H as <- <- <-. destruct k; cbn [res]; rewrite ?E0, ?E1; lia.
Qed.
(** With nobody else acting, withdrawals in parts pay of each asset no more than the share given back had. *)
Theorem c153_parts k s h who x a c : reachable s -> 0 < supply s -> envs_ok h -> only_out who h ->
  taken k who (done s h) = (x, a, c) -> a * supply s <= x * res k s.
Proof.
  intros R P Ok F H. destruct (out_sum k who h F s x a c H) as (E1 & E2).
  assert (Q : quiet h) by (eapply Forall_impl; [|exact F]; intros [e m]; cbn; destruct m; tauto).
  destruct (better_run k _ _ h P Ok Q s (better_now k s R P)) as (_ & _ & K). rewrite E1, E2 in K. lia.
Qed.

(** Others deposit, withdraw and donate while 1 withdraws twice and 2 deposits twice. *)
Definition hp : list (env * msg) :=
  [(ex_env 200 20, Provide 2 2 1000 2000 None None); (ex_env 210 21, Withdraw 1 5000000 None);
   (ex_env 220 22, Donate true 123456); (ex_env 230 23, Provide 3 3 70000 140010 None None);
   (ex_env 240 24, Provide 2 4 20001 40003 None None); (ex_env 250 25, Withdraw 1 777 None)].
Example c153_example : reachable ex_pool /\ alive ex_pool /\ envs_ok hp /\ quiet hp /\
  given false 2 (done ex_pool hp) = (21001, 29698) /\ given true 2 (done ex_pool hp) = (42003, 29698) /\
  (exists s1, provide (ex_env 200 20) ex_pool 2 21001 42003 None None = Some (s1, OProvide 29699)) /\
  taken true 1 (done ex_pool hp) = (5000777, 7072165, 4) /\
  (exists s1 a0, withdraw (ex_env 200 20) ex_pool 1 5000777 None = Some (s1, OWithdraw a0 7072166)) /\
  only_out 1 [(ex_env 200 20, Withdraw 1 5000 None); (ex_env 200 20, Withdraw 1 77 None)] /\
  fst (taken true 1 (done ex_pool [(ex_env 200 20, Withdraw 1 5000 None); (ex_env 200 20, Withdraw 1 77 None)])) = (5077, 7179).
Proof.
  split; [apply ex_pool_reachable|]. split; [vm_compute; repeat split; congruence|].
  split; [repeat constructor; apply ex_env_ok|]. split; [repeat constructor|].
  split; [vm_compute; reflexivity|]. split; [vm_compute; reflexivity|]. split; [eexists; vm_compute; reflexivity|].
  split; [vm_compute; reflexivity|]. split; [eexists _, _; vm_compute; reflexivity|].
  split; [repeat constructor|vm_compute; reflexivity].
Qed.

Print Assumptions c153_deposits.
Print Assumptions c153_withdrawals.
Print Assumptions c153_parts.
