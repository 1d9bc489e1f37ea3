From Coq Require Import ZArith Lia Bool List.
From Verif Require Import Num Ledger StakingModel.
Import ListNotations.
Open Scope Z_scope.

Record inv (s : state) : Prop := mkInv
  { i_dep : 0 <= dep s; i_nn : nonneg (xb s); i_tot : total (xb s) = supply s;
    i_lock : supply s = 0 \/ (1000 <= get (xb s) SELF /\ supply s <= dep s) }.

Lemma inv_supply s : inv s -> 0 <= supply s /\ (supply s <> 0 -> 1000 <= supply s /\ 1000 <= dep s).
Proof.
  intros I. pose proof (nonneg_total _ (i_nn _ I)) as H. rewrite (i_tot _ I) in H. split; auto. intros N.
  pose proof (get_le_total _ SELF (i_nn _ I)) as H1. rewrite (i_tot _ I) in H1.
  destruct (i_lock _ I); lia.
Qed.

Lemma enter_inv s r a s' m :
  enter s r a = Some (s', m) -> inv s ->
  0 < a /\ 0 < m /\ dep s' = dep s + a /\
  (supply s = 0 -> m = a - 1000 /\ supply s' = a /\
     xb s' = (let b1 := set (xb s) SELF (get (xb s) SELF + 1000) in set b1 r (get b1 r + m))) /\
  (supply s <> 0 -> m = a * supply s / dep s /\ supply s' = supply s + m /\
     xb s' = (let b1 := set (xb s) SELF (get (xb s) SELF + 0) in set b1 r (get b1 r + m))).
Proof.
  intros H I. destruct (inv_supply _ I) as [Hs0 Hs1]. unfold enter in H.
  unguard H E1. unguard H E2. unbind H as mint E3. unguard H E4. unbind H as d E5.
  inversion H; subst; clear H. bools. num_inv. cbn [dep supply xb]. split; auto.
  destruct (Z.eqb_spec (supply s) 0) as [E|E].
  - simpl in *. num_inv. unfold MINIMUM_STAKE_AMOUNT in *. rewrite E.
    split; [lia|]. split; auto. split; [intros _; repeat split; lia | congruence].
  - destruct (Hs1 E). destruct (Z.eqb_spec (dep s) 0); [lia|]. simpl in *. num_inv.
    split; [lia|]. split; auto. split; [congruence|]. intros _. repeat split; lia.
Qed.

Lemma leave_inv s u a s' r :
  leave s u a = Some (s', r) -> inv s ->
  u <> SELF /\ 0 < a <= get (xb s) u /\ 0 < supply s /\ a + 1000 <= supply s /\ supply s <= dep s /\
  r = a * dep s / supply s /\ 0 <= r <= dep s /\
  dep s' = dep s - r /\ supply s' = supply s - a /\ xb s' = set (xb s) u (get (xb s) u - a).
Proof.
  intros H I. destruct (inv_supply _ I) as [Hs0 Hs1]. unfold leave in H.
  unguard H E1. unbind H as ret E2. unbind H as d E3. unguard H E4. inversion H; subst; clear H.
  bools. num_inv. cbn [dep supply xb].
  pose proof (get2_le_total _ u SELF (i_nn _ I) ltac:(assumption)) as G. rewrite (i_tot _ I) in G.
  destruct (i_lock _ I) as [|[L1 L2]]; [lia|].
  repeat split; auto; lia.
Qed.

Lemma step_inv m s s' o : inv s -> step m s = Some (s', o) -> inv s'.
Proof.
  intros I H. destruct (inv_supply _ I) as [Hs0 Hs1]. destruct m; simpl in H.
  - apply enter_inv in H; auto. destruct H as (Ha & Hm & Hd & H0 & H1).
    pose proof (nonneg_get _ SELF (i_nn _ I)) as G0.
    destruct (Z.eq_dec (supply s) 0) as [E|E].
    + destruct (H0 E) as (-> & Hs & Hx). cbv zeta in Hx.
      set (b1 := set (xb s) SELF (get (xb s) SELF + 1000)) in *.
      assert (N1 : nonneg b1) by (apply nonneg_set; [apply I|lia]).
      pose proof (nonneg_get _ recipient N1) as G1. pose proof (i_dep _ I).
      constructor; try lia.
      * rewrite Hx. apply nonneg_set; auto. lia.
      * rewrite Hx, total_set. unfold b1 at 1. rewrite total_set, (i_tot _ I). lia.
      * right. split; [|lia]. rewrite Hx. destruct (Z.eq_dec recipient SELF) as [->|N].
        -- rewrite get_set_same. unfold b1. rewrite get_set_same. lia.
        -- rewrite get_set_other by auto. unfold b1. rewrite get_set_same. lia.
    + destruct (H1 E) as (Em & Hs & Hx). cbv zeta in Hx. destruct (i_lock _ I) as [|[L1 L2]]; [lia|].
      set (b1 := set (xb s) SELF (get (xb s) SELF + 0)) in *.
      assert (N1 : nonneg b1) by (apply nonneg_set; [apply I|lia]).
      pose proof (nonneg_get _ recipient N1) as G1. pose proof (i_dep _ I).
      constructor; try lia.
      * rewrite Hx. apply nonneg_set; auto. lia.
      * rewrite Hx, total_set. unfold b1 at 1. rewrite total_set, (i_tot _ I). lia.
      * right. split.
        -- rewrite Hx. destruct (Z.eq_dec recipient SELF) as [->|N].
           ++ rewrite get_set_same. unfold b1. rewrite get_set_same. lia.
           ++ rewrite get_set_other by auto. unfold b1. rewrite get_set_same. lia.
        -- assert (o <= amount); [|lia]. rewrite Em. apply Z.div_le_upper_bound; [lia|].
           rewrite (Z.mul_comm (dep s)). apply Z.mul_le_mono_nonneg_l; lia.
  - apply leave_inv in H; auto.
    destruct H as (Hu & Ha & Hp & Hl & Hsd & Hr & Hr' & Hd & Hs & Hx). constructor; try lia.
    + rewrite Hx. apply nonneg_set; [apply I|lia].
    + rewrite Hx, total_set, (i_tot _ I). lia.
    + right. rewrite Hx, get_set_other by auto. destruct (i_lock _ I) as [|[L1 L2]]; [lia|].
      split; auto. pose proof (div_mul_le (amount * dep s) (supply s) Hp) as D. rewrite <- Hr in D.
      rewrite Hd, Hs. nia.
  - unguard H E. unbind H as d Ed. inversion H; subst; clear H. bools. num_inv.
    destruct I as [I1 I2 I3 I4]. constructor; simpl; auto; lia.
  - unguard H E. inversion H; subst; clear H. bools. destruct I as [I1 I2 I3 I4].
    constructor; simpl; auto.
    + apply nonneg_move; auto.
    + rewrite total_move; auto.
    + destruct I4 as [|[L1 L2]]; auto. right. split; auto.
      destruct (Z.eq_dec to SELF) as [->|N].
      * rewrite get_move_to by auto. lia.
      * rewrite get_move_other; auto.
Qed.

Lemma init_inv : inv init.
Proof. constructor; simpl; auto; try lia. constructor. Qed.

Lemma run_app s l m : run s (l ++ [m]) = exec (run s l) m.
Proof. unfold run. rewrite fold_left_app. reflexivity. Qed.

Lemma exec_inv s m : inv s -> inv (exec s m).
Proof.
  intros I. unfold exec. destruct (step m s) as [[s' o]|] eqn:E; auto. eapply step_inv; eauto.
Qed.

Lemma run_inv l : forall s, inv s -> inv (run s l).
Proof. induction l as [|m l IH]; intros s I; simpl; auto. apply IH, exec_inv, I. Qed.

(** Rate of one step. *)
Lemma step_rate m s s' o : inv s -> 0 < supply s -> step m s = Some (s', o) ->
  0 < supply s' /\ dep s * supply s' <= dep s' * supply s.
Proof.
  intros I HS H. destruct (inv_supply _ I) as [_ Hs1]. destruct m; simpl in H.
  - apply enter_inv in H; auto. destruct H as (Ha & Hm & Hd & _ & H1).
    destruct H1 as (Em & Hs & _); [lia|]. split; [lia|].
    pose proof (div_mul_le (amount * supply s) (dep s) ltac:(lia)) as D. rewrite <- Em in D.
    rewrite Hd, Hs. nia.
  - apply leave_inv in H; auto. destruct H as (Hu & Ha & Hp & Hl & Hsd & Hr & Hr' & Hd & Hs & Hx).
    split; [lia|].
    pose proof (div_mul_le (amount * dep s) (supply s) Hp) as D. rewrite <- Hr in D.
    rewrite Hd, Hs. nia.
  - unguard H E. unbind H as d Ed. inversion H; subst; clear H. bools. num_inv. simpl. nia.
  - unguard H E. inversion H; subst; clear H. simpl. lia.
Qed.

Lemma run_rate l : forall s, inv s -> 0 < supply s ->
  0 < supply (run s l) /\ dep s * supply (run s l) <= dep (run s l) * supply s.
Proof.
  induction l as [|m l IH]; intros s I HS; simpl; [lia|].
  unfold exec. destruct (step m s) as [[s' o]|] eqn:E; [|auto].
  destruct (step_rate _ _ _ _ I HS E) as [HS' R].
  pose proof (step_inv _ _ _ _ I E) as I'.
  destruct (IH s' I' HS') as [HS'' R'].
  fold (run s' l) in *. set (t := run s' l) in *. clearbody t.
  split; auto. pose proof (i_dep _ I).
  apply (Zmult_le_reg_r _ _ (supply s')); [lia|].
  assert (dep s * supply s' * supply t <= dep s' * supply s * supply t) by (apply Z.mul_le_mono_nonneg_r; lia).
  assert (dep s' * supply t * supply s <= dep t * supply s' * supply s) by (apply Z.mul_le_mono_nonneg_r; lia).
  lia.
Qed.

Lemma round_trip s u a s1 m s2 r : inv s -> 0 < supply s ->
  enter s u a = Some (s1, m) -> leave s1 u m = Some (s2, r) -> r <= a.
Proof.
  intros I HS H1 H2. pose proof (step_inv (Enter u u a) _ _ _ I H1) as I1.
  destruct (inv_supply _ I) as [_ Hs1].
  apply enter_inv in H1; auto. destruct H1 as (Ha & Hm & Hd & _ & H1).
  destruct H1 as (Em & Hs & _); [lia|].
  apply leave_inv in H2; auto. destruct H2 as (_ & _ & Hp & _ & _ & Hr & _).
  rewrite Hd, Hs in *. pose proof (div_mul_le (a * supply s) (dep s) ltac:(lia)) as D. rewrite <- Em in D.
  rewrite Hr. apply Z.div_le_upper_bound; [lia|]. nia.
Qed.

(** First stake too: what comes back is at most the deposit plus what had been donated before. *)
Lemma round_trip_first s u a s1 m s2 r : inv s -> supply s = 0 ->
  enter s u a = Some (s1, m) -> leave s1 u m = Some (s2, r) -> r < a + dep s.
Proof.
  intros I HS H1 H2. pose proof (step_inv (Enter u u a) _ _ _ I H1) as I1.
  apply enter_inv in H1; auto. destruct H1 as (Ha & Hm & Hd & H1 & _).
  destruct (H1 HS) as (Em & Hs & _). pose proof (i_dep _ I).
  apply leave_inv in H2; auto. destruct H2 as (_ & _ & Hp & _ & _ & Hr & _).
  rewrite Hd, Hs in *. rewrite Hr. apply Z.div_lt_upper_bound; [lia|]. nia.
Qed.

Lemma split_leave s u a1 a2 s1 r1 s2 r2 s3 r : inv s ->
  leave s u a1 = Some (s1, r1) -> leave s1 u a2 = Some (s2, r2) ->
  leave s u (a1 + a2) = Some (s3, r) -> r1 + r2 <= r.
Proof.
  intros I H1 H2 H3. pose proof (step_inv (Leave u a1) _ _ _ I H1) as I1.
  apply leave_inv in H1; auto. destruct H1 as (_ & Ha1 & Hp & Hl1 & _ & Hr1 & Hr1' & Hd & Hs & _).
  apply leave_inv in H2; auto. destruct H2 as (_ & Ha2 & Hp2 & Hl2 & _ & Hr2 & Hr2' & _).
  apply leave_inv in H3; auto. destruct H3 as (_ & _ & _ & Hl3 & _ & Hr & _).
  rewrite Hd, Hs in *. rewrite Hr. apply div_ge_iff; auto.
  pose proof (div_mul_le (a1 * dep s) (supply s) Hp) as D1. rewrite <- Hr1 in D1.
  pose proof (div_mul_le (a2 * (dep s - r1)) (supply s - a1) Hp2) as D2. rewrite <- Hr2 in D2.
  set (S := supply s) in *. set (D := dep s) in *. clearbody S D. clear Hr1 Hr2 Hr Hd Hs.
  (* multiply by (S - a1) *)
  apply (Zmult_le_reg_r _ _ (S - a1)); [lia|].
  assert (A : S * ((S - a1) * r2) <= S * (a2 * (D - r1))) by (apply Z.mul_le_mono_nonneg_l; lia).
  assert (B : (S - a1 - a2) * (S * r1) <= (S - a1 - a2) * (a1 * D)) by (apply Z.mul_le_mono_nonneg_l; lia).
  lia.
Qed.

(** Rounding loss of a staker is less than the price of one xASTRO. *)
Lemma enter_loss s u a s1 m : inv s -> 0 < supply s -> enter s u a = Some (s1, m) ->
  a * supply s1 - m * dep s1 < dep s.
Proof.
  intros I HS H1. destruct (inv_supply _ I) as [_ Hs1].
  apply enter_inv in H1; auto. destruct H1 as (Ha & Hm & Hd & _ & H1).
  destruct H1 as (Em & Hs & _); [lia|].
  pose proof (div_mul_gt (a * supply s) (dep s) ltac:(lia)) as D. rewrite <- Em in D. rewrite Hd, Hs. lia.
Qed.
