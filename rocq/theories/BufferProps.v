(** Theorem C38: circular buffer. *)
From Coq Require Import ZArith Lia Bool List.
From Verif Require Import Num Amap BufferModel BufferProofs.
Import ListNotations.
Open Scope Z_scope.

Lemma nth_error_rev_last {V} (l : list V) i : (i < length l)%nat ->
  nth_error (rev l) i = nth_error l (length l - 1 - i).
Proof.
  intros H. destruct l as [|d l']; [simpl in H; lia|]. set (k := d :: l') in *.
  rewrite (nth_error_nth' (rev k) d) by (rewrite rev_length; lia).
  rewrite (nth_error_nth' k d) by lia. f_equal. rewrite rev_nth by lia. f_equal. lia.
Qed.

(** C38: whatever the grouping of pushes into commits, the buffer always accepts them, and afterwards
    reading backwards from the head yields the last [cap] values, newest first; slots beyond those and
    indices outside the capacity are empty. *)
Theorem c38_last_values (V : Type) (cap : Z) (ls : list (list V)) :
  0 < cap <= U32MAX ->
  exists s, sessions (buf_init cap) ls = Some s /\
    let l := concat ls in let n := Z.of_nat (length l) in
    head s = n mod cap /\
    (forall i, 0 <= i < Z.min n cap ->
       read_single s (head s + cap - 1 - i) = Some (nth_error (rev l) (Z.to_nat i))) /\
    (forall k v, find k (arr s) = Some v -> 0 <= k < cap) /\
    (forall k, n <= k < cap -> find k (arr s) = None).
Proof.
  intros Hc. destruct (sessions_rep cap ls Hc [] _ (rep_init cap)) as (s & E & R).
  exists s. split; auto. cbv zeta. simpl in R. set (l := concat ls) in *. pose proof R as [C H A].
  split; [auto|]. split; [|split].
  - intros i Hi. rewrite (read_single_rep cap l s _ ltac:(lia) R). f_equal.
    rewrite nth_error_rev_last by lia.
    rewrite <- (content_recent cap l (length l - 1 - Z.to_nat i)) by lia. f_equal.
    rewrite H. replace (Z.of_nat (length l) mod cap + cap - 1 - i)
      with (Z.of_nat (length l) mod cap + (cap - 1 - i)) by lia.
    rewrite Zplus_mod_idemp_l.
    replace (Z.of_nat (length l) + (cap - 1 - i)) with (Z.of_nat (length l - 1 - Z.to_nat i) + 1 * cap) by lia.
    apply Z.mod_add. lia.
  - intros k v Hk. rewrite A in Hk. destruct (Z_le_dec 0 k), (Z_lt_dec k cap); try lia;
      rewrite content_out in Hk by lia; discriminate.
  - intros k Hk. rewrite A. apply content_unused; lia.
Qed.
(** Reading the last value, and reads beyond the capacity. *)
Theorem c38_read_last (V : Type) (cap : Z) (ls : list (list V)) s :
  0 < cap -> 2 * cap <= U32MAX -> sessions (buf_init cap) ls = Some s ->
  read_last s = Some (nth_error (rev (concat ls)) 0).
Proof.
  intros Hc Hm E. destruct (sessions_rep cap ls ltac:(lia) [] _ (rep_init cap)) as (s' & E' & R).
  assert (s' = s) by congruence. subst s'. rewrite (read_last_rep cap _ s Hc Hm R). simpl.
  destruct (rev (concat ls)); reflexivity.
Qed.
Theorem c38_read_out_of_range (V : Type) (s : store V) i r stop :
  capacity s <= i -> buf_read s (i :: r) stop = None.
Proof.
  intros H. simpl. destruct (u32 (capacity s - 1)) as [c|] eqn:E; auto.
  unfold u32 in E. destruct (fits U32MAX (capacity s - 1)); [|discriminate]. injection E as <-.
  destruct (Z.ltb_spec (capacity s - 1) i); [reflexivity|lia].
Qed.
(** Reading everything returns the first slots in slot order, all that exist. *)
Theorem c38_read_all (V : Type) (cap : Z) (ls : list (list V)) s :
  0 < cap <= U32MAX -> sessions (buf_init cap) ls = Some s ->
  Z.of_nat (length (concat ls)) <= cap -> read_all s = Some (concat ls).
Proof.
  intros Hc E Hn. destruct (sessions_rep cap ls ltac:(lia) [] _ (rep_init cap)) as (s' & E' & R).
  assert (s' = s) by congruence. subst s'. simpl in R. set (l := concat ls) in *. destruct R as [C H A].
  unfold read_all. rewrite C.
  assert (G : forall k j, (j + k = Z.to_nat cap)%nat ->
    buf_read s (map Z.of_nat (seq j k)) true = Some (skipn j l)).
  { induction k as [|k IH]; intros j Hj; simpl.
    - rewrite skipn_all2 by lia. auto.
    - rewrite C. unfold u32. rewrite (proj2 (fits_iff U32MAX _)) by lia.
      destruct (Z.ltb_spec (cap - 1) (Z.of_nat j)); [lia|]. cbn [negb]. rewrite A.
      destruct (Nat.lt_ge_cases j (length l)) as [Q|Q].
      + pose proof (content_recent cap l j ltac:(lia) ltac:(lia)) as W.
        rewrite Z.mod_small in W by lia. rewrite W.
        destruct (nth_error l j) as [v|] eqn:Ej; [|apply nth_error_None in Ej; lia].
        rewrite (IH (S j)) by lia. f_equal. clear - Ej. revert j Ej.
        induction l as [|x l IHl]; intros [|j] Ej; simpl in *; try discriminate; [congruence|auto].
      + rewrite content_unused by lia. rewrite skipn_all2 by lia. auto. }
  apply (G (Z.to_nat cap) 0%nat). lia.
Qed.
(** One manager used for several commits behaves like a fresh manager for each. *)
Fixpoint same_manager (V : Type) (m : manager V) (s : store V) (ls : list (list V)) : option (store V) :=
  match ls with
  | [] => Some s
  | l :: r =>
      do m1 <- push_many m l;
      do '(m2, s2) <- buf_commit m1 s;
      same_manager V m2 s2 r
  end.
Theorem c38_manager_reuse (V : Type) (s : store V) ls :
  same_manager V (buf_new s) s ls = sessions s ls.
Proof.
  revert s. induction ls as [|l ls IH]; intros s; [reflexivity|]. cbn [same_manager sessions]. unfold session.
  destruct (push_many (buf_new s) l) as [m1|]; [|reflexivity].
  unfold buf_commit. destruct (forallb _ (pre m1)); [|reflexivity]. rewrite <- IH. reflexivity.
Qed.
Example c38_example : exists s : store Z,
  sessions (buf_init 4) [[1; 2]; []; [3; 4; 5; 6; 7; 8; 9]; [10]] = Some s /\
  head s = 2 /\ map (read_single s) [1; 0; 3; 2] = [Some (Some 10); Some (Some 9); Some (Some 8); Some (Some 7)].
Proof. eexists. split; [vm_compute; reflexivity|]. split; vm_compute; reflexivity. Qed.

Print Assumptions c38_last_values.
Print Assumptions c38_read_last.
Print Assumptions c38_read_out_of_range.
Print Assumptions c38_read_all.
Print Assumptions c38_manager_reuse.
