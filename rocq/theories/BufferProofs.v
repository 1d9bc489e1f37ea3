(** The circular buffer holds exactly the last [capacity] values pushed. *)
From Coq Require Import ZArith Lia Bool List.
From Verif Require Import Num Amap BufferModel.
Import ListNotations.
Open Scope Z_scope.

Section Buffer.
Context {V : Type}.

(** [content cap l i]: the value slot [i] must hold after pushing [l] in order. *)
Definition content (cap : Z) (l : list V) (i : Z) : option V :=
  fold_left (fun acc p => if fst p mod cap =? i then Some (snd p) else acc)
            (combine (map Z.of_nat (seq 0 (length l))) l) None.

Lemma combine_app {A B} (a1 a2 : list A) (b1 b2 : list B) :
  length a1 = length b1 -> combine (a1 ++ a2) (b1 ++ b2) = combine a1 b1 ++ combine a2 b2.
Proof.
  revert b1. induction a1 as [|x a1 IH]; intros [|y b1] H; simpl in *; auto; try discriminate.
  f_equal. apply IH. lia.
Qed.
Lemma content_snoc cap l v i :
  content cap (l ++ [v]) i = if Z.of_nat (length l) mod cap =? i then Some v else content cap l i.
Proof.
  unfold content. rewrite app_length. simpl. rewrite Nat.add_1_r, seq_S, map_app. simpl.
  rewrite combine_app by (rewrite map_length, seq_length; auto).
  rewrite fold_left_app. simpl. reflexivity.
Qed.

(** The store represents the push history [l]. *)
Record rep (cap : Z) (l : list V) (s : store V) : Prop := mkRep
  { r_cap : capacity s = cap; r_head : head s = Z.of_nat (length l) mod cap;
    r_arr : forall i, find i (arr s) = content cap l i }.

Lemma content_nil cap i : content cap [] i = None. Proof. reflexivity. Qed.
Lemma rep_init cap : rep cap [] (buf_init cap).
Proof. constructor; auto. Qed.

(** Slot of the j-th push while it is among the last [cap]. *)
Lemma content_recent cap l j : 0 < cap -> (Z.of_nat (length l) - cap <= Z.of_nat j < Z.of_nat (length l)) ->
  content cap l (Z.of_nat j mod cap) = nth_error l j.
Proof.
  intros Hc. induction l as [|v l IH] using rev_ind; intros H; simpl in *; [lia|].
  rewrite app_length in H. simpl in H. rewrite content_snoc.
  destruct (Nat.eq_dec j (length l)) as [->|Hj].
  - rewrite Z.eqb_refl. rewrite nth_error_app2, Nat.sub_diag by auto. reflexivity.
  - destruct (Z.eqb_spec (Z.of_nat (length l) mod cap) (Z.of_nat j mod cap)) as [E|E].
    + exfalso. assert (D : (Z.of_nat (length l) - Z.of_nat j) mod cap = 0).
      { rewrite Zminus_mod, E, Z.sub_diag. apply Z.mod_0_l. lia. }
      apply Z.mod_divide in D; [|lia]. destruct D as [q D].
      assert (0 < q * cap < cap) by lia. destruct (Z_le_gt_dec q 0); nia.
    + rewrite IH by lia. rewrite nth_error_app1 by lia. reflexivity.
Qed.
Lemma content_unused cap l i : 0 < cap -> Z.of_nat (length l) <= i < cap -> content cap l i = None.
Proof.
  intros Hc. induction l as [|v l IH] using rev_ind; intros H; [reflexivity|].
  rewrite app_length in H. simpl in H. rewrite content_snoc.
  rewrite Z.mod_small by lia. destruct (Z.eqb_spec (Z.of_nat (length l)) i); [lia|]. apply IH. lia.
Qed.
Lemma content_out cap l i : 0 < cap -> ~ (0 <= i < cap) -> content cap l i = None.
Proof.
  intros Hc Hi. induction l as [|v l IH] using rev_ind; [reflexivity|]. rewrite content_snoc.
  pose proof (Z.mod_pos_bound (Z.of_nat (length l)) cap Hc).
  destruct (Z.eqb_spec (Z.of_nat (length l) mod cap) i); [lia|auto].
Qed.

(** ** Manager *)
Record mrep (cap : Z) (l0 l : list V) (m : manager V) : Prop := mkMrep
  { mr_cap : m_cap m = cap; mr_head : m_head m = Z.of_nat (length (l0 ++ l)) mod cap;
    mr_pre : forall i, (match find i (pre m) with Some v => Some v | None => content cap l0 i end)
                       = content cap (l0 ++ l) i;
    mr_keys : Forall (fun p => 0 <= fst p < cap) (pre m) }.

Lemma mod_succ n cap : 0 < cap -> (n mod cap + 1) mod cap = (n + 1) mod cap.
Proof. intros. apply Zplus_mod_idemp_l. Qed.

Lemma push_rep cap l0 l m v : 0 < cap <= U32MAX -> mrep cap l0 l m ->
  exists m', buf_push m v = Some m' /\ mrep cap l0 (l ++ [v]) m'.
Proof.
  intros Hc [C H P K]. unfold buf_push. rewrite C, H.
  pose proof (Z.mod_pos_bound (Z.of_nat (length (l0 ++ l))) cap ltac:(lia)).
  unfold u32. rewrite (proj2 (fits_iff U32MAX _)) by lia.
  destruct (Z.eqb_spec cap 0); [lia|]. cbn [negb].
  eexists. split; [reflexivity|]. constructor; cbn [m_cap m_head pre]; auto.
  - rewrite mod_succ by lia. f_equal. rewrite app_assoc, (app_length (l0 ++ l)). simpl. lia.
  - intros i. rewrite app_assoc, content_snoc, find_put.
    destruct (_ =? i); auto.
  - apply Forall_put; auto.
Qed.
Lemma push_many_rep cap l0 vs : 0 < cap <= U32MAX -> forall l m, mrep cap l0 l m ->
  exists m', push_many m vs = Some m' /\ mrep cap l0 (l ++ vs) m'.
Proof.
  intros Hc. induction vs as [|v vs IH]; intros l m M; simpl.
  - rewrite app_nil_r. eauto.
  - destruct (push_rep cap l0 l m v Hc M) as (m1 & -> & M1).
    destruct (IH _ _ M1) as (m2 & E & M2). exists m2. split; auto.
    rewrite <- app_assoc in M2. auto.
Qed.
Lemma fold_put (p : amap V) : NoDup (keys p) -> forall a i,
  find i (fold_left (fun a q => put (fst q) (snd q) a) p a) =
  match find i p with Some v => Some v | None => find i a end.
Proof.
  induction p as [|[k v] p IH]; simpl; intros N a i; auto. inversion N; subst.
  rewrite IH by auto. rewrite find_put. destruct (Z.eqb_spec k i).
  - subst. destruct (find i p) eqn:E; auto. exfalso. apply H1. apply find_in in E.
    unfold keys. apply in_map_iff. exists (i, v0). auto.
  - destruct (find i p); auto.
Qed.
Lemma put_keys k (v : V) m : NoDup (keys m) -> NoDup (keys (put k v m)).
Proof.
  induction m as [|[k' v'] m IH]; simpl; intros N.
  - repeat constructor; auto.
  - inversion N; subst. destruct (Z.eqb_spec k' k); simpl.
    + subst. constructor; auto.
    + constructor; auto. intros H. apply H1. clear - H n. unfold keys in *.
      induction m as [|[a b] m IHm]; simpl in *; [destruct H as [H|[]]; congruence|].
      destruct (Z.eqb_spec a k); simpl in *.
      * destruct H as [H|H]; [congruence|auto].
      * destruct H as [H|H]; auto.
Qed.
Lemma push_many_nodup vs : forall m m' : manager V, NoDup (keys (pre m)) -> push_many m vs = Some m' -> NoDup (keys (pre m')).
Proof.
  induction vs as [|v vs IH]; simpl; intros m m' N H; [injection H as <-; auto|].
  unbind H as m1 E1. apply IH in H; auto. unfold buf_push in E1. unbind E1 as h Eh. unguard E1 Ec.
  injection E1 as <-. simpl. apply put_keys. auto.
Qed.

(** A session appends its values to the history. *)
Lemma session_rep cap l s vs : 0 < cap <= U32MAX -> rep cap l s ->
  exists s', session s vs = Some s' /\ rep cap (l ++ vs) s'.
Proof.
  intros Hc [C H A]. unfold session.
  assert (M0 : mrep cap l [] (buf_new s)).
  { unfold buf_new. constructor; simpl; auto; rewrite ?app_nil_r; auto. }
  destruct (push_many_rep cap l vs Hc [] _ M0) as (m & E & M). rewrite E. simpl in M.
  pose proof (push_many_nodup vs (buf_new s) m ltac:(simpl; constructor) E) as N.
  destruct M as [MC MH MP MK]. unfold buf_commit. rewrite MC.
  assert (G : forallb (fun p => fst p <? cap) (pre m) = true).
  { apply forallb_forall. intros p Hp. rewrite Forall_forall in MK. apply MK in Hp. apply Z.ltb_lt. lia. }
  rewrite G. eexists. split; [reflexivity|]. constructor; simpl; auto.
  intros i. rewrite fold_put by auto. rewrite A. auto.
Qed.
Lemma sessions_rep cap ls : 0 < cap <= U32MAX -> forall l s, rep cap l s ->
  exists s', sessions s ls = Some s' /\ rep cap (l ++ concat ls) s'.
Proof.
  intros Hc. induction ls as [|vs ls IH]; intros l s R; simpl.
  - rewrite app_nil_r. eauto.
  - destruct (session_rep cap l s vs Hc R) as (s1 & -> & R1).
    destruct (IH _ _ R1) as (s2 & E & R2). exists s2. split; auto. rewrite app_assoc. auto.
Qed.
Lemma instant_push_rep cap l s v : 0 < cap <= U32MAX -> rep cap l s ->
  exists s', instant_push s v = Some s' /\ rep cap (l ++ [v]) s'.
Proof.
  intros Hc R. destruct (session_rep cap l s [v] Hc R) as (s' & E & R'). exists s'. split; auto.
  unfold session in E. unfold instant_push. simpl in E. destruct (buf_push (buf_new s) v); auto.
Qed.
Lemma instant_push_det cap l s v s' : 0 < cap <= U32MAX -> rep cap l s ->
  instant_push s v = Some s' -> rep cap (l ++ [v]) s'.
Proof.
  intros Hc R E. destruct (instant_push_rep cap l s v Hc R) as (s1 & E1 & R1). congruence.
Qed.

Lemma read_single_rep cap l s i : 0 < cap -> rep cap l s -> read_single s i = Some (content cap l (i mod cap)).
Proof.
  intros Hc [C H A]. unfold read_single. rewrite C. destruct (Z.eqb_spec cap 0); [lia|]. simpl. rewrite A. auto.
Qed.
Lemma read_last_rep cap l s : 0 < cap -> 2 * cap <= U32MAX -> rep cap l s ->
  read_last s = Some (match rev l with [] => None | v :: _ => Some v end).
Proof.
  intros Hc Hm R. unfold read_last. pose proof R as [C H A]. rewrite C, H.
  pose proof (Z.mod_pos_bound (Z.of_nat (length l)) cap Hc).
  unfold u32. rewrite (proj2 (fits_iff U32MAX _)) by lia. rewrite (proj2 (fits_iff U32MAX _)) by lia.
  destruct (Z.eqb_spec cap 0); [lia|]. cbn [negb].
  rewrite (read_single_rep cap l s _ Hc R). f_equal. rewrite Z.mod_mod by lia.
  destruct l as [|x l0 _] using rev_ind; [reflexivity|]. rewrite rev_app_distr. simpl.
  assert (E : (cap + Z.of_nat (length (l0 ++ [x])) mod cap - 1) mod cap = Z.of_nat (length l0) mod cap).
  { rewrite app_length. simpl. rewrite Nat2Z.inj_add. simpl.
    replace (cap + (Z.of_nat (length l0) + 1) mod cap - 1)
      with ((Z.of_nat (length l0) + 1) mod cap + (cap - 1)) by lia.
    rewrite Zplus_mod_idemp_l.
    replace (Z.of_nat (length l0) + 1 + (cap - 1)) with (Z.of_nat (length l0) + 1 * cap) by lia.
    apply Z.mod_add. lia. }
  rewrite E, content_snoc, Z.eqb_refl. reflexivity.
Qed.
End Buffer.
