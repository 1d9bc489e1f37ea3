From Coq Require Import ZArith Lia Bool List.
From Verif Require Import SnapshotModel.
Import ListNotations.
Open Scope Z_scope.

Definition head_val (saves : list (Z * Z)) : option Z :=
  match saves with [] => None | (_, v) :: _ => Some v end.

Lemma cur_run saves : cur (snap_run saves) = head_val saves.
Proof. destruct saves as [|[g v] r]; reflexivity. Qed.

(** All logged heights are heights of saves. *)
Lemma log_le saves g :
  Forall (fun e => fst e <= g) saves -> Forall (fun e => fst e <= g) (clog (snap_run saves)).
Proof.
  induction saves as [|[h v] r IH]; simpl; intros H; [constructor|].
  inversion H; subst. simpl in *.
  destruct (in_log h _); auto.
Qed.

Lemma first_ge_none h l : Forall (fun e => fst e < h) l -> first_ge h l = None.
Proof.
  induction 1 as [|[g o] l Hg Hl IH]; simpl in *; auto.
  rewrite IH. destruct (Z.leb_spec h g); [lia|auto].
Qed.

Lemma first_ge_ge h l g o : first_ge h l = Some (g, o) -> h <= g.
Proof.
  revert g o. induction l as [|[g1 o1] l IH]; simpl; intros g o H; [discriminate|].
  destruct (first_ge h l) as [[g' o']|] eqn:E.
  - specialize (IH _ _ eq_refl).
    destruct (Z.leb_spec h g1), (Z.ltb_spec g1 g'); simpl in H; inversion H; subst; lia.
  - destruct (Z.leb_spec h g1); inversion H; subst; lia.
Qed.

Lemma first_ge_in h l g o : first_ge h l = Some (g, o) -> In (g, o) l.
Proof.
  revert g o. induction l as [|[g1 o1] l IH]; simpl; intros g o H; [discriminate|].
  destruct (first_ge h l) as [[g' o']|] eqn:E.
  - destruct ((h <=? g1) && (g1 <? g')); inversion H; subst; auto.
  - destruct (h <=? g1); inversion H; subst; auto.
Qed.

(** Adding an entry at a height not below all others only matters if nothing else qualifies. *)
Lemma first_ge_cons_max h g o l :
  Forall (fun e => fst e <= g) l ->
  first_ge h ((g, o) :: l) =
  match first_ge h l with Some e => Some e | None => if h <=? g then Some (g, o) else None end.
Proof.
  intros H. simpl. destruct (first_ge h l) as [[g' o']|] eqn:E; auto.
  apply first_ge_in in E. rewrite Forall_forall in H. specialize (H _ E). simpl in H.
  destruct (Z.ltb_spec g g'); [lia|]. now rewrite andb_false_r.
Qed.

Lemma in_log_some h l g : in_log g l = true -> h <= g -> exists e, first_ge h l = Some e.
Proof.
  intros H Hh. induction l as [|[g1 o1] l IH]; simpl in *; [discriminate|].
  destruct (first_ge h l) as [[g' o']|] eqn:E.
  - destruct ((h <=? g1) && (g1 <? g')); eauto.
  - apply orb_true_iff in H. destruct H as [H|H].
    + apply Z.eqb_eq in H. subst. destruct (Z.leb_spec h g); [eauto|lia].
    + destruct (IH H) as [e He]. discriminate.
Qed.

Lemma last_before_all_lt h saves :
  Forall (fun e => fst e < h) saves -> last_before h saves = head_val saves.
Proof.
  destruct saves as [|[g v] r]; simpl; intros H; auto. inversion H; subst; simpl in *.
  destruct (Z.ltb_spec g h); [auto|lia].
Qed.

Lemma snap_at_run saves h :
  ordered saves -> snap_at (snap_run saves) h = last_before h saves.
Proof.
  induction saves as [|[g v] r IH]; simpl; intros Ho; [reflexivity|].
  destruct Ho as [Hg Ho]. specialize (IH Ho).
  unfold snap_at in *. simpl.
  destruct (Z.ltb_spec g h) as [Hgh|Hgh].
  - (* all log heights < h *)
    assert (HF : Forall (fun e : Z * option Z => fst e < h)
        (if in_log g (clog (snap_run r)) then clog (snap_run r) else (g, cur (snap_run r)) :: clog (snap_run r))).
    { pose proof (log_le r g Hg) as HL.
      assert (HL' : Forall (fun e : Z * option Z => fst e < h) (clog (snap_run r))).
      { eapply Forall_impl; [|exact HL]. simpl. intros; lia. }
      destruct (in_log g _); auto. }
    rewrite first_ge_none by exact HF. reflexivity.
  - destruct (in_log g (clog (snap_run r))) eqn:Ein.
    + destruct (in_log_some h _ _ Ein Hgh) as [e He].
      rewrite He. rewrite He in IH. destruct e. exact IH.
    + rewrite first_ge_cons_max by (apply log_le; exact Hg).
      destruct (first_ge h (clog (snap_run r))) as [[g' o']|] eqn:E.
      * exact IH.
      * destruct (Z.leb_spec h g); [|lia]. exact IH.
Qed.
