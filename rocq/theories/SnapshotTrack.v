(** Generic: a snapshot that is saved whenever a value changes reports, for every height, the value
    at the beginning of that height.  Used for the tracker and the xASTRO token. *)
From Coq Require Import ZArith Lia Bool List.
From Verif Require Import Hist SnapshotModel SnapshotProofs.
Import ListNotations.
Open Scope Z_scope.

Definition dflt (o : option Z) : Z := match o with Some v => v | None => 0 end.

Section Track.
Context {S E : Type} (unit_of : E -> Z) (exec : S -> E -> S) (sel : S -> snap) (val : S -> Z) (s0 : S).

Definition hist_run (l : list E) : S := fold_left exec l s0.

(** An event leaves snapshot and value alone, or ends with saving the new value at its height. *)
Definition saves_changes : Prop := forall s e,
  (sel (exec s e) = sel s /\ val (exec s e) = val s) \/
  (exists ws, sel (exec s e) =
     fold_left (fun sn w => snap_save sn (unit_of e) w) ws (sel s) /\
     last ws (val s) = val (exec s e)).

Definition ghost (sn : snap) (v g : Z) (saves : list (Z * Z)) : Prop :=
  sn = snap_run saves /\ ordered saves /\ Forall (fun e => fst e <= g) saves /\ dflt (head_val saves) = v.

Lemma ghost_saves g ws : forall sn v saves, ghost sn v g saves ->
  exists pre, ghost (fold_left (fun s w => snap_save s g w) ws sn) (last ws v) g (pre ++ saves) /\
    Forall (fun e => fst e = g) pre.
Proof.
  induction ws as [|w ws IH]; intros sn v saves (E1 & O & F & D).
  - exists []. simpl. split; [|constructor]. repeat split; auto.
  - destruct (IH (snap_save sn g w) w ((g, w) :: saves)) as (pre & G & P).
    { subst sn. split; [reflexivity|]. split; [simpl; auto|]. split; [|reflexivity].
      constructor; [simpl; lia | exact F]. }
    exists (pre ++ [(g, w)]). rewrite <- app_assoc. split.
    + assert (Q : last (w :: ws) v = last ws w).
      { clear. destruct ws as [|x r]; [reflexivity|].
        change (last (w :: x :: r) v) with (last (x :: r) v). revert x.
        induction r as [|y r IH]; intros x; [reflexivity|].
        change (last (x :: y :: r) v) with (last (y :: r) v).
        change (last (x :: y :: r) w) with (last (y :: r) w). apply IH. }
      rewrite Q. exact G.
    + apply Forall_app. auto.
Qed.

Lemma ghost_weaken sn v g g' saves : g <= g' -> ghost sn v g saves -> ghost sn v g' saves.
Proof.
  intros Hg (E1 & O & F & D). repeat split; auto. eapply Forall_impl; [|exact F]. simpl. intros; lia.
Qed.

Lemma last_before_skip h pre saves : Forall (fun e : Z * Z => h <= fst e) pre ->
  last_before h (pre ++ saves) = last_before h saves.
Proof.
  induction 1 as [|[g v] pre Hg Hp IH]; simpl in *; auto.
  destruct (Z.ltb_spec g h); [lia|auto].
Qed.

Lemma track_ghost l : saves_changes -> sel s0 = snap0 -> val s0 = 0 -> nondecr unit_of l ->
  (forall g, Forall (fun e => unit_of e <= g) l ->
     exists saves, ghost (sel (hist_run l)) (val (hist_run l)) g saves /\
       forall h, dflt (last_before h saves) = val (hist_run (before unit_of h l))).
Proof.
  intros SC I0 V0. induction l as [|e l IH] using rev_ind; intros N g Hg.
  - exists []. unfold hist_run. simpl. rewrite I0, V0. repeat split; constructor.
  - apply nondecr_app_one in N. destruct N as [N1 N2].
    apply Forall_app in Hg. destruct Hg as [Hg1 Hg2]. inversion Hg2; subst. clear Hg2 H2.
    destruct (IH N1 (unit_of e) N2) as (saves & G & Q).
    assert (ER : hist_run (l ++ [e]) = exec (hist_run l) e) by (unfold hist_run; rewrite fold_left_app; reflexivity).
    assert (K : exists saves', ghost (sel (exec (hist_run l) e)) (val (exec (hist_run l) e)) (unit_of e) saves' /\
       forall h, h <= unit_of e -> last_before h saves' = last_before h saves).
    { destruct (SC (hist_run l) e) as [[-> ->]|(ws & -> & <-)].
      - exists saves. split; auto.
      - destruct (ghost_saves _ ws _ _ _ G) as (pre & G' & P). exists (pre ++ saves). split; auto.
        intros h Hh. apply last_before_skip. eapply Forall_impl; [|exact P]. simpl. intros; lia. }
    destruct K as (saves' & G' & K). exists saves'. rewrite ER.
    split; [apply ghost_weaken with (unit_of e); auto|].
    intros h. unfold before. rewrite filter_app. simpl. destruct (Z.ltb_spec (unit_of e) h) as [L|L].
    + fold (before unit_of h l). rewrite before_all.
      2:{ eapply Forall_impl; [|exact N2]. simpl. intros; lia. }
      rewrite ER. destruct G' as (_ & _ & F & D). rewrite last_before_all_lt; auto.
      eapply Forall_impl; [|exact F]. simpl. intros; lia.
    + rewrite app_nil_r, (K h L). apply Q.
Qed.

Theorem track_at l h : saves_changes -> sel s0 = snap0 -> val s0 = 0 -> nondecr unit_of l ->
  dflt (snap_at (sel (hist_run l)) h) = val (hist_run (before unit_of h l)) /\
  dflt (cur (sel (hist_run l))) = val (hist_run l).
Proof.
  intros SC I0 V0 N.
  assert (B : exists g, Forall (fun e => unit_of e <= g) l).
  { clear. induction l as [|e l (g & IH)]; [exists 0; constructor|].
    exists (Z.max g (unit_of e)). constructor; [lia|]. eapply Forall_impl; [|exact IH]. simpl. intros; lia. }
  destruct B as (g & B). destruct (track_ghost l SC I0 V0 N g B) as (saves & (E1 & O & _ & D) & Q).
  rewrite E1. split; [rewrite snap_at_run by exact O; apply Q | rewrite cur_run; exact D].
Qed.
End Track.
