(** Incentives: what one LP token's pool owes, as a potential that no operation increases beyond
    what is paid in. *)
From Coq Require Import ZArith Lia Bool List Permutation.
From Verif Require Import Num Amap Ledger IncentivesModel IncentivesSched.
Import ListNotations.
Open Scope Z_scope.

(** ** Claims of one user *)

(** Entries of one asset. *)
Definition fl (A : Z) (l : list (Z * Z)) : list Z := map snd (filter (fun x => fst x =? A) l).
Definition zsum (l : list Z) : Z := fold_right Z.add 0 l.

(** Index growth a user with stored index [ui] has not been paid for: finished indexes [fs] in
    order, then the active index. *)
Definition clm (fs : list Z) (ui : Z) (act : option Z) : Z :=
  match fs with
  | [] => match act with None => 0 | Some x => if x <? ui then x else x - ui end
  | f :: r => ssub f ui + zsum r + match act with None => 0 | Some x => x end
  end.

Inductive sub : list Z -> list Z -> Prop :=
| sub_nil l : sub [] l
| sub_skip x l m : sub l m -> sub l (x :: m)
| sub_keep x l m : sub l m -> sub (x :: l) (x :: m).

Definition nn (l : list Z) : Prop := Forall (fun x => 0 <= x) l.
Definition nno (o : option Z) : Prop := match o with Some x => 0 <= x | None => True end.

Lemma zsum_nonneg l : nn l -> 0 <= zsum l.
Proof. induction 1; simpl; lia. Qed.
Lemma zsum_app a b : zsum (a ++ b) = zsum a + zsum b.
Proof. induction a; simpl; lia. Qed.
Lemma sub_zsum l m : sub l m -> nn m -> zsum l <= zsum m.
Proof.
  induction 1; intros N.
  - simpl. apply zsum_nonneg. auto.
  - inversion N; subst. simpl. specialize (IHsub H3). lia.
  - inversion N; subst. simpl. specialize (IHsub H3). lia.
Qed.
Lemma sub_nn l m : sub l m -> nn m -> nn l.
Proof. induction 1; intros N; [constructor| |]; inversion N; subst; auto. constructor; auto. apply IHsub; auto. Qed.
Lemma sub_refl l : sub l l. Proof. induction l; [constructor|apply sub_keep; auto]. Qed.
Lemma sub_app a b c d : sub a b -> sub c d -> sub (a ++ c) (b ++ d).
Proof.
  intros H1 H2. induction H1; simpl.
  - induction l; simpl; auto. apply sub_skip. auto.
  - apply sub_skip. auto.
  - apply sub_keep. auto.
Qed.

Lemma clm_nonneg fs ui act : nn fs -> nno act -> 0 <= clm fs ui act.
Proof.
  intros N A. unfold clm. destruct fs as [|f r].
  - destruct act; [|lia]. simpl in A. destruct (Z.ltb_spec z ui); lia.
  - inversion N; subst. pose proof (zsum_nonneg _ H2). unfold ssub.
    destruct act; simpl in A; lia.
Qed.
Lemma clm_le_total fs ui act : nn fs -> nno act -> 0 <= ui ->
  clm fs ui act <= zsum fs + match act with Some x => x | None => 0 end.
Proof.
  intros N A U. unfold clm. destruct fs as [|f r]; simpl.
  - destruct act; [|lia]. simpl in A. destruct (Z.ltb_spec z ui); lia.
  - inversion N; subst. unfold ssub. lia.
Qed.
Lemma clm_sub l m ui act : sub l m -> nn m -> nno act -> 0 <= ui -> clm l ui act <= clm m ui act.
Proof.
  intros H N A U. inversion H; subst.
  - destruct m as [|f r]; [lia|]. inversion N; subst. pose proof (zsum_nonneg _ H3).
    simpl. unfold ssub. destruct act; simpl in A; [|lia]. destruct (Z.ltb_spec z ui); lia.
  - inversion N; subst. pose proof (sub_zsum _ _ H0 H4). pose proof (sub_nn _ _ H0 H4).
    pose proof (clm_le_total l ui act H2 A U). simpl. unfold ssub.
    destruct act; simpl in A; lia.
  - inversion N; subst. pose proof (sub_zsum _ _ H0 H4). simpl. lia.
Qed.
Lemma clm_step fs ui x d : 0 <= d -> 0 <= x -> 0 <= ui ->
  clm fs ui (Some (x + d)) <= clm fs ui (Some x) + d.
Proof.
  intros D X U. destruct fs; simpl; [|lia].
  destruct (Z.ltb_spec (x + d) ui); destruct (Z.ltb_spec x ui); lia.
Qed.
Lemma clm_fin fs ui x : 0 <= x -> 0 <= ui -> clm (fs ++ [x]) ui None <= clm fs ui (Some x).
Proof.
  intros X U. destruct fs as [|f r]; simpl.
  - unfold ssub. destruct (Z.ltb_spec x ui); lia.
  - rewrite zsum_app. simpl. lia.
Qed.
Lemma clm_zero fs ui : 0 <= ui -> clm fs ui (Some 0) = clm fs ui None.
Proof. intros U. destruct fs; simpl; [|lia]. destruct (Z.ltb_spec 0 ui); lia. Qed.
Lemma clm_none fs ui x : nn fs -> 0 <= x -> 0 <= ui -> clm fs ui None <= clm fs ui (Some x).
Proof. intros N X U. destruct fs; simpl; [destruct (Z.ltb_spec x ui); lia|lia]. Qed.

(** ** The pool's potential *)

Definition uix (A : Z) (u : uinfo) : Z :=
  match u_find (RExt A 0) (uidx u) with Some i => i | None => 0 end.
Definition actA (A : Z) (rs : list rinfo) : option Z := option_map idx (find_ext A rs).
(** Users who claimed in this very second do not see the rewards being removed now. *)
Definition vis (u : uinfo) (q : pool) (rem : removed) : removed :=
  if claimed u <? last q then rem else [].
Definition owedM (A : Z) (q : pool) (rem : removed) (f : list (Z * list (Z * Z))) (u : uinfo) : Z :=
  amount u * clm (fl A (unseen u f (vis u q rem))) (uix A u) (actA A (rewards q)).
Definition orphA (A : Z) (rs : list rinfo) : Z :=
  match find_ext A rs with Some x => orph x | None => 0 end.
Definition rem_orph (A : Z) (rem : removed) : Z :=
  zsum (map (fun x => snd (snd x)) (filter (fun x => fst x =? A) rem)).
(** Reward still to be emitted after [t] for an active reward. *)
Definition left_of (t : Z) (x : rinfo) (sch : list (Z * Z)) : Z :=
  rps x * (next_of (rw x) - t) + tailZ (next_of (rw x)) (after (next_of (rw x)) sch).
Definition remaining (A : Z) (q : pool) (m : amap (list (Z * Z))) : Z :=
  match find_ext A (rewards q) with Some x => left_of (last q) x (sched_of A m) | None => 0 end.
Definition Pm (A : Z) (p : lpst) (rem : removed) : Z :=
  sumf (owedM A (pl p) rem (fins p)) (users p) + orphA A (rewards (pl p)) + rem_orph A rem
  + remaining A (pl p) (scheds p).
Definition P (A : Z) (p : lpst) : Z := Pm A p [].

Definition exts (rs : list rinfo) : list Z :=
  map (fun x => asset_of (rw x)) (filter (fun x => is_ext (rw x)) rs).
Definition okR (t : Z) (x : rinfo) : Prop :=
  0 <= rps x /\ 0 <= idx x /\ 0 <= orph x /\ (is_ext (rw x) = true -> t < next_of (rw x)).
Definition ok_sch (l : list (Z * Z)) : Prop := srt l /\ Forall (fun p => 0 <= snd p) l.
(** Schedules of an asset that end in the future belong to an active reward and start later. *)
Definition live (t : Z) (rs : list rinfo) (a : Z) (l : list (Z * Z)) : Prop :=
  forall p, In p l -> t < fst p -> exists x, find_ext a rs = Some x /\ next_of (rw x) <= fst p.
Definition okU (t : Z) (u : uinfo) : Prop :=
  0 <= amount u /\ claimed u <= t /\ Forall (fun y => 0 <= snd y) (uidx u).

(** Well-formed pool, with the schedules of asset [A] in order. *)
Record wf (A : Z) (p : lpst) : Prop := {
  w_total : total_lp (pl p) = sumf amount (users p);
  w_users : Forall (fun x => okU (last (pl p)) (snd x)) (users p);
  w_nd : NoDup (keys (users p));
  w_ext : NoDup (exts (rewards (pl p)));
  w_int : (length (filter (fun x => negb (is_ext (rw x))) (rewards (pl p))) <= 1)%nat;
  w_rw : Forall (okR (last (pl p))) (rewards (pl p));
  w_sch : forall a, ok_sch (sched_of a (scheds p));
  w_live : live (last (pl p)) (rewards (pl p)) A (sched_of A (scheds p));
  w_fs : srt (fins p);
  w_fin : Forall (fun x => fst x <= last (pl p) /\ Forall (fun y => 0 <= snd y) (snd x)) (fins p)
}.
Record wfm (A : Z) (p : lpst) (rem : removed) : Prop := {
  m_wf : wf A p;
  m_nd : NoDup (map fst rem);
  m_nn : Forall (fun x => 0 <= fst (snd x) /\ 0 <= snd (snd x)) rem
}.

(** *** Looking up external rewards *)
Lemma find_ext_in a rs x : find_ext a rs = Some x -> In x rs /\ exists n, rw x = RExt a n.
Proof.
  induction rs as [|r t IH]; simpl; [discriminate|].
  destruct (rw r) eqn:E.
  - intros H. apply IH in H. tauto.
  - destruct (Z.eqb_spec a0 a).
    + intros [= <-]. subst. split; eauto.
    + intros H. apply IH in H. tauto.
Qed.
Lemma find_ext_exts a rs : find_ext a rs = None <-> ~ In a (exts rs).
Proof.
  unfold exts. induction rs as [|r t IH]; simpl; [tauto|].
  destruct (rw r) eqn:E; simpl; auto. rewrite E. simpl.
  destruct (Z.eqb_spec a0 a).
  - subst. split; [discriminate|tauto].
  - rewrite IH. tauto.
Qed.
Lemma find_ext_app a rs t : find_ext a (rs ++ t) =
  match find_ext a rs with Some x => Some x | None => find_ext a t end.
Proof. induction rs as [|r s IH]; simpl; auto. destruct (rw r); auto. destruct (a0 =? a); auto. Qed.
Lemma exts_app a b : exts (a ++ b) = exts a ++ exts b.
Proof. unfold exts. rewrite filter_app, map_app. auto. Qed.

Lemma u_find_nn r l : Forall (fun y => 0 <= snd y) l ->
  0 <= match u_find r l with Some i => i | None => 0 end.
Proof.
  induction 1 as [|[x i] t H _ IH]; simpl; [lia|]. destruct (matches x r); auto.
Qed.
Lemma uix_nn t A u : okU t u -> 0 <= uix A u.
Proof. intros (_ & _ & H). apply u_find_nn. auto. Qed.

Lemma fl_app A a b : fl A (a ++ b) = fl A a ++ fl A b.
Proof. unfold fl. rewrite filter_app, map_app. auto. Qed.

(** ** Accrual *)
Lemma div_dec a t : 0 < t -> a * DEC / (t * DEC / 1) = a / t.
Proof. intros. rewrite Z.div_1_r. apply Z.div_mul_cancel_r; [lia|discriminate]. Qed.

Lemma accrue_spec total x coll x' : accrue total x coll = Some x' ->
  0 <= total -> 0 <= orph x -> 0 <= coll ->
  exists d, 0 <= d /\ rw x' = rw x /\ rps x' = rps x /\ idx x' = idx x + d /\ 0 <= orph x' /\
    total * d + orph x' <= orph x + coll /\
    (total = 0 -> d = 0 /\ orph x' = orph x + coll) /\
    (0 < total -> d = (orph x + coll) / total /\ orph x' = 0).
Proof.
  unfold accrue. intros H T O C. unbind H as a E. apply add256_Some in E. destruct E as (-> & _).
  destruct (Z.eqb_spec total 0).
  - injection H as <-. exists 0. simpl. repeat split; try lia.
  - unbind H as t E. apply dratio256_Some in E. destruct E as (_ & -> & _).
    unbind H as q E. apply ddiv256_Some in E. destruct E as (_ & -> & _).
    rewrite div_dec in H by lia.
    unbind H as i E. apply add256_Some in E. destruct E as (-> & _). injection H as <-.
    exists ((orph x + coll) / total). simpl.
    pose proof (div_nonneg (orph x + coll) total ltac:(lia) ltac:(lia)).
    pose proof (div_mul_le (orph x + coll) total ltac:(lia)). repeat split; try lia.
Qed.

Lemma upd_one_ext now lst total sch x a nx x' gone :
  upd_one now lst total sch x = Some (x', gone) -> rw x = RExt a nx ->
  lst < now -> 0 <= total -> okR lst x ->
  srt sch -> Forall (fun p => 0 <= snd p) sch ->
  exists d coll, 0 <= d /\ 0 <= coll /\ idx x' = idx x + d /\ 0 <= orph x' /\
    total * d + orph x' <= orph x + coll /\
    (total = 0 -> d = 0 /\ orph x' = orph x + coll) /\
    (0 < total -> d = (orph x + coll) / total /\ orph x' = 0) /\
    if gone then
      asset_of (rw x') = a /\ is_ext (rw x') = true /\ coll = left_of lst x sch /\
      Forall (fun p => fst p <= now) sch
    else
      exists nx', rw x' = RExt a nx' /\ now < nx' /\ 0 <= rps x' /\
        coll + left_of now x' sch = left_of lst x sch /\
        ((forall p, In p sch -> lst < fst p -> nx <= fst p) ->
         forall p, In p sch -> now < fst p -> nx' <= fst p).
Proof.
  intros H R L T (O1 & O2 & O3 & O4) S N. unfold upd_one in H. rewrite R in *. simpl in O4.
  specialize (O4 eq_refl). destruct (Z.leb_spec nx now) as [Ln|Ln].
  - unbind H as d E. apply sub64_Some in E. destruct E as (-> & _).
    unbind H as c0 E. apply per_Some in E. subst c0.
    unbind H as [[c1 nx1] act] E.
    assert (SA : srt (after nx sch)) by (apply srt_after; auto).
    assert (FA : Forall (fun p => nx < fst p) (after nx sch))
      by (apply Forall_forall; intros p Hp; apply in_after in Hp; tauto).
    assert (NA : Forall (fun p => 0 <= snd p) (after nx sch)).
    { apply Forall_forall. intros p Hp. apply in_after in Hp. rewrite Forall_forall in N. apply N. tauto. }
    destruct (scan_spec _ _ _ _ _ _ _ E SA FA Ln) as (B & Q).
    pose proof (tailZ_nonneg _ _ SA FA NA) as TN.
    assert (PN : 0 <= rps x * (nx - lst)) by (apply Z.mul_nonneg_nonneg; lia).
    destruct act as [[ts r]|].
    + destruct Q as (Q1 & Q2 & Q3 & Q4).
      unbind H as c2 E2. apply per_Some in E2. subst c2.
      unbind H as c E2. apply add256_Some in E2. destruct E2 as (-> & Bc).
      unbind H as y E2. injection H as <- <-.
      apply in_after in Q2. destruct Q2 as [Q2 Q2']. simpl in Q2'.
      assert (Hr : 0 <= r) by (rewrite Forall_forall in N; apply (N _ Q2)).
      apply accrue_spec in E2; simpl; auto; [|lia].
      destruct E2 as (d & D1 & D2 & D3 & D4 & D5 & D6 & D7 & D8). simpl in *.
      rewrite after_after in Q3 by lia.
      exists d, (c1 + r * (now - nx1)).
      split; auto. split; [lia|]. split; auto. split; auto. split; auto. split; auto. split; auto.
      exists ts. split; auto. split; auto. rewrite D3. split; auto. split.
      * unfold left_of. rewrite D2, D3, R. simpl. lia.
      * intros _ p Hp Lp. destruct (Z.ltb_spec nx (fst p)) as [K|K].
        -- assert (Hp2 : In p (after nx sch)) by (apply in_after; auto).
           rewrite Forall_forall in Q4. specialize (Q4 _ Hp2). lia.
        -- lia.
    + destruct Q as (Q1 & Q2). unbind H as y E2. injection H as <- <-.
      apply accrue_spec in E2; simpl; auto; [|lia].
      destruct E2 as (d & D1 & D2 & D3 & D4 & D5 & D6 & D7 & D8). simpl in *.
      exists d, c1. split; auto. split; [lia|]. split; auto. split; auto. split; auto. split; auto.
      split; auto. rewrite D2. simpl. split; auto. split; auto. split.
      * unfold left_of. rewrite R. simpl. lia.
      * apply Forall_forall. intros p Hp. destruct (Z.ltb_spec nx (fst p)) as [K|K]; [|lia].
        assert (Hp2 : In p (after nx sch)) by (apply in_after; auto).
        rewrite Forall_forall in Q2. apply (Q2 _ Hp2).
  - unbind H as c E. apply per_Some in E. subst c. unbind H as y E2. injection H as <- <-.
    assert (PN : 0 <= rps x * (now - lst)) by (apply Z.mul_nonneg_nonneg; lia).
    apply accrue_spec in E2; auto. destruct E2 as (d & D1 & D2 & D3 & D4 & D5 & D6 & D7 & D8).
    exists d, (rps x * (now - lst)). split; auto. split; auto. split; auto. split; auto. split; auto.
    split; auto. split; auto. exists nx. rewrite D2. split; auto. split; auto. rewrite D3. split; auto. split.
    + unfold left_of. rewrite D2, D3, R. simpl. lia.
    + intros G p Hp Lp. apply G; auto. lia.
Qed.

Lemma upd_one_int now lst total sch x x' gone :
  upd_one now lst total sch x = Some (x', gone) -> is_ext (rw x) = false ->
  lst < now -> 0 <= total -> okR lst x ->
  gone = false /\ rw x' = rw x /\ rps x' = rps x /\
  exists d, 0 <= d /\ idx x' = idx x + d /\ 0 <= orph x' /\
    total * d + orph x' <= orph x + rps x * (now - lst) /\
    (total = 0 -> d = 0 /\ orph x' = orph x + rps x * (now - lst)) /\
    (0 < total -> d = (orph x + rps x * (now - lst)) / total /\ orph x' = 0).
Proof.
  intros H R L T (O1 & O2 & O3 & O4). unfold upd_one in H. destruct (rw x) eqn:E0; [|discriminate].
  unbind H as c E. apply per_Some in E. subst c. unbind H as y E2. injection H as <- <-.
  assert (PN : 0 <= rps x * (now - lst)) by (apply Z.mul_nonneg_nonneg; lia).
  apply accrue_spec in E2; auto. destruct E2 as (d & D1 & D2 & D3 & D4 & D5 & D6 & D7 & D8).
  split; auto. rewrite D2. split; auto. split; auto. exists d.
  exact (conj D1 (conj D4 (conj D5 (conj D6 (conj D7 D8))))).
Qed.

Definition find_int (rs : list rinfo) : option rinfo :=
  List.find (fun x => negb (is_ext (rw x))) rs.

(** The whole list: every external reward is updated by [upd_one] and stays, or is removed. *)
Lemma upd_all_spec now lst total m rs : forall rs' rem,
  upd_all now lst total m rs = Some (rs', rem) ->
  lst < now -> 0 <= total -> NoDup (exts rs) -> Forall (okR lst) rs ->
  (forall a, ok_sch (sched_of a m)) ->
  NoDup (exts rs') /\ (forall a, In a (exts rs') -> In a (exts rs)) /\
  NoDup (map fst rem) /\ (forall a, In a (map fst rem) -> In a (exts rs)) /\
  Forall (fun x => 0 <= fst (snd x) /\ 0 <= snd (snd x)) rem /\
  Forall (okR now) rs' /\
  length (filter (fun x => negb (is_ext (rw x))) rs') = length (filter (fun x => negb (is_ext (rw x))) rs) /\
  (match find_int rs with
   | None => find_int rs' = None
   | Some x => exists x' gone, upd_one now lst total (sched_of (asset_of (rw x)) m) x = Some (x', gone) /\
                         find_int rs' = Some x' end) /\
  forall a, match find_ext a rs with
  | None => find_ext a rs' = None /\ filter (fun x => fst x =? a) rem = []
  | Some x => exists x' gone, upd_one now lst total (sched_of a m) x = Some (x', gone) /\
      if gone : bool then find_ext a rs' = None /\ filter (fun x => fst x =? a) rem = [(a, (idx x', orph x'))]
      else find_ext a rs' = Some x' /\ filter (fun x => fst x =? a) rem = []
  end.
Proof.
  induction rs as [|r t IH]; intros rs' rem H L T N F S; simpl in H.
  - injection H as <- <-. simpl. repeat split; auto; try constructor.
  - unbind H as [x gone] E. unbind H as [keep rem'] E2. injection H as H1.
    inversion F as [|? ? Fr Ft]; subst.
    assert (Nt : NoDup (exts t)).
    { unfold exts in *. simpl in N. destruct (is_ext (rw r)); simpl in N; auto. inversion N; auto. }
    specialize (IH _ _ eq_refl L T Nt Ft S).
    destruct IH as (I1 & I2 & I3 & I4 & I5 & I6 & I7 & I8 & I9).
    destruct (rw r) as [b|b nx] eqn:Er.
    + (* protocol reward *)
      assert (Ri : is_ext (rw r) = false) by (rewrite Er; auto).
      destruct (upd_one_int _ _ _ _ _ _ _ E Ri L T Fr) as (-> & Q2 & Q3 & d & D1 & D2 & D3 & _).
      injection H1 as <- <-.
      assert (Rx : is_ext (rw x) = false) by (rewrite Q2; auto).
      assert (Ex : forall q, exts (x :: q) = exts q) by (intros; unfold exts; simpl; rewrite Rx; auto).
      assert (Et : exts (r :: t) = exts t) by (unfold exts; simpl; rewrite Ri; auto).
      rewrite Et, Ex. split; auto. split; auto. split; auto. split; auto. split; auto. split.
      { constructor; auto. destruct Fr as (F1 & F2 & F3 & F4). unfold okR. rewrite Q3, D2, Rx.
        repeat split; try lia; try discriminate. }
      split; [simpl; rewrite Rx, Ri; simpl; rewrite I7; auto|]. split.
      { unfold find_int. simpl. rewrite Ri. simpl. exists x, false. rewrite Er. split; auto. rewrite Rx. auto. }
      intros a. simpl. rewrite Er, Q2, Er. apply (I9 a).
    + (* external reward *)
      simpl in E. assert (Ri : is_ext (rw r) = true) by (rewrite Er; auto).
      destruct (upd_one_ext _ _ _ _ _ _ _ _ _ E Er L T Fr (proj1 (S b)) (proj2 (S b))) as
        (d & coll & D1 & D2 & D3 & D4 & D5 & _ & _ & D6).
      assert (Et : exts (r :: t) = b :: exts t) by (unfold exts; simpl; rewrite Ri; simpl; rewrite Er; auto).
      rewrite Et in N. inversion N as [|? ? Nb _]; subst.
      assert (Fn : filter (fun x => fst x =? b) rem' = []).
      { specialize (I9 b). apply find_ext_exts in Nb. rewrite Nb in I9. tauto. }
      destruct gone.
      * injection H1 as <- <-. destruct D6 as (A1 & A2 & A3 & A4). rewrite Et.
        split; auto. split; [intros a Ha; right; auto|]. split.
        { simpl. constructor; auto. rewrite A1. intros Hin. apply Nb. auto. }
        split. { simpl. intros a [<-|Ha]; [left; auto|right; auto]. }
        split. { constructor; auto. simpl. destruct Fr as (F1 & F2 & F3 & F4). lia. }
        split; auto. split. { simpl. rewrite Ri. simpl. auto. }
        split. { unfold find_int. simpl. rewrite Ri. simpl. exact I8. }
        intros a. simpl. rewrite Er, A1. destruct (Z.eqb_spec b a).
        -- subst. exists x, true. split; auto. split.
           ++ apply find_ext_exts. intros Hin. apply Nb. auto.
           ++ rewrite Fn. auto.
        -- apply (I9 a).
      * injection H1 as <- <-. destruct D6 as (nx' & A1 & A2 & A3 & A4 & A5). rewrite Et.
        assert (Ex : exts (x :: keep) = b :: exts keep) by (unfold exts; simpl; rewrite A1; simpl; rewrite A1; auto).
        rewrite Ex.
        split. { constructor; auto. }
        split. { simpl. intros a [<-|Ha]; auto. }
        split; auto. split. { intros a Ha. right. auto. }
        split; auto. split.
        { constructor; auto. destruct Fr as (F1 & F2 & F3 & F4). unfold okR. rewrite A1. simpl.
          repeat split; auto; lia. }
        split. { simpl. rewrite Ri, A1. simpl. auto. }
        split. { unfold find_int. simpl. rewrite Ri, A1. simpl. exact I8. }
        intros a. simpl. rewrite Er, A1. destruct (Z.eqb_spec b a).
        -- subst. exists x, false. auto.
        -- apply (I9 a).
Qed.
