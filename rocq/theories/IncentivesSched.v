(** Incentives: ordered schedule lists and the total reward they describe. *)
From Coq Require Import ZArith Lia Bool List.
From Verif Require Import Num Amap Ledger IncentivesModel.
Import ListNotations.
Open Scope Z_scope.

(** Strictly ascending keys. *)
Fixpoint srt {V} (l : list (Z * V)) : Prop :=
  match l with [] => True | (k, _) :: r => Forall (fun p => k < fst p) r /\ srt r end.

(** Reward of a list of schedules (end, rate), the first one starting at [prev]. *)
Fixpoint tailZ (prev : Z) (l : list (Z * Z)) : Z :=
  match l with [] => 0 | (ts, r) :: t => r * (ts - prev) + tailZ ts t end.

Section L.
Context {V : Type}.
Implicit Types l : list (Z * V).

Lemma in_after k p l : In p (after k l) <-> In p l /\ k < fst p.
Proof. unfold after. rewrite filter_In, Z.ltb_lt. tauto. Qed.

Lemma srt_filter f l : srt l -> srt (filter f l).
Proof.
  induction l as [|[k v] r IH]; simpl; auto. intros [H S].
  destruct (f (k, v)); simpl; auto. split; auto.
  apply Forall_forall. intros p Hp. apply filter_In in Hp. rewrite Forall_forall in H. apply H. tauto.
Qed.
Lemma srt_after k l : srt l -> srt (after k l).
Proof. apply srt_filter. Qed.

Lemma in_ins k v l p : srt l -> In p (ins k v l) <-> p = (k, v) \/ (In p l /\ fst p <> k).
Proof.
  induction l as [|[k' v'] r IH]; intros S.
  - simpl. intuition congruence.
  - destruct S as [H S]. rewrite Forall_forall in H. simpl ins.
    destruct (Z.ltb_spec k k').
    + simpl. split.
      * intros [<-|[<-|Hr]]; auto. right. split; simpl; [auto|lia].
        right. split; auto. specialize (H _ Hr). lia.
      * intros [->|[[<-|Hr] N]]; auto.
    + destruct (Z.eqb_spec k k').
      * subst. simpl. split.
        -- intros [<-|Hr]; auto. right. split; auto. specialize (H _ Hr). lia.
        -- intros [->|[[<-|Hr] N]]; auto. simpl in N. congruence.
      * simpl. rewrite IH by auto. split.
        -- intros [<-|[->|[Hr N]]]; auto.
        -- intros [->|[[<-|Hr] N]]; auto.
Qed.

Lemma ins_in k v l p : In p (ins k v l) -> p = (k, v) \/ In p l.
Proof.
  induction l as [|[k' v'] r IH]; simpl.
  - intuition.
  - destruct (k <? k'); [simpl; intuition|]. destruct (k =? k'); simpl; intuition.
Qed.

Lemma srt_ins k v l : srt l -> srt (ins k v l).
Proof.
  induction l as [|[k' v'] r IH]; intros S; [simpl; auto|].
  destruct S as [H S]. simpl ins. destruct (Z.ltb_spec k k').
  - simpl. split; [constructor; auto|split; auto]. rewrite Forall_forall in *.
    intros p Hp. specialize (H _ Hp). lia.
  - destruct (Z.eqb_spec k k'); [subst; simpl; auto|].
    simpl. split; [|auto]. apply Forall_forall. intros p Hp. apply ins_in in Hp.
    rewrite Forall_forall in H. destruct Hp as [->|Hp]; [simpl; lia|auto].
Qed.

Lemma after_all k l : Forall (fun p => k < fst p) l -> after k l = l.
Proof.
  induction 1 as [|p r H _ IH]; simpl; auto.
  replace (k <? fst p) with true by (symmetry; apply Z.ltb_lt; auto). f_equal. auto.
Qed.
Lemma after_none k l : Forall (fun p => fst p <= k) l -> after k l = [].
Proof.
  induction 1 as [|p r H _ IH]; simpl; auto.
  replace (k <? fst p) with false by (symmetry; apply Z.ltb_ge; auto). auto.
Qed.
Lemma after_comm a b l : after a (after b l) = after b (after a l).
Proof.
  unfold after. induction l as [|p r IH]; simpl; auto.
  destruct (b <? fst p) eqn:E1; destruct (a <? fst p) eqn:E2; simpl; rewrite ?E1, ?E2, IH; auto.
Qed.
Lemma after_after a b l : a <= b -> after b (after a l) = after b l.
Proof.
  intros L. unfold after. induction l as [|p r IH]; simpl; auto.
  destruct (Z.ltb_spec a (fst p)); simpl; rewrite IH; auto.
  destruct (Z.ltb_spec b (fst p)); auto. lia.
Qed.

(** Split of an ordered list at a key. *)
Lemma split_at k l : srt l ->
  exists pre, l = pre ++ after k l /\ Forall (fun p => fst p <= k) pre.
Proof.
  induction l as [|[k' v] r IH]; intros S.
  - exists []. auto.
  - destruct S as [H S]. destruct (Z.ltb_spec k k') as [L|L].
    + exists []. split; auto. symmetry. apply after_all. constructor; auto.
      rewrite Forall_forall in *. intros p Hp. specialize (H _ Hp). lia.
    + destruct (IH S) as (pre & E & F). exists ((k', v) :: pre). split.
      * simpl. replace (k <? k') with false by (symmetry; apply Z.ltb_ge; lia).
        simpl. f_equal. auto.
      * constructor; auto.
Qed.

Lemma after_ins_gt a k v l : a < k -> after a (ins k v l) = ins k v (after a l).
Proof.
  intros L. induction l as [|[k' v'] r IH].
  - simpl. replace (a <? k) with true by (symmetry; apply Z.ltb_lt; auto). auto.
  - simpl ins. destruct (Z.ltb_spec k k').
    + simpl. replace (a <? k) with true by (symmetry; apply Z.ltb_lt; auto).
      replace (a <? k') with true by (symmetry; apply Z.ltb_lt; lia). simpl.
      replace (k <? k') with true by (symmetry; apply Z.ltb_lt; auto). auto.
    + destruct (Z.eqb_spec k k').
      * subst. simpl. replace (a <? k') with true by (symmetry; apply Z.ltb_lt; auto).
        simpl. rewrite Z.ltb_irrefl, Z.eqb_refl. auto.
      * simpl. destruct (Z.ltb_spec a k'); simpl; rewrite IH; auto.
        replace (k <? k') with false by (symmetry; apply Z.ltb_ge; auto).
        replace (k =? k') with false by (symmetry; apply Z.eqb_neq; auto). auto.
Qed.
Lemma after_ins_le a k v l : k <= a -> after a (ins k v l) = after a l.
Proof.
  intros L. induction l as [|[k' v'] r IH].
  - simpl. replace (a <? k) with false by (symmetry; apply Z.ltb_ge; auto). auto.
  - simpl ins. destruct (Z.ltb_spec k k').
    + simpl. replace (a <? k) with false by (symmetry; apply Z.ltb_ge; auto). auto.
    + destruct (Z.eqb_spec k k').
      * subst. simpl. replace (a <? k') with false by (symmetry; apply Z.ltb_ge; auto). auto.
      * simpl. rewrite IH. auto.
Qed.
Lemma after_ins_all a sv l : after a (ins_all sv l) = ins_all (after a sv) (after a l).
Proof.
  revert l. unfold ins_all. induction sv as [|[k v] r IH]; intros l; simpl; auto.
  rewrite IH. destruct (Z.ltb_spec a k).
  - simpl. rewrite after_ins_gt; auto.
  - rewrite after_ins_le; auto.
Qed.
Lemma srt_ins_all sv l : srt l -> srt (ins_all sv l).
Proof.
  revert l. unfold ins_all. induction sv as [|[k v] r IH]; intros l S; simpl; auto.
  apply IH. apply srt_ins. auto.
Qed.
Lemma in_ins_all sv l p : In p (ins_all sv l) -> In p sv \/ In p l.
Proof.
  revert l. unfold ins_all. induction sv as [|[k v] r IH]; intros l; simpl; auto.
  intros H. apply IH in H. destruct H as [H|H]; auto. apply ins_in in H. simpl in H.
  destruct H as [->|H]; auto.
Qed.

(** Inserting in front, and skipping a smaller prefix. *)
Lemma ins_front k v l : Forall (fun p => k <= fst p) l -> srt l ->
  ins k v l = (k, v) :: after k l.
Proof.
  destruct l as [|[k' v'] r]; intros F S; auto. inversion F; subst. destruct S as [H S].
  simpl in *. destruct (Z.ltb_spec k k').
  - simpl. replace (k <? k') with true by (symmetry; apply Z.ltb_lt; auto).
    rewrite after_all; auto. rewrite Forall_forall in *. intros p Hp. specialize (H _ Hp). lia.
  - assert (k = k') by lia. subst. rewrite Z.eqb_refl. simpl. f_equal. symmetry. apply after_all. auto.
Qed.
Lemma ins_skip k v pre l : Forall (fun p => fst p < k) pre -> ins k v (pre ++ l) = pre ++ ins k v l.
Proof.
  induction 1 as [|[k' v'] r H _ IH]; simpl in *; auto.
  replace (k <? k') with false by (symmetry; apply Z.ltb_ge; lia).
  replace (k =? k') with false by (symmetry; apply Z.eqb_neq; lia). f_equal. auto.
Qed.
Lemma ins_all_skip sv pre l :
  Forall (fun q => Forall (fun p => fst p < fst q) pre) sv ->
  ins_all sv (pre ++ l) = pre ++ ins_all sv l.
Proof.
  unfold ins_all. revert l. induction sv as [|[k v] r IH]; intros l F; simpl; auto.
  inversion F; subst. rewrite ins_skip by auto. apply IH. auto.
Qed.
End L.

(** ** Overlapping a new schedule *)

(** The schedule list after adding rate [r] up to time [en]. *)
Fixpoint mrg (en r : Z) (l : list (Z * Z)) : list (Z * Z) :=
  match l with
  | [] => [(en, r)]
  | (ts, x) :: t =>
      if en <? ts then (en, x + r) :: l
      else if en =? ts then (en, x + r) :: t
      else (ts, x + r) :: mrg en r t
  end.

Lemma overlap_keys en r l sv : overlap en r l = Some sv ->
  forall p, In p sv -> (fst p = en \/ In (fst p) (map fst l)) /\ fst p <= en.
Proof.
  revert sv. induction l as [|[ts x] t IH]; intros sv H p Hp; simpl in H.
  - injection H as <-. destruct Hp as [<-|[]]. simpl. split; auto. lia.
  - destruct (add256 x r) eqn:E; [|discriminate]. destruct (Z.leb_spec en ts).
    + injection H as <-. destruct Hp as [<-|[]]. simpl. split; auto; lia.
    + destruct (overlap en r t) eqn:E2; [|discriminate]. injection H as <-.
      destruct Hp as [<-|Hp]; simpl; [split; auto; lia|].
      destruct (IH _ eq_refl _ Hp) as [[?|?] ?]; split; auto.
Qed.
Lemma overlap_nonneg en r l sv : overlap en r l = Some sv -> 0 <= r ->
  Forall (fun p => 0 <= snd p) l -> Forall (fun p => 0 <= snd p) sv.
Proof.
  revert sv. induction l as [|[ts x] t IH]; intros sv H Hr F; simpl in H.
  - injection H as <-. constructor; auto.
  - inversion F; subst. destruct (add256 x r) eqn:E; [|discriminate].
    apply add256_Some in E. destruct E as (-> & ?). destruct (en <=? ts).
    + injection H as <-. constructor; simpl in *; auto. lia.
    + destruct (overlap en r t) eqn:E2; [|discriminate]. injection H as <-.
      constructor; simpl in *; auto. lia.
Qed.

Lemma overlap_after k en r l sv : overlap en r l = Some sv -> k < en -> srt l ->
  overlap en r (after k l) = Some (after k sv).
Proof.
  revert sv. induction l as [|[ts x] t IH]; intros sv H L S; simpl in H.
  - injection H as <-. simpl. replace (k <? en) with true by (symmetry; apply Z.ltb_lt; auto). auto.
  - destruct S as [F S]. destruct (add256 x r) as [n|] eqn:E; [|discriminate].
    destruct (Z.leb_spec en ts).
    + injection H as <-. simpl.
      replace (k <? ts) with true by (symmetry; apply Z.ltb_lt; lia).
      replace (k <? en) with true by (symmetry; apply Z.ltb_lt; lia). simpl. rewrite E.
      replace (en <=? ts) with true by (symmetry; apply Z.leb_le; lia). auto.
    + destruct (overlap en r t) eqn:E2; [|discriminate]. injection H as <-.
      specialize (IH _ eq_refl L S). simpl. destruct (Z.ltb_spec k ts); auto.
      simpl. rewrite E. replace (en <=? ts) with false by (symmetry; apply Z.leb_gt; lia).
      rewrite IH. auto.
Qed.

Lemma overlap_mrg en r l sv : overlap en r l = Some sv -> srt l -> ins_all sv l = mrg en r l.
Proof.
  revert sv. induction l as [|[ts x] t IH]; intros sv H S; simpl in H.
  - injection H as <-. auto.
  - destruct S as [F S]. destruct (add256 x r) as [n|] eqn:E; [|discriminate].
    apply add256_Some in E. destruct E as (-> & _). destruct (Z.leb_spec en ts).
    + injection H as <-. unfold ins_all. simpl. destruct (Z.ltb_spec en ts); auto.
      replace (en =? ts) with true by (symmetry; apply Z.eqb_eq; lia). auto.
    + destruct (overlap en r t) eqn:E2; [|discriminate]. injection H as <-.
      specialize (IH _ eq_refl S). simpl mrg.
      replace (en <? ts) with false by (symmetry; apply Z.ltb_ge; lia).
      replace (en =? ts) with false by (symmetry; apply Z.eqb_neq; lia).
      rewrite <- IH. unfold ins_all at 1. simpl. rewrite Z.ltb_irrefl, Z.eqb_refl.
      change ((ts, x + r) :: t) with ([(ts, x + r)] ++ t).
      apply (ins_all_skip l [(ts, x + r)] t). apply Forall_forall. intros p Hp. constructor; auto.
      destruct (overlap_keys _ _ _ _ E2 _ Hp) as [[K|K] _]; simpl; [lia|].
      apply in_map_iff in K. destruct K as (q & K & Hq). rewrite Forall_forall in F.
      specialize (F _ Hq). lia.
Qed.

Lemma tailZ_mrg en r l prev : srt l -> Forall (fun p => prev < fst p) l -> prev <= en ->
  tailZ prev (mrg en r l) = tailZ prev l + r * (en - prev).
Proof.
  revert prev. induction l as [|[ts x] t IH]; intros prev S F L; simpl.
  - lia.
  - inversion F; subst. destruct S as [H S]. simpl in *. destruct (Z.ltb_spec en ts).
    + simpl. lia.
    + destruct (Z.eqb_spec en ts).
      * subst. simpl. lia.
      * simpl. rewrite IH by (auto; lia). lia.
Qed.
Lemma tailZ_app prev a b : tailZ prev (a ++ b) =
  tailZ prev a + tailZ (match rev a with (k, _) :: _ => k | [] => prev end) b.
Proof.
  revert prev. induction a as [|[k v] r IH]; intros prev; simpl; [lia|].
  rewrite IH. destruct (rev r) as [|[k' v'] q] eqn:E; simpl; [|lia].
  assert (r = []) by (apply (f_equal (@rev _)) in E; rewrite rev_involutive in E; auto).
  subst. simpl. lia.
Qed.
Lemma tailZ_nonneg prev l : srt l -> Forall (fun p => prev < fst p) l ->
  Forall (fun p => 0 <= snd p) l -> 0 <= tailZ prev l.
Proof.
  revert prev. induction l as [|[ts x] t IH]; intros prev S F N; simpl; [lia|].
  inversion F; inversion N; subst. destruct S as [H S]. simpl in *.
  specialize (IH ts S H H6). assert (0 <= x * (ts - prev)) by (apply Z.mul_nonneg_nonneg; lia). lia.
Qed.

(** The remaining reward grows by at most the new schedule's. *)
Lemma tail_overlap nx ne en r sch sv :
  srt sch -> 0 <= r -> nx < en -> ne < en ->
  overlap en r (after ne sch) = Some sv ->
  tailZ nx (after nx (ins_all sv sch)) <= tailZ nx (after nx sch) + r * (en - nx).
Proof.
  intros S Hr L1 L2 H. rewrite after_ins_all.
  pose proof (overlap_after nx _ _ _ _ H L1 (srt_after _ _ S)) as H2.
  rewrite after_comm in H2. set (L := after nx sch) in *.
  assert (SL : srt L) by (apply srt_after; auto).
  destruct (split_at ne L SL) as (pre & E & Fp). set (M := after ne L) in *.
  assert (SM : srt M) by (apply srt_after; auto).
  assert (FM : Forall (fun p => ne < fst p) M) by (apply Forall_forall; intros p Hp; apply in_after in Hp; tauto).
  rewrite E. rewrite ins_all_skip.
  2:{ apply Forall_forall. intros q Hq. apply Forall_forall. intros p Hp.
      rewrite Forall_forall in Fp, FM. specialize (Fp _ Hp).
      destruct (overlap_keys _ _ _ _ H2 _ Hq) as [[K|K] _]; [lia|].
      apply in_map_iff in K. destruct K as (q' & K & Hq'). specialize (FM _ Hq'). lia. }
  rewrite (overlap_mrg _ _ _ _ H2 SM). rewrite !tailZ_app.
  set (w := match rev pre with (k, _) :: _ => k | [] => nx end).
  assert (Hw : nx <= w /\ w < en /\ Forall (fun p => w < fst p) M).
  { unfold w. destruct (rev pre) as [|[k v] q] eqn:Ep.
    - split; [lia|split; [lia|]]. apply Forall_forall. intros p Hp.
      assert (Hp2 : In p L) by (rewrite E; apply in_or_app; auto). apply in_after in Hp2. tauto.
    - assert (Hk : In (k, v) pre) by (apply in_rev; rewrite Ep; left; auto).
      assert (Hk2 : In (k, v) L) by (rewrite E; apply in_or_app; auto).
      apply in_after in Hk2. simpl in Hk2. rewrite Forall_forall in Fp. specialize (Fp _ Hk). simpl in Fp.
      split; [lia|split; [lia|]]. apply Forall_forall. intros p Hp. rewrite Forall_forall in FM.
      specialize (FM _ Hp). lia. }
  destruct Hw as (W1 & W2 & W3). rewrite tailZ_mrg by (auto; lia).
  assert (r * (en - w) <= r * (en - nx)) by (apply Z.mul_le_mono_nonneg_l; lia). lia.
Qed.

(** ** Rates *)
Lemma per_Some r n c : per r n = Some c -> c = r * n.
Proof.
  unfold per. intros H. unbind H as d E. apply dratio256_Some in E. destruct E as (_ & -> & _).
  apply dmul256_Some in H. destruct H as (-> & _). rewrite Z.div_1_r.
  rewrite Z.mul_assoc. apply Z.div_mul. discriminate.
Qed.

Lemma scan_spec now l : forall next coll c nx act,
  scan now next coll l = Some (c, nx, act) -> srt l -> Forall (fun p => next < fst p) l ->
  next <= now ->
  next <= nx <= now /\
  match act with
  | None => c = coll + tailZ next l /\ Forall (fun p => fst p <= now) l
  | Some (ts, r) =>
      now < ts /\ In (ts, r) l /\ c + r * (ts - nx) + tailZ ts (after ts l) = coll + tailZ next l /\
      Forall (fun p => fst p <= now \/ ts <= fst p) l
  end.
Proof.
  induction l as [|[ts r] t IH]; intros next coll c nx act H S F L; simpl in H.
  - injection H as <- <- <-. split; [lia|]. simpl. split; [lia|constructor].
  - destruct S as [Hs S]. inversion F; subst. simpl in H2. destruct (Z.ltb_spec now ts).
    + injection H as <- <- <-. split; [lia|]. split; auto. split; [left; auto|]. split.
      * simpl. rewrite Z.ltb_irrefl. rewrite after_all by auto. lia.
      * constructor; simpl; [lia|]. rewrite Forall_forall in *. intros p Hp. specialize (Hs _ Hp). lia.
    + unbind H as d E. apply sub64_Some in E. destruct E as (-> & _). unbind H as c1 E.
      apply per_Some in E. subst c1. unbind H as c2 E. apply add256_Some in E. destruct E as (-> & _).
      specialize (IH _ _ _ _ _ H S Hs ltac:(lia)). destruct IH as [B IH]. split; [lia|].
      destruct act as [[ts' r']|].
      * destruct IH as (A1 & A2 & A3 & A4). split; auto. split; [right; auto|]. split.
        -- simpl. assert (ts < ts') by lia.
           replace (ts' <? ts) with false by (symmetry; apply Z.ltb_ge; lia). lia.
        -- constructor; auto.
      * destruct IH as (A1 & A2). split; [simpl; lia|]. constructor; auto.
Qed.

Lemma tail_sum_Some prev acc l v : tail_sum prev acc l = Some v -> v = acc + tailZ prev l.
Proof.
  revert prev acc. induction l as [|[ts r] t IH]; intros prev acc H; simpl in *.
  - injection H as <-. lia.
  - unbind H as d E. apply sub64_Some in E. destruct E as (-> & _). unbind H as c1 E.
    apply per_Some in E. subst c1. unbind H as c2 E. apply add256_Some in E. destruct E as (-> & _).
    apply IH in H. lia.
Qed.
