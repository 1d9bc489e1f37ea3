(** Incentives: exact amounts. *)
From Coq Require Import ZArith Lia Bool List Permutation.
From Verif Require Import Num Amap Ledger IncentivesModel IncentivesSpec IncentivesSched IncentivesPool
  IncentivesPay IncentivesOps IncentivesInv IncentivesStep IncentivesProofs.
Import ListNotations.
Open Scope Z_scope.

(** ** Emission *)
Lemma pieces_future t l : forall prev, t <= prev -> Forall (fun p => t <= fst p) l -> emitted_pieces t prev l = 0.
Proof.
  induction l as [|[ts r] l IH]; simpl; auto. intros prev L F. inversion F; subst. simpl in *.
  rewrite IH; auto. rewrite !Z.min_l by lia. lia.
Qed.
Lemma scan_emitted t l : forall next coll c nx act, scan t next coll l = Some (c, nx, act) ->
  srt l -> Forall (fun p => next < fst p) l -> next <= t ->
  c + match act with Some (_, r) => r * (t - nx) | None => 0 end = coll + emitted_pieces t next l.
Proof.
  induction l as [|[ts r] l IH]; intros next coll c nx act H S F L; simpl in H.
  - injection H as <- <- <-. simpl. lia.
  - destruct S as [S1 S2]. inversion F; subst. simpl in *. destruct (Z.ltb_spec t ts).
    + injection H as <- <- <-. rewrite pieces_future.
      * rewrite Z.min_l, Z.min_r by lia. lia.
      * lia.
      * eapply Forall_impl; [|exact S1]. simpl. intros. lia.
    + unbind H as d E. apply sub64_Some in E. destruct E as (-> & _). unbind H as c0 E. apply per_Some in E. subst c0.
      unbind H as c1 E. apply add256_Some in E. destruct E as (-> & _).
      rewrite (IH _ _ _ _ _ H S2 S1 ltac:(lia)). rewrite !Z.min_r by lia. lia.
Qed.
Lemma upd_one_emitted t lst total sch x a nx x' gone :
  upd_one t lst total sch x = Some (x', gone) -> rw x = RExt a nx ->
  lst < t -> 0 < total -> okR lst x -> ok_sch sch ->
  idx x' = idx x + (orph x + emitted lst t (rps x) nx sch) / total /\ orph x' = 0.
Proof.
  intros H R L T K [S N]. pose proof K as (O1 & O2 & O3 & O4).
  assert (SA : srt (after nx sch)) by (apply srt_after; auto).
  assert (FA : Forall (fun p => nx < fst p) (after nx sch))
    by (apply Forall_forall; intros p Hp; apply in_after in Hp; tauto).
  rewrite R in O4. specialize (O4 eq_refl). simpl in O4.
  unfold emitted. fold (after nx sch).
  assert (G : forall y coll, accrue total y coll = Some x' -> orph y = orph x -> idx y = idx x ->
              coll = rps x * (Z.min t nx - lst) + emitted_pieces t nx (after nx sch) ->
              idx x' = idx x + (orph x + (rps x * (Z.min t nx - lst) + emitted_pieces t nx (after nx sch))) / total /\ orph x' = 0).
  { intros y coll Ha Eo Ei ->. unfold accrue in Ha. unbind Ha as b E. apply add256_Some in E. destruct E as (-> & _).
    destruct (Z.eqb_spec total 0); [lia|].
    unbind Ha as t0 E. apply dratio256_Some in E. destruct E as (_ & -> & _).
    unbind Ha as q E. apply ddiv256_Some in E. destruct E as (_ & -> & _). rewrite div_dec in Ha by lia.
    unbind Ha as i E. apply add256_Some in E. destruct E as (-> & _). injection Ha as <-. simpl.
    rewrite Eo, Ei. auto. }
  unfold upd_one in H. rewrite R in H. destruct (Z.leb_spec nx t).
  - unbind H as d E. apply sub64_Some in E. destruct E as (-> & _). unbind H as c0 E. apply per_Some in E. subst c0.
    unbind H as [[c1 n1] act] E. pose proof (scan_emitted _ _ _ _ _ _ _ E SA FA ltac:(auto)) as Q.
    rewrite Z.min_r in * by lia. destruct act as [[ts r]|].
    + unbind H as c2 E2. apply per_Some in E2. subst c2. unbind H as c E2. apply add256_Some in E2.
      destruct E2 as (-> & _). unbind H as y E2. injection H as -> _.
      apply (G _ _ E2); auto.
    + unbind H as y E2. injection H as -> _. apply (G _ _ E2); auto. lia.
  - unbind H as c E. apply per_Some in E. subst c. unbind H as y E2. injection H as -> _.
    apply (G _ _ E2); auto. rewrite Z.min_l by lia. rewrite pieces_future; [lia|lia|].
    eapply Forall_impl; [|exact FA]. simpl. intros. lia.
Qed.

(** ** Exact payouts per asset *)
Definition uiA (A : Z) (ui : list (rtype * Z)) : Z := match u_find (RExt A 0) ui with Some i => i | None => 0 end.
Fixpoint fin_val (amt : Z) (fs : list Z) : Z :=
  match fs with [] => 0 | f :: r => amt * f / DEC + fin_val amt r end.
Fixpoint fin_ok (amt : Z) (fs : list Z) : Prop :=
  match fs with [] => True | f :: r => credit f amt <> None /\ fin_ok amt r end.
Definition first_ok (amt ui : Z) (fs : list Z) : Prop :=
  match fs with [] => True | f :: r => sub256 f ui <> None /\ credit (f - ui) amt <> None /\ fin_ok amt r end.
Definition first_val (amt ui : Z) (fs : list Z) : Z :=
  match fs with [] => 0 | f :: r => amt * (f - ui) / DEC + fin_val amt r end.

Lemma claim_fin_val A amt ui l : forall seen o, claim_fin amt ui seen l = Some o ->
  paidA A o = if mem A seen then fin_val amt (fl A l) else first_val amt (uiA A ui) (fl A l).
Proof.
  induction l as [|[a f] r IH]; intros seen o H; simpl in H.
  - injection H as <-. unfold paidA. simpl. destruct (mem A seen); auto.
  - unbind H as v E. unbind H as t E2. injection H as <-. specialize (IH _ _ E2). simpl mem in IH.
    unfold paidA, fl in *. simpl. rewrite (Z.eqb_sym A a) in IH. destruct (Z.eqb_spec a A).
    + subst. simpl. simpl in IH. destruct (mem A seen).
      * apply credit_Some in E. lia.
      * unbind E as d Ed. apply sub256_Some in Ed. destruct Ed as (-> & B). apply credit_Some in E.
        unfold uiA. lia.
    + simpl in IH. exact IH.
Qed.
Lemma claim_fin_def amt ui l : forall seen, (exists o, claim_fin amt ui seen l = Some o) <->
  forall a, if mem a seen then fin_ok amt (fl a l) else first_ok amt (uiA a ui) (fl a l).
Proof.
  induction l as [|[a f] r IH]; intros seen; simpl claim_fin.
  - split; [intros _ b; destruct (mem b seen); simpl; auto|eauto].
  - assert (Q : forall b, fl b ((a, f) :: r) = if a =? b then f :: fl b r else fl b r).
    { intros b. unfold fl. simpl. destruct (a =? b); auto. }
    assert (M : forall b, mem b (a :: seen) = (a =? b) || mem b seen) by (intros b; simpl; rewrite Z.eqb_sym; auto).
    split.
    + intros (o & H) b. unbind H as v E. unbind H as t E2.
      assert (K : exists o, claim_fin amt ui (a :: seen) r = Some o) by eauto.
      rewrite IH in K. specialize (K b). rewrite M in K. rewrite Q.
      destruct (Z.eqb_spec a b); simpl in K; auto. subst b.
      destruct (mem a seen).
      * simpl. split; auto. congruence.
      * unbind E as d Ed. simpl. unfold uiA. split; [congruence|].
        apply sub256_Some in Ed. destruct Ed as (-> & _). split; auto. congruence.
    + intros H.
      assert (K : exists o, claim_fin amt ui (a :: seen) r = Some o).
      { apply IH. intros b. specialize (H b). rewrite Q in H. rewrite M. destruct (Z.eqb_spec a b); simpl; auto.
        subst. destruct (mem b seen); simpl in H; tauto. }
      destruct K as [t E]. specialize (H a). rewrite Q, Z.eqb_refl in H. rewrite E.
      destruct (mem a seen); simpl in H.
      * destruct (credit f amt); [simpl; eauto|tauto].
      * unfold uiA in H. destruct H as (H1 & H2 & _).
        destruct (sub256 f _) as [d|] eqn:Ed; [|tauto]. simpl. apply sub256_Some in Ed. destruct Ed as (-> & _).
        destruct (credit _ amt); [simpl; eauto|tauto].
Qed.
Lemma calc_all_val A u rs : forall o, calc_all u rs = Some o -> NoDup (exts rs) ->
  match find_ext A rs with
  | None => paidA A (ext_part o) = 0
  | Some x => calc_one u x = Some (paidA A (ext_part o))
  end.
Proof.
  induction rs as [|r s IH]; intros o H N; simpl in H.
  - injection H as <-. reflexivity.
  - unbind H as v E. unbind H as t E2. injection H as <-. unfold exts in N. simpl in N. unfold ext_part. simpl.
    destruct (rw r) as [a|a n] eqn:Er; simpl.
    + apply (IH _ eq_refl). exact N.
    + simpl in N. rewrite Er in N. simpl in N. inversion N as [|? ? Na Ns]; subst.
      specialize (IH _ eq_refl Ns). unfold paidA, fl in *. simpl. fold (ext_part t).
      destruct (Z.eqb_spec a A); auto. subst. apply find_ext_exts in Na. rewrite Na in IH. simpl. rewrite E.
      f_equal. lia.
Qed.

(** ** What an up-to-date user is owed *)
Lemma u_find_map A rs x : NoDup (exts rs) -> find_ext A rs = Some x ->
  u_find (RExt A 0) (map (fun ri => (rw ri, idx ri)) rs) = Some (idx x).
Proof.
  induction rs as [|r s IH]; simpl; [discriminate|]. intros N H. unfold exts in N. simpl in N.
  destruct (rw r) as [a|a n] eqn:Er.
  - simpl. apply IH; auto.
  - simpl in N. rewrite Er in N. simpl in N. inversion N; subst. simpl. destruct (Z.eqb_spec a A).
    + subst. congruence.
    + apply IH; auto.
Qed.
Lemma fins_seen A p u : wf A p -> claimed u = last (pl p) -> after (claimed u) (fins p) = [].
Proof.
  intros W E. apply after_none. eapply Forall_impl; [|exact (w_fin _ _ W)]. simpl. intros x [H _]. lia.
Qed.
Lemma pending_exact A B T e s lp who p u ext prot : inv B T s -> 0 <= T ->
  find lp (lps s) = Some p -> find who (users p) = Some u ->
  claimed u = last (pl p) -> uidx u = map (fun ri => (rw ri, idx ri)) (rewards (pl p)) ->
  last (pl p) < now e -> 0 < total_lp (pl p) ->
  pending e lp who s = Some (ext, prot) ->
  sum_of A ext =
    match find_ext A (rewards (pl p)) with
    | None => 0
    | Some x => amount u * ((orph x + emitted (last (pl p)) (now e) (rps x) (next_of (rw x)) (sched_of A (scheds p)))
                            / total_lp (pl p)) / DEC
    end.
Proof.
  intros I T0 Ep Eu Ec Ei L Tp H. pose proof (i_lps _ _ _ I) as Q. rewrite Forall_forall in Q.
  destruct (Q _ (find_in _ _ _ Ep)) as [W _]. simpl in W. clear Q.
  unfold pending in H. rewrite Ep, Eu in H. unbind H as [q rem] U. rewrite sum_of_paid.
  unfold update_rewards in U. destruct (Z.leb_spec (now e) (last (pl p))); [lia|].
  unbind U as [rs rm] E. injection U as <- <-.
  destruct (upd_all_spec _ _ _ _ _ _ _ E L ltac:(lia) (w_ext _ _ W) (w_rw _ _ W) (w_sch _ _ W))
    as (I1 & I2 & I3 & I4 & I5 & I6 & I7 & I8 & I9).
  unfold due in H. unbind H as fin E1. unbind H as act E2. unbind H as pr E3. injection H as <- <-.
  fold (ext_part act). rewrite paidA_app.
  pose proof (claim_fin_val A _ _ _ _ _ E1) as K1. simpl mem in K1. cbv iota in K1.
  pose proof (calc_all_val A _ _ _ E2 I1) as K2. specialize (I9 A). cbn [rewards] in *.
  unfold unseen in K1. rewrite (fins_seen _ _ _ W Ec) in K1. simpl in K1.
  assert (EF : fl A (map (fun x => (fst x, fst (snd x))) rm) = map (fun x => fst (snd x)) (filter (fun x => fst x =? A) rm))
    by apply fl_rem.
  rewrite EF in K1.
  destruct (find_ext A (rewards (pl p))) as [x|] eqn:Ex.
  - destruct I9 as (x' & gone & U1 & U2).
    destruct (find_ext_in _ _ _ Ex) as [Hx [n Er]].
    destruct (upd_one_emitted _ _ _ _ _ _ _ _ _ U1 Er L Tp) as [V1 V2].
    { pose proof (w_rw _ _ W) as F. rewrite Forall_forall in F. auto. }
    { apply (w_sch _ _ W). }
    rewrite Er. cbn [next_of].
    assert (Eui : uiA A (uidx u) = idx x) by (unfold uiA; rewrite Ei, (u_find_map A _ _ (w_ext _ _ W) Ex); auto).
    destruct gone.
    + destruct U2 as [U2 U3]. rewrite U3 in K1. simpl in K1. rewrite U2 in K2. rewrite K1, K2, Eui, V1.
      rewrite !Z.add_0_r. f_equal. f_equal. lia.
    + destruct U2 as [U2 U3]. rewrite U3 in K1. simpl in K1. rewrite U2 in K2. rewrite K1.
      unfold calc_one in K2.
      assert (Rx : exists m, rw x' = RExt A m) by (apply find_ext_in in U2; tauto).
      destruct Rx as [m Rx]. rewrite Rx in K2. cbn [uidx amount] in K2. rewrite (u_find_any A m 0) in K2.
      rewrite u_find_noreset in K2.
      2:{ apply mem_nIn. intros Hin. unfold unseen in Hin. rewrite (fins_seen _ _ _ W Ec) in Hin. simpl in Hin.
          apply in_map_iff in Hin. destruct Hin as (y & Ey & Hy). apply in_map_iff in Hy. destruct Hy as (z & <- & Hz).
          simpl in Ey. assert (In z []); [|auto]. rewrite <- U3. apply filter_In. split; auto. apply Z.eqb_eq. auto. }
      unfold uiA in Eui. rewrite Ei in *. rewrite (u_find_map A _ _ (w_ext _ _ W) Ex) in K2.
      assert (0 <= (orph x + emitted (last (pl p)) (now e) (rps x) n (sched_of A (scheds p))) / total_lp (pl p)).
      { assert (idx x <= idx x'); [|lia].
        destruct (upd_one_ext _ _ _ _ _ _ _ _ _ U1 Er L ltac:(lia)) as (d & cl & D1 & _ & D2 & _).
        - pose proof (w_rw _ _ W) as F. rewrite Forall_forall in F. auto.
        - apply (w_sch _ _ W).
        - apply (w_sch _ _ W).
        - lia. }
      destruct (Z.ltb_spec (idx x') (idx x)); [lia|]. apply credit_Some in K2. rewrite K2, V1.
      rewrite Z.add_0_l. f_equal. f_equal. lia.
  - destruct I9 as [U2 U3]. rewrite U3 in K1. simpl in K1. rewrite U2 in K2. lia.
Qed.

(** The protocol reward. *)
Lemma find_int_none rs : length (filter (fun x => negb (is_ext (rw x))) rs) = O -> find_int rs = None.
Proof. unfold find_int. induction rs as [|x r IH]; simpl; auto. destruct (negb _); [discriminate|auto]. Qed.
Lemma calc_all_int u rs : forall o, calc_all u rs = Some o ->
  (length (filter (fun x => negb (is_ext (rw x))) rs) <= 1)%nat ->
  match find_int rs with
  | None => map snd (filter (fun x => negb (fst (fst x))) o) = []
  | Some x => exists v, calc_one u x = Some v /\ map snd (filter (fun x => negb (fst (fst x))) o) = [v]
  end.
Proof.
  induction rs as [|r s IH]; intros o H N; simpl in H.
  - injection H as <-. reflexivity.
  - unbind H as v E. unbind H as t E2. injection H as <-. simpl in N. unfold find_int. simpl.
    destruct (is_ext (rw r)) eqn:Er; simpl in *.
    + apply (IH _ eq_refl N).
    + assert (N0 : length (filter (fun x => negb (is_ext (rw x))) s) = O) by lia.
      specialize (IH _ eq_refl ltac:(lia)). rewrite (find_int_none _ N0) in IH. rewrite IH. eauto.
Qed.
Lemma u_find_int a rs x : find_int rs = Some x ->
  u_find (RInt a) (map (fun ri => (rw ri, idx ri)) rs) = Some (idx x).
Proof.
  unfold find_int. induction rs as [|r s IH]; simpl; [discriminate|].
  destruct (rw r) as [b|b n] eqn:Er; simpl; auto. intros [= <-]. auto.
Qed.
Lemma u_find_reset_int a fin l : u_find (RInt a) (reset fin l) = u_find (RInt a) l.
Proof.
  unfold reset. induction l as [|[r i] t IH]; simpl; auto.
  destruct r as [b|b n]; simpl; auto. destruct (mem b fin); simpl; auto.
Qed.
Lemma find_int_is rs x : find_int rs = Some x -> In x rs /\ is_ext (rw x) = false.
Proof.
  unfold find_int. intros H. apply find_some in H. rewrite negb_true_iff in H. auto.
Qed.
Lemma prot_exact A T e s lp who p u ext prot : inv A T s -> 0 <= T ->
  find lp (lps s) = Some p -> find who (users p) = Some u ->
  claimed u = last (pl p) -> uidx u = map (fun ri => (rw ri, idx ri)) (rewards (pl p)) ->
  last (pl p) < now e -> 0 < total_lp (pl p) ->
  pending e lp who s = Some (ext, prot) ->
  prot = match find_int (rewards (pl p)) with
         | None => 0
         | Some x => amount u * ((orph x + rps x * (now e - last (pl p))) / total_lp (pl p)) / DEC
         end.
Proof.
  intros I T0 Ep Eu Ec Ei L Tp H. pose proof (i_lps _ _ _ I) as Q. rewrite Forall_forall in Q.
  destruct (Q _ (find_in _ _ _ Ep)) as [W _]. simpl in W. clear Q.
  unfold pending in H. rewrite Ep, Eu in H. unbind H as [q rem] U.
  unfold update_rewards in U. destruct (Z.leb_spec (now e) (last (pl p))); [lia|].
  unbind U as [rs rm] E. injection U as <- <-.
  destruct (upd_all_spec _ _ _ _ _ _ _ E L ltac:(lia) (w_ext _ _ W) (w_rw _ _ W) (w_sch _ _ W))
    as (I1 & I2 & I3 & I4 & I5 & I6 & I7 & I8 & I9).
  unfold due in H. unbind H as fin E1. unbind H as act E2. unbind H as pr E3. injection H as <- <-.
  cbn [rewards] in *. pose proof (calc_all_int _ _ _ E2) as K. rewrite I7 in K. specialize (K (w_int _ _ W)).
  destruct (find_int (rewards (pl p))) as [x|] eqn:Ex.
  - destruct I8 as (x' & gone & U1 & U2). rewrite U2 in K. destruct K as (v & K1 & K2). rewrite K2 in E3.
    simpl in E3. unbind E3 as w E4. apply add128_Some in E4. destruct E4 as (-> & _). injection E3 as <-.
    destruct (find_int_is _ _ Ex) as [Hx Hr].
    pose proof (w_rw _ _ W) as F. rewrite Forall_forall in F.
    destruct (upd_one_int _ _ _ _ _ _ _ U1 Hr L ltac:(lia) (F _ Hx)) as (_ & R1 & R2 & d & D1 & D2 & D3 & D4 & D5 & D6).
    destruct (D6 Tp) as [D7 _]. unfold calc_one in K1. rewrite R1 in K1. destruct (rw x) as [a|]; [|discriminate].
    cbn [uidx amount] in K1. rewrite u_find_reset_int, Ei, (u_find_int a _ _ Ex) in K1.
    destruct (Z.ltb_spec (idx x') (idx x)); [lia|]. apply credit_Some in K1. rewrite D2, D7 in K1.
    rewrite K1. f_equal. f_equal. lia.
  - rewrite I8 in K. rewrite K in E3. simpl in E3. injection E3 as <-. auto.
Qed.
