(** Incentives: protocol rewards paid never exceed the emission speed times the time. *)
From Coq Require Import ZArith Lia Bool List Permutation.
From Verif Require Import Num Amap Ledger IncentivesModel IncentivesSpec IncentivesSched IncentivesPool
  IncentivesPay IncentivesOps IncentivesInv IncentivesStep IncentivesProofs IncentivesExact IncentivesPending
  IncentivesMove IncentivesEmission.
Import ListNotations.
Open Scope Z_scope.

(** ** The protocol reward of a pool *)
Definition ip (rs : list rinfo) : list rinfo := filter (fun x => negb (is_ext (rw x))) rs.
Lemma find_int_ip rs : find_int rs = hd_error (ip rs).
Proof. unfold find_int, ip. induction rs as [|x r IH]; simpl; auto. destruct (negb _); auto. Qed.
Definition iidx (rs : list rinfo) : Z := match find_int rs with Some x => idx x | None => 0 end.
Definition iorph (rs : list rinfo) : Z := match find_int rs with Some x => orph x | None => 0 end.
Definition uI (u : uinfo) : Z := match u_find (RInt 0) (uidx u) with Some i => i | None => 0 end.
Lemma u_find_int_any a b l : u_find (RInt a) l = u_find (RInt b) l.
Proof. induction l as [|[r i] t IH]; simpl; auto. destruct r; simpl; auto. Qed.
(** What is still to be paid by [t], times 10^18. *)
Definition JU (us : amap uinfo) (i : Z) : Z := sumf (fun u => amount u * (i - uI u)) us.
Definition JP (q : pool) (us : amap uinfo) (t : Z) : Z :=
  JU us (iidx (rewards q)) + iorph (rewards q) + irate (rewards q) * (t - last q).

Record jok (t : Z) (q : pool) (us : amap uinfo) : Prop := {
  j_tot : total_lp q = sumf amount us;
  j_us : Forall (fun x => 0 <= amount (snd x) /\ 0 <= uI (snd x) <= iidx (rewards q)) us;
  j_nd : NoDup (keys us);
  j_int : 0 <= iidx (rewards q) /\ 0 <= iorph (rewards q) /\ 0 <= irate (rewards q);
  j_one : (length (ip (rewards q)) <= 1)%nat;
  j_last : last q <= t
}.
Lemma jok_empty t : 0 <= t -> jok t (mkPool 0 [] 0) [].
Proof. intros H. constructor; simpl; auto; try constructor; try lia; unfold iidx, iorph, irate; simpl; lia. Qed.
Lemma jok_later t t' q us : jok t q us -> t <= t' -> jok t' q us.
Proof. intros [H1 H2 H3 H4 H5 H6] L. constructor; auto. lia. Qed.
Lemma JU_up us i j : JU us j = JU us i + (j - i) * sumf amount us.
Proof. unfold JU. induction us as [|[k u] r IH]; cbn [sumf]; [lia|]. rewrite IH. ring. Qed.
Lemma JU_nn us i : Forall (fun x => 0 <= amount (snd x) /\ 0 <= uI (snd x) <= i) us -> 0 <= JU us i.
Proof.
  unfold JU. induction 1 as [|[k u] r (A & B & C) _ IH]; cbn [sumf]; [lia|]. simpl in A, B, C.
  assert (0 <= amount u * (i - uI u)) by (apply Z.mul_nonneg_nonneg; lia). lia.
Qed.

(** Accrual. *)
Lemma upd_all_ip t l n sc rs : forall rs' rem, upd_all t l n sc rs = Some (rs', rem) -> l < t -> 0 <= n ->
  (length (ip rs) <= 1)%nat ->
  match ip rs with
  | [] => ip rs' = []
  | x :: _ => exists x' g, upd_one t l n (sched_of (asset_of (rw x)) sc) x = Some (x', g) /\ ip rs' = [x']
  end.
Proof.
  assert (Z0 : forall rs rs' rem, upd_all t l n sc rs = Some (rs', rem) -> ip rs = [] -> ip rs' = []).
  { clear. unfold ip. induction rs as [|x r IH]; intros rs' rem H E; simpl in H.
    - injection H as <- <-. auto.
    - unbind H as [y g] E1. unbind H as [k rm] E2. injection H as H. simpl in E.
      pose proof (upd_one_isext _ _ _ _ _ _ _ E1) as Ie. destruct (is_ext (rw x)) eqn:Ex; simpl in E; [|discriminate].
      specialize (IH _ _ eq_refl E). destruct g; injection H as <- <-; auto. simpl. rewrite Ie. auto. }
  induction rs as [|x r IH]; intros rs' rem H L T O; simpl in H.
  - injection H as <- <-. simpl. auto.
  - unbind H as [y g] E. unbind H as [k rm] E2. injection H as H.
    pose proof (upd_one_isext _ _ _ _ _ _ _ E) as Ie. unfold ip in *. simpl in O |- *. destruct (is_ext (rw x)) eqn:Ex; simpl in *.
    + specialize (IH _ _ eq_refl L T O). destruct g; injection H as <- <-; auto. simpl. rewrite Ie. auto.
    + destruct (upd_one_irate _ _ _ _ _ _ _ E Ex) as (-> & Iy & Ry). injection H as <- <-. simpl. rewrite Iy.
      exists y, false. split; auto. simpl. f_equal. eapply Z0; eauto.
      destruct (filter (fun x0 => negb (is_ext (rw x0))) r); auto. simpl in O. lia.
Qed.
Lemma update_J t T p q rem : update_rewards t p = Some (q, rem) -> jok T (pl p) (users p) -> T <= t ->
  jok t q (users p) /\ last q = t /\ JP q (users p) t <= JP (pl p) (users p) t /\
  iidx (rewards (pl p)) <= iidx (rewards q).
Proof.
  intros H [K1 K2 K3 K4 K5 K6] L. unfold update_rewards in H. destruct (Z.leb_spec t (last (pl p))).
  - injection H as <- <-. repeat split; auto; try lia.
  - unbind H as [rs rm] E. injection H as <- <-. cbn [last rewards total_lp].
    assert (N0 : 0 <= total_lp (pl p)).
    { rewrite K1. clear - K2. induction K2 as [|[k u] r [A _] _ IH]; simpl in *; lia. }
    pose proof (upd_all_ip _ _ _ _ _ _ _ E ltac:(lia) N0 K5) as Q.
    pose proof (upd_all_irate _ _ _ _ _ _ _ E) as R.
    unfold JP. cbn [rewards last]. rewrite R.
    assert (G : exists d, 0 <= d /\ iidx rs = iidx (rewards (pl p)) + d /\ 0 <= iorph rs /\
               total_lp (pl p) * d + iorph rs <= iorph (rewards (pl p)) + irate (rewards (pl p)) * (t - last (pl p)) /\
               (length (ip rs) <= 1)%nat).
    { unfold iidx, iorph, irate in *. clear R. rewrite (find_int_ip (rewards (pl p))) in *. rewrite (find_int_ip rs) in *.
      destruct (ip (rewards (pl p))) as [|x xs] eqn:Ex.
      - rewrite Q. simpl in *. exists 0. repeat split; auto; lia.
      - destruct Q as (x' & g & Q1 & Q2). rewrite Q2. simpl in *.
        assert (Ix : is_ext (rw x) = false).
        { assert (X : In x (ip (rewards (pl p)))) by (rewrite Ex; simpl; auto). apply filter_In in X. rewrite negb_true_iff in X. tauto. }
        destruct (upd_one_int _ _ _ _ _ _ _ Q1 Ix ltac:(lia) N0) as (_ & _ & _ & d & D1 & D2 & D3 & D4 & _).
        { repeat split; try lia. congruence. }
        exists d. repeat split; auto; lia. }
    destruct G as (d & D1 & D2 & D3 & D4 & D5).
    split; [constructor; cbn [rewards total_lp last]; auto; try lia|].
    + rewrite Forall_forall in *. intros x Hx. specialize (K2 x Hx). lia.
    + split; [auto|]. split; [|lia]. rewrite D2, (JU_up _ (iidx (rewards (pl p)))), <- K1.
      replace (iidx (rewards (pl p)) + d - iidx (rewards (pl p))) with d by lia. nia.
Qed.

(** Changes that keep the protocol reward up to its rate. *)
Record ilike (q q' : pool) : Prop := {
  il_tot : total_lp q' = total_lp q;
  il_last : last q' = last q;
  il_idx : iidx (rewards q') = iidx (rewards q);
  il_orph : iorph (rewards q') = iorph (rewards q);
  il_rate : 0 <= irate (rewards q) -> 0 <= irate (rewards q');
  il_one : (length (ip (rewards q)) <= 1)%nat -> (length (ip (rewards q')) <= 1)%nat
}.
Lemma ilike_J t q q' us : ilike q q' -> last q = t -> jok t q us -> jok t q' us /\ JP q' us t = JP q us t.
Proof.
  intros [L1 L2 L3 L4 L5 L6] E [K1 K2 K3 K4 K5 K6]. split.
  - constructor; auto; try congruence; try lia.
    rewrite L3. auto.
  - unfold JP. rewrite L2, L3, L4, E. lia.
Qed.
Lemma same_ip q q' : total_lp q' = total_lp q -> last q' = last q -> ip (rewards q') = ip (rewards q) -> ilike q q'.
Proof.
  intros H1 H2 H3. constructor; auto; unfold iidx, iorph, irate; rewrite ?find_int_ip, ?H3; auto.
Qed.
Lemma upd_int_ip g rs : (forall x, is_ext (rw x) = false -> is_ext (rw (g x)) = false) ->
  ip (upd_int g rs) = match ip rs with [] => [] | x :: r => g x :: r end.
Proof.
  intros K. unfold ip. induction rs as [|x r IH]; auto. cbn [upd_int]. simpl. destruct (is_ext (rw x)) eqn:E; simpl.
  - rewrite E. simpl. exact IH.
  - rewrite (K _ E). auto.
Qed.
Lemma disable_like q q' : disable_astro q = Some q' -> ilike q q'.
Proof.
  intros H. pose proof (disable_irate _ _ H) as R. unfold disable_astro in H. injection H as <-. cbn [rewards] in *.
  constructor; cbn [rewards total_lp last]; auto; try lia; unfold iidx, iorph; rewrite ?find_int_ip, ?upd_int_ip by auto;
    destruct (ip (rewards q)); simpl; auto.
Qed.
Lemma set_like a r t al q q' : set_astro a r t al q = Some q' -> ilike q q'.
Proof.
  intros H. pose proof (set_irate _ _ _ _ _ _ H) as R. unfold set_astro in H. unbind H as n E. unbind H as d E2. injection H as <-.
  apply mul128_Some in E. destruct E as (-> & _). apply dratio256_Some in E2. destruct E2 as (_ & _ & B).
  cbn [rewards] in *. constructor; cbn [rewards total_lp last]; auto.
  - unfold iidx. rewrite !find_int_ip. destruct (existsb _ _) eqn:Ex; [rewrite upd_int_ip by auto; destruct (ip (rewards q)); auto|].
    unfold ip. rewrite filter_app. simpl. apply ints_exists in Ex. unfold ints in Ex.
    destruct (filter _ (rewards q)); auto; discriminate.
  - unfold iorph. rewrite !find_int_ip. destruct (existsb _ _) eqn:Ex; [rewrite upd_int_ip by auto; destruct (ip (rewards q)); auto|].
    unfold ip. rewrite filter_app. simpl. apply ints_exists in Ex. unfold ints in Ex.
    destruct (filter _ (rewards q)); auto; discriminate.
  - intros _. rewrite (proj1 R). lia.
  - destruct (existsb _ _) eqn:Ex; [rewrite upd_int_ip by auto; destruct (ip (rewards q)); auto|].
    unfold ip. rewrite filter_app. simpl. apply ints_exists in Ex. unfold ints in Ex.
    destruct (filter _ (rewards q)); auto; discriminate.
Qed.
Lemma incentivize_ip ast a ne en r rs sch rs' sch' : incentivize_pool ast a ne en r rs sch = Some (rs', sch') -> ip rs' = ip rs.
Proof.
  assert (UE : forall f, (forall x n, rw x = RExt a n -> exists m, rw (f x) = RExt a m) -> ip (upd_ext a f rs) = ip rs).
  { intros f K. unfold ip. induction rs as [|x t IH]; simpl; auto. destruct (rw x) as [b|b n] eqn:E.
    - simpl. rewrite E. simpl. congruence.
    - destruct (Z.eqb_spec b a).
      + subst. destruct (K _ _ E) as [m Em]. simpl. rewrite Em. auto.
      + simpl. rewrite E. simpl. auto. }
  intros H. unfold incentivize_pool in H. destruct (find_ext a rs) as [x|].
  - unbind H as r' E. destruct (_ <=? _) in H.
    + injection H as <- <-. rewrite UE; auto. intros; eexists; reflexivity.
    + unbind H as sv E2. injection H as <- <-. rewrite UE; auto. intros ? ? Hy; eexists; cbn [rw]; exact Hy.
  - unguard H G. injection H as <- <-. unfold ip. rewrite filter_app. simpl. apply app_nil_r.
Qed.
Lemma deregister_like a b q sch q' x sc v : deregister a b q sch = Some (q', x, sc, v) -> ilike q q'.
Proof.
  unfold deregister. intros H. unbind H as y Ey. unbind H as r0 E0. unbind H as [r1 s2] E1. unbind H as r2 E2.
  unbind H as w E3. injection H as <- <- <- <-. apply same_ip; auto. cbn [rewards]. unfold ip. clear.
  induction (rewards q) as [|x t IH]; simpl; auto. destruct (rw x) as [c|c n] eqn:E; simpl; rewrite ?E; simpl; try congruence.
  destruct (c =? a); simpl; auto. rewrite E. auto.
Qed.

(** Payments. *)
Lemma due_prot q rem f u ext prot : due q rem f u = Some (ext, prot) -> (length (ip (rewards q)) <= 1)%nat ->
  0 <= amount u -> 0 <= uI u <= iidx (rewards q) -> 0 <= prot /\ prot * DEC <= amount u * (iidx (rewards q) - uI u).
Proof.
  intros H O A0 B. unfold due in H. unbind H as fin E1. unbind H as act E2. unbind H as pr E3. injection H as _ <-.
  pose proof (calc_all_int _ _ _ E2 O) as K. unfold iidx in *. destruct (find_int (rewards q)) as [x|] eqn:Ex.
  - destruct K as (v & K1 & K2). rewrite K2 in E3. simpl in E3. unbind E3 as w E4. apply add128_Some in E4.
    destruct E4 as (-> & Bw). injection E3 as <-.
    assert (V : v = amount u * (idx x - uI u) / DEC).
    { unfold calc_one in K1. destruct (find_int_is _ _ Ex) as [_ Hr]. destruct (rw x) as [b|]; [|discriminate].
      cbn [uidx amount] in K1. rewrite u_find_reset_int in K1. unfold uI in *. rewrite (u_find_int_any 0 b) in B |- *.
      destruct (u_find (RInt b) (uidx u)) as [i|].
      - destruct (Z.ltb_spec (idx x) i); [lia|]. apply credit_Some in K1. auto.
      - apply credit_Some in K1. rewrite Z.sub_0_r. auto. }
    pose proof (Z.mul_div_le (amount u * (idx x - uI u)) DEC DEC_pos) as M. rewrite <- V in M. rewrite Z.add_0_l in *. split; [lia|]. rewrite Z.mul_comm. exact M.
  - rewrite K in E3. simpl in E3. injection E3 as <-. split; [lia|]. assert (uI u = 0) by lia. nia.
Qed.
Lemma uI_sync a q : uI (sync a q) = iidx (rewards q).
Proof.
  unfold uI, sync, iidx. cbn [uidx]. destruct (find_int (rewards q)) as [x|] eqn:E.
  - rewrite (u_find_int 0 _ _ E). auto.
  - assert (G : u_find (RInt 0) (map (fun ri => (rw ri, idx ri)) (rewards q)) = None); [|rewrite G; auto].
    unfold find_int in E. induction (rewards q) as [|x r IH]; simpl in *; auto.
    destruct (rw x) as [b|b n] eqn:R; simpl in *; [discriminate|auto].
Qed.
Lemma Forall_find {V} (P : Z * V -> Prop) k v (m : amap V) : Forall P m -> find k m = Some v -> P (k, v).
Proof. intros F E. rewrite Forall_forall in F. apply F. apply find_in. auto. Qed.
Lemma Forall_put {V} (P : Z * V -> Prop) k v (m : amap V) : Forall P m -> P (k, v) -> Forall P (put k v m).
Proof. intros F H. induction F as [|[x w] r Hx F IH]; simpl; [constructor; auto|]. destruct (x =? k); constructor; auto. Qed.
Lemma Forall_del {V} (P : Z * V -> Prop) k (m : amap V) : Forall P m -> Forall P (del k m).
Proof. rewrite !Forall_forall. intros F x Hx. apply F. eapply in_del; eauto. Qed.
(** User [who] is paid and its position becomes [a]. *)
Lemma settle_J t q us who a u d : jok t q us -> 0 <= a ->
  (find who us = Some u \/ find who us = None /\ amount u = 0) ->
  d <= amount u * (iidx (rewards q) - uI u) ->
  let q' := mkPool (total_lp q + (a - amount u)) (rewards q) (last q) in
  jok t q' (put who (sync a q') us) /\ JP q' (put who (sync a q') us) t + d <= JP q us t.
Proof.
  intros [K1 K2 K3 K4 K5 K6] A0 Eu D q'.
  assert (X : match find who us with Some o => amount o | None => 0 end = amount u) by (destruct Eu as [->|[-> ->]]; auto).
  split.
  - constructor; cbn [total_lp rewards last q']; auto.
    + rewrite sumf_put, X, K1. cbn [amount sync]. lia.
    + apply Forall_put; auto. cbn [snd]. rewrite uI_sync. cbn [amount sync rewards q']. lia.
    + apply keys_put. auto.
  - unfold JP. cbn [rewards last q']. unfold JU. rewrite sumf_put, uI_sync. cbn [amount sync rewards q'].
    destruct Eu as [->|[-> Z0]]; [lia|]. rewrite Z0 in D. lia.
Qed.
Lemma leave_J t q us who u d : jok t q us -> find who us = Some u ->
  d <= amount u * (iidx (rewards q) - uI u) ->
  let q' := mkPool (total_lp q - amount u) (rewards q) (last q) in
  jok t q' (del who us) /\ JP q' (del who us) t + d <= JP q us t.
Proof.
  intros [K1 K2 K3 K4 K5 K6] Eu D q'. split.
  - constructor; cbn [total_lp rewards last q']; auto.
    + rewrite sumf_del, Eu by auto. lia.
    + apply Forall_del. auto.
    + apply keys_del. auto.
  - unfold JP. cbn [rewards last q']. unfold JU. rewrite sumf_del, Eu by auto. lia.
Qed.

(** ** The whole contract *)
Definition J (t : Z) (s : state) : Z := sumf (fun p => JP (pl p) (users p) t) (lps s).
Definition jall (t : Z) (s : state) : Prop := 0 <= t /\ Forall (fun x => jok t (pl (snd x)) (users (snd x))) (lps s).
Lemma jall_later t t' s : jall t s -> t <= t' -> jall t' s.
Proof. intros [T0 F] L. split; [lia|]. eapply Forall_impl; [|exact F]. simpl. intros x Hx. eapply jok_later; eauto. Qed.
Lemma jall_lps t s s' : lps s' = lps s -> jall t s -> jall t s' /\ J t s' = J t s.
Proof. intros E [T0 F]. unfold jall, J. rewrite E. auto. Qed.
Lemma jall_cur t s lp : jall t s -> jok t (pl (cur lp s)) (users (cur lp s)).
Proof.
  intros [T0 F]. unfold cur. destruct (find lp (lps s)) as [p|] eqn:E; [|apply jok_empty; auto].
  apply (Forall_find _ _ _ _ F E).
Qed.
Lemma save_J e t lp p rem s s' d : save e lp p rem s = Some s' -> jall t s -> jok t (pl p) (users p) ->
  JP (pl p) (users p) t + d <= JP (pl (cur lp s)) (users (cur lp s)) t ->
  jall t s' /\ J t s' + d <= J t s.
Proof.
  intros H [T0 F] K D. apply save_lps in H. destruct H as (f & El & _). unfold jall, J. rewrite El. split.
  - split; auto. apply Forall_put; auto.
  - rewrite sumf_put. cbn [pl users]. unfold cur in D. destruct (find lp (lps s)) as [o|]; [lia|].
    unfold JP at 2 in D. unfold JU, iidx, iorph, irate in D. simpl in D. lia.
Qed.
Lemma touch_J e c f lp s s' : (forall q q', f q = Some q' -> ilike q q') -> jall (now e) s ->
  touch e c f lp s = Some s' -> jall (now e) s' /\ J (now e) s' <= J (now e) s.
Proof.
  intros K F H. unfold touch in H. unbind H as p Ep.
  assert (Ec : cur lp s = p).
  { unfold cur. destruct (find lp (lps s)); [congruence|]. destruct c; congruence. }
  subst p. unbind H as [q rem] E. unbind H as q' E2.
  destruct (update_J _ _ _ _ _ E (jall_cur _ _ lp F) (Z.le_refl _)) as (U1 & U2 & U3 & _).
  destruct (ilike_J _ _ _ _ (K _ _ E2) U2 U1) as [V1 V2].
  destruct (save_J e (now e) lp _ rem s s' 0 H F) as [W1 W2]; cbn [pl users]; auto; [lia|]. split; auto. lia.
Qed.
Lemma touch_all_J e c f l : (forall al q q', f al q = Some q' -> ilike q q') -> forall s s', jall (now e) s ->
  touch_all e c f l s = Some s' -> jall (now e) s' /\ J (now e) s' <= J (now e) s.
Proof.
  intros K. induction l as [|[lp al] r IH]; intros s s' F H; simpl in H.
  - injection H as <-. split; auto. lia.
  - unbind H as s1 E. destruct (touch_J _ _ _ _ _ _ (K al) F E) as [F1 L1]. destruct (IH _ _ F1 H). split; auto. lia.
Qed.
Lemma pay_all_prot e to l : forall s, prot_out_sum (snd (pay_all e to s l)) = 0.
Proof.
  induction l as [|[a v] r IH]; intros s; auto. cbn [pay_all]. unfold pay. specialize (IH).
  destruct (v =? 0).
  - specialize (IH s). destruct (pay_all e to s r). simpl in *. auto.
  - destruct (_ && _); [specialize (IH (set_bal s (set (bal s) a (get (bal s) a - v))))|specialize (IH s)];
      destruct (pay_all e to _ r); simpl in *; lia.
Qed.
Lemma prot_app a b : prot_out_sum (a ++ b) = prot_out_sum a + prot_out_sum b.
Proof. unfold prot_out_sum. induction a as [|x r IH]; simpl; lia. Qed.
Lemma pay_prot_sum e to v o : pay_prot e to v = Some o -> prot_out_sum o = v.
Proof.
  unfold pay_prot. destruct (Z.eqb_spec v 0); intros H; [injection H as <-; auto|]. unguard H G. injection H as <-. simpl. lia.
Qed.
Lemma claim_each_J e who l : forall s s' x v, jall (now e) s -> claim_each e who l s = Some (s', x, v) ->
  jall (now e) s' /\ J (now e) s' + v * DEC <= J (now e) s.
Proof.
  induction l as [|lp r IH]; intros s s' x v F H; simpl in H.
  - injection H as <- <- <-. split; auto. lia.
  - unbind H as p Ep. unbind H as u Eu. unbind H as [q rem] E. unbind H as [x1 v1] E2. unbind H as s1 E3.
    unbind H as [[s2 x2] v2] E4. unbind H as pr E5. injection H as <- <- <-. apply add128_Some in E5. destruct E5 as (-> & _).
    assert (Ec : cur lp s = p) by (unfold cur; rewrite Ep; auto). subst p.
    destruct (update_J _ _ _ _ _ E (jall_cur _ _ lp F) (Z.le_refl _)) as (U1 & U2 & U3 & _).
    pose proof (Forall_find _ _ _ _ (j_us _ _ _ U1) Eu) as [A0 B0]. cbn [snd] in A0, B0.
    destruct (due_prot _ _ _ _ _ _ E2 (j_one _ _ _ U1) A0 B0) as [P0 P1].
    destruct (settle_J _ _ _ who (amount u) u (v1 * DEC) U1 A0 (or_introl Eu) P1) as [V1 V2].
    replace (mkPool (total_lp q + (amount u - amount u)) (rewards q) (last q)) with q in *
      by (destruct q; cbn; f_equal; lia).
    destruct (save_J e (now e) lp _ rem s s1 (v1 * DEC) E3 F) as [W1 W2]; cbn [pl users]; auto; try lia.
    destruct (IH _ _ _ _ W1 E4) as [X1 X2]. split; auto. lia.
Qed.
Lemma incentivize_J e lp a amt n s f s' f' o : jall (now e) s -> incentivize e lp a amt n s f = Some (s', f', o) ->
  jall (now e) s' /\ J (now e) s' <= J (now e) s /\ prot_out_sum o = 0.
Proof.
  intros F H. unfold incentivize in H. unbind H as [[ne en] r] E. unguard H G. fold (cur lp s) in H.
  unbind H as [q rem] E1. unbind H as [rs sch] E2. unbind H as [[f1 s1] o1] E3. unbind H as [f2 s2] E4.
  unbind H as s3 E5. injection H as <- <- <-.
  assert (L1 : lps s1 = lps s /\ prot_out_sum o1 = 0).
  { destruct (fee s) as [[d v]|]; [|injection E3 as <- <- <-; auto].
    destruct (_ && _) in E3; [|injection E3 as <- <- <-; auto].
    unbind E3 as g0 E6. unguard E3 G3. injection E3 as <- <- <-. auto. }
  destruct L1 as [L1 P1].
  assert (L2 : lps s2 = lps s1).
  { destruct (0 <=? a).
    - unbind E4 as g0 E6. injection E4 as <- <-. auto.
    - unguard E4 G4. injection E4 as <- <-. auto. }
  destruct (jall_lps (now e) s s2 ltac:(congruence) F) as [F2 J2].
  assert (C2 : cur lp s2 = cur lp s) by (unfold cur; rewrite L2, L1; auto).
  destruct (update_J _ _ _ _ _ E1 (jall_cur _ _ lp F) (Z.le_refl _)) as (U1 & U2 & U3 & _).
  assert (K : ilike q (mkPool (total_lp q) rs (last q))) by (apply same_ip; auto; eapply incentivize_ip; eauto).
  destruct (ilike_J _ _ _ _ K U2 U1) as [V1 V2].
  destruct (save_J e (now e) lp _ rem s2 s3 0 E5 F2) as [W1 W2]; cbn [pl users]; auto; try lia.
  - rewrite C2. lia.
  - split; auto. split; auto. lia.
Qed.
Lemma incentivize_each_J e l : forall s f s' f' o, jall (now e) s -> incentivize_each e l s f = Some (s', f', o) ->
  jall (now e) s' /\ J (now e) s' <= J (now e) s /\ prot_out_sum o = 0.
Proof.
  induction l as [|[lp [[a amt] n]] r IH]; intros s f s' f' o F H; simpl in H.
  - injection H as <- <- <-. split; auto. split; auto. lia.
  - unbind H as [[s1 f1] o1] E. unbind H as [[s2 f2] o2] E2. injection H as <- <- <-.
    destruct (incentivize_J _ _ _ _ _ _ _ _ _ _ F E) as (P1 & K1 & Q1). destruct (IH _ _ _ _ _ P1 E2) as (P2 & K2 & Q2).
    split; auto. rewrite prot_app. lia.
Qed.
Lemma relabel_J t a l : forall m m', relabel a l m = Some m' ->
  Forall (fun x => jok t (pl (snd x)) (users (snd x))) m ->
  Forall (fun x => jok t (pl (snd x)) (users (snd x))) m' /\
  sumf (fun p => JP (pl p) (users p) t) m' = sumf (fun p => JP (pl p) (users p) t) m.
Proof.
  induction l as [|[lp al] r IH]; intros m m' H F; simpl in H.
  - injection H as <-. auto.
  - unbind H as p E. unguard H G. apply IH in H.
    + destruct H as [H1 H2]. split; auto. rewrite H2, sumf_put, E. cbn [pl users].
      unfold JP, iidx, iorph, irate. cbn [rewards last]. rewrite !find_int_ip, upd_int_ip by auto.
      destruct (ip (rewards (pl p))); simpl; lia.
    + apply Forall_put; auto. cbn [snd pl users]. pose proof (Forall_find _ _ _ _ F E) as [K1 K2 K3 K4 K5 K6]. cbn [snd] in *.
      constructor; auto; cbn [rewards].
      * revert K2. unfold iidx. rewrite !find_int_ip, upd_int_ip by auto. destruct (ip (rewards (pl p))); auto.
      * revert K4. unfold iidx, iorph, irate. rewrite !find_int_ip, upd_int_ip by auto. destruct (ip (rewards (pl p))); auto.
      * rewrite upd_int_ip by auto. destruct (ip (rewards (pl p))); auto.
Qed.

Lemma step_J e sd m s s' o : jall (now e) s -> unsigned m -> step e sd m s = Some (s', o) ->
  jall (now e) s' /\ J (now e) s' + prot_out_sum o * DEC <= J (now e) s.
Proof.
  assert (Dl : forall al q q', (fun _ : Z => disable_astro) al q = Some q' -> ilike q q') by (intros ? ? ?; apply disable_like).
  assert (Sl : forall a r t al q q', set_astro a r t al q = Some q' -> ilike q q') by apply set_like.
  assert (Em : forall s a b c d, jall (now e) s -> jall (now e) (set_emission s a b c d) /\ J (now e) (set_emission s a b c d) = J (now e) s)
    by (intros; apply jall_lps; auto).
  intros F Um H. destruct m; simpl in H.
  - silent H. unfold setup_pools in E. unguard E G1. unguard E G2. unguard E G3. unbind E as s2 E1. unbind E as t E2.
    unbind E as s3 E3. injection E as <-. destruct (touch_all_J _ _ _ _ Dl _ _ F E1) as [F1 J1].
    destruct (touch_all_J _ _ _ _ (Sl _ _ _) _ _ F1 E3) as [F2 J2].
    destruct (Em s3 (aps s) t l (blocked s) F2) as [F3 J3]. split; auto. simpl. lia.
  - unfold claim in H. unguard H G. unbind H as [[s1 x] v] E. unbind H as o2 E2.
    destruct (claim_each_J _ _ _ _ _ _ _ F E) as [F1 J1].
    pose proof (pay_all_lps e sd x s1) as L2. pose proof (pay_all_prot e sd x s1) as P2.
    destruct (pay_all e sd s1 x) as [s2 o1]. injection H as <- <-. simpl in L2, P2.
    destruct (jall_lps _ _ _ L2 F1) as [F2 J2]. split; auto. rewrite prot_app, (pay_prot_sum _ _ _ _ E2). lia.
  - unfold deposit in H. unguard H Hok.
    set (s0 := set_bal s (set (bal s) lp (get (bal s) lp + amt))) in *.
    set (who := match recipient with Some r => r | None => sd end) in *.
    change (match find lp (lps s0) with Some p => p | None => empty_lp end) with (cur lp s) in H.
    destruct (jall_lps (now e) s s0 eq_refl F) as [F0 J0].
    set (u := match find who (users (cur lp s)) with Some u => u | None => mkU 0 [] (now e) end) in *.
    unbind H as [q rem] E. unbind H as [ext prot] E2. unbind H as a E3. unbind H as t E4.
    unbind H as s1 E5. unbind H as o2 E6. apply add128_Some in E3, E4. destruct E3 as (-> & _). destruct E4 as (-> & _).
    destruct (update_J _ _ _ _ _ E (jall_cur _ _ lp F) (Z.le_refl _)) as (U1 & U2 & U3 & _).
    assert (Eu : find who (users (cur lp s)) = Some u \/ find who (users (cur lp s)) = None /\ amount u = 0).
    { unfold u. destruct (find who (users (cur lp s))); auto. }
    assert (B0 : 0 <= amount u /\ 0 <= uI u <= iidx (rewards q)).
    { unfold u. destruct (find who (users (cur lp s))) as [w|] eqn:Ew.
      - pose proof (Forall_find _ _ _ _ (j_us _ _ _ U1) Ew) as K. exact K.
      - pose proof (j_int _ _ _ U1). unfold uI. simpl. lia. }
    destruct B0 as [A0 B0]. simpl in Um.
    destruct (due_prot _ _ _ _ _ _ E2 (j_one _ _ _ U1) A0 B0) as [P0 P1].
    destruct (settle_J _ _ _ who (amount u + amt) u (prot * DEC) U1 ltac:(lia) Eu P1) as [V1 V2].
    replace (total_lp q + (amount u + amt - amount u)) with (total_lp q + amt) in * by lia.
    destruct (save_J e (now e) lp _ rem s0 s1 (prot * DEC) E5 F0) as [W1 W2]; cbn [pl users]; auto.
    { change (cur lp s0) with (cur lp s). lia. }
    pose proof (pay_all_lps e who ext s1) as L2. pose proof (pay_all_prot e who ext s1) as P2.
    destruct (pay_all e who s1 ext) as [s2 o1]. injection H as <- <-. simpl in L2, P2.
    destruct (jall_lps _ _ _ L2 W1) as [F2 J2]. split; auto. rewrite prot_app, (pay_prot_sum _ _ _ _ E6). lia.
  - unfold withdraw in H. unbind H as p Ep.
    assert (Ec : cur lp s = p) by (unfold cur; rewrite Ep; auto). subst p.
    unbind H as u Eu. unguard H Hg. unbind H as [q rem] E. unbind H as [ext prot] E2.
    unbind H as a E3. unbind H as t E4. unbind H as s1 E5. unbind H as o2 E6.
    apply sub128_Some in E3, E4. destruct E3 as (-> & A1). destruct E4 as (-> & _).
    destruct (update_J _ _ _ _ _ E (jall_cur _ _ lp F) (Z.le_refl _)) as (U1 & U2 & U3 & _).
    pose proof (Forall_find _ _ _ _ (j_us _ _ _ U1) Eu) as [A0 B0]. cbn [snd] in A0, B0.
    destruct (due_prot _ _ _ _ _ _ E2 (j_one _ _ _ U1) A0 B0) as [P0 P1].
    assert (W : jall (now e) s1 /\ J (now e) s1 + prot * DEC <= J (now e) s).
    { destruct (Z.eqb_spec (amount u - amt) 0).
      - destruct (leave_J _ _ _ sd u (prot * DEC) U1 Eu P1) as [V1 V2].
        replace (total_lp q - amount u) with (total_lp q - amt) in * by lia.
        apply (save_J e (now e) lp _ rem s s1 (prot * DEC) E5 F); cbn [pl users]; auto; lia.
      - destruct (settle_J _ _ _ sd (amount u - amt) u (prot * DEC) U1 ltac:(lia) (or_introl Eu) P1) as [V1 V2].
        replace (total_lp q + (amount u - amt - amount u)) with (total_lp q - amt) in * by lia.
        apply (save_J e (now e) lp _ rem s s1 (prot * DEC) E5 F); cbn [pl users]; auto; lia. }
    destruct W as [W1 W2].
    pose proof (pay_all_lps e sd ext s1) as L2. pose proof (pay_all_prot e sd ext s1) as P2.
    destruct (pay_all e sd s1 ext) as [s2 o1]. unguard H Hx. injection H as <- <-. simpl in L2, P2.
    destruct (jall_lps (now e) s1 (set_bal s2 (set (bal s2) lp (get (bal s2) lp - amt))) L2 W1) as [F2 J2]. split; auto.
    rewrite !prot_app, (pay_prot_sum _ _ _ _ E6). cbn [prot_out_sum fold_right]. lia.
  - silent H. unfold set_tokens in E. unguard E G1. unbind E as s2 E1. injection E as <-.
    destruct (touch_all_J _ _ _ _ (Sl _ _ _) _ _ F E1) as [F2 J2].
    destruct (Em s2 amt (talloc s) (active s) (blocked s) F2) as [F3 J3]. split; auto. simpl. lia.
  - unfold incentivize_many in H. unguard H G. unbind H as [[s1 f1] o1] E. unguard H G2. injection H as <- <-.
    match type of E with incentivize_each _ _ ?s0 _ = _ => destruct (jall_lps (now e) s s0 eq_refl F) as [F0 J0] end.
    destruct (incentivize_each_J _ _ _ _ _ _ _ F0 E) as (F1 & J1 & P1). split; auto. lia.
  - unfold remove_reward in H. unguard H G. unbind H as p Ep.
    assert (Ec : cur lp s = p) by (unfold cur; rewrite Ep; auto). subst p. unbind H as [q rem] E.
    unbind H as [[[q' x] sch] v] E2. unbind H as s1 E3. injection H as H.
    destruct (update_J _ _ _ _ _ E (jall_cur _ _ lp F) (Z.le_refl _)) as (U1 & U2 & U3 & _).
    destruct (ilike_J _ _ _ _ (deregister_like _ _ _ _ _ _ _ _ E2) U2 U1) as [V1 V2].
    destruct (save_J e (now e) lp _ _ s s1 0 E3 F) as [W1 W2]; cbn [pl users]; auto; try lia.
    assert (Es : lps s' = lps s1 /\ prot_out_sum o = 0).
    { unfold pay in H. destruct (v =? 0); [injection H as <- <-; auto|].
      destruct (_ && _) in H; injection H as <- <-; auto. }
    destruct Es as [L2 P2]. destruct (jall_lps _ _ _ L2 W1) as [F2 J2]. split; auto. lia.
  - unfold claim_orphaned in H. unguard H G. unguard H G2. injection H as H.
    match type of H with pay_all _ _ ?s1 ?x = _ => pose proof (pay_all_lps e to x s1) as K; pose proof (pay_all_prot e to x s1) as P1 end.
    rewrite H in K, P1. simpl in K, P1. destruct (jall_lps (now e) s s' K F) as [F2 J2]. split; auto. lia.
  - silent H. unfold update_config in E. unguard E G. unbind E as m E1. injection E as <-. simpl prot_out_sum.
    destruct F as [T0 F]. destruct ast as [a|].
    + destruct (relabel_J (now e) _ _ _ _ E1 F) as [F2 J2]. split; [split; auto|]. unfold J. cbn [lps]. lia.
    + injection E1 as <-. split; [split; auto|]. unfold J. cbn [lps]. lia.
  - silent H. unfold update_blocked in E. unguard E G1. unguard E G2. unbind E as bl1 E1. unbind E as [dis bl2] E2.
    destruct dis as [|d0 dis0].
    + injection E as <-. destruct (Em s (aps s) (talloc s) (active s) bl2 F) as [F3 J3]. split; auto. simpl. lia.
    + unbind E as s2 E3. unbind E as red E4. unbind E as t E5. unbind E as s3 E6. injection E as <-.
      destruct (touch_all_J _ _ _ _ Dl _ _ F E3) as [F1 J1]. destruct (touch_all_J _ _ _ _ (Sl _ _ _) _ _ F1 E6) as [F2 J2].
      match goal with |- jall _ (set_emission _ ?a ?b ?c ?d) /\ _ => destruct (Em s3 a b c d F2) as [F3 J3] end.
      split; auto. change (prot_out_sum []) with 0. lia.
  - silent H. unfold deactivate_pool in E. unguard E G1. destruct (find lp (lps s)) as [p|]; [|injection E as <-; simpl; split; auto; lia].
    destruct (is_active (pl p)); [|injection E as <-; simpl; split; auto; lia]. unbind E as [n al] E1. unbind E as s2 E2.
    unbind E as t E3. unbind E as s3 E4. injection E as <-.
    destruct (touch_J _ _ _ _ _ _ disable_like F E2) as [F1 J1]. destruct (touch_all_J _ _ _ _ (Sl _ _ _) _ _ F1 E4) as [F2 J2].
    match goal with |- jall _ (set_emission _ ?a ?b ?c ?d) /\ _ => destruct (Em s3 a b c d F2) as [F3 J3] end.
    split; auto. change (prot_out_sum []) with 0. lia.
  - silent H. unfold deactivate_blocked in E. unbind E as s2 E1. unbind E as t E2.
    destruct (touch_all_J _ _ _ _ Dl _ _ F E1) as [F1 J1]. change (prot_out_sum []) with 0.
    destruct (filter _ (active s)) as [|d0 dis0].
    + injection E as <-. split; auto. lia.
    + unbind E as s3 E3. injection E as <-. destruct (touch_all_J _ _ _ _ (Sl _ _ _) _ _ F1 E3) as [F2 J2].
      match goal with |- jall _ (set_emission _ ?a ?b ?c ?d) /\ _ => destruct (Em s3 a b c d F2) as [F3 J3] end.
      split; auto. lia.
  - injection H as <- <-. destruct (jall_lps (now e) s (set_bal s (set (bal s) a (get (bal s) a + amt))) eq_refl F) as [F3 J3].
    split; auto. simpl. lia.
Qed.

(** ** Between messages *)
Definition ksum (f : Z -> Z) (l : list Z) : Z := fold_right Z.add 0 (map f l).
Lemma ksum_sub f l1 : forall l2, (forall k, 0 <= f k) -> NoDup l1 -> (forall k, In k l1 -> f k <> 0 -> In k l2) ->
  ksum f l1 <= ksum f l2.
Proof.
  unfold ksum. induction l1 as [|k r IH]; intros l2 F0 N I; simpl.
  - clear - F0. induction l2 as [|x t IH]; simpl; [lia|]. specialize (F0 x). lia.
  - inversion N as [|? ? N1 N2]; subst. destruct (Z.eq_dec (f k) 0) as [E|E].
    + rewrite E. apply IH; auto. intros x Hx. apply I. simpl. auto.
    + destruct (in_split _ _ (I k (or_introl eq_refl) E)) as (a & b & ->).
      assert (Q : fold_right Z.add 0 (map f r) <= fold_right Z.add 0 (map f (a ++ b))).
      { apply IH; auto. intros x Hx Nx. specialize (I x (or_intror Hx) Nx). apply in_app_iff in I. apply in_app_iff.
        simpl in I. destruct I as [I|[<-|I]]; auto. tauto. }
      assert (A : forall u v, fold_right Z.add 0 (map f (u ++ v)) = fold_right Z.add 0 (map f u) + fold_right Z.add 0 (map f v)).
      { clear. intros u v. induction u as [|x u IH]; simpl; lia. }
      rewrite A in *. simpl. lia.
Qed.
Lemma sumf_keys (g : lpst -> Z) s : NoDup (keys (lps s)) ->
  sumf g (lps s) = ksum (fun k => match find k (lps s) with Some p => g p | None => 0 end) (keys (lps s)).
Proof.
  unfold ksum. generalize (lps s) as m. induction m as [|[k p] r IH]; intros N; simpl; auto.
  inversion N as [|? ? N1 N2]; subst. rewrite Z.eqb_refl, (IH N2). f_equal. apply f_equal.
  apply map_ext_in. intros x Hx. destruct (Z.eqb_spec k x); auto. subst. contradiction.
Qed.
Lemma rates_total t s : em_inv s -> NoDup (keys (lps s)) -> jall t s ->
  sumf (fun p => irate (rewards (pl p))) (lps s) <= aps s * DEC.
Proof.
  intros (N & F & T & A0 & Id & K) Nk [T0 Q]. rewrite sumf_keys by auto.
  assert (E : ksum (fun k => match find k (lps s) with Some p => irate (rewards (pl p)) | None => 0 end) (keys (lps s)) =
              ksum (fun k => rate k s) (keys (lps s))).
  { unfold ksum. f_equal. apply map_ext. intros k. rewrite rate_irate. auto. }
  rewrite E. eapply Z.le_trans; [apply (ksum_sub _ _ (map fst (active s)))|]; auto.
  - intros k. rewrite rate_irate. destruct (find k (lps s)) as [p|] eqn:Ep; [|lia].
    apply (Forall_find _ _ _ _ Q Ep).
  - intros k _ Nz. destruct (in_dec Z.eq_dec k (map fst (active s))); auto. exfalso. apply Nz. apply Id. auto.
  - destruct (active s) as [|x r] eqn:Ea.
    + unfold ksum. simpl map. simpl fold_right. apply Z.mul_nonneg_nonneg; auto. discriminate.
    + rewrite <- Ea in *. assert (0 < talloc s).
      { rewrite T. destruct x as [k v]. assert (In (k, v) (active s)) by (rewrite Ea; simpl; auto).
        pose proof (points_in _ _ _ F H). lia. }
      assert (M := rates_sum s (active s) A0 F H).
      specialize (M ltac:(intros k al Hk; apply K; apply find_nodup; auto)). rewrite <- T in M.
      unfold ksum. apply Z.mul_le_mono_pos_r with (p := talloc s); auto.
Qed.
Lemma J_later t t' s : t <= t' -> J t' s = J t s + sumf (fun p => irate (rewards (pl p))) (lps s) * (t' - t).
Proof. intros _. unfold J, JP. induction (lps s) as [|[k p] r IH]; cbn [sumf]; [lia|]. rewrite IH. ring. Qed.

(** What everybody could claim now is covered. *)
Lemma pending_J e s : jall (now e) s -> NoDup (keys (lps s)) -> total_pend_prot e s * DEC <= J (now e) s.
Proof.
  intros [T0 F] N. unfold total_pend_prot, J.
  assert (G : forall m, (forall k p, In (k, p) m -> find k (lps s) = Some p) ->
    Forall (fun x => jok (now e) (pl (snd x)) (users (snd x))) m ->
    fold_right (fun x a => fold_right (fun y b => pend_prot e (fst x) (fst y) s + b) 0 (users (snd x)) + a) 0 m * DEC
    <= sumf (fun p => JP (pl p) (users p) (now e)) m).
  { induction m as [|[k p] r IH]; intros Fm Q; cbn [fold_right sumf fst snd]; [lia|].
    inversion Q as [|? ? Q1 Q2]; subst. specialize (IH ltac:(intros; apply Fm; simpl; auto) Q2).
    enough (fold_right (fun y b => pend_prot e k (fst y) s + b) 0 (users p) * DEC <= JP (pl p) (users p) (now e)) by lia.
    assert (Ep : find k (lps s) = Some p) by (apply Fm; simpl; auto). clear IH Q Q2 Fm. simpl in Q1.
    assert (PP : forall y, pend_prot e k y s = match find y (users p) with None => 0 | Some u =>
       match update_rewards (now e) p with None => 0 | Some (q, rem) => match due q rem (fins p) u with Some (_, v) => v | None => 0 end end end).
    { intros y. unfold pend_prot, pending. rewrite Ep. destruct (find y (users p)) as [u|]; auto.
      destruct (update_rewards (now e) p) as [[q rem]|]; auto. }
    destruct (update_rewards (now e) p) as [[q rem]|] eqn:U.
    - destruct (update_J _ _ _ _ _ U Q1 (Z.le_refl _)) as (U1 & U2 & U3 & _).
      enough (fold_right (fun y b => pend_prot e k (fst y) s + b) 0 (users p) * DEC <= JU (users p) (iidx (rewards q))).
      { unfold JP in U3 at 1. rewrite U2 in U3. pose proof (j_int _ _ _ U1). lia. }
      pose proof (j_us _ _ _ U1) as Us. pose proof (j_nd _ _ _ U1) as Nu. unfold JU.
      assert (G : forall l, (forall y u, In (y, u) l -> find y (users p) = Some u) ->
        Forall (fun x => 0 <= amount (snd x) /\ 0 <= uI (snd x) <= iidx (rewards q)) l ->
        fold_right (fun y b => pend_prot e k (fst y) s + b) 0 l * DEC <= sumf (fun u => amount u * (iidx (rewards q) - uI u)) l).
      { induction l as [|[y u] l IHl]; intros Fl Ql; cbn [fold_right sumf fst snd]; [lia|].
        inversion Ql as [|? ? [A0 B0] Ql2]; subst. cbn [snd] in A0, B0.
        specialize (IHl ltac:(intros; apply Fl; simpl; auto) Ql2).
        rewrite PP, (Fl y u) by (simpl; auto). destruct (due q rem (fins p) u) as [[x v]|] eqn:D.
        - destruct (due_prot _ _ _ _ _ _ D (j_one _ _ _ U1) A0 B0). lia.
        - assert (0 <= amount u * (iidx (rewards q) - uI u)) by (apply Z.mul_nonneg_nonneg; lia). lia. }
      apply G; auto. intros y u Hy. apply find_nodup; auto.
    - assert (Z0 : fold_right (fun y b => pend_prot e k (fst y) s + b) 0 (users p) = 0).
      { generalize (users p) at 1 as l. induction l as [|[y u] l IHl]; cbn [fold_right fst]; auto.
        rewrite PP, IHl. destruct (find y (users p)); auto. }
      rewrite Z0. pose proof (JU_nn _ _ (j_us _ _ _ Q1)) as Jn. destruct (j_int _ _ _ Q1) as (I1 & I2 & I3).
      pose proof (j_last _ _ _ Q1). unfold JP.
      assert (0 <= irate (rewards (pl p)) * (now e - last (pl p))) by (apply Z.mul_nonneg_nonneg; lia). lia. }
  apply G; auto. intros k p Hk. apply find_nodup; auto.
Qed.

(** ** Executions *)
Lemma run_J A h : forall T s, inv A T s -> 0 <= T -> timed T h -> removals_ok A s h -> em_inv s -> emissions_ok s h ->
  jall T s -> forall t, time_after T h <= t ->
  jall t (run s h) /\ J t (run s h) + prot_paid s h * DEC <= J T s + budget T s h t * DEC.
Proof.
  induction h as [|[[e sd] m] r IH]; intros T s I T0 Ht Hr Em Eo Ja t Lt.
  - simpl in *. split; [eapply jall_later; eauto|].
    rewrite (J_later T t) by auto. pose proof (rates_total T s Em (i_nd _ _ _ I) Ja). nia.
  - destruct Ht as (H1 & H2 & H3 & H4). destruct Hr as [R1 R2]. destruct Eo as [O1 O2].
    assert (J1 : J (now e) s <= J T s + aps s * (now e - T) * DEC).
    { rewrite (J_later T (now e)) by auto. pose proof (rates_total T s Em (i_nd _ _ _ I) Ja). nia. }
    assert (Ja1 : jall (now e) s) by (eapply jall_later; eauto).
    change (run s ((e, sd, m) :: r)) with (run (exec s (e, sd, m)) r). cbn [prot_paid budget].
    simpl time_after in Lt. unfold exec in *. destruct (step e sd m s) as [[s' o]|] eqn:E.
    + destruct (step_good A T e sd m s s' o I T0 H1 H2) as (G1 & G2 & _); auto.
      { apply removal_clean. auto. }
      destruct (step_J _ _ _ _ _ _ Ja1 H3 E) as [Ja2 J2].
      destruct (IH (now e) s' G1 ltac:(lia) H4 R2 (step_em _ _ _ _ _ _ Em O1 E) O2 Ja2 t Lt) as [K1 K2].
      split; auto. lia.
    + destruct (IH (now e) s (inv_later _ _ _ _ I H1) ltac:(lia) H4 R2 Em O2 Ja1 t Lt) as [K1 K2].
      split; auto. lia.
Qed.
Lemma jall_init own fac ast grd f : jall 0 (init own fac ast grd f) /\ J 0 (init own fac ast grd f) = 0.
Proof. split; [split; [lia|constructor]|reflexivity]. Qed.
