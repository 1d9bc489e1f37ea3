(** Incentives: accrual, payment and saving never increase what a pool owes. *)
From Coq Require Import ZArith Lia Bool List Permutation.
From Verif Require Import Num Amap Ledger IncentivesModel IncentivesSched IncentivesPool.
Import ListNotations.
Open Scope Z_scope.

Lemma sumf_le3 {V} (f g h : V -> Z) d (m : amap V) :
  Forall (fun x => f (snd x) <= g (snd x) + d * h (snd x)) m -> sumf f m <= sumf g m + d * sumf h m.
Proof.
  induction 1 as [|[k v] r H _ IH]; simpl in *; [lia|].
  rewrite Z.mul_add_distr_l. lia.
Qed.
Lemma sumf_le {V} (f g : V -> Z) (m : amap V) :
  Forall (fun x => f (snd x) <= g (snd x)) m -> sumf f m <= sumf g m.
Proof. induction 1 as [|[k v] r H _ IH]; simpl in *; lia. Qed.
Lemma sumf_del {V} (f : V -> Z) k (m : amap V) : NoDup (keys m) ->
  sumf f (del k m) = sumf f m - match find k m with Some v => f v | None => 0 end.
Proof.
  induction m as [|[k' v] r IH]; simpl; intros N; [lia|]. inversion N; subst.
  destruct (Z.eqb_spec k' k).
  - subst. rewrite IH by auto.
    assert (find k r = None) as ->; [|lia].
    destruct (find k r) eqn:E; auto. apply find_in in E. exfalso. apply H1.
    apply in_map_iff. exists (k, v0). auto.
  - simpl. rewrite IH by auto. lia.
Qed.
Lemma keys_put {V} k (v : V) m : NoDup (keys m) -> NoDup (keys (put k v m)).
Proof.
  intros N. enough (H : (forall x, In x (keys (put k v m)) -> x = k \/ In x (keys m)) /\ NoDup (keys (put k v m))) by tauto.
  induction m as [|[k' v'] r IH]; simpl.
  - split; [intuition|constructor; auto; constructor].
  - inversion N; subst. destruct (IH H2) as [I1 I2]. destruct (Z.eqb_spec k' k); simpl.
    + subst. split; [intuition|]. constructor; auto.
    + split.
      * intros x [<-|Hx]; auto. apply I1 in Hx. tauto.
      * constructor; auto. intros Hx. apply I1 in Hx. destruct Hx; [congruence|auto].
Qed.
Lemma in_del {V} k (m : amap V) x : In x (del k m) -> In x m.
Proof.
  induction m as [|[k' v'] r IH]; simpl; auto. destruct (k' =? k); simpl; intuition.
Qed.
Lemma keys_del {V} k (m : amap V) : NoDup (keys m) -> NoDup (keys (del k m)).
Proof.
  induction m as [|[k' v'] r IH]; simpl; auto. intros N. inversion N; subst.
  destruct (k' =? k); auto. simpl. constructor; auto. intros Hx. apply H1.
  apply in_map_iff in Hx. destruct Hx as (y & E & Hy). apply in_del in Hy.
  apply in_map_iff. eauto.
Qed.

(** ** Accrual *)
Lemma fl_rem A rem : fl A (map (fun x : Z * (Z * Z) => (fst x, fst (snd x))) rem) =
  map (fun x => fst (snd x)) (filter (fun x => fst x =? A) rem).
Proof.
  unfold fl. induction rem as [|[a [i o]] r IH]; simpl; auto.
  destruct (a =? A); simpl; rewrite IH; auto.
Qed.
Lemma unseen_app u f rem : unseen u f rem = unseen u f [] ++ map (fun x => (fst x, fst (snd x))) rem.
Proof. unfold unseen. rewrite app_nil_r. auto. Qed.

Lemma fl_nn A l : Forall (fun y : Z * Z => 0 <= snd y) l -> nn (fl A l).
Proof.
  intros H. unfold nn, fl. apply Forall_forall. intros x Hx. apply in_map_iff in Hx.
  destruct Hx as (y & <- & Hy). apply filter_In in Hy. rewrite Forall_forall in H. apply H. tauto.
Qed.
Lemma unseen_nn u f rem :
  Forall (fun x : Z * list (Z * Z) => Forall (fun y => 0 <= snd y) (snd x)) f ->
  Forall (fun x : Z * (Z * Z) => 0 <= fst (snd x)) rem ->
  Forall (fun y => 0 <= snd y) (unseen u f rem).
Proof.
  intros F R. unfold unseen. apply Forall_app. split.
  - apply Forall_forall. intros y Hy. apply in_concat in Hy. destruct Hy as (l & Hl & Hy).
    apply in_map_iff in Hl. destruct Hl as (z & <- & Hz). apply in_after in Hz.
    rewrite Forall_forall in F. specialize (F z (proj1 Hz)). rewrite Forall_forall in F. auto.
  - apply Forall_forall. intros y Hy. apply in_map_iff in Hy. destruct Hy as (z & <- & Hz).
    rewrite Forall_forall in R. apply (R z Hz).
Qed.

Lemma wf_fins_nn A p : wf A p -> Forall (fun x => Forall (fun y => 0 <= snd y) (snd x)) (fins p).
Proof. intros W. eapply Forall_impl; [|exact (w_fin _ _ W)]. simpl. tauto. Qed.
Lemma wf_total_nn A p : wf A p -> 0 <= total_lp (pl p).
Proof.
  intros W. rewrite (w_total _ _ W). apply sumf_Forall. eapply Forall_impl; [|exact (w_users _ _ W)].
  intros a (H & _). auto.
Qed.
Lemma find_ext_ok t a rs x : find_ext a rs = Some x -> Forall (okR t) rs -> okR t x.
Proof. intros H F. apply find_ext_in in H. rewrite Forall_forall in F. apply F. tauto. Qed.
Lemma actA_nn t A rs : Forall (okR t) rs -> nno (actA A rs).
Proof.
  intros F. unfold actA. destruct (find_ext A rs) eqn:E; simpl; auto.
  destruct (find_ext_ok _ _ _ _ E F) as (_ & H & _). auto.
Qed.

Definition with_pl (p : lpst) (q : pool) : lpst := mkLp q (users p) (scheds p) (fins p).

Lemma vis_nil u q : vis u q [] = [].
Proof. unfold vis. destruct (_ <? _); auto. Qed.

Lemma update_P A now p q rem : wf A p -> update_rewards now p = Some (q, rem) ->
  wfm A (with_pl p q) rem /\ Pm A (with_pl p q) rem <= P A p /\
  last q = Z.max now (last (pl p)) /\ total_lp q = total_lp (pl p) /\
  (rem <> [] -> last (pl p) < last q) /\
  (forall a, In a (map fst rem) -> find_ext a (rewards q) = None).
Proof.
  intros W H. unfold update_rewards in H. destruct (Z.leb_spec now (last (pl p))) as [L|L].
  - injection H as <- <-. split; [|split; [|split; [|split; [|split]]]].
    + constructor; [|constructor|constructor]. unfold with_pl. destruct p; exact W.
    + unfold P, with_pl. destruct p; simpl. lia.
    + lia.
    + auto.
    + congruence.
    + intros a [].
  - unbind H as [rs rem'] E. injection H as <- <-.
    pose proof (wf_total_nn _ _ W) as T.
    destruct (upd_all_spec _ _ _ _ _ _ _ E L T (w_ext _ _ W) (w_rw _ _ W) (w_sch _ _ W)) as
      (I1 & I2 & I3 & I4 & I5 & I6 & I7 & I8 & I9).
    split; [|split; [|split; [|split; [|split]]]].
    + constructor; auto.
      destruct W. constructor; simpl; auto.
      * eapply Forall_impl; [|exact w_users]. intros a (H1 & H2 & H3). repeat split; auto. lia.
      * rewrite I7. auto.
      * intros y Hy Ly. specialize (I9 A). destruct (w_live y Hy ltac:(lia)) as (x & Ex & Lx).
        rewrite Ex in I9. destruct I9 as (x' & gone & U & G). destruct (w_sch A) as (S1 & S2).
        destruct (find_ext_in _ _ _ Ex) as (Hin & n & Rn).
        destruct (upd_one_ext _ _ _ _ _ _ _ _ _ U Rn L T (find_ext_ok _ _ _ _ Ex w_rw) S1 S2) as
          (d & coll & _ & _ & _ & _ & _ & _ & _ & Q).
        destruct gone.
        -- destruct Q as (_ & _ & _ & Q). rewrite Forall_forall in Q. specialize (Q _ Hy). lia.
        -- destruct Q as (nx' & Q1 & Q2 & Q3 & Q4 & Q5). exists x'. split; [tauto|].
           rewrite Q1. simpl. apply Q5; auto.
           intros z Hz Lz. destruct (w_live z Hz Lz) as (x2 & Ex2 & Lx2). rewrite Ex in Ex2.
           injection Ex2 as <-. rewrite Rn in Lx2. auto.
      * eapply Forall_impl; [|exact w_fin]. simpl. intros a (H1 & H2). split; auto. lia.
    + unfold P, Pm, with_pl. simpl.
      assert (Hall : forall u, In u (users p) -> okU (last (pl p)) (snd u))
        by (apply Forall_forall; exact (w_users _ _ W)).
      assert (V : forall u, In u (users p) ->
        vis (snd u) (mkPool (total_lp (pl p)) rs now) rem' = rem').
      { intros u Hu. destruct (Hall u Hu) as (_ & C & _). unfold vis. simpl.
        replace (claimed (snd u) <? now) with true; auto. symmetry. apply Z.ltb_lt. lia. }
      specialize (I9 A). destruct (find_ext A (rewards (pl p))) as [x|] eqn:Ex.
      * destruct I9 as (x' & gone & U & G).
        destruct (find_ext_in _ _ _ Ex) as (Hin & n & Rn). destruct (w_sch _ _ W A) as (S1 & S2).
        pose proof (find_ext_ok _ _ _ _ Ex (w_rw _ _ W)) as Ox.
        destruct (upd_one_ext _ _ _ _ _ _ _ _ _ U Rn L T Ox S1 S2) as
          (d & coll & D1 & D2 & D3 & D4 & D5 & _ & _ & Q).
        destruct Ox as (O1 & O2 & O3 & O4).
        assert (M : sumf (owedM A (mkPool (total_lp (pl p)) rs now) rem' (fins p)) (users p) <=
                    sumf (owedM A (pl p) [] (fins p)) (users p) + d * sumf amount (users p)).
        { apply sumf_le3. apply Forall_forall. intros u Hu. pose proof (Hall u Hu) as Ou.
          unfold owedM. rewrite (V u Hu), vis_nil. rewrite unseen_app, fl_app, fl_rem.
          pose proof (uix_nn _ A _ Ou) as Ui. destruct Ou as (Ua & _ & _).
          replace (amount (snd u) * clm (fl A (unseen (snd u) (fins p) [])) (uix A (snd u)) (actA A (rewards (pl p)))
            + d * amount (snd u)) with (amount (snd u) *
            (clm (fl A (unseen (snd u) (fins p) [])) (uix A (snd u)) (actA A (rewards (pl p))) + d)) by lia.
          apply Z.mul_le_mono_nonneg_l; auto. unfold actA. rewrite Ex. simpl option_map at 2.
          destruct gone; destruct G as (G1 & G2); rewrite G2; simpl; rewrite G1; simpl.
          - rewrite D3. eapply Z.le_trans; [apply clm_fin; lia|]. apply clm_step; lia.
          - rewrite app_nil_r, D3. apply clm_step; lia. }
        rewrite <- (w_total _ _ W) in M. unfold orphA, remaining, rem_orph. rewrite Ex.
        simpl (zsum (map (fun x0 => snd (snd x0)) (filter (fun x0 => fst x0 =? A) []))).
        destruct gone; destruct G as (G1 & G2); simpl (rewards _); rewrite G1, G2; simpl zsum; simpl (last _).
        -- destruct Q as (_ & _ & Q & _). rewrite Q in D5. lia.
        -- destruct Q as (nx' & _ & _ & _ & Q & _). lia.
      * destruct I9 as (G1 & G2).
        assert (M : sumf (owedM A (mkPool (total_lp (pl p)) rs now) rem' (fins p)) (users p) <=
                    sumf (owedM A (pl p) [] (fins p)) (users p)).
        { apply sumf_le. apply Forall_forall. intros u Hu. unfold owedM.
          rewrite (V u Hu), vis_nil. rewrite unseen_app, fl_app, fl_rem, G2. simpl.
          rewrite app_nil_r. unfold actA. rewrite Ex, G1. simpl. lia. }
        unfold orphA, remaining, rem_orph. simpl (rewards _). rewrite Ex, G1, G2. simpl. lia.
    + simpl. lia.
    + auto.
    + simpl. auto.
    + intros a Ha. simpl. specialize (I9 a). destruct (find_ext a (rewards (pl p))); [|tauto].
      destruct I9 as (x' & gone & _ & G). destruct gone; [tauto|]. exfalso.
      destruct G as [_ G]. apply in_map_iff in Ha. destruct Ha as (y & <- & Hy).
      assert (In y []) by (rewrite <- G; apply filter_In; rewrite Z.eqb_refl; auto). contradiction.
Qed.

(** ** Payment *)
Definition paidA (A : Z) (l : list (Z * Z)) : Z := zsum (fl A l).
Lemma paidA_app A a b : paidA A (a ++ b) = paidA A a + paidA A b.
Proof. unfold paidA. rewrite fl_app, zsum_app. auto. Qed.

Lemma credit_Some i amt v : credit i amt = Some v -> v = amt * i / DEC.
Proof.
  unfold credit. intros H. unbind H as x E. apply umul256_Some in E. destruct E as (-> & _).
  apply u128_Some in H. tauto.
Qed.
Lemma credit_le i amt v : credit i amt = Some v -> v * DEC <= amt * i.
Proof. intros H. apply credit_Some in H. subst. pose proof (div_mul_le (amt * i) DEC DEC_pos). lia. Qed.
Lemma mem_In a l : mem a l = true <-> In a l.
Proof.
  unfold mem. rewrite existsb_exists. split.
  - intros (x & H & E). apply Z.eqb_eq in E. congruence.
  - intros H. exists a. rewrite Z.eqb_refl. auto.
Qed.
Lemma mem_nIn a l : mem a l = false <-> ~ In a l.
Proof. rewrite <- mem_In. destruct (mem a l); intuition congruence. Qed.

Lemma u_find_any a n m l : u_find (RExt a n) l = u_find (RExt a m) l.
Proof. induction l as [|[x i] t IH]; simpl; auto. rewrite IH. destruct x; auto. Qed.

Lemma claim_fin_paid A amt ui l : forall seen out, claim_fin amt ui seen l = Some out ->
  0 <= amt ->
  paidA A out * DEC <= amt *
    (if mem A seen then zsum (fl A l)
     else match fl A l with
          | [] => 0
          | f :: r => ssub f (match u_find (RExt A 0) ui with Some i => i | None => 0 end) + zsum r
          end).
Proof.
  induction l as [|[a f] r IH]; intros seen out H N; simpl in H.
  - injection H as <-. unfold paidA. simpl. destruct (mem A seen); lia.
  - unbind H as v E. unbind H as t E2. injection H as <-.
    specialize (IH _ _ E2 N). simpl mem in IH.
    unfold paidA, fl in *. simpl. rewrite (Z.eqb_sym A a) in IH. destruct (Z.eqb_spec a A).
    + subst. simpl. simpl in IH. destruct (mem A seen).
      * apply credit_le in E. lia.
      * unbind E as d Ed. apply sub256_Some in Ed. destruct Ed as (-> & B).
        apply credit_le in E. unfold ssub. rewrite Z.max_r by lia. lia.
    + simpl in IH. exact IH.
Qed.

Lemma u_find_reset A F l : mem A F = true ->
  match u_find (RExt A 0) (reset F l) with Some i => i | None => 0 end = 0.
Proof.
  intros M. unfold reset. induction l as [|[x i] t IH]; simpl; auto.
  destruct x as [a|a n]; simpl; auto.
  destruct (Z.eqb_spec a A).
  - subst. rewrite M. simpl. rewrite Z.eqb_refl. auto.
  - destruct (mem a F); simpl; (destruct (Z.eqb_spec a A); [congruence|auto]).
Qed.
Lemma u_find_noreset A F l : mem A F = false -> u_find (RExt A 0) (reset F l) = u_find (RExt A 0) l.
Proof.
  intros M. unfold reset. induction l as [|[x i] t IH]; simpl; auto.
  destruct x as [a|a n]; simpl; auto.
  destruct (Z.eqb_spec a A).
  - subst. rewrite M. simpl. rewrite Z.eqb_refl. auto.
  - destruct (mem a F); simpl; (destruct (Z.eqb_spec a A); [congruence|auto]).
Qed.

Definition ext_part (l : list (bool * Z * Z)) : list (Z * Z) :=
  map (fun x => (snd (fst x), snd x)) (filter (fun x => fst (fst x)) l).

Lemma calc_all_paid A u rs : forall out t, calc_all u rs = Some out ->
  NoDup (exts rs) -> Forall (okR t) rs -> 0 <= amount u -> 
  Forall (fun y => 0 <= snd y) (uidx u) ->
  paidA A (ext_part out) * DEC <= amount u *
    match find_ext A rs with
    | None => 0
    | Some x => let ui := match u_find (RExt A 0) (uidx u) with Some i => i | None => 0 end in
                if idx x <? ui then idx x else idx x - ui
    end.
Proof.
  induction rs as [|r s IH]; intros out t H N F U X; simpl in H.
  - injection H as <-. unfold paidA. simpl. lia.
  - unbind H as v E. unbind H as o E2. injection H as <-. inversion F as [|? ? Fr Fs]; subst.
    unfold exts in N. simpl in N. unfold ext_part. simpl. destruct (rw r) as [a|a n] eqn:Er.
    + simpl in N. simpl. apply (IH _ _ eq_refl N Fs U X).
    + simpl in N. rewrite Er in N. simpl in N. inversion N as [|? ? Na Ns]; subst.
      specialize (IH _ _ eq_refl Ns Fs U X). simpl. fold (ext_part o).
      unfold paidA, fl in *. simpl. destruct (Z.eqb_spec a A).
      * subst. simpl. apply find_ext_exts in Na. rewrite Na in IH.
        assert (Z0 : zsum (map snd (filter (fun x => fst x =? A) (ext_part o))) * DEC <= 0) by lia.
        unfold calc_one in E. rewrite Er in E. rewrite (u_find_any A n 0) in E.
        destruct Fr as (F1 & F2 & F3 & F4).
        destruct (u_find (RExt A 0) (uidx u)) as [i|].
        -- destruct (idx r <? i); apply credit_le in E; lia.
        -- apply credit_le in E. destruct (Z.ltb_spec (idx r) 0); [lia|]. rewrite Z.sub_0_r. lia.
      * exact IH.
Qed.

(** Nobody is paid more than their claim. *)
Lemma due_paid A q rem f u ext prot t :
  due q rem f u = Some (ext, prot) ->
  NoDup (exts (rewards q)) -> Forall (okR t) (rewards q) -> okU t u ->
  Forall (fun y => 0 <= snd y) (unseen u f rem) ->
  paidA A ext * DEC <= amount u * clm (fl A (unseen u f rem)) (uix A u) (actA A (rewards q)).
Proof.
  unfold due. intros H N F (U1 & U2 & U3) NN. unbind H as fin E. unbind H as act E2. unbind H as pr E3.
  injection H as <- <-. rewrite paidA_app. fold (ext_part act).
  pose proof (claim_fin_paid A _ _ _ _ _ E U1) as K1. simpl mem in K1. cbv iota in K1.
  assert (X : Forall (fun y => 0 <= snd y) (reset (map fst (unseen u f rem)) (uidx u))).
  { unfold reset. apply Forall_forall. intros y Hy. apply in_map_iff in Hy. destruct Hy as (z & <- & Hz).
    rewrite Forall_forall in U3. specialize (U3 _ Hz). destruct (_ && _); simpl; auto. lia. }
  pose proof (calc_all_paid A _ _ _ t E2 N F U1 X) as K2. simpl in K2.
  unfold actA, uix.
  set (ui := match u_find (RExt A 0) (uidx u) with Some i => i | None => 0 end) in *.
  assert (M : fl A (unseen u f rem) = [] <-> mem A (map fst (unseen u f rem)) = false).
  { rewrite mem_nIn. unfold fl. split.
    - intros Hn Hi. apply in_map_iff in Hi. destruct Hi as (y & Ey & Hy).
      assert (In (snd y) (map snd (filter (fun x => fst x =? A) (unseen u f rem)))).
      { apply in_map. apply filter_In. split; auto. apply Z.eqb_eq. auto. }
      rewrite Hn in H. contradiction.
    - intros Hn. destruct (filter (fun x => fst x =? A) (unseen u f rem)) as [|y r] eqn:Ef; auto.
      exfalso. apply Hn. assert (Hy : In y (y :: r)) by (left; auto). rewrite <- Ef in Hy.
      apply filter_In in Hy. destruct Hy as [Hy Hb]. apply Z.eqb_eq in Hb. rewrite <- Hb.
      apply in_map. auto. }
  destruct (fl A (unseen u f rem)) as [|f0 r] eqn:Ef.
  - rewrite (u_find_noreset A _ _ (proj1 M eq_refl)) in K2. fold ui in K2. simpl clm.
    destruct (find_ext A (rewards q)); simpl; lia.
  - assert (Mt : mem A (map fst (unseen u f rem)) = true).
    { destruct (mem A (map fst (unseen u f rem))); auto. destruct M as [_ M]. discriminate (M eq_refl). }
    rewrite (u_find_reset A _ _ Mt) in K2. simpl clm.
    destruct (find_ext A (rewards q)) as [x|] eqn:Ex; simpl.
    + destruct (find_ext_ok _ _ _ _ Ex F) as (_ & Hx & _).
      destruct (Z.ltb_spec (idx x) 0); [lia|]. rewrite Z.sub_0_r in K2. lia.
    + lia.
Qed.

(** A synced user has no claim. *)
Lemma u_find_sync A rs : NoDup (exts rs) ->
  u_find (RExt A 0) (map (fun ri => (rw ri, idx ri)) rs) = option_map idx (find_ext A rs).
Proof.
  intros N. induction rs as [|r t IH]; simpl; auto.
  unfold exts in N. simpl in N. destruct (rw r) as [a|a n] eqn:Er; simpl in *.
  - apply IH. auto.
  - inversion N; subst. destruct (a =? A); auto.
Qed.
Lemma owed_sync A q rem f amt : NoDup (exts (rewards q)) ->
  Forall (fun x : Z * list (Z * Z) => fst x <= last q) f ->
  owedM A q rem f (sync amt q) = 0.
Proof.
  intros N F. unfold owedM, vis, unseen. cbn [claimed amount sync]. rewrite Z.ltb_irrefl.
  rewrite after_none by auto. simpl. unfold uix, actA. simpl. rewrite u_find_sync by auto.
  destruct (find_ext A (rewards q)); simpl; [|lia]. rewrite Z.ltb_irrefl. lia.
Qed.
Lemma sync_ok t q amt : Forall (okR t) (rewards q) -> 0 <= amt -> okU (last q) (sync amt q).
Proof.
  intros F A. unfold okU. simpl. split; auto. split; [lia|].
  apply Forall_forall. intros y Hy. apply in_map_iff in Hy. destruct Hy as (r & <- & Hr). simpl.
  rewrite Forall_forall in F. destruct (F _ Hr) as (_ & H & _). auto.
Qed.

(** ** Saving *)
Lemma runs_concat l : concat (map snd (runs l)) = l.
Proof.
  induction l as [|x r IH]; simpl; auto.
  destruct (runs r) as [|[b g] t]; simpl in *; [subst; auto|].
  destruct (Bool.eqb b (snd (snd x) =? 0)); simpl; rewrite IH; auto.
Qed.
Lemma runs_flag l b g x : In (b, g) (runs l) -> In x g -> (snd (snd x) =? 0) = b.
Proof.
  revert b g. induction l as [|y r IH]; simpl; intros b g H Hx; [contradiction|].
  destruct (runs r) as [|[b' g'] t].
  - destruct H as [H|[]]. injection H as <- <-. destruct Hx as [<-|[]]. auto.
  - destruct (Bool.eqb b' (snd (snd y) =? 0)) eqn:E.
    + apply eqb_prop in E. destruct H as [H|H].
      * injection H as <- <-. destruct Hx as [<-|Hx]; auto. apply (IH b' g'); auto. left; auto.
      * apply (IH b g); auto. right; auto.
    + destruct H as [H|[H|H]].
      * injection H as <- <-. destruct Hx as [<-|[]]. auto.
      * apply (IH b g); auto. left; auto.
      * apply (IH b g); auto. right; auto.
Qed.

Lemma oget_ins a n o A : srt o -> oget (ins a n o) A = if A =? a then n else oget o A.
Proof.
  unfold oget. intros S. rewrite (Z.eqb_sym A a). induction o as [|[k v] r IH]; simpl.
  - destruct (Z.eqb_spec a A); auto.
  - destruct S as [F S]. destruct (Z.ltb_spec a k).
    + simpl. destruct (Z.eqb_spec a A); auto.
    + destruct (Z.eqb_spec a k).
      * subst. simpl. destruct (Z.eqb_spec k A); auto.
      * simpl. destruct (Z.eqb_spec k A); auto. destruct (Z.eqb_spec a A); auto. congruence.
Qed.
Lemma book_spec g : forall o o', book g o = Some o' -> srt o -> 
  Forall (fun x => 0 <= snd (snd x)) g -> (forall A, 0 <= oget o A) ->
  srt o' /\ (forall A, 0 <= oget o' A) /\ (forall A, oget o' A * DEC <= oget o A * DEC + rem_orph A g).
Proof.
  induction g as [|[a [i orp]] r IH]; intros o o' H S F B; simpl in H.
  - injection H as <-. split; auto. split; auto. intros A. unfold rem_orph. simpl. lia.
  - inversion F as [|? ? F1 F2]; subst. simpl in F1.
    unbind H as v E. apply u128_Some in E. destruct E as (-> & _).
    unbind H as n E. apply add128_Some in E. destruct E as (-> & Bn).
    assert (B2 : forall A, 0 <= oget (ins a (oget o a + orp / DEC) o) A)
      by (intros A; rewrite oget_ins by auto; destruct (A =? a); auto; lia).
    destruct (IH _ _ H (srt_ins _ _ _ S) F2 B2) as (I1 & I2 & I3). split; auto. split; auto.
    intros A. specialize (I3 A). rewrite oget_ins in I3 by auto. unfold rem_orph in *. simpl.
    rewrite (Z.eqb_sym a A). destruct (Z.eqb_spec A a); simpl.
    + subst. pose proof (div_mul_le orp DEC DEC_pos). lia.
    + lia.
Qed.

(** All that saving the removed rewards does: at most one of the finished groups survives under
    the time of the update, the orphaned amounts are booked (rounded down). *)
Lemma save_runs_spec ts l : forall f o f' o', save_runs ts l f o = Some (f', o') ->
  srt f -> srt o -> (forall A, 0 <= oget o A) -> Forall (fun x => fst x <= ts) f ->
  Forall (fun x => Forall (fun y => 0 <= snd (snd y)) (snd x)) l ->
  srt o' /\ (forall A, 0 <= oget o' A) /\
  (forall A, oget o' A * DEC <= oget o A * DEC + zsum (map (fun x => rem_orph A (snd x)) (filter (fun x => negb (fst x)) l))) /\
  (f' = f \/ exists g, In (true, g) l /\ f' = ins ts (map (fun x => (fst x, fst (snd x))) g) f).
Proof.
  induction l as [|[b g] r IH]; intros f o f' o' H Sf So B Ff F; simpl in H.
  - injection H as <- <-. split; auto. split; auto. split; [intros; simpl; lia|auto].
  - inversion F as [|? ? F1 F2]; subst. simpl in F1. destruct b.
    + apply IH in H; auto.
      * destruct H as (I1 & I2 & I3 & I4). split; auto. split; auto. split; [auto|].
        right. destruct I4 as [->|(g2 & Hg & ->)].
        -- exists g. split; [left; auto|auto].
        -- exists g2. split; [right; auto|].
           clear - Sf. set (v := map _ g2). set (w := map _ g). clearbody v w.
           induction f as [|[k x] t IHf]; simpl.
           ++ rewrite Z.ltb_irrefl, Z.eqb_refl. auto.
           ++ destruct Sf as [Fk St]. destruct (Z.ltb_spec ts k).
              ** simpl. rewrite Z.ltb_irrefl, Z.eqb_refl. auto.
              ** destruct (Z.eqb_spec ts k).
                 --- simpl. rewrite Z.ltb_irrefl, Z.eqb_refl. auto.
                 --- simpl. replace (ts <? k) with false by (symmetry; apply Z.ltb_ge; auto).
                     replace (ts =? k) with false by (symmetry; apply Z.eqb_neq; auto).
                     f_equal. auto.
      * apply srt_ins. auto.
      * apply Forall_forall. intros x Hx. apply ins_in in Hx. destruct Hx as [->|Hx]; [simpl; lia|].
        rewrite Forall_forall in Ff. auto.
    + unbind H as o1 E. destruct (book_spec _ _ _ E So F1 B) as (J1 & J2 & J3).
      apply IH in H; auto. destruct H as (I1 & I2 & I3 & I4). split; auto. split; auto. split.
      * intros A. specialize (I3 A). specialize (J3 A). simpl. lia.
      * destruct I4 as [->|(g2 & Hg & ->)]; auto. right. exists g2. split; [right; auto|auto].
Qed.

Lemma rem_orph_app A a b : rem_orph A (a ++ b) = rem_orph A a + rem_orph A b.
Proof. unfold rem_orph. rewrite filter_app, map_app, zsum_app. auto. Qed.
Lemma rem_orph_perm A a b : Permutation a b -> rem_orph A a = rem_orph A b.
Proof.
  induction 1; auto.
  - change (x :: l) with ([x] ++ l). change (x :: l') with ([x] ++ l'). rewrite !rem_orph_app. lia.
  - change (y :: x :: l) with ([y] ++ [x] ++ l). change (x :: y :: l) with ([x] ++ [y] ++ l).
    rewrite !rem_orph_app. lia.
  - congruence.
Qed.
Lemma rem_orph_nn A g : Forall (fun x => 0 <= snd (snd x)) g -> 0 <= rem_orph A g.
Proof.
  intros F. unfold rem_orph. apply zsum_nonneg. apply Forall_forall. intros x Hx.
  apply in_map_iff in Hx. destruct Hx as (y & <- & Hy). apply filter_In in Hy.
  rewrite Forall_forall in F. apply F. tauto.
Qed.

(** The indexes of an asset in a group are among the removed ones. *)
Lemma group_sub A rem l g : Permutation l rem -> NoDup (map fst rem) -> In (true, g) (runs l) ->
  sub (fl A (map (fun x => (fst x, fst (snd x))) g)) (fl A (map (fun x => (fst x, fst (snd x))) rem)).
Proof.
  intros Pm N Hg. rewrite !fl_rem.
  assert (Hsub : exists a b, l = a ++ g ++ b).
  { pose proof (runs_concat l) as E. apply in_split in Hg. destruct Hg as (r1 & r2 & Er).
    rewrite Er in E. rewrite map_app, concat_app in E. simpl in E. eauto. }
  destruct Hsub as (a & b & El).
  assert (K : map (fun x => fst (snd x)) (filter (fun x => fst x =? A) l) =
              map (fun x => fst (snd x)) (filter (fun x => fst x =? A) rem)).
  { assert (Nl : NoDup (map fst l)).
    { eapply Permutation_NoDup; [|exact N]. apply Permutation_map. apply Permutation_sym. auto. }
    assert (G : forall k, NoDup (map fst k) -> forall x, In x k -> fst x = A -> filter (fun x : Z * (Z * Z) => fst x =? A) k = [x]).
    { clear. induction k as [|y t IH]; simpl; intros N x Hx Ea; [contradiction|]. inversion N; subst.
      destruct Hx as [->|Hx].
      - rewrite Z.eqb_refl. f_equal. clear - H1. induction t as [|z t IH]; simpl; auto.
        destruct (Z.eqb_spec (fst z) (fst x)); [exfalso; apply H1; left; auto|]. apply IH.
        intros Hi. apply H1. right. auto.
      - destruct (Z.eqb_spec (fst y) (fst x)).
        + exfalso. apply H1. rewrite e. apply in_map. auto.
        + apply IH; auto. }
    destruct (filter (fun x => fst x =? A) rem) as [|y t] eqn:Ef.
    - destruct (filter (fun x => fst x =? A) l) as [|z t] eqn:Eg; auto. exfalso.
      assert (Hz : In z (z :: t)) by (left; auto). rewrite <- Eg in Hz. apply filter_In in Hz.
      destruct Hz as [Hz Hb]. assert (In z (filter (fun x => fst x =? A) rem)).
      { apply filter_In. split; auto. eapply Permutation_in; eauto. }
      rewrite Ef in H. contradiction.
    - assert (Hy : In y (y :: t)) by (left; auto). rewrite <- Ef in Hy. apply filter_In in Hy.
      destruct Hy as [Hy Hb]. apply Z.eqb_eq in Hb.
      rewrite <- Ef. rewrite (G rem N y Hy Hb).
      rewrite (G l Nl y (Permutation_in _ (Permutation_sym Pm) Hy) Hb). auto. }
  rewrite <- K, El, !filter_app, !map_app.
  pose proof (sub_app [] (map (fun x => fst (snd x)) (filter (fun x => fst x =? A) a)) _ _
    (sub_nil _) (sub_app _ _ [] (map (fun x => fst (snd x)) (filter (fun x => fst x =? A) b))
       (sub_refl (map (fun x => fst (snd x)) (filter (fun x => fst x =? A) g))) (sub_nil _))) as H.
  rewrite app_nil_r in H. exact H.
Qed.

Lemma after_ins_fins A c ts v (f : list (Z * list (Z * Z))) : srt f -> Forall (fun x => fst x <= ts) f ->
  sub (fl A (concat (map snd (after c (ins ts v f)))))
      (fl A (concat (map snd (after c f))) ++ (if c <? ts then fl A v else [])).
Proof.
  intros S F. destruct (Z.ltb_spec c ts) as [L|L].
  - rewrite after_ins_gt by auto.
    assert (S2 : srt (after c f)) by (apply srt_after; auto).
    assert (F2 : Forall (fun x => fst x <= ts) (after c f)).
    { apply Forall_forall. intros x Hx. apply in_after in Hx. rewrite Forall_forall in F. apply F. tauto. }
    clear S F L. induction (after c f) as [|[k x] t IH].
    + simpl. rewrite app_nil_r. apply sub_refl.
    + destruct S2 as [Fk St]. inversion F2; subst. simpl in *.
      destruct (Z.ltb_spec ts k); [lia|]. destruct (Z.eqb_spec ts k).
      * subst. assert (t = []) as ->.
        { destruct t as [|[k2 x2] t]; auto. inversion Fk; inversion H2; subst. simpl in *. lia. }
        simpl. rewrite !app_nil_r. apply (sub_app [] (fl A x) _ _ (sub_nil _) (sub_refl _)).
      * simpl. rewrite !fl_app, <- app_assoc. apply sub_app; [apply sub_refl|]. apply IH; auto.
  - rewrite after_ins_le by auto. rewrite app_nil_r. apply sub_refl.
Qed.

(** A well-formed pool after saving owes (together with the booked orphaned rewards) no more than
    in memory before. *)
Lemma save_P A e lp p rem s s' : save e lp p rem s = Some s' ->
  wfm A p rem -> Permutation (ord e rem) rem -> srt (orphs s) -> (forall a, 0 <= oget (orphs s) a) ->
  exists p', s' = set_lps s (put lp p' (lps s)) (orphs s') /\
    srt (orphs s') /\ (forall a, 0 <= oget (orphs s') a) /\
    wf A p' /\ pl p' = pl p /\ users p' = users p /\
    P A p' + oget (orphs s') A * DEC <= Pm A p rem + oget (orphs s) A * DEC.
Proof.
  unfold save. intros H W Pe So B. unbind H as [f o] E. injection H as <-.
  pose proof (m_wf _ _ _ W) as Wp.
  assert (NNo : Forall (fun x => 0 <= snd (snd x)) (ord e rem)).
  { apply Forall_forall. intros x Hx. pose proof (m_nn _ _ _ W) as Q. rewrite Forall_forall in Q.
    apply Q. eapply Permutation_in; eauto. }
  destruct (save_runs_spec _ _ _ _ _ _ E (w_fs _ _ Wp) So B) as (I1 & I2 & I3 & I4).
  { eapply Forall_impl; [|exact (w_fin _ _ Wp)]. simpl. tauto. }
  { apply Forall_forall. intros [b g] Hg. simpl. apply Forall_forall. intros x Hx.
    rewrite Forall_forall in NNo. apply NNo. rewrite <- (runs_concat (ord e rem)).
    apply in_concat. exists g. split; auto. apply in_map_iff. exists (b, g). auto. }
  exists (mkLp (pl p) (users p) (scheds p) f). split; [reflexivity|]. split; auto. split; auto.
  assert (Hg : forall g, In (true, g) (runs (ord e rem)) -> forall x, In x g -> In x rem).
  { intros g Hg x Hx. eapply Permutation_in; [exact Pe|]. rewrite <- (runs_concat (ord e rem)).
    apply in_concat. exists g. split; auto. apply in_map_iff. exists (true, g). auto. }
  assert (Sf : srt f) by (destruct I4 as [->|(g & _ & ->)]; [apply (w_fs _ _ Wp)|apply srt_ins; apply (w_fs _ _ Wp)]).
  assert (Ff : Forall (fun x => fst x <= last (pl p) /\ Forall (fun y => 0 <= snd y) (snd x)) f).
  { destruct I4 as [->|(g & G & ->)]; [apply (w_fin _ _ Wp)|].
    apply Forall_forall. intros x Hx. apply ins_in in Hx. pose proof (w_fin _ _ Wp) as Q.
    rewrite Forall_forall in Q. destruct Hx as [->|Hx]; [|auto]. simpl. split; [lia|].
    apply Forall_forall. intros y Hy. apply in_map_iff in Hy. destruct Hy as (z & <- & Hz). simpl.
    pose proof (m_nn _ _ _ W) as M. rewrite Forall_forall in M. apply (M z). eapply Hg; eauto. }
  split.
  { destruct Wp. constructor; simpl; auto. }
  split; auto. split; auto.
  assert (O : oget o A * DEC <= oget (orphs s) A * DEC + rem_orph A rem).
  { specialize (I3 A). rewrite <- (rem_orph_perm A _ _ Pe).
    assert (Q : zsum (map (fun x => rem_orph A (snd x)) (filter (fun x => negb (fst x)) (runs (ord e rem)))) <= rem_orph A (ord e rem)); [|lia].
    rewrite <- (runs_concat (ord e rem)) at 2.
    assert (NR : Forall (fun x => 0 <= rem_orph A (snd x)) (runs (ord e rem))).
    { apply Forall_forall. intros [b g] Hin. simpl. apply rem_orph_nn. apply Forall_forall. intros x Hx.
      rewrite Forall_forall in NNo. apply NNo. rewrite <- (runs_concat (ord e rem)).
      apply in_concat. exists g. split; auto. apply in_map_iff. exists (b, g). auto. }
    clear - NR. induction NR as [|[b g] r H1 _ IH]; simpl; [unfold rem_orph; simpl; lia|].
    simpl in H1. rewrite rem_orph_app. destruct b; simpl; lia. }
  assert (M : sumf (owedM A (pl p) [] f) (users p) <= sumf (owedM A (pl p) rem (fins p)) (users p)).
  { apply sumf_le. apply Forall_forall. intros u Hu. unfold owedM. rewrite vis_nil.
    pose proof (w_users _ _ Wp) as Q. rewrite Forall_forall in Q. pose proof (Q _ Hu) as Ou.
    pose proof (uix_nn _ A _ Ou) as Ui. destruct Ou as (U1 & U2 & U3).
    apply Z.mul_le_mono_nonneg_l; auto. apply clm_sub; auto.
    - unfold unseen at 1. simpl. rewrite app_nil_r.
      rewrite unseen_app, fl_app. unfold unseen. simpl. rewrite app_nil_r.
      destruct I4 as [->|(g & G & ->)].
      + rewrite <- (app_nil_r (fl A _)) at 1. apply sub_app; [apply sub_refl|apply sub_nil].
      + assert (Fl : Forall (fun x : Z * list (Z * Z) => fst x <= last (pl p)) (fins p)).
        { eapply Forall_impl; [|exact (w_fin _ _ Wp)]. simpl. tauto. }
        pose proof (after_ins_fins A (claimed (snd u)) (last (pl p))
          (map (fun x => (fst x, fst (snd x))) g) (fins p) (w_fs _ _ Wp) Fl) as K.
        assert (K2 : sub (fl A (concat (map snd (after (claimed (snd u)) (fins p)))) ++
            (if claimed (snd u) <? last (pl p) then fl A (map (fun x => (fst x, fst (snd x))) g) else []))
           (fl A (concat (map snd (after (claimed (snd u)) (fins p)))) ++
            fl A (map (fun x => (fst x, fst (snd x))) (vis (snd u) (pl p) rem)))).
        { apply sub_app; [apply sub_refl|]. unfold vis.
          destruct (claimed (snd u) <? last (pl p)); [|apply sub_nil].
          apply (group_sub A rem _ _ Pe (m_nd _ _ _ W) G). }
        clear - K K2.
        revert K K2. generalize (fl A (concat (map snd (after (claimed (snd u))
          (ins (last (pl p)) (map (fun x : Z * (Z * Z) => (fst x, fst (snd x))) g) (fins p)))))).
        intros a K K2. 
        enough (T : forall a b, sub a b -> forall c, sub b c -> sub a c) by (eapply T; eauto).
        clear. intros a b H c H2. revert a H. induction H2; intros a Ha.
        * inversion Ha; subst. constructor.
        * apply sub_skip. auto.
        * inversion Ha; subst; [constructor|apply sub_skip; auto|apply sub_keep; auto].
    - apply fl_nn. apply unseen_nn; [eapply wf_fins_nn; eauto|].
      unfold vis. destruct (_ <? _); [|constructor]. eapply Forall_impl; [|exact (m_nn _ _ _ W)]. simpl. tauto.
    - eapply actA_nn. apply (w_rw _ _ Wp). }
  unfold P, Pm. simpl. unfold rem_orph at 1. simpl. lia.
Qed.
