(** Incentives: in regular histories a staker's finished indexes never fall behind, so that the
    pending rewards can be computed and the staker can leave. *)
From Coq Require Import ZArith Lia Bool List Permutation.
From Verif Require Import Num Amap Ledger IncentivesModel IncentivesSpec IncentivesExitSpec IncentivesSched IncentivesPool
  IncentivesPay IncentivesOps IncentivesInv IncentivesStep IncentivesProofs IncentivesExact IncentivesPending IncentivesMove IncentivesLock
  IncentivesEmission IncentivesBudget.
Import ListNotations.
Open Scope Z_scope.

(** ** Every change of a pool keeps it well-formed *)
Definition with_total (n : Z) (q : pool) : pool := mkPool n (rewards q) (last q).

Lemma chg_wfm A m t ast p rem q' sch rem' :
  wfm A p rem -> last (pl p) = t -> unsigned m ->
  (forall lp a b to, m = RemoveReward lp a b to -> A = a -> b = false) ->
  (forall a, In a (map fst rem) -> find_ext a (rewards (pl p)) = None) ->
  chg m t ast (scheds p) (pl p) q' sch -> rchg m (scheds p) (pl p) q' sch rem rem' ->
  last q' = last (pl p) /\
  wfm A (mkLp (with_total (total_lp (pl p)) q') (users p) sch (fins p)) rem'.
Proof.
  intros W Lt Um Nb Nr C R. pose proof (m_wf _ _ _ W) as Wp. pose proof (w_total _ _ Wp) as Wt.
  destruct R as [[Rm ->]|(lp & a & b & to & x & sc & v & Em & D & -> & ->)].
  - remember (pl p) as q0 eqn:Eq0. remember (scheds p) as sc0 eqn:Es0.
    destruct C as [sc q n|sc q q' a r tt al E|sc q q' E|sc q l f lp a amt n ne en r rs s2 Em Hin Ef E|sc q q' lp a b to x s2 v Em E];
      subst sc q.
    + split; auto. destruct p as [q0 us s0 f0]. destruct q0. exact W.
    + destruct (set_astro_keeps _ _ _ _ _ _ E) as (K1 & K2 & K3). split; auto.
      unfold with_total. rewrite K2. apply (keeps_wfm A p rem (rewards q') (total_lp (pl p)) W K3 Wt).
    + destruct (disable_keeps _ _ E) as (K1 & K2 & K3). split; auto.
      unfold with_total. rewrite K2. apply (keeps_wfm A p rem (rewards q') (total_lp (pl p)) W K3 Wt).
    + split; auto. subst m. simpl in Um. rewrite Forall_forall in Um. specialize (Um _ Hin). simpl in Um.
      destruct (from_input_Some _ _ _ _ _ _ Ef Um) as (F1 & F2 & F3 & F4 & F5 & F6 & F7).
      unfold with_total. cbn [rewards last]. pose proof DEC_pos.
      apply (incentivize_P A ast a ne en r p rem rs s2 W E); try lia.
      unfold EPOCH_LENGTH in *. lia.
    + subst m. discriminate.
  - assert (Na : ~ In a (map fst rem)).
    { intros Hi. specialize (Nr _ Hi). unfold deregister in D. rewrite Nr in D. discriminate. }
    destruct (deregister_P A a b p rem q' x sc v W D Na (fun E => Nb _ _ _ _ Em E)) as (K1 & _ & K3 & K4 & _).
    split; auto. unfold with_total. rewrite <- K4. destruct q'. exact K1.
Qed.

Lemma uchg_wfm A e q q' rem p us sch rem' :
  wfm A (mkLp (with_total (total_lp q) q') (users p) sch (fins p)) rem' ->
  uchg e q q' rem p us -> wfm A (mkLp q' us sch (fins p)) rem'.
Proof.
  intros W U. pose proof (m_wf _ _ _ W) as Wp.
  pose proof (w_total _ _ Wp) as Wt. cbn in Wt. pose proof (w_users _ _ Wp) as Wu. cbn in Wu.
  pose proof (w_nd _ _ Wp) as Wn. cbn in Wn. pose proof (w_rw _ _ Wp) as Wr. cbn in Wr.
  assert (G : total_lp q' = sumf amount us /\ Forall (fun x => okU (last q') (snd x)) us /\ NoDup (keys us)).
  { destruct U as [T|who u a d -> D A0 T|who u d E D T].
    - split; [congruence|]. auto.
    - rewrite sumf_put. assert (Oa : 0 <= a).
      { apply A0. destruct (find who (users p)) as [v|] eqn:E; [|simpl; lia].
        destruct (Forall_find _ _ _ _ Wu E) as (H & _). exact H. }
      split; [destruct (find who (users p)); simpl in *; lia|]. split; [|apply keys_put; auto].
      apply Forall_put; auto. simpl. apply (sync_ok (last q')); auto.
    - rewrite sumf_del by auto. rewrite E. split; [lia|]. split; [apply Forall_del; auto|apply keys_del; auto]. }
  destruct G as (G1 & G2 & G3). destruct W as [W N NN]. destruct W. constructor; auto. constructor; auto.
Qed.

(** ** Finished indexes are never below those of a staker *)
Definition safe (A : Z) (q : pool) (rem : removed) (f : list (Z * list (Z * Z))) (u : uinfo) : Prop :=
  0 < amount u ->
  match fl A (unseen u f (vis u q rem)) with
  | f0 :: _ => uix A u <= f0
  | [] => match actA A (rewards q) with Some i => uix A u <= i | None => uix A u = 0 end
  end.
Definition safes (A : Z) (p : lpst) (rem : removed) : Prop :=
  Forall (fun x => safe A (pl p) rem (fins p) (snd x)) (users p).

Lemma safe_sync A q rem f a : NoDup (exts (rewards q)) ->
  Forall (fun x : Z * list (Z * Z) => fst x <= last q) f -> safe A q rem f (sync a q).
Proof.
  intros N F _. unfold vis, unseen. cbn [claimed sync]. rewrite Z.ltb_irrefl.
  rewrite after_none by auto. simpl. unfold uix, actA. simpl. rewrite u_find_sync by auto.
  destruct (find_ext A (rewards q)); simpl; lia.
Qed.
Lemma fl_unseen A u f rem : fl A (unseen u f rem) =
  fl A (unseen u f []) ++ map (fun x => fst (snd x)) (filter (fun x => fst x =? A) rem).
Proof. rewrite unseen_app, fl_app, fl_rem. auto. Qed.

Lemma update_safe A now p q rem : wf A p -> update_rewards now p = Some (q, rem) -> safes A p [] ->
  safes A (with_pl p q) rem.
Proof.
  intros W H S. unfold update_rewards in H. destruct (Z.leb_spec now (last (pl p))) as [L|L].
  - injection H as <- <-. destruct p. exact S.
  - unbind H as [rs rem'] E. injection H as <- <-. pose proof (wf_total_nn _ _ W) as T.
    destruct (upd_all_spec _ _ _ _ _ _ _ E L T (w_ext _ _ W) (w_rw _ _ W) (w_sch _ _ W)) as
      (I1 & I2 & I3 & I4 & I5 & I6 & I7 & I8 & I9).
    unfold safes, with_pl in *. cbn [pl users fins]. apply Forall_forall. intros u Hu.
    rewrite Forall_forall in S. specialize (S _ Hu).
    pose proof (w_users _ _ W) as Q. rewrite Forall_forall in Q. destruct (Q _ Hu) as (_ & C & _).
    unfold safe in *. intros P0. specialize (S P0). rewrite vis_nil in S.
    assert (V : vis (snd u) (mkPool (total_lp (pl p)) rs now) rem' = rem').
    { unfold vis. cbn [last]. replace (claimed (snd u) <? now) with true; auto. symmetry. apply Z.ltb_lt. lia. }
    rewrite V, fl_unseen. destruct (fl A (unseen (snd u) (fins p) [])) as [|f0 r] eqn:Ef; [|exact S].
    cbn [app rewards]. unfold actA in *. specialize (I9 A). destruct (find_ext A (rewards (pl p))) as [x|] eqn:Ex.
    + destruct I9 as (x' & gone & U & G). simpl in S.
      destruct (find_ext_in _ _ _ Ex) as (Hin & n & Rn). destruct (w_sch _ _ W A) as (S1 & S2).
      pose proof (find_ext_ok _ _ _ _ Ex (w_rw _ _ W)) as Ox.
      destruct (upd_one_ext _ _ _ _ _ _ _ _ _ U Rn L T Ox S1 S2) as (d & coll & D1 & D2 & D3 & _).
      destruct gone; destruct G as (G1 & G2); rewrite G2, G1; simpl; lia.
    + destruct I9 as (G1 & G2). rewrite G2, G1. simpl in *. auto.
Qed.

(** Changes of the pool keep the index of every reward, or add one that starts at 0. *)
Lemma chg_act A m t ast sc q q' sch : removes m = false -> NoDup (exts (rewards q)) -> chg m t ast sc q q' sch ->
  actA A (rewards q') = actA A (rewards q) \/ (actA A (rewards q) = None /\ actA A (rewards q') = Some 0).
Proof.
  intros Rm N C. unfold actA.
  destruct C as [sc q n|sc q q' a r tt al E|sc q q' E|sc q l f lp a amt n ne en r rs s2 Em Hin Ef E|sc q q' lp a b to x s2 v Em E].
  - auto.
  - left. destruct (set_astro_keeps _ _ _ _ _ _ E) as (_ & _ & K). rewrite (k_find _ _ K). auto.
  - left. destruct (disable_keeps _ _ E) as (_ & _ & K). rewrite (k_find _ _ K). auto.
  - cbn [rewards]. unfold incentivize_pool in E. destruct (find_ext a (rewards q)) as [x|] eqn:Ex.
    + left. unbind E as r' Er. destruct (en <=? next_of (rw x)).
      * injection E as <- <-. rewrite upd_ext_find by (intros; eexists; reflexivity).
        destruct (Z.eqb_spec A a); [subst; rewrite Ex|]; auto.
      * unbind E as sv Es. injection E as <- <-. rewrite upd_ext_find by (intros y k Hy; exists k; exact Hy).
        destruct (Z.eqb_spec A a); [subst; rewrite Ex|]; auto.
    + unguard E G. injection E as <- <-. rewrite find_ext_app. destruct (find_ext A (rewards q)) eqn:EA; auto.
      simpl. destruct (Z.eqb_spec a A); auto.
  - subst. discriminate.
Qed.
Lemma chg_safe A m t ast p rem q' sch rem' :
  wfm A p rem -> (rem' <> [] -> Forall (fun x => claimed (snd x) < last (pl p)) (users p)) ->
  (forall a, In a (map fst rem) -> find_ext a (rewards (pl p)) = None) -> last q' = last (pl p) ->
  chg m t ast (scheds p) (pl p) q' sch -> rchg m (scheds p) (pl p) q' sch rem rem' ->
  safes A p rem -> Forall (fun x => safe A q' rem' (fins p) (snd x)) (users p).
Proof.
  intros W Cl Nr El C R S. pose proof (w_ext _ _ (m_wf _ _ _ W)) as N.
  unfold safes in S. apply Forall_forall. intros u Hu. rewrite Forall_forall in S. specialize (S _ Hu).
  intros P0. specialize (S P0). unfold vis in *. rewrite El.
  destruct R as [[Rm ->]|(lp & a & b & to & x & sc & v & Em & D & -> & ->)].
  - destruct (fl A _); auto.
    destruct (chg_act A _ _ _ _ _ _ _ Rm N C) as [->|[E1 ->]]; auto. rewrite E1 in S. lia.
  - specialize (Cl ltac:(discriminate)). rewrite Forall_forall in Cl. specialize (Cl _ Hu).
    replace (claimed (snd u) <? last (pl p)) with true in * by (symmetry; apply Z.ltb_lt; auto).
    unfold deregister in D. unbind D as y Ey. unbind D as r0 E0. unbind D as [r1 s2] E1. unbind D as r2 E2.
    unbind D as v' E3. injection D as <- <- <- <-. cbn [rewards].
    assert (Na : ~ In a (map fst rem)) by (intros Hi; rewrite (Nr _ Hi) in Ey; discriminate).
    rewrite fl_unseen in S |- *. unfold actA in *. rewrite del_ext_find by auto.
    destruct (fl A (unseen (snd u) (fins p) [])); cbn [app] in *; [|exact S].
    cbn [filter fst]. rewrite (Z.eqb_sym a A). destruct (Z.eqb_spec A a).
    + subst. cbn [map fst snd]. assert (Z0 : filter (fun x : Z * (Z * Z) => fst x =? a) rem = []).
      { clear - Na. induction rem as [|z r IH]; simpl in *; auto.
        destruct (Z.eqb_spec (fst z) a); [exfalso; auto|]. apply IH. tauto. }
      rewrite Z0 in S. simpl in S. rewrite Ey in S. exact S.
    + exact S.
Qed.
Lemma uchg_safe A e q q' rem p us rem' :
  NoDup (exts (rewards q')) -> Forall (fun x : Z * list (Z * Z) => fst x <= last q') (fins p) ->
  uchg e q q' rem p us -> Forall (fun x => safe A q' rem' (fins p) (snd x)) (users p) ->
  Forall (fun x => safe A q' rem' (fins p) (snd x)) us.
Proof.
  intros N F U S. destruct U as [T|who u a d -> D A0 T|who u d E D T]; auto.
  - apply Forall_put; auto. simpl. apply safe_sync; auto.
  - apply Forall_del. auto.
Qed.

Lemma runs_zero l : Forall (fun x : Z * (Z * Z) => snd (snd x) = 0) l ->
  runs l = match l with [] => [] | _ => [(true, l)] end.
Proof.
  induction 1 as [|x r Hx _ IH]; auto. simpl. rewrite IH, Hx, Z.eqb_refl. destruct r; auto.
Qed.
Lemma filter_one A : forall k, NoDup (map fst k) -> forall x, In x k -> fst x = A ->
  filter (fun x : Z * (Z * Z) => fst x =? A) k = [x].
Proof.
  induction k as [|y t IH]; simpl; intros N x Hx Ea; [contradiction|]. inversion N; subst.
  destruct Hx as [->|Hx].
  - rewrite Z.eqb_refl. f_equal. clear - H1. induction t as [|z t IH]; simpl; auto.
    destruct (Z.eqb_spec (fst z) (fst x)); [exfalso; apply H1; left; auto|]. apply IH.
    intros Hi. apply H1. right. auto.
  - destruct (Z.eqb_spec (fst y) (fst x)).
    + exfalso. apply H1. rewrite e. apply in_map. auto.
    + apply IH; auto.
Qed.
Lemma filter_perm A l rem : Permutation l rem -> NoDup (map fst rem) ->
  filter (fun x : Z * (Z * Z) => fst x =? A) l = filter (fun x => fst x =? A) rem.
Proof.
  intros Pe N. assert (Nl : NoDup (map fst l)).
  { eapply Permutation_NoDup; [|exact N]. apply Permutation_map. apply Permutation_sym. auto. }
  destruct (filter (fun x => fst x =? A) rem) as [|y t] eqn:Ef.
  - destruct (filter (fun x => fst x =? A) l) as [|z t] eqn:Eg; auto. exfalso.
    assert (Hz : In z (z :: t)) by (left; auto). rewrite <- Eg in Hz. apply filter_In in Hz.
    destruct Hz as [Hz Hb]. assert (In z (filter (fun x => fst x =? A) rem)).
    { apply filter_In. split; auto. eapply Permutation_in; eauto. }
    rewrite Ef in H. contradiction.
  - assert (Hy : In y (y :: t)) by (left; auto). rewrite <- Ef in Hy. apply filter_In in Hy.
    destruct Hy as [Hy Hb]. apply Z.eqb_eq in Hb. rewrite <- Ef. rewrite (filter_one A rem N y Hy Hb).
    apply (filter_one A l Nl y (Permutation_in _ (Permutation_sym Pe) Hy) Hb).
Qed.
Lemma ins_last {V} ts (v : V) f : Forall (fun x => fst x < ts) f -> ins ts v f = f ++ [(ts, v)].
Proof.
  induction 1 as [|[k w] r Hk _ IH]; simpl; auto. simpl in Hk.
  destruct (Z.ltb_spec ts k); [lia|]. destruct (Z.eqb_spec ts k); [lia|]. rewrite IH. auto.
Qed.
Lemma save_runs_keys ts l : forall f o f' o' c, save_runs ts l f o = Some (f', o') -> ts <= c -> after c f' = after c f.
Proof.
  induction l as [|[b g] r IH]; intros f o f' o' c H L; simpl in H.
  - injection H as <- <-. auto.
  - destruct b.
    + rewrite (IH _ _ _ _ c H L). apply after_ins_le. auto.
    + unbind H as o1 E. apply (IH _ _ _ _ c H L).
Qed.
Lemma save_safe A e lp p rem s s' : save e lp p rem s = Some s' -> Permutation (ord e rem) rem ->
  wfm A p rem -> (rem <> [] -> Forall (fun x => fst x < last (pl p)) (fins p)) ->
  (forall k u, In (k, u) (users p) -> 0 < amount u -> claimed u < last (pl p) -> Forall (fun x => snd (snd x) = 0) rem) ->
  safes A p rem -> exists f, lps s' = put lp (mkLp (pl p) (users p) (scheds p) f) (lps s) /\
    safes A (mkLp (pl p) (users p) (scheds p) f) [].
Proof.
  unfold save. intros H Pe W Lf Z0 S. unbind H as [f o] E. injection H as <-. exists f. split; auto.
  unfold safes in *. cbn [pl users fins]. apply Forall_forall. intros [k u] Hu.
  rewrite Forall_forall in S. specialize (S _ Hu). cbn [snd] in *. intros P0. specialize (S P0).
  rewrite vis_nil. unfold vis in S. pose proof (m_wf _ _ _ W) as Wp.
  destruct (Z.ltb_spec (claimed u) (last (pl p))) as [L|L].
  - specialize (Z0 _ _ Hu P0 L). assert (Zo : Forall (fun x => snd (snd x) = 0) (ord e rem)).
    { eapply Permutation_Forall; [apply Permutation_sym; exact Pe|exact Z0]. }
    rewrite (runs_zero _ Zo) in E. destruct (ord e rem) as [|x r] eqn:Eo.
    + apply Permutation_nil in Pe. subst rem. simpl in E. injection E as <- <-. exact S.
    + simpl in E. injection E as <- <-.
      assert (Hr : rem <> []) by (intros ->; apply Permutation_sym in Pe; apply Permutation_nil in Pe; discriminate).
      specialize (Lf Hr).
      assert (Q : fl A (unseen u (ins (last (pl p)) ((fst x, fst (snd x)) :: map (fun x => (fst x, fst (snd x))) r) (fins p)) []) =
                  fl A (unseen u (fins p) rem)).
      { rewrite ins_last by auto. rewrite (fl_unseen A u (fins p) rem), <- (filter_perm A (x :: r) rem Pe (m_nd _ _ _ W)).
        unfold unseen. simpl map at 2. rewrite !app_nil_r. unfold after. rewrite filter_app. cbn [filter fst].
        replace (claimed u <? last (pl p)) with true by (symmetry; apply Z.ltb_lt; auto).
        rewrite map_app, concat_app, fl_app. cbn [map concat snd]. rewrite app_nil_r. f_equal.
        change ((fst x, fst (snd x)) :: map (fun x0 => (fst x0, fst (snd x0))) r) with
          (map (fun x0 : Z * (Z * Z) => (fst x0, fst (snd x0))) (x :: r)). apply fl_rem. }
      rewrite Q. exact S.
  - unfold unseen in *. rewrite (save_runs_keys _ _ _ _ _ _ _ E L). exact S.
Qed.

(** While somebody has a position nothing is orphaned by an update. *)
Lemma update_orph A now p q rem : wf A p -> update_rewards now p = Some (q, rem) -> 0 < total_lp (pl p) ->
  Forall (fun x => snd (snd x) = 0) rem /\
  (last (pl p) < now -> forall a x, find_ext a (rewards q) = Some x -> orph x = 0).
Proof.
  intros W H T. unfold update_rewards in H. destruct (Z.leb_spec now (last (pl p))) as [L|L].
  - injection H as <- <-. split; [constructor|lia].
  - unbind H as [rs rem'] E. injection H as <- <-.
    destruct (upd_all_spec _ _ _ _ _ _ _ E L (Z.lt_le_incl _ _ T) (w_ext _ _ W) (w_rw _ _ W) (w_sch _ _ W)) as
      (I1 & I2 & I3 & I4 & I5 & I6 & I7 & I8 & I9).
    assert (G : forall a x x' gone, find_ext a (rewards (pl p)) = Some x ->
      upd_one now (last (pl p)) (total_lp (pl p)) (sched_of a (scheds p)) x = Some (x', gone) -> orph x' = 0).
    { intros a x x' gone Ex U. destruct (find_ext_in _ _ _ Ex) as (Hin & n & Rn). destruct (w_sch _ _ W a) as (S1 & S2).
      pose proof (find_ext_ok _ _ _ _ Ex (w_rw _ _ W)) as Ox.
      destruct (upd_one_ext _ _ _ _ _ _ _ _ _ U Rn L (Z.lt_le_incl _ _ T) Ox S1 S2) as (d & coll & _ & _ & _ & _ & _ & _ & D8 & _).
      apply D8. auto. }
    split.
    + apply Forall_forall. intros [a [i o]] Hx. assert (Ha : In a (exts (rewards (pl p)))).
      { apply I4. apply in_map_iff. exists (a, (i, o)). auto. }
      specialize (I9 a). destruct (find_ext a (rewards (pl p))) as [x|] eqn:Ex.
      * destruct I9 as (x' & gone & U & Q). pose proof (G _ _ _ _ Ex U) as O.
        assert (Hf : In (a, (i, o)) (filter (fun x => fst x =? a) rem')) by (apply filter_In; rewrite Z.eqb_refl; auto).
        destruct gone; destruct Q as [_ Q]; rewrite Q in Hf; [|contradiction].
        destruct Hf as [Hf|[]]. injection Hf as _ <-. simpl. auto.
      * apply find_ext_exts in Ex. contradiction.
    + intros _ a x Hx. simpl in Hx. specialize (I9 a). destruct (find_ext a (rewards (pl p))) as [y|] eqn:Ex.
      * destruct I9 as (x' & gone & U & Q). pose proof (G _ _ _ _ Ex U) as O.
        destruct gone; destruct Q as [Q _]; rewrite Q in Hx; [discriminate|]. injection Hx as <-. auto.
      * destruct I9 as [Q _]. rewrite Q in Hx. discriminate.
Qed.

(** Saving keeps a well-formed pool. *)
Lemma save_runs_fins ts l : forall f o f' o', save_runs ts l f o = Some (f', o') -> srt f ->
  Forall (fun x => fst x <= ts) f -> Forall (fun x : bool * removed => Forall (fun y => 0 <= fst (snd y)) (snd x)) l ->
  Forall (fun x => Forall (fun y => 0 <= snd y) (snd x)) f ->
  srt f' /\ Forall (fun x => fst x <= ts) f' /\ Forall (fun x => Forall (fun y => 0 <= snd y) (snd x)) f'.
Proof.
  induction l as [|[b g] r IH]; intros f o f' o' H Sf Ff Fl Fn; simpl in H.
  - injection H as <- <-. auto.
  - inversion Fl as [|? ? F1 F2]; subst. simpl in F1. destruct b.
    + apply (IH _ _ _ _ H); auto; [apply srt_ins; auto| |].
      * apply Forall_forall. intros x Hx. apply ins_in in Hx. rewrite Forall_forall in Ff.
        destruct Hx as [->|Hx]; [simpl; lia|auto].
      * apply Forall_forall. intros x Hx. apply ins_in in Hx. rewrite Forall_forall in Fn.
        destruct Hx as [->|Hx]; [|auto]. simpl. clear - F1. induction F1; constructor; auto.
    + unbind H as o1 E. apply (IH _ _ _ _ H); auto.
Qed.
Lemma save_wf A e lp p rem s s' : save e lp p rem s = Some s' -> Permutation (ord e rem) rem -> wfm A p rem ->
  exists f, lps s' = put lp (mkLp (pl p) (users p) (scheds p) f) (lps s) /\ wf A (mkLp (pl p) (users p) (scheds p) f).
Proof.
  unfold save. intros H Pe W. unbind H as [f o] E. injection H as <-. exists f. split; auto.
  pose proof (m_wf _ _ _ W) as Wp.
  edestruct (save_runs_fins _ _ _ _ _ _ E (w_fs _ _ Wp)) as (K1 & K2 & K3).
  { eapply Forall_impl; [|exact (w_fin _ _ Wp)]. simpl. tauto. }
  { apply Forall_forall. intros [b g] Hg. simpl. apply Forall_forall. intros x Hx.
    pose proof (m_nn _ _ _ W) as Q. rewrite Forall_forall in Q. apply (Q x).
    eapply Permutation_in; [exact Pe|]. rewrite <- (runs_concat (ord e rem)).
    apply in_concat. exists g. split; auto. apply in_map_iff. exists (b, g). auto. }
  { eapply wf_fins_nn; eauto. }
  destruct Wp. constructor; auto. cbn [fins pl]. rewrite Forall_forall in K2, K3. apply Forall_forall. auto.
Qed.

Definition winv (A T : Z) (s : state) : Prop := Forall (fun x => wf A (snd x) /\ last (pl (snd x)) <= T) (lps s).
Lemma winv_later A T T' s : winv A T s -> T <= T' -> winv A T' s.
Proof. intros H L. eapply Forall_impl; [|exact H]. simpl. intros a [H1 H2]. split; auto. lia. Qed.
Lemma winv_cur A T lp s : winv A T s -> 0 <= T -> wf A (cur lp s) /\ last (pl (cur lp s)) <= T.
Proof.
  intros I L. unfold cur. destruct (find lp (lps s)) as [p|] eqn:E; [apply (Forall_find _ _ _ _ I E)|].
  split; [apply wf_empty|simpl; lia].
Qed.
Definition sall (A : Z) (s : state) : Prop := Forall (fun x => 0 <= last (pl (snd x)) /\ safes A (snd x) []) (lps s).
Lemma sall_cur A lp s : sall A s -> 0 <= last (pl (cur lp s)) /\ safes A (cur lp s) [].
Proof.
  intros H. unfold cur. destruct (find lp (lps s)) as [p|] eqn:E; [apply (Forall_find _ _ _ _ H E)|].
  split; [simpl; lia|constructor].
Qed.
Lemma commit_safe A m e ast lp s s' q rem q' us sch rem' :
  winv A (now e) s -> 0 <= now e -> env_ok e -> unsigned m ->
  (forall l a b to, m = RemoveReward l a b to -> A = a -> b = false) ->
  (removes m = true -> last (pl (cur lp s)) < now e) ->
  update_rewards (now e) (cur lp s) = Some (q, rem) -> chg m (now e) ast (scheds (cur lp s)) q q' sch ->
  uchg e q q' rem (cur lp s) us -> rchg m (scheds (cur lp s)) q q' sch rem rem' ->
  save e lp (mkLp q' us sch (fins (cur lp s))) rem' s = Some s' ->
  sall A s -> winv A (now e) s' /\ sall A s'.
Proof.
  intros I L Eo Um Nb Fr U C St R S K. destruct (winv_cur A _ lp s I L) as [W Ll].
  destruct (update_P A _ _ q rem W U) as (Wq & _ & Lq & Tq & Lr & Gn). rewrite Z.max_l in Lq by auto.
  set (p := cur lp s) in *.
  assert (Lf : rem' <> [] -> last (pl p) < last q).
  { destruct R as [[_ ->]|(l & a & b & to & x & sc & v & Em & D & -> & ->)]; auto.
    intros _. rewrite Lq. apply Fr. subst m. reflexivity. }
  assert (Wr : wfm A (mkLp (with_total (total_lp q) q') (users p) sch (fins p)) rem' /\ last q' = last q).
  { destruct (chg_wfm A m (now e) ast (with_pl p q) rem q' sch rem' Wq) as [E1 E2]; auto. }
  destruct Wr as [Wr El].
  assert (Ws : wfm A (mkLp q' us sch (fins p)) rem') by (eapply uchg_wfm; eauto).
  assert (Cu : forall x, In x (users p) -> claimed (snd x) <= last (pl p)).
  { intros x Hx. pose proof (w_users _ _ W) as Q. rewrite Forall_forall in Q. apply (Q _ Hx). }
  assert (S1 : safes A (with_pl p q) rem) by (eapply update_safe; eauto; apply sall_cur; auto).
  assert (S2 : Forall (fun x => safe A q' rem' (fins p) (snd x)) (users p)).
  { apply (chg_safe A m (now e) ast (with_pl p q) rem q' sch rem'); auto.
    intros Hr. apply Forall_forall. intros x Hx. simpl. specialize (Cu _ Hx). specialize (Lf Hr). lia. }
  assert (Fl : Forall (fun x : Z * list (Z * Z) => fst x <= last q') (fins p)).
  { eapply Forall_impl; [|exact (w_fin _ _ (m_wf _ _ _ Ws))]. simpl. tauto. }
  assert (S3 : safes A (mkLp q' us sch (fins p)) rem').
  { unfold safes. cbn [pl users fins]. eapply uchg_safe; eauto. apply (w_ext _ _ (m_wf _ _ _ Ws)). }
  split.
  { destruct (save_wf A _ _ _ _ _ _ S (Eo _) Ws) as (f & Ef & Wf). unfold winv. rewrite Ef. apply Forall_put; auto.
    simpl. split; [exact Wf|lia]. }
  destruct (save_safe A e lp _ rem' s s' S (Eo rem') Ws) as (f & Ef & Sf); auto.
  - intros Hr. cbn [pl fins]. specialize (Lf Hr). pose proof (w_fin _ _ W) as Q.
    eapply Forall_impl; [|exact Q]. simpl. intros x [Hx _]. lia.
  - intros k u Hu Pa Cl. cbn [pl users] in Hu, Cl.
    assert (Hk : In (k, u) (users p)).
    { destruct St as [|who v a d _ _ _ _|who v d _ _ _]; auto.
      - apply in_put in Hu. destruct Hu as [Hu|Hu]; auto. injection Hu as _ ->. simpl in Cl. lia.
      - eapply in_del; eauto. }
    assert (Tp : 0 < total_lp (pl p)).
    { rewrite (w_total _ _ W). pose proof (w_users _ _ W) as Q. clear - Hk Pa Q.
      induction Q as [|[k' v] r (H1 & _) Q IH]; [contradiction|]. simpl in *.
      assert (0 <= sumf amount r) by (clear - Q; induction Q as [|[k v] r (H1 & _) _ IH]; simpl in *; lia).
      destruct Hk as [Hk|Hk]; [injection Hk as -> ->; lia|]. specialize (IH Hk). lia. }
    destruct (update_orph A _ _ _ _ W U Tp) as [O1 O2].
    destruct R as [[_ ->]|(l & a & b & to & x & sc & v & Em & D & -> & ->)]; auto.
    constructor; auto. assert (Fr' : last (pl p) < now e) by (apply Fr; subst m; reflexivity).
    unfold deregister in D. unbind D as y Ey. unbind D as r0 E0. unbind D as [r1 s2] E1. unbind D as r2 E2.
    unbind D as v' E3. injection D as <- <- <- <-. simpl. apply (O2 Fr' a). auto.
  - unfold sall. rewrite Ef. apply Forall_put; auto. split; [simpl; lia|exact Sf].
Qed.

Lemma relabel_wf A T a l : forall m m', relabel a l m = Some m' ->
  Forall (fun x => wf A (snd x) /\ last (pl (snd x)) <= T) m -> Forall (fun x => 0 <= last (pl (snd x)) /\ safes A (snd x) []) m ->
  Forall (fun x => wf A (snd x) /\ last (pl (snd x)) <= T) m' /\ Forall (fun x => 0 <= last (pl (snd x)) /\ safes A (snd x) []) m'.
Proof.
  induction l as [|[lp al] r IH]; intros m m' H F S; simpl in H.
  - injection H as <-. auto.
  - unbind H as p Ep. unguard H G.
    assert (K : keeps (rewards (pl p)) (upd_int (fun x => mkR (RInt a) (rps x) (idx x) (orph x)) (rewards (pl p)))).
    { apply upd_int_keeps. intros x Hx. split; auto. intros t (O1 & O2 & O3 & O4). unfold okR. simpl.
      repeat (split; auto). intros Hc. discriminate. }
    destruct (Forall_find _ _ _ _ F Ep) as [W Lp]. destruct (Forall_find _ _ _ _ S Ep) as [L0 Sp]. cbn [snd] in W, Lp, L0, Sp.
    assert (Wm : wfm A p []) by (constructor; [auto|constructor|constructor]).
    destruct (keeps_wfm A p [] _ (total_lp (pl p)) Wm K (w_total _ _ W)) as [W' _].
    eapply IH; [exact H| |].
    + apply Forall_put; auto. simpl. split; [apply (m_wf _ _ _ W')|auto].
    + apply Forall_put; auto. simpl. split; auto. unfold safes in *. cbn [pl users fins].
      eapply Forall_impl; [|exact Sp]. intros u Hs Pu. specialize (Hs Pu). unfold vis, actA in *. cbn [rewards last].
      rewrite (k_find _ _ K). exact Hs.
Qed.
Lemma mv_safe A m e ast s s' : mv m e ast s s' -> removes m = false -> 0 <= now e -> env_ok e -> unsigned m ->
  winv A (now e) s -> sall A s -> winv A (now e) s' /\ sall A s'.
Proof.
  intros M Rm T0 Eo Um. induction M as [s s' E|lp s s' q rem q' us sch rem' U C St R S|a s s' H|s1 s2 s3 M1 IH1 M2 IH2]; intros I K.
  - unfold winv, sall in *. rewrite E. auto.
  - eapply commit_safe; eauto; [|congruence]. intros l a b to ->. discriminate.
  - apply (relabel_wf A (now e) a (active s) (lps s) (lps s') H I K).
  - destruct (IH1 I K). auto.
Qed.

Lemma step_safe A e sd m s s' o : step e sd m s = Some (s', o) -> winv A (now e) s -> 0 <= now e -> env_ok e ->
  unsigned m -> regular_removal e m s -> sall A s -> winv A (now e) s' /\ sall A s'.
Proof.
  intros H I T0 Eo Um Rg K. destruct (removes m) eqn:Rm.
  - destruct m as [ | | | | | |lp asset bypass to| | | | | |]; try discriminate. simpl in H, Rg. destruct Rg as (-> & _ & Fr).
    unfold remove_reward in H. unguard H G. unbind H as p Ep.
    assert (Ec : cur lp s = p) by (unfold cur; rewrite Ep; auto).
    unbind H as [q rem] E. unbind H as [[[q' x] sch] v] E2. unbind H as s1 E3. injection H as H.
    assert (Q : winv A (now e) s1 /\ sall A s1).
    { subst p. apply (commit_safe A (RemoveReward lp asset false to) e 0 lp s s1 q rem q' (users (cur lp s))
        (put asset sch (scheds (cur lp s))) (x :: rem)); auto.
      - intros l a b w Eq _. congruence.
      - intros _. unfold updated_at in Fr. rewrite Ep in Fr. exact Fr.
      - eapply c_del; [reflexivity|exact E2].
      - apply u_same. unfold deregister in E2. unbind E2 as y Ey. unbind E2 as r0 E0. unbind E2 as [r1 s2] E1.
        unbind E2 as r2 E4. unbind E2 as v' E5. injection E2 as <- <- <- <-. reflexivity.
      - right. exists lp, asset, false, to, x, sch, v. auto. }
    assert (El : lps s' = lps s1).
    { unfold pay in H. destruct (v =? 0); [injection H as <- <-; auto|].
      destruct (_ && _); injection H as <- <-; auto. }
    unfold winv, sall in *. rewrite El. exact Q.
  - eapply mv_safe; eauto. eapply step_mv; eauto.
Qed.
Lemma run_safe A h : forall T s, winv A T s -> 0 <= T -> timed T h -> regular s h -> sall A s ->
  winv A (time_after T h) (run s h) /\ sall A (run s h).
Proof.
  induction h as [|[[e sd] m] r IH]; intros T s I T0 Ht Hr K; auto.
  destruct Ht as (H1 & H2 & H3 & H4). destruct Hr as [R1 R2].
  change (run s ((e, sd, m) :: r)) with (run (exec s (e, sd, m)) r). simpl time_after.
  assert (I1 : winv A (now e) s) by (eapply winv_later; eauto).
  assert (Q : winv A (now e) (exec s (e, sd, m)) /\ sall A (exec s (e, sd, m))).
  { unfold exec. destruct (step e sd m s) as [[s' o]|] eqn:E; auto. eapply step_safe; eauto. lia. }
  destruct Q as [Q1 Q2]. apply IH; auto. lia.
Qed.
Lemma regular_ok A h : forall s, regular s h -> removals_ok A s h.
Proof.
  induction h as [|[[e sd] m] r IH]; intros s H; simpl; auto. destruct H as [H1 H2]. split; auto.
  destruct m; simpl in *; auto. tauto.
Qed.

(** ** Everything computed is in range *)
Definition UB : Z := U128MAX * DEC.
Lemma UB_val : 2 ^ 255 + UB <= U256MAX /\ 0 <= UB. Proof. split; vm_compute; discriminate. Qed.
Lemma u256_ok z : 0 <= z <= U256MAX -> u256 z = Some z.
Proof. intros H. unfold u256, fits. replace (0 <=? z) with true by (symmetry; apply Z.leb_le; lia).
  replace (z <=? U256MAX) with true by (symmetry; apply Z.leb_le; lia). auto. Qed.
Lemma u128_ok z : 0 <= z <= U128MAX -> u128 z = Some z.
Proof. intros H. unfold u128, fits. replace (0 <=? z) with true by (symmetry; apply Z.leb_le; lia).
  replace (z <=? U128MAX) with true by (symmetry; apply Z.leb_le; lia). auto. Qed.
Lemma u64_ok z : 0 <= z <= U64MAX -> u64 z = Some z.
Proof. intros H. unfold u64, fits. replace (0 <=? z) with true by (symmetry; apply Z.leb_le; lia).
  replace (z <=? U64MAX) with true by (symmetry; apply Z.leb_le; lia). auto. Qed.
Lemma per_ok r n : 0 <= n <= U64MAX -> 0 <= r * n <= UB -> per r n = Some (r * n).
Proof.
  intros N R. unfold per, dratio256. simpl (1 =? 0). cbv iota. rewrite Z.div_1_r.
  pose proof DEC_pos as D. destruct UB_val as [B1 B2].
  assert (n * DEC <= U256MAX).
  { eapply Z.le_trans; [apply Z.mul_le_mono_nonneg_r; [lia|apply N]|]. vm_compute. discriminate. }
  rewrite u256_ok by (split; [apply Z.mul_nonneg_nonneg; lia|auto]). unfold dmul256.
  rewrite Z.mul_assoc, Z.div_mul by lia. apply u256_ok. lia.
Qed.
Lemma accrue_ok total x coll : 0 <= total <= U128MAX -> 0 <= orph x -> 0 <= coll -> orph x + coll <= UB ->
  0 <= idx x < 2 ^ 255 -> exists x', accrue total x coll = Some x'.
Proof.
  intros T O C B X. unfold accrue. destruct UB_val as [B1 B2]. pose proof DEC_pos as D.
  unfold add256 at 1. rewrite u256_ok by lia. destruct (Z.eqb_spec total 0); [eauto|].
  unfold dratio256. simpl (1 =? 0). cbv iota. rewrite Z.div_1_r.
  assert (total * DEC <= U256MAX).
  { eapply Z.le_trans; [apply Z.mul_le_mono_nonneg_r; [lia|apply T]|]. vm_compute. discriminate. }
  rewrite u256_ok by (split; [apply Z.mul_nonneg_nonneg; lia|auto]). unfold ddiv256.
  destruct (Z.eqb_spec (total * DEC) 0); [exfalso; apply Z.mul_eq_0 in e; lia|].
  rewrite Z.div_mul_cancel_r by lia.
  assert (Q : 0 <= (orph x + coll) / total <= UB).
  { split; [apply Z.div_pos; lia|]. eapply Z.le_trans; [|exact B]. apply Z.div_le_upper_bound; [lia|].
    assert (0 <= (total - 1) * (orph x + coll)) by (apply Z.mul_nonneg_nonneg; lia). lia. }
  rewrite u256_ok by lia. unfold add256. rewrite u256_ok by lia. eauto.
Qed.
Lemma scan_ok now l : forall next coll, srt l -> Forall (fun p => next < fst p) l -> Forall (fun p => 0 <= snd p) l ->
  0 <= next <= now -> now <= U64MAX -> 0 <= coll -> coll + tailZ next l <= UB ->
  exists c nx act, scan now next coll l = Some (c, nx, act).
Proof.
  induction l as [|[ts r] t IH]; intros next coll S F N L M C B; simpl; [eauto|].
  destruct S as [Hs S]. inversion F as [|? ? F1 F2]; inversion N as [|? ? N1 N2]; subst. simpl in *.
  destruct (Z.ltb_spec now ts); [eauto|]. destruct UB_val as [B1 B2].
  pose proof (tailZ_nonneg ts t S Hs N2). assert (0 <= r * (ts - next)) by (apply Z.mul_nonneg_nonneg; lia).
  unfold sub64. rewrite u64_ok by lia. rewrite per_ok by lia. unfold add256. rewrite u256_ok by lia.
  apply IH; auto; lia.
Qed.
Lemma scan_nn now l : forall nx z c n act, scan now nx z l = Some (c, n, act) -> srt l ->
  Forall (fun p => nx < fst p) l -> Forall (fun p => 0 <= snd p) l -> 0 <= z -> 0 <= c.
Proof.
  induction l as [|[t2 r2] t IH]; intros nx z c n act E SA FA NA Z0; simpl in E; [injection E as <- _ _; auto|].
  destruct SA as [Hs SA]. inversion NA; inversion FA; subst. simpl in *.
  destruct (now <? t2); [injection E as <- _ _; auto|].
  unbind E as d Ed. apply sub64_Some in Ed. destruct Ed as (-> & _). unbind E as k Ec. apply per_Some in Ec. subst k.
  unbind E as k Ec. apply add256_Some in Ec. destruct Ec as (-> & _).
  eapply IH; [exact E| | | |]; auto. assert (0 <= r2 * (t2 - nx)) by (apply Z.mul_nonneg_nonneg; lia). lia.
Qed.
Lemma upd_one_ok now lst total sch x : 0 <= lst < now -> now <= U64MAX -> 0 <= total <= U128MAX -> okR lst x ->
  srt sch -> Forall (fun p => 0 <= snd p) sch -> idx x < 2 ^ 255 ->
  (is_ext (rw x) = true -> orph x + left_of lst x sch <= UB) ->
  (is_ext (rw x) = false -> orph x + rps x * (now - lst) <= UB) ->
  exists x' g, upd_one now lst total sch x = Some (x', g).
Proof.
  intros L M T (O1 & O2 & O3 & O4) S N X Be Bi. unfold upd_one. destruct UB_val as [B1 B2].
  assert (St : orph x + rps x * (now - lst) <= UB -> exists x' g,
    (do c <- per (rps x) (now - lst); do y <- accrue total x c; Some (y, false)) = Some (x', g)).
  { intros B. assert (0 <= rps x * (now - lst)) by (apply Z.mul_nonneg_nonneg; lia).
    rewrite per_ok by lia. destruct (accrue_ok total x (rps x * (now - lst))) as [x' ->]; try lia. eauto. }
  destruct (rw x) as [a|a nx] eqn:R; [apply St; auto|]. specialize (Be eq_refl). specialize (O4 eq_refl).
  unfold left_of in Be. rewrite R in Be. cbn [next_of] in *.
  assert (SA : srt (after nx sch)) by (apply srt_after; auto).
  assert (FA : Forall (fun p => nx < fst p) (after nx sch))
    by (apply Forall_forall; intros p Hp; apply in_after in Hp; tauto).
  assert (NA : Forall (fun p => 0 <= snd p) (after nx sch)).
  { apply Forall_forall. intros p Hp. apply in_after in Hp. rewrite Forall_forall in N. apply N. tauto. }
  pose proof (tailZ_nonneg _ _ SA FA NA) as TN.
  assert (PN : 0 <= rps x * (nx - lst)) by (apply Z.mul_nonneg_nonneg; lia).
  destruct (Z.leb_spec nx now) as [Ln|Ln].
  - unfold sub64. rewrite u64_ok by lia. rewrite per_ok by lia.
    destruct (scan_ok now (after nx sch) nx (rps x * (nx - lst))) as (c1 & nx1 & act & E); auto; try lia.
    rewrite E. destruct (scan_spec _ _ _ _ _ _ _ E SA FA Ln) as (B & Q). destruct act as [[ts r]|].
    + destruct Q as (Q1 & Q2 & Q3 & Q4).
      assert (Hr : 0 <= r) by (rewrite Forall_forall in NA; apply (NA _ Q2)).
      assert (Tt : 0 <= tailZ ts (after ts (after nx sch))).
      { apply tailZ_nonneg; [apply srt_after; auto| |].
        - apply Forall_forall. intros p Hp. apply in_after in Hp. tauto.
        - apply Forall_forall. intros p Hp. apply in_after in Hp. rewrite Forall_forall in NA. apply NA. tauto. }
      pose proof (scan_nn _ _ _ _ _ _ _ E SA FA NA PN) as C1.
      assert (R1 : 0 <= r * (now - nx1)) by (apply Z.mul_nonneg_nonneg; lia).
      assert (R2 : r * (now - nx1) <= r * (ts - nx1)) by (apply Z.mul_le_mono_nonneg_l; lia).
      rewrite per_ok by lia. unfold add256 at 1. rewrite u256_ok by lia.
      destruct (accrue_ok total (mkR (RExt a ts) r (idx x) (orph x)) (c1 + r * (now - nx1))) as [x' ->]; simpl; try lia. eauto.
    + destruct Q as (-> & Q2).
      destruct (accrue_ok total (mkR (RExt a nx) 0 (idx x) (orph x)) (rps x * (nx - lst) + tailZ nx (after nx sch))) as [x' ->]; simpl; try lia. eauto.
  - apply St. assert (rps x * (now - lst) <= rps x * (nx - lst)) by (apply Z.mul_le_mono_nonneg_l; lia). lia.
Qed.

Lemma find_ext_mem a n rs x : NoDup (exts rs) -> In x rs -> rw x = RExt a n -> find_ext a rs = Some x.
Proof.
  induction rs as [|r t IH]; intros N Hx R; [contradiction|]. unfold exts in N. simpl in N. simpl.
  destruct Hx as [->|Hx].
  - rewrite R, Z.eqb_refl. auto.
  - destruct (rw r) as [b|b k] eqn:Er; simpl in N; [auto|]. rewrite Er in N. simpl in N. inversion N as [|? ? N1 N2]; subst.
    destruct (Z.eqb_spec b a); [|apply IH; auto]. subst. exfalso. apply N1. apply in_map_iff. exists x. rewrite R.
    split; auto. apply filter_In. rewrite R. auto.
Qed.
Lemma P_parts A p : wf A p -> orphA A (rewards (pl p)) + remaining A (pl p) (scheds p) <= P A p.
Proof.
  intros W. assert (Wm : wfm A p []) by (constructor; auto; constructor).
  assert (0 <= sumf (owedM A (pl p) [] (fins p)) (users p)).
  { apply sumf_Forall. apply Forall_forall. intros u Hu. apply (owed_nn A p [] u Wm Hu). }
  unfold P, Pm. unfold rem_orph. simpl. lia.
Qed.
Lemma Pm_user A p rem k u : wfm A p rem -> In (k, u) (users p) -> owedM A (pl p) rem (fins p) u <= Pm A p rem.
Proof.
  intros W Hu. assert (Q : owedM A (pl p) rem (fins p) u <= sumf (owedM A (pl p) rem (fins p)) (users p)).
  { assert (N : forall x, In x (users p) -> 0 <= owedM A (pl p) rem (fins p) (snd x)) by (intros; eapply owed_nn; eauto).
    clear W. revert N Hu. generalize (owedM A (pl p) rem (fins p)) as g. intros g.
    induction (users p) as [|[j v] r IH]; intros N Hu; [contradiction|]. simpl.
    assert (0 <= sumf g r).
    { apply sumf_Forall. apply Forall_forall. intros x Hx. apply N. right. auto. }
    pose proof (N (j, v) (or_introl eq_refl)) as N0. simpl in N0.
    destruct Hu as [Hu|Hu]; [injection Hu as -> ->; lia|].
    specialize (IH ltac:(intros; apply N; right; auto) Hu). lia. }
  pose proof (m_wf _ _ _ W) as Wp. pose proof (orphA_nn _ _ Wp). pose proof (remaining_nn _ _ Wp).
  assert (0 <= rem_orph A rem) by (apply rem_orph_nn; eapply Forall_impl; [|exact (m_nn _ _ _ W)]; simpl; tauto).
  unfold Pm. lia.
Qed.

Lemma update_ok t p : (forall A, wf A p) -> 0 <= last (pl p) -> t <= U64MAX -> total_lp (pl p) <= U128MAX ->
  (forall x, In x (rewards (pl p)) -> idx x < 2 ^ 255) -> (forall A, P A p <= UB) ->
  iorph (rewards (pl p)) + irate (rewards (pl p)) * (t - last (pl p)) <= UB ->
  exists q rem, update_rewards t p = Some (q, rem).
Proof.
  intros W L0 Lt Tt X B Bi. unfold update_rewards. destruct (Z.leb_spec t (last (pl p))) as [L|L]; [eauto|].
  pose proof (wf_total_nn _ _ (W 0)) as T0.
  assert (G : forall rs, (forall x, In x rs -> In x (rewards (pl p))) -> exists rs' rem,
    upd_all t (last (pl p)) (total_lp (pl p)) (scheds p) rs = Some (rs', rem)).
  { induction rs as [|x r IH]; intros Hs; simpl; [eauto|].
    assert (Hx : In x (rewards (pl p))) by (apply Hs; left; auto).
    pose proof (w_rw _ _ (W 0)) as Q. rewrite Forall_forall in Q. pose proof (Q _ Hx) as Ox.
    destruct (w_sch _ _ (W 0) (asset_of (rw x))) as [S1 S2].
    destruct (upd_one_ok t (last (pl p)) (total_lp (pl p)) (sched_of (asset_of (rw x)) (scheds p)) x) as (x' & g & E); auto; try lia.
    - destruct (rw x) as [a|a n] eqn:R; [discriminate|]. intros _. simpl asset_of.
      pose proof (find_ext_mem a n _ x (w_ext _ _ (W 0)) Hx R) as Ef.
      pose proof (P_parts a p (W a)) as Pp. unfold orphA, remaining in Pp. rewrite Ef in Pp. specialize (B a). lia.
    - intros Ni. assert (Ef : find_int (rewards (pl p)) = Some x).
      { rewrite find_int_ip. pose proof (w_int _ _ (W 0)) as Li. fold (ip (rewards (pl p))) in Li.
        assert (Hi : In x (ip (rewards (pl p)))) by (apply filter_In; rewrite Ni; auto).
        destruct (ip (rewards (pl p))) as [|y l]; [contradiction|]. destruct l; [|simpl in Li; lia].
        destruct Hi as [->|[]]. auto. }
      unfold iorph, irate in Bi. rewrite Ef in Bi. exact Bi.
    - rewrite E. destruct IH as (rs' & rem & E2); [intros; apply Hs; right; auto|]. rewrite E2.
      destruct g; eauto. }
  destruct (G (rewards (pl p)) ltac:(auto)) as (rs & rem & E). rewrite E. eauto.
Qed.

(** ** The rewards of a user can be computed *)
Lemma credit_ok i amt : 0 <= amt * i <= UB -> credit i amt = Some (amt * i / DEC).
Proof.
  intros B. pose proof DEC_pos as D. unfold credit, umul256. destruct UB_val as [B1 _].
  assert (Q : 0 <= amt * i / DEC <= U128MAX).
  { split; [apply Z.div_pos; lia|]. apply Z.div_le_upper_bound; [lia|]. unfold UB in B. lia. }
  rewrite u256_ok; [apply u128_ok; auto|]. split; [lia|]. eapply Z.le_trans; [apply Q|]. vm_compute. discriminate.
Qed.
Lemma fl_cons A a f r : fl A ((a, f) :: r) = if a =? A then f :: fl A r else fl A r.
Proof. unfold fl. simpl. destruct (a =? A); auto. Qed.
Lemma claim_fin_ok amt ui l : 0 < amt -> Forall (fun y => 0 <= snd y) l -> forall seen,
  (forall a, match fl a l with
   | [] => True
   | f :: r => (mem a seen = false -> match u_find (RExt a 0) ui with Some i => i | None => 0 end <= f) /\
       amt * ((if mem a seen then f else f - match u_find (RExt a 0) ui with Some i => i | None => 0 end) + zsum r) <= UB
   end) -> (forall a, 0 <= match u_find (RExt a 0) ui with Some i => i | None => 0 end) ->
  exists out, claim_fin amt ui seen l = Some out.
Proof.
  intros A0. induction l as [|[a f] r IH]; intros F seen C U0; simpl; [eauto|].
  inversion F as [|? ? F1 F2]; subst. simpl in F1. destruct UB_val as [B1 B2].
  set (i := match u_find (RExt a 0) ui with Some i => i | None => 0 end) in *.
  assert (Zr : forall b, 0 <= zsum (fl b r)) by (intros b; apply zsum_nonneg; apply fl_nn; auto).
  destruct (IH F2 (a :: seen)) as [out Eo]; auto.
  { intros b. specialize (C b). rewrite fl_cons in C. simpl mem. rewrite (Z.eqb_sym b a).
    destruct (Z.eqb_spec a b).
    - subst b. destruct (fl a r) as [|f1 r1] eqn:Ef; auto. split; [discriminate|]. simpl.
      destruct C as [C1 C2]. eapply Z.le_trans; [|exact C2]. apply Z.mul_le_mono_nonneg_l; [lia|].
      change (zsum (f1 :: r1)) with (f1 + zsum r1). destruct (mem a seen); [lia|]. specialize (C1 eq_refl). fold i in C1 |- *. lia.
    - simpl. exact C. }
  pose proof (C a) as Ca. rewrite fl_cons, Z.eqb_refl in Ca. destruct Ca as [C1 C2]. fold i in C1, C2.
  specialize (Zr a). destruct (mem a seen).
  - rewrite credit_ok, Eo; [eauto|]. split; [apply Z.mul_nonneg_nonneg; lia|].
    eapply Z.le_trans; [|exact C2]. apply Z.mul_le_mono_nonneg_l; lia.
  - specialize (C1 eq_refl). pose proof (U0 a) as Ua. fold i in Ua.
    assert (Bf : amt * (f - i) <= UB).
    { eapply Z.le_trans; [|exact C2]. apply Z.mul_le_mono_nonneg_l; lia. }
    assert (Bd : f - i <= UB) by (assert (0 <= (amt - 1) * (f - i)) by (apply Z.mul_nonneg_nonneg; lia); lia).
    unfold sub256. rewrite u256_ok by lia. rewrite credit_ok, Eo; [eauto|].
    split; [apply Z.mul_nonneg_nonneg; lia|auto].
Qed.

Lemma calc_all_ok u rs : (forall x, In x rs -> exists v, calc_one u x = Some v) -> exists out, calc_all u rs = Some out.
Proof.
  induction rs as [|x r IH]; intros H; simpl; [eauto|].
  destruct (H x (or_introl eq_refl)) as [v ->]. destruct IH as [out ->]; [intros; apply H; right; auto|]. eauto.
Qed.
Lemma calc_one_ok u x : 0 <= amount u -> 0 <= idx x ->
  (let i := match u_find (rw x) (uidx u) with Some i => i | None => 0 end in
   amount u * (if idx x <? i then idx x else idx x - i) <= UB) -> exists v, calc_one u x = Some v.
Proof.
  intros A0 X B. unfold calc_one. destruct (u_find (rw x) (uidx u)) as [i|]; simpl in B.
  - destruct (Z.ltb_spec (idx x) i); rewrite credit_ok; eauto; (split; [apply Z.mul_nonneg_nonneg; lia|auto]).
  - destruct (Z.ltb_spec (idx x) 0); [lia|]. rewrite Z.sub_0_r in B. rewrite credit_ok; eauto.
    split; [apply Z.mul_nonneg_nonneg; lia|auto].
Qed.
Lemma due_ok q rem f u t :
  0 < amount u -> NoDup (exts (rewards q)) -> Forall (okR t) (rewards q) -> okU t u ->
  Forall (fun y => 0 <= snd y) (unseen u f rem) -> (length (ip (rewards q)) <= 1)%nat ->
  (forall A, match fl A (unseen u f rem) with f0 :: _ => uix A u <= f0 | [] => True end) ->
  (forall A, amount u * clm (fl A (unseen u f rem)) (uix A u) (actA A (rewards q)) <= UB) ->
  0 <= uI u <= iidx (rewards q) -> amount u * (iidx (rewards q) - uI u) <= UB ->
  exists d, due q rem f u = Some d.
Proof.
  intros A0 N Ok Ou Nn Oi Sf B Ui Bi. unfold due. pose proof Ou as (_ & _ & U3).
  assert (Un : forall a, 0 <= uix a u) by (intros a; eapply uix_nn; eauto).
  destruct (claim_fin_ok (amount u) (uidx u) (unseen u f rem) A0 Nn []) as [fin E]; auto.
  { intros a. specialize (Sf a). specialize (B a). fold (uix a u).
    destruct (fl a (unseen u f rem)) as [|f0 r]; auto. split; auto. simpl mem. cbv iota.
    assert (An : nno (actA a (rewards q))) by (eapply actA_nn; eauto).
    unfold clm in B. replace (ssub f0 (uix a u)) with (f0 - uix a u) in B by (unfold ssub; lia).
    eapply Z.le_trans; [|exact B]. apply Z.mul_le_mono_nonneg_l; [lia|].
    destruct (actA a (rewards q)); simpl in An; lia. }
  rewrite E. set (F := map fst (unseen u f rem)).
  destruct (calc_all_ok (mkU (amount u) (reset F (uidx u)) (claimed u)) (rewards q)) as [act E2].
  { intros x Hx. rewrite Forall_forall in Ok. destruct (Ok _ Hx) as (_ & X & _). apply calc_one_ok; cbn [amount uidx]; auto; [lia|].
    destruct (rw x) as [a|a n] eqn:R.
    - rewrite u_find_reset_int. assert (Ef : find_int (rewards q) = Some x).
      { rewrite find_int_ip. assert (Hi : In x (ip (rewards q))) by (apply filter_In; rewrite R; auto).
        destruct (ip (rewards q)) as [|y l]; [contradiction|]. destruct l; [|simpl in Oi; lia].
        destruct Hi as [->|[]]. auto. }
      unfold iidx in Ui, Bi. rewrite Ef in Ui, Bi. rewrite (u_find_int_any a 0). fold (uI u).
      destruct (Z.ltb_spec (idx x) (uI u)); [lia|auto].
    - rewrite (u_find_any a n 0). specialize (B a). unfold actA in B. rewrite (find_ext_mem a n _ x N Hx R) in B.
      assert (M : fl a (unseen u f rem) = [] <-> mem a F = false).
      { rewrite mem_nIn. unfold F, fl. split.
        - intros Hn Hi. apply in_map_iff in Hi. destruct Hi as (y & Ey & Hy).
          assert (H : In (snd y) (map snd (filter (fun x => fst x =? a) (unseen u f rem)))).
          { apply in_map. apply filter_In. split; auto. apply Z.eqb_eq. auto. }
          rewrite Hn in H. contradiction.
        - intros Hn. destruct (filter (fun x => fst x =? a) (unseen u f rem)) as [|y r] eqn:Ef; auto.
          exfalso. apply Hn. assert (Hy : In y (y :: r)) by (left; auto). rewrite <- Ef in Hy.
          apply filter_In in Hy. destruct Hy as [Hy Hb]. apply Z.eqb_eq in Hb. rewrite <- Hb.
          apply in_map. auto. }
      destruct (mem a F) eqn:Em.
      + rewrite (u_find_reset a F _ Em). cbv zeta. destruct (Z.ltb_spec (idx x) 0); [lia|]. rewrite Z.sub_0_r.
        destruct (fl a (unseen u f rem)) as [|f0 r] eqn:Ef; [destruct M as [M _]; discriminate (M eq_refl)|].
        assert (Zr : 0 <= zsum r).
        { apply zsum_nonneg. pose proof (fl_nn a _ Nn) as Q. rewrite Ef in Q. inversion Q; auto. }
        eapply Z.le_trans; [|exact B]. apply Z.mul_le_mono_nonneg_l; [lia|]. unfold clm, ssub. simpl. lia.
      + rewrite (u_find_noreset a F _ Em). fold (uix a u). destruct M as [_ M]. rewrite (M eq_refl) in B. exact B. }
  rewrite E2. pose proof (calc_all_int _ _ _ E2 Oi) as K.
  assert (Hp : exists pr, sum128 (map snd (filter (fun x => negb (fst (fst x))) act)) 0 = Some pr).
  { destruct (find_int (rewards q)) as [x|] eqn:Ex.
    - destruct K as (v & K1 & K2). rewrite K2. simpl. 
      assert (Bv : 0 <= v <= U128MAX).
      { unfold calc_one in K1. destruct (u_find _ _) as [i|]; [destruct (_ <? _)|];
          unfold credit in K1; unbind K1 as w Ew; apply u128_Some in K1; destruct K1 as (-> & ?); auto. }
      unfold add128. rewrite Z.add_0_l, u128_ok by auto. eauto.
    - rewrite K. simpl. eauto. }
  destruct Hp as [pr ->]. eauto.
Qed.

(** ** Leaving *)
Lemma sumf_one {V} (g : V -> Z) k v (m : amap V) : Forall (fun x => 0 <= g (snd x)) m -> In (k, v) m -> g v <= sumf g m.
Proof.
  induction 1 as [|[j w] r Hj F IH]; intros H; [contradiction|]. simpl in *.
  assert (0 <= sumf g r) by (apply sumf_Forall; exact F).
  destruct H as [H|H]; [injection H as -> ->; lia|]. specialize (IH H). lia.
Qed.
Lemma P_bal A T lp p s : inv A T s -> gap A s <= 0 -> find lp (lps s) = Some p ->
  P A p <= get (bal s) A * DEC /\ (A = lp -> total_lp (pl p) <= get (bal s) A).
Proof.
  intros I G E. pose proof (staked_nn _ _ _ I) as Sn. pose proof (i_on _ _ _ I A) as On. pose proof DEC_pos as D.
  assert (F : Forall (fun x => 0 <= P A (snd x)) (lps s)).
  { eapply Forall_impl; [|exact (i_lps _ _ _ I)]. simpl. intros x [W _]. apply P_nn. auto. }
  pose proof (sumf_one (P A) lp p _ F (find_in _ _ _ E)) as Pl.
  pose proof (sumP_nn _ _ _ I) as Sp. unfold gap, lia_ in G.
  assert (0 <= oget (orphs s) A * DEC) by (apply Z.mul_nonneg_nonneg; lia).
  assert (0 <= staked A s * DEC) by (apply Z.mul_nonneg_nonneg; lia). split; [lia|].
  intros ->. unfold staked in *. rewrite E in *. apply Z.mul_le_mono_pos_r with (p := DEC); lia.
Qed.
Lemma JP_nn t q us : jok t q us -> 0 <= iorph (rewards q) + irate (rewards q) * (t - last q) <= JP q us t.
Proof.
  intros K. pose proof (JU_nn _ _ (j_us _ _ _ K)). destruct (j_int _ _ _ K) as (I1 & I2 & I3).
  pose proof (j_last _ _ _ K). unfold JP.
  assert (0 <= irate (rewards q) * (t - last q)) by (apply Z.mul_nonneg_nonneg; lia). lia.
Qed.
Lemma save_zero e lp p rem s : Permutation (ord e rem) rem -> Forall (fun x => snd (snd x) = 0) rem ->
  exists s1, save e lp p rem s = Some s1.
Proof.
  intros Pe Z0. unfold save. assert (Zo : Forall (fun x => snd (snd x) = 0) (ord e rem)).
  { eapply Permutation_Forall; [apply Permutation_sym; exact Pe|exact Z0]. }
  rewrite (runs_zero _ Zo). destruct (ord e rem); simpl; eauto.
Qed.

Section Leave.
  Variables (e : env) (lp who T : Z) (s : state) (p : lpst) (u : uinfo).
  Hypotheses (I : forall A, inv A T s) (G : forall A, gap A s <= 0) (T0 : 0 <= T) (L : T <= now e)
    (Sa : forall A, sall A s) (Ja : jall (now e) s) (Jb : J (now e) s <= UB) (R : in_range e lp s) (Eo : env_ok e)
    (Ep : find lp (lps s) = Some p) (Eu : find who (users p) = Some u) (Pu : 0 < amount u).

  Lemma leave_parts : exists q rem ext prot, update_rewards (now e) p = Some (q, rem) /\
    due q rem (fins p) u = Some (ext, prot) /\ Forall (fun x => snd (snd x) = 0) rem /\
    amount u <= total_lp q <= U128MAX /\ 0 <= prot <= U128MAX.
  Proof.
    destruct R as (R1 & R2 & R3). rewrite Ep in R3. pose proof DEC_pos as D.
    assert (W : forall A, wf A p) by (intros A; apply (Forall_find _ _ _ _ (i_lps _ _ _ (I A)) Ep)).
    assert (PB : forall A, P A p <= UB).
    { intros A. destruct (P_bal A T lp p s (I A) (G A) Ep) as [K _]. eapply Z.le_trans; [exact K|].
      unfold UB. apply Z.mul_le_mono_nonneg_r; [lia|auto]. }
    assert (Tt : total_lp (pl p) <= U128MAX).
    { destruct (P_bal lp T lp p s (I lp) (G lp) Ep) as [_ K]. specialize (K eq_refl). specialize (R2 lp). lia. }
    assert (Hu : In (who, u) (users p)) by (apply find_in; auto).
    assert (Ut : amount u <= total_lp (pl p)).
    { rewrite (w_total _ _ (W 0)). apply (sumf_one amount who u); auto.
      eapply Forall_impl; [|exact (w_users _ _ (W 0))]. simpl. intros x (H & _). exact H. }
    destruct Ja as [J0 Jf]. pose proof (Forall_find _ _ _ _ Jf Ep) as Jp. cbn [snd] in Jp.
    assert (Jl : JP (pl p) (users p) (now e) <= UB).
    { eapply Z.le_trans; [|exact Jb]. unfold J.
      apply (sumf_one (fun p => JP (pl p) (users p) (now e)) lp p); [|apply find_in; auto].
      eapply Forall_impl; [|exact Jf]. simpl. intros x K. pose proof (JP_nn _ _ _ K). lia. }
    assert (Lp : 0 <= last (pl p)) by (apply (Forall_find _ _ _ _ (Sa 0) Ep)).
    destruct (update_ok (now e) p W Lp) as (q & rem & U); auto; try lia.
    { pose proof (JP_nn _ _ _ Jp). lia. }
    destruct (update_P 0 _ _ _ _ (W 0) U) as (Wq & _ & Lq & Tq & Lr & _).
    destruct (update_J _ _ _ _ _ U Jp (Z.le_refl _)) as (Jq & _ & Jle & _).
    pose proof (Forall_find _ _ _ _ (j_us _ _ _ Jq) (proj1 (conj Eu Eu))) as [_ Ui]. cbn [snd] in Ui.
    pose proof (m_wf _ _ _ Wq) as Wq'. pose proof (Forall_find _ _ _ _ (w_users _ _ Wq') Eu) as Ou. simpl in Ou.
    assert (Ev : vis u q rem = rem).
    { unfold vis. destruct rem as [|y r]; [destruct (_ <? _); auto|].
      pose proof (Forall_find _ _ _ _ (w_users _ _ (W 0)) Eu) as (_ & U2 & _). simpl in U2. specialize (Lr ltac:(discriminate)).
      replace (claimed u <? last q) with true; auto. symmetry. apply Z.ltb_lt. lia. }
    assert (Bi : amount u * (iidx (rewards q) - uI u) <= UB).
    { pose proof (sumf_one (fun v => amount v * (iidx (rewards q) - uI v)) who u (users p)) as K.
      fold (JU (users p) (iidx (rewards q))) in K. specialize (K ltac:(eapply Forall_impl; [|exact (j_us _ _ _ Jq)];
        simpl; intros x [A1 A2]; apply Z.mul_nonneg_nonneg; lia) Hu).
      pose proof (j_int _ _ _ Jq) as (I1 & I2 & I3). unfold JP in Jle at 1.
      pose proof (j_last _ _ _ Jq). cbv beta in K.
      assert (0 <= irate (rewards q) * (now e - last q)) by (apply Z.mul_nonneg_nonneg; lia). lia. }
    destruct (due_ok q rem (fins p) u (last q)) as [[ext prot] Ed]; auto.
    - apply (w_ext _ _ Wq').
    - apply (w_rw _ _ Wq').
    - apply unseen_nn; [eapply (wf_fins_nn 0 p); auto|]. eapply Forall_impl; [|exact (m_nn _ _ _ Wq)]. simpl. tauto.
    - apply (j_one _ _ _ Jq).
    - intros A. pose proof (Forall_find _ _ _ _ (Sa A) Ep) as [_ Sp]. cbn [snd] in Sp.
      pose proof (update_safe A _ _ _ _ (W A) U Sp) as Sq. unfold safes in Sq. cbn [with_pl pl users fins] in Sq.
      pose proof (Forall_find _ _ _ _ Sq Eu Pu) as K. cbn [snd] in K. rewrite Ev in K.
      destruct (fl A (unseen u (fins p) rem)); auto.
    - intros A. destruct (update_P A _ _ _ _ (W A) U) as (WA & PA & _).
      pose proof (Pm_user A _ rem who u WA Hu) as K. unfold owedM in K. cbn [with_pl pl fins] in K. rewrite Ev in K.
      specialize (PB A). lia.
    - exists q, rem, ext, prot. split; auto. split; auto. split; [|split; [lia|]].
      + apply (update_orph 0 _ _ _ _ (W 0) U). lia.
      + destruct (due_prot _ _ _ _ _ _ Ed (j_one _ _ _ Jq) (Z.lt_le_incl _ _ Pu) Ui) as [V0 V1]. split; auto.
        unfold UB in Bi. apply Z.mul_le_mono_pos_r with (p := DEC); lia.
  Qed.
  Lemma leave_pending : pending e lp who s <> None.
  Proof.
    destruct leave_parts as (q & rem & ext & prot & U & D & _). unfold pending. rewrite Ep, Eu, U, D. discriminate.
  Qed.
  Lemma leave_withdraw amt : vest_ok e = true -> xfer_ok e lp = true -> 0 <= amt <= amount u ->
    exists s' o, step e who (Withdraw lp amt) s = Some (s', o) /\ In (Back lp who amt) o /\
      position_of lp who s' = amount u - amt.
  Proof.
    intros V X Am. destruct leave_parts as (q & rem & ext & prot & U & D & Z0 & Bt & Bp).
    simpl. unfold withdraw. rewrite Ep, Eu. replace (amt <=? amount u) with true by (symmetry; apply Z.leb_le; lia).
    rewrite U, D. unfold sub128. rewrite !u128_ok by lia.
    set (q' := mkPool (total_lp q - amt) (rewards q) (last q)).
    set (us := if amount u - amt =? 0 then del who (users p) else put who (sync (amount u - amt) q') (users p)).
    destruct (save_zero e lp (mkLp q' us (scheds p) (fins p)) rem s (Eo rem) Z0) as [s1 E4]. rewrite E4.
    assert (Ev : exists o2, pay_prot e who prot = Some o2) by (unfold pay_prot; rewrite V; destruct (prot =? 0); eauto).
    destruct Ev as [o2 E5]. rewrite E5. destruct (pay_all e who s1 ext) as [s2 o1] eqn:E6. rewrite X.
    assert (Ec : cur lp s = p) by (unfold cur; rewrite Ep; auto).
    assert (U' := U). rewrite <- Ec in U'.
    destruct (update_cur lp T lp s e q rem (I lp) T0 L U') as (W & Wq & Pq & Lq & Tq & Lr & Ll & _).
    rewrite Ec in *.
    assert (Hu : match find who (users p) with Some v => u = v | None => exists n, u = mkU 0 [] n /\ n <= last q end)
      by (rewrite Eu; auto).
    destruct (settle lp p q rem who u ext prot (amount u - amt) (total_lp q - amt) Wq W Lr Ll D Hu
      ltac:(lia) ltac:(lia) us) as (Ws & Ps).
    { unfold us. destruct (Z.eqb_spec (amount u - amt) 0); auto. }
    edestruct (fun Hl => commit_gap lp e lp _ rem s s1 T (I lp) L Eo Ws Hl E4) as (J1 & J2 & J3).
    { simpl. lia. }
    rewrite Ec in J3. cbn [pl total_lp] in J3. rewrite Z.eqb_refl in J3.
    assert (Gs : gap lp s1 + paidA lp ext * DEC <= gap lp s - amt * DEC).
    { assert (Dt : total_lp q - amt - total_lp (pl p) = - amt) by lia. rewrite Dt in J3. lia. }
    destruct (pay_all_gap lp e who (now e) ext s1 s2 o1 _ J1 (due_nn _ _ _ _ _ _ D) Gs E6) as (K1 & K2 & K3).
    assert (Hb : amt <= get (bal s2) lp).
    { pose proof (lia_nn _ _ _ K1). pose proof (G lp). unfold gap in K2 at 1. pose proof DEC_pos.
      apply Z.mul_le_mono_pos_r with (p := DEC); lia. }
    replace (amt <=? get (bal s2) lp) with true by (symmetry; apply Z.leb_le; auto). simpl.
    eexists. eexists. split; [reflexivity|]. split.
    - rewrite !in_app_iff. simpl. auto.
    - unfold position_of. cbn [lps set_bal].
      assert (El : lps s2 = lps s1) by (pose proof (pay_all_lps e who ext s1) as Q; rewrite E6 in Q; exact Q).
      destruct (save_lps _ _ _ _ _ _ E4) as (f & Ef & _). rewrite El, Ef, find_put_same. cbn [users].
      unfold us. destruct (Z.eqb_spec (amount u - amt) 0) as [E0|E0].
      + rewrite E0. rewrite find_del_same. auto.
      + rewrite find_put_same. simpl. auto.
  Qed.
  Lemma leave_claim : vest_ok e = true -> exists s' o, step e who (ClaimRewards [lp]) s = Some (s', o).
  Proof.
    intros V. destruct leave_parts as (q & rem & ext & prot & U & D & Z0 & Bt & Bp).
    simpl. unfold claim. simpl nodup. cbn [claim_each]. rewrite Ep, Eu, U, D.
    destruct (save_zero e lp (mkLp q (put who (sync (amount u) q) (users p)) (scheds p) (fins p)) rem s (Eo rem) Z0) as [s1 E4].
    rewrite E4. unfold add128. rewrite Z.add_0_r.
    rewrite u128_ok by auto.
    assert (Ev : exists o2, pay_prot e who prot = Some o2) by (unfold pay_prot; rewrite V; destruct (prot =? 0); eauto).
    destruct Ev as [o2 E5]. rewrite E5. destruct (pay_all e who s1 (ext ++ [])) as [s2 o1]. eauto.
  Qed.
End Leave.

(** ** Protocol payments are never negative *)
Lemma sum128_nn l : forall a r, 0 <= a -> sum128 l a = Some r -> 0 <= r.
Proof.
  induction l as [|x l IH]; intros a r A H; cbn [sum128] in H; [injection H as <-; auto|].
  unbind H as b E. apply add128_Some in E. eapply IH; [|exact H]. lia.
Qed.
Lemma due_nn q rem f u ext prot : due q rem f u = Some (ext, prot) -> 0 <= prot.
Proof.
  intros H. unfold due in H. unbind H as fin E1. unbind H as act E2. unbind H as pr E3. injection H as _ <-.
  apply (sum128_nn _ _ _ (Z.le_refl 0) E3).
Qed.
Lemma step_prot_nn e sd m s s' o : step e sd m s = Some (s', o) -> 0 <= prot_out_sum o.
Proof.
  assert (Q : forall r : option state, silent r = Some (s', o) -> 0 <= prot_out_sum o).
  { intros r H. unfold silent in H. unbind H as x E. injection H as _ <-. simpl. lia. }
  destruct m; cbn [step]; intros H; try (apply Q in H; exact H).
  - unfold claim in H. unguard H G. unbind H as [[s1 ext] prot] E. unbind H as o2 E2.
    pose proof (pay_all_prot e sd ext s1) as P. destruct (pay_all e sd s1 ext) as [s2 o1]. injection H as <- <-.
    simpl in P. rewrite prot_app, P, (IncentivesBudget.pay_prot_sum _ _ _ _ E2).
    assert (0 <= prot); [|lia]. destruct l as [|lp r]; cbn [claim_each] in E; [injection E as _ _ <-; lia|].
    unbind E as p F1. unbind E as u F2. unbind E as [q rem] F3. unbind E as [e1 p1] F4. unbind E as s3 F5.
    unbind E as [[s4 e2] p2] F6. unbind E as pr F7. injection E as _ _ <-. apply add128_Some in F7. lia.
  - unfold deposit in H. unguard H G. unbind H as [q rem] E1. unbind H as [ext prot] E2. unbind H as a E3.
    unbind H as t E4. unbind H as s1 E5. unbind H as o2 E6.
    match type of H with context [pay_all ?x ?y ?z ?w] => pose proof (pay_all_prot x y w z) as P; destruct (pay_all x y z w) as [s2 o1] end.
    injection H as <- <-. simpl in P. rewrite prot_app, P, (IncentivesBudget.pay_prot_sum _ _ _ _ E6).
    pose proof (due_nn _ _ _ _ _ _ E2). lia.
  - unfold withdraw in H. unbind H as p E1. unbind H as u E2. unguard H G. unbind H as [q rem] E3.
    unbind H as [ext prot] E4. unbind H as a E5. unbind H as t E6. unbind H as s1 E7. unbind H as o2 E8.
    match type of H with context [pay_all ?x ?y ?z ?w] => pose proof (pay_all_prot x y w z) as P; destruct (pay_all x y z w) as [s2 o1] end.
    unguard H G2. injection H as <- <-. simpl in P. rewrite !prot_app, P, (IncentivesBudget.pay_prot_sum _ _ _ _ E8).
    pose proof (due_nn _ _ _ _ _ _ E4). simpl. lia.
  - unfold incentivize_many in H. unguard H G. unbind H as [[s1 f1] o1] E. unguard H G2. injection H as <- <-.
    assert (X : forall l s f s' f' o, incentivize_each e l s f = Some (s', f', o) -> prot_out_sum o = 0).
    { clear. induction l as [|[lp [[a amt] n]] r IH]; intros s f s' f' o H; simpl in H; [injection H as _ _ <-; auto|].
      unbind H as [[s1 f1] o1] E. unbind H as [[s2 f2] o2] E2. injection H as <- <- <-. rewrite prot_app, (IH _ _ _ _ _ E2).
      clear - E. unfold incentivize in E. unbind E as [[ne en] rr] E0. unguard E G.
      unbind E as [q rem] E1. unbind E as [rs sch] E2. unbind E as [[f3 s3] o3] E3. unbind E as [f4 s4] E4.
      unbind E as s5 E5. injection E as <- <- <-.
      destruct (fee s) as [[d v]|]; [|injection E3 as <- <- <-; auto].
      destruct (_ && _) in E3; [|injection E3 as <- <- <-; auto].
      unbind E3 as g0 E6. unguard E3 G3. injection E3 as <- <- <-. auto. }
    rewrite (X _ _ _ _ _ _ E). lia.
  - unfold remove_reward in H. unguard H G. unbind H as p Ep. unbind H as [q rem] E.
    unbind H as [[[q' x] sch] v] E2. unbind H as s1 E3. injection H as H.
    unfold pay in H. destruct (v =? 0); [injection H as <- <-; simpl; lia|].
    destruct (_ && _) in H; injection H as <- <-; simpl; lia.
  - unfold claim_orphaned in H. unguard H G. unguard H G2. injection H as H.
    match type of H with pay_all _ ?to ?s1 ?x = _ => pose proof (pay_all_prot e to x s1) as P1 end.
    rewrite H in P1. simpl in P1. lia.
  - injection H as <- <-. simpl. lia.
Qed.
Lemma prot_paid_nn h : forall s, 0 <= prot_paid s h.
Proof.
  induction h as [|[[e sd] m] r IH]; intros s; cbn [prot_paid]; [lia|].
  destruct (step e sd m s) as [[s' o]|] eqn:E; [|apply IH].
  pose proof (step_prot_nn _ _ _ _ _ _ E). specialize (IH s'). lia.
Qed.
