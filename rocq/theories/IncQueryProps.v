(** C130-C132: what the queries of the incentives contract promise. *)
From Coq Require Import ZArith Lia Bool List Permutation.
From Verif Require Import Num Amap Ledger IncentivesModel IncentivesSpec IncentivesSched IncentivesPool
  IncentivesPay IncentivesOps IncentivesInv IncentivesStep IncentivesProofs IncentivesExact IncentivesPending
  IncentivesMove IncentivesFund IncentivesEmission IncentivesProps IncQueryModel.
Import ListNotations.
Open Scope Z_scope.

(** ** C130: the fee query *)

Lemma no_ext_find a rs : forallb (fun x => negb (asset_of (rw x) =? a)) (filter (fun x => is_ext (rw x)) rs) =
  match find_ext a rs with Some _ => false | None => true end.
Proof.
  induction rs as [|x r IH]; [reflexivity|]. cbn [filter find_ext]. destruct (rw x) as [b|b n] eqn:E; cbn [is_ext].
  - exact IH.
  - cbn [forallb]. rewrite E. cbn [asset_of]. destruct (b =? a); [reflexivity|exact IH].
Qed.
Lemma upd_ext_length a f rs : length (upd_ext a f rs) = length rs.
Proof. induction rs as [|x r IH]; [reflexivity|]. cbn. destruct (rw x); [cbn; auto|]. destruct (a0 =? a); cbn; auto. Qed.
Lemma incentivize_new ast a ne en r rs sch rs' sch' : incentivize_pool ast a ne en r rs sch = Some (rs', sch') ->
  (Z.of_nat (length rs) <? Z.of_nat (length rs')) = match find_ext a rs with Some _ => false | None => true end.
Proof.
  unfold incentivize_pool. intros H. cbv zeta in H. destruct (find_ext a rs) as [x|].
  - unbind H as r1 E. destruct (en <=? next_of (rw x)); [injection H as <- <-|unbind H as sv E2; injection H as <- <-];
      rewrite upd_ext_length; apply Z.ltb_irrefl.
  - unguard H G. injection H as <- <-. rewrite app_length. cbn. apply Z.ltb_lt. lia.
Qed.
Lemma incentivize_fee e lp a amt n s f s' f' o : incentivize e lp a amt n s f = Some (s', f', o) ->
  exists b, is_fee_expected e lp a s = Some b /\
  o = match fee s with Some (d, v) => if b : bool then [Fee d v] else [] | None => [] end /\
  forall D, 0 <= D -> fsum D f = fsum D f' + (if a =? D then amt else 0) +
    match fee s with Some (d, v) => if b && (D =? d) then v else 0 | None => 0 end.
Proof.
  unfold incentivize, is_fee_expected. intros H. unbind H as [[ne en] r] E. unguard H G. cbv zeta in H.
  unbind H as [q rem] U. unbind H as [rs sch] I. unbind H as [[f1 s1] o1] F. unbind H as [f2 s2] T. unbind H as s3 S.
  injection H as <- <- <-.
  assert (K : exists b, (if a =? astro s then Some false else match find lp (lps s) with None => Some true
     | Some p => do '(q, _) <- update_rewards (now e) p;
        Some (forallb (fun x => negb (asset_of (rw x) =? a)) (filter (fun x => is_ext (rw x)) (rewards q))) end) = Some b /\
     b = (Z.of_nat (length (rewards q)) <? Z.of_nat (length rs)) && negb (a =? astro s)).
  { rewrite (incentivize_new _ _ _ _ _ _ _ _ _ I). destruct (a =? astro s); [exists false; rewrite andb_false_r; auto|].
    rewrite andb_true_r. destruct (find lp (lps s)) as [p|] eqn:Ep.
    - rewrite U. rewrite no_ext_find. eauto.
    - unfold update_rewards in U. cbn in U. destruct (now e <=? 0); injection U as <- <-; cbn; eauto. }
  destruct K as (b & K1 & K2). exists b. split; [exact K1|].
  rewrite <- K2 in F.
  assert (T2 : forall D, 0 <= D -> fsum D f2 = fsum D f1 - (if a =? D then amt else 0)).
  { intros D HD. destruct (Z.leb_spec 0 a).
    - unbind T as f3 T3. injection T as <- <-. rewrite (take_coin_sum D _ _ _ _ T3). rewrite (Z.eqb_sym D a). reflexivity.
    - unguard T T3. injection T as <- <-. rewrite (proj2 (Z.eqb_neq a D)) by lia. lia. }
  destruct (fee s) as [[d v]|].
  - destruct b.
    + unbind F as f3 F3. unguard F F4. injection F as <- <- <-. split; [reflexivity|]. intros D HD. rewrite (T2 D HD).
      rewrite (take_coin_sum D _ _ _ _ F3). cbn [andb]. lia.
    + injection F as <- <- <-. split; [reflexivity|]. intros D HD. rewrite (T2 D HD). cbn [andb]. lia.
  - injection F as <- <- <-. split; [reflexivity|]. intros D HD. rewrite (T2 D HD). lia.
Qed.

(** Coins of denom [D] attached to a message. *)
Definition attached (D : Z) (fs : list (Z * Z)) : Z := sum_of D fs.
Lemma attached_fsum D fs : attached D fs = fsum D fs.
Proof.
  unfold attached, sum_of. induction fs as [|[x v] r IH]; [reflexivity|]. rewrite fsum_cons. cbn [fold_right fst snd].
  rewrite IH. reflexivity.
Qed.
Lemma fee_irrelevant e lp a s b : is_fee_expected e lp a (set_bal s b) = is_fee_expected e lp a s.
Proof. reflexivity. Qed.

(** C130: the query tells exactly whether an incentive started now has to pay the fee; and the sender attaches the
    reward (if it is a coin) plus the fee, when it is due, and nothing else. *)
Theorem c130_fee e sd lp a amt n fs s s' o :
  step e sd (Incentivize [(lp, (a, amt, n))] fs) s = Some (s', o) ->
  exists b, is_fee_expected e lp a s = Some b /\
    o = match fee s with Some (d, v) => if b : bool then [Fee d v] else [] | None => [] end /\
    forall D, 0 <= D -> attached D fs = (if a =? D then amt else 0) +
      match fee s with Some (d, v) => if b && (D =? d) then v else 0 | None => 0 end.
Proof.
  cbn [step]. unfold incentivize_many. intros H. unguard H G. unbind H as [[s1 f1] o1] E. unguard H GZ. injection H as <- <-.
  cbn [incentivize_each] in E. unbind E as [[s2 f2] o2] I. injection E as <- <- <-.
  apply incentivize_fee in I. rewrite fee_irrelevant in I. cbn [fee set_bal] in I. destruct I as (b & I1 & I2 & I3). exists b.
  split; [exact I1|]. split; [rewrite app_nil_r; exact I2|]. intros D HD. rewrite attached_fsum, (I3 D HD).
  replace (fsum D f2) with 0; [lia|]. symmetry. clear - GZ. induction f2 as [|[x v] r IH]; [reflexivity|].
  cbn [forallb] in GZ. apply andb_prop in GZ. destruct GZ as (Z1 & Z2). cbn [snd] in Z1. apply Z.eqb_eq in Z1. subst v. rewrite fsum_cons, (IH Z2).
  destruct (x =? D); reflexivity.
Qed.

(** The reward [A] of a pool is scheduled at least until [E]. *)
Definition covers (A E : Z) (rs : list rinfo) (sc : amap (list (Z * Z))) : Prop :=
  exists x, find_ext A rs = Some x /\ (E <= next_of (rw x) \/ exists y, In y (sched_of A sc) /\ E <= fst y).
Definition covered (A lp E : Z) (s : state) : Prop := covers A E (rewards (pl (cur lp s))) (scheds (cur lp s)).

Lemma scan_none t l : forall next coll c nx, scan t next coll l = Some (c, nx, None) -> Forall (fun p => fst p <= t) l.
Proof.
  induction l as [|[k v] l IH]; intros next coll c nx H; [constructor|]. cbn [scan] in H. destruct (Z.ltb_spec t k); [discriminate|].
  unbind H as d E1. unbind H as c1 E2. unbind H as c2 E3. constructor; [exact H0|]. eapply IH. exact H.
Qed.
Lemma upd_one_covers t lst n sch x a nx x' gone E : upd_one t lst n sch x = Some (x', gone) -> rw x = RExt a nx ->
  t < E -> (E <= nx \/ exists y, In y sch /\ E <= fst y) ->
  gone = false /\ exists nx', rw x' = RExt a nx' /\ (E <= nx' \/ exists y, In y sch /\ E <= fst y).
Proof.
  unfold upd_one. intros H R L K. rewrite R in H. cbv zeta in H. destruct (Z.leb_spec nx t).
  - destruct K as [K|(y & K1 & K2)]; [lia|]. unbind H as d E1. unbind H as c0 E2. unbind H as [[c1 nx2] act] E3. destruct act as [[ts r]|].
    + unbind H as c2 E4. unbind H as c E5. unbind H as x2 E6. injection H as <- <-. split; [reflexivity|].
      apply accrue_rw in E6. destruct E6 as (-> & _). cbn [rw]. exists ts. split; [reflexivity|]. right. eauto.
    + exfalso. apply scan_none in E3. rewrite Forall_forall in E3. assert (I : In y (after nx sch)).
      { apply in_after. split; [exact K1|lia]. } specialize (E3 _ I). lia.
  - unbind H as c E1. unbind H as x2 E2. injection H as <- <-. split; [reflexivity|]. apply accrue_rw in E2. destruct E2 as (-> & _).
    exists nx. auto.
Qed.
Lemma upd_one_asset t lst n sch x x' gone : upd_one t lst n sch x = Some (x', gone) ->
  is_ext (rw x') = is_ext (rw x) /\ asset_of (rw x') = asset_of (rw x).
Proof.
  intros H. destruct (upd_one_rw _ _ _ _ _ _ _ H) as [(-> & _)|(a & nx & ts & r & R & _ & R')]; [auto|]. rewrite R, R'. auto.
Qed.
Lemma find_ext_cons a x r : find_ext a (x :: r) = if is_ext (rw x) && (asset_of (rw x) =? a) then Some x else find_ext a r.
Proof. cbn [find_ext]. destruct (rw x); cbn; [reflexivity|]. destruct (a0 =? a); reflexivity. Qed.
Lemma upd_all_covers t l n A E sc rs : forall rs' rem, t < E -> covers A E rs sc -> upd_all t l n sc rs = Some (rs', rem) -> covers A E rs' sc.
Proof.
  induction rs as [|x r IH]; intros rs' rem L (y & Fy & K) H; [discriminate|]. cbn [upd_all] in H.
  unbind H as [x' gone] U. unbind H as [keep rm] UA. injection H as H.
  rewrite find_ext_cons in Fy. destruct (is_ext (rw x) && (asset_of (rw x) =? A)) eqn:M.
  - injection Fy as <-. apply andb_prop in M. destruct M as (M1 & M2). apply Z.eqb_eq in M2.
    destruct (rw x) as [b|b nx] eqn:R; [discriminate|]. cbn [asset_of] in M2. subst b. cbn [asset_of] in U.
    destruct (upd_one_covers _ _ _ _ _ _ _ _ _ E U R L K) as (-> & nx' & R' & K'). injection H as <- <-. exists x'. rewrite find_ext_cons, R'. cbn [is_ext asset_of].
    rewrite Z.eqb_refl. split; [reflexivity|]. exact K'.
  - destruct (IH _ _ L ltac:(exists y; eauto) eq_refl) as (z & Fz & Kz). destruct gone; injection H as <- <-; [exists z; auto|]. exists z. rewrite find_ext_cons.
    destruct (upd_one_asset _ _ _ _ _ _ _ U) as (-> & ->). rewrite M. auto.
Qed.
Lemma find_ext_upd_int A f rs : (forall x, is_ext (rw x) = false -> is_ext (rw (f x)) = false) -> find_ext A (upd_int f rs) = find_ext A rs.
Proof.
  intros K. induction rs as [|x r IH]; [reflexivity|]. cbn [upd_int]. destruct (is_ext (rw x)) eqn:M.
  - rewrite !find_ext_cons. destruct (_ && _); auto.
  - rewrite !find_ext_cons, M. rewrite (K x M). reflexivity.
Qed.
Lemma find_ext_app A rs x : find_ext A (rs ++ [x]) = match find_ext A rs with Some y => Some y | None => find_ext A [x] end.
Proof. induction rs as [|y r IH]; [reflexivity|]. cbn [app]. rewrite (find_ext_cons A y), (find_ext_cons A y r). destruct (_ && _); auto. Qed.
Lemma find_upd_ext A a f rs x : find_ext A rs = Some x -> (forall y, is_ext (rw y) = true -> is_ext (rw (f y)) = true /\ (asset_of (rw y) = a -> asset_of (rw (f y)) = a)) ->
  find_ext A (upd_ext a f rs) = Some (if a =? A then f x else x).
Proof.
  intros H K. induction rs as [|y r IH]; [discriminate|]. rewrite find_ext_cons in H. cbn [upd_ext].
  destruct (rw y) as [b|b n] eqn:R; cbn [is_ext asset_of andb] in H.
  - rewrite find_ext_cons, R. cbn [is_ext andb]. auto.
  - destruct (Z.eqb_spec b a) as [->|N].
    + rewrite find_ext_cons. destruct (K y) as (K1 & K2); [rewrite R; reflexivity|]. rewrite K1, K2 by (rewrite R; reflexivity). cbn [andb].
      destruct (Z.eqb_spec a A); [injection H as <-; reflexivity|exact H].
    + rewrite find_ext_cons, R. cbn [is_ext asset_of andb]. destruct (Z.eqb_spec b A) as [->|N2].
      * injection H as <-. rewrite (proj2 (Z.eqb_neq a A)) by auto. reflexivity.
      * auto.
Qed.
Lemma ins_has {V} k (v : V) l y : In y (map fst l) \/ y = k -> In y (map fst (ins k v l)).
Proof.
  induction l as [|[k' v'] r IH]; cbn; [intuition|]. intros H. destruct (k <? k'); [cbn; intuition|].
  destruct (Z.eqb_spec k k'); cbn; [subst; intuition|]. destruct H as [[H|H]|H]; auto.
Qed.
Lemma ins_all_has {V} sv : forall (l : list (Z * V)) y, In y (map fst l) -> In y (map fst (ins_all sv l)).
Proof. unfold ins_all. induction sv as [|[k v] r IH]; intros l y H; [exact H|]. cbn [fold_left]. apply IH. apply ins_has. auto. Qed.
Lemma incentivize_covers ast a ne en r A E rs sc rs' sch' : covers A E rs sc ->
  incentivize_pool ast a ne en r rs (sched_of a sc) = Some (rs', sch') -> covers A E rs' (put a sch' sc).
Proof.
  intros (x & F & K) H. unfold incentivize_pool in H. cbv zeta in H. unfold covers. rewrite sched_put.
  destruct (Z.eqb_spec a A) as [->|N].
  - rewrite F in H. unbind H as r1 E1. destruct (find_ext_in _ _ _ F) as (_ & nx & R). rewrite R in *. cbn [next_of] in *.
    destruct (Z.leb_spec en nx) as [L|L].
    + injection H as <- <-. eexists. split; [eapply find_upd_ext; [exact F|cbn; auto]|]. rewrite Z.eqb_refl. cbn [rw next_of].
      destruct (Z.ltb_spec en nx) as [L2|L2].
      * right. assert (I : exists k, In k (map fst (ins nx (rps x) (sched_of A sc))) /\ E <= k).
        { destruct K as [K|(y & I & K)]; [exists nx; split; [apply ins_has; auto|exact K]|]. exists (fst y). split; [|exact K]. apply ins_has. left.
          apply in_map. exact I. }
        destruct I as (k & I & Lk). apply in_map_iff in I. destruct I as (y & <- & I). eauto.
      * destruct K as [K|K]; [left; lia|right; exact K].
    + unbind H as sv E2. injection H as <- <-. eexists. split; [eapply find_upd_ext; [exact F|cbn; auto]|]. rewrite Z.eqb_refl. cbn [rw next_of]. rewrite R. cbn [next_of].
      destruct K as [K|(y & I & K)]; [left; exact K|]. right.
      pose proof (ins_all_has sv (sched_of A sc) (fst y) (in_map fst _ _ I)) as J. apply in_map_iff in J. destruct J as (z & Ez & J).
      exists z. split; [exact J|lia].
  - destruct (find_ext a rs) as [x2|] eqn:F2.
    + unbind H as r1 E1. destruct (en <=? next_of (rw x2)); [injection H as <- <-|unbind H as sv E2; injection H as <- <-];
        (exists x; split; [erewrite find_upd_ext; [rewrite (proj2 (Z.eqb_neq a A) N); reflexivity|exact F|cbn; auto]|exact K]).
    + unguard H G. injection H as <- <-. exists x. split; [rewrite find_ext_app, F; reflexivity|exact K].
Qed.
(** Neither removes the reward [A] ... *)
Definition keeps_reward (A : Z) (m : msg) : Prop := match m with RemoveReward _ a _ _ => a <> A | _ => True end.
Lemma del_ext_other A a rs : a <> A -> find_ext A (del_ext a rs) = find_ext A rs.
Proof.
  intros N. induction rs as [|x r IH]; [reflexivity|]. cbn [del_ext]. rewrite find_ext_cons. destruct (rw x) as [b|b n] eqn:R; cbn [is_ext asset_of andb].
  - rewrite find_ext_cons, R. exact IH.
  - destruct (Z.eqb_spec b a) as [->|M].
    + rewrite (proj2 (Z.eqb_neq a A) N). reflexivity.
    + rewrite find_ext_cons, R. cbn [is_ext asset_of andb]. destruct (b =? A); auto.
Qed.
Lemma chg_covers m t ast sc q q' sc' A E : keeps_reward A m -> chg m t ast sc q q' sc' -> covers A E (rewards q) sc -> covers A E (rewards q') sc'.
Proof.
  intros M C K. destruct C as [sc q n|sc q q' a r tt al S|sc q q' S|sc q l f lp a amt n ne en r rs sch Em Hin Ef S|sc q q' lp a b to x sch v Em S].
  - exact K.
  - destruct K as (x & F & K). exists x. split; [|exact K]. unfold set_astro in S. unbind S as n1 S1. unbind S as r1 S2. injection S as <-. cbn [rewards].
    destruct (existsb _ _); [rewrite find_ext_upd_int; auto|rewrite find_ext_app, F; reflexivity].
  - destruct K as (x & F & K). exists x. split; [|exact K]. unfold disable_astro in S. injection S as <-. cbn [rewards]. rewrite find_ext_upd_int; auto.
  - cbn [rewards]. eapply incentivize_covers; eauto.
  - subst m. cbn in M. destruct K as (y & F & K). exists y. unfold deregister in S. unbind S as z Ez. cbv zeta in S. unbind S as r0 S0.
    unbind S as [r1 s2] S1. unbind S as r2 S2. unbind S as w S3. injection S as <- <- <- <-. cbn [rewards]. rewrite del_ext_other by exact M.
    split; [exact F|]. rewrite sched_put, (proj2 (Z.eqb_neq a A) M). exact K.
Qed.
Lemma relabel_covers A lp E a l : forall m m', relabel a l m = Some m' ->
  covers A E (rewards (pl match find lp m with Some p => p | None => empty_lp end)) (scheds match find lp m with Some p => p | None => empty_lp end) ->
  covers A E (rewards (pl match find lp m' with Some p => p | None => empty_lp end)) (scheds match find lp m' with Some p => p | None => empty_lp end).
Proof.
  induction l as [|[k al] r IH]; intros m m' H K; cbn [relabel] in H; [injection H as <-; exact K|].
  unbind H as p Ep. unguard H G. apply (IH _ _ H). rewrite find_put. destruct (Z.eqb_spec k lp) as [->|N]; [|exact K].
  rewrite Ep in K. destruct K as (x & F & K). exists x. cbn [pl rewards scheds]. split; [|exact K].
  rewrite find_ext_upd_int; [exact F|]. reflexivity.
Qed.
Lemma mv_covers m e ast s s' A lp E : mv m e ast s s' -> keeps_reward A m -> now e < E -> covered A lp E s -> covered A lp E s'.
Proof.
  intros M KR L. unfold covered. induction M as [s s' Q|k s s' q rem q' us sch rem' U C St R S|a s s' Q|s1 s2 s3 M1 IH1 M2 IH2]; intros K.
  - unfold cur in *. rewrite Q. exact K.
  - apply save_lps in S. destruct S as (fi & El & _). cbn [pl users scheds] in El. unfold cur at 1 2. rewrite El, find_put.
    destruct (Z.eqb_spec k lp) as [->|N].
    + cbn [pl scheds]. eapply chg_covers; [exact KR|exact C|]. unfold update_rewards in U.
      destruct (now e <=? last (pl (cur lp s))); [injection U as <- <-; exact K|]. unbind U as [rs rm] U2. injection U as <- <-. cbn [rewards].
      eapply upd_all_covers; eauto.
    + exact K.
  - unfold cur in *. eapply relabel_covers; [exact Q|exact K].
  - auto.
Qed.
Lemma step_covers e sd m s s' o A lp E : step e sd m s = Some (s', o) -> keeps_reward A m -> now e < E -> covered A lp E s -> covered A lp E s'.
Proof. intros H. apply (mv_covers m e (astro s)). eapply step_mv; eauto. Qed.
Fixpoint before_end (A E : Z) (h : list (env * Z * msg)) : Prop :=
  match h with [] => True | (e, _, m) :: r => now e < E /\ keeps_reward A m /\ before_end A E r end.
Lemma run_covers A lp E h : forall s, before_end A E h -> covered A lp E s -> covered A lp E (run s h).
Proof.
  induction h as [|[[e sd] m] r IH]; intros s B K; [exact K|]. destruct B as (B1 & B2 & B3).
  change (run s ((e, sd, m) :: r)) with (run (exec s (e, sd, m)) r). apply IH; [exact B3|]. unfold exec.
  destruct (step e sd m s) as [[s' o]|] eqn:H; [|exact K]. eapply step_covers; eauto.
Qed.
Lemma covered_no_fee e lp A E s b : covered A lp E s -> now e < E -> is_fee_expected e lp A s = Some b -> b = false.
Proof.
  unfold covered, is_fee_expected, cur. intros K L H. destruct (A =? astro s); [injection H as <-; reflexivity|].
  destruct (find lp (lps s)) as [p|]; [|destruct K as (x & F & _); discriminate].
  unbind H as [q rem] U. injection H as <-. rewrite no_ext_find.
  assert (K2 : covers A E (rewards q) (scheds p)).
  { unfold update_rewards in U. destruct (now e <=? last (pl p)); [injection U as <- <-; exact K|].
    unbind U as [rs rm] U2. injection U as <- <-. cbn [rewards]. eapply upd_all_covers; eauto. }
  destruct K2 as (x & -> & _). reflexivity.
Qed.
Lemma incentivize_starts e lp a amt n s f s' f' o : incentivize e lp a amt n s f = Some (s', f', o) -> 0 <= n -> 1696809600 <= now e ->
  covered a lp (end_of (now e) n) s'.
Proof.
  unfold incentivize. intros H N L. unbind H as [[ne en] r] E. unguard H G. cbv zeta in H.
  unbind H as [q rem] U. unbind H as [rs sch] I. unbind H as [[f1 s1] o1] F. unbind H as [f2 s2] T. unbind H as s3 S.
  injection H as <- <- <-. destruct (from_input_spec _ _ _ _ _ _ E N L) as (_ & <- & _).
  apply save_lps in S. destruct S as (fi & El & _). cbn [pl users scheds] in El.
  unfold covered, cur. rewrite El, find_put, Z.eqb_refl. cbn [pl scheds rewards]. set (sc := scheds _) in *. clearbody sc. clear - I.
  unfold incentivize_pool in I. cbv zeta in I. unfold covers. rewrite sched_put, Z.eqb_refl. destruct (find_ext a (rewards q)) as [x|] eqn:Fx.
  - unbind I as r1 I1. destruct (find_ext_in _ _ _ Fx) as (_ & nx & R). rewrite R in I. cbn [next_of] in I. destruct (en <=? nx) eqn:Le.
    + injection I as <- <-. eexists. split; [eapply find_upd_ext; [exact Fx|cbn; auto]|]. rewrite Z.eqb_refl. cbn [rw next_of]. left. lia.
    + unbind I as sv I2. injection I as <- <-. eexists. split; [eapply find_upd_ext; [exact Fx|cbn; auto]|]. right.
      assert (J : In en (map fst (ins_all sv (sched_of a sc)))).
      { assert (In en (map fst sv)).
        { clear - I2. revert sv I2. induction (after ne (sched_of a sc)) as [|[ts v] t IH]; intros sv H; cbn [overlap] in H; [injection H as <-; left; reflexivity|].
          unbind H as n1 E1. destruct (en <=? ts); [injection H as <-; left; reflexivity|]. unbind H as u E2. injection H as <-. right. apply IH. reflexivity. }
        revert H. generalize (sched_of a sc). clear. unfold ins_all. induction sv as [|[k v] t IH]; intros l I; [destruct I|]. cbn [fold_left].
        destruct I as [I|I]; [cbn [fst] in I; subst k|apply IH; exact I]. apply (ins_all_has t). apply ins_has. auto. }
      apply in_map_iff in J. destruct J as (y & <- & J). exists y. split; [exact J|lia].
  - unguard I G2. injection I as <- <-. eexists. split; [rewrite find_ext_app, Fx; cbn; rewrite Z.eqb_refl; reflexivity|]. left. cbn. lia.
Qed.
(** C130: while an incentive runs, adding to it costs no fee: until its end, whatever happens in between short of
    the owner removing that reward, another incentive of the same reward in the same pool forwards no fee. *)
Theorem c130_running e sd lp a amt n fs s s' o h e2 sd2 amt2 n2 fs2 s2 o2 :
  1696809600 <= now e -> 0 <= n -> step e sd (Incentivize [(lp, (a, amt, n))] fs) s = Some (s', o) ->
  before_end a (end_of (now e) n) h -> now e2 < end_of (now e) n ->
  step e2 sd2 (Incentivize [(lp, (a, amt2, n2))] fs2) (run s' h) = Some (s2, o2) -> o2 = [].
Proof.
  intros L N H B L2 H2. assert (K : covered a lp (end_of (now e) n) s').
  { cbn [step] in H. unfold incentivize_many in H. unguard H G. unbind H as [[s1 f1] o1] E. unguard H GZ. injection H as <- <-.
    cbn [incentivize_each] in E. unbind E as [[s3 f3] o3] I. injection E as <- <- <-. eapply incentivize_starts; eauto. }
  destruct (c130_fee _ _ _ _ _ _ _ _ _ _ H2) as (b & Q & -> & _).
  rewrite (covered_no_fee _ _ _ _ _ _ (run_covers _ _ _ _ _ B K) L2 Q). destruct (fee (run s' h)) as [[d v]|]; reflexivity.
Qed.

(** ** C131: the schedules query *)

(** Rows (rate, start, end): each starts where the one before ended and is not empty. *)
Fixpoint chain (from : Z) (l : list (Z * Z * Z)) : Prop :=
  match l with [] => True | (r, st, en) :: t => st = from /\ st < en /\ 0 <= r /\ chain en t end.
(** What the rows say is emitted until [t], and altogether. *)
Definition listed (t : Z) (l : list (Z * Z * Z)) : Z :=
  fold_right (fun x acc => fst (fst x) * (Z.min t (snd x) - Z.min t (snd (fst x))) + acc) 0 l.
Definition listed_all (l : list (Z * Z * Z)) : Z :=
  fold_right (fun x acc => fst (fst x) * (snd x - snd (fst x)) + acc) 0 l.
(** End of the last row. *)
Definition last_end (l : list (Z * Z * Z)) : Z := snd (List.last l (0, 0, 0)).

Lemma scan_between t T l : forall next coll c nx ts r, scan t next coll l = Some (c, nx, Some (ts, r)) ->
  srt l -> Forall (fun p => next < fst p) l -> next <= t <= T ->
  emitted_pieces T next l - emitted_pieces t next l = r * (Z.min T ts - t) + emitted_pieces T ts (after ts l) /\ t < ts /\ In (ts, r) l.
Proof.
  induction l as [|[k v] l IH]; intros next coll c nx ts r H S F L; [discriminate|]. cbn [scan] in H.
  destruct S as (S1 & S2). inversion F as [|? ? F1 F2]; subst. cbn [fst] in F1. cbn [emitted_pieces].
  destruct (Z.ltb_spec t k).
  - injection H as <- <- <- <-. split; [|split; [exact H0|left; reflexivity]].
    assert (A : after k ((k, v) :: l) = l).
    { cbn. rewrite Z.ltb_irrefl. apply after_all. exact S1. }
    rewrite A. rewrite (pieces_future t l k) by first [lia|eapply Forall_impl; [|exact S1]; cbn; intros; lia].
    rewrite (Z.min_r T next) by lia. rewrite (Z.min_l t k), (Z.min_r t next) by lia. nia.
  - unbind H as d E1. unbind H as c1 E2. unbind H as c2 E3.
    destruct (IH _ _ _ _ _ _ H S2 S1 ltac:(lia)) as (K1 & K2 & K3). split; [|split; [exact K2|right; exact K3]].
    assert (A : after ts ((k, v) :: l) = after ts l). { cbn. destruct (Z.ltb_spec ts k); [lia|reflexivity]. }
    rewrite A. rewrite !(Z.min_r T _), !(Z.min_r t _) by lia. lia.
Qed.
Lemma upd_one_between t T lst n sch x a nx x' : upd_one t lst n sch x = Some (x', false) -> rw x = RExt a nx ->
  lst < t <= T -> okR lst x -> ok_sch sch ->
  emitted lst T (rps x) nx sch - emitted lst t (rps x) nx sch = emitted t T (rps x') (next_of (rw x')) sch.
Proof.
  unfold upd_one. intros H R L O (S1 & S2). destruct O as (_ & _ & _ & O). rewrite R in O. specialize (O eq_refl). cbn [next_of] in O.
  rewrite R in H. cbv zeta in H. unfold emitted. fold (after nx sch).
  assert (FA : Forall (fun p => nx < fst p) (after nx sch)).
  { apply Forall_forall. intros p Hp. apply in_after in Hp. tauto. }
  destruct (Z.leb_spec nx t).
  - unbind H as d E1. unbind H as c0 E2. unbind H as [[c1 nx2] act] E3. destruct act as [[ts r]|].
    + unbind H as c2 E4. unbind H as c E5. unbind H as x2 E6. injection H as <-. apply accrue_rw in E6. destruct E6 as (-> & ->).
      cbn [rw rps next_of]. destruct (scan_between t T _ _ _ _ _ _ _ E3 (srt_after _ _ S1) FA ltac:(lia)) as (K1 & K2 & K3).
      apply in_after in K3. cbn [fst] in K3. fold (after ts sch). rewrite after_after in K1 by lia.
      rewrite (Z.min_r T nx), (Z.min_r t nx) by lia. lia.
    + unbind H as x2 E6. discriminate.
  - unbind H as c E1. unbind H as x2 E2. injection H as <-. apply accrue_rw in E2. destruct E2 as (-> & ->). rewrite R. cbn [next_of].
    fold (after nx sch). rewrite (pieces_future t (after nx sch) nx) by first [lia|eapply Forall_impl; [|exact FA]; cbn; intros; lia].
    rewrite (Z.min_l t nx) by lia. nia.
Qed.

(** Ends of rewards and schedules have property [B]. *)
Definition ends_in (B : Z -> Prop) (rs : list rinfo) (sc : amap (list (Z * Z))) : Prop :=
  Forall (fun x => is_ext (rw x) = true -> B (next_of (rw x))) rs /\ forall a, Forall (fun y => B (fst y)) (sched_of a sc).
Lemma upd_all_in B t l n sc rs : forall rs' rem, ends_in B rs sc -> upd_all t l n sc rs = Some (rs', rem) -> ends_in B rs' sc.
Proof.
  induction rs as [|x r IH]; intros rs' rem (H1 & H2) H; cbn [upd_all] in H.
  - injection H as <- <-. split; auto.
  - unbind H as [x' gone] U. unbind H as [keep rm] UA. injection H as H. inversion H1 as [|? ? Hx Hr]; subst.
    destruct (IH _ _ (conj Hr H2) eq_refl) as (J1 & J2). destruct gone; injection H as <- <-; [split; auto|]. split; [|exact J2].
    constructor; [|exact J1]. intros X. destruct (upd_one_rw _ _ _ _ _ _ _ U) as [(Q & _)|(a & nx & ts & r2 & R & I & R')].
    + rewrite Q in *. auto.
    + rewrite R'. cbn [next_of]. specialize (H2 (asset_of (rw x))). rewrite Forall_forall in H2. apply (H2 _ I).
Qed.
Lemma ends_in_inv (B : Z -> Prop) m ast t : (forall lp a amt n l f ne en r, m = Incentivize l f -> In (lp, (a, amt, n)) l ->
    from_input t amt n = Some (ne, en, r) -> B en) -> pool_inv m ast t (ends_in B).
Proof.
  intros KB. constructor.
  - split; [constructor|]. intros a. constructor.
  - intros. eapply upd_all_in; eauto.
  - intros sc q q' sc' [H1 H2] C. destruct C as [sc q n|sc q q' a r tt al E|sc q q' E|sc q l f lp a amt n ne en r rs sch Em Hin Ef E|sc q q' lp a b to x sch v Em E].
    + split; auto.
    + split; auto. eapply set_astro_rewards; eauto. intros x Hx Hx'. congruence.
    + split; auto. unfold disable_astro in E. injection E as <-. simpl. apply upd_int_forall; auto.
      simpl. intros x Hx Hx'. congruence.
    + pose proof (KB _ _ _ _ _ _ _ _ _ Em Hin Ef) as B2. specialize (H2 a) as H2a.
      unfold incentivize_pool in E. destruct (find_ext a (rewards q)) as [x|] eqn:Ex.
      * destruct (find_ext_in _ _ _ Ex) as [Hx [nx Er]].
        assert (Bx : B nx).
        { rewrite Forall_forall in H1. specialize (H1 _ Hx). rewrite Er in H1. auto. }
        rewrite Er in E. cbn [next_of] in E. unbind E as r' E1. destruct (en <=? nx).
        -- injection E as <- <-. split; [apply upd_ext_forall; simpl; auto|].
           apply sched_forall; auto. destruct (en <? nx); auto. apply Forall_forall. intros y Hy. apply ins_in in Hy.
           destruct Hy as [->|Hy]; auto. rewrite Forall_forall in H2a. auto.
        -- unbind E as sv E2. injection E as <- <-. simpl. split.
           ++ apply upd_ext_forall; simpl; auto. intros y k Hy Ry _. rewrite Ry. simpl.
              rewrite Forall_forall in H1. specialize (H1 _ Hy). rewrite Ry in H1. auto.
           ++ apply sched_forall; auto. apply Forall_forall. intros y Hy. apply in_ins_all in Hy.
              rewrite Forall_forall in H2a. destruct Hy as [Hy|Hy]; auto.
              destruct (overlap_keys _ _ _ _ E2 y Hy) as [[K|K] _]; [congruence|].
              apply in_map_iff in K. destruct K as (z & <- & Hz). apply in_after in Hz. apply H2a. tauto.
      * unguard E G. injection E as <- <-. simpl. split; [|apply sched_forall; auto].
        apply Forall_app. split; auto.
    + unfold deregister in E. unbind E as y Ey. unbind E as r0 E0. unbind E as [r1 s2] E1. unbind E as r2 E2.
      unbind E as w E3. injection E as <- <- <- <-. simpl. split.
      * rewrite Forall_forall in *. intros z Hz. apply H1. eapply del_ext_in; eauto.
      * apply sched_forall; auto. specialize (H2 a). rewrite Forall_forall in *. intros z Hz.
        destruct b; [injection E1 as <- <-|unbind E1 as r3 E4; injection E1 as <- <-].
        -- apply filter_In in Hz. apply H2. tauto.
        -- apply filter_In in Hz. destruct Hz as [Hz _]. apply filter_In in Hz. apply H2. tauto.
  - intros a rs sc [H1 H2]. split; auto. apply upd_int_forall; simpl; auto. intros x Hx Hx'. discriminate.
Qed.
Definition WEEK : Z := 604800.
Lemma time_mono h : forall T, timed T h -> T <= time_after T h.
Proof. induction h as [|[[e sd] m] r IH]; intros T H; cbn; [lia|]. destruct H as (H1 & _ & _ & H2). specialize (IH _ H2). lia. Qed.
Lemma run_ends_in M h : forall T s, 1696809600 <= T -> timed T h -> time_after T h + 26 * WEEK <= M ->
  pools (ends_in (fun x => x <= M)) s -> pools (ends_in (fun x => x <= M)) (run s h).
Proof.
  induction h as [|[[e sd] m] r IH]; intros T s L H B K; [exact K|]. destruct H as (H1 & H2 & H3 & H4). cbn [time_after] in B.
  change (run s ((e, sd, m) :: r)) with (run (exec s (e, sd, m)) r). apply (IH (now e)); auto; [lia|]. unfold exec.
  destruct (step e sd m s) as [[s' o]|] eqn:E; auto. eapply mv_pools; [eapply step_mv; eauto| |exact K].
  apply ends_in_inv. intros lp a amt n l f ne en rr -> I F. cbn [unsigned] in H3. rewrite Forall_forall in H3. specialize (H3 _ I). cbn [snd] in H3.
  destruct (from_input_Some _ _ _ _ _ _ F H3) as (F1 & _ & F3 & _). destruct (epochs _ _ _ _ _ _ F H3) as (_ & F5); [unfold EPOCHS_START; lia|].
  pose proof (time_mono _ _ H4). unfold EPOCH_LENGTH, MAX_PERIODS, WEEK in *. lia.
Qed.
Lemma timed_less T T' h : T' <= T -> timed T h -> timed T' h.
Proof. destruct h as [|[[e sd] m] r]; [auto|]. cbn. intros L (H1 & H). split; [lia|exact H]. Qed.
(** Sorted week boundaries in an interval of 26 weeks. *)
Lemma boundaries (l : list (Z * Z)) : forall lo, srt l -> boundary lo -> Forall (fun p => lo < fst p) l -> Forall (fun p => boundary (fst p)) l ->
  forall hi, Forall (fun p => fst p <= hi) l -> lo <= hi -> Z.of_nat (length l) * WEEK <= hi - lo.
Proof.
  induction l as [|[k v] l IH]; intros lo S Bl F B hi U L; [cbn; lia|]. destruct S as (S1 & S2). inversion F; inversion B; inversion U; subst. cbn [fst] in *.
  specialize (IH k S2 H5 S1 H6 hi H10 H9). assert (lo + WEEK <= k).
  { unfold boundary in *. apply Z.mod_divide in Bl; [|lia]. apply Z.mod_divide in H5; [|lia]. destruct Bl as (x & Bl), H5 as (y & H5). unfold WEEK. nia. }
  cbn [length]. lia.
Qed.

Lemma rows_chain l : forall from, srt l -> Forall (fun p => from < fst p) l -> Forall (fun p => 0 <= snd p) l -> chain from (rows from l).
Proof.
  induction l as [|[k v] l IH]; intros from S F N; [exact Logic.I|]. destruct S as (S1 & S2). inversion F; inversion N; subst. cbn in *.
  repeat (split; [auto|]). apply IH; auto.
Qed.
Lemma listed_rows t l : forall from, listed t (rows from l) = emitted_pieces t from l.
Proof. induction l as [|[k v] l IH]; intros from; [reflexivity|]. cbn. rewrite <- IH. reflexivity. Qed.
Lemma listed_all_rows l : forall from, listed_all (rows from l) = tailZ from l.
Proof. induction l as [|[k v] l IH]; intros from; [reflexivity|]. cbn. rewrite <- IH. reflexivity. Qed.
Lemma rows_length l : forall from, length (rows from l) = length l.
Proof. induction l as [|[k v] l IH]; intros from; cbn; auto. Qed.
(** End of the last of [l], or [from]. *)
Definition end_from (from : Z) (l : list (Z * Z)) : Z := fst (List.last l (from, 0)).
Lemma end_from_cons from k v l : end_from from ((k, v) :: l) = end_from k l.
Proof. unfold end_from. destruct l as [|x l]; [reflexivity|]. change (List.last ((k, v) :: x :: l) (from, 0)) with (List.last (x :: l) (from, 0)).
  f_equal. revert x. induction l as [|y l IH]; intros x; [reflexivity|]. apply (IH y). Qed.
Lemma rows_split m j : forall A from, srt A -> Forall (fun p => from < fst p) A -> (j <= length A)%nat ->
  let k := end_from from (firstn j A) in
  from <= k /\ after k A = skipn j A /\ rows from (firstn (j + m) A) = rows from (firstn j A) ++ rows k (firstn m (skipn j A)).
Proof.
  induction j as [|j IH]; intros A from S F L; cbv zeta.
  - cbn. split; [lia|]. split; [apply after_all; exact F|reflexivity].
  - destruct A as [|[k v] A]; [cbn in L; lia|]. destruct S as (S1 & S2). inversion F as [|? ? F1 F2]; subst. cbn [fst] in F1. cbn [length] in L.
    destruct (IH A k S2 S1 ltac:(lia)) as (I1 & I2 & I3). cbn [firstn]. rewrite end_from_cons. split; [lia|]. split.
    + cbn [skipn]. rewrite <- I2. cbn. destruct (Z.ltb_spec (end_from k (firstn j A)) k); [lia|reflexivity].
    + cbn [Nat.add firstn rows skipn app]. rewrite I3. reflexivity.
Qed.
Lemma last_end_rows from r0 st A : last_end ((r0, st, from) :: rows from A) = end_from from A.
Proof.
  revert from r0 st. induction A as [|[k v] A IH]; intros from r0 st; [reflexivity|]. rewrite end_from_cons. rewrite <- (IH k v from). reflexivity.
Qed.

Section Schedules.
  Variables (own fac ast : Z) (grd : option Z) (f : option (Z * Z)) (h : list (env * Z * msg)).
  Hypothesis Ht : timed 1696809600 h.
  Let s := run (init own fac ast grd f) h.

  (** The state of a scheduled reward at the time of a query. *)
  Lemma sched_facts e a lp p q rem x : time_after 1696809600 h <= now e -> find lp (lps s) = Some p ->
    update_rewards (now e) p = Some (q, rem) -> find_ext a (rewards q) = Some x ->
    let sch := sched_of a (scheds p) in
    now e < next_of (rw x) /\ 0 <= rps x /\ ok_sch sch /\
    (Z.of_nat (length (after (next_of (rw x)) sch)) <= 25) /\
    left_of (now e) x sch = future a lp (now e) s /\
    forall t, now e <= t -> emitted (now e) t (rps x) (next_of (rw x)) sch = future a lp (now e) s - future a lp t s.
  Proof.
    intros L Ep U Fx. cbv zeta.
    assert (Hne : time_after 0 h = time_after 1696809600 h). { destruct h as [|y r]; [discriminate Ep|reflexivity]. }
    destruct (reach_any own fac ast grd f h (timed_less 1696809600 0 h ltac:(lia) Ht)) as (B & I & T0). fold s in I.
    pose proof (i_lps _ _ _ I) as Q. rewrite Forall_forall in Q. destruct (Q _ (find_in _ _ _ Ep)) as (W & Lw). cbn [snd] in W, Lw.
    rewrite Hne in Lw. pose proof (time_mono _ _ Ht) as Tm.
    assert (Ends : ends_ok (rewards q) (scheds p) /\ ends_in (fun y => y <= now e + 26 * WEEK) (rewards q) (scheds p)).
    { pose proof (run_ends own fac ast grd f h) as R1. fold s in R1. unfold pools in R1. rewrite Forall_forall in R1. specialize (R1 _ (find_in _ _ _ Ep)). cbn [snd] in R1.
      assert (R2 : pools (ends_in (fun y => y <= now e + 26 * WEEK)) s).
      { apply (run_ends_in _ h 1696809600); [lia|exact Ht|lia|constructor]. }
      unfold pools in R2. rewrite Forall_forall in R2. specialize (R2 _ (find_in _ _ _ Ep)). cbn [snd] in R2.
      unfold update_rewards in U. destruct (now e <=? last (pl p)); [injection U as <- <-; auto|]. unbind U as [rs rm] UA. injection U as <- <-. cbn [rewards].
      split; [eapply upd_all_ends; eauto|eapply upd_all_in; eauto]. }
    destruct Ends as ((E1 & E2) & (E3 & E4)).
    assert (Ok : ok_sch (sched_of a (scheds p))) by apply (w_sch _ _ W).
    destruct (find_ext_in _ _ _ Fx) as (Ix & nx & Rx). rewrite Rx. cbn [next_of].
    assert (Main : now e < nx /\ 0 <= rps x /\ left_of (now e) x (sched_of a (scheds p)) = future a lp (now e) s /\
      forall t, now e <= t -> emitted (now e) t (rps x) nx (sched_of a (scheds p)) = future a lp (now e) s - future a lp t s).
    { unfold future. rewrite Ep. change (match find a (scheds p) with Some l => l | None => [] end) with (sched_of a (scheds p)).
      unfold update_rewards in U. destruct (Z.leb_spec (now e) (last (pl p))) as [Le|Le].
      - injection U as <- <-. rewrite Fx. cbv zeta. assert (El : last (pl p) = now e) by lia. rewrite El, Rx. cbn [next_of].
        pose proof (w_rw _ _ W) as O. rewrite Forall_forall in O. destruct (O _ Ix) as (O1 & _ & _ & O2). rewrite Rx in O2. specialize (O2 eq_refl). cbn [next_of] in O2.
        rewrite El in O2. split; [exact O2|]. split; [exact O1|].
        assert (Z1 : emitted (now e) (now e) (rps x) nx (sched_of a (scheds p)) = 0).
        { unfold emitted. rewrite Z.min_l by lia. rewrite pieces_future; [lia|lia|]. apply Forall_forall. intros y Hy. apply filter_In in Hy. destruct Hy as (_ & Hy). apply Z.ltb_lt in Hy. lia. }
        rewrite Z1. split; [rewrite <- left_over_of, Rx; cbn [next_of]; lia|]. intros t Lt. lia.
      - unbind U as [rs rm] UA. injection U as <- <-. cbn [rewards] in *.
        destruct (upd_all_spec _ _ _ _ _ _ _ UA ltac:(lia)) as (_ & _ & _ & _ & _ & I6 & _ & _ & I9);
          [eapply wf_total_nn; eauto|apply (w_ext _ _ W)|apply (w_rw _ _ W)|apply (w_sch _ _ W)|].
        rewrite Forall_forall in I6. destruct (I6 _ Ix) as (O1 & _ & _ & O2). rewrite Rx in O2. specialize (O2 eq_refl). cbn [next_of] in O2.
        specialize (I9 a). destruct (find_ext a (rewards (pl p))) as [x0|] eqn:F0; [|destruct I9; congruence].
        destruct I9 as (x' & gone & U1 & U2). destruct gone; [destruct U2; congruence|]. destruct U2 as (U2 & _). rewrite Fx in U2. injection U2 as <-.
        destruct (find_ext_in _ _ _ F0) as (I0 & n0 & R0). pose proof (w_rw _ _ W) as O. rewrite Forall_forall in O. specialize (O _ I0).
        cbv zeta. rewrite R0. cbn [next_of]. split; [exact O2|]. split; [exact O1|]. split.
        + pose proof (upd_one_left _ _ _ _ _ _ _ _ _ U1 R0 ltac:(lia) O Ok) as K. cbv iota in K.
          rewrite <- (left_over_of (last (pl p)) x0), R0 in K. cbn [next_of] in K. lia.
        + intros t Lt. pose proof (upd_one_between _ t _ _ _ _ _ _ _ U1 R0 ltac:(lia) O Ok) as K. rewrite Rx in K. cbn [next_of] in K. lia. }
    destruct Main as (M1 & M2 & M3 & M4). split; [exact M1|]. split; [exact M2|]. split; [exact Ok|]. split; [|split; [exact M3|exact M4]].
    rewrite Forall_forall in E1, E3. specialize (E1 _ Ix). specialize (E3 _ Ix). rewrite Rx in E1, E3. specialize (E1 eq_refl). specialize (E3 eq_refl). cbn [next_of] in E1, E3.
    pose proof (boundaries (after nx (sched_of a (scheds p))) nx (srt_after _ _ (proj1 Ok)) E1) as Bd.
    specialize (Bd ltac:(apply Forall_forall; intros y Hy; apply in_after in Hy; tauto)).
    specialize (Bd ltac:(apply Forall_forall; intros y Hy; apply in_after in Hy; specialize (E2 a); rewrite Forall_forall in E2; apply E2; tauto)).
    specialize (Bd (now e + 26 * WEEK) ltac:(apply Forall_forall; intros y Hy; apply in_after in Hy; specialize (E4 a); rewrite Forall_forall in E4; apply E4; tauto) ltac:(lia)).
    unfold WEEK in *. lia.
  Qed.

  (** C131: the default page lists every period of the reward from now on, one after the other; what it says is
      emitted until any later time, and altogether, is what the pool will emit. There are at most 26 rows. *)
  Theorem c131_listed e a lp l : time_after 1696809600 h <= now e -> schedules e a lp None None s = Some l ->
    l <> [] /\ (length l <= 26)%nat /\ chain (now e) l /\ listed_all l = future a lp (now e) s /\
    forall t, now e <= t -> listed t l = future a lp (now e) s - future a lp t s.
  Proof.
    intros L H. unfold schedules in H. cbv zeta in H. unguard H G. unbind H as p Ep. unbind H as [q rem] U. unbind H as x Fx.
    destruct (sched_facts _ _ _ _ _ _ _ L Ep U Fx) as (M1 & M2 & M3 & M4 & M5 & M6).
    rewrite (proj2 (Z.ltb_lt _ _) M1) in H. change (Z.to_nat (Z.min (or_page None) MAX_PAGE_LIMIT - 1)) with 49%nat in H.
    rewrite firstn_all2 in H by lia. injection H as <-. set (sch := sched_of a (scheds p)) in *. set (nx := next_of (rw x)) in *.
    split; [discriminate|]. split; [cbn [length]; rewrite rows_length; lia|].
    split; [|split].
    - cbn [chain]. repeat (split; [first [reflexivity|assumption]|]). apply rows_chain.
      + apply srt_after. apply M3.
      + apply Forall_forall. intros y Hy. apply in_after in Hy. tauto.
      + apply Forall_forall. intros y Hy. apply in_after in Hy. destruct M3 as (_ & M3). rewrite Forall_forall in M3. apply M3. tauto.
    - cbn [listed_all fold_right fst snd]. fold (listed_all (rows nx (after nx sch))). rewrite listed_all_rows. rewrite <- M5. reflexivity.
    - intros t Lt. rewrite <- (M6 t Lt). unfold listed. cbn [fold_right fst snd]. fold (listed t (rows nx (after nx sch))). rewrite listed_rows. unfold emitted.
      rewrite (Z.min_r t (now e)) by lia. reflexivity.
  Qed.
  (** C131: following pages continue where the page before ended. *)
  Theorem c131_pages e a lp n m l1 l2 : time_after 1696809600 h <= now e -> 1 <= n -> 1 <= m -> n + m <= 50 ->
    schedules e a lp None (Some n) s = Some l1 -> Z.of_nat (length l1) = n ->
    schedules e a lp (Some (last_end l1)) (Some m) s = Some l2 ->
    schedules e a lp None (Some (n + m)) s = Some (l1 ++ l2).
  Proof.
    intros L Ln Lm Lnm H1 Hl H2. unfold schedules, or_page, MAX_PAGE_LIMIT in *. cbv zeta in *.
    rewrite !Z.min_l in * by lia. unguard H1 G. unguard H2 G2. rewrite (proj2 (Z.ltb_lt 0 (n + m))) by lia.
    unbind H1 as p Ep. unbind H1 as [q rem] U. unbind H1 as x Fx. rewrite ?Ep, ?U, ?Fx in *.
    destruct (sched_facts _ _ _ _ _ _ _ L Ep U Fx) as (M1 & M2 & M3 & M4 & M5 & M6).
    rewrite (proj2 (Z.ltb_lt _ _) M1) in *. injection H1 as <-. set (sch := sched_of a (scheds p)) in *. set (nx := next_of (rw x)) in *.
    cbn [length] in Hl. rewrite rows_length in Hl.
    assert (Lj : (Z.to_nat (n - 1) <= length (after nx sch))%nat). { rewrite firstn_length in Hl. lia. }
    destruct (rows_split (Z.to_nat m) _ (after nx sch) nx (srt_after _ _ (proj1 M3)) ltac:(apply Forall_forall; intros y Hy; apply in_after in Hy; tauto) Lj) as (K1 & K2 & K3).
    rewrite last_end_rows in H2. set (k := end_from nx (firstn (Z.to_nat (n - 1)) (after nx sch))) in *.
    rewrite (proj2 (Z.ltb_ge k nx) K1) in H2. injection H2 as <-.
    assert (A : after k sch = skipn (Z.to_nat (n - 1)) (after nx sch)). { rewrite <- K2. rewrite after_after by exact K1. reflexivity. }
    rewrite A. replace (Z.to_nat (n + m - 1)) with (Z.to_nat (n - 1) + Z.to_nat m)%nat by lia. rewrite K3. reflexivity.
  Qed.
End Schedules.

(** ** C132: lists by pages *)

(** A client that asks for pages until one is empty, each starting after the last key of the one before. *)
Fixpoint collect {A} (key : A -> Z) (ask : option Z -> list A) (fuel : nat) (start : option Z) : list A :=
  match fuel with
  | O => []
  | S k => match rev (ask start) with
           | [] => []
           | x :: _ => ask start ++ collect key ask k (Some (key x))
           end
  end.
Lemma after_last {V} (l : list (Z * V)) n : srt l -> (0 < n)%nat -> l <> [] ->
  exists x r, rev (firstn n l) = x :: r /\ after (fst x) l = skipn n l.
Proof.
  revert n. induction l as [|[k v] l IH]; intros n S L N; [congruence|]. destruct S as (S1 & S2). destruct n as [|n]; [lia|].
  cbn [firstn rev skipn]. destruct n as [|n].
  - exists (k, v), []. split; [reflexivity|]. cbn. rewrite Z.ltb_irrefl. apply after_all. exact S1.
  - destruct l as [|y l].
    + exists (k, v), []. split; [reflexivity|]. cbn. rewrite Z.ltb_irrefl. reflexivity.
    + destruct (IH (S n) S2 ltac:(lia) ltac:(discriminate)) as (x & r & R & A). rewrite R. exists x, (r ++ [(k, v)]). split; [reflexivity|].
      cbn [after filter fst] in *. assert (I : In x (y :: l)).
      { rewrite <- (firstn_skipn (S n) (y :: l)). apply in_or_app. left. rewrite in_rev, R. left. reflexivity. }
      rewrite Forall_forall in S1. specialize (S1 _ I). destruct (Z.ltb_spec (fst x) k); [lia|]. exact A.
Qed.

Lemma after_after_ {V} k k' (l : list (Z * V)) : k <= k' -> after k' (after k l) = after k' l.
Proof.
  intros L. unfold after. induction l as [|x l IH]; [reflexivity|]. cbn [filter].
  destruct (Z.ltb_spec k (fst x)); cbn [filter]; destruct (Z.ltb_spec k' (fst x)); rewrite ?IH; try reflexivity; lia.
Qed.
Lemma srt_after_ {V} k (l : list (Z * V)) : srt l -> srt (after k l).
Proof.
  unfold after. induction l as [|[j v] l IH]; intros S; [exact Logic.I|]. destruct S as (S1 & S2). cbn [filter fst]. destruct (k <? j); auto. split; auto.
  rewrite Forall_forall in *. intros x Hx. apply filter_In in Hx. apply S1. tauto.
Qed.
Lemma collect_after {V A} (f : Z * V -> A) key (l : list (Z * V)) n : (forall x, key (f x) = fst x) -> 0 < n ->
  forall fuel k, srt l -> (length (after k l) < fuel)%nat ->
  collect key (fun st => map f (page l st n)) fuel (Some k) = map f (after k l).
Proof.
  intros K N. induction fuel as [|fuel IH]; intros k S L; [lia|]. cbn [collect]. unfold page at 1 2. rewrite <- map_rev.
  destruct (after k l) as [|y t] eqn:E; [rewrite firstn_nil; reflexivity|].
  destruct (after_last (y :: t) (Z.to_nat n)) as (x & r & R & AL); [rewrite <- E; apply srt_after_; exact S|lia|discriminate|].
  rewrite R. cbn [map]. rewrite K.
  assert (Ix : In x (after k l)).
  { rewrite E. rewrite <- (firstn_skipn (Z.to_nat n) (y :: t)). apply in_or_app. left. rewrite in_rev, R. left. reflexivity. }
  apply filter_In in Ix. destruct Ix as (_ & Ix). apply Z.ltb_lt in Ix.
  assert (A2 : after (fst x) l = skipn (Z.to_nat n) (y :: t)). { rewrite <- AL, <- E. symmetry. apply after_after_. lia. }
  rewrite IH; auto.
  - rewrite A2, <- map_app, firstn_skipn. reflexivity.
  - rewrite A2, skipn_length. cbn [length] in *. lia.
Qed.
Lemma collect_all {V A} (f : Z * V -> A) key (l : list (Z * V)) n fuel : (forall x, key (f x) = fst x) -> 0 < n -> srt l ->
  (length l < fuel)%nat -> collect key (fun st => map f (page l st n)) fuel None = map f l.
Proof.
  intros K N S L. destruct fuel as [|fuel]; [lia|]. cbn [collect]. unfold page at 1 2. rewrite <- map_rev.
  destruct l as [|y t] eqn:E; [rewrite firstn_nil; reflexivity|]. rewrite <- E in *.
  destruct (after_last l (Z.to_nat n) S) as (x & r & R & AL); [lia|congruence|].
  rewrite R. cbn [map]. rewrite K, collect_after; auto.
  - rewrite AL, <- map_app, firstn_skipn. reflexivity.
  - rewrite AL, skipn_length. rewrite E in *. cbn [length] in *. lia.
Qed.
Lemma ins_perm {V} k (v : V) l : ~ In k (map fst l) -> Permutation (ins k v l) ((k, v) :: l).
Proof.
  induction l as [|[j w] l IH]; intros N; [reflexivity|]. cbn [ins]. destruct (k <? j); [reflexivity|].
  destruct (Z.eqb_spec k j); [subst; exfalso; apply N; left; reflexivity|].
  rewrite IH by (intros X; apply N; right; exact X). apply perm_swap.
Qed.
Lemma ins_keys {V} k (v : V) l a : In a (map fst (ins k v l)) <-> a = k \/ In a (map fst l).
Proof.
  induction l as [|[j w] l IH]; [cbn; intuition|]. cbn [ins]. destruct (Z.ltb_spec k j); [cbn; intuition|].
  destruct (Z.eqb_spec k j); [subst; cbn; intuition|]. cbn [map fst In]. rewrite IH. intuition.
Qed.
Lemma srt_ins_ {V} k (v : V) l : srt l -> srt (ins k v l).
Proof.
  induction l as [|[j w] l IH]; intros S; [split; [constructor|exact Logic.I]|]. destruct S as (S1 & S2). cbn [ins].
  destruct (Z.ltb_spec k j).
  - split; [|split; auto]. constructor; [exact H|]. eapply Forall_impl; [|exact S1]. cbn. intros; lia.
  - destruct (Z.eqb_spec k j); [subst; split; auto|]. split; [|auto]. apply Forall_forall. intros x Hx.
    assert (Kx : In (fst x) (map fst (ins k v l))) by (apply in_map; exact Hx). apply ins_keys in Kx. destruct Kx as [Kx|Kx]; [lia|].
    apply in_map_iff in Kx. destruct Kx as (y & Ey & Iy). rewrite <- Ey. rewrite Forall_forall in S1. apply S1. exact Iy.
Qed.
Lemma in_order_srt {V} (m : list (Z * V)) : srt (in_order m).
Proof. induction m as [|x m IH]; [exact Logic.I|]. apply srt_ins_. exact IH. Qed.
Lemma in_order_keys {V} (m : list (Z * V)) a : In a (map fst (in_order m)) <-> In a (map fst m).
Proof. induction m as [|[k v] m IH]; [reflexivity|]. change (in_order ((k, v) :: m)) with (ins k v (in_order m)). rewrite ins_keys, IH. cbn. intuition. Qed.
Lemma in_order_perm {V} (m : list (Z * V)) : NoDup (map fst m) -> Permutation (in_order m) m.
Proof.
  induction m as [|[k v] m IH]; intros N; [reflexivity|]. inversion N; subst. change (in_order ((k, v) :: m)) with (ins k v (in_order m)).
  rewrite ins_perm; [constructor; apply IH; assumption|]. rewrite in_order_keys. assumption.
Qed.
Lemma in_order_length {V} (m : list (Z * V)) : (length (in_order m) <= length m)%nat.
Proof.
  induction m as [|[k v] m IH]; [cbn; lia|]. change (in_order ((k, v) :: m)) with (ins k v (in_order m)).
  assert (K : forall l : list (Z * V), (length (ins k v l) <= S (length l))%nat).
  { induction l as [|[j w] l IHl]; [cbn; lia|]. cbn [ins]. destruct (k <? j); [cbn; lia|]. destruct (k =? j); cbn in *; lia. }
  specialize (K (in_order m)). cbn [length]. lia.
Qed.
(** Strictly increasing. *)
Fixpoint increasing (l : list Z) : Prop := match l with [] => True | k :: r => Forall (fun x => k < x) r /\ increasing r end.
Lemma srt_increasing {V} (l : list (Z * V)) : srt l -> increasing (map fst l).
Proof.
  induction l as [|[k v] l IH]; intros S; [exact Logic.I|]. destruct S as (S1 & S2). cbn. split; auto.
  rewrite Forall_forall in *. intros x Hx. apply in_map_iff in Hx. destruct Hx as (y & <- & Iy). auto.
Qed.
Lemma sum_perm (f : Z * uinfo -> Z) l l' : Permutation l l' ->
  fold_right (fun x a => f x + a) 0 l = fold_right (fun x a => f x + a) 0 l'.
Proof. induction 1; cbn; lia. Qed.

Section Lists.
  Variables (own fac ast : Z) (grd : option Z) (f : option (Z * Z)) (h : list (env * Z * msg)).
  Hypothesis Ht : timed 0 h.
  Let s := run (init own fac ast grd f) h.

  (** C132: a client that pages through the stakers of a pool, with any limit, sees every staker once, in
      increasing order and with their position; the positions add up to the total of the pool. *)
  Theorem c132_stakers lp limit : exists fuel0, forall fuel, (fuel0 <= fuel)%nat ->
    let l := collect fst (fun st => pool_stakers lp st limit s) fuel None in
    increasing (map fst l) /\
    (forall u v, In (u, v) l -> position_of lp u s = v) /\
    (forall u, 0 < position_of lp u s -> In (u, position_of lp u s) l) /\
    fold_right (fun x a => snd x + a) 0 l = total_of lp s.
  Proof.
    pose proof (c34_total own fac ast grd f h Ht lp) as Tot. fold s in Tot. unfold sum_positions in Tot.
    unfold pool_stakers, position_of. rewrite Tot. destruct (find lp (lps s)) as [p|] eqn:Ep.
    - destruct (reach_any own fac ast grd f h Ht) as (B & I & T0). fold s in I.
      pose proof (i_lps _ _ _ I) as Q. rewrite Forall_forall in Q. destruct (Q _ (find_in _ _ _ Ep)) as (W & _). cbn [snd] in W.
      pose proof (w_nd _ _ W) as Nd. pose proof (in_order_perm _ Nd) as Pm.
      exists (S (length (users p))). intros fuel L. cbv zeta.
      rewrite (collect_all (fun x => (fst x, amount (snd x))) fst (in_order (users p)) (Z.max (or_page limit) MAX_PAGE_LIMIT) fuel);
        [|reflexivity|unfold MAX_PAGE_LIMIT; lia|apply in_order_srt|pose proof (in_order_length (users p)); lia].
      split; [rewrite map_map; cbn [fst]; apply srt_increasing, in_order_srt|]. split; [|split].
      + intros u v Hi. apply in_map_iff in Hi. destruct Hi as ([k w] & E & Hi). injection E as <- <-. cbn [fst snd].
        apply (Permutation_in _ Pm) in Hi. rewrite (find_nodup _ _ _ Nd Hi). reflexivity.
      + intros u P. destruct (find u (users p)) as [w|] eqn:Ew; [|lia]. apply in_map_iff. exists (u, w). split; [reflexivity|].
        apply (Permutation_in _ (Permutation_sym Pm)). apply find_in. exact Ew.
      + rewrite <- (sum_perm (fun x => amount (snd x)) _ _ Pm). generalize (in_order (users p)). intros l. induction l as [|x l IH]; [reflexivity|]. cbn. rewrite IH. reflexivity.
    - exists 1%nat. intros fuel L. cbv zeta. destruct fuel as [|fuel]; [lia|]. cbn [collect in_order fold_right]. unfold page. cbn. rewrite firstn_nil. cbn.
      split; [exact Logic.I|]. split; [tauto|]. split; [lia|reflexivity].
  Qed.
  (** C132: the same for the pools that exist and for the blocked tokens, with any positive limit. *)
  Theorem c132_pools limit : match limit with Some n => 0 < n | None => True end -> exists fuel0, forall fuel, (fuel0 <= fuel)%nat ->
    let l := collect (fun x => x) (fun st => list_pools st limit s) fuel None in
    increasing l /\ forall lp, In lp l <-> find lp (lps s) <> None.
  Proof.
    intros N. exists (S (length (lps s))). intros fuel L. cbv zeta. unfold list_pools.
    rewrite (collect_all fst (fun x => x) (in_order (lps s)) (or_page limit) fuel);
      [|reflexivity|destruct limit; unfold or_page, MAX_PAGE_LIMIT; lia|apply in_order_srt|pose proof (in_order_length (lps s)); lia].
    split; [apply srt_increasing, in_order_srt|]. intros lp. rewrite in_order_keys. split.
    - intros I E. apply in_map_iff in I. destruct I as ([k v] & <- & I). cbn [fst] in E.
      revert I E. generalize (lps s). intros m. induction m as [|[j w] m IH]; intros I E; [destruct I|]. cbn [find] in E.
      destruct (Z.eqb_spec j k); [discriminate|]. destruct I as [I|I]; [congruence|auto].
    - intros E. destruct (find lp (lps s)) as [p|] eqn:Ep; [|congruence]. apply find_in in Ep. apply (in_map fst) in Ep. exact Ep.
  Qed.
  Theorem c132_blocked limit : match limit with Some n => 0 < n | None => True end -> exists fuel0, forall fuel, (fuel0 <= fuel)%nat ->
    let l := collect (fun x => x) (fun st => blocked_tokens st limit s) fuel None in
    increasing l /\ forall a, In a l <-> In a (blocked s).
  Proof.
    intros N. exists (S (length (blocked s))). intros fuel L. cbv zeta. unfold blocked_tokens.
    rewrite (collect_all fst (fun x => x) (in_order (map (fun a => (a, tt)) (blocked s))) (or_page limit) fuel);
      [|reflexivity|destruct limit; unfold or_page, MAX_PAGE_LIMIT; lia|apply in_order_srt|].
    - split; [apply srt_increasing, in_order_srt|]. intros a. rewrite in_order_keys, map_map. cbn [fst]. rewrite map_id. reflexivity.
    - pose proof (in_order_length (map (fun a => (a, tt)) (blocked s))) as K. rewrite map_length in K. lia.
  Qed.
End Lists.

(** The sizes of single pages. *)
Theorem c132_sizes lp start n s : 0 <= n ->
  Z.of_nat (length (list_pools start (Some n) s)) <= n /\ Z.of_nat (length (blocked_tokens start (Some n) s)) <= n /\
  Z.of_nat (length (pool_stakers lp start (Some n) s)) <= Z.max n 50.
Proof.
  intros L. unfold list_pools, blocked_tokens, pool_stakers, page, or_page, MAX_PAGE_LIMIT. rewrite !map_length, !firstn_length. lia.
Qed.

(** ** C133: the answer of the pending-rewards query *)

Definition total_amount (l : list (Z * Z)) : Z := fold_right (fun x a => snd x + a) 0 l.
(** Neighbouring rows have different tokens. *)
Fixpoint alternating (l : list (Z * Z)) : Prop :=
  match l with
  | [] => True
  | x :: t => match t with y :: _ => fst x <> fst y | [] => True end /\ alternating t
  end.
Lemma merge_sums l : forall l', merge l = Some l' -> (forall A, sum_of A l' = sum_of A l) /\ total_amount l' = total_amount l /\ alternating l' /\
  (forall A, In A (map fst l') <-> In A (map fst l)).
Proof.
  induction l as [|[a v] l IH]; intros l' H; [injection H as <-; split; [reflexivity|split; [reflexivity|split; [exact Logic.I|reflexivity]]]|].
  cbn [merge] in H. unbind H as t Et. destruct (IH _ eq_refl) as (I1 & I2 & I3 & I4). destruct t as [|[b w] t].
  - injection H as <-. split; [|split; [|split]].
    + intros A. specialize (I1 A). unfold sum_of in *; cbn in *; lia.
    + unfold total_amount in *; cbn in *; lia.
    + cbn. auto.
    + intros A. specialize (I4 A). cbn in *. tauto.
  - destruct (Z.eqb_spec a b) as [->|N].
    + unbind H as x Ex. injection H as <-. num_inv. split; [|split; [|split]].
      * intros A. specialize (I1 A). unfold sum_of in *; cbn in *; destruct (b =? A); lia.
      * unfold total_amount in *; cbn in *; lia.
      * cbn in *. exact I3.
      * intros A. specialize (I4 A). cbn in *. tauto.
    + injection H as <-. split; [|split; [|split]].
      * intros A. specialize (I1 A). unfold sum_of in *; cbn in *; lia.
      * unfold total_amount in *; cbn in *; lia.
      * cbn in *. tauto.
      * intros A. specialize (I4 A). cbn in *. tauto.
Qed.
Lemma total_app a b : total_amount (a ++ b) = total_amount a + total_amount b.
Proof. unfold total_amount in *. induction a as [|x a IH]; [reflexivity|]. cbn in *. lia. Qed.
Lemma sum128_total l : forall acc v, sum128 l acc = Some v -> v = acc + fold_right Z.add 0 l.
Proof. induction l as [|x l IH]; intros acc v H; cbn in H; [injection H as <-; cbn; lia|]. unbind H as a E. num_inv. apply IH in H. cbn. lia. Qed.
Lemma act_total act : total_amount (map (fun x : bool * Z * Z => (snd (fst x), snd x)) act) =
  total_amount (map (fun x => (snd (fst x), snd x)) (filter (fun x => fst (fst x)) act)) +
  fold_right Z.add 0 (map snd (filter (fun x => negb (fst (fst x))) act)).
Proof. unfold total_amount. induction act as [|[[b a] v] r IH]; [reflexivity|]. cbn [map filter fst snd negb total_amount fold_right] in *. destruct b; cbn in *; lia. Qed.
Lemma calc_labels u rs : forall act, calc_all u rs = Some act -> map fst act = map (fun x => (is_ext (rw x), asset_of (rw x))) rs.
Proof. induction rs as [|x r IH]; intros act H; cbn in H; [injection H as <-; reflexivity|]. unbind H as v E. unbind H as t Et. injection H as <-. cbn. rewrite (IH _ eq_refl). reflexivity. Qed.
Lemma act_sum A act : (forall a, In (false, a) (map fst act) -> a <> A) ->
  sum_of A (map (fun x : bool * Z * Z => (snd (fst x), snd x)) act) =
  sum_of A (map (fun x => (snd (fst x), snd x)) (filter (fun x => fst (fst x)) act)).
Proof.
  unfold sum_of. induction act as [|[[b a] v] r IH]; intros H; [reflexivity|]. cbn [map filter fst snd sum_of fold_right] in *.
  specialize (IH (fun a0 Ha => H a0 (or_intror Ha))). destruct b; cbn in *; [lia|]. destruct (Z.eqb_spec a A); [exfalso; apply (H a); auto|]. lia.
Qed.
Lemma upd_all_protocol t l n sc rs : forall rs' rem, upd_all t l n sc rs = Some (rs', rem) ->
  forall a, In (false, a) (map (fun x => (is_ext (rw x), asset_of (rw x))) rs') -> In (false, a) (map (fun x => (is_ext (rw x), asset_of (rw x))) rs).
Proof.
  induction rs as [|x r IH]; intros rs' rem H a I; cbn [upd_all] in H; [injection H as <- <-; exact I|].
  unbind H as [x' gone] U. unbind H as [keep rm] UA. injection H as H. specialize (IH _ _ eq_refl a). destruct gone; injection H as <- <-; [right; auto|].
  cbn [map In] in I. destruct I as [I|I]; [|right; auto]. destruct (upd_one_rw _ _ _ _ _ _ _ U) as [(Q & _)|(b & nx & ts & r2 & R & _ & R')].
  - rewrite Q in I. left. exact I.
  - rewrite R' in I. discriminate I.
Qed.

(** C133: the rows of the answer add up, per token, to what the user can claim; the protocol token comes on top. *)
Theorem c133_sums e lp who s l ext prot : pending_rewards e lp who s = Some l -> pending e lp who s = Some (ext, prot) ->
  alternating l /\ total_amount l = total_amount ext + prot /\
  forall A, (forall p x, find lp (lps s) = Some p -> In x (rewards (pl p)) -> rw x <> RInt A) -> sum_of A l = pend A e lp who s.
Proof.
  intros H K. unfold pend. rewrite K. unfold pending_rewards in H. unfold pending, due in K. unbind H as p Ep. unbind H as u Eu. rewrite ?Eu in K. unbind H as [q rem] U. rewrite ?U in K.
  cbv zeta in *. unbind H as fin Ef. rewrite ?Ef in K. unbind H as act Ea. rewrite ?Ea in K. unbind K as pr Es. injection K as <- <-.
  destruct (merge_sums _ _ H) as (M1 & M2 & M3 & _). split; [exact M3|]. split.
  - rewrite M2, !total_app, act_total. apply sum128_total in Es. lia.
  - intros A N. rewrite M1. rewrite !sum_of_app. f_equal. apply act_sum. intros a Ia. rewrite (calc_labels _ _ _ Ea) in Ia. intros ->.
    assert (I2 : In (false, A) (map (fun x => (is_ext (rw x), asset_of (rw x))) (rewards (pl p)))).
    { unfold update_rewards in U. destruct (now e <=? last (pl p)); [injection U as <- <-; exact Ia|]. unbind U as [rs rm] UA. injection U as <- <-. eapply upd_all_protocol; eauto. }
    apply in_map_iff in I2. destruct I2 as (x & E & Ix). apply (N p x eq_refl Ix). destruct (rw x); injection E as E; [congruence|discriminate].
Qed.

(** ** Cases *)

(** Pool 100 with reward 5: one week and then two more weeks; stakers 7 and 8. *)
Definition hq : list (env * Z * msg) :=
  [(at_ t0, 9, Incentivize [(100, (5, 2000000, 1))] [(5, 2000000)]);
   (at_ t0, 7, Deposit 100 1000 None);
   (at_ (t0 + 1000), 8, Deposit 100 3000 (Some 8));
   (at_ (t0 + 2000), 9, Incentivize [(100, (5, 5000000, 2))] [(5, 5000000)])].
Definition sq : state := Eval vm_compute in run s_init hq.
Example hq_timed : timed 1696809600 hq.
Proof. cbn. unfold unsigned. repeat split; try apply at_order; try (vm_compute; congruence); constructor; try constructor; vm_compute; congruence. Qed.
(** The first period pays both incentives; from its end on only the second runs. *)
Example hq_schedules :
  schedules (at_ (t0 + 3000)) 5 100 None None sq =
    Some [(4954844985799372338, t0 + 3000, 1701043200); (3037667071688942891, 1701043200, 1701648000)] /\
  schedules (at_ (t0 + 3000)) 5 100 None (Some 1) sq = Some [(4954844985799372338, t0 + 3000, 1701043200)] /\
  schedules (at_ (t0 + 3000)) 5 100 (Some 1701043200) (Some 1) sq = Some [(3037667071688942891, 1701043200, 1701648000)] /\
  future 5 100 (t0 + 3000) sq = 6991210799185979766464400 /\
  future 5 100 1701043300 sq = 6991210799185979766464400 - 4954844985799372338 * (1701043200 - t0 - 3000) - 3037667071688942891 * 100.
Proof. split; [vm_compute; reflexivity|]. split; [vm_compute; reflexivity|]. split; [vm_compute; reflexivity|]. split; vm_compute; reflexivity. Qed.
Example hq_stakers : (pool_stakers 100 None None sq, pool_stakers 100 (Some 7) None sq, list_pools None (Some 1) sq, list_pools (Some 100) None sq) =
  ([(7, 1000); (8, 3000)], [(8, 3000)], [100], []).
Proof. vm_compute. reflexivity. Qed.
(** With a fee of 250 of token 12: due for the first incentive, not while it runs, and again after its end. *)
Definition sf : state := Eval vm_compute in init 1 2 3 None (Some (12, 250)).
Definition first_incentive := step (at_ t0) 9 (Incentivize [(100, (5, 2000000, 1))] [(5, 2000000); (12, 250)]) sf.
Definition sf1 : state := Eval vm_compute in match first_incentive with Some (s, _) => s | None => sf end.
Example sf_fee :
  is_fee_expected (at_ t0) 100 5 sf = Some true /\ option_map snd first_incentive = Some [Fee 12 250] /\
  is_fee_expected (at_ (t0 + 5000)) 100 5 sf1 = Some false /\
  option_map snd (step (at_ (t0 + 5000)) 9 (Incentivize [(100, (5, 5000000, 1))] [(5, 5000000)]) sf1) = Some [] /\
  step (at_ (t0 + 5000)) 9 (Incentivize [(100, (5, 5000000, 1))] [(5, 5000000); (12, 250)]) sf1 = None /\
  end_of t0 1 = 1701043200 /\ is_fee_expected (at_ 1701043200) 100 5 sf1 = Some true /\
  step (at_ 1701043200) 9 (Incentivize [(100, (5, 5000000, 1))] [(5, 5000000)]) sf1 = None.
Proof.
  split; [vm_compute; reflexivity|]. split; [vm_compute; reflexivity|]. split; [vm_compute; reflexivity|]. split; [vm_compute; reflexivity|].
  split; [vm_compute; reflexivity|]. split; [vm_compute; reflexivity|]. split; vm_compute; reflexivity.
Qed.
Example sf_running : before_end 5 (end_of t0 1) [(at_ (t0 + 100), 7, Deposit 100 1000 None)].
Proof. vm_compute. intuition congruence. Qed.

(** ** Refuted *)

(** C132: a limit below 50 is ignored by the stakers query. *)
Theorem c132_limit_refuted : exists h lp n, timed 0 h /\ 1 <= n < Z.of_nat (length (pool_stakers lp None (Some n) (run s_init h))).
Proof.
  exists hq, 100, 1. split; [apply (timed_less 1696809600); [lia|apply hq_timed]|]. vm_compute. intuition congruence.
Qed.
(** C133: a token is listed twice: the finished part of reward 5, then reward 6, then the new part of reward 5. *)
Definition hp : list (env * Z * msg) :=
  [(at_ t0, 9, Incentivize [(100, (5, 2000000, 1))] [(5, 2000000)]);
   (at_ t0, 7, Deposit 100 1000 None);
   (at_ (t0 + 2000000), 9, Incentivize [(100, (6, 5000000, 1))] [(6, 5000000)]);
   (at_ (t0 + 2000000), 9, Incentivize [(100, (5, 5000000, 1))] [(5, 5000000)])].
Theorem c133_once_refuted : exists h e lp who l, timed 0 h /\ pending_rewards e lp who (run s_init h) = Some l /\ ~ NoDup (map fst l).
Proof.
  exists hp, (at_ (t0 + 2001000)), 100, 7, [(5, 1999999); (6, 5830); (5, 5830)].
  split; [cbn; unfold unsigned; repeat split; try apply at_order; try (vm_compute; congruence); constructor; try constructor; vm_compute; congruence|].
  split; [vm_compute; reflexivity|]. cbn. intros N. inversion N as [|? ? N1 _]. apply N1. right. left. reflexivity.
Qed.
(** Without reward 6 in between they are one row. *)
Definition hm : list (env * Z * msg) :=
  [(at_ t0, 9, Incentivize [(100, (5, 2000000, 1))] [(5, 2000000)]);
   (at_ t0, 7, Deposit 100 1000 None);
   (at_ (t0 + 2000000), 9, Incentivize [(100, (5, 5000000, 1))] [(5, 5000000)])].
Example hm_merged : pending_rewards (at_ (t0 + 2001000)) 100 7 (run s_init hm) = Some [(5, 2005829)] /\
  pending (at_ (t0 + 2001000)) 100 7 (run s_init hm) = Some ([(5, 1999999); (5, 5830)], 0).
Proof. split; vm_compute; reflexivity. Qed.

Print Assumptions c130_fee.
Print Assumptions c130_running.
Print Assumptions c131_listed.
Print Assumptions c131_pages.
Print Assumptions c132_stakers.
Print Assumptions c132_pools.
Print Assumptions c132_blocked.
Print Assumptions c132_sizes.
Print Assumptions c133_sums.
Print Assumptions c132_limit_refuted.
Print Assumptions c133_once_refuted.
