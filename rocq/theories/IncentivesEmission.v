(** Incentives: emission rates of the protocol reward. *)
From Coq Require Import ZArith Lia Bool List Permutation.
From Verif Require Import Num Amap Ledger IncentivesModel IncentivesSpec IncentivesSched IncentivesPool
  IncentivesPay IncentivesOps IncentivesInv IncentivesStep IncentivesProofs IncentivesExact IncentivesPending
  IncentivesMove.
Import ListNotations.
Open Scope Z_scope.

(** ** Rate of one list of rewards *)
Definition irate (rs : list rinfo) : Z := match find_int rs with Some x => rps x | None => 0 end.
Lemma rate_irate lp s : rate lp s = match find lp (lps s) with Some p => irate (rewards (pl p)) | None => 0 end.
Proof.
  unfold rate, irate. destruct (find lp (lps s)) as [p|]; auto.
  assert (E : forall rs, List.find is_protocol rs = find_int rs).
  { unfold is_protocol, find_int. induction rs as [|x r IH]; simpl; auto. destruct (rw x); simpl; auto. }
  rewrite E. auto.
Qed.
Lemma upd_one_irate t l n sch x x' g : upd_one t l n sch x = Some (x', g) -> is_ext (rw x) = false ->
  g = false /\ is_ext (rw x') = false /\ rps x' = rps x.
Proof.
  unfold upd_one. intros H E. destruct (rw x) eqn:R; [|discriminate]. unbind H as c E1. unbind H as y E2.
  injection H as <- <-. unfold accrue in E2. unbind E2 as d E3. destruct (n =? 0).
  - injection E2 as <-. simpl. rewrite R. auto.
  - unbind E2 as d2 E4. unbind E2 as d3 E5. unbind E2 as d4 E6. injection E2 as <-. simpl. rewrite R. auto.
Qed.
Lemma upd_one_isext t l n sch x x' g : upd_one t l n sch x = Some (x', g) -> is_ext (rw x') = is_ext (rw x).
Proof.
  unfold upd_one. intros H.
  assert (Ac : forall x c x', accrue n x c = Some x' -> rw x' = rw x).
  { intros z c z' K. unfold accrue in K. unbind K as d E3. destruct (n =? 0); [injection K as <-; auto|].
    unbind K as d2 E4. unbind K as d3 E5. unbind K as d4 E6. injection K as <-. auto. }
  assert (St : (do c <- per (rps x) (t - l); do y <- accrue n x c; Some (y, false)) = Some (x', g) -> is_ext (rw x') = is_ext (rw x)).
  { intros K. unbind K as c E. unbind K as y E2. injection K as <- <-. rewrite (Ac _ _ _ E2). auto. }
  destruct (rw x) as [a|a nx] eqn:R; auto. destruct (nx <=? t); auto.
  unbind H as d E. unbind H as c0 E2. unbind H as [[c1 n1] act] E3. destruct act as [[ts r]|].
  - unbind H as c2 E4. unbind H as c E5. unbind H as y E6. injection H as <- <-. rewrite (Ac _ _ _ E6). auto.
  - unbind H as y E6. injection H as <- <-. rewrite (Ac _ _ _ E6). auto.
Qed.
Lemma upd_all_irate t l n sc rs : forall rs' rem, upd_all t l n sc rs = Some (rs', rem) -> irate rs' = irate rs.
Proof.
  unfold irate, find_int. induction rs as [|x r IH]; intros rs' rem H; simpl in H.
  - injection H as <- <-. auto.
  - unbind H as [y g] E. unbind H as [k rm] E2. injection H as H. specialize (IH _ _ eq_refl).
    pose proof (upd_one_isext _ _ _ _ _ _ _ E) as Ie. simpl. destruct (is_ext (rw x)) eqn:Ex; simpl.
    + destruct g; injection H as <- <-; auto. simpl. rewrite Ie. simpl. auto.
    + destruct (upd_one_irate _ _ _ _ _ _ _ E Ex) as (-> & Iy & Ry). injection H as <- <-. simpl. rewrite Iy. auto.
Qed.
Lemma update_irate t p q rem : update_rewards t p = Some (q, rem) -> irate (rewards q) = irate (rewards (pl p)).
Proof.
  unfold update_rewards. destruct (_ <=? _); intros H; [injection H as <- <-; auto|].
  unbind H as [rs rm] E. injection H as <- <-. eapply upd_all_irate; eauto.
Qed.
Lemma upd_int_find g rs : (forall x, is_ext (rw x) = false -> is_ext (rw (g x)) = false) ->
  find_int (upd_int g rs) = option_map g (find_int rs).
Proof.
  intros K. unfold find_int. induction rs as [|x r IH]; auto. cbn [upd_int]. destruct (is_ext (rw x)) eqn:E.
  - simpl. rewrite E. simpl. exact IH.
  - simpl. rewrite E, (K _ E). auto.
Qed.
Lemma disable_irate q q' : disable_astro q = Some q' -> irate (rewards q') = 0.
Proof.
  unfold disable_astro. intros H. injection H as <-. unfold irate. cbn [rewards]. rewrite upd_int_find by auto.
  destruct (find_int (rewards q)); auto.
Qed.
Lemma set_irate a r t al q q' : set_astro a r t al q = Some q' -> irate (rewards q') = r * al * DEC / t /\ t <> 0.
Proof.
  unfold set_astro. intros H. unbind H as n E. apply mul128_Some in E. destruct E as (-> & _).
  unbind H as d E2. injection H as <-. cbn [rewards].
  apply dratio256_Some in E2. destruct E2 as (Tp & -> & _). split; auto. unfold irate. destruct (existsb _ _) eqn:Ex.
  - rewrite upd_int_find by auto. destruct (find_int (rewards q)) eqn:Ef; auto. exfalso.
    apply existsb_exists in Ex. destruct Ex as (x & Hx & Bx). unfold find_int in Ef.
    pose proof (find_none _ _ Ef x Hx) as K. simpl in K. congruence.
  - assert (Ef : find_int (rewards q) = None).
    { unfold find_int. destruct (List.find _ (rewards q)) as [x|] eqn:Ef; auto. apply find_some in Ef.
      destruct Ef as [Hx Bx]. exfalso. assert (existsb (fun x => negb (is_ext (rw x))) (rewards q) = true); [|congruence].
      apply existsb_exists. eauto. }
    unfold find_int in *. clear Ex. induction (rewards q) as [|x rs IH]; simpl; auto. simpl in Ef.
    destruct (is_ext (rw x)); simpl in *; [auto|discriminate].
Qed.

(** ** Messages that only change the protocol rewards *)
Definition pars (s : state) := (owner s, factory s, astro s, aps s, talloc s, active s).
Lemma save_rate e lp p rem s s' : save e lp p rem s = Some s' ->
  pars s' = pars s /\ forall k, rate k s' = if k =? lp then irate (rewards (pl p)) else rate k s.
Proof.
  intros H. pose proof H as H0. apply save_lps in H. destruct H as (f & El & _). split.
  - unfold save in H0. unbind H0 as [fi o] E. injection H0 as <-. auto.
  - intros k. rewrite !rate_irate, El, find_put, (Z.eqb_sym k lp). destruct (Z.eqb_spec lp k); auto.
Qed.
Lemma touch_rate e c f lp s s' (R : Z) : (forall q q', f q = Some q' -> irate (rewards q') = R) ->
  touch e c f lp s = Some s' -> pars s' = pars s /\ forall k, rate k s' = if k =? lp then R else rate k s.
Proof.
  intros K H. unfold touch in H. unbind H as p Ep. unbind H as [q rem] E. unbind H as q' E2.
  apply save_rate in H. simpl in H. rewrite (K _ _ E2) in H. auto.
Qed.
Lemma off_rate e c l : forall s s', touch_all e c (fun _ => disable_astro) l s = Some s' ->
  pars s' = pars s /\ forall k, rate k s' = if mem k (map fst l) then 0 else rate k s.
Proof.
  induction l as [|[lp al] r IH]; intros s s' H; simpl in H.
  - injection H as <-. auto.
  - unbind H as s1 E. destruct (touch_rate e c disable_astro lp s s1 0 disable_irate E) as [P1 K1].
    destruct (IH _ _ H) as [P2 K2]. split; [congruence|]. intros k. rewrite K2, K1. simpl.
    destruct (k =? lp); simpl; auto. destruct (mem k (map fst r)); auto.
Qed.
Lemma find_notin {V} k (m : amap V) : ~ In k (map fst m) -> find k m = None.
Proof.
  induction m as [|[x v] r IH]; simpl; auto. intros N. destruct (Z.eqb_spec x k); [tauto|]. apply IH. tauto.
Qed.
Lemma set_rate e c a r t l : NoDup (map fst l) -> forall s s', touch_all e c (set_astro a r t) l s = Some s' ->
  pars s' = pars s /\ forall k, rate k s' = match find k l with Some al => r * al * DEC / t | None => rate k s end.
Proof.
  induction l as [|[lp al] l' IH]; intros N s s' H; simpl in H.
  - injection H as <-. auto.
  - unbind H as s1 E. inversion N as [|? ? N1 N2]; subst.
    destruct (touch_rate e c (set_astro a r t al) lp s s1 (r * al * DEC / t)) as [P1 K1]; auto.
    { intros q q' Hq. eapply set_irate; eauto. }
    destruct (IH N2 _ _ H) as [P2 K2]. split; [congruence|]. intros k. rewrite K2, K1. simpl.
    rewrite (Z.eqb_sym k lp). destruct (Z.eqb_spec lp k); auto. subst. rewrite find_notin by auto. auto.
Qed.
(** Any list: pools not in it keep their rate. *)
Lemma set_rate_other e c a r t l : forall s s' k, touch_all e c (set_astro a r t) l s = Some s' ->
  ~ In k (map fst l) -> rate k s' = rate k s.
Proof.
  induction l as [|[lp al] l' IH]; intros s s' k H N; simpl in H.
  - injection H as <-. auto.
  - unbind H as s1 E. simpl in N.
    destruct (touch_rate e c (set_astro a r t al) lp s s1 (r * al * DEC / t)) as [P1 K1]; auto.
    { intros q q' Hq. eapply set_irate; eauto. }
    rewrite (IH _ _ _ H) by tauto. rewrite K1. destruct (Z.eqb_spec k lp); [subst; tauto|auto].
Qed.

(** ** Messages that do not change rates *)
Lemma incentivize_irate ast a ne en r rs sch rs' sch' : incentivize_pool ast a ne en r rs sch = Some (rs', sch') ->
  irate rs' = irate rs.
Proof.
  assert (UE : forall f, (forall x n, rw x = RExt a n -> exists m, rw (f x) = RExt a m) -> find_int (upd_ext a f rs) = find_int rs).
  { intros f K. unfold find_int. induction rs as [|x t IH]; simpl; auto. destruct (rw x) as [b|b n] eqn:E.
    - simpl. rewrite E. auto.
    - destruct (Z.eqb_spec b a).
      + subst. destruct (K _ _ E) as [m Em]. simpl. rewrite Em. auto.
      + simpl. rewrite E. simpl. auto. }
  intros H. unfold incentivize_pool in H. unfold irate. destruct (find_ext a rs) as [x|].
  - unbind H as r' E. destruct (_ <=? _) in H.
    + injection H as <- <-. rewrite UE; auto. intros; eexists; reflexivity.
    + unbind H as sv E2. injection H as <- <-. rewrite UE; auto. intros ? ? Hy; eexists; cbn [rw]; exact Hy.
  - unguard H G. injection H as <- <-. unfold find_int.
    assert (E : List.find (fun x => negb (is_ext (rw x))) (rs ++ [mkR (RExt a en) r 0 0]) = List.find (fun x => negb (is_ext (rw x))) rs).
    { clear. induction rs as [|x t IH]; simpl; auto. destruct (negb _); auto. }
    rewrite E. auto.
Qed.
Lemma deregister_irate a b q sch q' x sc v : deregister a b q sch = Some (q', x, sc, v) ->
  irate (rewards q') = irate (rewards q).
Proof.
  unfold deregister. intros H. unbind H as y Ey. unbind H as r0 E0. unbind H as [r1 s2] E1. unbind H as r2 E2.
  unbind H as w E3. injection H as <- <- <- <-. simpl. unfold irate, find_int. clear.
  induction (rewards q) as [|x t IH]; simpl; auto. destruct (rw x) as [c|c n] eqn:E; simpl; rewrite ?E; auto.
  destruct (c =? a); simpl; auto. rewrite E. auto.
Qed.
Lemma pay_pars e to x s : pars (fst (pay e to s x)) = pars s.
Proof. destruct x as [a v]. unfold pay. destruct (v =? 0); auto. destruct (_ && _); auto. Qed.
Lemma pay_all_pars e to l : forall s, pars (fst (pay_all e to s l)) = pars s.
Proof.
  induction l as [|x r IH]; intros s; auto. cbn [pay_all]. pose proof (pay_pars e to x s) as P.
  destruct (pay e to s x) as [s1 o1]. specialize (IH s1).
  destruct (pay_all e to s1 r) as [s2 o2]. simpl in *. congruence.
Qed.
Lemma rate_lps s s' : lps s' = lps s -> forall k, rate k s' = rate k s.
Proof. intros E k. rewrite !rate_irate, E. auto. Qed.
Lemma rate_cur lp s : rate lp s = irate (rewards (pl (cur lp s))).
Proof. rewrite rate_irate. unfold cur. destruct (find lp (lps s)); auto. Qed.
Lemma relabel_rate a l : forall m m' k, relabel a l m = Some m' ->
  match find k m' with Some p => irate (rewards (pl p)) | None => 0 end =
  match find k m with Some p => irate (rewards (pl p)) | None => 0 end.
Proof.
  induction l as [|[lp al] r IH]; intros m m' k H; simpl in H.
  - injection H as <-. auto.
  - unbind H as p E. unguard H G. rewrite (IH _ _ _ H), find_put. destruct (Z.eqb_spec lp k); auto. subst.
    rewrite E. cbn [pl rewards]. unfold irate. rewrite upd_int_find by auto.
    destruct (find_int (rewards (pl p))); auto.
Qed.
Lemma claim_each_rate e who l : forall s s' x v, claim_each e who l s = Some (s', x, v) ->
  pars s' = pars s /\ forall k, rate k s' = rate k s.
Proof.
  induction l as [|lp r IH]; intros s s' x v H; simpl in H.
  - injection H as <- <- <-. auto.
  - unbind H as p Ep. unbind H as u Eu. unbind H as [q rem] E. unbind H as [x1 v1] E2. unbind H as s1 E3.
    unbind H as [[s2 x2] v2] E4. unbind H as pr E5. injection H as <- <- <-. destruct (IH _ _ _ _ E4) as [P2 K2].
    apply save_rate in E3. destruct E3 as [P1 K1]. split; [congruence|]. intros k. rewrite K2, K1. cbn [pl].
    rewrite (update_irate _ _ _ _ E). destruct (Z.eqb_spec k lp); auto. subst. rewrite rate_irate, Ep. auto.
Qed.
Lemma incentivize_rate e lp a amt n s f s' f' o : incentivize e lp a amt n s f = Some (s', f', o) ->
  pars s' = pars s /\ forall k, rate k s' = rate k s.
Proof.
  intros H. unfold incentivize in H. unbind H as [[ne en] r] E. unguard H G. fold (cur lp s) in H.
  unbind H as [q rem] E1. unbind H as [rs sch] E2. unbind H as [[f1 s1] o1] E3. unbind H as [f2 s2] E4.
  unbind H as s3 E5. injection H as <- <- <-.
  assert (L1 : lps s1 = lps s /\ pars s1 = pars s).
  { destruct (fee s) as [[d v]|]; [|injection E3 as <- <- <-; auto].
    destruct (_ && _) in E3; [|injection E3 as <- <- <-; auto].
    unbind E3 as g0 E6. unguard E3 G3. injection E3 as <- <- <-. auto. }
  destruct L1 as [L1 A1].
  assert (L2 : lps s2 = lps s1 /\ pars s2 = pars s1).
  { destruct (0 <=? a).
    - unbind E4 as g0 E6. injection E4 as <- <-. auto.
    - unguard E4 G4. injection E4 as <- <-. auto. }
  destruct L2 as [L2 A2]. apply save_rate in E5. destruct E5 as [P3 K3]. split; [congruence|].
  intros k. rewrite K3. cbn [pl rewards]. rewrite (incentivize_irate _ _ _ _ _ _ _ _ _ E2), (update_irate _ _ _ _ E1).
  destruct (Z.eqb_spec k lp); [subst; rewrite rate_cur; auto|]. apply rate_lps. congruence.
Qed.
Lemma incentivize_each_rate e l : forall s f s' f' o, incentivize_each e l s f = Some (s', f', o) ->
  pars s' = pars s /\ forall k, rate k s' = rate k s.
Proof.
  induction l as [|[lp [[a amt] n]] r IH]; intros s f s' f' o H; simpl in H.
  - injection H as <- <- <-. auto.
  - unbind H as [[s1 f1] o1] E. unbind H as [[s2 f2] o2] E2. injection H as <- <- <-.
    destruct (incentivize_rate _ _ _ _ _ _ _ _ _ _ E) as [P1 K1]. destruct (IH _ _ _ _ _ E2) as [P2 K2].
    split; [congruence|]. intros k. rewrite K2. auto.
Qed.
Lemma quiet_rate e sd m s s' o : sets_rates m = false -> step e sd m s = Some (s', o) ->
  aps s' = aps s /\ talloc s' = talloc s /\ active s' = active s /\ forall k, rate k s' = rate k s.
Proof.
  assert (PP : forall s s' : state, pars s' = pars s -> (forall k, rate k s' = rate k s) ->
    aps s' = aps s /\ talloc s' = talloc s /\ active s' = active s /\ forall k, rate k s' = rate k s).
  { intros x y P K. unfold pars in P. injection P as P1 P2 P3 P4 P5 P6. auto. }
  intros M H. destruct m; simpl in M, H; try discriminate.
  - unfold claim in H. unguard H G. unbind H as [[s1 x] v] E. unbind H as o2 E2.
    destruct (claim_each_rate _ _ _ _ _ _ _ E) as [P1 K1].
    pose proof (pay_all_pars e sd x s1) as P2. pose proof (pay_all_lps e sd x s1) as L2.
    destruct (pay_all e sd s1 x) as [s2 o1]. injection H as <- <-. simpl in *. apply PP; [congruence|].
    intros k. rewrite (rate_lps _ _ L2). auto.
  - unfold deposit in H. unguard H Hok.
    set (s0 := set_bal s (set (bal s) lp (get (bal s) lp + amt))) in *.
    set (who := match recipient with Some r => r | None => sd end) in *.
    change (match find lp (lps s0) with Some p => p | None => empty_lp end) with (cur lp s0) in H.
    unbind H as [q rem] E. unbind H as [ext prot] E2. unbind H as a E3. unbind H as t E4.
    unbind H as s1 E5. unbind H as o2 E6. pose proof (pay_all_pars e who ext s1) as P2. pose proof (pay_all_lps e who ext s1) as L2.
    destruct (pay_all e who s1 ext) as [s2 o1]. injection H as <- <-. simpl in P2, L2.
    apply save_rate in E5. destruct E5 as [P1 K1]. apply PP; [rewrite P2, P1; auto|].
    intros k. rewrite (rate_lps _ _ L2), K1. cbn [pl rewards]. rewrite (update_irate _ _ _ _ E).
    destruct (Z.eqb_spec k lp); [subst; rewrite <- rate_cur|]; apply rate_lps; auto.
  - unfold withdraw in H. unbind H as p Ep.
    unbind H as u Eu. unguard H Hg. unbind H as [q rem] E. unbind H as [ext prot] E2.
    unbind H as a E3. unbind H as t E4. unbind H as s1 E5. unbind H as o2 E6.
    pose proof (pay_all_pars e sd ext s1) as P2. pose proof (pay_all_lps e sd ext s1) as L2.
    destruct (pay_all e sd s1 ext) as [s2 o1]. unguard H Hx. injection H as <- <-. simpl in P2, L2.
    apply save_rate in E5. destruct E5 as [P1 K1]. apply PP; [change (pars s2 = pars s); congruence|].
    intros k. rewrite (rate_lps s1); [|exact L2]. rewrite K1. cbn [pl rewards]. rewrite (update_irate _ _ _ _ E).
    destruct (Z.eqb_spec k lp); auto. subst. rewrite rate_irate, Ep. auto.
  - unfold incentivize_many in H. unguard H G. unbind H as [[s1 f1] o1] E. unguard H G2. injection H as <- <-.
    destruct (incentivize_each_rate _ _ _ _ _ _ _ E) as [P1 K1]. apply PP; [exact P1|].
    intros k. rewrite K1. apply rate_lps. auto.
  - unfold remove_reward in H. unguard H G. unbind H as p Ep. unbind H as [q rem] E.
    unbind H as [[[q' x] sch] v] E2. unbind H as s1 E3. injection H as H.
    apply save_rate in E3. destruct E3 as [P1 K1].
    assert (Es : lps s' = lps s1 /\ pars s' = pars s1).
    { unfold pay in H. destruct (v =? 0); [injection H as <- <-; auto|].
      destruct (_ && _) in H; injection H as <- <-; auto. }
    destruct Es as [L2 P2]. apply PP; [congruence|]. intros k. rewrite (rate_lps _ _ L2), K1. cbn [pl].
    rewrite (deregister_irate _ _ _ _ _ _ _ _ E2), (update_irate _ _ _ _ E).
    destruct (Z.eqb_spec k lp); auto. subst. rewrite rate_irate, Ep. auto.
  - unfold claim_orphaned in H. unguard H G. unguard H G2. injection H as H.
    match type of H with pay_all _ _ ?s1 ?x = _ => pose proof (pay_all_lps e to x s1) as K; pose proof (pay_all_pars e to x s1) as P1 end.
    rewrite H in K, P1. simpl in K, P1. apply PP; [exact P1|]. apply rate_lps. auto.
  - silent H. unfold update_config in E. unguard E G. unbind E as m E1. injection E as <-. cbn [aps talloc active].
    split; auto. split; auto. split; auto. intros k. rewrite !rate_irate. cbn [lps].
    destruct ast as [a|]; [eapply relabel_rate; eauto|]. injection E1 as <-. auto.
  - injection H as <- <-. apply PP; auto.
Qed.

(** ** Lists of active pools *)
Lemma mem_In k l : mem k l = true <-> In k l.
Proof.
  unfold mem. rewrite existsb_exists. split.
  - intros (x & Hx & E). apply Z.eqb_eq in E. congruence.
  - intros H. exists k. split; auto. apply Z.eqb_refl.
Qed.
Lemma mem_notIn k l : mem k l = false <-> ~ In k l.
Proof. rewrite <- mem_In. destruct (mem k l); split; congruence. Qed.
Lemma nodup_NoDup l : nodup l = true -> NoDup l.
Proof.
  induction l as [|x r IH]; simpl; intros H; constructor.
  - apply andb_true_iff in H. destruct H as [H _]. apply negb_true_iff in H. apply mem_notIn in H. auto.
  - apply andb_true_iff in H. tauto.
Qed.
Lemma find_some_in {V} k (m : amap V) : In k (map fst m) -> exists v, find k m = Some v.
Proof.
  induction m as [|[x v] r IH]; simpl; [tauto|]. intros [->|H].
  - rewrite Z.eqb_refl. eauto.
  - destruct (x =? k); eauto.
Qed.
Lemma find_none {V} k (m : amap V) : find k m = None <-> ~ In k (map fst m).
Proof.
  split; [|apply find_notin]. intros E N. destruct (find_some_in _ _ N). congruence.
Qed.
Lemma find_nodup {V} k v (m : amap V) : NoDup (map fst m) -> In (k, v) m -> find k m = Some v.
Proof.
  induction m as [|[x w] r IH]; simpl; [tauto|]. intros N [E|H].
  - injection E as -> ->. rewrite Z.eqb_refl. auto.
  - inversion N; subst. destruct (Z.eqb_spec x k); auto. subst. exfalso. apply H2.
    change k with (fst (k, v)). apply in_map. auto.
Qed.
Lemma points_perm l l' : Permutation l l' -> points l = points l'.
Proof. unfold points. induction 1 as [|[] |[] []|]; simpl; lia. Qed.
Lemma points_pos l : Forall (fun x : Z * Z => 0 < snd x) l -> 0 <= points l.
Proof. unfold points. induction 1 as [|[k v] r H _ IH]; simpl in *; lia. Qed.
Lemma points_in k v l : Forall (fun x : Z * Z => 0 < snd x) l -> In (k, v) l -> 0 < v <= points l.
Proof.
  unfold points. induction 1 as [|[x w] r H F IH]; simpl; [tauto|]. pose proof (points_pos _ F) as P.
  unfold points in P. simpl in H. intros [E|I]; [injection E as -> ->; lia|]. specialize (IH I). lia.
Qed.
Lemma sum_alloc_Some l : forall acc t, sum_alloc l acc = Some t -> t = acc + points l.
Proof.
  unfold points. induction l as [|[x v] r IH]; intros acc t H; simpl in *; [injection H as <-; lia|].
  unbind H as a E. apply add128_Some in E. destruct E as (-> & _). apply IH in H. lia.
Qed.
Lemma sub_all_Some l : forall t t', sub_all l t = Some t' -> t' = t - points l.
Proof.
  unfold points, sub_all. induction l as [|[x v] r IH]; intros t t' H; simpl in *; [injection H as <-; lia|].
  destruct (sub128 t v) as [a|] eqn:E.
  - apply sub128_Some in E. destruct E as (-> & _). apply IH in H. lia.
  - exfalso. clear - H. induction r as [|y r IH]; simpl in H; [discriminate|auto].
Qed.
Lemma filter_split {A} (P : A -> bool) l : Permutation l (filter P l ++ filter (fun x => negb (P x)) l).
Proof.
  induction l as [|x r IH]; simpl; auto. destruct (P x); simpl.
  - constructor. auto.
  - eapply perm_trans; [constructor; exact IH|]. apply Permutation_middle.
Qed.
Lemma points_app a b : points (a ++ b) = points a + points b.
Proof. unfold points. induction a as [|[] r IH]; simpl; lia. Qed.
Lemma points_split (P : Z * Z -> bool) l : points (filter (fun x => negb (P x)) l) = points l - points (filter P l).
Proof. rewrite (points_perm _ _ (filter_split P l)) at 1. rewrite points_app. lia. Qed.
Lemma nodup_filter (P : Z * Z -> bool) l : NoDup (map fst l) -> NoDup (map fst (filter P l)).
Proof.
  induction l as [|x r IH]; simpl; auto. inversion 1; subst. destruct (P x); auto. simpl. constructor; auto.
  rewrite in_map_iff. intros (y & E & I). apply filter_In in I. apply H2. rewrite <- E. apply in_map. tauto.
Qed.
Lemma Forall_filter {A} (Q : A -> Prop) P l : Forall Q l -> Forall Q (filter P l).
Proof. rewrite !Forall_forall. intros H x I. apply filter_In in I. apply H. tauto. Qed.
Lemma position_swap lp n al l : position lp l = Some (n, al) -> Permutation ((lp, al) :: swap_remove n l) l.
Proof.
  intros H.
  assert (K : forall l n, position lp l = Some (n, al) -> exists a b, l = a ++ (lp, al) :: b /\ length a = n).
  { clear. induction l as [|[x v] r IH]; intros n H; simpl in H; [discriminate|].
    destruct (Z.eqb_spec x lp).
    - injection H as <- <-. subst. exists [], r. auto.
    - unbind H as [m w] E. injection H as <- <-. destruct (IH _ eq_refl) as (a & b & -> & L).
      exists ((x, v) :: a), b. simpl. auto. }
  destruct (K _ _ H) as (a & b & -> & L). clear H K. unfold swap_remove.
  destruct b as [|y b] using rev_ind; [|clear IHb].
  - rewrite rev_app_distr. simpl. rewrite app_length, L. simpl.
    replace (n + 1)%nat with (S n) by (rewrite PeanoNat.Nat.add_1_r; auto). rewrite PeanoNat.Nat.eqb_refl.
    rewrite removelast_last. apply Permutation_cons_append.
  - replace (a ++ (lp, al) :: b ++ [y]) with ((a ++ (lp, al) :: b) ++ [y]) by (rewrite <- app_assoc; auto).
    assert (Er : rev ((a ++ (lp, al) :: b) ++ [y]) = y :: rev (a ++ (lp, al) :: b)) by (rewrite rev_app_distr; auto).
    rewrite Er. assert (Ne : Nat.eqb (S n) (length ((a ++ (lp, al) :: b) ++ [y])) = false).
    { apply PeanoNat.Nat.eqb_neq. rewrite !app_length. simpl. lia. }
    rewrite Ne.
    assert (E1 : firstn n ((a ++ (lp, al) :: b) ++ [y]) = a).
    { rewrite <- app_assoc. rewrite firstn_app, L, PeanoNat.Nat.sub_diag. simpl. rewrite app_nil_r, <- L. apply firstn_all. }
    assert (E2 : skipn (S n) ((a ++ (lp, al) :: b) ++ [y]) = b ++ [y]).
    { rewrite <- app_assoc. rewrite skipn_app, L. replace (S n - n)%nat with 1%nat by lia.
      rewrite skipn_all2 by lia. auto. }
    rewrite E1, E2, removelast_last.
    rewrite <- app_assoc. eapply perm_trans; [apply Permutation_middle|].
    apply Permutation_app_head. simpl. constructor. apply Permutation_cons_append.
Qed.

(** ** Rates after a rate setting message *)
Definition idle (s : state) : Prop := forall k, ~ In k (map fst (active s)) -> rate k s = 0.
Definition em_inv (s : state) : Prop :=
  NoDup (map fst (active s)) /\ Forall (fun x => 0 < snd x) (active s) /\ talloc s = points (active s) /\
  0 <= aps s /\ idle s /\
  forall k al, find k (active s) = Some al -> rate k s = aps s * al * DEC / talloc s.

Lemma reset_idle e c1 c2 a r t dis ac s s1 s2 : idle s ->
  touch_all e c1 (fun _ => disable_astro) dis s = Some s1 ->
  touch_all e c2 (set_astro a r t) ac s1 = Some s2 ->
  (forall k, In k (map fst (active s)) -> In k (map fst dis) \/ In k (map fst ac)) ->
  forall k, ~ In k (map fst ac) -> rate k s2 = 0.
Proof.
  intros I H1 H2 C k N. rewrite (set_rate_other _ _ _ _ _ _ _ _ _ H2 N). destruct (off_rate _ _ _ _ _ H1) as [_ K].
  rewrite K. destruct (mem k (map fst dis)) eqn:E; auto. apply mem_notIn in E. apply I. intros X.
  destruct (C _ X); tauto.
Qed.
Lemma touch_all_pars e c f l : forall s s', touch_all e c f l s = Some s' -> pars s' = pars s.
Proof.
  induction l as [|[lp al] r IH]; intros s s' H; simpl in H; [injection H as <-; auto|].
  unbind H as s1 E. rewrite (IH _ _ H). unfold touch in E. unbind E as p Ep. unbind E as [q rem] E1.
  unbind E as q' E2. apply save_rate in E. tauto.
Qed.
Lemma rate_em s a b c d : forall k, rate k (set_emission s a b c d) = rate k s.
Proof. apply rate_lps. auto. Qed.
Lemma keys_filter_cover (l dis : list (Z * Z)) k : In k (map fst l) ->
  In k (map fst dis) \/ In k (map fst (filter (fun x => negb (mem (fst x) (map fst dis))) l)).
Proof.
  intros H. destruct (mem k (map fst dis)) eqn:E; [left; apply mem_In; auto|right].
  apply in_map_iff in H. destruct H as (x & <- & I). apply in_map. apply filter_In. rewrite E. auto.
Qed.
Lemma keys_filter_sub (l : list (Z * Z)) P k : In k (map fst (filter P l)) -> In k (map fst l).
Proof. rewrite !in_map_iff. intros (x & <- & I). apply filter_In in I. exists x. tauto. Qed.
Lemma deact_cover lp n al l : position lp l = Some (n, al) -> forall k, In k (map fst l) ->
  In k (map fst [(lp, al)]) \/ In k (map fst (swap_remove n l)).
Proof.
  intros H k I. pose proof (Permutation_map fst (position_swap _ _ _ _ H)) as P. simpl in P.
  apply (Permutation_in k (Permutation_sym P)) in I. simpl in *. tauto.
Qed.

(** An inactive pool gets nothing, whatever the messages. *)
Lemma step_idle e sd m s s' o : idle s -> step e sd m s = Some (s', o) -> idle s'.
Proof.
  intros I H. destruct (sets_rates m) eqn:M.
  2:{ destruct (quiet_rate _ _ _ _ _ _ M H) as (_ & _ & A & K). intros k. rewrite A, K. apply I. }
  destruct m; simpl in M, H; try discriminate; silent H.
  - unfold setup_pools in E. unguard E G1. unguard E G2. unguard E G3. unbind E as s2 E1. unbind E as t E2.
    unbind E as s3 E3. injection E as <-. intros k. rewrite rate_em. cbn [active set_emission].
    eapply reset_idle; eauto.
  - unfold set_tokens in E. unguard E G1. unbind E as s2 E1. injection E as <-. intros k N. rewrite rate_em.
    cbn [active set_emission] in N. rewrite (set_rate_other _ _ _ _ _ _ _ _ _ E1 N). auto.
  - unfold update_blocked in E. unguard E G1. unguard E G2. unbind E as bl1 E1. unbind E as [dis bl2] E2.
    destruct dis as [|d0 dis0].
    + injection E as <-. intros k. rewrite rate_em. apply I.
    + set (dis := d0 :: dis0) in *. unbind E as s2 E3. unbind E as red E4. unbind E as t E5. unbind E as s3 E6. injection E as <-.
      intros k. rewrite rate_em. cbn [active set_emission]. eapply reset_idle; eauto.
      intros k0. apply keys_filter_cover.
  - unfold deactivate_pool in E. unguard E G1. destruct (find lp (lps s)) as [p|]; [|injection E as <-; auto].
    destruct (is_active (pl p)); [|injection E as <-; auto]. unbind E as [n al] E1. unbind E as s2 E2.
    unbind E as t E3. unbind E as s3 E4. injection E as <-. intros k. rewrite rate_em. cbn [active set_emission].
    eapply (reset_idle e false false _ _ _ [(lp, al)]); eauto.
    + simpl. rewrite E2. auto.
    + apply deact_cover. auto.
  - unfold deactivate_blocked in E.
    set (bad := filter (fun x => mem (pair_type e (fst x)) (bad_types e)) (active s)) in *.
    unbind E as s2 E1. unbind E as t E2. destruct bad as [|d0 dis0] eqn:Eb.
    + injection E as <-. simpl in E1. injection E1 as <-. auto.
    + rewrite <- Eb in *. clearbody bad. clear Eb. unbind E as s3 E3. injection E as <-. intros k. rewrite rate_em.
      cbn [active set_emission]. eapply reset_idle; eauto. intros k0. apply keys_filter_cover.
Qed.

(** ** Exact rates *)
Lemma reset_inv e c2 a t ac s s1 s2 bl : em_inv s -> pars s1 = pars s ->
  touch_all e c2 (set_astro a (aps s) t) ac s1 = Some s2 ->
  (forall k, ~ In k (map fst ac) -> rate k s2 = 0) ->
  NoDup (map fst ac) -> Forall (fun x => 0 < snd x) ac -> t = points ac ->
  em_inv (set_emission s2 (aps s) t ac bl).
Proof.
  intros (_ & _ & _ & A0 & _) P H Z0 N F Et. unfold em_inv, idle. cbn [active talloc aps set_emission].
  repeat split; auto. intros k al Ek. rewrite rate_em. destruct (set_rate _ _ _ _ _ _ N _ _ H) as [_ K].
  rewrite K, Ek. auto.
Qed.
Lemma mem_filter_key (Q : Z -> bool) (l : list (Z * Z)) x : In x l ->
  mem (fst x) (map fst (filter (fun y => Q (fst y)) l)) = Q (fst x).
Proof.
  intros I. destruct (Q (fst x)) eqn:E.
  - apply mem_In. apply in_map. apply filter_In. auto.
  - apply mem_notIn. rewrite in_map_iff. intros (y & Ey & Iy). apply filter_In in Iy. rewrite <- Ey in E. destruct Iy. congruence.
Qed.
Lemma filter_ext_in' {A} (P Q : A -> bool) l : (forall x, In x l -> P x = Q x) -> filter P l = filter Q l.
Proof. apply filter_ext_in. Qed.

(** Pools disabled by blocking tokens: when no active pool has two of them, each once. *)
Definition holds (e : env) (add : list Z) (k : Z) : bool := existsb (fun a => mem a (pair_assets e k)) add.
Lemma block_dis e ast ac add : forall bl dis bl2, block e ast ac add bl = Some (dis, bl2) ->
  (forall k, In k (map fst dis) <-> In k (map fst ac) /\ holds e add k = true) /\
  (NoDup add -> (forall lp a b, In lp (map fst ac) -> In a add -> In b add ->
      In a (pair_assets e lp) -> In b (pair_assets e lp) -> a = b) ->
   points dis = points (filter (fun x => holds e add (fst x)) ac)).
Proof.
  unfold holds. induction add as [|a r IH]; intros bl dis bl2 H; simpl in H.
  - injection H as <- <-. split.
    + intros k. simpl. split; [tauto|intros [_ ?]; discriminate].
    + intros _ _. simpl. clear. induction ac; simpl; auto.
  - unguard H G. unbind H as [d b2] E. injection H as <- <-. destruct (IH _ _ _ E) as [K1 K2]. split.
    + intros k. rewrite map_app, in_app_iff, K1. simpl. rewrite orb_true_iff. rewrite in_map_iff. split.
      * intros [(x & <- & I)|[I J]]; [|tauto]. apply filter_In in I. split; [apply in_map; tauto|tauto].
      * intros [I [J|J]]; [|tauto]. left. apply in_map_iff in I. destruct I as (x & <- & I). exists x. split; auto.
        apply filter_In. auto.
    + intros N D. inversion N as [|? ? N1 N2]; subst. rewrite points_app, K2; auto.
      2:{ intros lp x y Hl Hx Hy. apply D; simpl; auto. }
      clear IH K1 K2 E G. unfold points. induction ac as [|[k v] ac IHa]; simpl; auto.
      assert (IH2 := IHa ltac:(intros lp x y Hl; apply D; simpl; auto)). clear IHa. simpl in IH2 |- *.
      destruct (mem a (pair_assets e k)) eqn:Ea; simpl.
      * assert (Er : existsb (fun a0 => mem a0 (pair_assets e k)) r = false).
        { apply not_true_iff_false. rewrite existsb_exists. intros (b & Hb & Eb). apply mem_In in Ea, Eb.
          assert (a = b) by (apply (D k); simpl; auto). subst. tauto. }
        rewrite Er. lia.
      * destruct (existsb _ r); simpl; lia.
Qed.
Lemma filter_holds (P : Z * Z -> bool) (dis ac : list (Z * Z)) (Q : Z -> bool) :
  (forall k, In k (map fst dis) <-> In k (map fst ac) /\ Q k = true) ->
  filter (fun x => negb (mem (fst x) (map fst dis))) ac = filter (fun x => negb (Q (fst x))) ac.
Proof.
  intros K. apply filter_ext_in'. intros x I. f_equal. destruct (Q (fst x)) eqn:E.
  - apply mem_In. apply K. split; auto. apply in_map. auto.
  - apply mem_notIn. rewrite K. intros [_ ?]. congruence.
Qed.

Lemma step_em e sd m s s' o : em_inv s -> emission_ok e m s -> step e sd m s = Some (s', o) -> em_inv s'.
Proof.
  intros I O H. pose proof I as (N & F & T & A0 & Id & K). pose proof (step_idle _ _ _ _ _ _ Id H) as Id'.
  destruct (sets_rates m) eqn:M.
  2:{ destruct (quiet_rate _ _ _ _ _ _ M H) as (E1 & E2 & E3 & K'). unfold em_inv. rewrite E1, E2, E3.
      repeat (split; auto). intros k al Ek. rewrite K'. auto. }
  destruct m; simpl in M, H; try discriminate; silent H; simpl in O.
  - unfold setup_pools in E. unguard E G1. unguard E G2. unguard E G3. unbind E as s2 E1. unbind E as t E2.
    unbind E as s3 E3. injection E as <-. bools. apply sum_alloc_Some in E2.
    apply (reset_inv e true (astro s) t l s s2 s3); auto.
    + eapply touch_all_pars; eauto.
    + apply nodup_NoDup. auto.
    + rewrite Forall_forall in *. intros x Ix. specialize (O x Ix).
      rewrite forallb_forall in H. specialize (H x Ix). apply negb_true_iff in H. apply Z.eqb_neq in H. lia.
  - unfold set_tokens in E. unguard E G1. unbind E as s2 E1. injection E as <-. 
    destruct (set_rate _ _ _ _ _ _ N _ _ E1) as [P1 K1].
    unfold em_inv. cbn [active talloc aps set_emission]. repeat (split; auto).
    intros k al Ek. rewrite rate_em, K1, Ek. auto.
  - unfold update_blocked in E. unguard E G1. unguard E G2. unbind E as bl1 E1. unbind E as [dis bl2] E2.
    apply block_dis in E2. destruct E2 as [D1 D2]. apply nodup_NoDup in G2. 
    assert (Na : NoDup add) by (clear - G2; induction rm; simpl in G2; auto; inversion G2; auto).
    specialize (D2 Na O).
    destruct dis as [|d0 dis0].
    + injection E as <-. unfold em_inv. cbn [active talloc aps set_emission]. repeat (split; auto).
    + set (dis := d0 :: dis0) in *. unbind E as s2 E3. unbind E as red E4. unbind E as t E5. unbind E as s3 E6. injection E as <-.
      apply sum_alloc_Some in E4. apply sub128_Some in E5. destruct E5 as (-> & _).
      apply (reset_inv e false (astro s) _ (filter (fun x => negb (mem (fst x) (map fst dis))) (active s)) s s2 s3); auto.
      * eapply touch_all_pars; eauto.
      * apply nodup_filter. auto.
      * apply Forall_filter. auto.
      * rewrite (filter_holds (fun _ => true) dis (active s) (holds e add) D1), points_split, <- D2. lia.
  - unfold deactivate_pool in E. unguard E G1. destruct (find lp (lps s)) as [p|]; [|injection E as <-; auto].
    destruct (is_active (pl p)); [|injection E as <-; auto]. unbind E as [n al] E1. unbind E as s2 E2.
    unbind E as t E3. unbind E as s3 E4. injection E as <-. apply sub128_Some in E3. destruct E3 as (-> & _).
    apply position_swap in E1.
    apply (reset_inv e false (astro s) _ _ s s2 s3); auto.
    + apply (touch_all_pars e false (fun _ => disable_astro) [(lp, al)]). simpl. rewrite E2. auto.
    + apply (Permutation_map fst) in E1. apply Permutation_sym in E1. apply (Permutation_NoDup E1) in N.
      simpl in N. inversion N. auto.
    + rewrite Forall_forall in *. intros x Ix. apply F. eapply Permutation_in; [exact E1|]. right. auto.
    + pose proof (points_perm _ _ E1) as P. unfold points in *. simpl in P. lia.
  - unfold deactivate_blocked in E.
    set (Q := fun k => mem (pair_type e k) (bad_types e)).
    change (filter (fun x => mem (pair_type e (fst x)) (bad_types e)) (active s)) with (filter (fun x => Q (fst x)) (active s)) in E.
    set (bad := filter (fun x => Q (fst x)) (active s)) in *.
    assert (D1 : forall k, In k (map fst bad) <-> In k (map fst (active s)) /\ Q k = true).
    { intros k. unfold bad. rewrite !in_map_iff. split.
      - intros (x & <- & Ix). apply filter_In in Ix. split; [exists x; tauto|tauto].
      - intros [(x & <- & Ix) J]. exists x. split; auto. apply filter_In. auto. }
    assert (D2 : points bad = points (filter (fun x => Q (fst x)) (active s))) by auto.
    unbind E as s2 E1. unbind E as t E2. destruct bad as [|d0 dis0] eqn:Eb.
    + injection E as <-. simpl in E1. injection E1 as <-. auto.
    + rewrite <- Eb in *. clearbody bad. clear Eb. unbind E as s3 E3. injection E as <-. apply sub_all_Some in E2.
      apply (reset_inv e false (astro s) _ _ s s2 s3); auto.
      * eapply touch_all_pars; eauto.
      * apply nodup_filter. auto.
      * apply Forall_filter. auto.
      * rewrite (filter_holds (fun _ => true) bad (active s) Q D1), points_split, <- D2. lia.
Qed.

Lemma em_init own fac ast grd f : em_inv (init own fac ast grd f).
Proof. unfold em_inv, idle. cbn. repeat split; auto; try lia; try constructor; try discriminate. Qed.
Lemma run_em h : forall s, em_inv s -> emissions_ok s h -> em_inv (run s h).
Proof.
  induction h as [|[[e sd] m] r IH]; intros s I O; simpl; auto. destruct O as [O1 O2]. apply IH; auto.
  simpl. destruct (step e sd m s) as [[s' o]|] eqn:E; auto. eapply step_em; eauto.
Qed.
Lemma run_idle h : forall s, idle s -> idle (run s h).
Proof.
  induction h as [|[[e sd] m] r IH]; intros s I; simpl; auto. apply IH.
  destruct (step e sd m s) as [[s' o]|] eqn:E; auto. eapply step_idle; eauto.
Qed.

(** The rates of the active pools add up to at most the emission speed. *)
Lemma rates_sum s l : 0 <= aps s -> Forall (fun x : Z * Z => 0 < snd x) l -> 0 < talloc s ->
  (forall k al, In (k, al) l -> rate k s = aps s * al * DEC / talloc s) ->
  fold_right Z.add 0 (map (fun k => rate k s) (map fst l)) * talloc s <= aps s * DEC * points l.
Proof.
  unfold points. intros A0 F T0 K. induction F as [|[k v] r Hv F IH]; simpl; [lia|].
  specialize (IH ltac:(intros; apply K; simpl; auto)). rewrite (K k v) by (simpl; auto).
  pose proof (Z.mul_div_le (aps s * v * DEC) (talloc s) T0). nia.
Qed.

(** ** Membership *)
Lemma step_active e sd m s s' o k : step e sd m s = Some (s', o) ->
  In k (map fst (active s')) -> In k (map fst (active s)) \/ lists k m.
Proof.
  intros H I. destruct (sets_rates m) eqn:M.
  2:{ destruct (quiet_rate _ _ _ _ _ _ M H) as (_ & _ & A & _). rewrite A in I. auto. }
  destruct m; simpl in M, H; try discriminate; silent H; simpl.
  - unfold setup_pools in E. unguard E G1. unguard E G2. unguard E G3. unbind E as s2 E1. unbind E as t E2.
    unbind E as s3 E3. injection E as <-. auto.
  - unfold set_tokens in E. unguard E G1. unbind E as s2 E1. injection E as <-. auto.
  - unfold update_blocked in E. unguard E G1. unguard E G2. unbind E as bl1 E1. unbind E as [dis bl2] E2.
    destruct dis as [|d0 dis0].
    + injection E as <-. auto.
    + unbind E as s2 E3. unbind E as red E4. unbind E as t E5. unbind E as s3 E6. injection E as <-.
      left. eapply keys_filter_sub. exact I.
  - unfold deactivate_pool in E. unguard E G1. destruct (find lp (lps s)) as [p|]; [|injection E as <-; auto].
    destruct (is_active (pl p)); [|injection E as <-; auto]. unbind E as [n al] E1. unbind E as s2 E2.
    unbind E as t E3. unbind E as s3 E4. injection E as <-. left. cbn [active set_emission] in I.
    pose proof (Permutation_map fst (position_swap _ _ _ _ E1)) as P. eapply Permutation_in; [exact P|]. right. auto.
  - unfold deactivate_blocked in E. unbind E as s2 E1. unbind E as t E2. pose proof E1 as E0. apply touch_all_pars in E0.
    destruct (filter _ (active s)) as [|d0 dis0].
    + injection E as <-. unfold pars in E0. injection E0 as _ _ _ _ _ E0. rewrite E0 in I. auto.
    + unbind E as s3 E3. injection E as <-. left. eapply keys_filter_sub. exact I.
Qed.

Definition clean (pa : Z -> list Z) (s : state) : Prop :=
  forall k a, In k (map fst (active s)) -> In a (blocked s) -> ~ In a (pa k).
Lemma unblock_sub rm : forall bl bl', unblock rm bl = Some bl' -> forall a, In a bl' -> In a bl.
Proof.
  induction rm as [|x r IH]; intros bl bl' H a Ha; simpl in H; [congruence|]. unguard H G.
  apply (IH _ _ H) in Ha. apply filter_In in Ha. tauto.
Qed.
Lemma block_bl e ast ac add : forall bl dis bl2, block e ast ac add bl = Some (dis, bl2) ->
  forall a, In a bl2 <-> In a add \/ In a bl.
Proof.
  induction add as [|x r IH]; intros bl dis bl2 H a; simpl in H.
  - injection H as <- <-. simpl. tauto.
  - unguard H G. unbind H as [d b2] E. injection H as <- <-. rewrite (IH _ _ _ E). simpl. tauto.
Qed.
Lemma save_blocked e lp p rem s s' : save e lp p rem s = Some s' -> blocked s' = blocked s.
Proof. unfold save. intros H. unbind H as [f o] E. injection H as <-. auto. Qed.
Lemma claim_blocked e who l : forall s s' x v, claim_each e who l s = Some (s', x, v) -> blocked s' = blocked s.
Proof.
  induction l as [|lp r IH]; intros s s' x v H; simpl in H.
  - injection H as <- <- <-. auto.
  - unbind H as p Ep. unbind H as u Eu. unbind H as [q rem] E. unbind H as [x1 v1] E2. unbind H as s1 E3.
    unbind H as [[s2 x2] v2] E4. unbind H as pr E5. injection H as <- <- <-. rewrite (IH _ _ _ _ E4).
    eapply save_blocked; eauto.
Qed.
Lemma pay_all_blocked e to l : forall s, blocked (fst (pay_all e to s l)) = blocked s.
Proof.
  induction l as [|x r IH]; intros s; auto. cbn [pay_all].
  assert (P : blocked (fst (pay e to s x)) = blocked s).
  { destruct x as [a v]. unfold pay. destruct (v =? 0); auto. destruct (_ && _); auto. }
  destruct (pay e to s x) as [s1 o1]. specialize (IH s1). destruct (pay_all e to s1 r) as [s2 o2]. simpl in *. congruence.
Qed.
Lemma incentivize_blocked e l : forall s f s' f' o, incentivize_each e l s f = Some (s', f', o) -> blocked s' = blocked s.
Proof.
  induction l as [|[lp [[a amt] n]] r IH]; intros s f s' f' o H; simpl in H.
  - injection H as <- <- <-. auto.
  - unbind H as [[s1 f1] o1] E. unbind H as [[s2 f2] o2] E2. injection H as <- <- <-. rewrite (IH _ _ _ _ _ E2). clear E2 IH.
    unfold incentivize in E. unbind E as [[ne en] r0] E0. unguard E G. fold (cur lp s) in E.
    unbind E as [q rem] E1. unbind E as [rs sch] E2. unbind E as [[f3 s3] o3] E3. unbind E as [f4 s4] E4.
    unbind E as s5 E5. injection E as <- <- <-. rewrite (save_blocked _ _ _ _ _ _ E5).
    assert (L2 : blocked s4 = blocked s3).
    { destruct (0 <=? a).
      - unbind E4 as g0 E6. injection E4 as <- <-. auto.
      - unguard E4 G4. injection E4 as <- <-. auto. }
    rewrite L2. destruct (fee s) as [[d v]|]; [|injection E3 as <- <- <-; auto].
    destruct (_ && _) in E3; [|injection E3 as <- <- <-; auto].
    unbind E3 as g0 E6. unguard E3 G3. injection E3 as <- <- <-. auto.
Qed.
Lemma step_blocked e sd m s s' o : step e sd m s = Some (s', o) -> sets_rates m = false -> blocked s' = blocked s.
Proof.
  intros H M. destruct m; simpl in M, H; try discriminate.
  - unfold claim in H. unguard H G. unbind H as [[s1 x] v] E. unbind H as o2 E2.
    pose proof (pay_all_blocked e sd x s1) as P2. destruct (pay_all e sd s1 x) as [s2 o1]. injection H as <- <-.
    simpl in P2. rewrite P2. eapply claim_blocked; eauto.
  - unfold deposit in H. unguard H Hok. unbind H as [q rem] E. unbind H as [ext prot] E2. unbind H as a E3. unbind H as t E4.
    unbind H as s1 E5. unbind H as o2 E6. match type of H with context [pay_all e ?w s1 ext] => pose proof (pay_all_blocked e w ext s1) as P2 end.
    destruct (pay_all e _ s1 ext) as [s2 o1]. injection H as <- <-. simpl in P2. rewrite P2, (save_blocked _ _ _ _ _ _ E5). auto.
  - unfold withdraw in H. unbind H as p Ep.
    unbind H as u Eu. unguard H Hg. unbind H as [q rem] E. unbind H as [ext prot] E2.
    unbind H as a E3. unbind H as t E4. unbind H as s1 E5. unbind H as o2 E6.
    pose proof (pay_all_blocked e sd ext s1) as P2.
    destruct (pay_all e sd s1 ext) as [s2 o1]. unguard H Hx. injection H as <- <-. simpl in *.
    rewrite P2, (save_blocked _ _ _ _ _ _ E5). auto.
  - unfold incentivize_many in H. unguard H G. unbind H as [[s1 f1] o1] E. unguard H G2. injection H as <- <-.
    rewrite (incentivize_blocked _ _ _ _ _ _ _ E). auto.
  - unfold remove_reward in H. unguard H G. unbind H as p Ep. unbind H as [q rem] E.
    unbind H as [[[q' x] sch] v] E2. unbind H as s1 E3. injection H as H. rewrite <- (save_blocked _ _ _ _ _ _ E3).
    unfold pay in H. destruct (v =? 0); [injection H as <- <-; auto|]. destruct (_ && _) in H; injection H as <- <-; auto.
  - unfold claim_orphaned in H. unguard H G. unguard H G2. injection H as H.
    match type of H with pay_all _ _ ?s1 ?x = _ => pose proof (pay_all_blocked e to x s1) as K end.
    rewrite H in K. exact K.
  - silent H. unfold update_config in E. unguard E G. unbind E as m E1. injection E as <-. auto.
  - injection H as <- <-. auto.
Qed.
Lemma step_clean pa e sd m s s' o : (forall lp, pair_assets e lp = pa lp) -> clean pa s ->
  step e sd m s = Some (s', o) -> clean pa s'.
Proof.
  intros Pe C H. destruct (sets_rates m) eqn:M.
  2:{ pose proof (step_blocked _ _ _ _ _ _ H M) as B. destruct (quiet_rate _ _ _ _ _ _ M H) as (_ & _ & A & _).
      unfold clean. rewrite A, B. auto. }
  pose proof (fun k => step_active _ _ _ _ _ _ k H) as Sa. destruct m; simpl in M, H; try discriminate; silent H.
  - unfold setup_pools in E. unguard E G1. unguard E G2. unguard E G3. unbind E as s2 E1. unbind E as t E2.
    unbind E as s3 E3. injection E as <-. unfold clean. cbn [active blocked set_emission]. intros k a Hk Hb Hp.
    apply in_map_iff in Hk. destruct Hk as (x & <- & Hx). rewrite forallb_forall in G3. specialize (G3 x Hx).
    unfold pool_allowed in G3. apply andb_true_iff in G3. destruct G3 as [G3 _]. apply andb_true_iff in G3. destruct G3 as [_ G3].
    apply negb_true_iff in G3. assert (Q : existsb (fun a0 => mem a0 (blocked s)) (pair_assets e (fst x)) = true); [|congruence].
    apply existsb_exists. exists a. rewrite Pe. split; auto. apply mem_In. auto.
  - unfold set_tokens in E. unguard E G1. unbind E as s2 E1. injection E as <-. exact C.
  - unfold update_blocked in E. unguard E G1. unguard E G2. unbind E as bl1 E1. unbind E as [dis bl2] E2.
    pose proof (block_bl _ _ _ _ _ _ _ E2) as B. apply block_dis in E2. destruct E2 as [D _].
    assert (Q : forall k a, In k (map fst (active s)) -> ~ In k (map fst dis) -> In a bl2 -> ~ In a (pa k)).
    { intros k a Hk Hd Ha Hp. apply B in Ha. destruct Ha as [Ha|Ha].
      - apply Hd. apply D. split; auto. unfold holds. apply existsb_exists. exists a. split; auto. apply mem_In. rewrite Pe. auto.
      - apply (C k a); auto. eapply unblock_sub; eauto. }
    destruct dis as [|d0 dis0].
    + injection E as <-. intros k a Hk. apply Q; auto.
    + set (dis := d0 :: dis0) in *. unbind E as s2 E3. unbind E as red E4. unbind E as t E5. unbind E as s3 E6. injection E as <-.
      intros k a Hk. apply in_map_iff in Hk. destruct Hk as (x & <- & Hx). cbn [active set_emission] in Hx. apply filter_In in Hx.
      destruct Hx as [Hx Hd]. apply negb_true_iff in Hd. apply Q; [apply in_map; auto|]. apply mem_notIn. exact Hd.
  - unfold deactivate_pool in E. unguard E G1. destruct (find lp (lps s)) as [p|]; [|injection E as <-; auto].
    destruct (is_active (pl p)); [|injection E as <-; auto]. unbind E as [n al] E1. unbind E as s2 E2.
    unbind E as t E3. unbind E as s3 E4. injection E as <-. intros k a Hk. apply Sa in Hk. simpl in Hk. destruct Hk as [Hk|[]].
    apply (C k a Hk).
  - unfold deactivate_blocked in E. unbind E as s2 E1. unbind E as t E2.
    destruct (filter _ (active s)) as [|d0 dis0].
    + simpl in E1. injection E1 as ->. injection E as ->. auto.
    + unbind E as s3 E3. injection E as <-. intros k a Hk. apply Sa in Hk. simpl in Hk. destruct Hk as [Hk|[]].
      apply (C k a Hk).
Qed.
Lemma run_clean pa h : forall s, clean pa s -> assets_fixed pa h -> clean pa (run s h).
Proof.
  induction h as [|[[e sd] m] r IH]; intros s C F; simpl; auto. inversion F; subst. apply IH; auto.
  destruct (step e sd m s) as [[s' o]|] eqn:E; auto. eapply step_clean; eauto.
Qed.
Lemma run_active h k : forall s, ~ In k (map fst (active s)) -> (forall e sd m, In (e, sd, m) h -> ~ lists k m) ->
  ~ In k (map fst (active (run s h))).
Proof.
  induction h as [|[[e sd] m] r IH]; intros s N L; simpl; auto. apply IH.
  - destruct (step e sd m s) as [[s' o]|] eqn:E; auto. intros I. destruct (step_active _ _ _ _ _ _ _ E I); auto.
    apply (L e sd m); simpl; auto.
  - intros e0 sd0 m0 I. apply (L e0 sd0). simpl. auto.
Qed.

(** ** Number of external rewards *)
Definition ecount (rs : list rinfo) : nat := length (filter (fun x => is_ext (rw x)) rs).
Lemma upd_all_ecount t l n sc rs : forall rs' rem, upd_all t l n sc rs = Some (rs', rem) -> (ecount rs' <= ecount rs)%nat.
Proof.
  unfold ecount. induction rs as [|x r IH]; intros rs' rem H; simpl in H.
  - injection H as <- <-. auto.
  - unbind H as [y g] E. unbind H as [k rm] E2. injection H as H. specialize (IH _ _ eq_refl).
    pose proof (upd_one_isext _ _ _ _ _ _ _ E) as Ie. simpl. destruct g; injection H as <- <-; simpl; rewrite ?Ie;
      destruct (is_ext (rw x)); simpl; lia.
Qed.
Lemma upd_int_ecount g rs : (forall x, is_ext (rw x) = false -> is_ext (rw (g x)) = false) ->
  ecount (upd_int g rs) = ecount rs.
Proof.
  intros K. unfold ecount. induction rs as [|x r IH]; auto. cbn [upd_int]. simpl. destruct (is_ext (rw x)) eqn:E; simpl.
  - rewrite E. simpl. f_equal. exact IH.
  - rewrite (K _ E). auto.
Qed.
Lemma few_inv m ast t : (match m with Incentivize l _ => forall lp a amt n, In (lp, (a, amt, n)) l -> a <> ast | _ => True end) ->
  pool_inv m ast t (fun rs _ => (ecount rs <= 5)%nat).
Proof.
  intros Na. constructor.
  - simpl. unfold ecount. simpl. lia.
  - intros l n sc rs rs' rem K H. apply upd_all_ecount in H. lia.
  - intros sc q q' sc' K C. inversion C; subst; auto.
    + unfold set_astro in H. unbind H as n E. unbind H as d E2. injection H as <-. cbn [rewards].
      destruct (existsb _ _); [rewrite upd_int_ecount; auto|]. unfold ecount in *. rewrite filter_app, app_length. simpl. lia.
    + unfold disable_astro in H. injection H as <-. cbn [rewards]. rewrite upd_int_ecount; auto.
    + cbn [rewards]. specialize (Na _ _ _ _ H0). unfold incentivize_pool in H2.
      assert (UE : forall f, (forall x n, rw x = RExt a n -> exists m, rw (f x) = RExt a m) ->
                   ecount (upd_ext a f (rewards q)) = ecount (rewards q)).
      { clear. intros f K. unfold ecount. induction (rewards q) as [|x t IH]; simpl; auto. destruct (rw x) as [b|b n] eqn:E.
        - simpl. rewrite E. simpl. auto.
        - destruct (Z.eqb_spec b a).
          + subst. destruct (K _ _ E) as [m Em]. simpl. rewrite Em. auto.
          + simpl. rewrite E. simpl. f_equal. auto. }
      destruct (find_ext a (rewards q)) as [x|].
      * unbind H2 as r' E. destruct (_ <=? _) in H2.
        -- injection H2 as <- <-. rewrite UE; auto. intros; eexists; reflexivity.
        -- unbind H2 as sv E2. injection H2 as <- <-. rewrite UE; auto. intros ? ? Hy; eexists; cbn [rw]; exact Hy.
      * unguard H2 G. injection H2 as <- <-. apply negb_true_iff in G. destruct (Z.eqb_spec a ast); [congruence|].
        rewrite andb_true_r in G. apply Z.eqb_neq in G. unfold ecount, MAX_REWARD_TOKENS in *. rewrite filter_app, app_length. simpl. lia.
    + unfold deregister in H0. unbind H0 as y Ey. unbind H0 as r0 E0. unbind H0 as [r1 s2] E1. unbind H0 as r2 E2.
      unbind H0 as w E3. injection H0 as <- _ _ _. cbn [rewards]. eapply Nat.le_trans; [|exact K]. clear. unfold ecount.
      induction (rewards q) as [|x t IH]; simpl; auto. destruct (rw x) as [c|c n] eqn:E; simpl; rewrite ?E; simpl; auto.
      destruct (c =? a); simpl; [lia|]. rewrite E. simpl. lia.
  - intros a rs sc K. rewrite upd_int_ecount; auto.
Qed.
Lemma ext_rewards_ecount lp s : ext_rewards lp s = match find lp (lps s) with Some p => ecount (rewards (pl p)) | None => O end.
Proof.
  unfold ext_rewards, ecount. destruct (find lp (lps s)) as [p|]; auto. f_equal. apply filter_ext. intros x.
  unfold is_protocol. destruct (rw x); auto.
Qed.
Lemma run_few h : forall s, pools (fun rs _ => (ecount rs <= 5)%nat) s -> never_astro s h ->
  pools (fun rs _ => (ecount rs <= 5)%nat) (run s h).
Proof.
  induction h as [|[[e sd] m] r IH]; intros s P N; simpl; auto. destruct N as [N1 N2]. apply IH; auto.
  simpl. destruct (step e sd m s) as [[s' o]|] eqn:E; auto.
  eapply mv_pools; [eapply step_mv; eauto|apply few_inv; exact N1|exact P].
Qed.
