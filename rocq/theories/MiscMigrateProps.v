(** C127: the migration of the tracker. C128: the migration of the oracle. C129: version checks. *)
From Coq Require Import ZArith Lia Bool List String.
From Verif Require Import Num Ledger Hist TrackerModel TrackerProps MiscMigrateModel.
From Verif Require OracleModel OracleProps.
Import ListNotations.
Open Scope Z_scope.

(** ** C127 *)

(** Bank events with their block: (height, time, event). *)
Definition block_ev := (Z * Z * event)%type.
Definition height_of (x : block_ev) : Z := fst (fst x).
Definition time_of (x : block_ev) : Z := snd (fst x).
Definition as_ev (x : block_ev) : tev := Bank (height_of x) (time_of x) (snd x).
(** What [a] really has after these bank events, in order. *)
Definition true_balance (l : list block_ev) (a : Z) : Z := get (bank (run (map (fun x => (0, snd x)) l))) a.
(** A version 1.0.0 tracker that sees [pre], is migrated, and then sees [post]. *)
Definition life (over_seconds : bool) (pre post : list block_ev) : tracker :=
  MiscMigrateModel.trun tstart (map as_ev pre ++ [MigrateTracker over_seconds] ++ map as_ev post).
(** Blocks in order: heights and times never decrease. *)
Definition chronological (l : list block_ev) : Prop := nondecr height_of l /\ nondecr time_of l.

Lemma step_stamp u v e s1 s2 : bank s1 = bank s2 -> bsupply s1 = bsupply s2 ->
  match step u e s1, step v e s2 with
  | Some a, Some b => bank a = bank b /\ bsupply a = bsupply b
  | None, None => True
  | _, _ => False
  end.
Proof.
  intros B S. unfold step, track_balances. rewrite B, S. destruct e as [f t x|x|x].
  - destruct (f =? t); [|destruct (f =? MODULE); [|destruct (sub128 (get (bank s2) f) x)]]; try exact Logic.I;
      try (destruct (t =? MODULE); [|destruct (add128 (get (bank s2) t) x)]); try exact Logic.I;
      cbn [bank bsupply]; rewrite ?B, ?S; destruct ((0 <=? x) && (x <=? get (bank s2) f)); try exact Logic.I; cbn; auto.
  - destruct (0 <=? x); [|exact Logic.I]. destruct (add128 (bsupply s2) x); [|exact Logic.I]. cbn. auto.
  - destruct ((0 <=? x) && (x <=? get (bank s2) MODULE)); [|exact Logic.I]. cbn. auto.
Qed.
Lemma run_stamp l1 : forall l2, map snd l1 = map snd l2 ->
  bank (run l1) = bank (run l2) /\ bsupply (run l1) = bsupply (run l2).
Proof.
  induction l1 as [|[u e] l1 IH] using rev_ind; intros l2 E.
  - destruct l2; [auto|discriminate].
  - destruct l2 as [|[v f] l2 _] using rev_ind; [rewrite map_app in E; symmetry in E; apply app_cons_not_nil in E; destruct E|].
    rewrite !map_app in E. apply app_inj_tail in E. destruct E as (E & Ef). cbn in Ef. subst f.
    destruct (IH l2 E) as (B & S). unfold run. rewrite !fold_left_app. fold (run l1) (run l2). cbn [fold_left].
    unfold exec. cbn [fst snd]. pose proof (step_stamp u v e _ _ B S) as K.
    destruct (step u e (run l1)), (step v e (run l2)); try contradiction; auto.
Qed.
Definition stamps (b : bool) (pre post : list block_ev) : list (Z * event) :=
  map (fun x => (height_of x, snd x)) pre ++ map (fun x => (if b then time_of x else height_of x, snd x)) post.
Lemma trun_bank s l : tr (MiscMigrateModel.trun s (map as_ev l)) =
    fold_left exec (map (fun x => (if secs s then time_of x else height_of x, snd x)) l) (tr s) /\
  secs (MiscMigrateModel.trun s (map as_ev l)) = secs s /\ t_ver (MiscMigrateModel.trun s (map as_ev l)) = t_ver s.
Proof.
  revert s. induction l as [|x l IH]; intros s; [auto|]. cbn [map].
  change (MiscMigrateModel.trun s (as_ev x :: map as_ev l)) with (MiscMigrateModel.trun (MiscMigrateModel.texec s (as_ev x)) (map as_ev l)).
  cbn [fold_left map]. unfold MiscMigrateModel.texec, as_ev. cbn [MiscMigrateModel.tstep]. unfold exec at 2. cbn [fst snd].
  destruct (step (if secs s then time_of x else height_of x) (snd x) (tr s)) as [s'|] eqn:E.
  - destruct (IH (mkTr (t_ver s) (secs s) s')) as (A & B & C). fold as_ev. cbn [secs tr t_ver] in *. auto.
  - apply IH.
Qed.
Lemma life_run b pre post : tr (life b pre post) = run (stamps b pre post) /\ secs (life b pre post) = b.
Proof.
  unfold life, MiscMigrateModel.trun. rewrite !fold_left_app.
  fold (MiscMigrateModel.trun tstart (map as_ev pre)). destruct (trun_bank tstart pre) as (A & B & C).
  cbn [fold_left]. unfold MiscMigrateModel.texec at 2 4. cbn [MiscMigrateModel.tstep]. rewrite C. cbn [tstart t_ver String.eqb Ascii.eqb Bool.eqb].
  match goal with |- context [fold_left MiscMigrateModel.texec (map as_ev post) ?s] => fold (MiscMigrateModel.trun s (map as_ev post));
    destruct (trun_bank s post) as (D & E & _) end.
  rewrite D, E. cbn [secs tr]. split; [|reflexivity]. rewrite A. cbn [tstart secs tr]. unfold run, stamps. rewrite fold_left_app. reflexivity.
Qed.
Lemma stamps_nondecr b pre post : chronological (pre ++ post) ->
  (b = true -> forall x y, In x pre -> In y post -> height_of x <= time_of y) -> nondecr fst (stamps b pre post).
Proof.
  intros (N1 & N2) L. unfold stamps. induction pre as [|x pre IH]; cbn [map app nondecr] in *.
  - clear L. induction post as [|y post IH]; cbn [map nondecr] in *; [exact Logic.I|]. destruct N1 as (F1 & N1), N2 as (F2 & N2).
    split; [|auto]. apply Forall_map. cbn [fst]. destruct b; assumption.
  - destruct N1 as (F1 & N1), N2 as (F2 & N2). apply Forall_app in F1. destruct F1 as (F1 & F3). split.
    + apply Forall_app. split; apply Forall_map; cbn [fst]; [exact F1|]. destruct b; [|exact F3].
      apply Forall_forall. intros y I. apply L; [reflexivity|left; reflexivity|exact I].
    + apply IH; auto. intros B x' y' I J. apply L; auto. right. exact I.
Qed.
Lemma before_app {A} (f : A -> Z) u l1 l2 : before f u (l1 ++ l2) = before f u l1 ++ before f u l2.
Proof. unfold before. apply filter_app. Qed.
Lemma before_map {A} (f : A -> Z) u (l : list A) (g : A -> event) :
  map snd (before fst u (map (fun x => (f x, g x)) l)) = map g (filter (fun x => f x <? u) l).
Proof. unfold before. induction l as [|x l IH]; [reflexivity|]. cbn. destruct (f x <? u); cbn; rewrite IH; reflexivity. Qed.
Lemma filter_all {A} (f : A -> bool) l : (forall x, In x l -> f x = true) -> filter f l = l.
Proof. induction l as [|x l IH]; intros H; [reflexivity|]. cbn. rewrite (H x) by (left; auto). f_equal. apply IH. intros y I. apply H. right. auto. Qed.
Lemma filter_none {A} (f : A -> bool) l : (forall x, In x l -> f x = false) -> filter f l = [].
Proof. induction l as [|x l IH]; intros H; [reflexivity|]. cbn. rewrite (H x) by (left; auto). apply IH. intros y I. apply H. right. auto. Qed.

(** The answer in general: recorded events before the asked unit, blocks and seconds alike. *)
Lemma answer b pre post h t a u : chronological (pre ++ post) ->
  (b = true -> forall x y, In x pre -> In y post -> height_of x <= time_of y) ->
  a <> MODULE -> u <> (if b then t else h) ->
  tbalance_at (life b pre post) h t a (Some u) =
  true_balance (filter (fun x => height_of x <? u) pre ++ filter (fun x => (if b then time_of x else height_of x) <? u) post) a.
Proof.
  intros C L Ha Hu. destruct (life_run b pre post) as (R & S). unfold tbalance_at. rewrite R, S.
  rewrite c41_balance_at_past by (auto using stamps_nondecr). unfold true_balance. f_equal.
  apply run_stamp. unfold stamps. rewrite before_app, !map_app, !map_map. cbn [snd]. f_equal.
  - apply (before_map height_of u pre snd).
  - apply (before_map (fun x => if b then time_of x else height_of x) u post snd).
Qed.

(** C127: a tracker switched to seconds answers correctly for every time after the migration, and for the
    present (block heights are smaller than block times in seconds, as on every chain). *)
Theorem c127_since pre post h t a u : chronological (pre ++ post) ->
  (forall x y, In x pre -> In y post -> height_of x <= time_of y) -> (forall x, In x pre -> height_of x < u) ->
  a <> MODULE -> u <> t -> (forall x, In x pre -> time_of x < u) ->
  tbalance_at (life true pre post) h t a (Some u) = true_balance (filter (fun x => time_of x <? u) (pre ++ post)) a.
Proof.
  intros C L Lu Ha Hu P. rewrite answer by auto. rewrite filter_app.
  rewrite (filter_all (fun x => height_of x <? u) pre) by (intros x I; apply Z.ltb_lt; auto).
  rewrite (filter_all (fun x => time_of x <? u) pre) by (intros x I; apply Z.ltb_lt; auto). reflexivity.
Qed.
Theorem c127_now b pre post h t a : chronological (pre ++ post) ->
  (b = true -> forall x y, In x pre -> In y post -> height_of x <= time_of y) -> a <> MODULE ->
  tbalance_at (life b pre post) h t a None = true_balance (pre ++ post) a.
Proof.
  intros C L Ha. destruct (life_run b pre post) as (R & S). unfold tbalance_at. rewrite R.
  rewrite (proj1 (c41_balance_now (stamps b pre post) _ a (stamps_nondecr b pre post C L) Ha)).
  unfold true_balance. f_equal. apply run_stamp. unfold stamps. rewrite !map_app, !map_map. reflexivity.
Qed.
(** Heights of before the migration are still answered, as blocks, exactly as before. *)
Theorem c127_old_heights pre post h t a u : chronological (pre ++ post) ->
  (forall x y, In x pre -> In y post -> height_of x <= time_of y) ->
  a <> MODULE -> u <> t -> (forall y, In y post -> u <= time_of y) ->
  tbalance_at (life true pre post) h t a (Some u) = true_balance (filter (fun x => height_of x <? u) pre) a.
Proof.
  intros C L Ha Hu P. rewrite answer by auto.
  rewrite (filter_none (fun x => time_of x <? u) post), app_nil_r; [reflexivity|]. intros y I. apply Z.ltb_ge. auto.
Qed.
(** Kept on blocks, nothing changes: every height is answered correctly. *)
Theorem c127_blocks pre post h t a u : chronological (pre ++ post) -> a <> MODULE -> u <> h ->
  tbalance_at (life false pre post) h t a (Some u) = true_balance (filter (fun x => height_of x <? u) (pre ++ post)) a.
Proof. intros C Ha Hu. rewrite answer by (auto; discriminate). rewrite filter_app. reflexivity. Qed.
(** C127: but a time before the migration is answered with the balance at the migration ... *)
Theorem c127_earlier pre post h t a u : chronological (pre ++ post) ->
  (forall x y, In x pre -> In y post -> height_of x <= time_of y) -> (forall x, In x pre -> height_of x < u) ->
  a <> MODULE -> u <> t -> (forall y, In y post -> u <= time_of y) ->
  tbalance_at (life true pre post) h t a (Some u) = true_balance pre a.
Proof.
  intros C L Lu Ha Hu P. rewrite c127_old_heights by auto. rewrite filter_all; [reflexivity|].
  intros x I. apply Z.ltb_lt. auto.
Qed.
(** ... which is not what the account had at that time. Intended, and false: "a balance at a time is the balance
    the account had then". Account 1 bought 500 tokens after the asked time and is credited with them. *)
Definition pre0 : list block_ev :=
  [(10, 1700000000, ModuleMint 1000); (10, 1700000000, Send MODULE 2 1000); (20, 1700000100, Send 2 1 500)].
Definition post0 : list block_ev := [(30, 1700000200, Send 1 3 50)].
Lemma chrono0 : chronological (pre0 ++ post0).
Proof. split; cbn; unfold height_of, time_of; cbn; repeat (split || constructor; cbn; try lia). Qed.
Theorem c127_refuted : exists pre post h t a u,
  chronological (pre ++ post) /\ (forall x y, In x pre -> In y post -> height_of x <= time_of y) /\ u < t /\
  tbalance_at (life true pre post) h t a (Some u) = 500 /\
  true_balance (filter (fun x => time_of x <? u) (pre ++ post)) a = 0.
Proof.
  exists pre0, post0, 40, 1700000300, 1, 1700000050. split; [exact chrono0|]. split.
  { intros x y I J. cbn in I, J. unfold height_of, time_of. destruct J as [<-|[]]. destruct I as [<-|[<-|[<-|[]]]]; cbn; lia. }
  split; [lia|]. split; vm_compute; reflexivity.
Qed.
(** Only once, and only from version 1.0.0. *)
Theorem c127_once s b s' l b2 : MiscMigrateModel.tstep (MigrateTracker b) s = Some s' ->
  t_ver s = "1.0.0"%string /\ tr s' = tr s /\ secs s' = b /\
  MiscMigrateModel.tstep (MigrateTracker b2) (MiscMigrateModel.trun s' l) = None.
Proof.
  cbn [MiscMigrateModel.tstep]. intros H. unguard H G. injection H as <-. apply String.eqb_eq in G. cbn [tr secs].
  split; [exact G|]. split; [reflexivity|]. split; [reflexivity|].
  assert (V : forall s, t_ver s = "2.0.0"%string -> t_ver (MiscMigrateModel.trun s l) = "2.0.0"%string).
  { clear. induction l as [|e l IH]; intros s E; [exact E|].
    change (MiscMigrateModel.trun s (e :: l)) with (MiscMigrateModel.trun (MiscMigrateModel.texec s e) l). apply IH.
    unfold MiscMigrateModel.texec. destruct (MiscMigrateModel.tstep e s) as [s'|] eqn:F; [|exact E]. destruct e; cbn in F.
    - unbind F as x X. injection F as <-. exact E.
    - unguard F G. injection F as <-. reflexivity. }
  rewrite V by reflexivity. reflexivity.
Qed.
Example c127_example :
  tbalance_at (life true pre0 post0) 40 1700000300 1 (Some 1700000250) = 450 /\
  tbalance_at (life true pre0 post0) 40 1700000300 1 (Some 1700000200) = 500 /\
  tbalance_at (life true pre0 post0) 40 1700000300 1 (Some 20) = 0 /\
  tbalance_at (life true pre0 post0) 40 1700000300 1 (Some 21) = 500 /\
  tbalance_at (life true pre0 post0) 40 1700000300 2 None = 500 /\
  tbalance_at (life false pre0 post0) 40 1700000300 1 (Some 31) = 450.
Proof. vm_compute. auto 10. Qed.

(** ** C128 *)

(** The oracle keeps its last observation: the prices it reports stay the same in both directions, nothing can be
    updated before a full period after the old observation, and the first update after the migration gives the
    average over the whole time since the old observation, as the next update of the old oracle would have. *)
Theorem c128_kept ver x y v s : migrate_oracle ver x y v = Some s ->
  In ver ["1.0.0"; "1.0.1"; "1.0.2"]%string /\
  OracleModel.avg s = [(x, y, a0 v); (y, x, a1 v)] /\
  (forall spot one amount, x <> y -> OracleModel.consult spot s x one amount =
     (do r <- OracleModel.consult_one spot one amount y (a0 v); Some [r])) /\
  (forall spot one amount, x <> y -> OracleModel.consult spot s y one amount =
     (do r <- OracleModel.consult_one spot one amount x (a1 v); Some [r])).
Proof.
  unfold migrate_oracle. intros H. unguard H G. injection H as <-. apply existsb_exists in G. destruct G as (w & I & E).
  apply String.eqb_eq in E. subst w. split; [exact I|]. split; [reflexivity|]. split; intros spot one amount N;
    unfold OracleModel.consult, OracleModel.from_token; cbn [OracleModel.avg filter fst]; rewrite Z.eqb_refl.
  - rewrite (proj2 (Z.eqb_neq y x)) by auto. cbn [map OracleModel.consult_all fst snd]. destruct (OracleModel.consult_one _ _ _ _ _); reflexivity.
  - rewrite (proj2 (Z.eqb_neq x y)) by auto. cbn [map OracleModel.consult_all fst snd]. destruct (OracleModel.consult_one _ _ _ _ _); reflexivity.
Qed.
Theorem c128_next ver x y v s now c0 c1 s' : migrate_oracle ver x y v = Some s -> x <> y ->
  OracleModel.update s now [(x, y, c0); (y, x, c1)] = Some s' ->
  ts v + 86400 <= now /\
  OracleModel.avg s' = [(x, y, (c0 - p0 v) mod 2 ^ 128 * 10 ^ 18 / (now - ts v)); (y, x, (c1 - p1 v) mod 2 ^ 128 * 10 ^ 18 / (now - ts v))] /\
  OracleModel.last_t s' = now.
Proof.
  unfold migrate_oracle. intros H N U. unguard H G. injection H as <-. unfold OracleModel.update in U. cbn [OracleModel.cum OracleModel.last_t] in U.
  unbind U as el E. unguard U P. unbind U as av A. injection U as <-. unfold OracleModel.PERIOD in P. bools. num_inv.
  cbn [OracleModel.avg OracleModel.last_t]. split; [lia|]. split; [|reflexivity].
  cbn [OracleModel.averages OracleModel.inner] in A. rewrite !Z.eqb_refl in A.
  rewrite (proj2 (Z.eqb_neq x y)) in A by auto. rewrite (proj2 (Z.eqb_neq y x)) in A by auto. cbn [andb] in A.
  destruct (OracleModel.average c0 (p0 v) (now - ts v)) as [r0|] eqn:E0; [|discriminate].
  destruct (OracleModel.average c1 (p1 v) (now - ts v)) as [r1|] eqn:E1; [|discriminate].
  cbn in A. injection A as <-. apply OracleProps.average_val in E0, E1. rewrite E0, E1. reflexivity.
Qed.
Example c128_example : exists s s',
  migrate_oracle "1.0.2" 1 2 (mkV100 500 700 3 4 1000) = Some s /\
  OracleModel.update s 87399 [(1, 2, 900); (2, 1, 800)] = None /\
  OracleModel.update s 101000 [(1, 2, 900); (2, 1, 800)] = Some s' /\
  OracleModel.avg s' = [(1, 2, 4000000000000000); (2, 1, 1000000000000000)].
Proof. do 2 eexists. repeat (split; [vm_compute; reflexivity|]). vm_compute. reflexivity. Qed.

(** ** C129 *)

(** Later in semver order. *)
Definition later (v w : string) : Prop :=
  match parse v, parse w with
  | Some (a, b, c), Some (a', b', c') => a < a' \/ (a = a' /\ (b < b' \/ (b = b' /\ c < c')))
  | _, _ => False
  end.
Lemma attempt_spec k i j : attempt k i = Some j ->
  fst i = from_name k /\ j = (c_name k, c_version k) /\
  match from_versions k with Listed l => In (snd i) l | Semver4 => semver4 (snd i) = true end.
Proof.
  unfold attempt, accepts. intros H. unguard H G. injection H as <-. apply andb_prop in G. destruct G as (G1 & G2).
  apply String.eqb_eq in G1. split; [exact G1|]. split; [reflexivity|]. destruct (from_versions k); [|exact G2].
  apply existsb_exists in G2. destruct G2 as (w & I & E). apply String.eqb_eq in E. congruence.
Qed.
(** C129: each contract accepts to be migrated from its own kind only, or, for the three codes that replace a
    pair, from the pair they replace; never to an earlier version; and a migration cannot be repeated. *)
Theorem c129_same_kind k i j : In k CODES -> attempt k i = Some j ->
  (fst j = fst i /\ later (snd i) (snd j)) \/
  (fst i = "astroport-pair" /\ (fst j = "astroport-pair-xyk-sale-tax" \/ fst j = "astroport-pair-converter"))%string \/
  (fst i = "astroport-pair-concentrated" /\ fst j = "astroport-pair-concentrated-duality")%string.
Proof.
  intros I H. apply attempt_spec in H. destruct H as (N & -> & V). destruct i as [n v]. cbn [fst snd] in *. subst n.
  cbn [CODES In] in I.
  repeat match type of I with _ \/ _ => destruct I as [<-|I] end; try contradiction; cbn in V |- *;
    try (right; left; split; [reflexivity|solve [left; reflexivity|right; reflexivity]]);
    try (right; right; split; reflexivity);
    left; split; try reflexivity;
    repeat match type of V with _ \/ _ => destruct V as [<-|V] end; try contradiction; vm_compute;
    first [left; reflexivity | right; split; [reflexivity|left; reflexivity] | right; split; [reflexivity|right; split; reflexivity]].
Qed.
Theorem c129_once k i j : In k CODES -> attempt k i = Some j -> attempt k j = None.
Proof.
  intros I H. apply attempt_spec in H. destruct H as (_ & -> & _). cbn [CODES In] in I.
  repeat match type of I with _ \/ _ => destruct I as [<-|I] end; try contradiction; vm_compute; reflexivity.
Qed.
(** C129: no chain of migrations leads back: from any deployed contract, a second migration is possible only
    for a concentrated pair, from its own code to the order book. *)
Theorem c129_chains k1 k2 i j m : In k1 CODES -> In k2 CODES -> attempt k1 i = Some j -> attempt k2 j = Some m ->
  k1 = PCL /\ k2 = DUALITY.
Proof.
  intros I1 I2 H1 H2. apply attempt_spec in H1. destruct H1 as (_ & -> & _). cbn [CODES In] in I1, I2.
  repeat match type of I1 with _ \/ _ => destruct I1 as [<-|I1] end; try contradiction;
  repeat match type of I2 with _ \/ _ => destruct I2 as [<-|I2] end; try contradiction;
  first [vm_compute in H2; discriminate H2 | split; reflexivity].
Qed.
(** C129: the pairs deployed from the present code of the constant-product, stable and transmuter pairs have no
    migration at all: no code of the workspace accepts them. *)
Theorem c129_final k i : In k CODES ->
  In i [("astroport-pair", "2.1.0"); ("astroport-pair-stable", "4.1.1"); ("astroport-pair-transmuter", "1.1.2");
        ("astroport-pair-xyk-sale-tax", "2.1.0"); ("astroport-pair-converter", "1.0.0");
        ("astroport-pair-concentrated-duality", "4.1.1")]%string ->
  attempt k i = None.
Proof.
  intros I J. cbn [CODES In] in I, J.
  repeat match type of I with _ \/ _ => destruct I as [<-|I] end; try contradiction;
  repeat match type of J with _ \/ _ => destruct J as [<-|J] end; try contradiction; vm_compute; reflexivity.
Qed.
(** C129: the order-book code takes exactly the concentrated pairs of versions 4.x.y. *)
Theorem c129_order_book n v j : attempt DUALITY (n, v) = Some j <->
  n = "astroport-pair-concentrated"%string /\ (exists x y, parse v = Some (4, x, y)) /\ j = ("astroport-pair-concentrated-duality", "4.1.1")%string.
Proof.
  split.
  - intros H. apply attempt_spec in H. cbn in H. destruct H as (-> & -> & V). split; [reflexivity|]. split; [|reflexivity]. unfold semver4 in V.
    destruct (parse v) as [[[a x] y]|]; [|discriminate]. exists x, y. replace a with 4 by lia. reflexivity.
  - intros (-> & (x & y & V) & ->). unfold attempt, accepts, semver4. cbn [from_name from_versions DUALITY c_name c_version fst snd]. rewrite String.eqb_refl, V. reflexivity.
Qed.
Example c129_example :
  attempt FACTORY ("astroport-factory", "1.8.1")%string = Some ("astroport-factory", "1.9.0")%string /\
  attempt FACTORY ("astroport-factory", "1.9.0")%string = None /\
  attempt DUALITY ("astroport-pair-concentrated", "4.12.3")%string = Some ("astroport-pair-concentrated-duality", "4.1.1")%string /\
  attempt DUALITY ("astroport-pair-concentrated", "5.0.0")%string = None /\
  attempt DUALITY ("astroport-pair-concentrated", "3.9.9")%string = None /\
  attempt STAKING ("astroport-staking", "1.1.0")%string = None.
Proof. vm_compute. auto 10. Qed.

Print Assumptions c127_since.
Print Assumptions c127_now.
Print Assumptions c127_old_heights.
Print Assumptions c127_blocks.
Print Assumptions c127_earlier.
Print Assumptions c127_refuted.
Print Assumptions c127_once.
Print Assumptions c128_kept.
Print Assumptions c128_next.
Print Assumptions c129_same_kind.
Print Assumptions c129_once.
Print Assumptions c129_chains.
Print Assumptions c129_final.
Print Assumptions c129_order_book.
