(** C124: the migration of the factory's pair configurations. *)
From Coq Require Import ZArith Lia Bool List String Sorted.
From Verif Require Import Num Bytes FactMigrateModel.
Import ListNotations.
Open Scope Z_scope.

(** Storage written by the old code: sorted, every configuration under the text of its own type. *)
Definition old_storage (m : bmap entry) : Prop :=
  bsorted m /\ forall k e, In (k, e) m -> exists c, e = Old c /\ k = okey (o_type c).
(** The same terms: only the type may be renamed, and the new type is open to everybody as before. *)
Definition same_terms (c : ocfg) (n : ncfg) : Prop :=
  n_code n = o_code c /\ n_total n = o_total c /\ n_maker n = o_maker c /\ n_disabled n = o_disabled c /\
  n_gen_disabled n = o_gen_disabled c /\ n_permissioned n = false.
(** The new name of a type. *)
Definition renamed (t : otype) (n : ptype) : Prop :=
  match t with
  | OXyk => n = Xyk | OStable => n = Stable
  | OConcentrated => n = Custom CONCENTRATED
  | OCustom s => n = Custom s
  end.

Lemma okey_inj t u : okey t = okey u -> t = u.
Proof. destruct t, u; cbn; intros H; try discriminate; try reflexivity; injection H; intros; subst; auto. Qed.
Lemma pkey_inj t u : pkey t = pkey u -> t = u.
Proof. destruct t, u; cbn; intros H; try discriminate; try reflexivity; injection H; intros; subst; auto. Qed.
Lemma pkey_conc t : pkey t <> CONCENTRATED.
Proof. destruct t; cbn; discriminate. Qed.
Lemma new_key t : t = OConcentrated \/ pkey (new_type t) = okey t.
Proof. destruct t; cbn; auto. Qed.
Lemma new_type_inj t u : new_type t = new_type u -> t = u \/
  (okey t = CONCENTRATED /\ okey u = CUSTOM_ ++ CONCENTRATED) \/ (okey u = CONCENTRATED /\ okey t = CUSTOM_ ++ CONCENTRATED).
Proof. destruct t, u; cbn; intros H; try discriminate; auto; injection H as H; subst; auto. Qed.
Lemma keys_nodup {V} (m : bmap V) : bsorted m -> NoDup (map fst m).
Proof.
  induction 1 as [|p m S IH F]; cbn; constructor; auto. rewrite in_map_iff. intros (q & E & I).
  rewrite Forall_forall in F. specialize (F _ I). unfold klt in F. rewrite E, blt_irrefl in F. discriminate.
Qed.
Lemma bfind_key {V} k (m : bmap V) : In k (map fst m) <-> exists v, bfind k m = Some v.
Proof.
  split.
  - induction m as [|[k1 v1] m IH]; cbn; [intros []|]. intros [->|I]; [rewrite beq_refl; eauto|].
    destruct (beq k1 k); eauto.
  - intros (v & E). apply bfind_in in E. apply in_map_iff. exists (k, v). auto.
Qed.

Section Run.
Variable m0 : bmap entry.
Hypothesis O : old_storage m0.
Hypothesis NC : ~ (In CONCENTRATED (map fst m0) /\ In (CUSTOM_ ++ CONCENTRATED) (map fst m0)).

Lemma orig k e : bfind k m0 = Some e -> exists c, e = Old c /\ k = okey (o_type c).
Proof. intros H. apply O. apply bfind_in. exact H. Qed.

Definition target (c : ocfg) : bytes := pkey (new_type (o_type c)).
Definition minv (ks1 ks2 : list bytes) (m : bmap entry) : Prop :=
  bsorted m /\
  (forall k, In k ks2 -> bfind k m = bfind k m0) /\
  (forall k c, In k ks1 -> bfind k m0 = Some (Old c) -> bfind (target c) m = Some (New (new_cfg c))) /\
  (forall x e, bfind x m = Some e -> (In x ks2 /\ bfind x m0 = Some e) \/
     exists k c, In k ks1 /\ bfind k m0 = Some (Old c) /\ x = target c /\ e = New (new_cfg c)).

Lemma target_inj k1 k2 c1 c2 : bfind k1 m0 = Some (Old c1) -> bfind k2 m0 = Some (Old c2) ->
  target c1 = target c2 -> k1 = k2.
Proof.
  intros E1 E2 T. destruct (orig _ _ E1) as (x1 & [= <-] & K1). destruct (orig _ _ E2) as (x2 & [= <-] & K2).
  apply pkey_inj in T. apply new_type_inj in T. destruct T as [T|[(A & B)|(A & B)]]; [congruence| |];
    exfalso; apply NC; rewrite <- B, <- A, <- K1, <- K2, !bfind_key; eauto.
Qed.
Lemma target_other k c k' : bfind k m0 = Some (Old c) -> In k' (map fst m0) -> target c = k' -> k = k'.
Proof.
  intros E I T. destruct (orig _ _ E) as (x & [= <-] & K). unfold target in T.
  destruct (new_key (o_type c)) as [N|N]; [|congruence].
  exfalso. apply NC. split.
  - rewrite N in K. cbn in K. rewrite <- K. apply bfind_key. eauto.
  - rewrite N in T. cbn [new_type pkey] in T. rewrite T. exact I.
Qed.
Lemma minv_step ks1 k ks2 m : map fst m0 = ks1 ++ k :: ks2 -> minv ks1 (k :: ks2) m ->
  exists m', migrate_key k m = Some m' /\ minv (ks1 ++ [k]) ks2 m'.
Proof.
  intros S (B & A1 & A2 & A3).
  pose proof (keys_nodup m0 (proj1 O)) as ND. rewrite S in ND.
  assert (Ik : In k (map fst m0)) by (rewrite S; apply in_or_app; right; left; auto).
  destruct (proj1 (bfind_key k m0) Ik) as (e & E). destruct (orig _ _ E) as (c & -> & K).
  unfold migrate_key. rewrite (A1 k (or_introl eq_refl)), E. cbv zeta. cbn [n_type new_cfg].
  assert (N2 : forall k', In k' ks2 -> k' <> k).
  { intros k' I ->. apply NoDup_remove_2 in ND. apply ND. apply in_or_app. auto. }
  assert (M2 : forall k', In k' ks2 -> In k' (map fst m0)).
  { intros k' I. rewrite S. apply in_or_app. right. right. exact I. }
  assert (T2 : forall k', In k' ks2 -> target c <> k').
  { intros k' I T. apply (N2 k' I). symmetry. eapply target_other; eauto. }
  assert (N1 : forall k', In k' ks1 -> k' <> k).
  { intros k' I ->. apply NoDup_remove_2 in ND. apply ND. apply in_or_app. auto. }
  fold (target c).
  destruct (beq_spec k (target c)) as [Ek|Nk]; cbn [negb].
  - eexists. split; [reflexivity|]. split; [|split; [|split]].
    + apply bput_sorted. exact B.
    + intros k' I. rewrite bfind_bput. destruct (beq_spec k k') as [<-|]; [exfalso; eapply N2; eauto|].
      apply A1. right. exact I.
    + intros k' c' I E'. rewrite bfind_bput. apply in_app_or in I. destruct I as [I|[<-|[]]].
      * destruct (beq_spec k (target c')) as [T|]; [|eauto]. exfalso. apply (N1 k' I). eapply target_inj; eauto. congruence.
      * rewrite E in E'. injection E' as <-. rewrite <- Ek, beq_refl. reflexivity.
    + intros x y F. rewrite bfind_bput in F. destruct (beq_spec k x) as [<-|Nx].
      * injection F as <-. right. exists k, c. rewrite in_app_iff. cbn. auto.
      * apply A3 in F. destruct F as [([->|I] & F)|(k1 & c1 & I & F)]; [congruence|auto|].
        right. exists k1, c1. rewrite in_app_iff. tauto.
  - eexists. split; [reflexivity|].
    assert (Hc : o_type c = OConcentrated).
    { destruct (new_key (o_type c)) as [|N]; [auto|]. exfalso. apply Nk. unfold target. congruence. }
    assert (Kc : k = CONCENTRATED) by (rewrite K, Hc; reflexivity).
    split; [|split; [|split]].
    + apply bput_sorted, bdel_sorted. exact B.
    + intros k' I. rewrite bfind_bput, bfind_bdel by exact B.
      destruct (beq_spec (target c) k') as [T|]; [exfalso; eapply T2; eauto|].
      destruct (beq_spec k k') as [<-|]; [exfalso; eapply N2; eauto|]. apply A1. right. exact I.
    + intros k' c' I E'. rewrite bfind_bput, bfind_bdel by exact B. apply in_app_or in I. destruct I as [I|[<-|[]]].
      * destruct (beq_spec (target c) (target c')) as [T|]; [exfalso; apply (N1 k' I); eapply target_inj; eauto|].
        destruct (beq_spec k (target c')) as [T|]; [|eauto]. exfalso. apply (pkey_conc (new_type (o_type c'))).
        unfold target in T. congruence.
      * rewrite E in E'. injection E' as <-. rewrite beq_refl. reflexivity.
    + intros x y F. rewrite bfind_bput, bfind_bdel in F by exact B. destruct (beq_spec (target c) x) as [<-|Nx].
      * injection F as <-. right. exists k, c. rewrite in_app_iff. cbn. auto.
      * destruct (beq_spec k x) as [<-|Nx2]; [discriminate|].
        apply A3 in F. destruct F as [([->|I] & F)|(k1 & c1 & I & F)]; [congruence|auto|].
        right. exists k1, c1. rewrite in_app_iff. tauto.
Qed.
Lemma minv_run ks2 : forall ks1 m, map fst m0 = ks1 ++ ks2 -> minv ks1 ks2 m ->
  exists m', migrate_keys ks2 m = Some m' /\ minv (ks1 ++ ks2) [] m'.
Proof.
  induction ks2 as [|k ks2 IH]; intros ks1 m S I; cbn [migrate_keys].
  - exists m. rewrite app_nil_r. auto.
  - destruct (minv_step _ _ _ _ S I) as (m1 & E & I1). rewrite E.
    destruct (IH (ks1 ++ [k]) m1) as (m' & E' & I'); [rewrite <- app_assoc; exact S|exact I1|].
    exists m'. split; [exact E'|]. rewrite <- app_assoc in I'. exact I'.
Qed.
Lemma migrate_total : exists m', migrate_pair_configs m0 = Some m' /\ minv (map fst m0) [] m'.
Proof.
  apply (minv_run (map fst m0) [] m0); [reflexivity|]. split; [exact (proj1 O)|]. split; [auto|].
  split; [intros k c []|]. intros x e F. left. split; [apply bfind_key; eauto|exact F].
Qed.
End Run.

(** Both types "concentrated" and custom "concentrated" present: the second entry is lost under the first
    one, cannot be read any more, and the whole migration fails. *)
Lemma stuck ks : forall m k c, bfind k m = Some (New c) -> In k ks -> bsorted m -> migrate_keys ks m = None.
Proof.
  induction ks as [|k1 ks IH]; intros m k c F I B; [destruct I|]. cbn [migrate_keys].
  destruct (migrate_key k1 m) as [m1|] eqn:E; [|reflexivity]. unfold migrate_key in E. unbind E as e Ee. destruct e as [c1|]; [|discriminate].
  destruct (beq_spec k1 k) as [->|N]; [congruence|].
  assert (G : exists c', bfind k m1 = Some (New c') /\ bsorted m1).
  { cbv zeta in E. destruct (negb _); injection E as <-; rewrite bfind_bput.
    - rewrite bfind_bdel by exact B. destruct (beq _ k); [|destruct (beq_spec k1 k); [congruence|]];
        eexists; (split; [first [reflexivity|exact F]|apply bput_sorted, bdel_sorted, B]).
    - destruct (beq_spec k1 k); [congruence|]. exists c. split; [exact F|apply bput_sorted, B]. }
  destruct G as (c' & F' & B'). destruct I as [->|I]; [congruence|]. eapply IH; eauto.
Qed.
Lemma migrate_key_sorted k m m' : bsorted m -> migrate_key k m = Some m' -> bsorted m'.
Proof.
  intros B E. unfold migrate_key in E. unbind E as e Ee. destruct e; [|discriminate]. cbv zeta in E.
  destruct (negb _); injection E as <-; auto using bput_sorted, bdel_sorted.
Qed.
Lemma conc_key k m m' : bsorted m -> k <> CONCENTRATED -> migrate_key k m = Some m' ->
  bfind CONCENTRATED m' = bfind CONCENTRATED m.
Proof.
  intros B N E. unfold migrate_key in E. unbind E as e Ee. destruct e as [c|]; [|discriminate]. cbv zeta in E.
  destruct (negb _); injection E as <-; rewrite bfind_bput.
  - cbn [n_type new_cfg]. destruct (beq_spec (pkey (new_type (o_type c))) CONCENTRATED) as [K|]; [exfalso; exact (pkey_conc _ K)|].
    rewrite bfind_bdel by exact B. destruct (beq_spec k CONCENTRATED); congruence.
  - destruct (beq_spec k CONCENTRATED); congruence.
Qed.
Lemma collide l1 : forall l2 m c, bsorted m -> bfind CONCENTRATED m = Some (Old c) -> o_type c = OConcentrated ->
  ~ In CONCENTRATED l1 -> In (CUSTOM_ ++ CONCENTRATED) l2 ->
  migrate_keys (l1 ++ CONCENTRATED :: l2) m = None.
Proof.
  induction l1 as [|k l1 IH]; intros l2 m c B F T N I; cbn [app migrate_keys].
  - destruct (migrate_key CONCENTRATED m) as [m1|] eqn:E; [|reflexivity].
    pose proof (migrate_key_sorted _ _ _ B E) as B1.
    unfold migrate_key in E. rewrite F in E. cbv zeta in E. cbn [n_type new_cfg] in E. rewrite T in E. cbn [new_type] in E.
    assert (X : negb (beq CONCENTRATED (pkey (Custom CONCENTRATED))) = true) by reflexivity. rewrite X in E. injection E as <-.
    eapply (stuck l2 _ (CUSTOM_ ++ CONCENTRATED)); [|exact I|exact B1].
    rewrite bfind_bput. cbn [pkey]. rewrite beq_refl. reflexivity.
  - destruct (migrate_key k m) as [m1|] eqn:E; [|reflexivity].
    assert (Nk : k <> CONCENTRATED) by (intros ->; apply N; left; reflexivity).
    apply (IH l2 m1 c); auto.
    + eapply migrate_key_sorted; eauto.
    + rewrite (conc_key _ _ _ B Nk E). exact F.
    + intros J. apply N. right. exact J.
Qed.

Lemma both_fail m : old_storage m -> In CONCENTRATED (map fst m) -> In (CUSTOM_ ++ CONCENTRATED) (map fst m) ->
  migrate_pair_configs m = None.
Proof.
  intros (B & W) I J. unfold migrate_pair_configs.
  destruct (proj1 (bfind_key _ _) I) as (e & E). destruct (W _ _ (bfind_in _ _ _ E)) as (c & -> & K).
  assert (T : o_type c = OConcentrated) by (apply okey_inj; symmetry; exact K).
  destruct (in_split _ _ (bfind_in _ _ _ E)) as (p1 & p2 & Em).
  assert (S : map fst m = map fst p1 ++ CONCENTRATED :: map fst p2) by (rewrite Em, map_app; reflexivity).
  rewrite S. pose proof (keys_nodup m B) as ND. rewrite S in ND. apply NoDup_remove_2 in ND.
  apply (collide _ _ m c); auto.
  - intros Q. apply ND. apply in_or_app. auto.
  - rewrite S in J. apply in_app_or in J. destruct J as [J|[J|J]]; [|discriminate|exact J]. exfalso.
    apply in_map_iff in J. destruct J as ((k1 & v1) & K1 & J). cbn in K1. subst k1.
    assert (L : klt (CUSTOM_ ++ CONCENTRATED, v1) (CONCENTRATED, Old c)).
    { clear - B J Em. rewrite Em in B. clear Em. induction p1 as [|q p1 IH]; [destruct J|]. cbn in B. inversion B; subst.
      destruct J as [->|J]; [|auto]. rewrite Forall_forall in H2. apply H2. apply in_or_app. right. left. reflexivity. }
    vm_compute in L. discriminate.
Qed.

Definition from_old (v : string) : Prop := In v ["1.3.1"; "1.5.1"; "1.6.0"]%string.
Lemma gate v : from_old v -> existsb (String.eqb v) ["1.3.1"; "1.5.1"; "1.6.0"]%string = true.
Proof. intros I. apply existsb_exists. exists v. split; [exact I|apply String.eqb_refl]. Qed.

(** C124: from each of the old versions the migration succeeds unless the two types collide; every pair type
    keeps its code, fees and switches under its (new) name, no other type appears, and the registered pairs
    stay; the tracker configuration is replaced only by the one given. *)
Theorem c124_kept s tr :
  from_old (f_ver s) -> old_storage (f_cfgs s) ->
  (old_config_of OConcentrated s = None \/ old_config_of (OCustom CONCENTRATED) s = None) ->
  exists s', migrate tr s = Some s' /\ f_pairs s' = f_pairs s /\
    f_tracker s' = match tr with Some t => Some t | None => f_tracker s end /\
    (forall t c, old_config_of t s = Some c -> exists p n, renamed t p /\ config_of p s' = Some n /\ same_terms c n /\ n_type n = p) /\
    (forall p n, config_of p s' = Some n -> exists t c, renamed t p /\ old_config_of t s = Some c /\ same_terms c n /\ n_type n = p).
Proof.
  intros V O X. unfold migrate. rewrite (gate _ V).
  assert (NC : ~ (In CONCENTRATED (map fst (f_cfgs s)) /\ In (CUSTOM_ ++ CONCENTRATED) (map fst (f_cfgs s)))).
  { intros (I & J). apply bfind_key in I, J. destruct I as (e1 & E1), J as (e2 & E2).
    destruct (proj2 O _ _ (bfind_in _ _ _ E1)) as (c1 & -> & _). destruct (proj2 O _ _ (bfind_in _ _ _ E2)) as (c2 & -> & _).
    unfold old_config_of in X. cbn [okey] in X. rewrite E1, E2 in X. destruct X; discriminate. }
  destruct (migrate_total _ O NC) as (m & E & (B & _ & A2 & A3)). rewrite E.
  eexists. split; [reflexivity|]. split; [reflexivity|]. split; [reflexivity|]. split.
  - intros t c F. unfold old_config_of in F. destruct (bfind (okey t) (f_cfgs s)) as [[c1|]|] eqn:F1; try discriminate. injection F as ->.
    destruct (proj2 O _ _ (bfind_in _ _ _ F1)) as (c1 & [= <-] & K). apply okey_inj in K. subst t.
    exists (new_type (o_type c)), (new_cfg c). split; [destruct (o_type c); reflexivity|]. split.
    + unfold config_of. cbn [f_cfgs]. fold (target c). rewrite (A2 (okey (o_type c)) c); auto. apply bfind_key. eauto.
    + repeat split.
  - intros p n F. unfold config_of in F. cbn [f_cfgs] in F. destruct (bfind (pkey p) m) as [[|n1]|] eqn:F1; try discriminate. injection F as ->.
    apply A3 in F1. destruct F1 as [([] & _)|(k & c & I & F1 & T & N)]. injection N as ->.
    apply pkey_inj in T. subst p. destruct (proj2 O _ _ (bfind_in _ _ _ F1)) as (c1 & [= <-] & K). subst k.
    exists (o_type c), c. split; [destruct (o_type c); reflexivity|]. split; [unfold old_config_of; rewrite F1; reflexivity|].
    repeat split.
Qed.
(** C124: the exception: with both a "concentrated" and a custom "concentrated" type the migration fails as a
    whole, whatever else is stored, and leaves the old contract as it was. *)
Theorem c124_collision s tr c1 c2 :
  from_old (f_ver s) -> old_storage (f_cfgs s) ->
  old_config_of OConcentrated s = Some c1 -> old_config_of (OCustom CONCENTRATED) s = Some c2 ->
  migrate tr s = None.
Proof.
  intros V O E1 E2. unfold migrate. rewrite (gate _ V). rewrite both_fail; [reflexivity|exact O| |];
    apply bfind_key; unfold old_config_of in *; cbn [okey] in *.
  - destruct (bfind CONCENTRATED (f_cfgs s)); [eauto|discriminate].
  - destruct (bfind (CUSTOM_ ++ CONCENTRATED) (f_cfgs s)); [eauto|discriminate].
Qed.
(** C124: later versions, and repetition: the configurations stay as they are. *)
Theorem c124_later s tr s' : migrate tr s = Some s' -> ~ from_old (f_ver s) ->
  f_cfgs s' = f_cfgs s /\ f_pairs s' = f_pairs s /\ (tr = None -> f_tracker s' = f_tracker s).
Proof.
  unfold migrate. intros H N. destruct (existsb _ _) eqn:E.
  - exfalso. apply N. apply existsb_exists in E. destruct E as (v & I & Q). apply String.eqb_eq in Q. unfold from_old. congruence.
  - destruct (String.eqb _ _); [injection H as <-; cbn; repeat split; intros ->; reflexivity|].
    unguard H G. injection H as <-. auto.
Qed.
Theorem c124_once s tr s' : migrate tr s = Some s' -> forall tr2, migrate tr2 s' = None.
Proof.
  intros H tr2. assert (V : f_ver s' = VERSION).
  { unfold migrate in H. destruct (existsb _ ["1.3.1"; "1.5.1"; "1.6.0"]%string); [unbind H as m E; injection H as <-; reflexivity|].
    destruct (String.eqb _ _); [injection H as <-; reflexivity|]. unguard H G. injection H as <-. reflexivity. }
  unfold migrate. rewrite V. reflexivity.
Qed.

Definition fex : fstate := mkF "1.5.1"
  [ (CONCENTRATED, Old (mkO 11 OConcentrated 26 5000 false false));
    (CUSTOM_ ++ [97; 98], Old (mkO 12 (OCustom [97; 98]) 10 0 true true));
    (STABLE, Old (mkO 13 OStable 5 5000 false true));
    (XYK, Old (mkO 14 OXyk 30 3333 false false)) ] None [([1; 2], 5)].
Lemma fex_fine : old_storage (f_cfgs fex).
Proof.
  split; [repeat constructor|]. cbn. intros k e H.
  destruct H as [[= <- <-]|[[= <- <-]|[[= <- <-]|[[= <- <-]|[]]]]]; eexists; split; reflexivity.
Qed.
Example c124_example : exists s, migrate (Some (7, 8)) fex = Some s /\
  map fst (f_cfgs s) = [CUSTOM_ ++ [97; 98]; CUSTOM_ ++ CONCENTRATED; STABLE; XYK] /\
  config_of (Custom CONCENTRATED) s = Some (mkN 11 (Custom CONCENTRATED) 26 5000 false false false) /\
  config_of (Custom [97; 98]) s = Some (mkN 12 (Custom [97; 98]) 10 0 true true false) /\
  f_pairs s = [([1; 2], 5)] /\ f_tracker s = Some (7, 8).
Proof. vm_compute. eexists. split; [reflexivity|]. auto 10. Qed.
Definition fex2 : fstate :=
  mkF "1.5.1" (bput (CUSTOM_ ++ CONCENTRATED) (Old (mkO 15 (OCustom CONCENTRATED) 1 1 false false)) (f_cfgs fex)) None [].
Example c124_collision_example : old_storage (f_cfgs fex2) /\ migrate None fex2 = None.
Proof.
  split; [|vm_compute; reflexivity]. split; [apply bput_sorted; apply fex_fine|]. intros k e H. apply bput_in in H.
  destruct H as [[= -> ->]|H]; [eexists; split; reflexivity|]. apply fex_fine. exact H.
Qed.

Print Assumptions c124_kept.
Print Assumptions c124_collision.
Print Assumptions c124_later.
Print Assumptions c124_once.
