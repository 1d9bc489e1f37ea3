(** C20-C23: the factory's registry and configuration. *)
From Coq Require Import ZArith Lia Bool List Permutation Sorted.
From Verif Require Import Num Amap Bytes FactoryModel.
From Verif Require OwnershipModel.
Import ListNotations.
Open Scope Z_scope.

(** ** Induction over messages with nested messages *)
Lemma msg_ind' (P : msg -> Prop)
  (H1 : forall sender fee gen, P (UpdateConfig sender fee gen))
  (H2 : forall sender t c, P (UpdatePairConfig sender t c))
  (H3 : forall sender t assets addr nested, Forall P nested -> P (CreatePair sender t assets addr nested))
  (H4 : forall sender assets, P (Deregister sender assets))
  (H5 : forall sender code tf, P (UpdateTracker sender code tf))
  (H6 : forall time sender w, P (Ownership time sender w)) : forall m, P m.
Proof.
  fix IH 1. intros [sender fee gen|sender t c|sender t assets addr nested|sender assets|sender code tf|time sender w].
  - apply H1.
  - apply H2.
  - apply H3. induction nested as [|m r IHr]; constructor; [apply IH|exact IHr].
  - apply H4.
  - apply H5.
  - apply H6.
Qed.

Lemma step_create sender t assets addr nested s :
  step (CreatePair sender t assets addr nested) s =
  (do s1 <- create_begin s sender t assets; do s2 <- steps nested s1; reply s2 addr).
Proof. reflexivity. Qed.
Lemma step_leaf m s : step m s =
  match m with
  | UpdateConfig sender fee gen => update_config s sender fee gen
  | UpdatePairConfig sender t c => update_pair_config s sender t c
  | CreatePair sender t assets addr nested =>
      do s1 <- create_begin s sender t assets; do s2 <- steps nested s1; reply s2 addr
  | Deregister sender assets => deregister s sender assets
  | UpdateTracker sender code tf => update_tracker s sender code tf
  | Ownership time sender w => ownership s time sender w
  end.
Proof. destruct m; reflexivity. Qed.
Ltac unstep E := rewrite step_leaf in E.

(** A step preserves an invariant if the six primitive actions do. *)
Lemma step_preserves (I : state -> Prop)
  (H1 : forall s sender fee gen s', I s -> update_config s sender fee gen = Some s' -> I s')
  (H2 : forall s sender t c s', I s -> update_pair_config s sender t c = Some s' -> I s')
  (H3 : forall s sender t assets s', I s -> create_begin s sender t assets = Some s' -> I s')
  (H3' : forall s addr s', I s -> reply s addr = Some s' -> I s')
  (H4 : forall s sender assets s', I s -> deregister s sender assets = Some s' -> I s')
  (H5 : forall s sender code tf s', I s -> update_tracker s sender code tf = Some s' -> I s')
  (H6 : forall s time sender w s', I s -> ownership s time sender w = Some s' -> I s') :
  forall m s s', I s -> step m s = Some s' -> I s'.
Proof.
  induction m using msg_ind'; intros s s' Is E; unstep E; try (eauto; fail).
  unbind E as s1 E1. unbind E as s2 E2.
  assert (K : forall l a b, Forall (fun m => forall s s', I s -> step m s = Some s' -> I s') l ->
             I a -> steps l a = Some b -> I b).
  { clear - H. induction l as [|m l IH]; simpl; intros a b F Ia Eb; [congruence|].
    inversion F; subst. unbind Eb as a1 Ea. eauto. }
  eauto.
Qed.
Lemma run_preserves (I : state -> Prop) :
  (forall m s s', I s -> step m s = Some s' -> I s') -> forall l s, I s -> I (run s l).
Proof.
  intros H l. induction l as [|m l IH]; intros s Is; simpl; auto. apply IH. unfold exec.
  destruct (step m s) eqn:E; eauto.
Qed.

Definition reachable (s : state) : Prop :=
  exists o fee gen l tr s0 ms, instantiate o fee gen l tr = Some s0 /\ s = run s0 ms.

(** Keys sorted, and made of bytes greater than 1. *)
Definition inv (s : state) : Prop :=
  bsorted (pairs s) /\
  Forall (fun p => Forall (fun b => 1 < b) (fst p)) (pairs s) /\
  (forall k, tmp s = Some k -> Forall (fun b => 1 < b) k) /\
  (forall t c, find t (cfgs s) = Some c ->
     0 <= total_fee_bps c <= 10000 /\ 0 <= maker_fee_bps c <= 10000).

Lemma alpha_big c : is_alpha c = true -> 1 < c.
Proof. unfold is_alpha. intros H. bools; lia. Qed.
Lemma asset_ok_bytes a : asset_ok a = true -> Forall (fun b => 1 < b) (ident a).
Proof.
  unfold asset_ok. destruct (native a).
  - unfold denom_ok. intros H. apply andb_true_iff in H. destruct H as [_ H].
    destruct (ident a) as [|c r]; [discriminate|]. apply andb_true_iff in H. destruct H as [H1 H2].
    constructor; [apply alpha_big; auto|]. rewrite forallb_forall in H2. apply Forall_forall. intros x I.
    specialize (H2 _ I). rewrite !orb_true_iff in H2. destruct H2 as [[H2|H2]|H2].
    + apply alpha_big; auto.
    + unfold is_digit in H2. bools. lia.
    + unfold is_sep in H2. rewrite !orb_true_iff, !Z.eqb_eq in H2. lia.
  - unfold addr_ok. rewrite forallb_forall. intros H. apply Forall_forall. intros x I. specialize (H _ I). bools. lia.
Qed.
Lemma concat_forall {A} (P : A -> Prop) l : Forall (Forall P) l -> Forall P (concat l).
Proof. induction 1; simpl; [constructor|]. apply Forall_app; auto. Qed.
Lemma pair_key_bytes l : check_asset_infos l = true -> Forall (fun b => 1 < b) (pair_key l).
Proof.
  unfold check_asset_infos. intros H. apply andb_true_iff in H. destruct H as [_ H]. rewrite forallb_forall in H.
  apply concat_forall. eapply Permutation_Forall; [apply Permutation_sym, bsort_perm|].
  apply Forall_map. apply Forall_forall. intros a I. apply asset_ok_bytes. auto.
Qed.

Lemma step_inv m s s' : inv s -> step m s = Some s' -> inv s'.
Proof.
  apply (step_preserves inv); clear; intros.
  - unfold update_config in H0. unguard H0 G. injection H0 as <-. exact H.
  - unfold update_pair_config in H0. unguard H0 G1. unguard H0 G2. injection H0 as <-.
    destruct H as (A & B & C & D). repeat split; auto; simpl in *.
    all: try (intros; eapply C; eauto; fail).
    all: rewrite find_put in H; destruct (Z.eqb_spec t t0); [injection H as <-|eapply D in H; lia];
      unfold valid_fee_bps in G2; bools; lia.
  - unfold create_begin in H0. unguard H0 G1. unguard H0 G2. unbind H0 as c Ec. unguard H0 G3. unguard H0 G4.
    injection H0 as <-. destruct H as (A & B & C & D). split; [exact A|]. split; [exact B|]. split; [|exact D].
    simpl. intros k [= <-]. apply pair_key_bytes. auto.
  - unfold reply in H0. unbind H0 as k Ek. unguard H0 G. injection H0 as <-.
    destruct H as (A & B & C & D). split; [apply bput_sorted; exact A|]. split; [|split; [exact C|exact D]].
    simpl. apply Forall_forall. intros p I. apply bput_in in I. rewrite Forall_forall in B.
    destruct I as [->|I]; [simpl; auto|auto].
  - unfold deregister in H0. unguard H0 G1. unguard H0 G2. unbind H0 as a Ea. injection H0 as <-.
    destruct H as (A & B & C & D). split; [apply bdel_sorted; exact A|]. split; [|split; [exact C|exact D]].
    simpl. apply Forall_forall. intros p I. apply bdel_in in I. rewrite Forall_forall in B. auto.
  - unfold update_tracker in H0. unguard H0 G. unbind H0 as tr Et. injection H0 as <-. exact H.
  - unfold ownership in H0. unbind H0 as o Eo. injection H0 as <-. exact H.
Qed.

Lemma reachable_inv s : reachable s -> inv s.
Proof.
  intros (o & fee & gen & l & tr & s0 & ms & H & ->). apply run_preserves; [exact step_inv|].
  unfold instantiate in H. unguard H G. unbind H as m Em. injection H as <-.
  split; [constructor|]. split; [constructor|]. split; [simpl; discriminate|]. simpl. clear G.
  assert (K : forall l m0 m, save_cfgs l m0 = Some m ->
    (forall t c, find t m0 = Some c -> 0 <= total_fee_bps c <= 10000 /\ 0 <= maker_fee_bps c <= 10000) ->
    forall t c, find t m = Some c -> 0 <= total_fee_bps c <= 10000 /\ 0 <= maker_fee_bps c <= 10000).
  { clear. induction l as [|[t c] l IH]; simpl; intros m0 m E H0.
    - injection E as <-. exact H0.
    - unguard E G. apply (IH _ _ E). intros t' c' F. rewrite find_put in F.
      destruct (Z.eqb_spec t t'); [injection F as <-|eapply H0; eauto]. unfold valid_fee_bps in G. bools. lia. }
  eapply K; eauto. simpl. discriminate.
Qed.

(** ** C20 *)
Theorem c20_order_independent s l1 l2 : Permutation l1 l2 -> query_pair s l1 = query_pair s l2.
Proof.
  intros P. unfold query_pair, pair_key. rewrite (bsort_permutation (map ident l1) (map ident l2)); auto.
  apply Permutation_map. exact P.
Qed.

(** Creating a pair for registered assets (in any order) fails. *)
Theorem c20_registered_not_created_again s l1 l2 sender t a addr nested :
  query_pair s l1 = Some a -> Permutation l1 l2 -> step (CreatePair sender t l2 addr nested) s = None.
Proof.
  intros Q P. rewrite step_create. unfold create_begin.
  rewrite (c20_order_independent s l1 l2 P) in Q. unfold query_pair in Q. rewrite Q.
  destruct (check_asset_infos l2); reflexivity.
Qed.

(** The message (or a message nested in it) asks to deregister the pair with lookup key of [l]. *)
Inductive deregisters (l : list asset) : msg -> Prop :=
| dr_here sender l' : pair_key l' = pair_key l -> deregisters l (Deregister sender l')
| dr_nested sender t assets addr nested m :
    In m nested -> deregisters l m -> deregisters l (CreatePair sender t assets addr nested).

Lemma step_sorted m s s' : bsorted (pairs s) -> step m s = Some s' -> bsorted (pairs s').
Proof.
  apply (step_preserves (fun s => bsorted (pairs s))); clear; intros.
  - unfold update_config in H0. unguard H0 G. injection H0 as <-. auto.
  - unfold update_pair_config in H0. unguard H0 G. unguard H0 G2. injection H0 as <-. auto.
  - unfold create_begin in H0. unguard H0 G1. unguard H0 G2. unbind H0 as c Ec. unguard H0 G3. unguard H0 G4.
    injection H0 as <-. auto.
  - unfold reply in H0. unbind H0 as k Ek. unguard H0 G. injection H0 as <-. apply bput_sorted. auto.
  - unfold deregister in H0. unguard H0 G1. unguard H0 G2. unbind H0 as c Ec. injection H0 as <-.
    apply bdel_sorted. auto.
  - unfold update_tracker in H0. unguard H0 G. unbind H0 as tr Et. injection H0 as <-. auto.
  - unfold ownership in H0. unbind H0 as o Eo. injection H0 as <-. auto.
Qed.
Lemma step_keeps l a : forall m s s', bsorted (pairs s) -> step m s = Some s' ->
  query_pair s l = Some a -> query_pair s' l = Some a \/ deregisters l m.
Proof.
  unfold query_pair.
  induction m using msg_ind'; intros s s' S E Q; unstep E.
  - unfold update_config in E. unguard E G. injection E as <-. auto.
  - unfold update_pair_config in E. unguard E G. unguard E G2. injection E as <-. auto.
  - unbind E as s1 E1. unbind E as s2 E2.
    assert (Q1 : pairs s1 = pairs s).
    { unfold create_begin in E1. unguard E1 G1. unguard E1 G2. unbind E1 as c Ec. unguard E1 G3. unguard E1 G4.
      injection E1 as <-. reflexivity. }
    rewrite <- Q1 in Q, S.
    assert (K : bsorted (pairs s2) /\
      (bfind (pair_key l) (pairs s2) = Some a \/ exists m, In m nested /\ deregisters l m)).
    { clear - H S Q E2. revert s1 S Q E2. induction nested as [|m r IH]; simpl; intros s1 S Q E2.
      - injection E2 as <-. auto.
      - inversion H; subst. unbind E2 as s3 E3.
        assert (S3 : bsorted (pairs s3)).
        { eapply step_sorted; eauto. }
        destruct (H2 _ _ S E3 Q) as [Q3|D]; [|].
        + destruct (IH H3 s3 S3 Q3 E2) as [A [B|(m' & I & D)]]; auto. split; auto. right. exists m'. auto.
        + assert (S2 : bsorted (pairs s2)).
          { clear - S3 E2. revert s3 S3 E2. induction r as [|m' r IH]; simpl; intros s3 S3 E2; [congruence|].
            unbind E2 as s4 E4. apply (IH s4); auto.
            eapply step_sorted; eauto. }
          split; auto. right. exists m. auto. }
    destruct K as [S2 [Q2|(m & I & D)]]; [|right; econstructor; eauto].
    unfold reply in E. unbind E as k Ek. unguard E G. injection E as <-. left. simpl.
    rewrite bfind_bput. destruct (beq_spec k (pair_key l)) as [->|]; auto. rewrite Q2 in G. discriminate.
  - unfold deregister in E. unguard E G1. unguard E G2. unbind E as c Ec. injection E as <-. simpl.
    rewrite bfind_bdel by auto. destruct (beq_spec (pair_key assets) (pair_key l)); auto. right. constructor. auto.
  - unfold update_tracker in E. unguard E G. unbind E as tr Et. injection E as <-. auto.
  - unfold ownership in E. unbind E as o Eo. injection E as <-. auto.
Qed.

(** A registered pair stays registered, at the same address, through every history without a
    request to deregister it. *)
Theorem c20_stays_registered s ms l a :
  reachable s -> query_pair s l = Some a -> ~ Exists (deregisters l) ms -> query_pair (run s ms) l = Some a.
Proof.
  intros R. apply reachable_inv in R. destruct R as (S & _). revert s S.
  induction ms as [|m ms IH]; intros s S Q N; simpl; auto. unfold exec.
  destruct (step m s) as [s'|] eqn:E.
  - destruct (step_keeps _ _ _ _ _ S E Q) as [Q'|D]; [|exfalso; apply N; constructor; auto].
    apply IH; [eapply step_sorted; eauto|exact Q'|]. intros X. apply N. apply Exists_cons_tl. auto.
  - apply IH; auto.
Qed.

(** A successful creation registers the new contract under the requested assets, whatever the new
    contract makes the factory do meanwhile, provided that does not include a deregistration. *)
Definition pending_done (k0 : bytes) (s : state) : Prop :=
  tmp s = Some k0 \/ exists k a, tmp s = Some k /\ bfind k (pairs s) = Some a.
Lemma step_pending k0 m s s' : (forall l, ~ deregisters l m) ->
  step m s = Some s' -> pending_done k0 s -> pending_done k0 s'.
Proof.
  destruct m; intros N E J; unstep E.
  - unfold update_config in E. unguard E G. injection E as <-. exact J.
  - unfold update_pair_config in E. unguard E G. unguard E G2. injection E as <-. exact J.
  - unbind E as s1 E1. unbind E as s2 E2. unfold reply in E. unbind E as k Ek. unguard E G. injection E as <-.
    right. exists k, addr. simpl. split; auto. rewrite bfind_bput, beq_refl. auto.
  - exfalso. eapply N. constructor. reflexivity.
  - unfold update_tracker in E. unguard E G. unbind E as tr Et. injection E as <-. exact J.
  - unfold ownership in E. unbind E as o Eo. injection E as <-. exact J.
Qed.
Theorem c20_created_is_registered s sender t l addr nested s' :
  (forall m l', In m nested -> ~ deregisters l' m) ->
  step (CreatePair sender t l addr nested) s = Some s' -> query_pair s' l = Some addr.
Proof.
  intros N E. unstep E. unbind E as s1 E1. unbind E as s2 E2.
  assert (J : pending_done (pair_key l) s1).
  { left. unfold create_begin in E1. unguard E1 G1. unguard E1 G2. unbind E1 as c Ec. unguard E1 G3. unguard E1 G4.
    injection E1 as <-. reflexivity. }
  assert (J2 : pending_done (pair_key l) s2).
  { clear - N J E2. revert s1 J E2. induction nested as [|m r IH]; simpl; intros s1 J E2.
    - injection E2 as <-. exact J.
    - unbind E2 as s3 E3. assert (J3 : pending_done (pair_key l) s3).
      { apply (step_pending _ m s1); auto. intros l' D. apply (N m l'); simpl; auto. }
      apply (IH ltac:(intros m' l' I; apply N; simpl; auto) s3 J3 E2). }
  unfold reply in E. unbind E as k Ek. unguard E G. injection E as <-. unfold query_pair. simpl.
  destruct J2 as [J2|(k' & a & J2 & B)].
  - rewrite J2 in Ek. injection Ek as <-. rewrite bfind_bput, beq_refl. reflexivity.
  - rewrite J2 in Ek. injection Ek as <-. rewrite B in G. discriminate.
Qed.

(** Deregistration is the owner's, removes exactly the pair named, and makes room for a new one. *)
Theorem c20_deregister_exact s sender l s' :
  reachable s -> step (Deregister sender l) s = Some s' ->
  sender = owner s /\ query_pair s l <> None /\ query_pair s' l = None /\
  (forall l', pair_key l' <> pair_key l -> query_pair s' l' = query_pair s l') /\
  owner s' = owner s /\ cfgs s' = cfgs s.
Proof.
  intros R E. apply reachable_inv in R. destruct R as (S & _). unstep E. unfold deregister in E.
  unguard E G1. unguard E G2. unbind E as a Ea. injection E as <-. unfold query_pair. simpl.
  apply Z.eqb_eq in G2. split; [exact G2|]. split; [congruence|].
  split; [rewrite bfind_bdel, beq_refl by exact S; reflexivity|]. split; [|auto].
  intros l' N. rewrite bfind_bdel by exact S. destruct (beq_spec (pair_key l) (pair_key l')); congruence.
Qed.
Theorem c20_deregister_succeeds s l a :
  query_pair s l = Some a -> check_asset_infos l = true -> step (Deregister (owner s) l) s <> None.
Proof.
  intros Q C. rewrite step_leaf. unfold deregister. unfold query_pair in Q. rewrite C, Z.eqb_refl, Q. discriminate.
Qed.

(** With an owner deregistration in between, the new contract ends up under other assets. *)
Definition ex_A := [mkAsset true [117; 97; 97]; mkAsset true [117; 98; 98]].
Definition ex_B := [mkAsset true [117; 99; 99]; mkAsset false [97; 100; 100; 114]].
Definition ex_cfg : pcfg := mkCfg 1 30 3333 false false false.
Definition ex_s0 : state := mkState 7 (Some 8) None [(1, ex_cfg)] [] None None None.
Theorem c20_reentrant_deregister_refuted : exists s m s',
  reachable s /\ step m s = Some s' /\
  (exists n, m = CreatePair 5 1 ex_A 100 n) /\
  query_pair s' ex_A = None /\ query_pair s' ex_B = Some 100.
Proof.
  exists ex_s0, (CreatePair 5 1 ex_A 100 [CreatePair 5 1 ex_B 200 []; Deregister 7 ex_B]). eexists.
  split.
  { exists 7, (Some 8), None, [(1, ex_cfg)], None, ex_s0, []. split; reflexivity. }
  split; [vm_compute; reflexivity|]. split; [eexists; reflexivity|]. split; vm_compute; reflexivity.
Qed.
Example c20_example : exists s1 s2,
  step (CreatePair 5 1 ex_A 100 []) ex_s0 = Some s1 /\
  step (CreatePair 5 1 ex_B 200 []) s1 = Some s2 /\
  query_pair s2 (rev ex_A) = Some 100 /\ query_pair s2 ex_B = Some 200 /\
  step (CreatePair 5 1 (rev ex_B) 300 []) s2 = None.
Proof. do 2 eexists. split; [vm_compute; reflexivity|]. split; [vm_compute; reflexivity|]. vm_compute. auto. Qed.

(** ** C21 *)
Definition is_prefix (x y : bytes) : Prop := exists z, y = x ++ z.
Lemma app_prefix (x : bytes) : forall y a b, x ++ a = y ++ b -> is_prefix x y \/ is_prefix y x.
Proof.
  induction x as [|c x IH]; intros y a b H.
  - left. exists y. reflexivity.
  - destruct y as [|d y]; [right; exists (c :: x); reflexivity|]. simpl in H. injection H as -> H.
    destruct (IH _ _ _ H) as [[z ->]|[z ->]]; [left|right]; exists z; reflexivity.
Qed.
Lemma concat_decode (P : bytes -> Prop) :
  (forall x y, P x -> P y -> is_prefix x y -> x = y) -> (forall x, P x -> x <> []) ->
  forall l1 l2, Forall P l1 -> Forall P l2 -> concat l1 = concat l2 -> l1 = l2.
Proof.
  intros Hp Hn l1. induction l1 as [|x l1 IH]; intros [|y l2] F1 F2 E; auto.
  - inversion F2; subst. simpl in E. symmetry in E. apply app_eq_nil in E. destruct E as [E _].
    exfalso. exact (Hn _ H1 E).
  - inversion F1; subst. simpl in E. apply app_eq_nil in E. destruct E as [E _].
    exfalso. exact (Hn _ H1 E).
  - inversion F1; subst. inversion F2; subst. simpl in E.
    assert (x = y) as <- by (destruct (app_prefix _ _ _ _ E); [auto|symmetry; auto]).
    apply app_inv_head in E. f_equal. auto.
Qed.

(** If no identifier in use is a proper prefix of another, the key determines the identifiers. *)
Theorem c21_prefix_free_keys l1 l2 :
  (forall a b, In a (l1 ++ l2) -> In b (l1 ++ l2) -> is_prefix (ident a) (ident b) -> ident a = ident b) ->
  (forall a, In a (l1 ++ l2) -> ident a <> []) ->
  pair_key l1 = pair_key l2 -> Permutation (map ident l1) (map ident l2).
Proof.
  intros Hp Hn E. unfold pair_key in E.
  assert (K : bsort (map ident l1) = bsort (map ident l2)).
  { apply (concat_decode (fun x => In x (map ident (l1 ++ l2)))); auto.
    - intros x y Ix Iy. apply in_map_iff in Ix. apply in_map_iff in Iy. destruct Ix as (a & <- & Ia), Iy as (b & <- & Ib). auto.
    - intros x Ix. apply in_map_iff in Ix. destruct Ix as (a & <- & Ia). auto.
    - apply Forall_forall. intros x I. eapply Permutation_in in I; [|apply bsort_perm]. rewrite map_app. apply in_or_app. auto.
    - apply Forall_forall. intros x I. eapply Permutation_in in I; [|apply bsort_perm]. rewrite map_app. apply in_or_app. auto. }
  rewrite <- (bsort_perm (map ident l1)), <- (bsort_perm (map ident l2)), K. reflexivity.
Qed.
Corollary c21_equal_length_keys n l1 l2 :
  (0 < n)%nat -> Forall (fun a => length (ident a) = n) (l1 ++ l2) ->
  pair_key l1 = pair_key l2 -> Permutation (map ident l1) (map ident l2).
Proof.
  intros Hn F. rewrite Forall_forall in F. apply c21_prefix_free_keys.
  - intros a b Ia Ib [z E]. apply F in Ia. apply F in Ib. rewrite E, app_length in Ib.
    assert (length z = 0)%nat by lia. destruct z; [|discriminate]. rewrite app_nil_r in E. auto.
  - intros a Ia E. apply F in Ia. rewrite E in Ia. simpl in Ia. lia.
Qed.
Example c21_example : pair_key ex_A = [117; 97; 97; 117; 98; 98] /\ pair_key (rev ex_A) = pair_key ex_A /\
  pair_key ex_B <> pair_key ex_A.
Proof. vm_compute. split; [reflexivity|]. split; [reflexivity|discriminate]. Qed.

(** {aaa, bbbb} and {aaab, bbb} share a key: the second pair cannot be created, and looking it up
    gives the first. *)
Definition ex_C := [mkAsset true [97; 97; 97]; mkAsset true [98; 98; 98; 98]].
Definition ex_D := [mkAsset true [97; 97; 97; 98]; mkAsset true [98; 98; 98]].
Theorem c21_distinct_sets_distinct_keys_refuted : exists s l1 l2,
  reachable s /\ check_asset_infos l1 = true /\ check_asset_infos l2 = true /\
  (forall a, In a l1 -> ~ In a l2) /\
  query_pair s l1 = Some 100 /\ query_pair s l2 = Some 100 /\
  (forall sender t addr nested, step (CreatePair sender t l2 addr nested) s = None).
Proof.
  assert (E : exists s, run ex_s0 [CreatePair 5 1 ex_C 100 []] = s) by eauto. destruct E as [s E].
  exists s, ex_C, ex_D. split.
  { exists 7, (Some 8), None, [(1, ex_cfg)], None, ex_s0, [CreatePair 5 1 ex_C 100 []]. split; [reflexivity|auto]. }
  vm_compute in E. subst s.
  split; [reflexivity|]. split; [reflexivity|]. split.
  { intros a [<-|[<-|[]]] [H|[H|[]]]; discriminate H. }
  split; [reflexivity|]. split; [reflexivity|]. intros. rewrite step_leaf. reflexivity.
Qed.

(** ** C22 *)
(** Walking through the pages: each request starts after the last pair received; [info] is what a
    pair contract reports as its assets. *)
Fixpoint walk (n : nat) (s : state) (info : Z -> list asset) (limit : option Z) (start : option (list asset))
    : list (bytes * Z) :=
  match n with
  | O => []
  | S n' =>
      match rev (read_pairs s start limit) with
      | [] => []
      | (_, a) :: _ => read_pairs s start limit ++ walk n' s info limit (Some (info a))
      end
  end.

Lemma after_push k (m : bmap Z) :
  Forall (fun p => Forall (fun b => 1 < b) (fst p)) m -> after (k ++ [1]) m = after k m.
Proof.
  induction 1 as [|p m H F IH]; [reflexivity|]. unfold after in *. cbn [filter].
  rewrite (blt_push k 1 (fst p) H), IH. reflexivity.
Qed.

Lemma walk_rest s info limit : inv s ->
  (forall k a, In (k, a) (pairs s) -> pair_key (info a) = k) ->
  (match limit with Some l => 1 <= l | None => True end) ->
  forall n m1 r start, pairs s = m1 ++ r ->
    (match start with Some assets => after (pair_key assets ++ [1]) (pairs s) | None => pairs s end) = r ->
    (length r < n)%nat -> walk n s info limit start = r.
Proof.
  intros (Sd & By & _) Hi Hl n. induction n as [|n IH]; intros m1 r start E Es Hn; [lia|]. cbn [walk].
  set (k := Z.to_nat (Z.min (match limit with Some l => l | None => 10 end) 30)).
  assert (Er : read_pairs s start limit = firstn k r) by (unfold read_pairs; rewrite Es; reflexivity).
  rewrite Er. assert (Hk : (1 <= k)%nat) by (unfold k; destruct limit; lia). clearbody k.
  destruct r as [|p r]; [destruct k; reflexivity|].
  destruct (rev (firstn k (p :: r))) as [|[k1 a] q] eqn:R.
  - destruct k; [lia|]. simpl in R. apply app_eq_nil in R. destruct R. discriminate.
  - assert (F : firstn k (p :: r) = rev q ++ [(k1, a)]).
    { rewrite <- (rev_involutive (firstn k (p :: r))), R. reflexivity. }
    set (rest := skipn k (p :: r)).
    assert (Ep : p :: r = rev q ++ (k1, a) :: rest).
    { rewrite <- (firstn_skipn k (p :: r)), F, <- app_assoc. reflexivity. }
    rewrite (IH (m1 ++ rev q ++ [(k1, a)]) rest (Some (info a))).
    + rewrite F, Ep, <- app_assoc. reflexivity.
    + rewrite E, Ep, <- !app_assoc. reflexivity.
    + rewrite (Hi k1 a).
      2: { rewrite E, Ep. apply in_or_app. right. apply in_or_app. right. left. auto. }
      rewrite after_push by exact By. rewrite E, Ep, app_assoc in *.
      apply (after_app (m1 ++ rev q) rest (k1, a)). exact Sd.
    + assert (L : length (p :: r) = length (rev q ++ (k1, a) :: rest)) by congruence.
      rewrite app_length in L. simpl in L, Hn. lia.
Qed.

Theorem c22_paging s info limit :
  reachable s -> (forall l a, query_pair s l = Some a -> pair_key (info a) = pair_key l) ->
  (match limit with Some l => 1 <= l | None => True end) ->
  let all := walk (S (length (pairs s))) s info limit None in
  NoDup (map fst all) /\ forall l a, query_pair s l = Some a <-> In (pair_key l, a) all.
Proof.
  intros R Hi Hl all. pose proof (reachable_inv _ R) as I.
  assert (Sd : bsorted (pairs s)) by apply I.
  assert (E : all = pairs s).
  { unfold all. apply (walk_rest s info limit I) with (m1 := []); auto.
    intros k a In_. assert (Kk : pair_key [mkAsset true k] = k) by (unfold pair_key; simpl; apply app_nil_r).
    rewrite <- Kk. apply (Hi [mkAsset true k]). unfold query_pair. rewrite Kk. apply in_bfind; auto. }
  rewrite E. clear - Sd. split.
  - induction Sd as [|p m S IH F]; simpl; constructor; auto. intros X. apply in_map_iff in X.
    destruct X as (q & Eq & Iq). rewrite Forall_forall in F. specialize (F _ Iq). unfold klt in F.
    rewrite Eq, blt_irrefl in F. discriminate.
  - intros l a. unfold query_pair. split; [apply bfind_in|apply in_bfind; exact Sd].
Qed.
Definition ex_s3 : state := run ex_s0 [CreatePair 5 1 ex_A 100 []; CreatePair 5 1 ex_B 200 []; CreatePair 6 1 ex_C 300 []].
Definition ex_info (a : Z) : list asset := if a =? 100 then ex_A else if a =? 200 then ex_B else ex_C.
Example c22_example :
  map snd (walk 4 ex_s3 ex_info (Some 2) None) = [300; 200; 100] /\
  map snd (read_pairs ex_s3 None (Some 2)) = [300; 200] /\
  map snd (read_pairs ex_s3 (Some (rev ex_B)) (Some 2)) = [100].
Proof. vm_compute. auto. Qed.

(** ** C23 *)
Theorem c23_fees_bounded s t c :
  reachable s -> find t (cfgs s) = Some c -> 0 <= total_fee_bps c <= 10000 /\ 0 <= maker_fee_bps c <= 10000.
Proof. intros R. apply reachable_inv in R. destruct R as (_ & _ & _ & D). apply D. Qed.
Theorem c23_reported_fees_bounded s t f a b :
  reachable s -> query_fee_info s t = Some (f, a, b) -> 0 <= a <= 10000 /\ 0 <= b <= 10000.
Proof.
  intros R H. unfold query_fee_info in H. unbind H as c Ec. injection H as <- <- <-. eapply c23_fees_bounded; eauto.
Qed.

(** Every sender of a message, including messages nested in it. *)
Fixpoint senders (m : msg) : list Z :=
  match m with
  | UpdateConfig u _ _ | UpdatePairConfig u _ _ | Deregister u _ | UpdateTracker u _ _ | Ownership _ u _ => [u]
  | CreatePair u _ _ _ nested => u :: flat_map senders nested
  end.
Definition outsider (s : state) (u : Z) : Prop :=
  u <> owner s /\ match proposal s with Some p => u <> OwnershipModel.p_owner p | None => True end.
(** Everything under the owner's control is as before, and no registered pair is lost or changed. *)
Definition untouched (s s' : state) : Prop :=
  owner s' = owner s /\ fee_addr s' = fee_addr s /\ generator s' = generator s /\ cfgs s' = cfgs s /\
  tracker s' = tracker s /\ proposal s' = proposal s /\
  forall l a, query_pair s l = Some a -> query_pair s' l = Some a.
Lemma untouched_refl s : untouched s s.
Proof. repeat split; auto. Qed.
Lemma untouched_trans a b c : untouched a b -> untouched b c -> untouched a c.
Proof.
  intros (A1 & A2 & A3 & A4 & A5 & A6 & A7) (B1 & B2 & B3 & B4 & B5 & B6 & B7).
  repeat split; try congruence. auto.
Qed.
Lemma step_untouched : forall m s s', Forall (outsider s) (senders m) -> step m s = Some s' -> untouched s s'.
Proof.
  induction m using msg_ind'; intros s s' F E; unstep E.
  - apply Forall_inv in F. destruct F as [F _]. unfold update_config in E. unguard E G. bools. congruence.
  - apply Forall_inv in F. destruct F as [F _]. unfold update_pair_config in E. unguard E G. bools. congruence.
  - unbind E as s1 E1. unbind E as s2 E2. simpl in F. apply Forall_inv_tail in F.
    assert (U1 : untouched s s1).
    { unfold create_begin in E1. unguard E1 G1. unguard E1 G2. unbind E1 as c Ec. unguard E1 G3. unguard E1 G4.
      injection E1 as <-. repeat split; auto. }
    assert (U2 : untouched s1 s2).
    { assert (F1 : Forall (outsider s1) (flat_map senders nested)).
      { destruct U1 as (A & _ & _ & _ & _ & B & _). eapply Forall_impl; [|exact F]. unfold outsider. rewrite A, B. auto. }
      clear - H F1 E2. revert s1 F1 E2. induction nested as [|m r IH]; simpl; intros s1 F1 E2.
      - injection E2 as <-. apply untouched_refl.
      - inversion H; subst. unbind E2 as s3 E3. apply Forall_app in F1. destruct F1 as [Fa Fb].
        pose proof (H2 _ _ Fa E3) as U. eapply untouched_trans; [exact U|]. apply IH; auto.
        destruct U as (A & _ & _ & _ & _ & B & _). eapply Forall_impl; [|exact Fb]. unfold outsider. rewrite A, B. auto. }
    eapply untouched_trans; [exact U1|]. eapply untouched_trans; [exact U2|].
    unfold reply in E. unbind E as k Ek. unguard E G. injection E as <-. repeat split; auto.
    intros l a Q. unfold query_pair in *. simpl. rewrite bfind_bput. destruct (beq_spec k (pair_key l)) as [->|]; auto.
    rewrite Q in G. discriminate.
  - apply Forall_inv in F. destruct F as [F _]. unfold deregister in E. unguard E G. unguard E G2. bools. congruence.
  - apply Forall_inv in F. destruct F as [F _]. unfold update_tracker in E. unguard E G. bools. congruence.
  - apply Forall_inv in F. destruct F as [F F']. unfold ownership in E. unbind E as o Eo. injection E as <-.
    unfold OwnershipModel.step in Eo. simpl in Eo. destruct w.
    + unguard Eo G. bools. congruence.
    + unguard Eo G. bools. congruence.
    + destruct (proposal s) as [p|] eqn:Ep; [|discriminate]. unguard Eo G. bools. congruence.
    + injection Eo as <-. repeat split; auto.
Qed.
Theorem c23_only_owner s ms :
  Forall (outsider s) (flat_map senders ms) -> untouched s (run s ms).
Proof.
  revert s. induction ms as [|m ms IH]; intros s F; simpl in *; [apply untouched_refl|].
  apply Forall_app in F. destruct F as [Fa Fb]. unfold exec. destruct (step m s) as [s'|] eqn:E; [|auto].
  pose proof (step_untouched _ _ _ Fa E) as U. eapply untouched_trans; [exact U|]. apply IH.
  destruct U as (A & _ & _ & _ & _ & B & _). eapply Forall_impl; [|exact Fb]. unfold outsider. rewrite A, B. auto.
Qed.
(** Who may create pairs of which type. *)
Theorem c23_create_permission s sender t assets addr nested s' :
  step (CreatePair sender t assets addr nested) s = Some s' ->
  exists c, find t (cfgs s) = Some c /\ is_disabled c = false /\ (permissioned c = true -> sender = owner s).
Proof.
  intros E. unstep E. unbind E as s1 E1. clear E.
  unfold create_begin in E1. unguard E1 G1. unguard E1 G2. unbind E1 as c Ec. unguard E1 G3. unguard E1 G4.
  exists c. split; auto. split; [apply negb_true_iff; exact G4|]. intros P. rewrite P in G3. bools. 
  destruct (Z.eqb_spec sender (owner s)); auto. discriminate.
Qed.
(** The owner's updates take effect exactly; invalid fees are rejected. *)
Theorem c23_update_exact s sender t c s' :
  step (UpdatePairConfig sender t c) s = Some s' ->
  sender = owner s /\ valid_fee_bps c = true /\
  (forall t', find t' (cfgs s') = if t' =? t then Some c else find t' (cfgs s)) /\
  pairs s' = pairs s /\ owner s' = owner s /\ fee_addr s' = fee_addr s.
Proof.
  intros E. unstep E. unfold update_pair_config in E. unguard E G. unguard E G2. injection E as <-. bools.
  repeat split; auto. intros t'. simpl. rewrite find_put, Z.eqb_sym. reflexivity.
Qed.
Theorem c23_config_exact s sender fee gen s' :
  step (UpdateConfig sender fee gen) s = Some s' ->
  sender = owner s /\
  (forall f, fee = Some f -> fee_addr s' = Some f) /\ (fee = None -> fee_addr s' = fee_addr s) /\
  (forall g, gen = Some g -> generator s' = Some g) /\ (gen = None -> generator s' = generator s) /\
  pairs s' = pairs s /\ cfgs s' = cfgs s /\ owner s' = owner s /\ tracker s' = tracker s.
Proof.
  intros E. unstep E. unfold update_config in E. unguard E G. injection E as <-. bools.
  repeat split; auto; intros; subst; reflexivity.
Qed.
(** The owner can always do both, with valid fees. *)
Theorem c23_owner_succeeds s :
  (forall fee gen, step (UpdateConfig (owner s) fee gen) s <> None) /\
  (forall t c, 0 <= total_fee_bps c <= 10000 -> 0 <= maker_fee_bps c <= 10000 ->
     step (UpdatePairConfig (owner s) t c) s <> None).
Proof.
  split.
  - intros. rewrite step_leaf. unfold update_config. rewrite Z.eqb_refl. discriminate.
  - intros t c A B. rewrite step_leaf. unfold update_pair_config, valid_fee_bps. rewrite Z.eqb_refl.
    rewrite !(proj2 (Z.leb_le _ _)) by lia. discriminate.
Qed.
(** What pairs are told are the configured values. *)
Theorem c23_reported_exact s t c :
  find t (cfgs s) = Some c -> query_fee_info s t = Some (fee_addr s, total_fee_bps c, maker_fee_bps c).
Proof. intros H. unfold query_fee_info. rewrite H. reflexivity. Qed.
(** Creation succeeds when it is permitted and the assets are free. *)
Theorem c23_creation_succeeds s sender t c assets addr :
  find t (cfgs s) = Some c -> is_disabled c = false -> (permissioned c = true -> sender = owner s) ->
  query_pair s assets = None -> check_asset_infos assets = true ->
  exists s', step (CreatePair sender t assets addr []) s = Some s' /\ query_pair s' assets = Some addr /\
    forall l, pair_key l <> pair_key assets -> query_pair s' l = query_pair s l.
Proof.
  intros Hc Hd Hp Hq Ha. unfold query_pair in Hq.
  exists (set_pairs (set_tmp s (pair_key assets)) (bput (pair_key assets) addr (pairs s))).
  split.
  - rewrite step_leaf. unfold create_begin. rewrite Ha, Hq, Hc, Hd.
    assert (P : permissioned c && negb (sender =? owner s) = false).
    { destruct (permissioned c); [|reflexivity]. rewrite (Hp eq_refl), Z.eqb_refl. reflexivity. }
    rewrite P. simpl. unfold reply. simpl. rewrite Hq. reflexivity.
  - unfold query_pair. simpl. rewrite bfind_bput, beq_refl. split; [reflexivity|].
    intros l N. rewrite bfind_bput. destruct (beq_spec (pair_key assets) (pair_key l)); congruence.
Qed.
Example c23_example :
  step (UpdatePairConfig 7 2 (mkCfg 2 10000 0 false false true)) ex_s0 <> None /\
  step (UpdatePairConfig 7 2 (mkCfg 2 10001 0 false false true)) ex_s0 = None /\
  step (UpdatePairConfig 5 2 (mkCfg 2 100 0 false false true)) ex_s0 = None /\
  Forall (outsider ex_s0) (flat_map senders [CreatePair 5 1 ex_A 100 []; UpdateConfig 5 (Some 5) None]) /\
  query_fee_info ex_s0 1 = Some (Some 8, 30, 3333).
Proof.
  split; [vm_compute; discriminate|]. split; [reflexivity|]. split; [reflexivity|]. split; [|reflexivity].
  repeat constructor; simpl; lia.
Qed.

Print Assumptions c20_order_independent.
Print Assumptions c20_registered_not_created_again.
Print Assumptions c20_stays_registered.
Print Assumptions c20_created_is_registered.
Print Assumptions c20_reentrant_deregister_refuted.
Print Assumptions c21_prefix_free_keys.
Print Assumptions c21_equal_length_keys.
Print Assumptions c21_distinct_sets_distinct_keys_refuted.
Print Assumptions c22_paging.
Print Assumptions c23_fees_bounded.
Print Assumptions c23_reported_fees_bounded.
Print Assumptions c23_only_owner.
Print Assumptions c23_create_permission.
Print Assumptions c23_update_exact.
Print Assumptions c20_deregister_exact.
Print Assumptions c20_deregister_succeeds.
Print Assumptions c23_config_exact.
Print Assumptions c23_owner_succeeds.
Print Assumptions c23_reported_exact.
Print Assumptions c23_creation_succeeds.
