(** C48, C80: the native coin registry. *)
From Coq Require Import ZArith Lia Bool List Sorting.Sorted.
From Verif Require Import Num Bytes RegistryModel.
From Verif Require OwnershipModel.
Import ListNotations.
Open Scope Z_scope.

Lemma bmem_In x l : bmem x l = true <-> In x l.
Proof.
  induction l as [|y l IH]; simpl; [split; [discriminate | tauto]|].
  rewrite orb_true_iff, IH. destruct (beq_spec x y) as [->|N]; intuition congruence.
Qed.
Lemma bnodup_NoDup l : bnodup l = true -> NoDup l.
Proof.
  induction l as [|x l IH]; simpl; intros H; constructor; bools; auto.
  intros I. apply bmem_In in I. congruence.
Qed.

Lemma store_spec fresh l : forall m m', store fresh l m = Some m' -> NoDup (map fst l) ->
  (forall d n, In (d, n) l -> 0 <= n <= 18 /\ bfind d m' = Some n /\ (fresh = true -> bfind d m = None)) /\
  (forall d, ~ In d (map fst l) -> bfind d m' = bfind d m) /\
  (bsorted m -> bsorted m') /\
  ((forall p, In p m -> 0 <= snd p <= 18) -> forall p, In p m' -> 0 <= snd p <= 18).
Proof.
  induction l as [|[d n] l IH]; intros m m' H ND; simpl in H.
  - injection H as <-. repeat split; auto; try (destruct H); apply H; exact H0.
  - unguard H G1. unguard H G2. simpl in ND. inversion ND as [|? ? N1 N2]; subst.
    assert (Hn : 0 <= n <= 18) by (bools; unfold MAX_DECIMALS in *; lia). clear G1.
    destruct (IH _ _ H N2) as (A & B & C & D). split; [|split; [|split]].
    + intros d0 n0 [E|I].
      * injection E as <- <-. split; [exact Hn|]. split.
        -- rewrite (B _ N1), bfind_bput, beq_refl. reflexivity.
        -- intros ->. destruct (bfind d m); [discriminate | reflexivity].
      * destruct (A _ _ I) as (Q1 & Q2 & Q3). split; [exact Q1|]. split; [exact Q2|].
        intros Fr. specialize (Q3 Fr). rewrite bfind_bput in Q3. destruct (beq d d0); [discriminate | exact Q3].
    + intros x N. simpl in N. rewrite (B x) by tauto. rewrite bfind_bput.
      destruct (beq_spec d x) as [->|]; [tauto | reflexivity].
    + intros Sd. apply C. apply bput_sorted. exact Sd.
    + intros Hm. apply D. intros q Iq. apply bput_in in Iq. destruct Iq as [->|Iq]; [exact Hn | apply Hm; exact Iq].
Qed.
Lemma drop_spec l : forall m m', drop l m = Some m' -> bsorted m -> NoDup l ->
  (forall d, In d l -> bfind d m <> None /\ bfind d m' = None) /\
  (forall d, ~ In d l -> bfind d m' = bfind d m) /\ bsorted m' /\ (forall p, In p m' -> In p m).
Proof.
  induction l as [|d l IH]; intros m m' H Sd ND; simpl in H.
  - injection H as <-. repeat split; auto; destruct H.
  - destruct (bfind d m) eqn:Ed; [|discriminate]. inversion ND as [|? ? N1 N2]; subst.
    destruct (IH _ _ H (bdel_sorted _ _ Sd) N2) as (A & B & C & D). repeat split; auto.
    + destruct H0 as [<-|I]; [congruence|]. destruct (A _ I) as (Q & _). rewrite bfind_bdel in Q by auto.
      destruct (beq d d0); congruence.
    + destruct H0 as [<-|I]; [|apply (A _ I)]. rewrite (B _ N1), bfind_bdel, beq_refl by auto. reflexivity.
    + intros x N. simpl in N. rewrite (B x), bfind_bdel by tauto.
      destruct (beq_spec d x) as [->|]; [tauto | reflexivity].
    + intros p I. eapply bdel_in. apply D. exact I.
Qed.

Definition good (s : state) : Prop := bsorted (coins s) /\ forall p, In p (coins s) -> 0 <= snd p <= 18.
Lemma inner_add_spec fresh l s s' : inner_add fresh l s = Some s' ->
  NoDup (map fst l) /\ own s' = own s /\ store fresh l (coins s) = Some (coins s').
Proof.
  unfold inner_add. intros H. unguard H G. unbind H as m E. injection H as <-.
  split; [apply bnodup_NoDup; exact G|]. split; reflexivity.
Qed.
Lemma step_good e sender m s s' o : step e sender m s = Some (s', o) -> good s -> good s'.
Proof.
  intros H (Sd & Dc). destruct m; simpl in H.
  - unguard H G. unbind H as s1 E. injection H as <- <-. destruct (inner_add_spec _ _ _ _ E) as (ND & _ & St).
    destruct (store_spec _ _ _ _ St ND) as (_ & _ & A & B). split; auto.
  - unguard H G. unbind H as s1 E. unguard H G2. injection H as <- <-. destruct (inner_add_spec _ _ _ _ E) as (ND & _ & St).
    destruct (store_spec _ _ _ _ St ND) as (_ & _ & A & B). split; auto.
  - unguard H G. unguard H G2. unbind H as m E. injection H as <- <-.
    destruct (drop_spec _ _ _ E Sd (bnodup_NoDup _ G2)) as (_ & _ & A & B). split; auto.
  - unbind H as o2 E. injection H as <- <-. split; auto.
Qed.
Lemma run_good l : forall s, good s -> good (run s l).
Proof.
  induction l as [|v l IH]; intros s G; simpl; auto. apply IH. unfold exec.
  destruct (step _ _ _ s) as [[s' o]|] eqn:E; auto. eapply step_good; eauto.
Qed.
Lemma good_init o : good (init o).
Proof. split; [constructor | intros p []]. Qed.

(** ** C48 *)

(** What each message does to the recorded decimals of every denom. Only the owner changes or removes
    a recorded denom; anybody registers a new one, attaching some of it. *)
Theorem c48_effect o l e sender m s' out :
  let s := run (init o) l in
  step e sender m s = Some (s', out) ->
  forall d, query_token d s' = query_token d s \/
    (sender = owner s /\
     ((exists c n, m = Add c /\ In (d, n) c /\ query_token d s' = Some n) \/
      (exists c, m = Remove c /\ In d c /\ query_token d s <> None /\ query_token d s' = None))) \/
    (exists c funds n v, m = Register c funds /\ In (d, n) c /\ In (d, v) funds /\
       query_token d s = None /\ query_token d s' = Some n).
Proof.
  intros s H d. assert (G : good s) by (apply run_good, good_init). clearbody s. destruct G as (Sd & _).
  unfold query_token. destruct m as [c|c funds|c|om]; simpl in H.
  - unguard H G. unbind H as s1 E. injection H as <- <-. destruct (inner_add_spec _ _ _ _ E) as (ND & _ & St).
    destruct (store_spec _ _ _ _ St ND) as (A & B & _). bools.
    destruct (in_dec (list_eq_dec Z.eq_dec) d (map fst c)) as [I|I]; [|left; auto].
    right. left. split; auto. left. apply in_map_iff in I. destruct I as ([d2 n] & <- & I).
    exists c, n. repeat split; auto. apply (A _ _ I).
  - unguard H G. unbind H as s1 E. unguard H G2. injection H as <- <-. destruct (inner_add_spec _ _ _ _ E) as (ND & _ & St).
    destruct (store_spec _ _ _ _ St ND) as (A & B & _).
    destruct (in_dec (list_eq_dec Z.eq_dec) d (map fst c)) as [I|I]; [|left; auto].
    right. right. apply in_map_iff in I. destruct I as ([d2 n] & E2 & I). simpl in E2. subst d2.
    rewrite forallb_forall in G. specialize (G _ I). apply bmem_In in G. simpl in G.
    apply in_map_iff in G. destruct G as ([d2 v] & E2 & I2). simpl in E2. subst d2.
    destruct (A _ _ I) as (_ & Q1 & Q2). exists c, funds, n, v. repeat split; auto.
  - unguard H G. unguard H G2. unbind H as m E. injection H as <- <-. bools.
    destruct (drop_spec _ _ _ E Sd (bnodup_NoDup _ G2)) as (A & B & _).
    destruct (in_dec (list_eq_dec Z.eq_dec) d c) as [I|I]; [|left; auto].
    right. left. split; auto. right. exists c. destruct (A _ I). repeat split; auto.
  - unbind H as o2 E. injection H as <- <-. auto.
Qed.
(** A registration returns everything sent with it, to the sender; no other message sends anything. *)
Theorem c48_refund e sender m s s' out : step e sender m s = Some (s', out) ->
  out = match m with Register _ funds => [(sender, funds)] | _ => [] end.
Proof.
  intros H. destruct m; simpl in H.
  - unguard H G. unbind H as s1 E. injection H as <- <-. reflexivity.
  - unguard H G. unbind H as s1 E. unguard H G2. injection H as <- <-. reflexivity.
  - unguard H G. unguard H G2. unbind H as m E. injection H as <- <-. reflexivity.
  - unbind H as o2 E. injection H as <- <-. reflexivity.
Qed.
(** Recorded decimals are at most 18 in every reachable state. *)
Theorem c48_range o l d n : query_token d (run (init o) l) = Some n -> 0 <= n <= 18.
Proof.
  intros H. destruct (run_good l _ (good_init o)) as (_ & D). apply bfind_in in H. apply (D _ H).
Qed.
(** Histories without the owner: what is recorded stays. *)
Theorem c48_permanent o l1 l2 d n :
  query_token d (run (init o) l1) = Some n ->
  (forall l3 v l4, l2 = l3 ++ v :: l4 -> ev_from v <> owner (run (init o) (l1 ++ l3))) ->
  query_token d (run (init o) (l1 ++ l2)) = Some n.
Proof.
  intros H. revert H. induction l2 as [|v l2 IH] using rev_ind; intros H N; [rewrite app_nil_r; exact H|].
  rewrite app_assoc. unfold run at 1. rewrite fold_left_app. simpl.
  change (fold_left exec (l1 ++ l2) (init o)) with (run (init o) (l1 ++ l2)).
  assert (P : query_token d (run (init o) (l1 ++ l2)) = Some n).
  { apply IH; auto. intros l3 w l4 E. apply (N l3 w (l4 ++ [v])). rewrite E, <- app_assoc. reflexivity. }
  specialize (N l2 v [] eq_refl). unfold exec.
  destruct (step _ _ _ _) as [[s' out]|] eqn:E; auto.
  destruct (c48_effect _ _ _ _ _ _ _ E d) as [->|[(Q & _)|(c & f & k & w & _ & _ & _ & Q & _)]]; [exact P | tauto | congruence].
Qed.
(** Anybody can register missing denoms by attaching some of each. *)
Theorem c48_open e sender s d n v :
  query_token d s = None -> 0 <= n <= 18 ->
  exists s', step e sender (Register [(d, n)] [(d, v)]) s = Some (s', [(sender, [(d, v)])]) /\
             query_token d s' = Some n.
Proof.
  intros H Hn. unfold query_token in H. unfold step, inner_add. cbn [map fst forallb bmem bnodup negb andb store].
  rewrite beq_refl. cbn [orb andb]. rewrite H.
  rewrite (proj2 (Z.leb_le 0 n)), (proj2 (Z.leb_le n MAX_DECIMALS)) by (unfold MAX_DECIMALS; lia). cbn [andb].
  eexists. split; [reflexivity|]. unfold query_token, set_coins. cbn [coins]. rewrite bfind_bput, beq_refl. reflexivity.
Qed.

(** ** C80: pages *)
Fixpoint walk (n : nat) (s : state) (limit : option Z) (start : option bytes) : list (bytes * Z) :=
  match n with
  | O => []
  | S n' =>
      match rev (query_tokens start limit s) with
      | [] => []
      | (d, _) :: _ => query_tokens start limit s ++ walk n' s limit (Some d)
      end
  end.
Lemma walk_rest s limit : bsorted (coins s) ->
  (match limit with Some l => 1 <= l | None => True end) ->
  forall n m1 r start, coins s = m1 ++ r ->
    (match start with Some d => after d (coins s) | None => coins s end) = r ->
    (length r < n)%nat -> walk n s limit start = r.
Proof.
  intros Sd Hl n. induction n as [|n IH]; intros m1 r start E Es Hn; [lia|]. cbn [walk].
  set (k := Z.to_nat (match limit with Some l => l | None => DEFAULT_LIMIT end)).
  assert (Er : query_tokens start limit s = firstn k r) by (unfold query_tokens; rewrite Es; reflexivity).
  rewrite Er. assert (Hk : (1 <= k)%nat) by (unfold k, DEFAULT_LIMIT; destruct limit; lia). clearbody k.
  destruct r as [|p r]; [destruct k; reflexivity|].
  destruct (rev (firstn k (p :: r))) as [|[k1 a] q] eqn:R.
  - destruct k; [lia|]. simpl in R. apply app_eq_nil in R. destruct R. discriminate.
  - assert (F : firstn k (p :: r) = rev q ++ [(k1, a)]).
    { rewrite <- (rev_involutive (firstn k (p :: r))), R. reflexivity. }
    set (rest := skipn k (p :: r)).
    assert (Ep : p :: r = rev q ++ (k1, a) :: rest).
    { rewrite <- (firstn_skipn k (p :: r)), F, <- app_assoc. reflexivity. }
    rewrite (IH (m1 ++ rev q ++ [(k1, a)]) rest (Some k1)).
    + rewrite F, Ep, <- app_assoc. reflexivity.
    + rewrite E, Ep, <- !app_assoc. reflexivity.
    + rewrite E, Ep, app_assoc in *. apply (after_app (m1 ++ rev q) rest (k1, a)). exact Sd.
    + assert (L : length (p :: r) = length (rev q ++ (k1, a) :: rest)) by congruence.
      rewrite app_length in L. simpl in L, Hn. lia.
Qed.
(** Requesting page after page, each starting after the last denom received, gives every recorded
    denom exactly once. *)
Theorem c80_paging o l limit :
  (match limit with Some l => 1 <= l | None => True end) ->
  let s := run (init o) l in
  let all := walk (S (length (coins s))) s limit None in
  NoDup (map fst all) /\ forall d n, query_token d s = Some n <-> In (d, n) all.
Proof.
  intros Hl s all. assert (Sd : bsorted (coins s)) by (apply (run_good l _ (good_init o))).
  assert (E : all = coins s).
  { unfold all. apply (walk_rest s limit Sd Hl _ []); auto. }
  rewrite E. clearbody s. clear - Sd. split.
  - induction Sd as [|p m S IH F]; simpl; constructor; auto. intros X. apply in_map_iff in X.
    destruct X as (q & Eq & Iq). rewrite Forall_forall in F. specialize (F _ Iq). unfold klt in F.
    rewrite Eq, blt_irrefl in F. discriminate.
  - intros d n. unfold query_token. split; [apply bfind_in | apply in_bfind; exact Sd].
Qed.
(** A page is as full as it can be: it holds as many of the denoms that come after the start as the limit allows, which is 50
    unless told otherwise. *)
Theorem c80_page start limit s : Z.of_nat (length (query_tokens start limit s)) =
  Z.min (match limit with Some l => Z.max 0 l | None => 50 end)
    (Z.of_nat (length (filter (fun p => match start with Some d => blt d (fst p) | None => true end) (coins s)))).
Proof.
  unfold query_tokens, DEFAULT_LIMIT. rewrite firstn_length, Nat2Z.inj_min.
  assert (E : match start with Some d => after d (coins s) | None => coins s end = filter (fun p => match start with Some d => blt d (fst p) | None => true end) (coins s)).
  { destruct start as [d|]; [reflexivity|]. induction (coins s) as [|p m IH]; [reflexivity|]. cbn [filter]. rewrite <- IH. reflexivity. }
  rewrite E. destruct limit as [l|]; lia.
Qed.


(** ** Concrete case: owner 1; 5 registers "b" and "a", cannot change "a"; the owner can. *)
Definition k_env : env := mkEnv 0 false.
Definition k_run : list event :=
  [mkEv k_env 5 (Register [([98], 6); ([97], 8)] [([97], 3); ([98], 1); ([99], 7)]);
   mkEv k_env 6 (Register [([97], 18)] [([97], 1)]);
   mkEv k_env 1 (Add [([100], 0); ([99], 18)])].
Example k_state :
  let s := run (init 1) k_run in
  coins s = [([97], 8); ([98], 6); ([99], 18); ([100], 0)] /\
  step k_env 6 (Register [([97], 18)] [([97], 1)]) s = None /\
  step k_env 6 (Add [([97], 18)]) s = None /\
  step k_env 6 (Register [([101], 19)] [([101], 1)]) s = None /\
  step k_env 6 (Register [([101], 6)] [([97], 1)]) s = None /\
  option_map (fun r => query_token [97] (fst r)) (step k_env 1 (Add [([97], 18)]) s) = Some (Some 18) /\
  option_map snd (step k_env 6 (Register [([101], 6)] [([97], 4); ([101], 1)]) s) = Some [(6, [([97], 4); ([101], 1)])] /\
  walk 5 s (Some 3) None = coins s /\ query_tokens (Some [97]) (Some 2) s = [([98], 6); ([99], 18)].
Proof. vm_compute. repeat split. Qed.
Example k_permanent :
  query_token [97] (run (init 1) (firstn 1 k_run)) = Some 8 /\
  (forall l3 v l4, [nth 1 k_run (mkEv k_env 6 (Add []))] = l3 ++ v :: l4 -> ev_from v <> owner (run (init 1) (firstn 1 k_run ++ l3))).
Proof.
  split; [reflexivity|]. intros l3 v l4 E. destruct l3 as [|w l3].
  - injection E as <- <-. vm_compute. discriminate.
  - injection E as _ E. destruct l3; discriminate.
Qed.

Print Assumptions c48_effect.
Print Assumptions c48_refund.
Print Assumptions c48_range.
Print Assumptions c48_permanent.
Print Assumptions c48_open.
Print Assumptions c80_paging.
Print Assumptions c80_page.
