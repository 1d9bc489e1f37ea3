(** Lemmas about the transmuter. *)
From Coq Require Import ZArith Lia Bool List.
From Verif Require Import Num Ledger TransmuterModel TransmuterSpec.
From Verif Require Amap.
Import ListNotations.
Open Scope Z_scope.

Lemma coef_unit c d k : coef c d = Some k -> unit_value c d = k.
Proof.
  unfold coef. induction c as [|[e x] c IH]; simpl; [discriminate|].
  destruct (e =? d); [congruence|auto].
Qed.
Lemma unit_absent c d : ~ In d (map fst c) -> unit_value c d = 0.
Proof.
  induction c as [|[e x] c IH]; simpl; auto. intros H.
  destruct (Z.eqb_spec e d); [tauto|]. apply IH. tauto.
Qed.
Lemma in_pool_In c d : in_pool c d = true <-> In d (map fst c).
Proof.
  unfold in_pool. rewrite existsb_exists, in_map_iff. split; intros (p & A & B); exists p.
  - split; auto. apply Z.eqb_eq in B. auto.
  - split; auto. apply Z.eqb_eq. auto.
Qed.

Lemma unique_NoDup l : unique l = true -> NoDup l.
Proof.
  induction l as [|x l IH]; simpl; intros H; [constructor|]. bools. constructor; auto.
  intros Hin. assert (existsb (Z.eqb x) l = true); [|congruence].
  apply existsb_exists. exists x. rewrite Z.eqb_refl. auto.
Qed.

Definition cfg_ok (c : config) : Prop := NoDup (map fst c) /\ Forall (fun p => 0 < snd p) c.

Lemma unit_nonneg c d : cfg_ok c -> 0 <= unit_value c d.
Proof.
  intros [_ F]. induction F as [|[e k] c H F IH]; simpl in *; [lia|]. destruct (e =? d); lia.
Qed.
Lemma coef_pos c d k : cfg_ok c -> coef c d = Some k -> 0 < k.
Proof.
  intros [_ F] H. apply Amap.find_in in H. rewrite Forall_forall in F. exact (F _ H).
Qed.

Lemma reserves_absent c b d v : ~ In d (map fst c) -> reserves c (set b d v) = reserves c b.
Proof.
  induction c as [|[e k] c IH]; simpl; auto. intros H. rewrite IH by tauto.
  rewrite get_set_other by (intro; subst; tauto). auto.
Qed.
Lemma reserves_set c b d v : NoDup (map fst c) ->
  reserves c (set b d v) = reserves c b + unit_value c d * (v - get b d).
Proof.
  induction c as [|[e k] c IH]; simpl; intros N; [lia|]. inversion N; subst.
  destruct (Z.eqb_spec e d).
  - subst. rewrite get_set_same, reserves_absent by auto. lia.
  - rewrite get_set_other by auto. rewrite IH by auto. lia.
Qed.
Lemma reserves_credit c l : NoDup (map fst c) ->
  forall b, reserves c (credit b l) = reserves c b + worth c l.
Proof.
  intros N. induction l as [|[d a] l IH]; simpl; intros b; [lia|]. rewrite IH, reserves_set by auto. lia.
Qed.
Lemma reserves_debit c l : NoDup (map fst c) ->
  forall b p, debit b l = Some p -> reserves c p = reserves c b - worth c l.
Proof.
  intros N. induction l as [|[d a] l IH]; simpl; intros b p H; [injection H as <-; lia|].
  unbind H as v Ev. num_inv. apply IH in H. rewrite H, reserves_set by auto. lia.
Qed.
Lemma nonneg_credit l : Forall (fun a => 0 <= snd a) l -> forall b, nonneg b -> nonneg (credit b l).
Proof.
  induction 1 as [|[d a] l H F IH]; simpl in *; intros b Hb; auto. apply IH.
  apply nonneg_set; auto. pose proof (nonneg_get _ d Hb). lia.
Qed.
Lemma nonneg_debit l : forall b p, nonneg b -> debit b l = Some p -> nonneg p.
Proof.
  induction l as [|[d a] l IH]; simpl; intros b p Hb H; [congruence|].
  unbind H as v Ev. num_inv. apply IH in H; auto. apply nonneg_set; auto.
Qed.

Lemma reserves_nonneg c b : cfg_ok c -> nonneg b -> 0 <= reserves c b.
Proof.
  intros [_ F] Hb. induction F as [|[e k] c H F IH]; simpl in *; [lia|].
  pose proof (nonneg_get _ e Hb). nia.
Qed.
Lemma worth_nonneg c l : cfg_ok c -> Forall (fun a => 0 <= snd a) l -> 0 <= worth c l.
Proof.
  intros K F. induction F as [|[d a] l H F IH]; simpl in *; [lia|].
  pose proof (unit_nonneg c d K). nia.
Qed.

(** ** Provide *)
Lemma funds_nonneg funds : funds_ok funds = true -> Forall (fun f => 0 <= snd f) funds.
Proof.
  intros H. unfold funds_ok in H. bools. apply Forall_forall. intros f Hf.
  rewrite forallb_forall in H0. apply H0 in Hf. bools. lia.
Qed.
Lemma normalize_eq c a n : normalize c a = Some n -> n = unit_value c (fst a) * snd a.
Proof.
  unfold normalize. intros H. unbind H as k Ek. num_inv. apply coef_unit in Ek. subst. lia.
Qed.
Lemma sum_norm_eq c l : forall acc r, sum_norm c l acc = Some r -> r = acc + worth c l.
Proof.
  induction l as [|a l IH]; simpl; intros acc r H; [injection H as <-; lia|].
  unbind H as n En. unbind H as acc' Ea. apply normalize_eq in En. num_inv. apply IH in H. lia.
Qed.
Lemma worth_le_funds c ds : cfg_ok c -> NoDup ds -> forall funds, Forall (fun f => 0 <= snd f) funds ->
  fold_right (fun d acc => unit_value c d * get funds d + acc) 0 ds <= worth c funds.
Proof.
  intros K N funds F. induction F as [|[e x] r Hx F IH]; simpl in *.
  - clear. induction ds; simpl; lia.
  - assert (G : forall l, NoDup l ->
      fold_right (fun d acc => unit_value c d * (if e =? d then x else get r d) + acc) 0 l
      <= (if existsb (Z.eqb e) l then unit_value c e * x else 0) +
         fold_right (fun d acc => unit_value c d * get r d + acc) 0 l).
    { clear IH N. induction l as [|d l IHl]; simpl; intros Nl; [lia|]. inversion Nl; subst.
      specialize (IHl H2). pose proof (unit_nonneg c e K). pose proof (nonneg_get r d F).
      pose proof (unit_nonneg c d K).
      destruct (Z.eqb_spec e d); simpl.
      - subst. assert (existsb (Z.eqb d) l = false) as E.
        { destruct (existsb (Z.eqb d) l) eqn:Q; auto. apply existsb_exists in Q.
          destruct Q as (y & A & B). apply Z.eqb_eq in B. subst. tauto. }
        rewrite E in IHl. nia.
      - lia. }
    specialize (G ds N). pose proof (unit_nonneg c e K).
    destruct (existsb (Z.eqb e) ds); nia.
Qed.
Lemma assets_match c assets funds :
  forallb (fun a => in_pool c (fst a) && (sent funds (fst a) =? snd a)) assets = true ->
  worth c assets = fold_right (fun d acc => unit_value c d * get funds d + acc) 0 (map fst assets).
Proof.
  induction assets as [|[d a] l IH]; simpl; intros H; auto. unfold sent in *. bools.
  rewrite IH by auto. lia.
Qed.
Lemma provide_share_eq c assets funds share : cfg_ok c -> funds_ok funds = true ->
  provide_share c assets funds = Some share -> share = worth c assets /\ 0 <= share <= worth c funds.
Proof.
  intros K Fo H. pose proof (funds_nonneg _ Fo) as F. unfold provide_share in H. unguard H Eu. unguard H Ec. apply sum_norm_eq in H.
  unfold coins_ok, funds_ok in *. bools.
  pose proof (assets_match _ _ _ ltac:(eassumption)) as M.
  pose proof (worth_le_funds c (map fst assets) K (unique_NoDup _ Eu) funds F).
  split; [lia|]. rewrite H, Z.add_0_l. split; [|lia].
  apply worth_nonneg; auto. apply Forall_forall. intros f Hf.
  match goal with X : forallb (fun a => in_pool c (fst a) && _) _ = true |- _ =>
    rewrite forallb_forall in X; apply X in Hf; unfold sent in Hf; bools end.
  pose proof (nonneg_get funds (fst f) F). lia.
Qed.
Lemma worth_eq_funds c ds funds : NoDup ds -> NoDup (map fst funds) ->
  (forall f, In f funds -> In (fst f) ds) ->
  fold_right (fun d acc => unit_value c d * get funds d + acc) 0 ds = worth c funds.
Proof.
  intros N. induction funds as [|[e x] r IH]; simpl; intros Nf Hin.
  - clear. induction ds; simpl; lia.
  - inversion Nf; subst. rewrite <- IH; auto.
    assert (Z0 : get r e = 0).
    { clear - H1. induction r as [|[a b] r IHr]; simpl in *; auto.
      destruct (Z.eqb_spec a e); [tauto|]. apply IHr. tauto. }
    assert (G : forall l, NoDup l ->
      fold_right (fun d acc => unit_value c d * (if e =? d then x else get r d) + acc) 0 l
      = (if existsb (Z.eqb e) l then unit_value c e * x else 0) +
         fold_right (fun d acc => unit_value c d * get r d + acc) 0 l).
    { clear - Z0. induction l as [|d l IHl]; simpl; intros Nl; [lia|]. inversion Nl; subst.
      specialize (IHl H2).
      destruct (Z.eqb_spec e d); simpl.
      - subst. assert (existsb (Z.eqb d) l = false) as E.
        { destruct (existsb (Z.eqb d) l) eqn:Q; auto. apply existsb_exists in Q.
          destruct Q as (y & A & B). apply Z.eqb_eq in B. subst. tauto. }
        rewrite E in IHl. rewrite Z0. lia.
      - lia. }
    rewrite (G ds N).
    assert (E : existsb (Z.eqb e) ds = true).
    { apply existsb_exists. exists e. split; [|apply Z.eqb_refl]. apply (Hin (e, x)). auto. }
    rewrite E. lia.
Qed.

(** ** Withdraw *)
Lemma share_in_eq b ratio : forall c l, share_in c b ratio = Some l ->
  l = map (fun p => (fst p, get b (fst p) * ratio / DEC)) c.
Proof.
  clear. induction c as [|[d k] c IH]; simpl; intros l H; [injection H as <-; auto|].
  unbind H as a Ea. unbind H as l' El. injection H as <-. num_inv. rewrite (IH l'); auto.
Qed.
Lemma worth_shares c b ratio amt sup : cfg_ok c -> nonneg b -> 0 < sup -> 0 <= ratio ->
  ratio * sup <= amt * DEC ->
  worth c (map (fun p => (fst p, get b (fst p) * ratio / DEC)) c) * sup <= reserves c b * amt.
Proof.
  intros K Hb Hs Hr Ha.
  assert (Main : forall l, Forall (fun p => 0 < snd p /\ unit_value c (fst p) = snd p) l ->
    worth c (map (fun p => (fst p, get b (fst p) * ratio / DEC)) l) * sup
    <= fold_right (fun p acc => snd p * get b (fst p) + acc) 0 l * amt).
  { induction 1 as [|[d k] l [Hk Hu] F IH]; simpl in *; [lia|].
    rewrite Hu. pose proof (nonneg_get b d Hb) as G.
    assert (Q : get b d * ratio / DEC * sup <= get b d * amt).
    { pose proof (div_mul_le (get b d * ratio) DEC DEC_pos) as D.
      pose proof DEC_pos. set (q := get b d * ratio / DEC) in *.
      apply (Z.mul_le_mono_pos_l _ _ DEC); [lia|].
      assert (DEC * q * sup <= get b d * ratio * sup) by nia. nia. }
    nia. }
  apply Main. destruct K as [N F]. clear - N F.
  assert (G : forall pre l, NoDup (map fst (pre ++ l)) -> Forall (fun p => 0 < snd p) l ->
     Forall (fun p => 0 < snd p /\ unit_value (pre ++ l) (fst p) = snd p) l).
  { intros pre l. revert pre. induction l as [|[d k] l IH]; intros pre N' F'; constructor.
    - inversion F'; subst. split; auto. simpl. rewrite map_app in N'. apply NoDup_remove_2 in N'.
      clear - N'. induction pre as [|[e x] pre IH]; simpl in *; [rewrite Z.eqb_refl; auto|].
      destruct (Z.eqb_spec e d); [tauto|]. apply IH. tauto.
    - inversion F'; subst. specialize (IH (pre ++ [(d, k)])). rewrite <- app_assoc in IH. simpl in IH. auto. }
  apply (G []); auto.
Qed.
Lemma required_eq c b l : forall acc r, required c b l acc = Some r -> r = acc + worth c l.
Proof.
  induction l as [|a l IH]; simpl; intros acc r H; [injection H as <-; lia|].
  unguard H Ei. unbind H as x Ex. unbind H as n En. unbind H as acc' Ea.
  apply normalize_eq in En. num_inv. apply IH in H. lia.
Qed.

Record inv (s : state) : Prop := mkInv
  { i_cfg : cfg_ok (cfg s); i_pools : nonneg (pools s); i_lp : nonneg (lp s);
    i_back : total (lp s) <= reserves (cfg s) (pools s) }.

(** Burned and paid: balanced or imbalanced. *)
Lemma withdraw_spec s amount assets burned outs : inv s -> 0 < amount <= total (lp s) ->
  Forall (fun a => 0 <= snd a) assets ->
  withdraw s amount assets = Some (burned, outs) ->
  0 <= burned <= amount /\ Forall (fun a => 0 <= snd a) outs /\
  worth (cfg s) outs * total (lp s) <= reserves (cfg s) (pools s) * burned /\
  (assets <> [] -> outs = assets /\ burned = worth (cfg s) assets).
Proof.
  intros I Ha Fa H. destruct I as [K P L B]. unfold withdraw in H. destruct assets as [|a0 l0].
  - unbind H as l El. injection H as <- <-. unfold get_share_in_assets in El. unbind El as ratio Er.
    apply share_in_eq in El. num_inv.
    assert (R0 : 0 <= amount * DEC / total (lp s)) by lia.
    split; [lia|]. split; [|split; [|congruence]].
    + apply Forall_forall. intros x Hx. apply in_map_iff in Hx. destruct Hx as (p & <- & _). simpl.
      apply div_nonneg; [|reflexivity]. apply Z.mul_nonneg_nonneg; auto. apply nonneg_get; auto.
    + apply worth_shares; auto; try lia.
      pose proof (div_mul_le (amount * DEC) (total (lp s)) ltac:(lia)). lia.
  - remember (a0 :: l0) as assets. unbind H as req Er. unbind H as un Eu. injection H as <- <-.
    apply required_eq in Er. num_inv. rewrite Z.add_0_l in *.
    pose proof (worth_nonneg _ _ K Fa). split; [lia|]. split; [auto|]. split; [|auto]. nia.
Qed.

(** ** Swap *)
Lemma coef_in_pool c d k : coef c d = Some k -> in_pool c d = true.
Proof. intros H. apply in_pool_In. apply Amap.find_in in H. apply in_map_iff. exists (d, k). auto. Qed.
Lemma swap_out_spec c b offer ask ad a : cfg_ok c -> 0 <= snd offer -> swap_out c b offer ask = Some (ad, a) ->
  0 <= a /\ in_pool c ad = true /\ in_pool c (fst offer) = true /\ 0 < unit_value c ad /\
  unit_value c ad * a <= unit_value c (fst offer) * snd offer < unit_value c ad * (a + 1) /\
  a <= get b ad /\
  a = unit_value c (fst offer) * snd offer / unit_value c ad.
Proof.
  intros K Ho H. unfold swap_out in H. unbind H as n En. unbind H as d Ed. unguard H Ei. unbind H as x Ex.
  unguard H Eg. injection H as -> ->. bools.
  assert (Io : in_pool c (fst offer) = true).
  { unfold normalize in En. unbind En as k Ek. eapply coef_in_pool; eauto. }
  apply normalize_eq in En. unfold denormalize in Ex. unbind Ex as k Ek. unguard Ex Ez. injection Ex as <-.
  pose proof (coef_pos _ _ _ K Ek). apply coef_unit in Ek. rewrite Ek. rewrite <- En.
  pose proof (unit_nonneg c (fst offer) K).
  assert (0 <= n) by nia.
  pose proof (div_mul_le n k ltac:(lia)). pose proof (div_mul_gt n k ltac:(lia)).
  pose proof (div_nonneg n k ltac:(lia) ltac:(lia)).
  repeat split; auto; lia.
Qed.


Lemma step_cfg m s s' outs : step m s = Some (s', outs) -> cfg s' = cfg s.
Proof.
  intros H. destruct m; simpl in H.
  - unguard H E1. unbind H as sh Es. injection H as <- <-. auto.
  - unguard H E1. unguard H E2. unbind H as [bu ou] Ew. unbind H as p Ep. injection H as <- <-. auto.
  - unguard H E1. unbind H as o Eo. destruct o. unbind H as v Ev. injection H as <- <-. auto.
  - unguard H E1. injection H as <- <-. auto.
  - unguard H E1. injection H as <- <-. auto.
Qed.

(** Worth moves exactly with the coins. *)
Lemma step_worth m s s' outs : inv s -> step m s = Some (s', outs) ->
  reserves (cfg s) (pools s') = reserves (cfg s) (pools s) + worth (cfg s) (brought m) - worth (cfg s) outs.
Proof.
  intros [K P L B] H. destruct K as [N F]. destruct m.
  - simpl in H. unguard H E1. unbind H as sh Es. injection H as <- <-. cbn [pools brought].
    rewrite reserves_credit by auto. simpl. lia.
  - simpl in H. unguard H E1. unguard H E2. unbind H as [bu ou] Ew. unbind H as p Ep. injection H as <- <-.
    cbn [pools brought]. rewrite (reserves_debit _ _ N _ _ Ep). simpl. lia.
  - cbn [step] in H. unguard H E1. unbind H as o Eo. unbind H as p Ep.
    injection H as <- <-. cbn [pools brought].
    rewrite (reserves_debit _ _ N _ _ Ep), reserves_credit by auto. lia.
  - simpl in H. unguard H E1. injection H as <- <-. cbn [pools brought].
    rewrite reserves_credit by auto. simpl. lia.
  - simpl in H. unguard H E1. injection H as <- <-. simpl. lia.
Qed.

Lemma step_inv m s s' outs : inv s -> step m s = Some (s', outs) -> inv s'.
Proof.
  intros I H. pose proof (step_worth _ _ _ _ I H) as Wt. pose proof (step_cfg _ _ _ _ H) as C.
  pose proof I as I0. destruct I as [K P L B]. destruct m.
  - simpl in H. unguard H E1. unbind H as sh Es. injection H as <- <-. cbn [pools lp cfg brought] in *.
    apply provide_share_eq in Es; auto. destruct Es as [E2 E3].
    constructor; cbn [pools lp cfg]; auto.
    + apply nonneg_credit; auto. apply funds_nonneg; auto.
    + apply nonneg_set; auto. pose proof (nonneg_get _ receiver L). lia.
    + rewrite Wt, total_set. simpl. lia.
  - simpl in H. unguard H E1. unguard H E2. unbind H as [bu ou] Ew. unbind H as p Ep. injection H as <- <-.
    cbn [pools lp cfg brought] in *. bools.
    assert (Fa : Forall (fun a => 0 <= snd a) assets).
    { apply Forall_forall. intros a Ha. rewrite forallb_forall in E2. apply E2 in Ha. bools. lia. }
    pose proof (get_le_total _ sender L).
    apply withdraw_spec in Ew; auto; [|lia]. destruct Ew as (W1 & W2 & W3 & _).
    constructor; cbn [pools lp cfg]; auto.
    + eapply nonneg_debit; [|exact Ep]; auto.
    + apply nonneg_set; auto. lia.
    + rewrite Wt, total_set. simpl.
      assert (0 < total (lp s)) by lia.
      set (R := reserves (cfg s) (pools s)) in *. set (T := total (lp s)) in *. set (w := worth (cfg s) ou) in *.
      assert ((T - bu) * T <= (R - w) * T) by nia. nia.
  - cbn [step] in H. unguard H E1. unbind H as [ad a] Eo. unbind H as p Ep.
    injection H as <- <-. bools. cbn [pools lp cfg brought] in *.
    apply swap_out_spec in Eo; auto; [|lia]. destruct Eo as (A1 & _ & _ & _ & A2 & _).
    constructor; cbn [pools lp cfg]; auto.
    + eapply nonneg_debit; [|exact Ep]. apply nonneg_credit; auto. constructor; auto. lia.
    + rewrite Wt. destruct offer as [od oa]. simpl in *. lia.
  - simpl in H. unguard H E1. injection H as <- <-. cbn [pools lp cfg brought] in *.
    constructor; cbn [pools lp cfg]; auto.
    + apply nonneg_credit; auto. apply funds_nonneg; auto.
    + rewrite Wt. pose proof (worth_nonneg _ _ K (funds_nonneg _ E1)). simpl. lia.
  - simpl in H. unguard H E1. injection H as <- <-. bools. constructor; simpl; auto.
    + apply nonneg_move; auto.
    + rewrite total_move. auto.
Qed.
Lemma run_inv l : forall s, inv s -> inv (run s l).
Proof.
  induction l as [|m l IH]; simpl; intros s I; auto. apply IH. unfold exec.
  destruct (step m s) as [[s' o]|] eqn:E; auto. eapply step_inv; eauto.
Qed.
Lemma flows_eq l : forall s, inv s ->
  reserves (cfg s) (pools (run s l)) =
  reserves (cfg s) (pools s) + fst (flows s l) - snd (flows s l).
Proof.
  induction l as [|m l IH]; simpl; intros s I; [lia|]. unfold exec.
  destruct (step m s) as [[s' o]|] eqn:E; [|auto].
  pose proof (step_inv _ _ _ _ I E) as I'. specialize (IH s' I').
  pose proof (step_worth _ _ _ _ I E). rewrite (step_cfg _ _ _ _ E) in IH.
  destruct (flows s' l) as [i ou]. simpl in *. lia.
Qed.

Lemma new_config_ok decs c : (forall p, In p decs -> 0 <= snd p) -> new_config decs = Some c -> cfg_ok c.
Proof.
  intros Hd H. unfold new_config in H. unguard H E1. unguard H E2. unbind H as x Ex. injection H as <-.
  clear Ex. split.
  - rewrite map_map. simpl. apply unique_NoDup in E2. auto.
  - apply Forall_forall. intros p Hp. apply in_map_iff in Hp. destruct Hp as (q & <- & Hq). simpl.
    set (mx := fold_right (fun p a => Z.max (snd p) a) 0 decs).
    assert (M : snd q <= mx).
    { unfold mx. clear - Hq. induction decs as [|r decs IH]; simpl in *; [tauto|].
      destruct Hq as [->|Hq]; [lia|]. specialize (IH Hq). lia. }
    specialize (Hd q Hq).
    apply Z.div_str_pos. split; [apply Z.pow_pos_nonneg; lia|].
    apply Z.pow_le_mono_r; lia.
Qed.
Lemma init_inv decs s : (forall p, In p decs -> 0 <= snd p) -> init decs = Some s -> inv s.
Proof.
  intros Hd H. unfold init in H. unbind H as c Ec. injection H as <-.
  apply new_config_ok in Ec; auto. constructor; simpl; auto; try constructor.
  clear Ec. induction c as [|[d k] c IH]; simpl in *; lia.
Qed.
