(** C150: larger and split offers in the pair with sale tax. *)
From Coq Require Import ZArith Lia Bool List.
From Verif Require Import Num Ledger SnapshotModel SaleTaxModel SaleTaxProps.
From Verif Require XykModel XykSpec XykProofs XykProps XykSplitProps.
Import ListNotations.
Open Scope Z_scope.

(** What a message paid as tax. *)
Definition collected (o : out) : Z := match taxed o with Some (_, v) => v | None => 0 end.
(** Swaps of [l] in a row by anyone, at any times, all carried out; tax collected in total. *)
Inductive sold (one : bool) : state -> list Z -> state -> Z -> Prop :=
| sold_nil s : sold one s [] s 0
| sold_cons e b ms s a s1 o l s2 t : XykSpec.env_ok e -> step e (Swap one a b ms) s = Some (s1, o) -> sold one s1 l s2 t ->
    sold one s (a :: l) s2 (collected o + t).
Definition total (l : list Z) : Z := fold_right Z.add 0 l.

(** ** Proofs *)
Lemma swap_collected e s one a b ms s' o : reachable s -> XykSpec.env_ok e -> step e (Swap one a b ms) s = Some (s', o) -> 0 < a /\ collected o = owed (tax_of s one) a.
Proof.
  intros R He H. destruct (c49_tax _ _ _ _ _ _ _ _ R He H) as (so & _ & T). cbv zeta in T. destruct T as (_ & _ & N & S & _).
  split. { cbn [step] in H. unguard H G. apply Z.ltb_lt in G. exact G. }
  unfold collected. destruct (taxed o) as [[u v]|]; [exact (proj1 (S u v eq_refl))|symmetry; exact (N eq_refl)].
Qed.
Lemma swap_keeps e s one a b ms s' o : step e (Swap one a b ms) s = Some (s', o) -> tax0 s' = tax0 s /\ tax1 s' = tax1 s.
Proof.
  intros H. cbn [step] in H. unguard H G. unfold swap in H. cbv zeta in H. unbind H as z Z0. unbind H as [[[[ret sp] cm] net] tx] C.
  unbind H as g Gg. unbind H as u A. unbind H as mk M. unbind H as no NO. unbind H as k1 K1. unbind H as na NA.
  unbind H as [[pc0 pc1] pt] Pp. destruct (XykModel.track_save _ _ _ _) in H. injection H as <- _. split; reflexivity.
Qed.
Lemma reachable_step e m s s' o : reachable s -> XykSpec.env_ok e -> step e m s = Some (s', o) -> reachable s'.
Proof.
  intros (tr & n0 & n1 & c & a & s0 & l & I & Ok & ->) He H. exists tr, n0, n1, c, a, s0, (l ++ [(e, m)]). split; [exact I|]. split.
  - unfold envs_ok. apply Forall_app. split; [exact Ok|]. constructor; [exact He|constructor].
  - unfold run. rewrite fold_left_app. cbn [fold_left]. unfold exec at 1. fold (run s0 l). cbn [fst snd]. rewrite H. reflexivity.
Qed.
Lemma owed_add t a b : rate_ok t -> 0 <= a -> 0 <= b -> owed t a + owed t b <= owed t (a + b) <= owed t a + owed t b + 1.
Proof.
  intros Rt Ha Hb. destruct t as [t|]; cbn [owed]; [|lia]. rewrite Z.mul_add_distr_r.
  pose proof (Z.mul_div_le (a * rate t) DEC eq_refl). pose proof (Z.mul_succ_div_gt (a * rate t) DEC eq_refl).
  pose proof (Z.mul_div_le (b * rate t) DEC eq_refl). pose proof (Z.mul_succ_div_gt (b * rate t) DEC eq_refl).
  set (p := a * rate t) in *. set (q := b * rate t) in *. set (x := p / DEC) in *. set (y := q / DEC) in *. clearbody p q x y.
  assert (HQ : DEC = 1000000000000000000) by reflexivity. split.
  - apply Z.div_le_lower_bound; lia.
  - apply Z.lt_succ_r. apply Z.div_lt_upper_bound; lia.
Qed.
Lemma rates s one : reachable s -> rate_ok (tax_of s one).
Proof. intros R. destruct (reachable_good _ R) as (A & B & _). destruct one; assumption. Qed.
Lemma sold_owed one s l s' t : sold one s l s' t -> reachable s -> (0 <= total l /\ 0 <= t) /\ t <= owed (tax_of s one) (total l) /\
  (l <> [] -> owed (tax_of s one) (total l) <= t + Z.of_nat (length l) - 1).
Proof.
  intros H. induction H as [s|e b ms s a s1 o l s2 t He H _ IH]; intros R.
  - cbn. split; [lia|]. split; [destruct (tax_of s one); cbn; lia|congruence].
  - destruct (swap_collected _ _ _ _ _ _ _ _ R He H) as (A & ->). destruct (IH (reachable_step _ _ _ _ _ R He H)) as ((T & T0) & U & V).
    destruct (swap_keeps _ _ _ _ _ _ _ _ H) as (K0 & K1). assert (K : tax_of s1 one = tax_of s one) by (unfold tax_of; rewrite K0, K1; reflexivity). rewrite K in *.
    cbn [total fold_right]. fold (total l). pose proof (owed_add _ a (total l) (rates s one R) ltac:(lia) T) as W. destruct (owed_bound _ a (rates s one R) ltac:(lia)) as (W0 & _). split; [lia|]. split; [lia|]. intros _.
    destruct l as [|a2 l2]; [|specialize (V ltac:(discriminate)); cbn [length] in *; lia].
    cbn [total fold_right length] in *. rewrite Z.add_0_r in *. assert (owed (tax_of s one) 0 = 0) by (destruct (tax_of s one); reflexivity). lia.
Qed.

(** ** C150 *)

(** Whoever offers more gets no less. *)
Theorem c150_more e s one a a' ret sp cm ret' sp' cm' : reachable s -> XykSpec.env_ok e -> 0 < a <= a' ->
  query_simulation e s one a = Some (ret, sp, cm) -> query_simulation e s one a' = Some (ret', sp', cm') -> ret <= ret' /\ cm <= cm'.
Proof.
  intros R He Ha H H'. assert (P : forall v r p c, query_simulation e s one v = Some (r, p, c) -> XykModel.query_simulation e (base s) one (v - owed (tax_of s one) v) = Some (r, p, c)).
  { intros v r p c Q. unfold query_simulation in Q. unbind Q as [[[[r1 p1] c1] n1] t1] E. injection Q as -> -> ->. unfold compute_swap in E. unbind E as tx E1. unbind E as net E2. unbind E as [[r2 p2] c2] E3.
    injection E as <- <- <- _ _. apply sub128_Some in E2. destruct E2 as (-> & _). assert (tx = owed (tax_of s one) v).
    { unfold owed. destruct (tax_of s one) as [t|]; [apply umul_Some in E1; exact (proj1 E1)|injection E1 as <-; reflexivity]. } subst tx. exact E3. }
  apply P in H, H'. pose proof (rates s one R) as Rt. destruct (owed_bound _ a Rt ltac:(lia)) as (B1 & B2). 
  assert (M : a - owed (tax_of s one) a <= a' - owed (tax_of s one) a').
  { unfold owed. destruct (tax_of s one) as [t|]; [|lia]. cbn [rate_ok] in Rt. apply (XykSplitProps.net_up (rate t) a a'); [unfold DEC; lia|lia]. }
  apply (XykSplitProps.c148_more e (base s) one _ _ _ _ _ _ _ _ (c87_plain_pair _ R) He (conj (ltac:(lia) : 0 < a - owed (tax_of s one) a) M) H H').
Qed.
Print Assumptions c150_more.

(** Selling in pieces: the tax is no more than that on the whole, and less by at most one unit for every piece but one. *)
Theorem c150_split e b ms one s l s' t s1 o : reachable s -> XykSpec.env_ok e -> l <> [] -> sold one s l s' t ->
  step e (Swap one (total l) b ms) s = Some (s1, o) -> t <= collected o <= t + Z.of_nat (length l) - 1.
Proof.
  intros R He Nl H H1. destruct (sold_owed _ _ _ _ _ H R) as (_ & U & V). specialize (V Nl). rewrite (proj2 (swap_collected _ _ _ _ _ _ _ _ R He H1)). lia.
Qed.
Print Assumptions c150_split.

(** Pieces worth less than one unit of tax pay none. *)
Theorem c150_free e b ms one s a s' o : reachable s -> XykSpec.env_ok e -> step e (Swap one a b ms) s = Some (s', o) ->
  (forall t, tax_of s one = Some t -> a * rate t < 10 ^ 18) -> taxed o = None.
Proof.
  intros R He H F. destruct (swap_collected _ _ _ _ _ _ _ _ R He H) as (A & C). destruct (c49_tax _ _ _ _ _ _ _ _ R He H) as (so & _ & T). cbv zeta in T. destruct T as (_ & _ & _ & S & _).
  cbn [step] in H. unguard H G. destruct (swap_plain _ _ _ _ _ _ _ _ (reachable_good _ R) H) as (_ & _ & _ & T). rewrite T.
  destruct (tax_of s one) as [t|] eqn:Et; [|reflexivity]. pose proof (rates s one R) as Rt. rewrite Et in Rt. cbn [rate_ok] in Rt. specialize (F t eq_refl). change (10 ^ 18) with DEC in F.
  assert (Z0 : owed (Some t) a = 0). { cbn [owed]. apply Z.div_small. split; [apply Z.mul_nonneg_nonneg; lia|exact F]. } rewrite Z0. reflexivity.
Qed.
Print Assumptions c150_free.

(** So the tax can be avoided: 38 units in two pieces at 5 per cent. *)
Theorem c150_avoided_refuted : exists e s one l s' s1 o, reachable s /\ XykSpec.env_ok e /\ sold one s l s' 0 /\
  step e (Swap one (total l) None (Some 500000000000000000)) s = Some (s1, o) /\ 0 < collected o.
Proof.
  destruct (step (k_env 200 20) (Swap false 19 None (Some 500000000000000000)) k_pool) as [[s1 o1]|] eqn:E1; [|vm_compute in E1; discriminate].
  destruct (step (k_env 200 20) (Swap false 19 None (Some 500000000000000000)) s1) as [[s2 o2]|] eqn:E2; [|vm_compute in E1; injection E1 as <- <-; vm_compute in E2; discriminate].
  destruct (step (k_env 200 20) (Swap false 38 None (Some 500000000000000000)) k_pool) as [[s3 o3]|] eqn:E3; [|vm_compute in E3; discriminate].
  exists (k_env 200 20), k_pool, false, [19; 19], s2, s3, o3. split; [apply k_reachable|]. split; [apply k_env_ok|]. split.
  - assert (C1 : collected o1 = 0) by (vm_compute in E1; injection E1 as _ <-; reflexivity).
    assert (C2 : collected o2 = 0) by (vm_compute in E1; injection E1 as <- _; vm_compute in E2; injection E2 as _ <-; reflexivity).
    replace 0 with (collected o1 + (collected o2 + 0)) by lia. eapply sold_cons; [apply (k_env_ok 200 20)|exact E1|]. eapply sold_cons; [apply (k_env_ok 200 20)|exact E2|]. constructor.
  - split; [exact E3|]. vm_compute in E3. injection E3 as _ <-. reflexivity.
Qed.
Print Assumptions c150_avoided_refuted.

(** ** Case: a million units and half of it. *)
Example c150_example : query_simulation (k_env 200 20) k_pool false 500000 = Some (946700, 452, 2848) /\ query_simulation (k_env 200 20) k_pool false 1000000 = Some (1892502, 1804, 5694) /\
  option_map (fun x => collected (snd x)) (step (k_env 200 20) (Swap false 1000000 None None) k_pool) = Some 50000.
Proof. split; [vm_compute; reflexivity|]. split; vm_compute; reflexivity. Qed.
