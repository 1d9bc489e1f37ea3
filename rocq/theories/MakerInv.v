(** Invariants of histories of the maker. *)
From Coq Require Import ZArith Lia Bool List.
From Verif Require Import Num Ledger Amap MakerModel MakerSpec MakerProofs.
From Verif Require OwnershipModel.
Import ListNotations.
Open Scope Z_scope.

(** What each message does to the configuration. *)
Lemma step_config e sender m s s' os :
  step e sender m s = Some (s', os) ->
  reward_step e (cfg s) (cfg s') /\
  (same_setup (cfg s) (cfg s') \/ (sender = owner s /\ exists u, m = UpdateConfig u)) /\
  (own (cfg s') = own (cfg s) \/ exists x, m = Own x) /\
  lastcol s' = (match m with Collect _ => now e | _ => lastcol s end) /\
  (bridges s' = bridges s \/ (sender = owner s /\ exists a r, m = UpdateBridges a r)) /\
  ((seize_to s' = seize_to s /\ seizable s' = seizable s) \/
   (sender = owner s /\ exists a r, m = UpdateSeize a r)).
Proof.
  assert (R0 : forall s0, reward_step e (cfg s0) (cfg s0)) by (left; auto).
  intros H. destruct m; simpl in H.
  - destruct (collect_reward _ _ _ _ _ H) as (A & B & C & D & E & G & I). repeat split; auto.
  - unfold silent in H. unbind H as s2 E. injection H as <- <-.
    destruct (update_config_reward _ _ _ _ _ E) as (A & B & C & _ & _ & D1 & D2 & _ & D3 & D4 & _).
    repeat split; auto. right. eauto.
  - unfold silent in H. unbind H as s2 E. injection H as <- <-.
    destruct (update_bridges_spec _ _ _ _ _ _ E) as (A & -> & _). cbn. repeat split; auto.
    + left. apply same_setup_refl.
    + right. eauto.
  - unguard H G. destruct bs as [|b bs].
    + injection H as <- <-. repeat split; auto. left. apply same_setup_refl.
    + destruct (bridge_spec _ _ _ _ _ _ _ H) as (k & pre & o1 & o2 & A & B & _).
      apply swaps_rest in A. apply distribute_reward in B. rewrite A in B.
      cbn [cfg set_bal lastcol bridges seize_to seizable] in B. destruct B as (B1 & B2 & B3 & B4 & B5 & B6 & B7).
      repeat split; auto.
  - unguard H G. apply distribute_reward in H. destruct H as (B1 & B2 & B3 & B4 & B5 & B6 & B7).
    repeat split; auto.
  - unfold silent in H. unbind H as s2 E. injection H as <- <-. unbind E as o E1. injection E as <-.
    cbn. repeat split; auto; try (left; repeat split; fail). right. eauto.
  - unfold silent in H. unbind H as s2 E. injection H as <- <-.
    destruct (enable_reward _ _ _ _ _ E) as (A & B & C & D & _ & _ & _ & _ & _ & _ & X).
    rewrite X. cbn. repeat split; auto.
  - apply seize_spec in H. destruct H as (_ & (_ & _ & ->) & _). cbn. repeat split; auto. left. apply same_setup_refl.
  - unguard H G. bools. injection H as <- <-. cbn. repeat split; auto.
    + left. apply same_setup_refl.
    + right. eauto.
  - unfold silent in H. unbind H as s2 E. injection H as <- <-. unguard E G. unbind E as n E1.
    injection E as <-. cbn. repeat split; auto. left. apply same_setup_refl.
Qed.

(** ** The pre-upgrade reward *)

Definition inv_pre (s : state) : Prop := enabled (cfg s) = false -> remainder (cfg s) = preamt (cfg s).
Lemma exec_pre v s : inv_pre s -> inv_pre (exec s v).
Proof.
  unfold exec. destruct (step _ _ _ s) as [[s' os]|] eqn:E; auto.
  intros I. destruct (step_config _ _ _ _ _ _ E) as (R & _). unfold inv_pre in *. intros En.
  destruct R as [(A & B & _ & _ & D)|[(_ & _ & A & _)|[(_ & A & _)|(_ & A & _)]]]; try congruence.
  rewrite A, B. apply I. congruence.
Qed.
Lemma run_pre l : forall s, inv_pre s -> inv_pre (run s l).
Proof. induction l as [|v l IH]; intros s I; simpl; auto. apply IH, exec_pre, I. Qed.

(** [h0]: height of enabling, [A]: the reward then, [B]: the number of blocks. *)
Definition inv_post (h0 A B : Z) (s : state) : Prop :=
  enabled (cfg s) = true /\ preamt (cfg s) = A /\ pblocks (cfg s) = B /\ h0 <= lastblk (cfg s) /\
  remainder (cfg s) = Z.max 0 (A - A / B * (lastblk (cfg s) - h0)).
Lemma step_post h0 A B e sender m s s' os :
  0 <= A -> 0 < B -> inv_post h0 A B s -> step e sender m s = Some (s', os) -> inv_post h0 A B s'.
Proof.
  intros HA HB (I1 & I2 & I3 & I4 & I5) H. destruct (step_config _ _ _ _ _ _ H) as (R & _).
  unfold inv_post. destruct R as [(R1 & R2 & R3 & R4 & R5)|[(X & _)|[(X & _)|(_ & R1 & R2 & R3 & R4 & R5 & R6)]]]; try congruence.
  - rewrite R1, R2, R3, R4, R5. auto.
  - rewrite R1, R2, R3, R5, R6, I2, I3, I5. repeat split; auto; try lia.
    pose proof (Z.div_pos A B HA HB). nia.
Qed.
Lemma run_post h0 A B l : forall s, 0 <= A -> 0 < B -> inv_post h0 A B s -> inv_post h0 A B (run s l).
Proof.
  induction l as [|v l IH]; intros s HA HB I; simpl; auto. apply IH; auto.
  unfold exec. destruct (step _ _ _ s) as [[s' os]|] eqn:E; auto. eapply step_post; eauto.
Qed.

(** ** The reserve is backed *)

Definition backed (s : state) : Prop := 0 <= remainder (cfg s) <= holds s (ASTRO s).
Definition inv_res (a : Z) (s : state) : Prop :=
  nonneg (bal s) /\ backed s /\ staking (cfg s) <> None /\ find a (bridges s) = None /\ ASTRO s = a.

Lemma distribute_res a e k s s' os :
  sane e -> inv_res a s -> distribute e k s = Some (s', os) ->
  inv_res a s' /\
  (enabled (cfg s) = true -> remainder (cfg s) = 0 \/ lastblk (cfg s) < height e ->
   holds s' a = remainder (cfg s')).
Proof.
  intros Sn (I1 & I2 & I3 & I4 & I5) H.
  destruct (staking (cfg s)) as [st|] eqn:ST; [|congruence].
  destruct (distribute_parts _ _ _ _ _ _ H Sn ST) as (c & am & E0 & (b & Eb) & A & B & C & _).
  destruct (distribute_reward _ _ _ _ _ H) as (R1 & R2 & R3 & R4 & R5 & R6 & R7).
  destruct (distribute_F _ _ _ _ _ H) as (c2 & (_ & NN & _) & _).
  destruct (distributable_spec _ _ _ _ E0) as (K & X).
  assert (Ec : cfg s' = c) by (rewrite Eb; reflexivity).
  assert (Ea : ASTRO s' = a) by (unfold ASTRO in *; rewrite Ec; destruct K as (_ & _ & _ & _ & _ & -> & _); exact I5).
  specialize (A a). unfold ASTRO in I5. rewrite I5 in B, C. rewrite B, C in A.
  unfold backed, ASTRO in I2. rewrite I5 in I2. rewrite I5 in X. unfold holds in I2, A.
  assert (H0 : 0 <= get (bal s) a) by (apply nonneg_get; auto).
  assert (Bk : backed s').
  { unfold backed, holds. rewrite Ea, Ec. destruct am as [y|].
    - destruct X as (_ & _ & _ & [(-> & R & ->)|(_ & _ & _ & _ & X1 & X2 & -> & X3)]); lia.
    - destruct X as [(-> & _)|(_ & -> & _)]; lia. }
  split.
  { unfold inv_res. rewrite R5, Ec. repeat split; auto; try apply Bk.
    destruct K as (-> & _). congruence. }
  intros En D. unfold holds. rewrite A, Ec. destruct am as [y|].
  - destruct X as (_ & _ & _ & [(-> & R & ->)|(_ & _ & _ & _ & X1 & X2 & -> & X3)]); lia.
  - destruct X as [(-> & [X|(X1 & X2 & X3)])|(X & _)]; [lia | lia | congruence].
Qed.

Lemma swaps_res a s os s' :
  inv_res a s -> swaps s os s' -> spent a os = 0 -> inv_res a s'.
Proof.
  intros (I1 & I2 & I3 & I4 & I5) ((A & B & C) & _ & G & _) S. unfold inv_res, backed, holds, ASTRO in *.
  rewrite C. cbn [set_bal bal cfg bridges]. repeat split; auto; try lia.
  rewrite A. rewrite I5 in *. specialize (G a). lia.
Qed.

Lemma collect_res a e l s s' os :
  sane e -> inv_res a s -> collect e l s = Some (s', os) ->
  inv_res a s' /\
  (enabled (cfg s) = true -> remainder (cfg s) = 0 \/ lastblk (cfg s) < height e ->
   holds s' a = remainder (cfg s')).
Proof.
  intros Sn I H. destruct (collect_spec _ _ _ _ _ H) as (_ & k & pre & o1 & o2 & A & B & _ & D).
  assert (I0 : inv_res a (mkState (cfg s) (now e) (bridges s) (seize_to s) (seizable s) (bal s))) by exact I.
  assert (Hs : spent a o1 = 0).
  { destruct I as (_ & _ & _ & I4 & I5). unfold ASTRO in I5. rewrite <- I5. apply D; auto. rewrite I5. exact I4. }
  pose proof (swaps_res _ _ _ _ I0 A Hs) as Ip.
  destruct (distribute_res _ _ _ _ _ _ Sn Ip B) as (J1 & J2). split; auto.
  apply swaps_rest in A. rewrite A in J2. exact J2.
Qed.

Lemma gained_paid a to l : gained a (map (fun p : Z * Z => Paid (fst p) to (snd p)) l) = 0.
Proof. induction l; simpl; auto. Qed.
Lemma spent_seize a to b l : ~ In a (map fst l) ->
  spent a (map (fun p : Z * Z => Paid (fst p) to (snd p)) (seize_plan b l)) = 0.
Proof.
  induction l as [|[x lim] l IH]; intros N; simpl; auto. simpl in N.
  destruct (_ =? 0); [tauto|]. simpl. destruct (Z.eqb_spec a x); [subst; tauto|]. rewrite IH; tauto.
Qed.

Lemma step_res a e sender m s s' os :
  sane e -> keeps_astro a m -> inv_res a s -> sender <> self e ->
  step e sender m s = Some (s', os) -> inv_res a s'.
Proof.
  intros Sn Kp I Ns H.
  assert (I0 := I). destruct I0 as (I1 & I2 & I3 & I4 & I5).
  destruct m; simpl in H, Kp.
  - eapply collect_res; eauto.
  - unfold silent in H. unbind H as s2 E. injection H as <- <-.
    destruct (update_config_reward _ _ _ _ _ E) as (_ & R & _ & A1 & A2 & _ & A3 & A4 & _).
    unfold inv_res, backed, ASTRO, holds in *. rewrite A1, A3, A4 by auto. repeat split; auto; try lia;
    destruct R as [(R1 & _)|[(X & Y & Z & T)|[(X & Y & Z & _)|(X & Y & Z & W & V & U & Q)]]];
      try (rewrite R1; lia); try (rewrite Z; lia); try (rewrite Q; lia);
      unfold update_config in E; cbv zeta in E;
      repeat (match type of E with (if ?b then _ else None) = Some _ => destruct b; [|discriminate E] end);
      injection E as <-; cbn [cfg set_cfg remainder] in *; lia.
  - unfold silent in H. unbind H as s2 E. injection H as <- <-.
    destruct (update_bridges_spec _ _ _ _ _ _ E) as (_ & A & B). specialize (B a Kp I4).
    rewrite A. unfold inv_res, backed, ASTRO, holds in *. cbn. repeat split; auto; lia.
  - unguard H G. bools. congruence.
  - unguard H G. bools. congruence.
  - unfold silent in H. unbind H as s2 E. injection H as <- <-. unbind E as o E1. injection E as <-.
    exact I.
  - unfold silent in H. unbind H as s2 E. injection H as <- <-.
    unfold enable in E. cbv zeta in E. unguard E G0. unguard E G1. unguard E G2. injection E as <-. exact I.
  - destruct (seize_spec _ _ _ _ _ H) as (_ & (A & B & C) & _ & O).
    assert (X : spent a os = 0 /\ gained a os = 0).
    { destruct O as [->|(to & _ & ->)]; [split; reflexivity|].
      split; [apply spent_seize; auto | apply gained_paid]. }
    unfold inv_res, backed, ASTRO, holds in *. rewrite C. cbn. repeat split; auto; try lia.
    rewrite A. rewrite I5 in *. lia.
  - unguard H G. injection H as <- <-. exact I.
  - unfold silent in H. unbind H as s2 E. injection H as <- <-. unguard E G. unbind E as n E1.
    injection E as <-. num_inv. bools. unfold inv_res, backed, ASTRO, holds in *.
    cbn [set_bal bal cfg bridges]. assert (0 <= get (bal s) a0) by (apply nonneg_get; auto).
    repeat split; auto; try lia.
    + apply nonneg_set; auto; lia.
    + destruct (Z.eq_dec a0 (astro (cfg s))) as [->|N]; [rewrite get_set_same | rewrite get_set_other by auto]; lia.
Qed.

(** A history of messages from outside which keeps ASTRO in place. *)
Definition kept (a : Z) (l : list event) : Prop :=
  Forall (fun v => sane (ev_env v) /\ keeps_astro a (ev_msg v) /\ ev_from v <> self (ev_env v)) l.
Lemma run_res a l : forall s, kept a l -> inv_res a s -> inv_res a (run s l).
Proof.
  induction l as [|v l IH]; intros s K I; simpl; auto. inversion K as [|? ? (A & B & C) D]; subst. apply IH; auto.
  unfold exec. destruct (step _ _ _ s) as [[s' os]|] eqn:E; auto. eapply step_res; eauto.
Qed.

Lemma inst_res t i s : instantiate t i = Some s -> staking (cfg s) <> None -> inv_res (ASTRO s) s.
Proof.
  unfold instantiate. cbv zeta. intros H N. repeat (match type of H with (if ?b then _ else None) = Some _ => destruct b; [|discriminate H] end).
  injection H as <-. unfold inv_res, backed, holds, ASTRO. cbn in *. repeat split; auto; try lia. constructor.
Qed.
Lemma inst_pre t i s : instantiate t i = Some s -> inv_pre s /\ enabled (cfg s) = false /\ lastcol s = t.
Proof.
  unfold instantiate. cbv zeta. intros H. repeat (match type of H with (if ?b then _ else None) = Some _ => destruct b; [|discriminate H] end).
  injection H as <-. split; [intros _; reflexivity | split; reflexivity].
Qed.
Lemma inst_good t i s : instantiate t i = Some s -> good_config (cfg s).
Proof.
  unfold instantiate. cbv zeta. intros H. unguard H G0. unguard H G1. unguard H G2. unguard H G3.
  unguard H G4. unguard H G5. injection H as <-. unfold good_config. cbn. bools.
  unfold spread_ok, cooldown_ok, second_ok, MIN_COOLDOWN, MAX_COOLDOWN, MAX_CUT in *.
  split; [lia|]. split; [|split; [|split; [|split]]].
  - destruct (i_spread i); cbn; bools; [unfold MAX_SPREAD, DEFAULT_SPREAD in *; lia|]. split; [reflexivity | discriminate].
  - intros r k E. rewrite E in G4. bools. lia.
  - intros k E. rewrite E in G3. bools. lia.
  - discriminate.
  - intros E. rewrite E in *. bools. split; auto. destruct (i_gov i); congruence.
Qed.

(** ** Configuration *)
Lemma good_same c c' : same_setup c c' -> good_config c -> good_config c'.
Proof.
  intros (A1 & A2 & A3 & A4 & A5 & A6 & A7 & A8 & A9 & A10) (P1 & P2 & P3 & P4 & P5 & P6).
  unfold good_config. rewrite A1, A2, A3, A4, A5, A9, A10. auto 10.
Qed.
Lemma step_good e sender m s s' os :
  step e sender m s = Some (s', os) -> good_config (cfg s) -> good_config (cfg s').
Proof.
  intros H G. destruct (step_config _ _ _ _ _ _ H) as (_ & [S|(_ & u & ->)] & _).
  - eapply good_same; eauto.
  - simpl in H. unfold silent in H. unbind H as s2 E. injection H as <- <-.
    eapply update_config_reward; eauto.
Qed.
Lemma run_good l : forall s, good_config (cfg s) -> good_config (cfg (run s l)).
Proof.
  induction l as [|v l IH]; intros s G; simpl; auto. apply IH.
  unfold exec. destruct (step _ _ _ s) as [[s' os]|] eqn:E; auto. eapply step_good; eauto.
Qed.

(** ** Cooldown *)
Lemma step_cooldown e sender m s s' os :
  step e sender m s = Some (s', os) -> cooldown (cfg s) <> None -> cooldown (cfg s') <> None.
Proof.
  intros H G. destruct (step_config _ _ _ _ _ _ H) as (_ & [S|(_ & u & ->)] & _).
  - destruct S as (_ & _ & _ & _ & _ & _ & _ & _ & _ & ->). exact G.
  - simpl in H. unfold silent in H. unbind H as s2 E. injection H as <- <-.
    eapply update_config_reward; eauto.
Qed.
Lemma run_cooldown l : forall s, cooldown (cfg s) <> None -> cooldown (cfg (run s l)) <> None.
Proof.
  induction l as [|v l IH]; intros s G; simpl; auto. apply IH.
  unfold exec. destruct (step _ _ _ s) as [[s' os]|] eqn:E; auto. eapply step_cooldown; eauto.
Qed.
(** The time of the last collection does not go back and is one of the times seen. *)
Lemma run_lastcol l : forall s t h, lastcol s <= t -> clock t h l -> lastcol s <= lastcol (run s l) /\
  lastcol (run s l) <= fst (clock_end t h l).
Proof.
  induction l as [|v l IH]; intros s t h L C; simpl in *; [lia|].
  destruct C as (C1 & _ & C3).
  assert (X : lastcol s <= lastcol (exec s v) <= now (ev_env v)).
  { unfold exec. destruct (step _ _ _ s) as [[s' os]|] eqn:E; [|lia].
    destruct (step_config _ _ _ _ _ _ E) as (_ & _ & _ & -> & _). destruct (ev_msg v); lia. }
  destruct (IH (exec s v) _ _ (proj2 X) C3). lia.
Qed.
