(** Concentrated pair: parameters, amp/gamma ramps, fee rate, authority (C31, C32, C33). *)
From Coq Require Import ZArith Lia Bool List.
From Verif Require Import Num PclMath PclModel.
From Verif Require XykModel OwnershipModel.
Import ListNotations.
Open Scope Z_scope.

(** ** Specification *)

(** The documented ranges, in 1e-18 units. *)
Definition params_ok (p : params) : Prop :=
  50000000000000 <= mid_fee p <= 10000000000000000 /\
  50000000000000 <= out_fee p <= 10000000000000000 /\
  0 <= fee_gamma p <= 1000000000000000000 /\
  0 <= repeg p <= 10000000000000000 /\
  0 <= min_delta p <= 1000000000000000000 /\
  1 <= half_time p <= 604800.
Definition amp_ok (a : Z) : Prop := 10 ^ 17 <= a <= 10 ^ 23.
Definition gamma_ok (g : Z) : Prop := 10 ^ 10 <= g <= 2 * 10 ^ 16.

(** Block times do not decrease, starting from [t]. *)
Fixpoint timely (t : Z) (l : list (env * msg)) : Prop :=
  match l with [] => True | em :: l' => t <= now (fst em) /\ timely (now (fst em)) l' end.
Definition end_time (t : Z) (l : list (env * msg)) : Z := fold_left (fun _ em => now (fst em)) l t.

(** ** Lemmas *)

Lemma timely_end l : forall t, timely t l -> t <= end_time t l.
Proof.
  induction l as [|em l IH]; intros t; simpl; [lia|].
  intros (H1 & H2). apply IH in H2. unfold end_time in *. simpl in *. lia.
Qed.

Lemma validated_in o old lo hi v :
  validated o old lo hi = Some v -> (o = None /\ v = old) \/ (o = Some v /\ lo <= v <= hi).
Proof.
  unfold validated. destruct o as [w|].
  - intros H. unguard H E. injection H as <-. bools. right. split; [reflexivity | lia].
  - intros [= <-]. left. auto.
Qed.

Ltac vinv E := apply validated_in in E.

Lemma update_ok p u p' : params_ok p -> update_params p u = Some p' -> params_ok p'.
Proof.
  intros (A & B & C & D & F & G) H. unfold update_params in H.
  unbind H as m Em. unbind H as o Eo. unguard H Eg. unbind H as g E2. unbind H as r Er.
  unbind H as d Ed. unbind H as h Eh. injection H as <-.
  vinv Em; vinv Eo; vinv E2; vinv Er; vinv Ed; vinv Eh.
  unfold MIN_FEE, MAX_FEE, DEC, REPEG_MAX, MA_HALF_TIME_MAX in *.
  unfold params_ok; simpl.
  repeat match goal with H : _ \/ _ |- _ => destruct H as [(_ & ->) | (_ & H)] end;
  (split; [|split; [|split; [|split; [|split]]]]); lia.
Qed.

(** Interpolation of integers over whole seconds is exact up to one final floor. *)
Lemma interp_exact a b ls ps r : 0 < ls + ps -> 0 <= ls -> 0 <= ps -> 0 <= a -> 0 <= b ->
  interp a b (ls * DEC) (ps * DEC) ((ls + ps) * DEC) = Some r -> r = (a * ls + b * ps) / (ls + ps).
Proof.
  intros Hn Hl Hp Ha Hb H. unfold interp in H.
  unbind H as x Ex. unbind H as y Ey. unbind H as s Es.
  apply dmul_Some in Ex as (-> & _). apply dmul_Some in Ey as (-> & _).
  apply add128_Some in Es as (-> & _). apply ddiv_Some in H as (_ & -> & _).
  pose proof DEC_pos.
  replace (a * (ls * DEC) / DEC) with (a * ls)
    by (rewrite Z.mul_assoc, Z.div_mul by lia; reflexivity).
  replace (b * (ps * DEC) / DEC) with (b * ps)
    by (rewrite Z.mul_assoc, Z.div_mul by lia; reflexivity).
  rewrite Z.div_mul_cancel_r by lia. reflexivity.
Qed.
Lemma interp_None a b ls ps : 0 <= ls -> 0 <= ps -> 0 <= a -> 0 <= b ->
  U128MAX < a * ls + b * ps ->
  interp a b (ls * DEC) (ps * DEC) ((ls + ps) * DEC) = None.
Proof.
  intros Hl Hp Ha Hb H. unfold interp.
  destruct (dmul a (ls * DEC)) as [x|] eqn:Ex; [|reflexivity].
  destruct (dmul b (ps * DEC)) as [y|] eqn:Ey; [|reflexivity].
  apply dmul_Some in Ex as (-> & _). apply dmul_Some in Ey as (-> & _).
  pose proof DEC_pos.
  rewrite !Z.mul_assoc, !Z.div_mul by lia.
  destruct (add128 (a * ls) (b * ps)) as [s|] eqn:Es; [|reflexivity].
  apply add128_Some in Es. lia.
Qed.
Lemma interp_total a b ls ps : 0 < ls + ps -> 0 <= ls -> 0 <= ps -> 0 <= a -> 0 <= b ->
  a * ls + b * ps <= U128MAX ->
  exists r, interp a b (ls * DEC) (ps * DEC) ((ls + ps) * DEC) = Some r.
Proof.
  intros Hn Hl Hp Ha Hb H. unfold interp. pose proof DEC_pos.
  assert (0 <= a * ls) by nia. assert (0 <= b * ps) by nia.
  assert (E1 : dmul a (ls * DEC) = Some (a * ls)).
  { apply dmul_Some. rewrite Z.mul_assoc, Z.div_mul by lia. lia. }
  assert (E2 : dmul b (ps * DEC) = Some (b * ps)).
  { apply dmul_Some. rewrite Z.mul_assoc, Z.div_mul by lia. lia. }
  rewrite E1, E2. cbv iota beta.
  assert (E3 : add128 (a * ls) (b * ps) = Some (a * ls + b * ps)) by (apply add128_Some; lia).
  rewrite E3. cbv iota beta. eexists. apply ddiv_Some.
  split; [nia|]. split; [reflexivity|].
  rewrite Z.div_mul_cancel_r by lia. split; [apply Z.div_pos; lia|].
  apply Z.div_le_upper_bound; [lia|]. nia.
Qed.
Lemma mean_between a b ls ps lo hi : 0 < ls + ps -> 0 <= ls -> 0 <= ps ->
  lo <= a <= hi -> lo <= b <= hi -> lo <= (a * ls + b * ps) / (ls + ps) <= hi.
Proof.
  intros. split.
  - apply Z.div_le_lower_bound; nia.
  - apply Z.div_le_upper_bound; nia.
Qed.

(** The value announced for time [t], as a specification: linear interpolation, rounded down. *)
Definition linear (a b t0 t1 t : Z) : Z := (a * (t1 - t) + b * (t - t0)) / (t1 - t0).

Record rsane (r : ramp) : Prop := {
  s_ia : 0 <= i_amp r; s_ig : 0 <= i_gamma r; s_fa : 0 <= f_amp r; s_fg : 0 <= f_gamma r;
  s_it : 0 <= i_time r; s_ft : f_time r <= U64MAX }.

Lemma amp_gamma_shape r t : rsane r -> i_time r <= t < f_time r ->
  amp_gamma r t =
    (do a <- interp (i_amp r) (f_amp r) ((f_time r - t) * DEC) ((t - i_time r) * DEC)
               ((f_time r - t + (t - i_time r)) * DEC);
     do g <- interp (i_gamma r) (f_gamma r) ((f_time r - t) * DEC) ((t - i_time r) * DEC)
               ((f_time r - t + (t - i_time r)) * DEC);
     Some (a, g)).
Proof.
  intros [A B C D E F] H. unfold amp_gamma.
  replace (t <? f_time r) with true by (symmetry; apply Z.ltb_lt; lia).
  assert (K : forall z, 0 <= z <= U64MAX -> dratio z 1 = Some (z * DEC)).
  { intros z Hz. apply dratio_Some. rewrite Z.div_1_r. unfold U64MAX, U128MAX, DEC in *. lia. }
  assert (E1 : sub64 (f_time r) (i_time r) = Some (f_time r - i_time r)) by (apply sub64_Some; lia).
  assert (E2 : sub64 t (i_time r) = Some (t - i_time r)) by (apply sub64_Some; lia).
  rewrite E1. rewrite K by lia. rewrite E2. rewrite K by lia.
  assert (E3 : sub128 ((f_time r - i_time r) * DEC) ((t - i_time r) * DEC) = Some ((f_time r - t) * DEC)).
  { apply sub128_Some. unfold U128MAX, U64MAX, DEC in *. lia. }
  rewrite E3.
  replace (f_time r - t + (t - i_time r)) with (f_time r - i_time r) by lia.
  reflexivity.
Qed.

Lemma amp_gamma_before r t : t < i_time r -> t < f_time r -> amp_gamma r t = None.
Proof.
  intros H H'. unfold amp_gamma. replace (t <? f_time r) with true by (symmetry; apply Z.ltb_lt; lia).
  destruct (sub64 (f_time r) (i_time r)); [|reflexivity]. destruct (dratio z 1); [|reflexivity].
  destruct (sub64 t (i_time r)) eqn:E; [|reflexivity]. apply sub64_Some in E. lia.
Qed.

Lemma amp_gamma_linear r t a g : rsane r -> i_time r <= t < f_time r -> amp_gamma r t = Some (a, g) ->
  a = linear (i_amp r) (f_amp r) (i_time r) (f_time r) t /\
  g = linear (i_gamma r) (f_gamma r) (i_time r) (f_time r) t.
Proof.
  intros S H E. rewrite amp_gamma_shape in E by assumption. destruct S.
  unbind E as a' Ea. unbind E as g' Eg. injection E as <- <-.
  apply interp_exact in Ea; try lia. apply interp_exact in Eg; try lia.
  unfold linear. replace (f_time r - i_time r) with (f_time r - t + (t - i_time r)) by lia. split; assumption.
Qed.

(** State of the ramp at clock [c]. *)
Record rinv (r : ramp) (c : Z) : Prop := {
  v_f : amp_ok (f_amp r) /\ gamma_ok (f_gamma r);
  v_i : f_time r <= c \/ (amp_ok (i_amp r) /\ gamma_ok (i_gamma r));
  v_i0 : 0 <= i_amp r /\ 0 <= i_gamma r;
  v_t : 0 <= i_time r; v_t1 : i_time r <= c; v_t2 : f_time r <= U64MAX }.

Lemma rinv_sane r c : rinv r c -> rsane r.
Proof. intros [(A & B) _ (D & E) F _ G]. unfold amp_ok, gamma_ok in *. constructor; lia. Qed.
Lemma rinv_mono r c c' : c <= c' -> rinv r c -> rinv r c'.
Proof.
  intros H [A B C D E F]. constructor; try assumption; try lia.
  destruct B as [B|B]; [left; lia | right; exact B].
Qed.
Lemma rinv_value r c t a g : rinv r c -> c <= t -> amp_gamma r t = Some (a, g) -> amp_ok a /\ gamma_ok g.
Proof.
  intros I H E. pose proof (rinv_sane _ _ I) as S.
  destruct (Z_lt_le_dec t (f_time r)) as [L|L].
  - destruct I as [(F1 & F2) I1 _ _ I4 _]. destruct I1 as [I1|(I1 & I2)]; [lia|].
    apply amp_gamma_linear in E as (-> & ->); try assumption; try lia.
    unfold linear, amp_ok, gamma_ok in *.
    replace (f_time r - i_time r) with (f_time r - t + (t - i_time r)) by lia.
    split; apply mean_between; lia.
  - unfold amp_gamma in E. replace (t <? f_time r) with false in E by (symmetry; apply Z.ltb_ge; lia).
    injection E as <- <-. exact (v_f _ _ I).
Qed.

Lemma valid_ag a g : valid_amp_gamma a g = true -> amp_ok a /\ gamma_ok g.
Proof.
  unfold valid_amp_gamma, amp_ok, gamma_ok. intros H. bools.
  unfold AMP_MIN, AMP_MAX, GAMMA_MIN, GAMMA_MAX in *. lia.
Qed.

Lemma promote_inv r t a g t1 r' : promote r t a g t1 = Some r' ->
  exists ca cg, amp_gamma r t = Some (ca, cg) /\ r' = mkRamp ca cg a g t t1 /\
    amp_ok a /\ gamma_ok g /\ i_time r + 86400 <= t /\ t + 86400 <= t1 /\
    ca <> 0 /\ cg <> 0 /\
    Z.max ca a * DEC / Z.min ca a <= MAX_CHANGE /\ Z.max cg g * DEC / Z.min cg g <= MAX_CHANGE.
Proof.
  intros H. unfold promote in H.
  unbind H as u1 E1. unguard H G1. unbind H as u2 E2. unguard H G2. unguard H G3.
  unbind H as [ca cg] Ea. unbind H as qa Eqa. unguard H G4. unbind H as qg Eqg. unguard H G5.
  injection H as <-. apply add64_Some in E1 as (-> & _). apply add64_Some in E2 as (-> & _).
  apply ddiv_Some in Eqa as (N1 & -> & _). apply ddiv_Some in Eqg as (N2 & -> & _).
  apply valid_ag in G3 as (V1 & V2). bools. unfold MIN_AMP_CHANGING_TIME in *.
  unfold amp_ok, gamma_ok in *.
  exists ca, cg. split; [reflexivity|]. split; [reflexivity|].
  repeat (split; [solve [assumption | lia]|]). assumption.
Qed.

Lemma set_pools_keep s n0 n1 sup l ps c h ob pe :
  par (set_pools s n0 n1 sup l ps c h ob pe) = par s /\
  rmp (set_pools s n0 n1 sup l ps c h ob pe) = rmp s /\
  fshare (set_pools s n0 n1 sup l ps c h ob pe) = fshare s.
Proof. destruct c as [[? ?] ?]. auto. Qed.

(** What each message may do to the settings. *)
Lemma step_settings e m s s' o : step e m s = Some (s', o) ->
  (par s' = par s /\ rmp s' = rmp s /\ fshare s' = fshare s) \/
  (exists u, m = UpdateParams (eff_owner e s) u /\ update_params (par s) u = Some (par s') /\
             rmp s' = rmp s /\ fshare s' = fshare s) \/
  (exists a g t, m = Promote (eff_owner e s) a g t /\ 0 <= t <= U64MAX /\
             promote (rmp s) (now e) a g t = Some (rmp s') /\ par s' = par s /\ fshare s' = fshare s) \/
  (m = StopPromotion (eff_owner e s) /\ stop (rmp s) (now e) = Some (rmp s') /\ par s' = par s /\
             fshare s' = fshare s) \/
  (exists b, m = EnableFeeShare (eff_owner e s) b /\ fshare s' = Some b /\ 1 <= b <= 1000 /\
             par s' = par s /\ rmp s' = rmp s) \/
  (m = DisableFeeShare (eff_owner e s) /\ fshare s' = None /\ par s' = par s /\ rmp s' = rmp s).
Proof.
  intros H. destruct m; simpl in H.
  - left. unfold provide in H. step_inv H. injection H as <- _. apply set_pools_keep.
  - left. unfold withdraw in H. step_inv H. injection H as <- _. auto.
  - left. unguard H G. unfold swap in H. step_inv H. injection H as <- _. apply set_pools_keep.
  - right; left. unguard H G. unbind H as p E. injection H as <- _. bools. subst. exists u. auto.
  - right; right; left. unguard H G. unbind H as r E. injection H as <- _. bools. subst.
    match goal with F : fits _ _ = true |- _ => apply fits_iff in F end.
    exists a, g, t. auto.
  - right; right; right; left. unguard H G. unbind H as r E. injection H as <- _. bools. subst. auto.
  - right; right; right; right; left. unguard H G. injection H as <- _. bools. subst.
    unfold MAX_FEE_SHARE_BPS in *. exists bps. simpl. repeat split; lia.
  - right; right; right; right; right. unguard H G. injection H as <- _. bools. subst. auto.
  - left. unbind H as p E. injection H as <- _. auto.
  - left. unguard H G. unbind H as n E. injection H as <- _. auto.
  - left. unguard H G. injection H as <- _. auto.
Qed.

Lemma rinv_promote r c t a g t1 r' : rinv r c -> c <= t -> 0 <= t1 <= U64MAX ->
  promote r t a g t1 = Some r' -> rinv r' t.
Proof.
  intros I H Ht E. apply promote_inv in E as (ca & cg & Ea & -> & A & G & T1 & T2 & _).
  destruct (rinv_value _ _ _ _ _ I H Ea) as (VA & VG). destruct I.
  constructor; unfold amp_ok, gamma_ok in *; simpl; lia.
Qed.
Lemma rinv_stop r c t r' : rinv r c -> c <= t -> t <= U64MAX -> stop r t = Some r' -> rinv r' t.
Proof.
  intros I H Ht E. unfold stop in E. unbind E as [ca cg] Ea. injection E as <-.
  destruct (rinv_value _ _ _ _ _ I H Ea) as (VA & VG). destruct I.
  constructor; unfold amp_ok, gamma_ok in *; simpl; lia.
Qed.

Definition env_ok (e : env) : Prop := 0 <= now e <= U64MAX.

Lemma run_settings l : forall c s, params_ok (par s) -> rinv (rmp s) c -> timely c l ->
  Forall (fun em => env_ok (fst em)) l ->
  params_ok (par (run s l)) /\ rinv (rmp (run s l)) (end_time c l).
Proof.
  induction l as [|[e m] l IH]; intros c s P R T F; [split; assumption|].
  destruct T as (T1 & T2). inversion F as [|? ? F1 F2]; subst. cbn [fst] in *.
  change (run s ((e, m) :: l)) with (run (exec s (e, m)) l).
  change (end_time c ((e, m) :: l)) with (end_time (now e) l).
  apply IH; try assumption; unfold exec; cbn [fst snd].
  - destruct (step e m s) as [[s' o]|] eqn:E; [|exact P].
    destruct (step_settings _ _ _ _ _ E)
      as [(-> & _)|[(u & _ & U & _)|[(a & g & t & _ & _ & _ & -> & _)|[(_ & _ & -> & _)|[(b & _ & _ & _ & -> & _)|(_ & _ & -> & _)]]]]];
      try exact P.
    exact (update_ok _ _ _ P U).
  - destruct (step e m s) as [[s' o]|] eqn:E; [|exact (rinv_mono _ _ _ T1 R)].
    destruct (step_settings _ _ _ _ _ E)
      as [(_ & -> & _)|[(u & _ & _ & -> & _)|[(a & g & t & _ & B & U & _)|[(_ & U & _)|[(b & _ & _ & _ & _ & ->)|(_ & _ & _ & ->)]]]]];
      try exact (rinv_mono _ _ _ T1 R).
    + exact (rinv_promote _ _ _ _ _ _ _ R T1 B U).
    + apply (rinv_stop _ _ _ _ R T1); [|exact U]. unfold env_ok in F1. lia.
Qed.

Lemma instantiate_inv t h u am ga ps tr q0 q1 n0 n1 s : instantiate t h u am ga ps tr q0 q1 n0 n1 = Some s ->
  0 <= t <= U64MAX -> params_ok (par s) /\ rinv (rmp s) t /\ mid_fee (par s) < out_fee (par s).
Proof.
  intros H Ht. unfold instantiate in H. unguard H G1. unguard H G2. unbind H as p E. unguard H G3.
  injection H as <-. cbn [par rmp]. apply valid_ag in G3 as (V1 & V2).
  split; [|split].
  - unfold update_params in E.
    destruct (u_mid u) as [a1|], (u_out u) as [a2|], (u_fgamma u) as [a3|], (u_repeg u) as [a4|],
      (u_delta u) as [a5|], (u_half u) as [a6|]; try discriminate G2. clear G2.
    unbind E as m Em. unbind E as o Eo. unguard E Eg. unbind E as g E2. unbind E as r Er.
    unbind E as d Ed. unbind E as h' Eh. injection E as <-.
    vinv Em; vinv Eo; vinv E2; vinv Er; vinv Ed; vinv Eh.
    unfold MIN_FEE, MAX_FEE, DEC, REPEG_MAX, MA_HALF_TIME_MAX in *. unfold params_ok; simpl.
    repeat match goal with H : _ \/ _ |- _ => destruct H as [(K & _) | (_ & H)]; [discriminate K|] end.
    tauto.
  - constructor; simpl; try lia. split; assumption.
  - unfold update_params in E. destruct (u_out u) as [a2|]; [|destruct (u_mid u); discriminate G2].
    unbind E as m Em. unbind E as o Eo. unguard E Eg. unbind E as g E2. unbind E as r Er.
    unbind E as d Ed. unbind E as h' Eh. injection E as <-. simpl. bools. lia.
Qed.

(** ** Theorems *)

Section Deployed.
(** A deployed pair and a history in block-time order. *)
Context (t0 h : Z) (u : update) (am ga ps : Z) (tr : bool) (q0 q1 : Z) (n0 n1 : bool) (s : state).
Context (Hdep : instantiate t0 h u am ga ps tr q0 q1 n0 n1 = Some s) (Ht0 : 0 <= t0 <= U64MAX).
Context (l : list (env * msg)) (Hl : timely t0 l) (He : Forall (fun em => env_ok (fst em)) l).

(** C31: every stored parameter is in its range, always. *)
Theorem c31_params : params_ok (par (run s l)).
Proof.
  destruct (instantiate_inv _ _ _ _ _ _ _ _ _ _ _ _ Hdep Ht0) as (A & B & _).
  exact (proj1 (run_settings l t0 s A B Hl He)).
Qed.

(** C31: whatever amp and gamma the pool uses from now on are in their ranges, also in the middle of a ramp. *)
Theorem c31_amp_gamma : forall t a g, end_time t0 l <= t -> amp_gamma (rmp (run s l)) t = Some (a, g) ->
  amp_ok a /\ gamma_ok g.
Proof.
  destruct (instantiate_inv _ _ _ _ _ _ _ _ _ _ _ _ Hdep Ht0) as (A & B & _).
  intros t a g Ht E. exact (rinv_value _ _ _ _ _ (proj2 (run_settings l t0 s A B Hl He)) Ht E).
Qed.

(** C31: an accepted promotion starts from the present values, ends within a factor of ten of them (amp up to
    1e-13 relative rounding), lasts at least a day and starts at least a day after the previous one started; the values in
    between are on the line from the present to the announced ones, which are reached at the end. *)
Theorem c31_promotion : forall e who a g t s' o, end_time t0 l <= now e ->
  step e (Promote who a g t) (run s l) = Some (s', o) ->
  exists ca cg, amp_gamma (rmp (run s l)) (now e) = Some (ca, cg) /\
    now e + 86400 <= t /\ i_time (rmp (run s l)) + 86400 <= now e /\
    Z.max a ca * 10 ^ 18 < Z.min a ca * (10 ^ 19 + 1) /\ Z.max g cg <= 10 * Z.min g cg /\
    (forall t', t <= t' -> amp_gamma (rmp s') t' = Some (a, g)) /\
    (forall t' a' g', now e <= t' < t -> amp_gamma (rmp s') t' = Some (a', g') ->
       a' = linear ca a (now e) t t' /\ g' = linear cg g (now e) t t').
Proof.
  intros e who a g t s' o He' H.
  destruct (instantiate_inv _ _ _ _ _ _ _ _ _ _ _ _ Hdep Ht0) as (A & B & _).
  pose proof (proj2 (run_settings l t0 s A B Hl He)) as R.
  simpl in H. unguard H G. unbind H as r E. injection H as <- _. bools.
  match goal with F : fits _ _ = true |- _ => apply fits_iff in F; rename F into Ft end.
  apply promote_inv in E as (ca & cg & Ea & -> & Va & Vg & T1 & T2 & N1 & N2 & Q1 & Q2).
  destruct (rinv_value _ _ _ _ _ R He' Ea) as (VA & VG).
  exists ca, cg. split; [exact Ea|]. split; [exact T2|]. split; [exact T1|].
  unfold amp_ok, gamma_ok in *.
  assert (M1 : 0 < Z.min ca a) by lia. assert (M2 : 0 < Z.min cg g) by lia.
  apply div_le_iff in Q1; [|exact M1]. apply div_le_iff in Q2; [|exact M2].
  unfold DEC, MAX_CHANGE in Q1, Q2.
  split; [rewrite (Z.max_comm a), (Z.min_comm a); lia|].
  split; [rewrite (Z.max_comm g), (Z.min_comm g); lia|].
  cbn [rmp set_cfg].
  split.
  - intros t' Ht'. unfold amp_gamma. cbn [f_time f_amp f_gamma].
    replace (t' <? t) with false by (symmetry; apply Z.ltb_ge; lia). reflexivity.
  - intros t' a' g' Ht' E'.
    apply amp_gamma_linear in E'; cbn [i_amp i_gamma f_amp f_gamma i_time f_time] in *; try assumption.
    pose proof (v_t _ _ R). pose proof (timely_end l t0 Hl). constructor; simpl; lia.
Qed.

End Deployed.

(** C31: parameters, ramp and fee sharing change only by a message of the current owner (the factory's owner
    while the pair has none). *)
Theorem c31_authority : forall e m s s' o, step e m s = Some (s', o) ->
  (par s' <> par s \/ rmp s' <> rmp s \/ fshare s' <> fshare s) ->
  let who := match owner s with Some w => w | None => factory_owner e end in
  (exists u, m = UpdateParams who u) \/ (exists a g t, m = Promote who a g t) \/ m = StopPromotion who \/
  (exists b, m = EnableFeeShare who b /\ 1 <= b <= 1000) \/ m = DisableFeeShare who.
Proof.
  intros e m s s' o H N who. apply step_settings in H. change (eff_owner e s) with who in H.
  destruct H as [(A & B & C)|[(u & -> & _)|[(a & g & t & -> & _)|[(-> & _)|[(b & -> & _ & Hb & _)|(-> & _)]]]]].
  - destruct N as [N|[N|N]]; contradiction.
  - left. exists u. reflexivity.
  - right; left. exists a, g, t. reflexivity.
  - right; right; left. reflexivity.
  - right; right; right; left. exists b. auto.
  - right; right; right; right. reflexivity.
Qed.


(** C31: a new pair, and every update that sets out_fee, has mid_fee below out_fee. *)
Theorem c31_fee_order :
  (forall t h u am ga ps tr q0 q1 n0 n1 s, 0 <= t <= U64MAX ->
     instantiate t h u am ga ps tr q0 q1 n0 n1 = Some s -> mid_fee (par s) < out_fee (par s)) /\
  (forall e who u s s' o, step e (UpdateParams who u) s = Some (s', o) -> u_out u <> None ->
     mid_fee (par s') < out_fee (par s')).
Proof.
  split.
  - intros. exact (proj2 (proj2 (instantiate_inv _ _ _ _ _ _ _ _ _ _ _ _ H0 H))).
  - intros e who u s s' o H N. simpl in H. unguard H G. unbind H as p E. injection H as <- _. cbn [par set_cfg].
    unfold update_params in E. destruct (u_out u) as [a2|]; [|contradiction].
    unbind E as m Em. unbind E as o' Eo. unguard E Eg. unbind E as g E2. unbind E as r Er.
    unbind E as d Ed. unbind E as h' Eh. injection E as <-. simpl. bools. lia.
Qed.

(** A standard pool used by the examples: 6-digit native assets, amp 40, gamma 0.000145. *)
Definition std (fg : Z) : update :=
  mkUpdate (Some 2600000000000000) (Some 4500000000000000) (Some fg) (Some 2000000000000)
    (Some 146000000000000) (Some 600).
Definition pool0 (fg scale_ : Z) : option state :=
  instantiate 1000 1 (std fg) (40 * DEC) 145000000000000 scale_ true 6 6 true true.
Definition no_fees : XykModel.fee_info := XykModel.mkFees 0 0 false.
Definition at_ (t : Z) : env := mkEnv t t no_fees 7 true.

(** C31: an update that only raises mid_fee is accepted above out_fee. *)
Theorem c31_fee_order_refuted : exists s e s' o, pool0 230000000000000 (2 * DEC) = Some s /\
  step e (UpdateParams 7 (mkUpdate (Some 9000000000000000) None None None None None)) s = Some (s', o) /\
  out_fee (par s') < mid_fee (par s').
Proof.
  destruct (pool0 230000000000000 (2 * DEC)) as [s|] eqn:E; [|vm_compute in E; discriminate E].
  vm_compute in E. injection E as <-.
  eexists. exists (at_ 2000). do 2 eexists. split; [reflexivity|]. split; vm_compute; reflexivity.
Qed.

(** ** C32: fee rate *)

Theorem c32_between : forall p x0 x1 f, 0 <= mid_fee p <= out_fee p -> fee p x0 x1 = Some f ->
  mid_fee p - 1 <= f <= out_fee p.
Proof.
  intros p x0 x1 f H E. unfold fee in E.
  unbind E as sum E1. unbind E as m E2. unbind E as n E3. unbind E as s2 E4. unbind E as k0 E5.
  unbind E as a E6. unbind E as b E7. unbind E as k1 E8. unbind E as u1 E9. unbind E as r E10.
  unbind E as u2 E11. apply add256_Some in E as (-> & _).
  apply sub256_Some in E10 as (-> & K & _). apply dmul256_Some in E9 as (-> & _).
  apply dmul256_Some in E11 as (-> & _). apply ddiv256_Some in E8 as (_ & K2 & K1). rewrite <- K2 in K1.
  remember (if k1 <=? FEE_TOL then 0 else k1) as k eqn:Ek.
  assert (0 <= k) by (rewrite Ek; destruct (k1 <=? FEE_TOL); lia).
  pose proof DEC_pos as D.
  divb (k * mid_fee p) DEC A. divb ((DEC - k) * out_fee p) DEC B.
  assert (k * mid_fee p + (DEC - k) * out_fee p <= DEC * out_fee p) by nia.
  assert (DEC * mid_fee p <= k * mid_fee p + (DEC - k) * out_fee p) by nia.
  split; nia.
Qed.

(** The lower bound is attained: rounding can take the rate one unit (1e-18) below mid_fee. *)
Theorem c32_refuted : exists p x0 x1, params_ok p /\ mid_fee p < out_fee p /\ fee p x0 x1 = Some (mid_fee p - 1).
Proof.
  exists (mkParams 2600000000000000 4500000000000000 1000000000000000000 2000000000000 146000000000000 600),
    DEC, (DEC + 10 ^ 9).
  split; [unfold params_ok; simpl; lia|]. split; vm_compute; reflexivity.
Qed.

(** 4xy <= (x+y)^2 also after the roundings of the code. *)
Lemma am_gm x0 x1 : 0 <= x0 -> 0 <= x1 -> 4 * (x0 * x1 / DEC) <= (x0 + x1) * (x0 + x1) / DEC.
Proof.
  intros. pose proof DEC_pos. apply Z.div_le_lower_bound; [lia|].
  divb (x0 * x1) DEC q. pose proof (Z.square_nonneg (x0 - x1)). nia.
Qed.

(** The rate exists for all volumes between 1e-9 and 1e29 whenever fee_gamma is positive. *)
Theorem c32_defined : forall p x0 x1, params_ok p -> 0 < fee_gamma p -> 0 <= x0 -> 0 <= x1 ->
  10 ^ 9 <= x0 + x1 <= 10 ^ 47 -> exists f, fee p x0 x1 = Some f.
Proof.
  intros p x0 x1 (Hm & Ho & Hg & _) G A B S. unfold fee. pose proof DEC_pos as D.
  assert (E1 : add256 x0 x1 = Some (x0 + x1)) by (apply add256_Some; unfold U256MAX; lia).
  rewrite E1. cbv iota beta.
  assert (P : 0 <= x0 * x1) by nia.
  assert (P4 : 4 * (x0 * x1) <= (x0 + x1) * (x0 + x1)) by (pose proof (Z.square_nonneg (x0 - x1)); nia).
  assert (Q : (x0 + x1) * (x0 + x1) <= 10 ^ 94) by (change (10 ^ 94) with (10 ^ 47 * 10 ^ 47); nia).
  assert (Qd : (x0 + x1) * (x0 + x1) / DEC <= 10 ^ 76).
  { apply Z.div_le_upper_bound; [lia|]. change (DEC * 10 ^ 76) with (10 ^ 94). exact Q. }
  assert (Ql : 1 <= (x0 + x1) * (x0 + x1) / DEC).
  { apply Z.div_le_lower_bound; [lia|]. change (DEC * 1) with (10 ^ 9 * 10 ^ 9). nia. }
  pose proof (am_gm x0 x1 A B) as AG.
  pose proof (div_nonneg (x0 * x1) DEC P D) as Pd.
  assert (U : 10 ^ 76 <= U256MAX) by (unfold U256MAX; lia).
  remember (x0 * x1 / DEC) as m. remember ((x0 + x1) * (x0 + x1) / DEC) as s2.
  assert (E2 : dmul256 x0 x1 = Some m) by (apply dmul256_Some; lia).
  rewrite E2. cbv iota beta.
  assert (F4 : m * FOUR_D / DEC = 4 * m).
  { change FOUR_D with (4 * DEC). rewrite Z.mul_assoc, Z.div_mul by lia. lia. }
  assert (E3 : dmul256 m FOUR_D = Some (4 * m)) by (apply dmul256_Some; rewrite F4; lia).
  rewrite E3. cbv iota beta.
  assert (E4 : dmul256 (x0 + x1) (x0 + x1) = Some s2) by (apply dmul256_Some; lia).
  rewrite E4. cbv iota beta.
  assert (K : 0 <= 4 * m * DEC / s2 <= DEC).
  { split; [apply Z.div_pos; nia|]. apply Z.div_le_upper_bound; nia. }
  remember (4 * m * DEC / s2) as k0.
  assert (DU : 2 * DEC <= U256MAX) by (unfold DEC, U256MAX; lia).
  assert (E5 : ddiv256 (4 * m) s2 = Some k0) by (apply ddiv256_Some; rewrite <- Heqk0; lia).
  rewrite E5. cbv iota beta.
  assert (HgD : fee_gamma p <= DEC) by (unfold DEC; lia).
  assert (E6 : add256 (fee_gamma p) DEC = Some (fee_gamma p + DEC)) by (apply add256_Some; lia).
  rewrite E6. cbv iota beta.
  assert (E7 : sub256 (fee_gamma p + DEC) k0 = Some (fee_gamma p + DEC - k0)) by (apply sub256_Some; lia).
  rewrite E7. cbv iota beta.
  assert (K1 : 0 <= fee_gamma p * DEC / (fee_gamma p + DEC - k0) <= DEC).
  { split; [apply Z.div_pos; nia|]. apply Z.div_le_upper_bound; nia. }
  remember (fee_gamma p * DEC / (fee_gamma p + DEC - k0)) as k1.
  assert (E8 : ddiv256 (fee_gamma p) (fee_gamma p + DEC - k0) = Some k1)
    by (apply ddiv256_Some; rewrite <- Heqk1; lia).
  rewrite E8. cbv iota beta zeta.
  remember (if k1 <=? FEE_TOL then 0 else k1) as k.
  assert (Kk : 0 <= k <= DEC) by (subst k; destruct (k1 <=? FEE_TOL); lia).
  assert (M1 : 0 <= k * mid_fee p / DEC <= mid_fee p).
  { split; [apply Z.div_pos; nia|]. apply Z.div_le_upper_bound; nia. }
  assert (M2 : 0 <= (DEC - k) * out_fee p / DEC <= out_fee p).
  { split; [apply Z.div_pos; nia|]. apply Z.div_le_upper_bound; nia. }
  assert (E9 : dmul256 k (mid_fee p) = Some (k * mid_fee p / DEC)) by (apply dmul256_Some; lia).
  assert (E10 : sub256 DEC k = Some (DEC - k)) by (apply sub256_Some; lia).
  assert (E11 : dmul256 (DEC - k) (out_fee p) = Some ((DEC - k) * out_fee p / DEC)) by (apply dmul256_Some; lia).
  rewrite E9, E10. cbv iota beta. rewrite E11. cbv iota beta.
  eexists. apply add256_Some. split; [reflexivity|]. lia.
Qed.

(** fee_gamma = 0 is in the accepted range, but then a balanced pool has no fee rate at all. *)
Lemma zero_gamma p k : fee_gamma p = 0 -> fee p (k * 10 ^ 9) (k * 10 ^ 9) = None.
Proof.
  intros G. unfold fee. pose proof DEC_pos.
  destruct (add256 (k * 10 ^ 9) (k * 10 ^ 9)) as [sum|] eqn:E1; [|reflexivity].
  apply add256_Some in E1 as (-> & R1).
  destruct (dmul256 (k * 10 ^ 9) (k * 10 ^ 9)) as [m|] eqn:E2; [|reflexivity].
  apply dmul256_Some in E2 as (Em & R2).
  assert (Em' : m = k * k).
  { rewrite Em. replace (k * 10 ^ 9 * (k * 10 ^ 9)) with (k * k * DEC) by (unfold DEC; lia).
    rewrite Z.div_mul by lia. reflexivity. }
  clear Em. subst m.
  destruct (dmul256 (k * k) FOUR_D) as [n|] eqn:E3; [|reflexivity].
  apply dmul256_Some in E3 as (En & R3).
  assert (En' : n = 4 * (k * k)).
  { rewrite En. change FOUR_D with (4 * DEC). rewrite Z.mul_assoc, Z.div_mul by lia. lia. }
  clear En. subst n.
  destruct (dmul256 (k * 10 ^ 9 + k * 10 ^ 9) (k * 10 ^ 9 + k * 10 ^ 9)) as [s2|] eqn:E4; [|reflexivity].
  apply dmul256_Some in E4 as (Es & R4).
  assert (Es' : s2 = 4 * (k * k)).
  { rewrite Es. replace ((k * 10 ^ 9 + k * 10 ^ 9) * (k * 10 ^ 9 + k * 10 ^ 9)) with (4 * (k * k) * DEC)
      by (unfold DEC; lia). rewrite Z.div_mul by lia. reflexivity. }
  clear Es. subst s2.
  destruct (ddiv256 (4 * (k * k)) (4 * (k * k))) as [k0|] eqn:E5; [|reflexivity].
  apply ddiv256_Some in E5 as (N & Ek & R5).
  rewrite Z.mul_comm, Z.div_mul in Ek by exact N. subst k0.
  rewrite G.
  replace (add256 0 DEC) with (Some DEC) by reflexivity. cbv iota beta.
  replace (sub256 DEC DEC) with (Some 0) by reflexivity. cbv iota beta. reflexivity.
Qed.
Theorem c32_zero_gamma_refuted : exists s, pool0 0 DEC = Some s /\
  (forall k, fee (par s) (k * 10 ^ 9) (k * 10 ^ 9) = None) /\
  let s1 := run s [(at_ 1000, Provide 5 1000000000 1000000000 None None)] in
  supply s1 = 1000000000 /\
  step (at_ 1001) (Provide 6 1000000000 1000000000 None None) s1 = None.
Proof.
  destruct (pool0 0 DEC) as [s|] eqn:E; [|vm_compute in E; discriminate E].
  exists s. split; [reflexivity|]. split.
  - intros k. apply zero_gamma. vm_compute in E. injection E as <-. reflexivity.
  - vm_compute in E. injection E as <-. cbv zeta. split; vm_compute; reflexivity.
Qed.

(** ** C33: promotions *)

(** A promotion whose end is before 10^15 seconds can be evaluated at all times. *)
Theorem c33_usable : forall r c a g t r', rinv r c -> c <= t ->
  forall t1, 0 <= t1 <= 10 ^ 15 -> promote r t a g t1 = Some r' ->
  forall t', t <= t' -> exists a' g', amp_gamma r' t' = Some (a', g').
Proof.
  intros r c a g t r' I Hc t1 Ht1 H t' Ht'.
  assert (I' : rinv r' t) by (apply (rinv_promote r c t a g t1); try assumption; unfold U64MAX; lia).
  apply promote_inv in H as (ca & cg & Ea & -> & Va & Vg & T1 & T2 & _).
  destruct (rinv_value _ _ _ _ _ I Hc Ea) as (VA & VG).
  pose proof (v_t _ _ I) as It.
  destruct (Z_lt_le_dec t' t1) as [L|L].
  - rewrite amp_gamma_shape; cbn [i_amp i_gamma f_amp f_gamma i_time f_time];
      [|exact (rinv_sane _ _ I')|lia].
    unfold amp_ok, gamma_ok in *.
    destruct (interp_total ca a (t1 - t') (t' - t)) as (x & Ex); try lia.
    { unfold U128MAX. assert (ca * (t1 - t') <= 10 ^ 23 * (t1 - t')) by nia.
      assert (a * (t' - t) <= 10 ^ 23 * (t' - t)) by nia. lia. }
    destruct (interp_total cg g (t1 - t') (t' - t)) as (y & Ey); try lia.
    { unfold U128MAX. assert (cg * (t1 - t') <= 10 ^ 23 * (t1 - t')) by nia.
      assert (g * (t' - t) <= 10 ^ 23 * (t' - t)) by nia. lia. }
    rewrite Ex, Ey. eauto.
  - exists a, g. unfold amp_gamma. cbn [f_time f_amp f_gamma].
    replace (t' <? t1) with false by (symmetry; apply Z.ltb_ge; lia). reflexivity.
Qed.

(** A longer one cannot: until its end the pair cannot be used, nor can the promotion be stopped or replaced. *)
Lemma amp_overflow r t : rsane r -> i_time r <= t < f_time r ->
  U128MAX < Z.min (i_amp r) (f_amp r) * (f_time r - i_time r) -> amp_gamma r t = None.
Proof.
  intros S H O. rewrite amp_gamma_shape by assumption. destruct S.
  rewrite interp_None; [reflexivity|lia|lia|lia|lia|].
  assert (Z.min (i_amp r) (f_amp r) * (f_time r - t) <= i_amp r * (f_time r - t)) by nia.
  assert (Z.min (i_amp r) (f_amp r) * (t - i_time r) <= f_amp r * (t - i_time r)) by nia. lia.
Qed.
Lemma compute_swap_dead p r ps t x0 x1 o one a b : amp_gamma r t = None ->
  compute_swap p r ps t x0 x1 o one a b = None.
Proof. intros H. unfold compute_swap. destruct (dmul256 x1 (scale ps)); [|reflexivity]. rewrite H. reflexivity. Qed.
Lemma calculate_shares_dead t p r ps x0 x1 total d0 d1 tol : amp_gamma r t = None ->
  calculate_shares t p r ps x0 x1 total d0 d1 tol = None.
Proof.
  intros H. destruct (calculate_shares _ _ _ _ _ _ _ _ _ _) eqn:E; [exfalso|reflexivity].
  unfold calculate_shares in E. unguard E G. unbind E as n0 E0. unbind E as m1 E1. unbind E as n1 E2.
  rewrite H in E. discriminate E.
Qed.
Lemma dead_steps e s : amp_gamma (rmp s) (now e) = None ->
  (forall w d0 d1 tol m, step e (Provide w d0 d1 tol m) s = None) /\
  (forall w n i m, step e (Withdraw w n i m) s = None) /\
  (forall one o b ms, step e (Swap one o b ms) s = None) /\
  (forall w a g t, step e (Promote w a g t) s = None) /\
  (forall w, step e (StopPromotion w) s = None).
Proof.
  intros H. split; [|split; [|split; [|split]]]; intros;
    match goal with |- ?x = None => destruct x eqn:E; [exfalso|reflexivity] end; cbn [step] in E.
  - unfold provide in E. unguard E G. unbind E as v1 E1. unbind E as v2 E2. unbind E as v3 E3.
    unbind E as v4 E4. unbind E as v5 E5. rewrite calculate_shares_dead in E by exact H. discriminate E.
  - unfold withdraw in E. unguard E G. unbind E as v1 E1. unbind E as v2 E2. unguard E G2.
    unbind E as v3 E3. unbind E as (v4, v5) E4. unbind E as (v6, v7) E5. unbind E as v8 E6. unbind E as v9 E7.
    unbind E as v10 E8. rewrite H in E. discriminate E.
  - unguard E G. unfold swap in E. unbind E as v1 E1. unbind E as v2 E2. unbind E as v3 E3. unguard E G2.
    unbind E as v4 E4. unfold calc_last_prices in E4. unbind E4 as v5 E5.
    rewrite compute_swap_dead in E4 by exact H. discriminate E4.
  - unguard E G. unbind E as r E1. apply promote_inv in E1 as (ca & cg & Ea & _). congruence.
  - unguard E G. unfold stop in E. rewrite H in E. discriminate E.
Qed.

Theorem c33_refuted : exists s e s1 o t1, pool0 230000000000000 (2 * DEC) = Some s /\
  let s' := run s [(at_ 1000, Provide 5 2000000000 1000000000 None None)] in
  supply s' = 1414213562 /\
  step e (Promote 7 (40 * DEC) 145000000000000 t1) s' = Some (s1, o) /\
  forall e', now e <= now e' < t1 ->
  (forall w d0 d1 tol m, step e' (Provide w d0 d1 tol m) s1 = None) /\
  (forall w n i m, step e' (Withdraw w n i m) s1 = None) /\
  (forall one a b ms, step e' (Swap one a b ms) s1 = None) /\
  (forall w a g t, step e' (Promote w a g t) s1 = None) /\
  (forall w, step e' (StopPromotion w) s1 = None).
Proof.
  destruct (pool0 230000000000000 (2 * DEC)) as [s|] eqn:E; [|vm_compute in E; discriminate E].
  vm_compute in E. injection E as <-.
  eexists. exists (at_ 1700000000). do 2 eexists. exists 18000000000000000000.
  split; [reflexivity|]. cbv zeta. split; [vm_compute; reflexivity|]. split; [vm_compute; reflexivity|].
  intros e' He'. apply dead_steps. cbn [now at_] in He'. apply amp_overflow.
  - constructor; vm_compute; discriminate.
  - cbn [rmp i_time f_time]. exact He'.
  - vm_compute. reflexivity.
Qed.

(** ** Examples *)

Example c31_example : exists s, pool0 230000000000000 (2 * DEC) = Some s /\
  let l := [(at_ 2000, UpdateParams 7 (mkUpdate (Some 1000000000000000) None (Some 0) None None (Some 1)));
            (at_ 100000, Promote 7 (400 * DEC) 20000000000000000 300000);
            (at_ 100000, Promote 7 (400 * DEC) 1450000000000000 300000);
            (at_ 200000, StopPromotion 7);
            (at_ 200000, Promote 8 (100 * DEC) 145000000000000 300000)] in
  timely 1000 l /\ fee_gamma (par (run s l)) = 0 /\ amp_gamma (rmp (run s l)) 200001 = Some (220 * DEC, 797500000000000).
Proof.
  destruct (pool0 230000000000000 (2 * DEC)) as [s|] eqn:E; [|vm_compute in E; discriminate E].
  vm_compute in E. injection E as <-. eexists. split; [reflexivity|]. cbv zeta.
  split; [simpl; lia|]. split; vm_compute; reflexivity.
Qed.
Example c32_example :
  let p := mkParams 2600000000000000 4500000000000000 230000000000000 2000000000000 146000000000000 600 in
  params_ok p /\ fee p (1000 * DEC) (1010 * DEC) = Some 2784605279905326 /\ fee p (1000 * DEC) (9000 * DEC) = Some 4500000000000000 /\
  fee p (1000 * DEC) (1000 * DEC) = Some 2600000000000000.
Proof. cbv zeta. split; [unfold params_ok; simpl; lia|]. split; [|split]; vm_compute; reflexivity. Qed.
Example c33_example : exists r,
  promote (mkRamp 0 0 (40 * DEC) 145000000000000 0 1000) 100000 (400 * DEC) 1450000000000000 300000 = Some r /\
  amp_gamma r 150000 = Some (130 * DEC, 471250000000000).
Proof.
  exists (mkRamp (40 * DEC) 145000000000000 (400 * DEC) 1450000000000000 100000 300000).
  split; vm_compute; reflexivity.
Qed.

Print Assumptions c31_params.
Print Assumptions c31_amp_gamma.
Print Assumptions c31_promotion.
Print Assumptions c31_authority.
Print Assumptions c31_fee_order.
Print Assumptions c31_fee_order_refuted.
Print Assumptions c32_between.
Print Assumptions c32_refuted.
Print Assumptions c32_defined.
Print Assumptions c32_zero_gamma_refuted.
Print Assumptions c33_usable.
Print Assumptions c33_refuted.
