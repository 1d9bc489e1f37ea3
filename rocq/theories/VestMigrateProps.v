(** C123: the migration of the vesting contract to new ASTRO. *)
From Coq Require Import ZArith Lia Bool List String.
From Verif Require Import Num Amap Hist VestingModel VestingSpec VestingProofs VestingProps ConverterModel ConverterProps VestMigrateModel.
Import ListNotations.
Open Scope Z_scope.

(** Block times are 64-bit and never decrease; fields of the messages are machine integers. *)
Definition wmsg_ok (e : ev) : Prop := match e with Vest _ m => msg_ok m | _ => True end.
Definition whist_ok (h : list (Z * ev)) : Prop :=
  nondecr fst h /\ Forall (fun te => is_u64 (fst te) /\ wmsg_ok (snd te)) h.

(** Paid by the vesting contract to [a] by successful claims of a history, in the two assets together. *)
Fixpoint wclaimed (c : config) (self : Z) (w : world) (h : list (Z * ev)) (a : Z) : Z :=
  match h with
  | [] => 0
  | (t, e) :: r =>
      match wstep c self t e w with
      | Some (w', (_, o)) =>
          (match e with Vest _ (Claim b _) => if b =? a then o else 0 | _ => 0 end) + wclaimed c self w' r a
      | None => wclaimed c self w r a
      end
  end.

Lemma aeq_refl a : aeq a a = true.
Proof. apply aeq_eq. reflexivity. Qed.

(** What an event is for the vesting contract alone. *)
Definition seen (t : Z) (e : ev) (w w' : world) : list (Z * VestingModel.msg) :=
  match e with
  | Vest _ m => [(t, m)]
  | _ => [(t, Donate (bal (vest w') - bal (vest w)))]
  end.

Lemma migrate_spec c self w w' : migrate c self w = Some w' ->
  migratable (ver w) = true /\ tok w = c_old c /\ 0 < bal (vest w) <= newb (conv w) /\
  ver w' = VERSION /\ tok w' = Coin (c_new c) /\ other w' = 0 /\
  owner (vest w') = owner (vest w) /\ accs (vest w') = accs (vest w) /\
  bal (vest w') = bal (vest w) + other w /\ bal (vest w') <= U128MAX /\
  oldb (conv w') = oldb (conv w) + bal (vest w) /\ newb (conv w') = newb (conv w) - bal (vest w) /\
  feeb (conv w') = feeb (conv w).
Proof.
  unfold migrate. intros H. unguard H G1. unguard H G2. apply aeq_eq in G2. cbv zeta in H.
  unbind H as [k o] E. unbind H as b Eb. injection H as <-. cbn [ver tok other vest conv owner accs bal].
  assert (K : paid o = [(self, bal (vest w))] /\ 0 < bal (vest w) <= newb (conv w) /\
    oldb k = oldb (conv w) + bal (vest w) /\ newb k = newb (conv w) - bal (vest w) /\ feeb k = feeb (conv w)).
  { rewrite <- G2 in E. unfold ConverterModel.step in E. destruct (c_old c) as [d|a] eqn:Eo; cbn [what funds sender] in E.
    - unbind E as x Ex. destruct (must_pay_spec _ _ _ Ex) as (Ef & N0). injection Ef as <-.
      unfold pay_new in E. unguard E G. injection E as <- <-. bools. cbn in *. repeat split; lia.
    - unguard E G0. unfold cw20_receive in E. rewrite Eo, Z.eqb_refl in E. unfold pay_new in E. unguard E G.
      injection E as <- <-. bools. cbn in *. repeat split; lia. }
  destruct K as (Kp & K). rewrite Kp in Eb. cbn in Eb. rewrite Z.eqb_refl in Eb. num_inv.
  repeat split; try tauto; try lia. symmetry. exact G2.
Qed.

(** C123: a migration pays out nothing to anybody, keeps every account with its schedules and what it has
    been paid, and exchanges the whole holding one to one: the converter takes the old ASTRO and the
    contract holds as much new ASTRO (and any new ASTRO it had been sent before). *)
Theorem c123_converted c self t w w' x :
  wstep c self t Migrate w = Some (w', x) ->
  snd x = 0 /\ tok w = c_old c /\ tok w' = Coin (c_new c) /\
  owner (vest w') = owner (vest w) /\ accs (vest w') = accs (vest w) /\
  bal (vest w') = bal (vest w) + other w /\ other w' = 0 /\
  oldb (conv w') = oldb (conv w) + bal (vest w) /\ newb (conv w') = newb (conv w) - bal (vest w).
Proof.
  cbn [wstep]. intros H. unbind H as w1 E. injection H as <- <-. apply migrate_spec in E. cbn. intuition.
Qed.

(** C123: when it goes through: the contract is still one of the four old versions, its token is the
    converter's old ASTRO, it holds something, and the converter has enough new ASTRO. Otherwise nothing
    changes. In particular it never runs a second time. *)
Theorem c123_when c self t w :
  0 <= bal (vest w) -> 0 <= other w -> bal (vest w) + other w <= U128MAX ->
  (exists w' x, wstep c self t Migrate w = Some (w', x)) <->
  (In (ver w) ["1.1.0"; "1.2.0"; "1.3.0"; "1.3.1"]%string /\ tok w = c_old c /\ 0 < bal (vest w) <= newb (conv w)).
Proof.
  intros Hb Ho Hm. split.
  - intros (w' & x & H). cbn [wstep] in H. unbind H as w1 E. apply migrate_spec in E.
    destruct E as (M & T & B & _). split; [|auto].
    unfold migratable in M. apply existsb_exists in M. destruct M as (v & I & E). apply String.eqb_eq in E. congruence.
  - intros (V & T & B1 & B2).
    assert (M : migratable (ver w) = true).
    { unfold migratable. apply existsb_exists. exists (ver w). split; auto. apply String.eqb_refl. }
    cbn [wstep]. unfold migrate. rewrite M, T, aeq_refl. cbv zeta.
    assert (E : exists k, ConverterModel.step c match c_old c with
           | Token a => mkEv a [] (Send self (bal (vest w)) None)
           | Coin d => mkEv self [(d, bal (vest w))] (Convert None)
           end (conv w) = Some (k, mkOut [(self, bal (vest w))] (bal (vest w)) 0)).
    { unfold ConverterModel.step. destruct (c_old c) as [d|a] eqn:Eo; cbn [what funds sender].
      - unfold must_pay. rewrite (proj2 (Z.eqb_neq (bal (vest w)) 0)) by lia. rewrite Z.eqb_refl. cbn [negb].
        unfold pay_new. cbn [newb]. rewrite (proj2 (Z.ltb_lt 0 _)) by lia. rewrite (proj2 (Z.leb_le _ _)) by lia.
        cbn. eexists. reflexivity.
      - rewrite (proj2 (Z.ltb_lt 0 _)) by lia. unfold cw20_receive. rewrite Eo, Z.eqb_refl. unfold pay_new. cbn [newb].
        rewrite (proj2 (Z.ltb_lt 0 _)) by lia. rewrite (proj2 (Z.leb_le _ _)) by lia. cbn. eexists. reflexivity. }
    destruct E as (k & E). rewrite E. cbn [paid paid_to fold_right fst snd]. rewrite Z.eqb_refl, Z.add_0_r.
    unfold add128, u128. rewrite (proj2 (fits_iff U128MAX _)) by lia. eauto.
Qed.

Lemma ver_step c self t e w w' x : wstep c self t e w = Some (w', x) -> ver w' = ver w \/ ver w' = VERSION.
Proof.
  destruct e as [a m|a y|e|]; cbn [wstep]; intros H.
  - unguard H G. unbind H as [v o] E. injection H as <- <-. auto.
  - unguard H G. unbind H as w1 E. injection H as <- <-. unfold arrive in E.
    destruct (aeq a (tok w)); unbind E as b Eb; injection E as <-; auto.
  - unguard H G. unbind H as [k o] E. unbind H as w1 E1. injection H as <- <-. unfold arrive in E1. cbn [tok] in E1.
    destruct (aeq _ (tok w)); unbind E1 as b Eb; injection E1 as <-; auto.
  - unbind H as w1 E. injection H as <- <-. apply migrate_spec in E. right. tauto.
Qed.
Theorem c123_once c self w t x w1 h t2 :
  wstep c self t Migrate w = Some (w1, x) -> wstep c self t2 Migrate (wrun c self w1 h) = None.
Proof.
  intros H. assert (V : ver w1 = VERSION).
  { cbn [wstep] in H. unbind H as w2 E. injection H as <- <-. apply migrate_spec in E. tauto. }
  assert (R : ver (wrun c self w1 h) = VERSION).
  { clear H. revert w1 V. induction h as [|[t' e] h IH]; intros w1 V; [exact V|]. cbn [wrun fold_left]. apply IH.
    unfold wexec. cbn [fst snd]. destruct (wstep c self t' e w1) as [[w2 y]|] eqn:E; [|exact V].
    apply ver_step in E. destruct E; congruence. }
  cbn [wstep]. unfold migrate. rewrite R. reflexivity.
Qed.

(** ** Histories with migrations are histories of the vesting contract *)
Lemma arrive_spec a x w w' : 0 <= x -> arrive a x w = Some w' ->
  owner (vest w') = owner (vest w) /\ accs (vest w') = accs (vest w) /\ ver w' = ver w /\ tok w' = tok w /\
  conv w' = conv w /\
  (if aeq a (tok w) then bal (vest w') = bal (vest w) + x /\ other w' = other w
   else bal (vest w') = bal (vest w) /\ other w' = other w + x) /\
  (bal (vest w) <= U128MAX -> bal (vest w') <= U128MAX) /\ (other w <= U128MAX -> other w' <= U128MAX).
Proof.
  unfold arrive. intros Hx H. destruct (aeq a (tok w)); unbind H as b E; injection H as <-; num_inv; cbn; repeat split; auto; lia.
Qed.
Lemma paid_nonneg c e s s' o who : ConverterModel.step c e s = Some (s', o) -> 0 <= paid_to who (paid o).
Proof.
  intros H. apply c51_exact in H. destruct H as [(-> & _)|(w & v & r & -> & _ & P & _)]; cbn; [lia|].
  destruct (_ =? who); lia.
Qed.
Lemma donate_step t s b : bal s <= b <= U128MAX -> 0 <= bal s ->
  VestingModel.step t (Donate (b - bal s)) s = Some (VestingModel.mkState (owner s) b (accs s), 0).
Proof.
  intros H P. cbn [VestingModel.step]. rewrite (proj2 (Z.leb_le 0 _)) by lia. unfold add128, u128.
  replace (bal s + (b - bal s)) with b by lia. rewrite (proj2 (fits_iff U128MAX _)) by lia. reflexivity.
Qed.
Lemma vstate_eta s b o a : owner s = o -> bal s = b -> accs s = a -> s = VestingModel.mkState o b a.
Proof. destruct s; cbn; congruence. Qed.

Definition good (w : world) : Prop := 0 <= bal (vest w) <= U128MAX /\ 0 <= other w <= U128MAX.
Lemma wstep_seen c self t e w w' x : good w -> wstep c self t e w = Some (w', x) ->
  0 <= other w' <= U128MAX /\
  exists m, seen t e w w' = [(t, m)] /\ (wmsg_ok e -> msg_ok m) /\
    (exists o, VestingModel.step t m (vest w) = Some (vest w', o) /\
      (match e with Vest _ _ => snd x = o | _ => snd x = 0 end) /\
      (match e with Vest _ m' => m' = m | _ => match m with Donate _ => True | _ => False end end)).
Proof.
  intros (Gb & Go) H. destruct e as [a m|a y|e|]; cbn [wstep] in H; cbn [seen wmsg_ok].
  - unguard H G. unbind H as [v o] E. injection H as <- <-. cbn. split; [lia|]. exists m. split; [reflexivity|]. split; [auto|].
    exists o. auto.
  - unguard H G. unbind H as w1 E. injection H as <- <-. bools. apply arrive_spec in E; [|lia].
    destruct E as (E1 & E2 & _ & _ & _ & E3 & E4 & E5).
    assert (B : bal (vest w) <= bal (vest w1) /\ other w <= other w1) by (destruct (aeq a (tok w)); lia).
    split; [lia|]. eexists. split; [reflexivity|]. split; [intros _; exact Logic.I|].
    eexists. split; [|split; [reflexivity|exact Logic.I]]. rewrite donate_step by lia. do 2 f_equal.
    symmetry. apply vstate_eta; auto.
  - unguard H G. unbind H as [k o] E. unbind H as w1 E1. injection H as <- <-. pose proof (paid_nonneg _ _ _ _ _ self E) as P.
    apply arrive_spec in E1; [|lia]. cbn [vest tok ver conv other] in E1.
    destruct E1 as (E2 & E3 & _ & _ & _ & E4 & E5 & E6).
    assert (B : bal (vest w) <= bal (vest w1) /\ other w <= other w1) by (destruct (aeq _ (tok w)); lia).
    split; [lia|]. eexists. split; [reflexivity|]. split; [intros _; exact Logic.I|].
    eexists. split; [|split; [reflexivity|exact Logic.I]]. rewrite donate_step by lia. do 2 f_equal.
    symmetry. apply vstate_eta; auto.
  - unbind H as w1 E. injection H as <- <-. apply migrate_spec in E.
    destruct E as (_ & _ & B & _ & _ & E0 & E1 & E2 & E3 & E4 & _). split; [lia|].
    eexists. split; [reflexivity|]. split; [intros _; exact Logic.I|].
    eexists. split; [|split; [reflexivity|exact Logic.I]]. rewrite donate_step by lia. do 2 f_equal.
    symmetry. apply vstate_eta; auto.
Qed.
Fixpoint seen_all (c : config) (self : Z) (w : world) (h : list (Z * ev)) : list (Z * VestingModel.msg) :=
  match h with
  | [] => []
  | (t, e) :: r =>
      match wstep c self t e w with
      | Some (w', _) => seen t e w w' ++ seen_all c self w' r
      | None => seen_all c self w r
      end
  end.
Lemma acc_owed_nonneg t s : VestingProofs.inv t s -> 0 <= bal s.
Proof.
  intros I. pose proof (i_sol _ _ I) as S. pose proof (inv_owed _ _ I) as N.
  enough (0 <= sumf owed (accs s)) by lia. clear S I. induction (accs s) as [|p m IH]; [cbn; lia|].
  inversion N; subst. specialize (IH H2). destruct p. cbn in *. lia.
Qed.
Lemma seen_times c self h : forall w (P : Z -> Prop), Forall (fun te => P (fst te)) h ->
  Forall (fun tm => P (fst tm)) (seen_all c self w h).
Proof.
  induction h as [|[t e] h IH]; intros w P F; cbn [seen_all]; [constructor|]. inversion F; subst.
  destruct (wstep c self t e w) as [[w' x]|]; [|auto]. apply Forall_app. split; [|auto].
  destruct e; cbn; repeat constructor; auto.
Qed.
Lemma run_seen c self h : forall t0 w, VestingProofs.inv t0 (vest w) -> 0 <= other w <= U128MAX ->
  whist_ok h -> Forall (fun te => t0 <= fst te) h ->
  vest (wrun c self w h) = run (vest w) (seen_all c self w h) /\ hist_ok (seen_all c self w h) /\
  (forall a, wclaimed c self w h a = claimed (vest w) (seen_all c self w h) a) /\
  0 <= other (wrun c self w h) <= U128MAX.
Proof.
  induction h as [|[t e] h IH]; intros t0 w I O (N & F) B; cbn [wrun fold_left seen_all wclaimed].
  { split; [reflexivity|]. split; [split; [exact Logic.I|constructor]|]. split; [reflexivity|exact O]. }
  destruct N as (N1 & N2). apply Forall_cons_iff in F. destruct F as ((Ft & Fm) & F2). apply Forall_cons_iff in B. destruct B as (Bt & B2).
  cbn [fst snd] in *. pose proof (inv_mono _ _ _ Bt I) as It.
  change (fold_left (wexec c self) h (wexec c self w (t, e))) with (wrun c self (wexec c self w (t, e)) h).
  unfold wexec. cbn [fst snd].
  destruct (wstep c self t e w) as [[w' [xa xo]]|] eqn:E.
  - pose proof (acc_owed_nonneg _ _ It) as P0. pose proof (i_bal _ _ It) as P1.
    destruct (wstep_seen c self t e w w' _ (conj (conj P0 P1) O) E) as (O' & m & Es & Hm & o & Sv & So & Sm).
    rewrite Es. cbn [app].
    assert (I' : VestingProofs.inv t (vest w')) by (eapply VestingProofs.step_inv; [exact It|exact Ft|exact (Hm Fm)|exact Sv]).
    destruct (IH t w' I' O' (conj N2 F2) N1) as (R1 & R2 & R3 & R4).
    split; [|split; [|split]].
    + cbn [run fold_left]. unfold exec at 2. cbn [fst snd]. rewrite Sv. exact R1.
    + destruct R2 as (Q1 & Q2). split.
      * cbn [nondecr]. split; [|exact Q1]. cbn [fst]. apply (seen_times c self h w' (fun u => t <= u)). exact N1.
      * constructor; [split; [exact Ft|exact (Hm Fm)]|exact Q2].
    + intros a. cbn [claimed]. rewrite Sv, R3. f_equal.
      destruct e as [a0 m0|a0 y|e0|]; cbn [snd] in *; subst; try reflexivity; destruct m; try reflexivity; contradiction.
    + exact R4.
  - destruct (IH t w It O (conj N2 F2) N1) as (R1 & R2 & R3 & R4). auto.
Qed.

(** C123: claims before and after the migration together: what an account has been paid, in old and new
    ASTRO, never exceeds what has unlocked, and is what the contract has on record. *)
Theorem c123_claimed c self v o k h t a i :
  is_u64 t -> whist_ok h -> Forall (fun te => fst te <= t) h ->
  find a (accs (vest (wrun c self (wstart v (c_old c) o k) h))) = Some i ->
  VestingModel.released i = wclaimed c self (wstart v (c_old c) o k) h a /\
  0 <= wclaimed c self (wstart v (c_old c) o k) h a <= unlocked_all (schedules i) t.
Proof.
  intros U H F E.
  destruct (run_seen c self h 0 (wstart v (c_old c) o k) (init_inv 0 o)) as (R1 & R2 & R3 & _).
  { cbn. unfold U128MAX. lia. }
  { exact H. }
  { destruct H as (_ & H). eapply Forall_impl; [|exact H]. unfold is_u64. intros te K. lia. }
  cbn [vest wstart] in R1, R2, R3. rewrite R1 in E. rewrite R3.
  apply (c15_claimed_at_most_unlocked o _ t a i); auto. apply (seen_times c self h _ (fun u => u <= t)). exact F.
Qed.
(** C123: at any time, before or after the migration, the contract holds at least what it still owes, in the
    asset it pays claims in, and every account can take everything unlocked. *)
Theorem c123_solvent c self v o k h t :
  is_u64 t -> whist_ok h -> Forall (fun te => fst te <= t) h ->
  let w := wrun c self (wstart v (c_old c) o k) h in
  (tok w = c_old c \/ tok w = Coin (c_new c)) /\
  sumf owed (accs (vest w)) <= bal (vest w) /\
  (forall a b i, find a (accs (vest w)) = Some i -> full_all (schedules i) <= U128MAX ->
     exists w', wstep c self t (Vest b (Claim a None)) w =
       Some (w', (tok w, unlocked_all (schedules i) t - wclaimed c self (wstart v (c_old c) o k) h a))).
Proof.
  intros U H F w.
  destruct (run_seen c self h 0 (wstart v (c_old c) o k) (init_inv 0 o)) as (R1 & R2 & R3 & _).
  { cbn. unfold U128MAX. lia. }
  { exact H. }
  { destruct H as (_ & H). eapply Forall_impl; [|exact H]. unfold is_u64. intros te K. lia. }
  cbn [vest wstart] in R1, R2, R3.
  assert (R : reachable t (vest w)).
  { exists o, (seen_all c self (wstart v (c_old c) o k) h). split; [exact R2|]. split; [|exact R1].
    apply (seen_times c self h _ (fun u => u <= t)). exact F. }
  split; [|split].
  - unfold w. clear. assert (G : forall w0, (tok w0 = c_old c \/ tok w0 = Coin (c_new c)) ->
      tok (wrun c self w0 h) = c_old c \/ tok (wrun c self w0 h) = Coin (c_new c)); [|apply G; left; reflexivity].
    induction h as [|[t e] h IH]; intros w0 T; [exact T|]. cbn [wrun fold_left]. apply IH.
    unfold wexec. cbn [fst snd]. destruct (wstep c self t e w0) as [[w' x]|] eqn:E; [|exact T].
    destruct e as [a m|a y|e|]; cbn [wstep] in E.
    + unguard E G. unbind E as [q o'] E1. injection E as <- <-. exact T.
    + unguard E G. unbind E as w1 E1. injection E as <- <-. bools. apply arrive_spec in E1; [|lia].
      destruct E1 as (_ & _ & _ & -> & _). exact T.
    + unguard E G. unbind E as [q o'] E1. unbind E as w1 E2. injection E as <- <-.
      pose proof (paid_nonneg _ _ _ _ _ self E1) as P. apply arrive_spec in E2; [|lia].
      destruct E2 as (_ & _ & _ & -> & _). exact T.
    + unbind E as w1 E1. injection E as <- <-. apply migrate_spec in E1. right. tauto.
  - exact (c17_solvent t _ U R).
  - intros a b i E M. destruct (c17_claim_always_succeeds t _ a i U R E M) as (s' & S).
    destruct (c123_claimed c self v o k h t a i U H F E) as (Er & _).
    cbn [wstep]. rewrite S, Er. eexists. reflexivity.
Qed.

(** A vesting contract of old ASTRO (a cw20 token, 7) migrates in the middle of its schedules; somebody had
    sent it 5 coins of new ASTRO (denom 9). *)
Definition cfg : config := mkConf (Token 7) 9 false false.
Definition whist : list (Z * ev) :=
  [ (10, Vest (Token 7) (Register 1 [(5, [lin 100 10 200 1010]); (6, [lin 0 0 1000 333])] 1343));
    (20, Give (Coin 9) 5); (40, Vest (Coin 9) (Register 1 [(8, [lin 100 10 200 1010])] 1010));
    (120, Vest (Token 7) (Claim 5 (Some 100)));
    (125, Conv (mkEv 3 [] (Send 3 11 (Some 77))));
    (130, Migrate); (131, Migrate);
    (140, Vest (Token 7) (Register 1 [(8, [lin 100 10 200 1010])] 1010));
    (150, Vest (Coin 9) (Register 1 [(8, [lin 100 0 200 50])] 50)); (160, Vest (Coin 9) (Claim 5 None)) ].
Definition wex (n : nat) : world := wrun cfg 77 (wstart "1.3.1" (Token 7) 1 (ConverterModel.mkState 0 5000 0)) (firstn n whist).
Lemma whist_fine : whist_ok whist /\ Forall (fun te => fst te <= 170) whist.
Proof.
  split; [|repeat constructor; cbn; lia].
  unfold whist_ok, whist, is_u64, U64MAX, wmsg_ok, msg_ok, sch_ok, pt_ok, is_u64, is_u128, U64MAX, U128MAX. cbn.
  repeat (split || constructor; cbn; try lia).
Qed.
Example c123_example :
  (tok (wex 5), bal (vest (wex 5)), other (wex 5), conv (wex 5)) = (Token 7, 1243, 16, ConverterModel.mkState 11 4989 0) /\
  (ver (wex 6), tok (wex 6), bal (vest (wex 6)), other (wex 6), conv (wex 6)) =
    ("1.4.0"%string, Coin 9, 1259, 0, ConverterModel.mkState 1254 3746 0) /\
  (tok (wex 10), bal (vest (wex 10)), wclaimed cfg 77 (wstart "1.3.1" (Token 7) 1 (ConverterModel.mkState 0 5000 0)) whist 5) =
    (Coin 9, 799, 610).
Proof. vm_compute. auto. Qed.
(** The converter running short, or an empty vesting contract, stops the migration. *)
Example c123_short_example :
  wstep cfg 77 130 Migrate (mkW "1.3.1" (Token 7) 16 (vest (wex 5)) (ConverterModel.mkState 11 1242 0)) = None /\
  wstep cfg 77 130 Migrate (wstart "1.3.1" (Token 7) 1 (ConverterModel.mkState 0 5000 0)) = None.
Proof. vm_compute. auto. Qed.

Print Assumptions c123_converted.
Print Assumptions c123_when.
Print Assumptions c123_once.
Print Assumptions c123_claimed.
Print Assumptions c123_solvent.
