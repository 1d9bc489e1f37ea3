(** Proofs about the moving average, its drift, and block aggregation. *)
From Coq Require Import ZArith Lia Bool List.
From Verif Require Import Num Amap BufferModel BufferProofs ObservationModel ObservationSpec ObservationProofs.
Import ListNotations.
Open Scope Z_scope.

(** ** Sums *)
Lemma total_app a b : total (a ++ b) = total a + total b.
Proof. induction a; simpl; lia. Qed.
Definition psum (l : list obs) (k : nat) : Z := total (firstn k (map price l)).
Definition nsma (l : list obs) (i : nat) : Z := match nth_error l i with Some o => sma o | None => 0 end.
Lemma psum_S l k : (k < length l)%nat -> psum l (S k) = psum l k + nprice l k.
Proof.
  unfold psum, nprice. revert k. induction l as [|a l IH]; intros k H; simpl in H; [lia|].
  destruct k; simpl; [lia|]. change (match map price l with [] => [] | x :: r => x :: firstn k r end) with (firstn (S k) (map price l)).
  rewrite IH by lia. simpl. lia.
Qed.
Lemma psum_0 l : psum l 0 = 0. Proof. reflexivity. Qed.
Lemma psum_app l r k : (k <= length l)%nat -> psum (l ++ r) k = psum l k.
Proof. intros. unfold psum. rewrite map_app, firstn_app, map_length. replace (k - length l)%nat with 0%nat by lia. simpl. rewrite app_nil_r. auto. Qed.
Lemma nprice_app l r i : (i < length l)%nat -> nprice (l ++ r) i = nprice l i.
Proof. intros. unfold nprice. rewrite nth_error_app1 by lia. auto. Qed.
Lemma nsma_app l r i : (i < length l)%nat -> nsma (l ++ r) i = nsma l i.
Proof. intros. unfold nsma. rewrite nth_error_app1 by lia. auto. Qed.
Lemma nprice_last l o : nprice (l ++ [o]) (length l) = price o.
Proof. unfold nprice. rewrite nth_error_app2, Nat.sub_diag by lia. auto. Qed.
Lemma nsma_last l o : nsma (l ++ [o]) (length l) = sma o.
Proof. unfold nsma. rewrite nth_error_app2, Nat.sub_diag by lia. auto. Qed.
Lemma last_obs_nsma l x : last_obs l = Some x -> nsma l (length l - 1) = sma x.
Proof.
  intros H. apply last_obs_split in H as (l0 & ->). rewrite app_length. simpl.
  replace (length l0 + 1 - 1)%nat with (length l0) by lia. apply nsma_last.
Qed.

(** The recurrence, position by position. *)
Lemma recurrence cap l : cap_ok cap -> log_ok cap l -> forall i, (i < length l)%nat ->
  (i = 0%nat -> nsma l i = nprice l i) /\
  ((0 < i)%nat -> Z.of_nat i < cap - 1 ->
     nsma l i = (nsma l (i - 1) * Z.of_nat i + nprice l i) / (Z.of_nat i + 1)) /\
  ((0 < i)%nat -> cap - 1 <= Z.of_nat i ->
     nsma l i = (nsma l (i - 1) * cap + nprice l i - nprice l (Z.to_nat (Z.of_nat i + 1 - cap))) / cap /\
     nprice l (Z.to_nat (Z.of_nat i + 1 - cap)) <= nsma l (i - 1) * cap + nprice l i).
Proof.
  intros [C1 C2]. induction 1 as [|l o L IH P N T]; intros i Hi; [simpl in Hi; lia|].
  rewrite app_length in Hi. simpl in Hi. destruct (Nat.eq_dec i (length l)) as [->|Ne].
  - rewrite nsma_last, nprice_last. unfold next_sma in N. destruct (last_obs l) as [x|] eqn:El.
    + assert (Hl : (0 < length l)%nat) by (destruct l; [discriminate|simpl; lia]).
      rewrite (nsma_app l) by lia. rewrite (last_obs_nsma l x El).
      split; [lia|]. split; intros _ Q.
      * destruct (Z.ltb_spec (Z.of_nat (length l)) (cap - 1)); [|lia]. congruence.
      * destruct (Z.ltb_spec (Z.of_nat (length l)) (cap - 1)); [lia|].
        rewrite (nprice_app l) by lia. destruct (Z.ltb_spec (sma x * cap + price o) (nprice l (Z.to_nat (Z.of_nat (length l) + 1 - cap)))); [discriminate|].
        apply u128_Some in N as [-> N]. split; auto.
    + apply last_obs_None in El. subst l. simpl. injection N as <-. repeat split; lia.
  - assert (Hi' : (i < length l)%nat) by lia. specialize (IH i Hi') as (A & B & D).
    rewrite !nsma_app, !nprice_app by lia. auto.
Qed.

(** Filling phase: the average is the mean up to rounding. *)
Lemma filling cap l i : cap_ok cap -> log_ok cap l -> (i < length l)%nat -> Z.of_nat i < cap - 1 ->
  2 * psum l (S i) - Z.of_nat i * (Z.of_nat i + 1) <= 2 * ((Z.of_nat i + 1) * nsma l i) /\
  (Z.of_nat i + 1) * nsma l i <= psum l (S i).
Proof.
  intros C L. induction i as [|i IH]; intros Hi Hc.
  - destruct (recurrence cap l C L 0%nat Hi) as (A & _). rewrite psum_S by lia. rewrite A by auto.
    rewrite psum_0. lia.
  - specialize (IH ltac:(lia) ltac:(lia)) as [I1 I2].
    destruct (recurrence cap l C L (S i) Hi) as (_ & B & _). specialize (B ltac:(lia) Hc).
    replace (S i - 1)%nat with i in B by lia. rewrite (psum_S l (S i)) by lia.
    set (k := Z.of_nat i) in *. replace (Z.of_nat (S i)) with (k + 1) in * by (unfold k; lia).
    set (num := nsma l i * (k + 1) + nprice l (S i)) in *. rewrite B.
    pose proof (Z.mul_div_le num (k + 1 + 1) ltac:(unfold k; lia)).
    pose proof (Z.mod_pos_bound num (k + 1 + 1) ltac:(unfold k; lia)).
    pose proof (Z.div_mod num (k + 1 + 1) ltac:(unfold k; lia)).
    unfold num in *. nia.
Qed.

(** Rolling phase. *)
Lemma rolling cap l i : cap_ok cap -> log_ok cap l -> (i < length l)%nat -> cap - 2 <= Z.of_nat i ->
  let ph := nsma l (Z.to_nat (cap - 2)) in
  let w := psum l (S i) - psum l (Z.to_nat (Z.of_nat i + 2 - cap)) in
  w + ph - (cap - 1) * Z.of_nat i <= cap * nsma l i <= w + ph /\
  2 * (w + ph) - (cap - 1) * (cap - 2) - 2 * ((cap - 1) * (Z.of_nat i + 2 - cap)) <= 2 * (cap * nsma l i).
Proof.
  intros C L. pose proof C as [C1 C2]. cbv zeta. induction i as [|i IH]; intros Hi Hc.
  - assert (cap = 2) by lia. subst cap. destruct (recurrence 2 l C L 0%nat Hi) as (A & _).
    rewrite psum_S by lia. change (Z.to_nat (2 - 2)) with 0%nat.
    change (Z.to_nat (Z.of_nat 0 + 2 - 2)) with 0%nat. rewrite A by auto. rewrite !psum_0. lia.
  - destruct (Z.eq_dec (Z.of_nat (S i)) (cap - 2)) as [E|E].
    + destruct (filling cap l (S i) C L Hi ltac:(lia)) as [F1 F2]. rewrite <- E.
      rewrite Nat2Z.id. replace (Z.to_nat (Z.of_nat (S i) + 2 - cap)) with 0%nat by lia.
      rewrite !psum_0. rewrite E in F1, F2. rewrite E. nia.
    + assert (Hc' : cap - 2 <= Z.of_nat i) by lia. specialize (IH ltac:(lia) Hc') as [I1 I3].
      destruct (recurrence cap l C L (S i) Hi) as (_ & _ & D). destruct (D ltac:(lia) ltac:(lia)) as [D1 D2].
      replace (S i - 1)%nat with i in * by lia.
      replace (Z.of_nat (S i) + 1 - cap) with (Z.of_nat i + 2 - cap) in * by lia.
      set (j := Z.to_nat (Z.of_nat i + 2 - cap)) in *.
      replace (Z.to_nat (Z.of_nat (S i) + 2 - cap)) with (S j) by (unfold j; lia).
      rewrite (psum_S l (S i)) by lia. rewrite (psum_S l j) by (unfold j; lia).
      set (num := nsma l i * cap + nprice l (S i) - nprice l j) in *. rewrite D1.
      pose proof (Z.mod_pos_bound num cap ltac:(lia)). pose proof (Z.div_mod num cap ltac:(lia)).
      unfold num in *. nia.
Qed.

(** ** When the average cannot be updated *)
Lemma nprice_bounds l lo hi i : Forall (fun o => lo <= price o <= hi) l -> (i < length l)%nat -> lo <= nprice l i <= hi.
Proof.
  intros F H. unfold nprice. destruct (nth_error l i) eqn:E; [|apply nth_error_None in E; lia].
  apply nth_error_In in E. rewrite Forall_forall in F. apply F. auto.
Qed.
Lemma psum_bounds l lo hi a b : Forall (fun o => lo <= price o <= hi) l -> (a <= b <= length l)%nat ->
  Z.of_nat (b - a) * lo <= psum l b - psum l a <= Z.of_nat (b - a) * hi.
Proof.
  intros F. induction b as [|b IH]; intros H.
  - replace a with 0%nat by lia. simpl. lia.
  - destruct (Nat.eq_dec a (S b)) as [->|]; [rewrite Nat.sub_diag; simpl; lia|].
    rewrite psum_S by lia. specialize (IH ltac:(lia)). pose proof (nprice_bounds l lo hi b F ltac:(lia)).
    replace (Z.of_nat (S b - a)) with (Z.of_nat (b - a) + 1) by lia. lia.
Qed.

Lemma phantom_bounds cap l lo hi : cap_ok cap -> log_ok cap l -> (Z.to_nat (cap - 2) < length l)%nat ->
  Forall (fun o => lo <= price o <= hi) l -> nsma l (Z.to_nat (cap - 2)) <= hi /\ lo <= nsma l (Z.to_nat (cap - 2)).
Proof.
  intros C L Hl F. pose proof C as [C1 C2].
  assert (G : forall i, (i < length l)%nat -> Z.of_nat i < cap - 1 -> nsma l i <= hi /\ lo <= nsma l i).
  { induction i as [|i IH]; intros Hi Hc; destruct (recurrence cap l C L _ Hi) as (A & B & _).
    - rewrite A by auto. pose proof (nprice_bounds l lo hi 0 F Hi). lia.
    - rewrite B by lia. pose proof (nprice_bounds l lo hi (S i) F Hi).
      replace (S i - 1)%nat with i by lia. specialize (IH ltac:(lia) ltac:(lia)).
      split; [apply Z.div_le_upper_bound; nia|apply Z.div_le_lower_bound; nia]. }
  apply G; lia.
Qed.

Lemma next_sma_ok cap l new lo hi :
  cap_ok cap -> log_ok cap l -> Forall (fun o => lo <= price o <= hi) l -> lo <= new <= hi -> hi <= U128MAX ->
  0 <= lo -> Z.of_nat (length l) <= lo -> exists s, next_sma cap l new = Some s.
Proof.
  intros C L F N H0 Hlo Hn. pose proof C as [C1 C2]. unfold next_sma.
  destruct (last_obs l) as [x|] eqn:El; [|eauto].
  destruct (Z.ltb_spec (Z.of_nat (length l)) (cap - 1)) as [Q|Q]; [eauto|].
  assert (Hl : (0 < length l)%nat) by (destruct l; [discriminate|simpl; lia]).
  pose proof (last_obs_nsma l x El) as Ex.
  set (i := (length l - 1)%nat) in *.
  destruct (rolling cap l i C L ltac:(unfold i; lia) ltac:(unfold i; lia)) as [[R1 R2] R3].
  rewrite Ex in *. replace (Z.of_nat (length l) + 1 - cap) with (Z.of_nat i + 2 - cap) by (unfold i; lia).
  set (j := Z.to_nat (Z.of_nat i + 2 - cap)) in *.
  pose proof (psum_S l j ltac:(unfold j, i; lia)) as Pj.
  pose proof (psum_bounds l lo hi (S j) (S i) F ltac:(unfold j, i; lia)) as PB.
  replace (Z.of_nat (S i - S j)) with (cap - 2) in PB by (unfold j, i; lia).
  destruct (phantom_bounds cap l lo hi C L ltac:(lia) F) as [Ph1 Ph2].
  set (ph := nsma l (Z.to_nat (cap - 2))) in *.
  destruct (Z.ltb_spec (sma x * cap + new) (nprice l j)) as [A|A].
  - exfalso. assert (Z.of_nat i + 1 = Z.of_nat (length l)) by (unfold i; lia). nia.
  - exists ((sma x * cap + new - nprice l j) / cap). unfold u128.
    rewrite (proj2 (fits_iff U128MAX _)); auto. split; [apply Z.div_pos; lia|].
    apply Z.div_le_upper_bound; [lia|]. nia.
Qed.

Lemma trade_succeeds cap l s b q big lo hi :
  cap_ok cap -> inv cap l s -> Forall (fun o => lo <= price o <= hi) l -> 0 <= lo -> hi <= U128MAX ->
  Z.of_nat (length l) <= lo ->
  match pend s with
  | None => True
  | Some p => exists r, dratio (base p) (quote p) = Some r /\ lo <= r <= hi
  end ->
  (big = true -> exists pc, pre_save (clock s) (pend s) b q = Some pc) ->
  exists s', trade s b q big = Some s'.
Proof.
  intros C [R L P] F Hlo Hhi Hn Hp Hb. unfold trade.
  assert (A : exists bf, accumulate (clock s) (buf s) (pend s) = Some bf).
  { destruct (pend s) as [p|]; [|simpl; eauto].
    pose proof (accumulate_log cap (clock s) l (buf s) p C R L) as A.
    destruct (acc_log cap (clock s) l p) as [d|] eqn:Ed.
    - destruct (accumulate _ _ _); [eauto|contradiction].
    - exfalso. destruct Hp as (r & Er & Br). unfold acc_log in Ed. rewrite Er in Ed.
      destruct (next_sma_ok cap l r lo hi C L F Br Hhi Hlo Hn) as (s0 & E0). rewrite E0 in Ed.
      destruct (last_obs l); [destruct (_ <? _)|destruct (_ <? _)]; discriminate. }
  destruct A as (bf & ->). destruct big; [|eauto]. destruct (Hb eq_refl) as (pc & ->). eauto.
Qed.

(** ** Histories of one counted trade per second *)
Definition tick (p : Z) : list oop := [Wait 1; Trade p DEC true].
Fixpoint ticks (ps : list Z) : list oop := match ps with [] => [] | p :: r => tick p ++ ticks r end.
Lemma log_app s a b : log s (a ++ b) = log s a ++ log (orun s a) b.
Proof. revert s. induction a as [|o a IH]; intros s; simpl; auto. rewrite IH, app_assoc. auto. Qed.
Lemma orun_app s a b : orun s (a ++ b) = orun (orun s a) b.
Proof. apply fold_left_app. Qed.
Lemma dratio_DEC p : is_u128 p -> dratio p DEC = Some p.
Proof.
  intros H. unfold dratio. simpl (DEC =? 0). rewrite Z.div_mul by discriminate. unfold u128.
  rewrite (proj2 (fits_iff U128MAX _) H). auto.
Qed.
(** State just after a counted trade at price [p] made in a second without other trades. *)
Definition at_tick (s : ostate) (p : Z) : Prop := pend s = Some (mkPre p DEC (clock s)).
Lemma tick_step cap l s p p' :
  cap_ok cap -> inv cap l s -> at_tick s p -> is_u128 p -> 0 <= p' ->
  (forall x, last_obs l = Some x -> ts x < clock s) ->
  forall v, next_sma cap l p = Some v ->
  let s' := orun s (tick p') in
  log s (tick p') = [mkObs (clock s) p v] /\ inv cap (l ++ [mkObs (clock s) p v]) s' /\ at_tick s' p' /\
  clock s' = clock s + 1.
Proof.
  intros C I A Up Hp' T v N. cbv zeta. set (s1 := oexec s (Wait 1)).
  assert (I1 : inv cap l s1).
  { pose proof (oexec_inv cap l s (Wait 1) C I) as [I1 _]. rewrite fresh_same, app_nil_r in I1; auto. }
  assert (P1 : pend s1 = Some (mkPre p DEC (clock s))) by exact A.
  assert (K1 : clock s1 = clock s + 1) by reflexivity.
  assert (Tr : exists s', trade s1 p' DEC true = Some s' /\ pend s' = Some (mkPre p' DEC (clock s + 1)) /\
     inv cap (l ++ [mkObs (clock s) p v]) s' /\ clock s' = clock s + 1).
  { destruct (trade s1 p' DEC true) as [s'|] eqn:E.
    - destruct (trade_inv cap l s1 p' DEC true s' C I1 E) as (d & D & I' & K). simpl in D.
      rewrite A in D. unfold acc_log in D. cbn [base quote pre_ts] in D. rewrite dratio_DEC in D by auto.
      exists s'. split; auto. split.
      + unfold trade in E. unbind E as bf Eb. unbind E as pc Ep. injection E as <-. rewrite P1, K1 in Ep.
        cbn [pend]. unfold pre_save in Ep. cbn [pre_ts] in Ep.
        destruct (Z.eqb_spec (clock s + 1) (clock s)); [lia|congruence].
      + split; [|lia]. assert (Ed : d = [mkObs (clock s) p v]); [|congruence].
        destruct (last_obs l) as [x|] eqn:El.
        * specialize (T x eq_refl). destruct (Z.ltb_spec (ts x) (clock s)); [|lia]. rewrite N in D. congruence.
        * destruct (Z.ltb_spec (clock s) (clock s + 1)); [|lia]. unfold next_sma in N. rewrite El in N. congruence.
    - exfalso. unfold trade in E. rewrite P1, K1 in E. destruct I1 as [R1 L1 _].
      pose proof (accumulate_log cap (clock s + 1) l (buf s1) (mkPre p DEC (clock s)) C R1 L1) as Q.
      unfold acc_log in Q. cbn [base quote pre_ts] in Q. rewrite dratio_DEC in Q by auto. rewrite N in Q.
      destruct (accumulate _ _ _) as [bf|] eqn:Ea.
      + unfold pre_save in E. cbn [pre_ts] in E. destruct (Z.eqb_spec (clock s + 1) (clock s)); [lia|discriminate].
      + destruct (last_obs l); [destruct (_ <? _)|destruct (_ <? _)]; contradiction. }
  destruct Tr as (s' & E & P' & I' & K').
  assert (O : oexec s1 (Trade p' DEC true) = s').
  { simpl. destruct (Z.leb_spec 0 p'); [|lia]. simpl. rewrite E. auto. }
  assert (W : orun s (tick p') = s') by (simpl; unfold orun; simpl; exact O).
  rewrite W. split; [|split; [auto|split; [unfold at_tick; rewrite P', K'; auto|auto]]].
  pose proof (oexec_inv cap l s1 (Trade p' DEC true) C I1) as [I2 _]. rewrite O in I2.
  unfold tick. cbn [log]. rewrite fresh_same by auto. fold s1. simpl app. rewrite app_nil_r.
  unfold fresh. rewrite O. rewrite (newest_rep cap _ _ C (i_rep _ _ _ I')), last_obs_snoc.
  rewrite (newest_rep cap _ _ C (i_rep _ _ _ I1)). destruct (last_obs l) as [y|]; auto.
  specialize (T y eq_refl). cbn [ts]. destruct (Z.eqb_spec (ts y) (clock s)); [lia|auto].
Qed.
Lemma first_tick cap t0 p : cap_ok cap -> 0 <= p ->
  let s := orun (oinit cap t0) (tick p) in
  log (oinit cap t0) (tick p) = [] /\ inv cap [] s /\ at_tick s p /\ clock s = t0 + 1.
Proof.
  intros C Hp. cbv zeta. unfold tick, orun. simpl. destruct (Z.leb_spec 0 p); [|lia]. simpl.
  split; [|split; [|split; [reflexivity|reflexivity]]].
  - unfold fresh. simpl. destruct (Z.leb_spec 0 p); [|lia]. simpl. destruct C as [C1 C2].
    unfold newest. rewrite (read_last_rep cap [] (buf_init cap)) by (try lia; apply rep_init). reflexivity.
  - constructor; simpl; auto using rep_init; [constructor|]. split; [lia|discriminate].
Qed.

(** Trades whose prices all lie in [lo, hi], no more than [lo] of them, are all recorded. *)
Lemma ticks_log cap lo hi ps : cap_ok cap -> 0 <= lo -> hi <= U128MAX -> Forall (fun p => lo <= p <= hi) ps ->
  forall l s p, inv cap l s -> at_tick s p -> (forall x, last_obs l = Some x -> ts x < clock s) ->
  lo <= p <= hi -> Forall (fun o => lo <= price o <= hi) l -> Z.of_nat (length l + length ps) <= lo ->
  map price (log s (ticks ps)) = firstn (length ps) (p :: ps) /\
  clock (orun s (ticks ps)) = clock s + Z.of_nat (length ps) /\
  exists p', at_tick (orun s (ticks ps)) p' /\ lo <= p' <= hi.
Proof.
  intros C Hlo Hhi F. induction F as [|p' ps B F IH]; intros l s p I A T Bp Fl Hn.
  - simpl. split; auto. split; [lia|]. eauto.
  - simpl length in *.
    destruct (next_sma_ok cap l p lo hi C (i_log _ _ _ I) Fl Bp Hhi Hlo ltac:(lia)) as (v & N).
    destruct (tick_step cap l s p p' C I A ltac:(unfold is_u128; lia) ltac:(lia) T v N) as (E & I' & A' & K).
    change (ticks (p' :: ps)) with (tick p' ++ ticks ps). rewrite log_app, orun_app, E.
    destruct (IH _ _ p' I' A') as (M & K' & X); auto.
    + intros x Hx. rewrite last_obs_snoc in Hx. injection Hx as <-. cbn [ts]. lia.
    + apply Forall_app. split; auto.
    + rewrite app_length. simpl. lia.
    + split; [|split; [lia|auto]]. rewrite map_app, M. reflexivity.
Qed.

(** ** Alternating prices P, P+1 exhaust the average *)
Section Freeze.
Context (cap P t0 : Z) (C : cap_ok cap) (Even : Z.even cap = true) (HP : 1 <= P) (HM : P + 1 <= U128MAX).
Definition alt (i : nat) : Z := P + Z.of_nat i mod 2.
Definition fsma (i : nat) : Z :=
  if Z.of_nat i <? cap then P else P - ((Z.of_nat i - cap) / 2 + 1).
Definition fobs (i : nat) : obs := mkObs (t0 + 1 + Z.of_nat i) (alt i) (fsma i).
Definition flog (n : nat) : list obs := map fobs (seq 0 n).
Lemma flog_S n : flog (S n) = flog n ++ [fobs n].
Proof. unfold flog. rewrite seq_S, map_app. reflexivity. Qed.
Lemma flog_length n : length (flog n) = n.
Proof. unfold flog. rewrite map_length, seq_length. auto. Qed.
Lemma flog_nth n i : (i < n)%nat -> nth_error (flog n) i = Some (fobs i).
Proof.
  intros H. unfold flog. rewrite nth_error_map. rewrite (nth_error_nth' _ 0%nat) by (rewrite seq_length; auto).
  rewrite seq_nth by auto. reflexivity.
Qed.
Lemma cap_half : exists h, cap = 2 * h.
Proof. apply Z.even_spec in Even. destruct Even as [h ->]. eauto. Qed.
Lemma alt_bounds i : P <= alt i <= P + 1.
Proof. unfold alt. pose proof (Z.mod_pos_bound (Z.of_nat i) 2 ltac:(lia)). lia. Qed.
(** Every step before position cap + 2P succeeds with the closed form; that one fails. *)
Lemma freeze_next n : Z.of_nat n < cap + 2 * P -> next_sma cap (flog n) (alt n) = Some (fsma n).
Proof.
  intros Hn. destruct C as [C1 C2]. unfold next_sma. destruct n as [|n].
  - simpl. unfold alt, fsma. destruct (Z.ltb_spec (Z.of_nat 0) cap); [|lia]. f_equal. simpl. rewrite Z.mod_0_l; lia.
  - rewrite flog_S at 1. rewrite last_obs_snoc. rewrite flog_length. cbn [sma fobs].
    pose proof (alt_bounds (S n)) as AB.
    destruct (Z.ltb_spec (Z.of_nat (S n)) (cap - 1)) as [Q|Q].
    + unfold fsma. destruct (Z.ltb_spec (Z.of_nat n) cap); [|lia]. destruct (Z.ltb_spec (Z.of_nat (S n)) cap); [|lia].
      f_equal. symmetry. apply Z.div_unique with (alt (S n) - P); [left; lia|]. lia.
    + destruct cap_half as (h & Hh).
      set (j := Z.to_nat (Z.of_nat (S n) + 1 - cap)). unfold nprice. rewrite flog_nth by (unfold j; lia).
      cbn [price fobs].
      (* parity of j is opposite *)
      assert (Aj : alt j = P + (1 - Z.of_nat (S n) mod 2)).
      { unfold alt, j. rewrite Z2Nat.id by lia. f_equal.
        replace (Z.of_nat (S n) + 1 - cap) with (Z.of_nat (S n) + 1 + (- h) * 2) by lia. rewrite Z.mod_add by lia.
        pose proof (Z.mod_pos_bound (Z.of_nat (S n)) 2 ltac:(lia)). pose proof (Z.div_mod (Z.of_nat (S n)) 2 ltac:(lia)).
        symmetry. apply Z.mod_unique with (Z.of_nat (S n) / 2 + Z.of_nat (S n) mod 2); [left; lia|lia]. }
      set (m := Z.of_nat (S n)) in *. set (r := m mod 2) in *.
      assert (Hr : r = 0 \/ r = 1) by (unfold r; pose proof (Z.mod_pos_bound m 2 ltac:(lia)); lia).
      assert (Hm : m = 2 * (m / 2) + r) by (unfold r; apply Z.div_mod; lia).
      assert (An : alt (S n) = P + r) by reflexivity. rewrite An, Aj.
      assert (Fs : 0 <= fsma n /\ (r = 0 -> 0 < fsma n) /\ fsma n <= P /\
        fsma (S n) = fsma n - (1 - r)).
      { unfold fsma. fold m. replace (Z.of_nat n) with (m - 1) by (unfold m; lia).
        destruct (Z.ltb_spec (m - 1) cap) as [Q1|Q1]; destruct (Z.ltb_spec m cap) as [Q2|Q2]; try lia.
        - assert (m = cap) by lia.
          replace (m - cap) with 0 by lia. change (0 / 2) with 0. lia.
        - destruct Hr as [Hr|Hr]; rewrite Hr in *.
          + replace (m - 1 - cap) with (1 + (m / 2 - h - 1) * 2) by lia. rewrite Z.div_add by lia.
            replace (m - cap) with (0 + (m / 2 - h) * 2) by lia. rewrite Z.div_add by lia. change (0 / 2) with 0; change (1 / 2) with 0; lia.
          + replace (m - 1 - cap) with (0 + (m / 2 - h) * 2) by lia. rewrite Z.div_add by lia.
            replace (m - cap) with (1 + (m / 2 - h) * 2) by lia. rewrite Z.div_add by lia. change (0 / 2) with 0; change (1 / 2) with 0; lia. }
      destruct Fs as (F0 & F1 & F3 & F2). rewrite F2.
      destruct (Z.ltb_spec (fsma n * cap + (P + r)) (P + (1 - r))) as [Q3|Q3].
      { exfalso. destruct Hr as [Hr|Hr]; rewrite Hr in *; [|nia]. specialize (F1 eq_refl). nia. }
      replace ((fsma n * cap + (P + r) - (P + (1 - r))) / cap) with (fsma n - (1 - r)).
      2:{ destruct Hr as [Hr|Hr]; rewrite Hr.
          - apply Z.div_unique with (cap - 1); [left; lia|lia].
          - apply Z.div_unique with 1; [left; lia|lia]. }
      unfold u128. rewrite (proj2 (fits_iff U128MAX _)); auto. destruct Hr as [Hr|Hr]; rewrite Hr in *; [specialize (F1 eq_refl)|]; lia.
Qed.
Lemma freeze_end n : Z.of_nat n = cap + 2 * P -> next_sma cap (flog n) (alt n) = None.
Proof.
  intros Hn. destruct C as [C1 C2]. unfold next_sma. destruct n as [|n]; [lia|].
  rewrite flog_S at 1. rewrite last_obs_snoc. rewrite flog_length. cbn [sma fobs].
  destruct (Z.ltb_spec (Z.of_nat (S n)) (cap - 1)) as [Q|Q]; [lia|].
  destruct cap_half as (h & Hh). rewrite Hn.
  unfold nprice. rewrite flog_nth by lia. cbn [price fobs].
  assert (A1 : alt (S n) = P).
  { unfold alt. rewrite Hn. replace (cap + 2 * P) with (0 + (h + P) * 2) by lia. rewrite Z.mod_add by lia. simpl. rewrite Z.mod_0_l; lia. }
  assert (A2 : alt (Z.to_nat (cap + 2 * P + 1 - cap)) = P + 1).
  { unfold alt. rewrite Z2Nat.id by lia. replace (cap + 2 * P + 1 - cap) with (1 + P * 2) by lia. rewrite Z.mod_add by lia. reflexivity. }
  rewrite A1, A2.
  assert (F : fsma n = 0).
  { unfold fsma. replace (Z.of_nat n) with (cap + 2 * P - 1) by lia. destruct (Z.ltb_spec (cap + 2 * P - 1) cap); [lia|].
    replace (cap + 2 * P - 1 - cap) with (1 + (P - 1) * 2) by lia. rewrite Z.div_add by lia. change (0 / 2) with 0; change (1 / 2) with 0; lia. }
  rewrite F. destruct (Z.ltb_spec (0 * cap + P) (P + 1)); [auto|lia].
Qed.
Definition alts (a k : nat) : list Z := map alt (seq a k).
Lemma ticks_app a b : ticks (a ++ b) = ticks a ++ ticks b.
Proof. induction a; simpl; congruence. Qed.
Lemma freeze_run n : Z.of_nat n <= cap + 2 * P ->
  let s := orun (oinit cap t0) (ticks (alts 0 (S n))) in
  inv cap (flog n) s /\ at_tick s (alt n) /\ clock s = t0 + 1 + Z.of_nat n.
Proof.
  cbv zeta. induction n as [|n IH]; intros Hn.
  - pose proof (alt_bounds 0) as AB. destruct (first_tick cap t0 (alt 0) C ltac:(lia)) as (_ & I & A & K).
    split; [exact I|]. split; [exact A|]. change (ticks (alts 0 1)) with (tick (alt 0)). rewrite K. simpl. lia.
  - destruct IH as (I & A & K); [lia|].
    unfold alts. rewrite seq_S, map_app, ticks_app, orun_app. fold (alts 0 (S n)).
    set (s := orun (oinit cap t0) (ticks (alts 0 (S n)))) in *.
    change (ticks (map alt [(0 + S n)%nat])) with (tick (alt (S n))).
    pose proof (alt_bounds (S n)) as AB. pose proof (alt_bounds n) as AB'.
    destruct (tick_step cap (flog n) s (alt n) (alt (S n)) C I A ltac:(unfold is_u128; lia) ltac:(lia)) with (v := fsma n)
      as (_ & I' & A' & K').
    + intros x Hx. rewrite K. destruct n; [discriminate|]. rewrite flog_S, last_obs_snoc in Hx. injection Hx as <-. cbn [ts fobs]. lia.
    + apply freeze_next. lia.
    + rewrite flog_S. split; [|split; [exact A'|lia]].
      replace (fobs n) with (mkObs (clock s) (alt n) (fsma n)) by (unfold fobs; rewrite K; auto). exact I'.
Qed.
(** From then on the same update is attempted, and fails, in every later trade. *)
Lemma frozen_step n s b q big : Z.of_nat n = cap + 2 * P -> inv cap (flog n) s ->
  pend s = Some (mkPre (alt n) DEC (t0 + 1 + Z.of_nat n)) -> trade s b q big = None.
Proof.
  intros Hn I A. destruct (trade s b q big) as [s'|] eqn:T; auto. exfalso.
  destruct (trade_inv _ _ _ _ _ _ _ C I T) as (d & D & _). simpl in D. rewrite A in D.
  unfold acc_log in D. cbn [base quote pre_ts] in D.
  pose proof (alt_bounds n) as AB. rewrite dratio_DEC in D by (unfold is_u128; lia). rewrite freeze_end in D by auto.
  destruct C as [C1 C2]. destruct n; [lia|]. rewrite flog_S, last_obs_snoc in D. cbn [ts fobs] in D.
  destruct (Z.ltb_spec (t0 + 1 + Z.of_nat n) (t0 + 1 + Z.of_nat (S n))); [discriminate|lia].
Qed.
Lemma frozen_forever n ops : Z.of_nat n = cap + 2 * P ->
  let s := orun (orun (oinit cap t0) (ticks (alts 0 (S n)))) ops in
  inv cap (flog n) s /\ pend s = Some (mkPre (alt n) DEC (t0 + 1 + Z.of_nat n)).
Proof.
  intros Hn. cbv zeta. destruct (freeze_run n ltac:(lia)) as (I & A & K). unfold at_tick in A. rewrite K in A.
  revert I A. generalize (orun (oinit cap t0) (ticks (alts 0 (S n)))) as s. clear K.
  induction ops as [|o ops IH]; intros s I A; simpl; auto.
  assert (E : buf (oexec s o) = buf s /\ pend (oexec s o) = pend s).
  { destruct o as [d|b q big]; simpl; [destruct (0 <=? d); auto|].
    destruct (_ && _); auto. rewrite (frozen_step n s b q big Hn I A). auto. }
  destruct E as [E1 E2]. apply IH; [|congruence].
  destruct (oexec_inv cap (flog n) s o C I) as [I' _]. rewrite fresh_same, app_nil_r in I' by auto. auto.
Qed.
Lemma frozen_trade n ops b q big : Z.of_nat n = cap + 2 * P ->
  trade (orun (orun (oinit cap t0) (ticks (alts 0 (S n)))) ops) b q big = None.
Proof. intros Hn. destruct (frozen_forever n ops Hn) as [I A]. eapply frozen_step; eauto. Qed.
Lemma ticks_prices k : Forall (fun o => match o with Wait d => d = 1
    | Trade b q big => P <= b <= P + 1 /\ q = DEC /\ big = true end) (ticks (alts 0 k)).
Proof.
  unfold alts. induction (seq 0 k) as [|i r IH]; simpl; auto. pose proof (alt_bounds i). repeat constructor; auto; lia.
Qed.
End Freeze.

(** ** One observation per second: the first trade decides *)
Lemma log_later cap ops l s t : cap_ok cap -> inv cap l s -> (exists x, last_obs l = Some x /\ t <= ts x) ->
  Forall (fun o => t < ts o) (log s ops).
Proof.
  intros C. revert l s. induction ops as [|o ops IH]; intros l s I (x & Hx & Tx); simpl; auto.
  destruct (oexec_inv cap l s o C I) as [I' _]. apply Forall_app.
  pose proof (log_ok_increasing _ _ (i_log _ _ _ I')) as Inc.
  assert (G : Forall (fun y => t < ts y) (fresh s o)).
  { apply last_obs_split in Hx as (l0 & ->). clear - Inc Tx. revert Inc. rewrite <- app_assoc. induction l0 as [|a l0 IHl]; simpl; intros [F N].
    - eapply Forall_impl; [|exact F]. simpl. intros y. lia.
    - auto. }
  split; auto. apply (IH (l ++ fresh s o)); auto.
  destruct (last_obs (l ++ fresh s o)) as [y|] eqn:E.
  - exists y. split; auto. unfold fresh in *. destruct (newest (buf (oexec s o))) as [z|]; [|rewrite app_nil_r in E; congruence].
    destruct (newest (buf s)) as [w|]; [destruct (ts w =? ts z)|].
    + rewrite app_nil_r in E. congruence.
    + rewrite last_obs_snoc in E. injection E as <-. inversion G; subst. lia.
    + rewrite last_obs_snoc in E. injection E as <-. inversion G; subst. lia.
  - apply last_obs_None in E. apply app_eq_nil in E as [-> _]. discriminate.
Qed.
Lemma first_trade_decides cap ops : cap_ok cap -> forall l s b q t x,
  inv cap l s -> pend s = Some (mkPre b q t) -> last_obs l = Some x -> ts x < t ->
  forall o, In o (log s ops) -> ts o = t -> dratio b q = Some (price o).
Proof.
  intros C. induction ops as [|op ops IH]; intros l s b q t x I Pd Lx Tx o Ho To; simpl in Ho; [contradiction|].
  destruct (oexec_inv cap l s op C I) as [I' _].
  assert (Skip : buf (oexec s op) = buf s -> pend (oexec s op) = pend s -> dratio b q = Some (price o)).
  { intros E1 E2. rewrite fresh_same in Ho, I' by auto. rewrite app_nil_r in I'. simpl in Ho.
    apply (IH l (oexec s op) b q t x I'); auto. congruence. }
  destruct op as [d|b' q' big].
  { apply Skip; simpl; destruct (0 <=? d); auto. }
  destruct ((0 <=? b') && (0 <=? q')) eqn:B; [|apply Skip; simpl; rewrite B; auto].
  destruct (trade s b' q' big) as [s'|] eqn:T; [|apply Skip; simpl; rewrite B, T; auto].
  destruct (trade_inv _ _ _ _ _ _ _ C I T) as (d & D & I2 & _).
  simpl in D. rewrite Pd in D. pose proof D as D0. unfold acc_log in D. cbn [base quote pre_ts] in D. unbind D as ob Eo.
  rewrite Lx in D. destruct (Z.ltb_spec (ts x) t); [|lia]. unbind D as sv Es. injection D as <-.
  assert (Q : fresh s (Trade b' q' big) = [mkObs t ob sv]).
  { unfold fresh. simpl. rewrite B, T. rewrite (newest_rep cap _ _ C (i_rep _ _ _ I2)), last_obs_snoc.
    rewrite (newest_rep cap _ _ C (i_rep _ _ _ I)), Lx. cbn [ts]. destruct (Z.eqb_spec (ts x) t); [lia|auto]. }
  rewrite Q in *. apply in_app_or in Ho as [[<-|[]]|Ho]; [cbn [price]; congruence|].
  exfalso. pose proof (log_later cap ops _ _ t C I') as F.
  assert (F' : Forall (fun o => t < ts o) (log (oexec s (Trade b' q' big)) ops)).
  { apply F. exists (mkObs t ob sv). rewrite last_obs_snoc. split; auto. cbn [ts]. lia. }
  rewrite Forall_forall in F'. specialize (F' o Ho). lia.
Qed.
