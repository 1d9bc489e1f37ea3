(** Proofs about price observations. *)
From Coq Require Import ZArith Lia Bool List.
From Verif Require Import Num Amap BufferModel BufferProofs ObservationModel ObservationSpec.
Import ListNotations.
Open Scope Z_scope.

(** ** The moving-average arithmetic *)
Lemma dec_cancel a c : 0 <= a -> 0 < c -> a * DEC / (DEC * c) = a / c.
Proof. intros. rewrite (Z.mul_comm a). apply Z.div_mul_cancel_l; [lia|discriminate]. Qed.
Lemma dec256_into_dec_eq v : dec256_into_dec v = u128 v.
Proof.
  unfold dec256_into_dec. destruct (u128 v) as [n|] eqn:E; auto. apply u128_Some in E as [-> R].
  unfold dratio. simpl (DEC =? 0). rewrite Z.div_mul by discriminate. unfold u128.
  rewrite (proj2 (fits_iff U128MAX _) R). auto.
Qed.
Lemma sma_full_eq s old c new :
  is_u128 s -> is_u128 old -> is_u128 new -> 0 < c <= U32MAX ->
  sma_full s old c new = if s * c + new <? old then None else u128 ((s * c + new - old) / c).
Proof.
  unfold is_u128. intros Hs Ho Hn Hc. unfold sma_full, add256, u256.
  assert (s * c <= U128MAX * U32MAX) by nia.
  rewrite (proj2 (fits_iff U256MAX _)) by (unfold U256MAX, U128MAX, U32MAX in *; lia).
  unfold sub256, u256. destruct (Z.ltb_spec (s * c + new) old) as [L|L].
  - destruct (fits U256MAX (s * c + new - old)) eqn:F; auto. apply fits_iff in F. lia.
  - rewrite (proj2 (fits_iff U256MAX _)) by (unfold U256MAX, U128MAX, U32MAX in *; lia).
    unfold dratio256. destruct (Z.eqb_spec (DEC * c) 0); [unfold DEC in *; lia|].
    rewrite dec_cancel by lia. unfold u256.
    assert (0 <= (s * c + new - old) / c) by (apply Z.div_pos; lia).
    assert ((s * c + new - old) / c <= s * c + new - old) by (apply Z.div_le_upper_bound; nia).
    rewrite (proj2 (fits_iff U256MAX _)) by (unfold U256MAX, U128MAX, U32MAX in *; lia).
    apply dec256_into_dec_eq.
Qed.
Lemma sma_not_full_eq s c new :
  is_u128 s -> is_u128 new -> 0 <= c < U32MAX ->
  sma_not_full s c new = Some ((s * c + new) / (c + 1)) /\ is_u128 ((s * c + new) / (c + 1)).
Proof.
  unfold is_u128. intros Hs Hn Hc. unfold sma_not_full, add256, u256.
  assert (s * c <= U128MAX * U32MAX) by nia.
  rewrite (proj2 (fits_iff U256MAX _)) by (unfold U256MAX, U128MAX, U32MAX in *; lia).
  unfold dratio256. destruct (Z.eqb_spec (DEC * (c + 1)) 0); [unfold DEC in *; lia|].
  rewrite dec_cancel by lia.
  assert (0 <= (s * c + new) / (c + 1)) by (apply Z.div_pos; lia).
  assert ((s * c + new) / (c + 1) <= U128MAX) by (apply Z.div_le_upper_bound; nia).
  unfold u256. rewrite (proj2 (fits_iff U256MAX _)) by (unfold U256MAX, U128MAX, U32MAX in *; lia).
  rewrite dec256_into_dec_eq. unfold u128. rewrite (proj2 (fits_iff U128MAX _)) by lia. auto.
Qed.

(** ** The log and its recurrence *)
Definition last_obs (l : list obs) : option obs := match rev l with [] => None | x :: _ => Some x end.
Definition nprice (l : list obs) (i : nat) : Z := match nth_error l i with Some o => price o | None => 0 end.
Definition next_sma (cap : Z) (l : list obs) (new : Z) : option Z :=
  match last_obs l with
  | None => Some new
  | Some x =>
      let n := Z.of_nat (length l) in
      if n <? cap - 1 then Some ((sma x * n + new) / (n + 1))
      else let old := nprice l (Z.to_nat (n + 1 - cap)) in
           if sma x * cap + new <? old then None else u128 ((sma x * cap + new - old) / cap)
  end.
Inductive log_ok (cap : Z) : list obs -> Prop :=
| log_nil : log_ok cap []
| log_snoc l o : log_ok cap l -> is_u128 (price o) -> next_sma cap l (price o) = Some (sma o) ->
    (forall x, last_obs l = Some x -> ts x < ts o) -> log_ok cap (l ++ [o]).

Lemma last_obs_snoc l o : last_obs (l ++ [o]) = Some o.
Proof. unfold last_obs. rewrite rev_app_distr. reflexivity. Qed.
Lemma last_obs_None l : last_obs l = None -> l = [].
Proof. unfold last_obs. destruct (rev l) eqn:E; [|discriminate]. intros _. apply (f_equal (@rev obs)) in E.
  rewrite rev_involutive in E. auto. Qed.
Lemma last_obs_split l x : last_obs l = Some x -> exists l0, l = l0 ++ [x].
Proof.
  unfold last_obs. destruct (rev l) as [|y r] eqn:E; [discriminate|]. intros [= ->].
  exists (rev r). apply (f_equal (@rev obs)) in E. rewrite rev_involutive in E. simpl in E. auto.
Qed.
Lemma log_ok_inv cap l o : log_ok cap (l ++ [o]) ->
  log_ok cap l /\ is_u128 (price o) /\ next_sma cap l (price o) = Some (sma o) /\
  (forall x, last_obs l = Some x -> ts x < ts o).
Proof.
  intros H. inversion H as [E|l' o' L P N T E]; [destruct l; discriminate|].
  apply app_inj_tail in E as [-> ->]. auto.
Qed.
Lemma log_ok_prices cap l : log_ok cap l -> Forall (fun o => is_u128 (price o)) l.
Proof. induction 1; auto. apply Forall_app; auto. Qed.
Lemma log_ok_smas cap l : cap_ok cap -> log_ok cap l -> Forall (fun o => is_u128 (sma o)) l.
Proof.
  intros [C1 C2]. induction 1 as [|l o L IH P N T]; auto. apply Forall_app. split; auto. constructor; auto.
  unfold next_sma in N. destruct (last_obs l) as [x|] eqn:E; [|injection N as <-; auto].
  apply last_obs_split in E as (l0 & E). assert (X : is_u128 (sma x)).
  { rewrite E in IH. apply Forall_app in IH as [_ IH]. inversion IH; auto. }
  destruct (Z.ltb_spec (Z.of_nat (length l)) (cap - 1)).
  - injection N as <-. apply sma_not_full_eq; auto; lia.
  - destruct (_ <? _); [discriminate|]. apply u128_Some in N as [-> N]. auto.
Qed.
Lemma log_ok_increasing cap l : log_ok cap l -> increasing l.
Proof.
  induction 1 as [|l o L IH P N T]; simpl; auto.
  assert (Q : Forall (fun y => ts y < ts o) l).
  { destruct (last_obs l) as [x|] eqn:E; [|apply last_obs_None in E; subst; auto].
    specialize (T _ eq_refl). apply last_obs_split in E as (l0 & ->). clear - IH T.
    induction l0 as [|a l0 IHl]; simpl in *; [constructor; auto|]. destruct IH as [F I].
    apply Forall_app in F as [F1 F2]. inversion F2; subst. constructor; [lia|auto]. }
  clear - IH Q. induction l as [|a l IHl]; simpl in *; [auto|]. inversion Q; subst. destruct IH.
  split; [|auto]. apply Forall_app. auto.
Qed.
Lemma nprice_u128 cap l i : log_ok cap l -> is_u128 (nprice l i).
Proof.
  intros L. apply log_ok_prices in L. unfold nprice. destruct (nth_error l i) eqn:E.
  - apply nth_error_In in E. rewrite Forall_forall in L. auto.
  - unfold is_u128, U128MAX. lia.
Qed.

(** [accumulate] in terms of the log. *)
Definition acc_log (cap now : Z) (l : list obs) (p : precommit) : option (list obs) :=
  do observed <- dratio (base p) (quote p);
  match last_obs l with
  | None => if pre_ts p <? now then Some [mkObs (pre_ts p) observed observed] else Some []
  | Some x => if ts x <? pre_ts p
              then do s <- next_sma cap l observed; Some [mkObs (pre_ts p) observed s]
              else Some []
  end.
Lemma accumulate_log cap now l b p :
  cap_ok cap -> rep cap l b -> log_ok cap l ->
  match accumulate now b (Some p), acc_log cap now l p with
  | Some b', Some d => rep cap (l ++ d) b'
  | None, None => True
  | _, _ => False
  end.
Proof.
  intros [C1 C2] R L. unfold accumulate, acc_log.
  destruct (dratio (base p) (quote p)) as [ob|] eqn:E; auto.
  rewrite (read_last_rep cap l b ltac:(lia) ltac:(lia) R). fold (last_obs l).
  assert (Hob : is_u128 ob). { apply dratio_Some in E as (_ & -> & ?). auto. }
  destruct (last_obs l) as [x|] eqn:El.
  - destruct (ts x <? pre_ts p); [|rewrite app_nil_r; auto].
    pose proof R as [RC RH RA]. rewrite RH, RC.
    assert (Hn : (0 < length l)%nat). { destruct l; [discriminate|simpl; lia]. }
    pose proof (Z.mod_pos_bound (Z.of_nat (length l)) cap ltac:(lia)).
    unfold u32. rewrite (proj2 (fits_iff U32MAX _)) by lia.
    rewrite (read_single_rep cap l b _ ltac:(lia) R). rewrite mod_succ by lia.
    assert (Hs : is_u128 (sma x)).
    { pose proof (log_ok_smas cap l (conj C1 C2) L) as F. apply last_obs_split in El as (l0 & ->).
      apply Forall_app in F as [_ F]. inversion F; auto. }
    unfold next_sma. rewrite El. destruct (Z.ltb_spec (Z.of_nat (length l)) (cap - 1)) as [Q|Q].
    + rewrite (Z.mod_small (Z.of_nat (length l) + 1)) by lia. rewrite content_unused by lia.
      rewrite (Z.mod_small (Z.of_nat (length l))) by lia.
      destruct (sma_not_full_eq (sma x) (Z.of_nat (length l)) ob Hs Hob ltac:(lia)) as [-> _].
      destruct (instant_push_rep cap l b (mkObs (pre_ts p) ob ((sma x * Z.of_nat (length l) + ob) / (Z.of_nat (length l) + 1))) ltac:(lia) R)
        as (b' & -> & R'). auto.
    + replace ((Z.of_nat (length l) + 1) mod cap) with (Z.of_nat (Z.to_nat (Z.of_nat (length l) + 1 - cap)) mod cap).
      2:{ rewrite Z2Nat.id by lia. replace (Z.of_nat (length l) + 1) with (Z.of_nat (length l) + 1 - cap + 1 * cap) at 2 by lia.
          rewrite Z.mod_add by lia. auto. }
      rewrite content_recent by lia.
      set (j := Z.to_nat (Z.of_nat (length l) + 1 - cap)) in *.
      pose proof (nprice_u128 cap l j L) as Hp. unfold nprice in *.
      destruct (nth_error l j) as [o|] eqn:Ej; [|apply nth_error_None in Ej; lia].
      rewrite sma_full_eq by (auto; lia).
      destruct (_ <? _); auto. destruct (u128 _) as [s|] eqn:Es; auto.
      destruct (instant_push_rep cap l b (mkObs (pre_ts p) ob s) ltac:(lia) R) as (b' & -> & R'). auto.
  - apply last_obs_None in El. subst l. destruct (pre_ts p <? now).
    + destruct (instant_push_rep cap [] b (mkObs (pre_ts p) ob ob) ltac:(lia) R) as (b' & -> & R'). auto.
    + auto.
Qed.

(** ** Invariant of every history *)
Record inv (cap : Z) (l : list obs) (s : ostate) : Prop := mkInv
  { i_rep : rep cap l (buf s); i_log : log_ok cap l;
    i_pend : match pend s with
             | None => l = []
             | Some p => pre_ts p <= clock s /\ (forall x, last_obs l = Some x -> ts x <= pre_ts p)
             end }.
Lemma inv_init cap t0 : inv cap [] (oinit cap t0).
Proof. constructor; simpl; auto using rep_init; constructor. Qed.

Lemma newest_rep cap l b : cap_ok cap -> rep cap l b -> newest b = last_obs l.
Proof. intros [C1 C2] R. unfold newest. rewrite (read_last_rep cap l b ltac:(lia) ltac:(lia) R). reflexivity. Qed.

Lemma acc_log_shape cap now l p d : acc_log cap now l p = Some d ->
  d = [] \/ exists o, d = [o] /\ ts o = pre_ts p /\ dratio (base p) (quote p) = Some (price o) /\
    next_sma cap l (price o) = Some (sma o) /\ (forall x, last_obs l = Some x -> ts x < ts o) /\
    (l = [] -> pre_ts p < now).
Proof.
  unfold acc_log. intros H. unbind H as ob E.
  destruct (last_obs l) as [x|] eqn:El.
  - destruct (Z.ltb_spec (ts x) (pre_ts p)).
    + unbind H as s0 Es. injection H as <-. right. exists (mkObs (pre_ts p) ob s0). simpl.
      repeat split; auto. intros y [= <-]. auto. intros ->. discriminate.
    + injection H as <-. auto.
  - destruct (Z.ltb_spec (pre_ts p) now); injection H as <-; auto. right. exists (mkObs (pre_ts p) ob ob).
    simpl. unfold next_sma. rewrite El. repeat split; auto. discriminate.
Qed.
Lemma acc_log_ok cap now l p d : log_ok cap l -> acc_log cap now l p = Some d -> log_ok cap (l ++ d).
Proof.
  intros L H. apply acc_log_shape in H as [->|(o & -> & T & E & N & O & _)]; [rewrite app_nil_r; auto|].
  constructor; auto. apply dratio_Some in E as (_ & -> & ?). auto.
Qed.

(** One step, fully described. *)
Definition step_log (cap : Z) (l : list obs) (s : ostate) (o : oop) : option (list obs) :=
  match o with
  | Wait _ => Some []
  | Trade b q big => match pend s with None => Some [] | Some p => acc_log cap (clock s) l p end
  end.
Lemma trade_inv cap l s b q big s' :
  cap_ok cap -> inv cap l s -> trade s b q big = Some s' ->
  exists d, step_log cap l s (Trade b q big) = Some d /\ inv cap (l ++ d) s' /\ clock s' = clock s.
Proof.
  intros C [R L P] H. unfold trade in H. unbind H as bf E. simpl.
  assert (X : exists d, (match pend s with None => Some [] | Some p => acc_log cap (clock s) l p end) = Some d /\
     rep cap (l ++ d) bf /\ log_ok cap (l ++ d) /\
     match pend s with None => l ++ d = [] | Some p => pre_ts p <= clock s /\ (forall x, last_obs (l ++ d) = Some x -> ts x <= pre_ts p) end).
  { destruct (pend s) as [p|] eqn:Ep.
    - pose proof (accumulate_log cap (clock s) l (buf s) p C R L) as A. rewrite E in A.
      destruct (acc_log cap (clock s) l p) as [d|] eqn:Ed; [|contradiction]. exists d. split; auto. split; auto.
      split; [eapply acc_log_ok; eauto|]. destruct P as [P1 P2]. split; auto.
      apply acc_log_shape in Ed as [->|(o & -> & T & _)]; [rewrite app_nil_r; auto|].
      intros x Hx. rewrite last_obs_snoc in Hx. injection Hx as <-. lia.
    - simpl in E. injection E as <-. exists []. rewrite app_nil_r. auto. }
  destruct X as (d & Ed & R' & L' & P'). exists d. split; auto.
  destruct big.
  - unbind H as pc Epc. injection H as <-. simpl. split; auto. constructor; simpl; auto.
    assert (T : pre_ts pc = clock s).
    { unfold pre_save in Epc. destruct (pend s) as [p|]; [|injection Epc as <-; auto].
      destruct (clock s =? pre_ts p); [|injection Epc as <-; auto].
      unbind Epc as b' Eb'. unbind Epc as q' Eq'. injection Epc as <-. auto. }
    rewrite T. split; [lia|]. intros x Hx. destruct (pend s) as [p|].
    + destruct P' as [P1 P2]. specialize (P2 x Hx). lia.
    + rewrite P' in Hx. discriminate.
  - injection H as <-. simpl. split; auto. constructor; simpl; auto.
Qed.
Lemma fresh_same s o : buf (oexec s o) = buf s -> fresh s o = [].
Proof. intros E. unfold fresh. rewrite E. destruct (newest (buf s)); auto. rewrite Z.eqb_refl. auto. Qed.
Lemma oexec_inv cap l s o : cap_ok cap -> inv cap l s ->
  inv cap (l ++ fresh s o) (oexec s o) /\ clock s <= clock (oexec s o).
Proof.
  intros C I. destruct o as [d|b q big].
  - rewrite fresh_same, app_nil_r by (simpl; destruct (0 <=? d); auto). simpl.
    destruct (Z.leb_spec 0 d); simpl; [|split; [auto|lia]]. destruct I as [R L P].
    split; [|lia]. constructor; simpl; auto. destruct (pend s) as [p|]; auto. destruct P as [P1 P2].
    split; [lia|auto].
  - destruct (trade s b q big) as [s'|] eqn:E.
    2:{ rewrite fresh_same, app_nil_r by (simpl; rewrite E; destruct (_ && _); auto). simpl. rewrite E.
        destruct (_ && _); split; auto; lia. }
    destruct ((0 <=? b) && (0 <=? q)) eqn:B.
    2:{ rewrite fresh_same, app_nil_r by (simpl; rewrite B; auto). simpl. rewrite B. split; auto; lia. }
    destruct (trade_inv cap l s b q big s' C I E) as (d & D & I' & K).
    assert (Q : fresh s (Trade b q big) = d).
    { unfold fresh. simpl. rewrite B, E. pose proof (i_rep _ _ _ I') as R'. pose proof (i_rep _ _ _ I) as R.
      rewrite (newest_rep cap _ _ C R'), (newest_rep cap _ _ C R).
      simpl in D. destruct (pend s) as [p|].
      - apply acc_log_shape in D as [->|(o & -> & T & _ & _ & O & _)].
        + rewrite app_nil_r. destruct (last_obs l); auto. rewrite Z.eqb_refl. auto.
        + rewrite last_obs_snoc. destruct (last_obs l) as [y|]; auto.
          specialize (O y eq_refl). destruct (Z.eqb_spec (ts y) (ts o)); [lia|auto].
      - injection D as <-. rewrite app_nil_r. destruct (last_obs l); auto. rewrite Z.eqb_refl. auto. }
    rewrite Q. simpl. rewrite B, E. split; auto. lia.
Qed.
Lemma orun_inv cap ops : cap_ok cap -> forall l s, inv cap l s -> inv cap (l ++ log s ops) (orun s ops).
Proof.
  intros C. induction ops as [|o ops IH]; intros l s I; simpl.
  - rewrite app_nil_r. auto.
  - rewrite app_assoc. apply IH. apply oexec_inv; auto.
Qed.
Lemma orun_inv0 cap t0 ops : cap_ok cap -> inv cap (log (oinit cap t0) ops) (orun (oinit cap t0) ops).
Proof. intros C. apply (orun_inv cap ops C [] _ (inv_init cap t0)). Qed.

Lemma rep_holds cap l b : 0 < cap -> rep cap l b -> holds cap b l.
Proof.
  intros C R. pose proof R as [RC RH RA]. split; [auto|split].
  - intros j Hj. rewrite (read_single_rep cap l b _ C R). f_equal. apply content_recent; lia.
  - intros i Hi. rewrite (read_single_rep cap l b _ C R). rewrite Z.mod_small by lia. rewrite content_unused by lia. auto.
Qed.
