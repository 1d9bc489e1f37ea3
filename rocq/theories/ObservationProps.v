(** Theorems C39, C55, C56 and C57: price observations of the stable and concentrated pairs. *)
From Coq Require Import ZArith Lia Bool List.
From Verif Require Import Num Amap BufferModel BufferProofs ObservationModel ObservationSpec ObservationProofs
  ObservationQuery ObservationSma.
Import ListNotations.
Open Scope Z_scope.

Lemma size_ok : cap_ok OBSERVATIONS_SIZE. Proof. unfold cap_ok, OBSERVATIONS_SIZE, U32MAX. lia. Qed.

(** ** C39 *)
(** In every history the buffer holds the last [cap] observations ever made visible, with strictly
    increasing timestamps that lie in the past. *)
Theorem c39_buffer_is_recent_log cap t0 ops :
  cap_ok cap -> 0 <= t0 ->
  let s := orun (oinit cap t0) ops in let l := log (oinit cap t0) ops in
  holds cap (buf s) l /\ increasing l /\ Forall (fun o => ts o <= clock s) l.
Proof.
  intros C T s l. pose proof (orun_inv0 cap t0 ops C) as I. fold s l in I. destruct I as [R L P].
  split; [apply rep_holds; auto; destruct C; lia|]. split; [eapply log_ok_increasing; eauto|].
  destruct (pend s) as [p|]; [|rewrite P; auto]. destruct P as [P1 P2].
  destruct (last_obs l) as [x|] eqn:E; [|apply last_obs_None in E; rewrite E; auto].
  specialize (P2 x eq_refl). pose proof (log_ok_increasing _ _ L) as Inc. apply last_obs_split in E as (l0 & El).
  rewrite El in *. clear - Inc P1 P2. induction l0 as [|a l0 IH]; simpl in *; [repeat constructor; lia|].
  destruct Inc as [F Inc]. constructor; auto. apply Forall_app in F as [_ F]. inversion F; subst. lia.
Qed.

(** The query for [seconds_ago] in any state of any history with at least one stored observation:
    at or after the newest observation it returns the newest average; before the oldest stored one it is
    rejected; in between it returns a price between the two neighbouring observations, exact at them and
    otherwise on the straight line between them up to rounding. *)
Theorem c39_query cap t0 ops ago :
  cap_ok cap -> 0 <= t0 ->
  let s := orun (oinit cap t0) ops in let l := log (oinit cap t0) ops in
  is_u64 (clock s) -> 0 <= ago <= clock s -> l <> [] -> Forall (fun o => 0 <= ts o) l ->
  let t := clock s - ago in let kept := lastn cap l in
  exists old new, nth_error kept 0 = Some old /\ newest (buf s) = Some new /\
  (ts new <= t -> query_observation s ago = Some (t, sma new)) /\
  (t < ts old -> query_observation s ago = None) /\
  (ts old <= t < ts new -> exists x y p, adjacent kept x y /\ ts x <= t <= ts y /\
     query_observation s ago = Some (t, p) /\
     Z.min (sma x) (sma y) <= p <= Z.max (sma x) (sma y) /\
     (t = ts x -> p = sma x) /\ (t = ts y -> p = sma y) /\
     Z.abs (p * (ts y - ts x) - (sma x * (ts y - t) + sma y * (t - ts x))) <=
      (ts y - ts x) * (t - ts x) * (Z.abs (sma y - sma x) / DEC + 2)).
Proof.
  intros C T s l UC UA NE Pos t kept. pose proof (orun_inv0 cap t0 ops C) as I. fold s l in I.
  destruct (c39_buffer_is_recent_log cap t0 ops C T) as (_ & Inc & Past). fold s l in Inc, Past.
  destruct I as [R L P]. rewrite (newest_rep cap l (buf s) C R).
  apply query_ok; auto. pose proof (log_ok_smas _ _ C L) as Sm.
  rewrite Forall_forall in *. intros o Ho. split; [|auto]. unfold is_u64 in *. specialize (Past o Ho).
  specialize (Pos o Ho). lia.
Qed.
(** With nothing stored yet the query answers from the pending trades of the first block, if any. *)
Theorem c39_query_empty cap t0 ops ago :
  cap_ok cap -> 0 <= t0 ->
  let s := orun (oinit cap t0) ops in is_u64 (clock s) -> 0 <= ago <= clock s ->
  newest (buf s) = None ->
  query_observation s ago =
  match pend s with
  | Some p => if pre_ts p <=? clock s - ago
              then match dratio (base p) (quote p) with Some x => Some (clock s - ago, x) | None => None end
              else None
  | None => None
  end.
Proof.
  intros C T s UC UA NE. pose proof (orun_inv0 cap t0 ops C) as I. fold s in I. destruct I as [R L P].
  rewrite (newest_rep cap _ (buf s) C R) in NE. apply last_obs_None in NE. rewrite NE in R.
  destruct C as [C1 C2]. destruct R as [RC RH RA]. unfold query_observation, sub64, u64, is_u64 in *.
  rewrite (proj2 (fits_iff U64MAX _)) by lia. rewrite RC, RH. simpl Z.of_nat. rewrite Z.mod_0_l by lia.
  unfold u32. rewrite (proj2 (fits_iff U32MAX _)) by lia. rewrite (proj2 (fits_iff U32MAX _)) by lia.
  unfold buf_exists. rewrite RC. destruct (Z.eqb_spec cap 0); [lia|]. cbn [negb]. rewrite RA, content_nil. reflexivity.
Qed.
(** Six trades into a buffer of four, queried between two stored observations. *)
Example c39_example :
  let ops := [Wait 10; Trade 5 DEC true; Wait 10; Trade 9 DEC true; Wait 10; Trade 13 DEC true; Wait 10;
              Trade 8 DEC true; Wait 10; Trade 40 DEC true; Wait 10; Trade 100 DEC true; Wait 10; Trade 7 DEC true] in
  let s := orun (oinit 4 1000) ops in
  map (fun o => (ts o, sma o)) (log (oinit 4 1000) ops) =
    [(1010, 5); (1020, 7); (1030, 9); (1040, 9); (1050, 16); (1060, 37)] /\
  clock s = 1070 /\ map (query_observation s) [0; 10; 12; 15; 20; 25; 40; 41] =
    [Some (1070, 37); Some (1060, 37); Some (1058, 32); Some (1055, 26); Some (1050, 16); Some (1045, 9);
     Some (1030, 9); None].
Proof. vm_compute. repeat split. Qed.

(** ** C55 *)
(** What the moving average is. While fewer than [cap] observations were made it is their mean up to
    rounding. From then on it is the sum of the last [cap-1] prices plus one phantom price, the mean of the
    very first [cap-1] observations, divided by [cap]; rounding lowers it by up to one unit per observation. *)
Theorem c55_moving_average cap t0 ops o :
  cap_ok cap ->
  let s := orun (oinit cap t0) ops in let l := log (oinit cap t0) ops in
  let n := Z.of_nat (length l) in
  newest (buf s) = Some o ->
  (n < cap -> 2 * total (map price l) - n * (n - 1) <= 2 * (n * sma o) <= 2 * total (map price l)) /\
  (cap <= n -> exists ph,
     2 * total (firstn (Z.to_nat (cap - 1)) (map price l)) - (cap - 1) * (cap - 2) <= 2 * ((cap - 1) * ph)
       <= 2 * total (firstn (Z.to_nat (cap - 1)) (map price l)) /\
     total (lastn (cap - 1) (map price l)) + ph - (cap - 1) * (n - 1) <= cap * sma o
       <= total (lastn (cap - 1) (map price l)) + ph).
Proof.
  intros C s l n N. pose proof C as [C1 C2]. pose proof (orun_inv0 cap t0 ops C) as I. fold s l in I.
  destruct I as [R L P]. rewrite (newest_rep cap _ (buf s) C R) in N.
  pose proof (last_obs_nsma l o N) as E.
  assert (Hl : (0 < length l)%nat) by (destruct l; [discriminate|simpl; lia]).
  assert (All : psum l (S (length l - 1)) = total (map price l)).
  { unfold psum. rewrite firstn_all2 by (rewrite map_length; lia). auto. }
  split; intros H.
  - destruct (filling cap l (length l - 1) C L ltac:(lia) ltac:(lia)) as [F1 F2]. rewrite All, E in *.
    replace (Z.of_nat (length l - 1)) with (n - 1) in * by (unfold n; lia).
    replace (n - 1 + 1) with n in * by lia. lia.
  - exists (nsma l (Z.to_nat (cap - 2))).
    destruct (filling cap l (Z.to_nat (cap - 2)) C L ltac:(lia) ltac:(lia)) as [F1 F2].
    destruct (rolling cap l (length l - 1) C L ltac:(lia) ltac:(lia)) as [[R1 R2] _]. rewrite All, E in *.
    replace (S (Z.to_nat (cap - 2))) with (Z.to_nat (cap - 1)) in * by lia. fold (psum l (Z.to_nat (cap - 1))).
    rewrite Z2Nat.id in * by lia. replace (cap - 2 + 1) with (cap - 1) in * by lia.
    assert (W : total (lastn (cap - 1) (map price l)) =
      total (map price l) - psum l (Z.to_nat (Z.of_nat (length l - 1) + 2 - cap))).
    { unfold lastn, psum. rewrite map_length.
      replace (Z.to_nat (Z.of_nat (length l - 1) + 2 - cap)) with (length l - Z.to_nat (cap - 1))%nat by lia.
      rewrite <- (firstn_skipn (length l - Z.to_nat (cap - 1)) (map price l)) at 2. rewrite total_app. lia. }
    rewrite W. replace (Z.of_nat (length l - 1)) with (n - 1) in * by (unfold n; lia). lia.
Qed.

Lemma total_repeat x k : total (repeat x k) = Z.of_nat k * x.
Proof.
  induction k; [reflexivity|]. cbn [repeat total fold_right]. fold (total (repeat x k)). rewrite IHk. lia.
Qed.
Lemma firstn_self {A} (l r : list A) k : k = length l -> firstn k (l ++ r) = l.
Proof. intros ->. rewrite firstn_app, Nat.sub_diag, firstn_all. simpl. apply app_nil_r. Qed.
Lemma Forall_repeat {A} (Q : A -> Prop) x k : Q x -> Forall Q (repeat x k).
Proof. intros. induction k; simpl; auto. Qed.
Lemma two_phase cap A B : cap_ok cap -> 2 * cap <= B -> B <= A -> A <= U128MAX ->
  exists ops, map price (log (oinit cap 0) ops) = repeat A (Z.to_nat (cap - 1)) ++ repeat B (Z.to_nat cap).
Proof.
  intros C HB HA HM. pose proof C as [C1 C2].
  destruct (first_tick cap 0 A C ltac:(lia)) as (E & I & At & K).
  set (ps := repeat A (Z.to_nat (cap - 2)) ++ repeat B (Z.to_nat (cap + 1))).
  assert (Lp : length ps = Z.to_nat (2 * cap - 1)).
  { unfold ps. rewrite app_length, !repeat_length. lia. }
  destruct (ticks_log cap B A ps C ltac:(lia) HM) with (l := @nil obs) (s := orun (oinit cap 0) (tick A)) (p := A)
    as (M & _ & _); auto; try lia.
  - unfold ps. apply Forall_app. split; apply Forall_repeat; lia.
  - discriminate.
  - simpl length. rewrite Lp. lia.
  - exists (tick A ++ ticks ps). rewrite log_app, E, app_nil_l, M.
    replace (A :: ps) with ((repeat A (Z.to_nat (cap - 1)) ++ repeat B (Z.to_nat cap)) ++ [B]).
    + apply firstn_self. rewrite app_length, !repeat_length, Lp. lia.
    + unfold ps. replace (Z.to_nat (cap - 1)) with (S (Z.to_nat (cap - 2))) by lia.
      replace (Z.to_nat (cap + 1)) with (S (Z.to_nat cap)) by lia.
      rewrite <- app_assoc. simpl. f_equal. f_equal. symmetry. apply repeat_cons.
Qed.
(** Intended: the average reflects the stored observations. False: with the real buffer size there is a
    history after which all 3000 stored observations have the price 0.001 while the published average is
    more than four times that, because the pool's first prices still count. *)
Theorem c55_average_of_stored_prices_refuted :
  exists ops o, newest (buf (orun (oinit OBSERVATIONS_SIZE 0) ops)) = Some o /\
    let l := log (oinit OBSERVATIONS_SIZE 0) ops in
    OBSERVATIONS_SIZE <= Z.of_nat (length l) /\
    Forall (fun p => p = DEC / 1000) (lastn OBSERVATIONS_SIZE (map price l)) /\ 4 * (DEC / 1000) < sma o.
Proof.
  set (A := 10 * DEC). set (B := DEC / 1000). pose proof size_ok as Ok.
  assert (Cv : OBSERVATIONS_SIZE = 3000) by reflexivity. revert Ok Cv. generalize OBSERVATIONS_SIZE as cap. intros cap Ok Cv.
  assert (Bnd : 6000 <= B /\ B <= A /\ A <= U128MAX) by (repeat split; vm_compute; discriminate).
  destruct (two_phase cap A B Ok ltac:(lia) ltac:(lia) ltac:(lia)) as (ops & M).
  exists ops. set (l := log (oinit cap 0) ops) in *. cbv zeta.
  assert (Ln : length l = (Z.to_nat (cap - 1) + Z.to_nat cap)%nat).
  { rewrite <- (map_length price), M, app_length, !repeat_length. auto. }
  pose proof (orun_inv0 cap 0 ops Ok) as I. fold l in I.
  destruct (last_obs l) as [o|] eqn:El.
  2:{ apply last_obs_None in El. rewrite El in Ln. simpl length in Ln. lia. }
  exists o. pose proof (newest_rep cap l _ Ok (i_rep _ _ _ I)) as N. rewrite El in N. split; [exact N|].
  split; [lia|]. split.
  - unfold lastn. rewrite M, app_length, !repeat_length.
    replace (Z.to_nat (cap - 1) + Z.to_nat cap - Z.to_nat cap)%nat with (length (repeat A (Z.to_nat (cap - 1)))) by (rewrite repeat_length; lia).
    rewrite skipn_app, skipn_all, Nat.sub_diag. cbn [skipn app]. apply Forall_repeat. reflexivity.
  - destruct (c55_moving_average cap 0 ops o Ok N) as (_ & Q). fold l in Q.
    destruct (Q ltac:(lia)) as (ph & (H1 & _) & H2 & _).
    rewrite M in H1, H2. rewrite firstn_self in H1 by (rewrite repeat_length; auto). rewrite total_repeat in H1.
    assert (W : lastn (cap - 1) (repeat A (Z.to_nat (cap - 1)) ++ repeat B (Z.to_nat cap)) = repeat B (Z.to_nat (cap - 1))).
    { unfold lastn. rewrite app_length, !repeat_length.
      replace (Z.to_nat cap) with (1 + Z.to_nat (cap - 1))%nat by lia. rewrite repeat_app, app_assoc.
      replace (Z.to_nat (cap - 1) + (1 + Z.to_nat (cap - 1)) - Z.to_nat (cap - 1))%nat
        with (length (repeat A (Z.to_nat (cap - 1)) ++ repeat B 1)) by (rewrite app_length, !repeat_length; lia).
      rewrite skipn_app, skipn_all, Nat.sub_diag. reflexivity. }
    rewrite W, total_repeat in H2.
    assert (Nl : Z.of_nat (length l) = 5999) by lia. rewrite Nl in H2. rewrite Z2Nat.id in H1, H2 by lia.
    rewrite Cv in H1, H2. change A with 10000000000000000000 in H1. change B with 1000000000000000 in *.
    clear - H1 H2. nia.
Qed.

(** ** C56 *)
(** As long as every price is at least as large, in 18-digit units, as the number of observations made so
    far, recording the pending observation cannot fail, so it does not stop the swap. *)
Theorem c56_small_pools_keep_trading cap t0 ops b q lo :
  cap_ok cap -> 
  let s := orun (oinit cap t0) ops in let l := log (oinit cap t0) ops in
  Z.of_nat (length l) <= lo -> Forall (fun o => lo <= price o) l ->
  match pend s with None => True | Some p => exists r, dratio (base p) (quote p) = Some r /\ lo <= r end ->
  (exists s', trade s b q false = Some s') /\
  (match pend s with Some p => is_u128 (base p + b) /\ is_u128 (quote p + q) | None => True end ->
   exists s', trade s b q true = Some s').
Proof.
  intros C s l Hn F Hp. pose proof (orun_inv0 cap t0 ops C) as I. fold s l in I.
  assert (F' : Forall (fun o => lo <= price o <= U128MAX) l).
  { pose proof (log_ok_prices _ _ (i_log _ _ _ I)) as U. rewrite Forall_forall in *. intros o Ho.
    specialize (F o Ho). specialize (U o Ho). unfold is_u128 in U. lia. }
  assert (Hp' : match pend s with None => True | Some p => exists r, dratio (base p) (quote p) = Some r /\ lo <= r <= U128MAX end).
  { destruct (pend s) as [p|]; auto. destruct Hp as (r & E & H). exists r. split; auto.
    apply dratio_Some in E as (_ & -> & ?). lia. }
  split; [|intros Hb]; apply (trade_succeeds cap l s b q _ lo U128MAX C I F'); auto; try lia; try discriminate.
  intros _. unfold pre_save. destruct (pend s) as [p|]; [|eauto]. destruct Hb as [B1 B2]. unfold is_u128 in *.
  destruct (clock s =? pre_ts p); [|eauto].
  unfold add128, u128. rewrite !(proj2 (fits_iff U128MAX _)) by lia. eauto.
Qed.
(** Intended: recording observations never stops trading. False: for every price level P (in 18-digit
    units) the real buffer freezes for ever after 3001 + 2P ordinary trades at the prices P and P + 1, one per
    second; from then on every swap of the pool fails, whatever its size and time. *)
Theorem c56_observations_never_stop_trading_refuted (P : Z) :
  1 <= P -> P + 1 <= U128MAX ->
  exists ops,
    Forall (fun o => match o with Wait d => d = 1
                     | Trade b q big => P <= b <= P + 1 /\ q = DEC /\ big = true end) ops /\
    forall later b q big, trade (orun (orun (oinit OBSERVATIONS_SIZE 0) ops) later) b q big = None.
Proof.
  intros H1 H2. set (n := Z.to_nat (OBSERVATIONS_SIZE + 2 * P)).
  exists (ticks (alts P 0 (S n))). split; [apply ticks_prices|].
  intros later b q big. apply frozen_trade; auto using size_ok. unfold n. rewrite Z2Nat.id; [auto|unfold OBSERVATIONS_SIZE; lia].
Qed.
(** The same drift on a small buffer: capacity 4, prices 2 and 3 units, frozen after 9 trades. *)
Example c56_example :
  let ops := ticks [2; 3; 2; 3; 2; 3; 2; 3; 2] in
  map sma (log (oinit 4 0) ops) = [2; 2; 2; 2; 1; 1; 0; 0] /\
  map (fun d => trade (oexec (orun (oinit 4 0) ops) (Wait d)) 5 DEC true) [0; 1; 1000000] = [None; None; None].
Proof. vm_compute. split; reflexivity. Qed.
Example c56_small_example :
  let ops := ticks [10; 13; 12; 13; 11; 13; 14] in
  length (log (oinit 4 0) ops) = 6%nat /\ Forall (fun o => 10 <= price o) (log (oinit 4 0) ops) /\
  exists s', trade (orun (oinit 4 0) ops) 5 DEC true = Some s'.
Proof.
  split; [vm_compute; reflexivity|]. split.
  - vm_compute. repeat constructor; discriminate.
  - eexists. vm_compute. reflexivity.
Qed.

(** ** C57 *)
(** Once the buffer is in use, the observation recorded for a second carries the price of the FIRST counted
    trade of that second, whatever is traded later in it. *)
Theorem c57_first_trade_decides cap t0 ops b q s1 later o :
  cap_ok cap ->
  let s := orun (oinit cap t0) ops in
  newest (buf s) <> None ->
  match pend s with Some p => pre_ts p < clock s | None => True end ->
  trade s b q true = Some s1 ->
  In o (log s1 later) -> ts o = clock s -> dratio b q = Some (price o).
Proof.
  intros C s NE Pt T Ho To. pose proof (orun_inv0 cap t0 ops C) as I. fold s in I.
  set (l := log (oinit cap t0) ops) in *.
  rewrite (newest_rep cap l _ C (i_rep _ _ _ I)) in NE.
  destruct (trade_inv _ _ _ _ _ _ _ C I T) as (d & D & I1 & K). simpl in D.
  destruct I as [R L P]. destruct (pend s) as [p|] eqn:Ep; [|rewrite P in NE; exfalso; apply NE; reflexivity].
  assert (P1 : pend s1 = Some (mkPre b q (clock s))).
  { unfold trade in T. unbind T as bf Eb. unbind T as pc Epc. injection T as <-. simpl.
    unfold pre_save in Epc. rewrite Ep in Epc. destruct (Z.eqb_spec (clock s) (pre_ts p)); [lia|congruence]. }
  destruct (last_obs (l ++ d)) as [x|] eqn:Lx.
  2:{ apply last_obs_None in Lx. apply app_eq_nil in Lx as [Z0 _]. rewrite Z0 in NE. exfalso. apply NE. reflexivity. }
  apply (first_trade_decides cap later C (l ++ d) s1 b q (clock s) x); auto.
  destruct P as [P2 P3]. apply acc_log_shape in D as [->|(o' & -> & To' & _)].
  - rewrite app_nil_r in Lx. specialize (P3 x Lx). lia.
  - rewrite last_obs_snoc in Lx. injection Lx as <-. lia.
Qed.
(** Only the very first observation aggregates its block: total base over total quote. *)
Theorem c57_first_observation_aggregates cap t0 trades d b q big p :
  cap_ok cap -> trades <> [] -> 0 < d -> 0 <= b -> 0 <= q ->
  Forall (fun x => 0 <= fst x /\ 0 < snd x) trades ->
  total (map fst trades) * DEC <= U128MAX -> total (map snd trades) <= U128MAX ->
  dratio (total (map fst trades)) (total (map snd trades)) = Some p ->
  newest (buf (orun (oinit cap t0)
    (map (fun x => Trade (fst x) (snd x) true) trades ++ [Wait d; Trade b q big]))) = Some (mkObs t0 p p).
Proof.
  intros C NE Hd Hb Hq F B1 B2 Ep. pose proof C as [C1 C2].
  assert (G : forall trs, Forall (fun x => 0 <= fst x /\ 0 < snd x) trs -> forall pb pq,
    0 <= pb -> 0 < pq -> (pb + total (map fst trs)) * DEC <= U128MAX -> pq + total (map snd trs) <= U128MAX ->
    orun (mkO t0 (buf_init cap) (Some (mkPre pb pq t0))) (map (fun x => Trade (fst x) (snd x) true) trs) =
    mkO t0 (buf_init cap) (Some (mkPre (pb + total (map fst trs)) (pq + total (map snd trs)) t0))).
  { induction 1 as [|[b1 q1] trs [X1 X2] F' IH]; intros pb pq H1 H2 H3 H4; simpl in H3, H4 |- *.
    - rewrite !Z.add_0_r. reflexivity.
    - simpl in X1, X2. assert (S1 : 0 <= total (map fst trs)) by (clear - F'; induction F' as [|? ? [? ?]]; simpl; lia).
      assert (S2 : 0 <= total (map snd trs)) by (clear - F'; induction F' as [|? ? [? ?]]; simpl; lia).
      assert (dp : 0 < DEC) by reflexivity.
      assert (HD : pb * DEC <= U128MAX) by nia.
      assert (E : trade (mkO t0 (buf_init cap) (Some (mkPre pb pq t0))) b1 q1 true =
        Some (mkO t0 (buf_init cap) (Some (mkPre (pb + b1) (pq + q1) t0)))).
      { unfold trade, accumulate, pre_save. cbn [clock buf pend base quote pre_ts].
        unfold dratio. destruct (Z.eqb_spec pq 0); [lia|].
        assert (0 <= pb * DEC / pq) by (apply Z.div_pos; lia).
        assert (pb * DEC / pq <= U128MAX) by (apply Z.div_le_upper_bound; nia).
        unfold u128 at 1. rewrite (proj2 (fits_iff U128MAX _)) by lia.
        rewrite (read_last_rep cap [] (buf_init cap) ltac:(lia) ltac:(lia) (rep_init cap)). simpl rev. cbn iota.
        rewrite Z.ltb_irrefl, Z.eqb_refl. unfold add128, u128.
        rewrite !(proj2 (fits_iff U128MAX _)) by nia. reflexivity. }
      unfold orun in *. cbn [fold_left oexec]. destruct (Z.leb_spec 0 b1); [|lia]. destruct (Z.leb_spec 0 q1); [|lia].
      cbn [andb]. rewrite E. rewrite (IH (pb + b1) (pq + q1)) by (try lia; nia).
      do 3 f_equal; lia. }
  destruct trades as [|[b1 q1] trs]; [congruence|]. inversion F as [|? ? [X1 X2] F']; subst. simpl in X1, X2.
  rewrite orun_app. unfold orun at 2. cbn [map fold_left oexec fst snd].
  destruct (Z.leb_spec 0 b1); [|lia]. destruct (Z.leb_spec 0 q1); [|lia]. cbn [andb].
  unfold trade at 1. cbn [accumulate pre_save oinit clock buf pend]. fold (orun (mkO t0 (buf_init cap) (Some (mkPre b1 q1 t0))) (map (fun x => Trade (fst x) (snd x) true) trs)).
  simpl map in *. simpl total in *. rewrite (G trs F' b1 q1) by lia.
  set (tb := b1 + _) in *. set (tq := q1 + _) in *.
  unfold orun. cbn [fold_left]. unfold oexec at 2. destruct (Z.leb_spec 0 d); [|lia]. cbn [clock buf pend].
  unfold oexec. destruct (Z.leb_spec 0 b); [|lia]. destruct (Z.leb_spec 0 q); [|lia]. cbn [andb].
  set (s2 := mkO _ _ _).
  assert (I2 : inv cap [] s2).
  { unfold s2. constructor; cbn [pend clock buf pre_ts]; auto using rep_init; [constructor|]. split; [lia|discriminate]. }
  destruct (instant_push_rep cap [] (buf_init cap) (mkObs t0 p p) ltac:(lia) (rep_init cap)) as (bf & Eb & Rb).
  assert (Q : exists s3, trade s2 b q big = Some s3 /\ buf s3 = bf).
  { unfold trade, s2, accumulate. cbn [clock buf pend base quote pre_ts]. rewrite Ep.
    rewrite (read_last_rep cap [] (buf_init cap) ltac:(lia) ltac:(lia) (rep_init cap)). simpl rev. cbn iota.
    destruct (Z.ltb_spec t0 (t0 + d)); [|lia]. rewrite Eb.
    destruct big; [|eexists; split; [reflexivity|reflexivity]].
    unfold pre_save. cbn [pre_ts]. destruct (Z.eqb_spec (t0 + d) t0); [lia|]. eexists; split; reflexivity. }
  destruct Q as (s3 & -> & <-). rewrite (newest_rep cap _ _ C Rb). reflexivity.
Qed.
(** Intended: an observation is the block's total base over total quote. False: two trades in one second
    with the buffer in use, the recorded price is that of the first although the block traded at half of it. *)
Theorem c57_block_aggregate_refuted :
  exists ops b1 q1 b2 q2 o,
    let s := orun (oinit OBSERVATIONS_SIZE 0) ops in
    newest (buf (orun s [Trade b1 q1 true; Trade b2 q2 true; Wait 5; Trade b1 q1 true])) = Some o /\
    ts o = clock s /\ 0 < b1 /\ 0 < q1 /\ 0 < b2 /\ 0 < q2 /\
    match pend s with Some p => pre_ts p < clock s | None => True end /\
    dratio b1 q1 = Some (price o) /\ dratio (b1 + b2) (q1 + q2) = Some (price o / 2).
Proof.
  exists [Trade 1000 1000 true; Wait 5; Trade 1000 1000 true; Wait 5], 1000, 1000, 1000, 3000.
  eexists. cbv zeta. split; [vm_compute; reflexivity|]. vm_compute. repeat split.
Qed.

Print Assumptions c39_buffer_is_recent_log.
Print Assumptions c39_query.
Print Assumptions c39_query_empty.
Print Assumptions c55_moving_average.
Print Assumptions c55_average_of_stored_prices_refuted.
Print Assumptions c56_small_pools_keep_trading.
Print Assumptions c56_observations_never_stop_trading_refuted.
Print Assumptions c57_first_trade_decides.
Print Assumptions c57_first_observation_aggregates.
Print Assumptions c57_block_aggregate_refuted.
