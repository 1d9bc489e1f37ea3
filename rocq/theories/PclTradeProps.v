(** Concentrated pair: round trips (C94), parameter changes that block trading (C98), and concrete cases of C89-C91, C96. *)
From Coq Require Import ZArith Lia Bool List.
From Verif Require Import Num Ledger SnapshotModel BufferModel PclMath PclModel PclParamProps PclProofs PclSwapProps PclLpProps.
From Verif Require XykModel OwnershipModel ObservationModel.
Import ListNotations.
Open Scope Z_scope.

Lemma reach_from t amp gamma sc q0 q1 s0 l : instantiate t 1 (std 230000000000000) amp gamma sc true q0 q1 true true = Some s0 ->
  0 <= t <= U64MAX -> timely t l -> Forall (fun em => env_ok (fst em)) l -> reach (end_time t l) (run s0 l).
Proof.
  intros I B T F. exists t, 1, (std 230000000000000), amp, gamma, sc, true, q0, q1, true, true, s0, l.
  split; [exact B|]. split; [exact I|]. split; [exact T|]. auto.
Qed.

(** ** C94 *)

Lemma timely_app t l e m : timely t l -> end_time t l <= now e -> timely t (l ++ [(e, m)]).
Proof.
  revert t. induction l as [|[e' m'] l IH]; intros t T E; cbn [timely end_time app] in *; [auto|].
  destruct T as (T1 & T2). split; [exact T1|]. exact (IH _ T2 E).
Qed.
Lemma end_time_app t l e m : end_time t (l ++ [(e, m)]) = now e.
Proof. revert t. induction l as [|[e' m'] l IH]; intros t; cbn [end_time app]; [reflexivity|apply IH]. Qed.
Lemma reach_step c s e m s' o : reach c s -> env_ok e -> c <= now e -> step e m s = Some (s', o) -> reach (now e) s'.
Proof.
  intros (t & h & u & am & ga & ps & tr & q0 & q1 & n0 & n1 & s0 & l & Ht & I0 & T & E & -> & ->) Ee C H.
  exists t, h, u, am, ga, ps, tr, q0, q1, n0, n1, s0, (l ++ [(e, m)]).
  split; [exact Ht|]. split; [exact I0|]. split; [exact (timely_app _ _ _ _ T C)|].
  split; [apply Forall_app; split; [exact E|constructor; [exact Ee|constructor]]|].
  split; [|symmetry; apply end_time_app]. unfold run. rewrite fold_left_app. cbn [fold_left]. fold (run s0 l).
  unfold exec. cbn [fst snd]. rewrite H. reflexivity.
Qed.

(** A round trip of normal trades (at least 1e-5 of an 18-decimal asset on each side), outside a parameter change and
    without a move of the price scale, does not lower the LP price, neither at once nor in the end: whatever the trader
    gains does not come out of the value of the LP tokens. *)
Theorem c94_normal_round_trip : forall c s e one a bel ms bel' ms' s1 s2 b sp comm mk sh back sp' comm' mk' sh' v1 v2,
  reach c s -> env_ok e -> fees_ok e -> c <= now e ->
  p0 s = 18 -> p1 s = 18 -> f_time (rmp s) <= now e -> 0 < supply s -> 0 < xreal (pst s) ->
  0 < min_delta (par s) -> 10 ^ 18 * (min_delta (par s) + 2 * 10 ^ 18) <= min_delta (par s) * min_delta (par s) * scale (pst s) ->
  step e (Swap one a bel ms) s = Some (s1, OSwap b sp comm mk sh) ->
  step e (Swap (negb one) b bel' ms') s1 = Some (s2, OSwap back sp' comm' mk' sh') ->
  10 ^ 13 <= a -> 10 ^ 13 <= b -> 10 ^ 13 <= back -> scale (pst s1) = scale (pst s) -> scale (pst s2) = scale (pst s) ->
  query_lp_price (now e) s1 = Some v1 -> query_lp_price (now e) s2 = Some v2 ->
  xreal (pst s) <= v1 <= v2.
Proof.
  intros c s e one a bel ms bel' ms' s1 s2 b sp comm mk sh back sp' comm' mk' sh' v1 v2
    R Ee Fe C P0 P1 F S0 X0 Md Mb H1 H2 A B Bk Sc1 Sc2 Q1 Q2.
  destruct (c88_swap _ _ _ _ _ _ _ _ _ R Fe H1) as (r' & sp0 & c0 & m0 & h0 & K & K1). injection K as <- <- <- <- <-.
  cbv zeta in K1. destruct K1 as (_ & _ & _ & _ & G1 & G2 & _ & _ & _ & _ & _ & _ & Su & _ & Pa & Rm).
  pose proof (reach_step _ _ _ _ _ _ R Ee C H1) as R1.
  destruct (c88_swap _ _ _ _ _ _ _ _ _ R1 Fe H2) as (r' & sp0 & c0 & m0 & h0 & K & K1). injection K as <- <- <- <- <-.
  cbv zeta in K1. destruct K1 as (_ & _ & _ & _ & G3 & G4 & _).
  destruct (c89_lp_price _ _ _ _ _ _ _ _ _ _ _ _ _ v1 R Fe H1) as (E1 & L1); try assumption; try lia.
  assert (PP : p0 s1 = 18 /\ p1 s1 = 18).
  { cbn [step] in H1. unguard H1 G. apply swap_inv in H1 as (r' & sp0 & c0 & m0 & h0 & _ & FF).
    destruct FF as [(off & x0 & x1 & old & fs & res & of_ & ps & cc & ob & pe & FF) _ _].
    destruct FF as (_ & _ & _ & _ & _ & _ & _ & _ & _ & _ & _ & _ & _ & _ & _ & _ & _ & _ & _ & _ & _ & _ & ->).
    destruct cc as [[? ?] ?]. cbn. auto. }
  destruct PP as (PP0 & PP1).
  destruct (c89_lp_price _ _ _ _ _ _ _ _ _ _ _ _ _ v2 R1 Fe H2) as (E2 & L2);
    rewrite ?Rm, ?Su, ?Pa, ?Sc1; try assumption; try lia.
Qed.

(** The claim is false for tiny trades: outside any parameter change, a trader turns 10^9 units of an 18-decimal asset
    into more than 1800 times as much by swapping it and swapping the return back in the same second. *)
Definition t94 : state :=
  init0 (instantiate 1000 1 (std 230000000000000) (11 * DEC / 10) 20000000000 DEC true 18 18 true true).
Definition l94 : list (env * msg) :=
  [(at_ 1010, Provide 5 (70000000 * DEC) (70000000 * DEC) None None);
   (at_ 1010, Swap true (14000000 * DEC) None (Some HALF_D))].
Definition s94 : state := Eval vm_compute in run t94 l94.
Lemma s94_ok : run t94 l94 = s94.
Proof. vm_compute. reflexivity. Qed.
Definition s94a : state := Eval vm_compute in exec s94 (at_ 2000, Swap false (10 ^ 9) (Some (10 ^ 30)) None).
Definition s94b : state := Eval vm_compute in exec s94a (at_ 2000, Swap true 885054874868 (Some (10 ^ 30)) None).
Theorem c94_refuted : exists c s e s1 s2 b back sp1 sp2 f1 f2, reach c s /\ c <= now e /\ f_time (rmp s) <= now e /\
  step e (Swap false (10 ^ 9) (Some (10 ^ 30)) None) s = Some (s1, OSwap b sp1 f1 0 0) /\
  step e (Swap true b (Some (10 ^ 30)) None) s1 = Some (s2, OSwap back sp2 f2 0 0) /\
  1800 * 10 ^ 9 < back.
Proof.
  exists 1010, s94, (at_ 2000), s94a, s94b, 885054874868, 1839537739673, 0, 0, 3988776089, 8290451089.
  split.
  { rewrite <- s94_ok. apply (reach_from 1000 (11 * DEC / 10) 20000000000 DEC 18 18 t94 l94);
      [vm_compute; reflexivity|vm_compute; split; discriminate|simpl; lia|repeat constructor; vm_compute; discriminate]. }
  split; [vm_compute; discriminate|]. split; [vm_compute; discriminate|].
  split; [vm_compute; reflexivity|]. split; [vm_compute; reflexivity|]. reflexivity.
Qed.

(** ** C98 and the negative half of C89 *)

(** A pool of 10^6 + 10^6 tokens with amplification 100, after three trades; the owner starts a permitted change of
    the amplification to 10 over a day. *)
Definition t98 : state :=
  init0 (instantiate 10000 1 (std 230000000000000) (100 * DEC) 145000000000000 DEC true 6 6 true true).
Definition l98 : list (env * msg) :=
  [(at_ 100000, Provide 5 (10 ^ 12) (10 ^ 12) None None);
   (at_ 100100, Swap false (10 ^ 10) None None); (at_ 100110, Swap false (10 ^ 10) None None);
   (at_ 100120, Swap false (10 ^ 10) None None)].
Definition s98 : state := Eval vm_compute in run t98 l98.
Lemma s98_ok : run t98 l98 = s98.
Proof. vm_compute. reflexivity. Qed.
Definition s98' : state := Eval vm_compute in exec s98 (at_ 100200, Promote 7 (10 * DEC) 145000000000000 186600).
Lemma s98_reach : reach 100120 s98.
Proof.
  rewrite <- s98_ok. apply (reach_from 10000 (100 * DEC) 145000000000000 DEC 6 6 t98 l98);
    [vm_compute; reflexivity|vm_compute; split; discriminate|simpl; lia|repeat constructor; vm_compute; discriminate].
Qed.

(** After it, normal trades in either direction and deposits fail (during the last minutes of the change and long after
    its end), although the same trade works without the change. *)
Theorem c98_refuted : exists c s s', reach c s /\
  step (at_ 100200) (Promote 7 (10 * DEC) 145000000000000 186600) s = Some (s', ONone) /\
  step (at_ 186200) (Swap false (10 ^ 9) None (Some HALF_D)) s <> None /\
  step (at_ 186200) (Swap false (10 ^ 9) None (Some HALF_D)) s' = None /\
  step (at_ 286600) (Swap false (10 ^ 9) None (Some HALF_D)) s' = None /\
  step (at_ 286600) (Swap true (10 ^ 9) None (Some HALF_D)) s' = None /\
  step (at_ 286600) (Provide 6 (10 ^ 9) (10 ^ 9) None None) s' = None.
Proof.
  exists 100120, s98, s98'. split; [exact s98_reach|].
  split; [vm_compute; reflexivity|]. split; [vm_compute; discriminate|].
  split; [vm_compute; reflexivity|]. split; [vm_compute; reflexivity|]. split; [vm_compute; reflexivity|].
  vm_compute. reflexivity.
Qed.
(** ... and an LP token is then worth less than it was created for. *)
Theorem c89_ramp_refuted : exists c s s' v v', reach c s /\
  step (at_ 100200) (Promote 7 (10 * DEC) 145000000000000 186600) s = Some (s', ONone) /\
  query_lp_price 100200 s = Some v /\ query_lp_price 286600 s' = Some v' /\ 10 ^ 18 < v /\ v' < 10 ^ 18.
Proof.
  exists 100120, s98, s98', 1000055434516773960, 999915508201307591. split; [exact s98_reach|].
  split; [vm_compute; reflexivity|]. split; [vm_compute; reflexivity|]. split; [vm_compute; reflexivity|]. split; reflexivity.
Qed.

(** ** Concrete cases *)

Definition ex_traded : state := Eval vm_compute in exec ex_balanced (at_ 2000, Swap false 100000000 None (Some HALF_D)).
Lemma ex_traded_step : step (at_ 2000) (Swap false 100000000 None (Some HALF_D)) ex_balanced = Some (ex_traded, OSwap 48537391 1251233 211375 0 0).
Proof. vm_compute. reflexivity. Qed.
Lemma traded_reach : reach 2000 ex_traded.
Proof.
  refine (reach_step 1000 ex_balanced (at_ 2000) _ _ _ balanced_reach _ _ ex_traded_step);
    [split; vm_compute; discriminate|vm_compute; discriminate].
Qed.
(** A trade that moves the oracle and the price scale (C89, C91, C96). *)
Definition ex_repegged : state := Eval vm_compute in exec ex_traded (at_ 9000, Swap false 1000000 None (Some HALF_D)).
Example c96_example : step (at_ 9000) (Swap false 1000000 None (Some HALF_D)) ex_traded = Some (ex_repegged, OSwap 462345 35639 2014 0 0) /\
  (scale (pst ex_traded), oracle (pst ex_traded)) = (2 * DEC, 2 * DEC) /\
  (oracle (pst ex_repegged), scale (pst ex_repegged)) = (2060248771818689284, 2006024877181868915) /\
  (xreal (pst ex_repegged), xcp (pst ex_repegged)) = (1000091801080130639, 1000110748375518470).
Proof.
  split; [vm_compute; reflexivity|]. split; [vm_compute; reflexivity|]. split; vm_compute; reflexivity.
Qed.
Example c91_example : (9000 - upd (pst ex_traded)) / half_time (par ex_traded) = 11 /\
  oracle (pst ex_traded) = 2 * DEC /\ last (pst ex_traded) = 2060267309917418178.
Proof. split; [vm_compute; first [reflexivity|discriminate]|]. split; vm_compute; reflexivity. Qed.
Example c89_example : f_time (rmp ex_traded) <= 2000 /\ xreal (pst ex_traded) = 1000109702358171400 /\
  query_lp_price 2000 ex_traded = Some 1000109702361702874.
Proof. split; [vm_compute; first [reflexivity|discriminate]|]. split; vm_compute; reflexivity. Qed.
Definition ex_left : state := Eval vm_compute in exec ex_traded (at_ 3000, Withdraw 5 (10 ^ 6) false None).
Example c90_example : step (at_ 3000) (Withdraw 5 (10 ^ 6) false None) ex_traded = Some (ex_left, OWithdraw 1484922 672784).
Proof. vm_compute. reflexivity. Qed.
Definition ex_joined : state := Eval vm_compute in exec ex_balanced (at_ 2000, Provide 6 2000000 1000000 None None).
Example c90_provide_example :
  step (at_ 2000) (Provide 6 2000000 1000000 None None) ex_balanced = Some (ex_joined, OProvide 1414213) /\
  scale (pst ex_joined) = 2 * DEC /\
  query_compute_d 2000 ex_balanced = Some 4000000000000000000000 /\ query_compute_d 2000 ex_joined = Some 4004000000000000000000.
Proof.
  split; [vm_compute; reflexivity|]. split; [vm_compute; reflexivity|]. split; vm_compute; reflexivity.
Qed.
Example c90_first_example : query_lp_price 1000 ex_balanced = Some 1000000000263818039 /\ supply ex0 = 0 /\ supply ex_balanced = 1414213562.
Proof. split; [vm_compute; first [reflexivity|discriminate]|]. split; vm_compute; reflexivity. Qed.

Print Assumptions c94_normal_round_trip.
Print Assumptions c94_refuted.
Print Assumptions c98_refuted.
Print Assumptions c89_ramp_refuted.
