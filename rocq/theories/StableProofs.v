(** Accuracy of the numerical core of the stable pair. *)
From Coq Require Import ZArith Lia Bool List.
From Verif Require Import Num StableMath.
Open Scope Z_scope.

(** ** Specification: the exact invariant *)

(** For reserves [x], [y], leverage [L] (all in units of 10^-18; L = 2 A in the usual notation, so that the
    equation is  L (x + y) + D = L D + D^3 / (4 x y)), [Gam] has the sign of
    "D minus the exact invariant": it is the equation multiplied by [ab] = 4 x y. *)
Definition Gam (ab L sum D : Z) : Z := D ^ 3 + ab * ((L - DEC) * D - L * sum).

(** The same equation for a given reserve [x] and invariant [D] as an equation for the other reserve: [Hy] has
    the sign of "Y minus the exact reserve". *)
Definition Hy (L x D Y : Z) : Z := 4 * x * Y * (L * (x + Y) - (L - DEC) * D) - DEC * D ^ 3.

Lemma floor_bounds a b : 0 < b -> b * (a / b) <= a < b * (a / b) + b.
Proof. intros H. pose proof (Z.div_mod a b). pose proof (Z.mod_pos_bound a b). lia. Qed.

Lemma exact_mul a k : a * (k * DEC) / DEC = a * k.
Proof. rewrite Z.mul_assoc. apply Z.div_mul. discriminate. Qed.

(** ** The last Newton step for D *)
Lemma d_loop_last n L sum ab d0 r : d_loop n L sum ab d0 = Some r -> 0 <= d0 ->
  exists d p dp, 0 <= d /\ pow3 d = Some p /\ ddiv256 p ab = Some dp /\ calculate_step d L sum dp = Some r /\
    Z.abs (r - d) <= TOL.
Proof.
  revert d0. induction n as [|n IH]; intros d0 H P; cbn [d_loop] in H; [discriminate|].
  unbind H as p E1. unbind H as dp E2. unbind H as d' E3.
  destruct (Z.leb_spec (Z.abs (d' - d0)) TOL).
  - injection H as <-. exists d0, p, dp. auto.
  - apply (IH d'); auto. unfold calculate_step in E3.
    unbind E3 as a1 F1. unbind E3 as a2 F2. unbind E3 as a3 F3. unbind E3 as a4 F4. unbind E3 as a5 F5.
    unbind E3 as a6 F6. unbind E3 as a7 F7. unbind E3 as a8 F8. num_inv. lia.
Qed.

Lemma dmul256_floor a b r : dmul256 a b = Some r -> 0 <= r /\ DEC * r <= a * b < DEC * r + DEC.
Proof. intros H. apply dmul256_Some in H. destruct H as [-> [H _]]. split; [exact H|apply floor_bounds, DEC_pos]. Qed.
Lemma dmul256_int a k r : dmul256 a (k * DEC) = Some r -> 0 <= r /\ r = a * k.
Proof. intros H. apply dmul256_Some in H. destruct H as [-> [H _]]. rewrite exact_mul in *. auto. Qed.
Lemma ddiv256_floor a b r : 0 <= b -> ddiv256 a b = Some r -> 0 < b /\ 0 <= r /\ b * r <= a * DEC < b * r + b.
Proof.
  intros P H. unfold ddiv256 in H. destruct (Z.eqb_spec b 0); [discriminate|]. apply u256_Some in H.
  destruct H as [-> [H _]]. split; [lia|]. split; [exact H|apply floor_bounds; lia].
Qed.

Lemma pow3_bounds d p : 0 <= d -> pow3 d = Some p ->
  0 <= p /\ p * DEC * DEC <= d ^ 3 /\ d ^ 3 < p * DEC * DEC + DEC * d + DEC * DEC.
Proof.
  intros P H. unfold pow3 in H. unbind H as u E. apply dmul256_floor in E. apply dmul256_floor in H.
  assert (D3 : d ^ 3 = d * d * d) by ring. rewrite D3. pose proof DEC_pos.
  split; [tauto|]. split; nia.
Qed.

(** What one Newton step for D guarantees ([Q] stands for the unit 10^18). *)
Record d_step_facts (Q L sum ab d dp r rv : Z) : Prop := {
  f_low : d * ab * ((L - Q) * r - L * sum) + Q * ab * dp * (3 * r - 2 * d) > - (Q * ab * (d + Q + rv));
  f_high : d * ab * ((L - Q) * r - L * sum) + Q * ab * dp * (3 * r - 2 * d) <= Q * ab * r;
  f_rv : Q * rv <= d * (L - Q) + 3 * Q * dp;
  f_dp0 : 0 <= dp;
  f_dp1 : Q * ab * dp <= d ^ 3;
  f_dp2 : d ^ 3 < Q * ab * dp + Q * d + Q * Q + Q * ab }.

Lemma mulm a b c : a <= b -> 0 <= c -> c * a <= c * b.
Proof. intros. apply Z.mul_le_mono_nonneg_l; assumption. Qed.

Lemma d_step_arith Q L sum ab d p dp r lm lv ls rv :
  0 < Q -> 0 <= d -> 0 < ab -> 0 <= dp -> 0 <= r ->
  p * Q * Q <= d ^ 3 -> d ^ 3 < p * Q * Q + Q * d + Q * Q ->
  ab * dp <= p * Q < ab * dp + ab ->
  Q * lm <= L * sum < Q * lm + Q ->
  Q * lv <= (lm + dp * 2) * d < Q * lv + Q ->
  Q * ls <= d * (L - Q) < Q * ls + Q ->
  rv = ls + dp * 3 -> rv * r <= lv * Q < rv * r + rv ->
  d_step_facts Q L sum ab d dp r rv.
Proof.
  intros DP Hd A D0 R0 P1 P2 [Bd1 Bd2] [F1a F1b] [F4a F4b] [F6a F6b] Erv [Ha Hb].
  assert (K : Q * rv <= d * (L - Q) + 3 * Q * dp) by lia.
  assert (K' : d * (L - Q) + 3 * Q * dp < Q * rv + Q) by lia.
  assert (T3 : d * (L * sum) <= d * (Q * lm + Q)) by (apply mulm; lia).
  assert (T4 : d * (Q * lm) <= d * (L * sum)) by (apply mulm; lia).
  assert (T1 : Q * (lv * Q) <= Q * (rv * r + rv - 1)) by (apply mulm; lia).
  assert (T1' : Q * (rv * r) <= Q * (lv * Q)) by (apply mulm; lia).
  assert (T2 : Q * ((lm + dp * 2) * d) <= Q * (Q * lv + Q - 1)) by (apply mulm; lia).
  assert (T2' : Q * (Q * lv) <= Q * ((lm + dp * 2) * d)) by (apply mulm; lia).
  assert (T5 : r * (Q * rv) <= r * (d * (L - Q) + 3 * Q * dp)) by (apply mulm; lia).
  assert (T6 : r * (d * (L - Q) + 3 * Q * dp) <= r * (Q * rv + Q)) by (apply mulm; lia).
  assert (E1 : - (Q * (d + Q + rv)) + 1 <= d * ((L - Q) * r - L * sum) + Q * dp * (3 * r - 2 * d)) by lia.
  assert (E2 : d * ((L - Q) * r - L * sum) + Q * dp * (3 * r - 2 * d) <= Q * r) by lia.
  apply (mulm _ _ ab) in E1; [|lia]. apply (mulm _ _ ab) in E2; [|lia].
  constructor.
  - lia.
  - lia.
  - exact K.
  - exact D0.
  - assert (Q * (ab * dp) <= Q * (p * Q)) by (apply mulm; lia). lia.
  - assert (Q * (p * Q) <= Q * (ab * dp + ab - 1)) by (apply mulm; lia). lia.
Qed.

Lemma d_step_ok L sum ab d p dp r :
  0 <= d -> 0 <= ab ->
  pow3 d = Some p -> ddiv256 p ab = Some dp -> calculate_step d L sum dp = Some r ->
  0 < ab /\ 0 <= r /\ DEC <= L /\ exists rv, 0 < rv /\ d_step_facts DEC L sum ab d dp r rv.
Proof.
  intros Hd Hab Hp Hdp H.
  apply (pow3_bounds d p Hd) in Hp. destruct Hp as (P0 & P1 & P2).
  apply ddiv256_floor in Hdp; [|exact Hab]. destruct Hdp as (A & D0 & Bdp). split; [exact A|].
  unfold calculate_step in H.
  unbind H as lm F1. unbind H as dpm F2. unbind H as l0 F3. unbind H as lv F4. unbind H as lev1 F5.
  unbind H as ls F6. unbind H as ns F7. unbind H as rv F8.
  apply dmul256_floor in F1, F4, F6.
  replace N_COINS with (2 * DEC) in F2 by reflexivity. replace (N_COINS + DEC) with (3 * DEC) in F7 by reflexivity.
  apply dmul256_int in F2, F7. apply add256_Some in F3, F8. apply sub256_Some in F5.
  apply ddiv256_floor in H; [|lia].
  destruct F1 as (L0 & F1), F4 as (V0 & F4), F6 as (S0 & F6), F2 as (_ & ->), F7 as (_ & ->).
  destruct F3 as (-> & _), F8 as (Erv & _), F5 as (-> & F5). destruct H as (RV & R0 & H).
  split; [exact R0|]. split; [lia|]. exists rv. split; [exact RV|].
  eapply d_step_arith with (p := p) (lm := lm) (lv := lv) (ls := ls); eauto using DEC_pos.
Qed.
