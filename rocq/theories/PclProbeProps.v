(** C100: the price the concentrated pair accumulates and feeds to its oracle is that of a small swap. *)
From Coq Require Import ZArith Lia Bool List.
From Verif Require Import Num Ledger PclMath PclModel PclParamProps PclProofs PclSwapProps.
Import ListNotations.
Open Scope Z_scope.

(** A ten-thousandth of the first reserve, at most one token and at least the smallest amount. *)
Definition probe (x0 : Z) : Z := Z.max 1 (Z.min (10 ^ 18) (x0 / 10 ^ 4)).

Lemma no_shares p r ps t x0 x1 o one res : compute_swap p r ps t x0 x1 o one 0 0 = Some res ->
  maker_fee res = 0 /\ share_fee res = 0.
Proof.
  unfold compute_swap. intros H. unbind H as y1 E1. unbind H as [a g] E2. unbind H as d E3. unbind H as off E4.
  unbind H as no E5. unbind H as ny E6. unbind H as dyi E7. unbind H as gross E8. unbind H as ex E9. unbind H as rate E10.
  unbind H as tf E11. unbind H as ret E12. unbind H as sf E13. unbind H as rest E14. unbind H as mf E15. injection H as <-.
  apply dmul256_Some in E13 as (-> & _), E15 as (-> & _). cbn [maker_fee share_fee]. rewrite !Z.mul_0_r. auto.
Qed.
Theorem c100_probe p r ps t x0 x1 v : 0 <= x0 -> calc_last_prices p r ps t x0 x1 = Some v ->
  exists res, compute_swap p r ps t x0 x1 (probe x0) false 0 0 = Some res /\ 0 < dy res /\
  v = probe x0 * 10 ^ 18 / dy res.
Proof.
  intros X H. unfold calc_last_prices in H. unbind H as m Em. cbv zeta in H.
  apply dmul256_Some in Em as (Em & _).
  assert (Em' : m = x0 / 10 ^ 4).
  { rewrite Em. change OFFER_PERCENT with (10 ^ 14). change DEC with (10 ^ 4 * 10 ^ 14).
    apply Z.div_mul_cancel_r; lia. }
  assert (Mp : 0 <= m) by (rewrite Em'; apply Z.div_pos; lia).
  assert (Ep : (if Z.min DEC m =? 0 then 1 else Z.min DEC m) = probe x0).
  { unfold probe. rewrite <- Em'. change DEC with (10 ^ 18). destruct (Z.eqb_spec (Z.min (10 ^ 18) m) 0); lia. }
  rewrite Ep in H. unbind H as res Er. exists res. split; [reflexivity|]. destruct (no_shares _ _ _ _ _ _ _ _ _ Er) as (M & S).
  unfold last_price, outflow in H. rewrite M, S in H. unbind H as o Eo. unbind Eo as a Ea.
  apply add256_Some in Ea as (-> & Ra), Eo as (-> & _). rewrite !Z.add_0_r in *. apply ddiv256_Some in H as (D & -> & _).
  split; [lia|reflexivity].
Qed.
(** The balanced pool of the examples. *)
Example c100_probe_example : exists v, calc_last_prices (par ex_balanced) (rmp ex_balanced) (pst ex_balanced) 2000
  (r0 ex_balanced * 10 ^ (18 - p0 ex_balanced)) (r1 ex_balanced * 10 ^ (18 - p1 ex_balanced)) = Some v /\ 0 < v.
Proof. eexists. split; vm_compute; reflexivity. Qed.

Print Assumptions c100_probe.
