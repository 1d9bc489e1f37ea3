(** Theorems C01-C11: constant-product pair.  Vocabulary: XykSpec.v; model: XykModel.v. *)
From Coq Require Import ZArith Lia Bool List.
From Verif Require Import Num Ledger Hist SnapshotModel XykModel XykSpec XykProofs.
Import ListNotations.
Open Scope Z_scope.

(** Concrete objects used by the examples: 0.3% fee, one third to the maker. *)
Definition ex_fees : fee_info := mkFees 3000000000000000 333300000000000000 true.
Definition ex_env (t h : Z) : env := mkEnv t h ex_fees 99.
Definition ex_pool : state :=
  run (init true) [(ex_env 100 10, Provide 1 1 1000000000 2000000000 None None)].
Definition ex_free : env := mkEnv 200 20 (mkFees 0 0 false) 99.

Lemma ex_env_ok t h : env_ok (ex_env t h).
Proof. unfold env_ok, fees_ok, ex_env, ex_fees, DEC. simpl. lia. Qed.
Lemma ex_pool_reachable : reachable ex_pool.
Proof. exists true. eexists. split; [|reflexivity]. repeat constructor; apply ex_env_ok. Qed.

(** C01 *)
Theorem c01_swap_product e s one offer belief ms s' so :
  reachable s -> env_ok e -> 0 < offer ->
  swap e s one offer belief ms = Some (s', OSwap so) ->
  let offer_after := if one then r1 s' else r0 s' in
  r0 s * r1 s * DEC < r0 s' * r1 s' * DEC + offer_after /\
  (offer_after <= DEC \/ 1 <= so_commission so - so_maker so - so_share so ->
   r0 s * r1 s <= r0 s' * r1 s').
Proof. exact (c01_proof e s one offer belief ms s' so). Qed.
Example c01_example : exists s' so,
  swap (ex_env 200 20) ex_pool false 1000000 None None = Some (s', OSwap so) /\
  so_return so = 1992007 /\ r0 s' = 1001000000 /\ 1 <= so_commission so - so_maker so - so_share so /\
  r0 ex_pool * r1 ex_pool < r0 s' * r1 s'.
Proof. wit. Qed.

(** The product can really fall in the remaining corner (normal 0.3% fee, rounding to nothing). *)
Theorem c01_product_always_kept_refuted : exists e s one offer belief ms s' o,
  reachable s /\ env_ok e /\ step e (Swap one offer belief ms) s = Some (s', o) /\
  r0 s' * r1 s' < r0 s * r1 s.
Proof. exact c01_refuted_proof. Qed.

(** C02 *)
Theorem c02_no_dilution s l :
  reachable s -> 0 < supply s -> envs_ok l -> all_regular s l ->
  0 < supply (run s l) /\
  r0 s * r1 s * (supply (run s l) * supply (run s l)) <=
  r0 (run s l) * r1 (run s l) * (supply s * supply s).
Proof. exact (c02_proof s l). Qed.
Theorem c02_liquidity_per_asset e m s s' o :
  reachable s -> 0 < supply s -> env_ok e -> liq m -> step e m s = Some (s', o) ->
  r0 s * supply s' <= r0 s' * supply s /\ r1 s * supply s' <= r1 s' * supply s.
Proof. exact (c02_liq_proof e m s s' o). Qed.
Definition ex_hist : list (env * msg) :=
  [ (ex_env 200 20, Swap false 1000000 None None);
    (ex_env 230 21, Provide 2 2 1000 2000 (Some 500000000000000000) None);
    (ex_env 240 21, LpTransfer 2 3 100);
    (ex_env 250 22, Withdraw 1 5000 None);
    (ex_env 260 23, EnableFeeShare 99 500);
    (ex_env 270 24, Swap true 777777 None (Some 100000000000000000)) ].
Example c02_example :
  all_regular ex_pool ex_hist /\ envs_ok ex_hist /\
  supply (run ex_pool ex_hist) = 1414209974 /\ events ex_pool ex_hist <> [] /\
  length (events ex_pool ex_hist) = 4%nat.
Proof.
  split; [|split; [|vm_compute; repeat split; discriminate]].
  - vm_compute. repeat split; left; discriminate.
  - repeat constructor; apply ex_env_ok.
Qed.

(** C03 *)
Theorem c03_provide_withdraw e e' s rcv d0 d1 tol ml s1 share mins s2 a0 a1 :
  reachable s -> 0 < supply s ->
  provide e s rcv d0 d1 tol ml = Some (s1, OProvide share) ->
  withdraw e' s1 rcv share mins = Some (s2, OWithdraw a0 a1) ->
  a0 <= d0 /\ a1 <= d1.
Proof. exact (c03_proof e e' s rcv d0 d1 tol ml s1 share mins s2 a0 a1). Qed.
Example c03_example : exists s1 s2,
  provide (ex_env 200 20) ex_pool 5 100003 200001 None None = Some (s1, OProvide 141422) /\
  withdraw (ex_env 200 20) s1 5 141422 None = Some (s2, OWithdraw 100000 200000).
Proof. wit. Qed.

(** C04 *)
Theorem c04_swap_back e1 e2 s one a bel1 ms1 s1 so1 bel2 ms2 s2 so2 :
  reachable s -> env_ok e1 -> env_ok e2 -> 0 < a ->
  swap e1 s one a bel1 ms1 = Some (s1, OSwap so1) ->
  swap e2 s1 (negb one) (so_return so1) bel2 ms2 = Some (s2, OSwap so2) ->
  regular (Swap one a bel1 ms1) s1 (OSwap so1) ->
  regular (Swap (negb one) (so_return so1) bel2 ms2) s2 (OSwap so2) ->
  so_return so2 <= a.
Proof. exact (c04_proof e1 e2 s one a bel1 ms1 s1 so1 bel2 ms2 s2 so2). Qed.
Example c04_example : exists s1 so1 s2 so2,
  swap ex_free ex_pool false 1000000 None None = Some (s1, OSwap so1) /\
  swap ex_free s1 true (so_return so1) None None = Some (s2, OSwap so2) /\
  so_return so2 = 999999 /\ r0 s1 <= DEC /\ r1 s2 <= DEC.
Proof. wit. Qed.

(** C05 *)
Theorem c05_first_provide e s who rcv d0 d1 tol ml s' o :
  reachable s -> env_ok e -> supply s = 0 ->
  step e (Provide who rcv d0 d1 tol ml) s = Some (s', o) ->
  1000 <= supply s' /\ 0 < r0 s' /\ 0 < r1 s'.
Proof. exact (c05_first_proof e s who rcv d0 d1 tol ml s' o). Qed.
Theorem c05_stays_alive s l :
  reachable s -> 1000 <= supply s -> 0 < r0 s -> 0 < r1 s -> envs_ok l -> all_regular s l ->
  1000 <= supply (run s l) /\ 0 < r0 (run s l) /\ 0 < r1 (run s l).
Proof. exact (c05_proof s l). Qed.
(** Histories without swaps need no side condition. *)
Theorem c05_stays_alive_no_swaps s l :
  reachable s -> 1000 <= supply s -> 0 < r0 s -> 0 < r1 s -> envs_ok l ->
  Forall (fun em => match snd em with Swap _ _ _ _ => False | _ => True end) l ->
  1000 <= supply (run s l) /\ 0 < r0 (run s l) /\ 0 < r1 (run s l).
Proof. exact (c05_noswap_proof s l). Qed.
Example c05_example :
  supply ex_pool = 1414213562 /\
  (let s := run ex_pool [(ex_env 200 20, Withdraw 1 1414212562 None)] in
   supply s = 1000 /\ 0 < r0 s /\ 0 < r1 s).
Proof. vm_compute. repeat split. Qed.
(** LP supply keeps its floor even in the corner, but a corner swap can take the whole ask reserve. *)
Theorem c05_supply_floor s l :
  reachable s -> 0 < supply s -> envs_ok l -> 1000 <= supply (run s l).
Proof. exact (c05_supply_proof s l). Qed.
Theorem c05_swap_keeps_reserves_refuted : exists e s one offer belief ms s' o,
  reachable s /\ env_ok e /\ step e (Swap one offer belief ms) s = Some (s', o) /\
  0 < r0 s /\ 0 < r1 s /\ (if one then r0 s' else r1 s') = 0.
Proof. exact c05_refuted_proof. Qed.

(** C06 *)
Theorem c06_max_spread e s one offer belief ms s' so :
  reachable s -> env_ok e -> 0 < offer -> (forall m, ms = Some m -> 0 <= m) ->
  (forall b, belief = Some b -> 0 <= b) ->
  swap e s one offer belief ms = Some (s', OSwap so) ->
  let max := match ms with Some m => m | None => 5000000000000000 end in
  let gross := so_return so + so_commission so in
  max <= 500000000000000000 /\
  match belief with
  | Some b =>
      0 < b /\ exists expected,
        0 <= expected /\
        (* expected is offer / belief, rounded down twice at 18 digits *)
        expected * b <= offer * DEC /\
        offer * DEC * DEC < ((expected + 1) * DEC + offer) * b /\
        (expected - gross) * DEC <= max * expected + expected
  | None => so_spread so * DEC < (max + 1) * (gross + so_spread so)
  end.
Proof. exact (c06_proof e s one offer belief ms s' so). Qed.
Theorem c06_rejects e s one offer belief ms :
  (match ms with Some m => 500000000000000000 < m | None => False end \/ belief = Some 0) ->
  swap e s one offer belief ms = None.
Proof. exact (c06_rejects_proof e s one offer belief ms). Qed.
Example c06_example : exists s' so,
  swap (ex_env 200 20) ex_pool false 10000000 (Some 500000000000000000) (Some 10000000000000000)
    = Some (s', OSwap so) /\ so_return so + so_commission so = 19801980 /\
  swap (ex_env 200 20) ex_pool false 10000000 (Some 500000000000000000) (Some 9000000000000000) = None.
Proof. wit. Qed.

(** C07 *)
Theorem c07_slippage e s who rcv d0 d1 tol ml s' o :
  reachable s -> 0 < supply s -> (forall m, tol = Some m -> 0 <= m) ->
  step e (Provide who rcv d0 d1 tol ml) s = Some (s', o) ->
  let t := match tol with Some m => m | None => 5000000000000000 end in
  t <= 500000000000000000 /\
  d0 * (DEC - t) * r1 s < r0 s * DEC * d1 + 2 * d1 * r1 s /\
  d1 * (DEC - t) * r0 s < r1 s * DEC * d0 + 2 * d0 * r0 s.
Proof. exact (c07_proof e s who rcv d0 d1 tol ml s' o). Qed.
Example c07_example :
  step (ex_env 200 20) (Provide 1 1 100000 200900 None None) ex_pool <> None /\
  step (ex_env 200 20) (Provide 1 1 100000 201100 None None) ex_pool = None.
Proof. vm_compute. split; [discriminate|reflexivity]. Qed.

(** C08 *)
Theorem c08_fees_add_up e s one offer belief ms s' so :
  reachable s -> env_ok e -> 0 < offer ->
  swap e s one offer belief ms = Some (s', OSwap so) ->
  let x := if one then r0 s else r1 s in
  let o := if one then r1 s else r0 s in
  let gross := (x * DEC - o * x * DEC / (o + offer)) / DEC in
  so_return so + so_commission so = gross /\
  so_commission so = gross * total_fee (fees e) / DEC /\
  0 <= so_return so /\ 0 <= so_maker so /\ 0 <= so_share so /\
  so_maker so + so_share so <= so_commission so /\
  so_return so + so_maker so + so_share so <= x /\
  (if one then r0 s' else r1 s') = x - so_return so - so_maker so - so_share so /\
  (if one then r1 s' else r0 s') = o + offer.
Proof. exact (c08_proof e s one offer belief ms s' so). Qed.
Example c08_example : exists s' so,
  swap (ex_env 300 30) (run ex_pool ex_hist) false 1000000 None None = Some (s', OSwap so) /\
  so_commission so = 5986 /\ so_share so = 299 /\ so_maker so = 1895.
Proof. wit. Qed.

(** C09 *)
Theorem c09_simulation_exact e s one offer belief ms s' so :
  swap e s one offer belief ms = Some (s', OSwap so) ->
  query_simulation e s one offer = Some (so_return so, so_spread so, so_commission so).
Proof. exact (c09_sim_proof e s one offer belief ms s' so). Qed.
(** Adding one unit to the quoted offer yields the asked amount up to one unit. *)
Theorem c09_reverse_plus_one e s one ask off spread comm ret sp cm :
  reachable s -> env_ok e -> 0 <= ask <= DEC ->
  query_reverse_simulation e s one ask = Some (off, spread, comm) ->
  query_simulation e s (negb one) (off + 1) = Some (ret, sp, cm) ->
  ask - 1 <= ret.
Proof. exact (c09_rev_proof e s one ask off spread comm ret sp cm). Qed.
Example c09_example : exists a b c d e,
  query_reverse_simulation (ex_env 200 20) ex_pool true 1000000 = Some (501756, a, b) /\
  query_simulation (ex_env 200 20) ex_pool false 501757 = Some (c, d, e) /\ 999999 <= c.
Proof. wit. Qed.
Theorem c09_reverse_quote_suffices_refuted : exists e s one ask off spread comm ret sp cm,
  reachable s /\ env_ok e /\
  query_reverse_simulation e s one ask = Some (off, spread, comm) /\
  query_simulation e s (negb one) off = Some (ret, sp, cm) /\ ret < ask.
Proof. exact c09_refuted_proof. Qed.

(** C10 *)
Theorem c10_twap_integral l e b a0 a1 :
  nondecr (fun em => now (fst em)) (l ++ [(e, DisableFeeShare 0)]) ->
  Forall (fun em => 0 <= now (fst em)) (l ++ [(e, DisableFeeShare 0)]) ->
  Forall (fun em => not_donation (snd em) = true) l ->
  query_cumulative e (run (init b) l) = Some (a0, a1) ->
  let evs := map ev_time (events (init b) l) in
  a0 = integral 0 0 0 evs (now e) mod 2 ^ 128 /\
  a1 = integral 0 0 0 (map swap_xy evs) (now e) mod 2 ^ 128.
Proof. exact (c10_proof l e b a0 a1). Qed.
Example c10_example :
  let l := (ex_env 100 10, Provide 1 1 1000000000 2000000000 None None) :: ex_hist in
  nondecr (fun em => now (fst em)) (l ++ [(ex_env 300 30, DisableFeeShare 0)]) /\
  query_cumulative (ex_env 300 30) (run (init true) l) = Some (399647581, 100088263).
Proof. split; [|vm_compute; reflexivity]. simpl. repeat (split; auto); repeat constructor; simpl; lia. Qed.
(** A donation made just before the query changes the price booked for the whole past interval. *)
Theorem c10_donation_rewrites_past_refuted : exists l e d a0 a1 b0 b1,
  nondecr (fun em => now (fst em)) (l ++ [(e, d)]) /\
  query_cumulative e (run (init true) l) = Some (a0, a1) /\
  query_cumulative e (run (init true) (l ++ [(e, d)])) = Some (b0, b1) /\
  step e d (run (init true) l) <> None /\ b0 = 1000 * a0 /\ 0 < a0.
Proof. exact c10_refuted_proof. Qed.

(** C11 *)
Theorem c11_balance_history l one h :
  nondecr (fun em => height (fst em)) l ->
  Forall (fun em => not_donation (snd em) = true) l ->
  match query_balance_at (run (init true) l) one h with Some v => v | None => 0 end =
  (let s := run (init true) (before (fun em => height (fst em)) h l) in if one then r1 s else r0 s).
Proof. exact (balance_at_exact l one h). Qed.
(** With donations: the balance left by the last provide, withdrawal or swap before block [h]. *)
Theorem c11_balance_history_donations l one h :
  nondecr (fun em => height (fst em)) l ->
  query_balance_at (run (init true) l) one h =
  last_before h (map (if one then sv1 else sv0) (rev (events (init true) l))).
Proof. exact (balance_at_history l one h). Qed.
Example c11_example :
  let l := (ex_env 100 10, Provide 1 1 1000000000 2000000000 None None) :: ex_hist in
  nondecr (fun em => height (fst em)) l /\
  query_balance_at (run (init true) l) true 22 = Some 1998007996 /\
  query_balance_at (run (init true) l) true 10 = None.
Proof. split; [|vm_compute; auto]. simpl. repeat (split; auto); repeat constructor; simpl; lia. Qed.

Print Assumptions c01_swap_product.
Print Assumptions c01_product_always_kept_refuted.
Print Assumptions c02_no_dilution.
Print Assumptions c02_liquidity_per_asset.
Print Assumptions c03_provide_withdraw.
Print Assumptions c04_swap_back.
Print Assumptions c05_first_provide.
Print Assumptions c05_stays_alive.
Print Assumptions c05_stays_alive_no_swaps.
Print Assumptions c05_supply_floor.
Print Assumptions c05_swap_keeps_reserves_refuted.
Print Assumptions c06_max_spread.
Print Assumptions c06_rejects.
Print Assumptions c07_slippage.
Print Assumptions c08_fees_add_up.
Print Assumptions c09_simulation_exact.
Print Assumptions c09_reverse_plus_one.
Print Assumptions c09_reverse_quote_suffices_refuted.
Print Assumptions c10_twap_integral.
Print Assumptions c10_donation_rewrites_past_refuted.
Print Assumptions c11_balance_history.
Print Assumptions c11_balance_history_donations.
