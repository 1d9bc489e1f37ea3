(** C139: the fees and the owner of a pair are those of its factory. *)
From Coq Require Import ZArith Lia Bool List.
From Verif Require Import Num Amap Bytes.
From Verif Require FactoryModel FactoryProps XykModel XykSpec XykProofs XykProps XykLpProps StableModel StablePair PclModel PclProofs.
From Verif Require Import FacPairModel FacPairSpec FacPairProofs.
Import ListNotations.
Open Scope Z_scope.

(** Whatever happens, a pair is in a state of the constant-product pair's own histories, and the factory always has an
    answer for it, with fees of at most 100%: C01-C11 and the others hold without assuming anything about fees. *)
Theorem c139_fees f l a p e : fresh f -> let w := run (init f) l in
  find a (prs w) = Some p ->
  XykSpec.reachable (st p) /\ exists x, xenv e (fac w) (ptype p) = Some x /\ XykSpec.env_ok x.
Proof.
  intros F w E. assert (I : inv w) by (apply run_inv, init_inv, F). split; [apply I with (1 := E)|].
  destruct (xenv_some e w a p I E) as (x & X). exists x. split; [exact X|]. eapply xenv_ok; [apply I|exact X].
Qed.
(** A pair is never removed, keeps its type, and its state is the result of the messages sent to it. *)
Theorem c139_history f l1 l2 a p : fresh f -> let w := run (init f) l1 in
  find a (prs w) = Some p ->
  find a (prs (run w l2)) = Some (mkP (ptype p) (XykModel.run (st p) (pair_hist a w l2))) /\ XykSpec.envs_ok (pair_hist a w l2).
Proof. intros F w E. apply run_pair; [apply run_inv, init_inv, F|exact E]. Qed.
(** Every listed pair exists. *)
Theorem c139_listed f l assets a : fresh f -> let w := run (init f) l in
  FactoryModel.query_pair (fac w) assets = Some a -> exists p, find a (prs w) = Some p.
Proof.
  intros F w Q. assert (B : backed w) by (apply backed_run, init_backed, F). unfold FactoryModel.query_pair in Q. apply bfind_in in Q.
  apply B in Q. destruct (find a (prs w)) as [p|]; [exists p; reflexivity|congruence].
Qed.
(** A swap charges the basis points in force at the factory at that moment. *)
Theorem c139_swap f l e a p one offer belief ms w' so c : fresh f -> let w := run (init f) l in
  find a (prs w) = Some p -> find (ptype p) (FactoryModel.cfgs (fac w)) = Some c ->
  step e (Pair a (XykModel.Swap one offer belief ms)) w = Some (w', XykModel.OSwap so) ->
  let gross := XykModel.so_return so + XykModel.so_commission so in
  XykModel.so_commission so = gross * FactoryModel.total_fee_bps c / 10000 /\
  XykModel.so_maker so = match FactoryModel.fee_addr (fac w) with
    | Some _ => (XykModel.so_commission so - XykModel.so_share so) * FactoryModel.maker_fee_bps c / 10000
    | None => 0 end.
Proof.
  intros F w E C H gross. assert (I : inv w) by (apply run_inv, init_inv, F). destruct I as (R & P). destruct (P a p E) as (_ & Rp).
  cbn [step] in H. rewrite E in H. unfold xenv in H. rewrite (fee_exact _ _ _ R C) in H. set (x := XykModel.mkEnv _ _ _ _) in H.
  unbind H as [s o] Es. injection H as <- ->. cbn [XykModel.step] in Es. unguard Es G. bools.
  assert (X : XykSpec.env_ok x). { apply (xenv_ok e (fac w) (ptype p)); [exact R|]. unfold xenv. rewrite (fee_exact _ _ _ R C). reflexivity. }
  pose proof (XykProps.c08_fees_add_up x (st p) one offer belief ms s so Rp X G Es) as (A1 & A2 & _). rewrite <- A1 in A2.
  pose proof (XykLpProps.c59_exact_split x (st p) one offer belief ms s so Rp X G Es) as (_ & B & _).
  assert (D : forall y b, y * (b * 10 ^ 14) / DEC = y * b / 10000).
  { intros y b. unfold DEC. replace (y * (b * 10 ^ 14)) with (y * b * 10 ^ 14) by ring. change 1000000000000000000 with (10000 * 10 ^ 14). apply Z.div_mul_cancel_r; lia. }
  split.
  - rewrite A2 at 1. unfold x. cbn [XykModel.fees XykModel.total_fee]. apply D.
  - rewrite B. unfold x. cbn [XykModel.fees XykModel.maker_on XykModel.maker_rate]. destruct (FactoryModel.fee_addr (fac w)); [apply D|reflexivity].
Qed.
(** A message to a pair changes neither the factory nor another pair; a message to the factory changes no existing pair. *)
Theorem c139_isolated e m w w' o a : step e m w = Some (w', o) ->
  match m with
  | Pair b _ => fac w' = fac w /\ (a <> b -> find a (prs w') = find a (prs w))
  | Fac _ => find a (prs w) <> None -> find a (prs w') = find a (prs w)
  end.
Proof.
  intros H. destruct m as [m|b m]; cbn [step] in H.
  - unguard H G. unbind H as f E. injection H as <- <-. intros N. cbn [prs]. rewrite inst_find, (fresh_find _ _ _ G N). reflexivity.
  - unbind H as p E1. unbind H as x E2. unbind H as [s o'] E3. injection H as <- <-. split; [reflexivity|]. intros N. cbn [prs]. apply find_put_other. congruence.
Qed.
(** A pair's behaviour depends on its state and the terms of its type: the fees, whether there is a maker, the owner.
    Being deregistered, disabled, permissioned or shut out from incentives changes nothing for a pair. *)
Theorem c139_terms_only f l1 l2 e a p m : fresh f -> let w1 := run (init f) l1 in let w2 := run (init f) l2 in
  find a (prs w1) = Some p -> find a (prs w2) = Some p -> terms (fac w1) (ptype p) = terms (fac w2) (ptype p) ->
  match step e (Pair a m) w1, step e (Pair a m) w2 with
  | Some (w1', o1), Some (w2', o2) => find a (prs w1') = find a (prs w2') /\ o1 = o2
  | None, None => True
  | _, _ => False
  end.
Proof.
  intros F w1 w2 E1 E2 T. assert (I1 : inv w1) by (apply run_inv, init_inv, F). assert (I2 : inv w2) by (apply run_inv, init_inv, F).
  assert (X : xenv e (fac w1) (ptype p) = xenv e (fac w2) (ptype p)).
  { apply terms_xenv; [apply I1|apply I2|exact T|]. destruct I1 as (_ & P). destruct (P a p E1) as (K & _). unfold known in K. unfold terms.
    destruct (find (ptype p) (FactoryModel.cfgs (fac w1))); [discriminate|congruence]. }
  cbn [step]. rewrite E1, E2, X. destruct (xenv e (fac w2) (ptype p)) as [x|]; [|trivial]. destruct (XykModel.step x m (st p)) as [[s o]|]; [|trivial].
  cbn [prs]. rewrite !find_put, Z.eqb_refl. auto.
Qed.
Theorem c139_deregistered f l e e' a p m fm wd o : fresh f -> let w := run (init f) l in
  find a (prs w) = Some p ->
  (exists sd assets, fm = FactoryModel.Deregister sd assets) \/
  (exists sd c c', fm = FactoryModel.UpdatePairConfig sd (ptype p) c' /\ find (ptype p) (FactoryModel.cfgs (fac w)) = Some c /\
     FactoryModel.total_fee_bps c' = FactoryModel.total_fee_bps c /\ FactoryModel.maker_fee_bps c' = FactoryModel.maker_fee_bps c) ->
  step e (Fac fm) w = Some (wd, o) ->
  match step e' (Pair a m) w, step e' (Pair a m) wd with
  | Some (w1', o1), Some (w2', o2) => find a (prs w1') = find a (prs w2') /\ o1 = o2
  | None, None => True
  | _, _ => False
  end.
Proof.
  intros F w E Hm H. assert (W : wd = run (init f) (l ++ [(e, Fac fm)])).
  { unfold run. rewrite fold_left_app. cbn [fold_left]. fold (run (init f) l). fold w. unfold exec. cbn [fst snd]. rewrite H. reflexivity. }
  pose proof (c139_isolated _ _ _ _ _ a H) as Ia. cbv beta iota in Ia. rewrite E in Ia. specialize (Ia ltac:(discriminate)).
  assert (T : terms (fac w) (ptype p) = terms (fac wd) (ptype p)).
  { cbn [step] in H. unguard H G. unbind H as f' Ef. injection H as <- <-. cbn [fac]. destruct Hm as [(sd & assets & ->)|(sd & c & c' & -> & C & B1 & B2)]; rewrite FactoryProps.step_leaf in Ef.
    - unfold FactoryModel.deregister in Ef. unguard Ef G1. unguard Ef G2. unbind Ef as k Ek. injection Ef as <-. reflexivity.
    - unfold FactoryModel.update_pair_config in Ef. unguard Ef G1. unguard Ef G2. injection Ef as <-. unfold terms. cbn. rewrite C, find_put, Z.eqb_refl, B1, B2. reflexivity. }
  clear H. subst wd. apply (c139_terms_only f l (l ++ [(e, Fac fm)]) e' a p m F); assumption.
Qed.
(** Only the factory's current owner decides about a pair's fee share. *)
Theorem c139_fee_share f l1 l2 a p q : fresh f -> let w := run (init f) l1 in
  find a (prs w) = Some p -> find a (prs (run w l2)) = Some q -> ~ ordered a w l2 -> XykModel.fshare (st q) = XykModel.fshare (st p).
Proof.
  intros F w. assert (I : inv w) by (apply run_inv, init_inv, F). clearbody w. clear F l1 f. revert w p I.
  induction l2 as [|[e m] l2 IH]; intros w p I E Q N.
  - cbn [run fold_left] in Q. congruence.
  - cbn [ordered] in N. rewrite run_cons in Q. pose proof (exec_pair a p w e m I E) as Ex. rewrite (IH _ _ (run_inv [(e, m)] w I) Ex Q) by tauto. cbn [st].
    destruct m as [m|b m]; [reflexivity|]. destruct (Z.eqb_spec b a) as [->|]; [|reflexivity].
    destruct (xenv e (fac w) (ptype p)) as [x|] eqn:X; [|reflexivity]. cbn [XykModel.run fold_left]. unfold XykModel.exec. cbn [fst snd].
    destruct (XykModel.step x m (st p)) as [[s o]|] eqn:S; [|reflexivity].
    assert (Ow : XykModel.factory_owner x = FactoryModel.owner (fac w)). { unfold xenv in X. unbind X as fi Ef. injection X as <-. reflexivity. }
    assert (D : {XykModel.fshare s = XykModel.fshare (st p)} + {XykModel.fshare s <> XykModel.fshare (st p)}) by (decide equality; apply Z.eq_dec).
    destruct D as [D|D]; [exact D|]. exfalso. apply N. left. split; [reflexivity|].
    destruct (XykLpProps.c59_fee_share_control _ _ _ _ _ S D) as [(b & -> & _)|(-> & _)]; exact Ow.
Qed.
(** The owner can always set it, up to 10%, and stop it. *)
Theorem c139_fee_share_set f l e a p bps : fresh f -> let w := run (init f) l in
  find a (prs w) = Some p -> 1 <= bps <= 1000 ->
  (exists w', step e (Pair a (XykModel.EnableFeeShare (FactoryModel.owner (fac w)) bps)) w = Some (w', XykModel.ONone) /\
    forall q, find a (prs w') = Some q -> XykModel.fshare (st q) = Some bps) /\
  (exists w', step e (Pair a (XykModel.DisableFeeShare (FactoryModel.owner (fac w)))) w = Some (w', XykModel.ONone) /\
    forall q, find a (prs w') = Some q -> XykModel.fshare (st q) = None).
Proof.
  intros F w E B. assert (I : inv w) by (apply run_inv, init_inv, F). destruct (xenv_some e w a p I E) as (x & X).
  assert (Ow : XykModel.factory_owner x = FactoryModel.owner (fac w)). { unfold xenv in X. unbind X as fi Ef. injection X as <-. reflexivity. }
  cbn [step]. rewrite E, X. cbn [XykModel.step]. rewrite Ow, Z.eqb_refl. unfold XykModel.MAX_FEE_SHARE_BPS.
  destruct (Z.ltb_spec 0 bps); [|lia]. destruct (Z.leb_spec bps 1000); [|lia]. cbn [andb].
  split; (eexists; split; [reflexivity|]); cbn [prs]; intros q; rewrite find_put, Z.eqb_refl; intros [= <-]; reflexivity.
Qed.
(** The factory's answers also satisfy what the theorems about stable and concentrated pairs ask for. *)
Theorem c139_other_kinds f l t fi now h reg : fresh f -> let w := run (init f) l in
  fee_info (fac w) t = Some fi -> is_u64 now ->
  StablePair.env_ok (StableModel.mkEnv now fi (FactoryModel.owner (fac w))) /\
  PclProofs.fees_ok (PclModel.mkEnv now h fi (FactoryModel.owner (fac w)) reg).
Proof.
  intros F w E N. assert (I : inv w) by (apply run_inv, init_inv, F). destruct (fee_ok _ _ _ (proj1 I) E) as (A & B).
  split; [split; [exact N|split; [exact A|exact B]]|exact B].
Qed.

(** ** Cases *)
Definition ex_e (t : Z) : env := mkE t t (fun _ => false).
Definition ex_lp : list (env * msg) :=
  [(ex_e 10, Fac (FactoryModel.CreatePair 5 1 FactoryProps.ex_A 100 []));
   (ex_e 15, Fac (FactoryModel.CreatePair 6 1 FactoryProps.ex_B 200 []));
   (ex_e 20, Pair 100 (XykModel.Provide 1 1 1000000000 2000000000 None None));
   (ex_e 30, Pair 100 (XykModel.EnableFeeShare 7 500));
   (ex_e 40, Pair 100 (XykModel.EnableFeeShare 8 900));
   (ex_e 50, Pair 200 (XykModel.Provide 1 1 5000 7000 None None))].
Lemma ex_fresh : fresh FactoryProps.ex_s0.
Proof. exists 7, (Some 8), None, [(1, FactoryProps.ex_cfg)], None. reflexivity. Qed.
(** Two pairs; a swap at 30 basis
    points with a third of the fee for the maker and 5% of it shared; the same swap after deregistration. *)
Example fp_swap : exists w w' wd w2 so,
  w = run (init FactoryProps.ex_s0) ex_lp /\ map fst (prs w) = [100; 200] /\
  step (ex_e 60) (Pair 100 (XykModel.Swap false 1000000 None None)) w = Some (w', XykModel.OSwap so) /\
  (XykModel.so_return so, XykModel.so_commission so, XykModel.so_share so, XykModel.so_maker so) = (1992007, 5994, 299, 1898) /\
  step (ex_e 60) (Fac (FactoryModel.Deregister 7 FactoryProps.ex_A)) w = Some (wd, XykModel.ONone) /\
  step (ex_e 60) (Pair 100 (XykModel.Swap false 1000000 None None)) wd = Some (w2, XykModel.OSwap so) /\
  ordered 100 (init FactoryProps.ex_s0) ex_lp /\ ~ ordered 200 (init FactoryProps.ex_s0) ex_lp.
Proof.
  eexists. eexists. eexists. eexists. eexists.
  split; [reflexivity|]. split; [vm_compute; reflexivity|]. split; [vm_compute; reflexivity|]. split; [vm_compute; reflexivity|].
  split; [vm_compute; reflexivity|]. split; [vm_compute; reflexivity|].
  split; [cbn [ordered ex_lp]; right; right; right; left; split; [reflexivity|vm_compute; reflexivity]|].
  cbn [ordered ex_lp]. intros [[]|[[]|[(H & _)|[(H & _)|[(H & _)|[(_ & [])|[]]]]]]]; clear - H; discriminate.
Qed.
(** A trader's belief price and spread limit do not bound what is received: the fee is not counted.  When the owner sets
    the fee of the type to 100% after the quote, the swap still succeeds and pays nothing. *)
Theorem c139_quote_protected_refuted : exists f l e a offer belief ms w1 w2 w3 so so' c,
  fresh f /\ w1 = run (init f) l /\
  (exists w', step e (Pair a (XykModel.Swap false offer (Some belief) (Some ms))) w1 = Some (w', XykModel.OSwap so)) /\
  step e (Fac (FactoryModel.UpdatePairConfig (FactoryModel.owner (fac w1)) 1 c)) w1 = Some (w2, XykModel.ONone) /\
  step e (Pair a (XykModel.Swap false offer (Some belief) (Some ms))) w2 = Some (w3, XykModel.OSwap so') /\
  ms * 100 <= DEC /\ 1990000 <= XykModel.so_return so /\ XykModel.so_return so' = 0 /\ XykModel.so_commission so' >= 1990000.
Proof.
  exists FactoryProps.ex_s0, ex_lp, (ex_e 60), 100, 1000000, 500000000000000000, 10000000000000000.
  do 5 eexists. exists (FactoryModel.mkCfg 1 10000 3333 false false false).
  split; [exact ex_fresh|]. split; [reflexivity|]. split; [eexists; vm_compute; reflexivity|].
  split; [vm_compute; reflexivity|]. split; [vm_compute; reflexivity|]. vm_compute. repeat split; congruence.
Qed.
Print Assumptions c139_fees.
Print Assumptions c139_history.
Print Assumptions c139_listed.
Print Assumptions c139_swap.
Print Assumptions c139_isolated.
Print Assumptions c139_terms_only.
Print Assumptions c139_deregistered.
Print Assumptions c139_fee_share.
Print Assumptions c139_fee_share_set.
Print Assumptions c139_other_kinds.
Print Assumptions c139_quote_protected_refuted.
