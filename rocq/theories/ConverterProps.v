(** C51, C83: the ASTRO converter and its pair. *)
From Coq Require Import ZArith Lia Bool List.
From Verif Require Import Num ConverterModel.
Import ListNotations.
Open Scope Z_scope.

Definition total (l : list (Z * Z)) : Z := fold_right (fun p t => snd p + t) 0 l.
(** What a history releases, takes in by conversions, sends away, and is given. *)
Record sums := mkSums { released : Z; converted : Z; destroyed : Z; given_old : Z; given_new : Z }.
Definition gift (m : msg) : Z * Z := match m with GiveOld a => (a, 0) | GiveNew a => (0, a) | _ => (0, 0) end.
Fixpoint trace (c : config) (l : list event) (s : state) : state * sums :=
  match l with
  | [] => (s, mkSums 0 0 0 0 0)
  | e :: r =>
      match step c e s with
      | None => trace c r s
      | Some (s1, o) =>
          let (s2, t) := trace c r s1 in
          (s2, mkSums (total (paid o) + released t) (taken o + converted t) (gone o + destroyed t)
                      (fst (gift (what e)) + given_old t) (snd (gift (what e)) + given_new t))
      end
  end.

Lemma aeq_eq x y : aeq x y = true <-> x = y.
Proof. destruct x, y; simpl; rewrite ?Z.eqb_eq; split; intros H; try congruence; discriminate. Qed.
Lemma must_pay_spec f d a : must_pay f d = Some a -> f = [(d, a)] /\ a <> 0.
Proof.
  unfold must_pay. destruct f as [|[x b] [|]]; try discriminate. intros H. unguard H G1. unguard H G2.
  injection H as <-. bools. subst. split; auto.
Qed.

(** ** C51 *)

(** Every payment of new ASTRO goes to the person converting, or the receiver named by them, and is exactly
    the old ASTRO arriving in the same message; it happens only in a cw20 send of the old token or a
    Convert with only old ASTRO attached. *)
Theorem c51_exact c e s s' o : step c e s = Some (s', o) ->
  (paid o = [] /\ taken o = 0 /\ newb s <= newb s') \/
  (exists who v r, paid o = [(or_else r who, v)] /\ taken o = v /\ 0 < v /\
     newb s' = newb s - v /\ oldb s' = oldb s + v /\
     ((exists a, c_old c = Token a /\ what e = Send who v r) \/
      (exists d, c_old c = Coin d /\ what e = Convert r /\ sender e = who /\ funds e = [(d, v)]))).
Proof.
  intros H. destruct e as [snd_ f m]. unfold step in H. cbn [what sender funds] in *.
  destruct m as [from v r|from v r|r|t fee| |v|v].
  - destruct (c_old c) as [d|a] eqn:Eo; [discriminate|]. unguard H G. unfold cw20_receive in H. rewrite Eo in H. unguard H G2.
    unfold pay_new in H. unguard H G3. injection H as <- <-. bools. right. exists from, v, r. cbn in *. repeat split; auto; try lia.
    left. exists a. auto.
  - unguard H G. unfold cw20_receive in H. destruct (c_old c) as [d|a] eqn:Eo; [discriminate|]. unguard H G2. bools. congruence.
  - destruct (c_old c) as [d|a] eqn:Eo; [|discriminate]. unbind H as v E. destruct (must_pay_spec _ _ _ E) as (-> & N).
    unfold pay_new in H. unguard H G3. injection H as <- <-. bools. right. exists snd_, v, r. cbn in *. repeat split; auto; try lia.
    right. exists d. auto.
  - unbind H as at_ E. destruct (c_old c) as [d|a] eqn:Eo; [|discriminate]. cbv zeta in H.
    unguard H G1. unguard H G2. unguard H G3. unguard H G4. injection H as <- <-. left. cbn. repeat split; lia.
  - unguard H G1. unguard H G2. destruct (c_old c) as [d|a] eqn:Eo; [discriminate|]. unguard H G3. injection H as <- <-. left. cbn. repeat split; lia.
  - unguard H G. injection H as <- <-. left. cbn. repeat split; lia.
  - unguard H G. bools. injection H as <- <-. left. cbn. repeat split; lia.
Qed.
(** Over any history: everything released equals the old ASTRO taken in by conversions, and both
    balances are accounted for. *)
Theorem c51_history c l : forall s, let (s', t) := trace c l s in
  released t = converted t /\
  newb s' = newb s + given_new t - released t /\
  oldb s' = oldb s + given_old t + converted t - destroyed t.
Proof.
  induction l as [|e l IH]; intros s; [simpl; lia|]. cbn [trace].
  destruct (step c e s) as [[s1 o]|] eqn:H; [|apply IH]. specialize (IH s1).
  destruct (trace c l s1) as [s2 t]. cbn [released converted destroyed given_old given_new].
  assert (P : total (paid o) = taken o /\ newb s1 = newb s + snd (gift (what e)) - taken o /\
              oldb s1 = oldb s + fst (gift (what e)) + taken o - gone o); [|lia].
  clear IH. destruct e as [snd_ f m]. unfold step in H. cbn [what sender funds] in *.
  destruct m as [from v r|from v r|r|tt fee| |v|v].
  - destruct (c_old c) as [d|a] eqn:Eo; [discriminate|]. unguard H G. unfold cw20_receive in H. rewrite Eo in H. unguard H G2.
    unfold pay_new in H. unguard H G3. injection H as <- <-. cbn. lia.
  - unguard H G. unfold cw20_receive in H. destruct (c_old c) as [d|a] eqn:Eo; [discriminate|]. unguard H G2. bools. congruence.
  - destruct (c_old c) as [d|a] eqn:Eo; [|discriminate]. unbind H as v E.
    unfold pay_new in H. unguard H G3. injection H as <- <-. cbn. lia.
  - unbind H as at_ E. destruct (c_old c) as [d|a] eqn:Eo; [|discriminate]. cbv zeta in H.
    unguard H G1. unguard H G2. unguard H G3. unguard H G4. injection H as <- <-. cbn. lia.
  - unguard H G1. unguard H G2. destruct (c_old c) as [d|a] eqn:Eo; [discriminate|]. unguard H G3. injection H as <- <-. cbn. lia.
  - unguard H G. injection H as <- <-. cbn. lia.
  - unguard H G. injection H as <- <-. cbn. lia.
Qed.
(** A conversion always succeeds while enough new ASTRO is there. *)
Theorem c51_open c d s who v r : c_old c = Coin d -> 0 < v <= newb s ->
  exists s', step c (mkEv who [(d, v)] (Convert r)) s = Some (s', mkOut [(or_else r who, v)] v 0).
Proof.
  intros Eo L. unfold step. cbn [what funds sender]. rewrite Eo. unfold must_pay.
  rewrite (proj2 (Z.eqb_neq v 0)), Z.eqb_refl by lia. cbn [negb]. unfold pay_new.
  rewrite (proj2 (Z.ltb_lt 0 v)) by lia. cbn [newb]. rewrite (proj2 (Z.leb_le v (newb s))) by lia. eexists. reflexivity.
Qed.
Theorem c51_open_cw20 c a s who v r : c_old c = Token a -> 0 < v <= newb s ->
  exists s', step c (mkEv a [] (Send who v r)) s = Some (s', mkOut [(or_else r who, v)] v 0).
Proof.
  intros Eo L. unfold step. cbn [what funds sender]. rewrite Eo. unfold cw20_receive. rewrite Eo, Z.eqb_refl. unfold pay_new.
  rewrite (proj2 (Z.ltb_lt 0 v)) by lia. cbn [newb andb]. rewrite (proj2 (Z.leb_le v (newb s))) by lia. eexists. reflexivity.
Qed.
(** Anybody can get rid of the old ASTRO in the prescribed way, and only all of it at once; this moves no new ASTRO. *)
Theorem c51_burn c e s s' o : step c e s = Some (s', o) -> gone o <> 0 ->
  paid o = [] /\ newb s' = newb s /\ gone o = oldb s /\ oldb s' = 0 /\
  ((exists a, c_old c = Token a /\ what e = Burn) \/
   (exists d t fee, c_old c = Coin d /\ what e = TransferForBurning t fee /\
      match t with Some x => 120 <= x <= 600 | None => True end)).
Proof.
  intros H N. destruct e as [snd_ f m]. unfold step in H. cbn [what sender funds] in *.
  destruct m as [from v r|from v r|r|tt fee| |v|v].
  - destruct (c_old c) as [d|a] eqn:Eo; [discriminate|]. unguard H G. unfold cw20_receive in H. rewrite Eo in H. unguard H G2.
    unfold pay_new in H. unguard H G3. injection H as <- <-. cbn in N. lia.
  - unguard H G. unfold cw20_receive in H. destruct (c_old c) as [d|a] eqn:Eo; [discriminate|]. unguard H G2. bools. congruence.
  - destruct (c_old c) as [d|a] eqn:Eo; [|discriminate]. unbind H as v E.
    unfold pay_new in H. unguard H G3. injection H as <- <-. cbn in N. lia.
  - unbind H as at_ E. destruct (c_old c) as [d|a] eqn:Eo; [|discriminate]. cbv zeta in H.
    unguard H G1. unguard H G2. unguard H G3. unguard H G4. injection H as <- <-. cbn. repeat split; auto.
    right. exists d, tt, fee. repeat split; auto. unfold or_else, MIN_TIMEOUT, MAX_TIMEOUT in G1. destruct tt; bools; [lia|auto].
  - unguard H G1. unguard H G2. destruct (c_old c) as [d|a] eqn:Eo; [discriminate|]. unguard H G3. injection H as <- <-. cbn.
    repeat split; auto. left. exists a. auto.
  - unguard H G. injection H as <- <-. cbn in N. lia.
  - unguard H G. injection H as <- <-. cbn in N. lia.
Qed.

(** The way is open to everybody: without a timeout or with one of two to ten minutes, whatever there is of old ASTRO leaves
    (on Neutron for a fee that the contract's and the attached coins cover). *)
Theorem c51_burn_open c who t fee s d at_ : c_old c = Coin d -> c_params c = true -> oldb s <> 0 ->
  match t with Some x => 120 <= x <= 600 | None => True end ->
  (if c_neutron c then 0 < at_ /\ 0 <= fee <= feeb s + at_ else 0 <= feeb s) ->
  exists s', step c (mkEv who (if c_neutron c then [(FEE, at_)] else []) (TransferForBurning t fee)) s = Some (s', mkOut [] 0 (oldb s)) /\ oldb s' = 0.
Proof.
  intros Eo P N T F. unfold step. cbn [what funds sender]. rewrite Eo, P. unfold or_else, MIN_TIMEOUT, MAX_TIMEOUT, DEFAULT_TIMEOUT.
  assert (G1 : (120 <=? match t with Some x => x | None => 300 end) && (match t with Some x => x | None => 300 end <=? 600) = true).
  { destruct t as [x|]; apply andb_true_iff; split; apply Z.leb_le; lia. }
  assert (G2 : negb (oldb s =? 0) = true) by (apply negb_true_iff, Z.eqb_neq; exact N).
  destruct (c_neutron c).
  - unfold may_pay, must_pay. rewrite Z.eqb_refl, (proj2 (Z.eqb_neq at_ 0)) by lia. cbn [negb]. rewrite G1, G2, (proj2 (Z.leb_le 0 fee)), (proj2 (Z.leb_le fee (feeb s + at_))) by lia.
    cbn [andb]. eexists. split; reflexivity.
  - cbn [nonpayable]. rewrite G1, G2, (proj2 (Z.leb_le 0 (feeb s + 0))) by lia. cbn [andb Z.leb]. eexists. split; reflexivity.
Qed.

(** ** C83 *)

(** Swapping through the pair: the receiver gets exactly the offered amount, which is what the
    simulation quotes, the converter takes in the same amount of old ASTRO, and nothing happens for
    any other asset. *)
Theorem c83_swap c l p self who f m s s' o : pair_of c l = Some p ->
  pair_step c p self who f m s = Some (s', o) ->
  exists trader v to,
    paid o = [(or_else to trader, v)] /\ taken o = v /\ gone o = 0 /\ 0 < v /\
    newb s' = newb s - v /\ oldb s' = oldb s + v /\ feeb s' = feeb s /\
    pair_simulate p (c_old c) v = Some v /\
    ((exists d, m = PSwap (c_old c) v to /\ trader = who /\ c_old c = Coin d /\ sent f d = v) \/
     (m = PSend trader v to /\ exists a, c_old c = Token a)).
Proof.
  intros P H. unfold pair_of in P. cbv zeta in P. unguard P G1. unguard P G2. injection P as <-.
  unfold pair_step, pair_simulate in *. cbn [p_from p_to p_assets] in *.
  assert (R : aeq (c_old c) (c_old c) = true) by (apply aeq_eq; reflexivity). rewrite R.
  destruct m as [offer v to|from v to|from v to|]; try discriminate.
  - destruct offer as [d|]; [|discriminate]. unguard H G3. unfold pair_swap in H. cbn [p_from p_to p_assets] in H.
    unguard H G4. apply aeq_eq in G4. rewrite <- G4 in H. cbv zeta in H. unfold step in H. cbn [what funds sender] in H.
    rewrite <- G4 in H. unbind H as w E. destruct (must_pay_spec _ _ _ E) as (Q & N). injection Q as <-.
    unfold pay_new in H. unguard H G5. injection H as <- <-. bools. cbn in *.
    exists who, v, to. repeat split; auto; try lia. left. exists d. rewrite <- G4. auto.
  - destruct (c_old c) as [|a] eqn:Eo; [discriminate|]. unguard H G3. unfold pair_swap in H. cbn [p_from p_to p_assets] in H.
    unguard H G4. cbv zeta in H. unfold step in H. cbn [what funds sender] in H. rewrite Eo in H. unguard H G5.
    unfold cw20_receive in H. rewrite Eo in H. unguard H G6. unfold pay_new in H. unguard H G7. injection H as <- <-. bools. cbn in *.
    exists from, v, to. repeat split; auto; try lia. right. split; auto. exists a. reflexivity.
  - unguard H G3. unfold pair_swap in H. cbn [p_from p_to p_assets] in H. unguard H G4. apply aeq_eq in G4.
    rewrite <- G4 in G3. rewrite Z.eqb_refl in G3. discriminate.
Qed.
(** The simulations are exact and inverse to each other, and refuse every direction but old to new. *)
Theorem c83_quotes c l p a v w : pair_of c l = Some p -> c_old c <> Coin (c_new c) ->
  (pair_simulate p a v = Some w <-> a = c_old c /\ w = v) /\
  (pair_reverse p a v = Some w <-> a = Coin (c_new c) /\ w = v).
Proof.
  intros P Ne. unfold pair_of in P. cbv zeta in P. unguard P G1. unguard P G2. injection P as <-.
  unfold pair_simulate, pair_reverse. cbn [p_from p_to p_assets]. apply andb_prop in G2. destruct G2 as (Q1 & Q2). split.
  - destruct (aeq a (c_old c)) eqn:E.
    + apply aeq_eq in E. subst a. split; [intros H; injection H as <-; auto | intros (_ & ->); reflexivity].
    + split; [discriminate|]. intros (-> & _). assert (aeq (c_old c) (c_old c) = true) by (apply aeq_eq; auto). congruence.
  - destruct l as [|x [|y [|]]]; try discriminate. cbn [existsb] in *. rewrite !orb_false_r in *.
    assert (Rf : forall z, aeq z z = true) by (intros z; apply aeq_eq; reflexivity).
    split.
    + intros H. unguard H G. injection H as <-. split; auto. bools.
      repeat match goal with
        | H : aeq _ _ = true |- _ => apply aeq_eq in H
        | H : (_ || _)%bool = true |- _ => apply orb_prop in H; destruct H
        end; subst; rewrite ?Rf in *; try discriminate; try congruence.
    + intros (-> & ->). destruct (aeq (Coin (c_new c)) (c_old c)) eqn:E; [apply aeq_eq in E; congruence|].
      rewrite Q2. reflexivity.
Qed.
(** Every swap of old ASTRO goes through while the converter has enough new ASTRO. *)
Theorem c83_open c l p self who f d v to s : pair_of c l = Some p -> c_old c = Coin d ->
  sent f d = v -> 0 < v <= newb s ->
  exists s' o, pair_step c p self who f (PSwap (Coin d) v to) s = Some (s', o) /\ paid o = [(or_else to who, v)].
Proof.
  intros P Eo S L. unfold pair_of in P. cbv zeta in P. unguard P G1. unguard P G2. injection P as <-.
  unfold pair_step, pair_swap. cbn [p_from p_to p_assets]. rewrite S, Z.eqb_refl, Eo. cbn [aeq]. rewrite Z.eqb_refl. cbv zeta.
  destruct (c51_open c d s self v (Some (or_else to who)) Eo L) as (s' & E). rewrite E. exists s', (mkOut [(or_else to who, v)] v 0).
  split; reflexivity.
Qed.

(** ** Concrete cases *)
Definition k_ibc : config := mkConf (Coin 5) 6 true false.
Definition k_cw20 : config := mkConf (Token 9) 6 false false.
Example k_init : init_ok (Z.eqb 5) k_ibc = true /\ init_ok (Z.eqb 5) k_cw20 = true /\
  init_ok (Z.eqb 5) (mkConf (Coin 6) 6 true false) = false.
Proof. vm_compute. auto. Qed.
Example k_trace :
  trace k_ibc [mkEv 1 [] (GiveNew 1000); mkEv 2 [(5, 300)] (Convert None); mkEv 3 [(5, 800)] (Convert None);
               mkEv 4 [(5, 200)] (Convert (Some 7)); mkEv 3 [] (TransferForBurning None 0)] (mkState 0 0 0)
  = (mkState 0 500 0, mkSums 500 500 500 0 1000).
Proof. reflexivity. Qed.
Example k_trace2 :
  trace k_cw20 [mkEv 1 [] (GiveNew 1000); mkEv 9 [] (Send 2 300 None); mkEv 4 [] (Hook 4 500 None);
                mkEv 3 [] Burn; mkEv 1 [] (GiveOld 9)] (mkState 0 0 0)
  = (mkState 9 700 0, mkSums 300 300 300 9 1000).
Proof. reflexivity. Qed.
Example k_neutron :
  step (mkConf (Coin 5) 6 true true) (mkEv 1 [(FEE, 60)] (TransferForBurning (Some 120) 100)) (mkState 30 8 50)
  = Some (mkState 0 8 10, mkOut [] 0 30).
Proof. reflexivity. Qed.
Example k_open : c_old k_ibc = Coin 5 /\ c_params k_ibc = true /\ c_neutron k_ibc = false /\
  step k_ibc (mkEv 3 [] (TransferForBurning None 0)) (mkState 40 8 0) = Some (mkState 0 8 0, mkOut [] 0 40) /\
  step k_ibc (mkEv 3 [] (TransferForBurning (Some 601) 0)) (mkState 40 8 0) = None.
Proof. repeat split. Qed.
Example k_pair : exists p, pair_of k_ibc [Coin 6; Coin 5] = Some p /\
  pair_step k_ibc p 77 2 [(5, 300)] (PSwap (Coin 5) 300 (Some 8)) (mkState 0 1000 0) =
    Some (mkState 300 700 0, mkOut [(8, 300)] 300 0) /\
  pair_step k_ibc p 77 2 [(6, 300)] (PSwap (Coin 6) 300 (Some 8)) (mkState 0 1000 0) = None /\
  pair_simulate p (Coin 5) 4 = Some 4 /\ pair_reverse p (Coin 6) 4 = Some 4 /\ pair_reverse p (Coin 5) 4 = None.
Proof. eexists. split; [reflexivity|]. vm_compute. auto. Qed.
Example k_pair2 : exists p, pair_of k_cw20 [Coin 6; Token 9] = Some p /\
  pair_step k_cw20 p 77 9 [] (PSend 2 300 None) (mkState 0 1000 0) =
    Some (mkState 300 700 0, mkOut [(2, 300)] 300 0) /\
  pair_step k_cw20 p 77 4 [] (PHook 2 300 None) (mkState 0 1000 0) = None.
Proof. eexists. split; [reflexivity|]. vm_compute. auto. Qed.

Print Assumptions c51_exact.
Print Assumptions c51_history.
Print Assumptions c51_open.
Print Assumptions c51_open_cw20.
Print Assumptions c51_burn.
Print Assumptions c51_burn_open.
Print Assumptions c83_swap.
Print Assumptions c83_quotes.
Print Assumptions c83_open.
