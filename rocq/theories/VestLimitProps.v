(** C147: the limit on the number of vesting schedules of an account. *)
From Coq Require Import ZArith Lia Bool List.
From Verif Require Import Num Amap VestingModel VestingSpec VestingProofs VestingProps.
Import ListNotations.
Open Scope Z_scope.

(** The number of schedules of an account. *)
Definition count (a : Z) (s : state) : Z := match find a (accs s) with Some v => Z.of_nat (length (schedules v)) | None => 0 end.
(** The message gives each account that it names one schedule at most. *)
Definition one_each (m : msg) : Prop := match m with Register _ l _ => Forall (fun x => (length (snd x) <= 1)%nat) l | _ => True end.

(** A schedule accepted at time [t], and the tokens a list of schedules takes. *)
Definition acceptable (t : Z) (x : sched) : Prop := 0 <= amt (start x) /\ match fin x with Some e => time (start x) < time e /\ t < time e /\ amt (start x) < amt e | None => True end.
Definition needed (l : list sched) : Z := fold_right (fun x n => match fin x with Some e => amt e | None => amt (start x) end + n) 0 l.

(** ** Proofs *)
Lemma acceptable_sched t x : acceptable t x -> sched_ok t x = true /\ 0 <= end_amount x.
Proof.
  unfold acceptable, sched_ok, end_amount. destruct (fin x) as [e|]; [|intros (A & _); auto]. intros (A & B & C & D). split; [|lia].
  rewrite (proj2 (Z.ltb_lt _ _) B), (proj2 (Z.ltb_lt _ _) C), (proj2 (Z.ltb_lt _ _) D). reflexivity.
Qed.
Lemma needed_sum t : forall l d, Forall (acceptable t) l -> 0 <= d -> d + needed l < 2 ^ 128 -> sum_deposit l d = Some (d + needed l) /\ 0 <= needed l.
Proof.
  induction l as [|x l IH]; intros d F D B; cbn [sum_deposit needed fold_right] in *; [split; [f_equal; lia|lia]|].
  inversion F as [|? ? F1 F2]; subst. apply acceptable_sched in F1. destruct F1 as [_ N]. fold (end_amount x) in *. fold (needed l) in *.
  assert (P : 0 <= needed l) by (apply (IH 0 F2); [lia|]; destruct (IH 0 F2) as [_ P]; lia).
  rewrite (proj2 (add128_Some d (end_amount x) (d + end_amount x))) by (unfold U128MAX; lia). destruct (IH (d + end_amount x) F2) as [E _]; [lia|lia|]. rewrite E. split; [f_equal; lia|lia].
Qed.
Definition cnt (a : Z) (m : amap vinfo) : Z := match find a m with Some v => Z.of_nat (length (schedules v)) | None => 0 end.
Lemma cnt_put a b v m : cnt a (put b v m) = if b =? a then Z.of_nat (length (schedules v)) else cnt a m.
Proof. unfold cnt. rewrite find_put. destruct (b =? a); reflexivity. Qed.
Lemma register_full now a : forall l m d, 8 <= cnt a m -> In a (map fst l) -> register_loop now l m d = None.
Proof.
  induction l as [|[b ss] l IH]; intros m d C I; [contradiction|]. cbn [register_loop]. destruct (forallb (sched_ok now) ss); [|reflexivity].
  destruct (sum_deposit ss d) as [d'|]; [|reflexivity]. destruct (Z.eq_dec b a) as [->|N].
  - unfold cnt in C. destruct (find a m) as [v|]; [|lia]. unfold SCHEDULES_LIMIT. rewrite (proj2 (Z.ltb_lt _ _)) by lia. reflexivity.
  - destruct I as [I|I]; [cbn in I; congruence|]. destruct (find b m) as [v|].
    + destruct (negb _); [|reflexivity]. apply IH; [|exact I]. rewrite cnt_put. destruct (Z.eqb_spec b a); [congruence|exact C].
    + apply IH; [|exact I]. rewrite cnt_put. destruct (Z.eqb_spec b a); [congruence|exact C].
Qed.
Lemma register_one now : forall l m d m' d', Forall (fun x => (length (snd x) <= 1)%nat) l -> (forall a, cnt a m <= 8) -> register_loop now l m d = Some (m', d') -> forall a, cnt a m' <= 8.
Proof.
  induction l as [|[b ss] l IH]; intros m d m' d' F C H a; cbn [register_loop] in H; [injection H as <- <-; apply C|].
  unguard H G. unbind H as d1 E. inversion F as [|? ? F1 F2]; subst. cbn [snd] in F1. destruct (find b m) as [v|] eqn:Ef.
  - unguard H G1. apply negb_true_iff, Z.ltb_ge in G1. unfold SCHEDULES_LIMIT in G1. refine (IH _ _ _ _ F2 _ H a). intros a'. rewrite cnt_put. cbn [schedules].
    destruct (b =? a'); [|apply C]. rewrite app_length. lia.
  - refine (IH _ _ _ _ F2 _ H a). intros a'. rewrite cnt_put. cbn [schedules]. destruct (b =? a'); [|apply C]. lia.
Qed.
Lemma cut_length now x : forall l l', cut_active now x l = Some l' -> length l' = length l.
Proof.
  induction l as [|s l IH]; intros l' H; cbn [cut_active] in H; [discriminate|]. destruct (active now s).
  - unguard H G. unbind H as s' E. injection H as <-. reflexivity.
  - unbind H as r E. injection H as <-. cbn [length]. rewrite (IH _ eq_refl). reflexivity.
Qed.

(** An account that has eight schedules or more gets no others: a registration that names it fails altogether. *)
Theorem c147_full t sender l deposit s a : 8 <= count a s -> In a (map fst l) -> step t (Register sender l deposit) s = None.
Proof. intros C I. cbn [step]. destruct (_ && _); [|reflexivity]. rewrite (register_full t a l (accs s) 0 C I). reflexivity. Qed.
Print Assumptions c147_full.

(** An account that has fewer gets what the owner registers for it with the tokens deposited. *)
Theorem c147_room t a ss s : count a s < 8 -> Forall (acceptable t) ss -> 0 < needed ss -> 0 <= bal s -> bal s + needed ss < 2 ^ 128 ->
  exists s', step t (Register (owner s) [(a, ss)] (needed ss)) s = Some (s', 0) /\ count a s' = count a s + Z.of_nat (length ss) /\ bal s' = bal s + needed ss /\
    (forall b, b <> a -> find b (accs s') = find b (accs s)).
Proof.
  intros C Fa P B0 B. destruct (needed_sum t ss 0 Fa) as [D _]; [lia|lia|]. rewrite Z.add_0_l in D. set (total := needed ss) in *. clearbody total.
  assert (F : Forall (fun x => sched_ok t x = true) ss) by (eapply Forall_impl; [|exact Fa]; intros x X; exact (proj1 (acceptable_sched _ _ X))). cbn [step register_loop]. rewrite Z.eqb_refl, (proj2 (Z.ltb_lt 0 total)) by lia. cbn [andb].
  assert (Fb : forallb (sched_ok t) ss = true) by (apply forallb_forall; rewrite Forall_forall in F; exact F). rewrite Fb, D.
  assert (Ab : add128 (bal s) total = Some (bal s + total)) by (apply add128_Some; unfold U128MAX; lia).
  unfold count in *. destruct (find a (accs s)) as [v|] eqn:Ef.
  - unfold SCHEDULES_LIMIT. rewrite (proj2 (Z.ltb_ge _ _)) by lia. cbn [negb]. rewrite Z.eqb_refl, Ab. eexists. split; [reflexivity|]. cbn [accs bal]. rewrite find_put_same. cbn [schedules].
    split; [rewrite app_length; lia|]. split; [reflexivity|]. intros b N. apply find_put_other. congruence.
  - rewrite Z.eqb_refl, Ab. eexists. split; [reflexivity|]. cbn [accs bal]. rewrite find_put_same. cbn [schedules]. split; [lia|]. split; [reflexivity|]. intros b N. apply find_put_other. congruence.
Qed.
Print Assumptions c147_room.

(** As long as schedules are registered one at a time, no account has more than eight. *)
Theorem c147_one_each o l a : Forall (fun tm => one_each (snd tm)) l -> count a (run (init o) l) <= 8.
Proof.
  intros F. enough (K : forall l s, Forall (fun tm => one_each (snd tm)) l -> (forall a, cnt a (accs s) <= 8) -> forall a, cnt a (accs (run s l)) <= 8) by (apply (K l (init o) F); intros b; cbn; lia).
  clear. induction l as [|[t m] l IH]; intros s F C a; [apply C|]. inversion F as [|? ? F1 F2]; subst. cbn [snd] in F1. unfold run. cbn [fold_left]. apply IH; [exact F2|].
  intros b. unfold exec. cbn [fst snd]. destruct (step t m s) as [[s' o]|] eqn:E; [|apply C]. destruct m as [sd ac dp|sd am|sd ac am|am]; cbn [step] in E.
  - unguard E G. unbind E as [m' dep] E1. unguard E G1. unbind E as b1 E2. injection E as <- _. cbn [accs]. exact (register_one _ _ _ _ _ _ F1 C E1 b).
  - unguard E G. unfold claim in E. unbind E as v E1. unbind E as av E2. unbind E as c E3. destruct (c =? 0); [injection E as <- _; apply C|].
    unbind E as rel E4. unbind E as b1 E5. injection E as <- _. cbn [accs]. rewrite cnt_put. cbn [schedules]. destruct (Z.eqb_spec sd b) as [->|]; [|apply C]. specialize (C b). unfold cnt in C. rewrite E1 in C. exact C.
  - unguard E G. unbind E as v E1. unbind E as k E2. unbind E as b1 E3. injection E as <- _. cbn [accs]. rewrite cnt_put. cbn [schedules]. destruct (Z.eqb_spec ac b) as [->|]; [|apply C].
    specialize (C b). unfold cnt in C. rewrite E1 in C. rewrite (cut_length _ _ _ _ E2). exact C.
  - unguard E G. unbind E as b1 E1. injection E as <- _. apply C.
Qed.
Print Assumptions c147_one_each.

(** But one registration can bring any number: the documented limit of eight schedules per account does not hold. *)
Definition nine : list sched := map (fun i => lin 100 0 200 i) [1; 2; 3; 4; 5; 6; 7; 8; 9].
Definition k9 : list (Z * msg) := [(10, Register 1 [(5, nine)] 45)].
Theorem c147_limit_refuted : exists t s a, is_u64 t /\ reachable t s /\ 8 < count a s.
Proof.
  exists 10, (run (init 1) k9), 5. split; [unfold is_u64, U64MAX; lia|]. split; [|vm_compute; reflexivity]. exists 1, k9. split; [|split; [|reflexivity]].
  - split; [cbn; auto|]. repeat constructor; cbn; unfold is_u64, is_u128, U64MAX, U128MAX; lia.
  - repeat constructor; cbn; lia.
Qed.
Print Assumptions c147_limit_refuted.

(** Eight schedules given one at a time, a ninth refused; an account with seven has room for two more at once. *)
Definition k8 : list (Z * msg) := map (fun i => (10, Register 1 [(5, [lin 100 0 200 i])] i)) [1; 2; 3; 4; 5; 6; 7; 8; 9].
Example k8_full : Forall (fun tm => one_each (snd tm)) k8 /\ count 5 (run (init 1) k8) = 8 /\ bal (run (init 1) k8) = 36.
Proof. split; [repeat constructor|vm_compute; auto]. Qed.
Definition s7 : state := Eval vm_compute in run (init 1) (firstn 7 k8).
Example k8_room : count 5 s7 = 7 /\ Forall (acceptable 10) [lin 100 0 200 8; lin 100 0 200 9] /\ needed [lin 100 0 200 8; lin 100 0 200 9] = 17 /\ bal s7 = 28 /\
  option_map (fun p => count 5 (fst p)) (step 10 (Register 1 [(5, [lin 100 0 200 8; lin 100 0 200 9])] 17) s7) = Some 9.
Proof. split; [vm_compute; reflexivity|]. split; [repeat constructor; cbn; lia|]. vm_compute. auto. Qed.
