(** Theorems C117: who owns a stable, concentrated or order-book pair. *)
From Coq Require Import ZArith Lia Bool List.
From Verif Require Import Num PairGovSpec.
From Verif Require StableModel StablePair StableProps PclModel PclParamProps PclProofs PclSwapProps DualityModel DualityProofs OwnershipModel.
Import ListNotations.
Open Scope Z_scope.

Ltac crush := repeat match goal with H : exists _, _ |- _ => destruct H | H : _ /\ _ |- _ => destruct H end.

(** ** The three pairs as state machines *)
Section Stable.
Import StableModel.
Definition st_act (em : env * msg) (s : state) : option state :=
  match step (fst em) (snd em) s with Some (s', _) => Some s' | None => None end.
Definition st_view (em : env * msg) : option (Z * OwnershipModel.msg) :=
  match snd em with Ownership w m => Some (w, m) | _ => None end.
Definition st_fac (em : env * msg) : Z := factory_owner (fst em).
Definition st_time (em : env * msg) : Z := now (fst em).

Lemma st_keep e m s s' o : step e m s = Some (s', o) -> st_view (e, m) = None -> proposal s' = proposal s /\ owner s' = owner s.
Proof.
  intros H N. destruct m; cbn [step] in H; cbn in N; try discriminate N.
  - apply StablePair.provide_inv in H. crush. auto.
  - apply StablePair.withdraw_inv in H. crush. auto.
  - unguard H G. unfold swap in H. unbind H as [[ret spread] comm] Eq.
    unbind H as gross Eg. unbind H as u Eu.
    unbind H as shr Es. unbind H as maker Em. unbind H as no E1. unbind H as k1 E2. unbind H as k2 E3. unbind H as na E4.
    unbind H as x Ex. unbind H as y Ey. unbind H as c Ec. injection H as <- _. destruct c as [[? ?] ?]. auto.
  - unguard H G. unbind H as r E. injection H as <- _. auto.
  - unguard H G. unbind H as r E. injection H as <- _. auto.
  - unguard H G. injection H as <- _. auto.
  - unguard H G. injection H as <- _. auto.
  - unguard H G. unbind H as n En. injection H as <- _. auto.
  - unguard H G. injection H as <- _. auto.
Qed.
Lemma st_step : forall em s s', st_act em s = Some s' -> match st_view em with
  | Some (w, m) => exists o, shadow owner st_fac st_time proposal em s w m = Some o /\ proposal s' = OwnershipModel.prop o /\
      owner s' = match m with OwnershipModel.Claim => Some (OwnershipModel.owner o) | _ => owner s end
  | None => proposal s' = proposal s /\ owner s' = owner s
  end.
Proof.
  intros [e m] s s' H. unfold st_act in H. cbn [fst snd] in H. destruct (step e m s) as [[s1 o]|] eqn:E; [|discriminate H]. injection H as ->.
  destruct (st_view (e, m)) as [[w x]|] eqn:V; [|exact (st_keep _ _ _ _ _ E V)].
  destruct m; try discriminate V. injection V as -> ->. cbn [step] in E. unbind E as ow Eo. injection E as <- _.
  exists ow. split; [exact Eo|]. split; reflexivity.
Qed.
Lemma st_back : forall em s w m o, st_view em = Some (w, m) -> shadow owner st_fac st_time proposal em s w m = Some o -> st_act em s <> None.
Proof.
  intros [e m'] s w m o V H. destruct m'; try discriminate V. injection V as -> ->. unfold st_act. cbn [step fst snd].
  change (OwnershipModel.step _ _) with (shadow owner st_fac st_time proposal (e, Ownership w m) s w m). rewrite H. discriminate.
Qed.
Lemma st_goes l : forall s, goes st_act s l = run s l.
Proof.
  induction l as [|[e m] l IH]; intros s; [reflexivity|]. change (goes st_act (go st_act s (e, m)) l = run (exec s (e, m)) l). rewrite IH.
  f_equal. unfold go, st_act, exec. cbn [fst snd]. destruct (step e m s) as [[? ?]|]; reflexivity.
Qed.
End Stable.

Section Pcl.
Import PclModel.
Definition pc_act (em : env * msg) (s : state) : option state :=
  match step (fst em) (snd em) s with Some (s', _) => Some s' | None => None end.
Definition pc_view (em : env * msg) : option (Z * OwnershipModel.msg) :=
  match snd em with Ownership w m => Some (w, m) | _ => None end.
Definition pc_fac (em : env * msg) : Z := factory_owner (fst em).
Definition pc_time (em : env * msg) : Z := now (fst em).

Lemma set_pools_own s n0 n1 sup l ps c h ob pe : proposal (set_pools s n0 n1 sup l ps c h ob pe) = proposal s /\
  owner (set_pools s n0 n1 sup l ps c h ob pe) = owner s.
Proof. destruct c as [[? ?] ?]. split; reflexivity. Qed.

Lemma pc_keep e m s s' o : step e m s = Some (s', o) -> pc_view (e, m) = None -> proposal s' = proposal s /\ owner s' = owner s.
Proof.
  intros H N. destruct m; cbn [step] in H; cbn in N; try discriminate N.
  - unfold provide in H. step_inv H. injection H as <- _. apply set_pools_own.
  - unfold withdraw in H. step_inv H. injection H as <- _. auto.
  - unguard H G. unfold swap in H. step_inv H. injection H as <- _. apply set_pools_own.
  - unguard H G. unbind H as p E. injection H as <- _. auto.
  - unguard H G. unbind H as r E. injection H as <- _. auto.
  - unguard H G. unbind H as r E. injection H as <- _. auto.
  - unguard H G. injection H as <- _. auto.
  - unguard H G. injection H as <- _. auto.
  - unguard H G. unbind H as n En. injection H as <- _. auto.
  - unguard H G. injection H as <- _. auto.
Qed.
Lemma pc_step : forall em s s', pc_act em s = Some s' -> match pc_view em with
  | Some (w, m) => exists o, shadow owner pc_fac pc_time proposal em s w m = Some o /\ proposal s' = OwnershipModel.prop o /\
      owner s' = match m with OwnershipModel.Claim => Some (OwnershipModel.owner o) | _ => owner s end
  | None => proposal s' = proposal s /\ owner s' = owner s
  end.
Proof.
  intros [e m] s s' H. unfold pc_act in H. cbn [fst snd] in H. destruct (step e m s) as [[s1 o]|] eqn:E; [|discriminate H]. injection H as ->.
  destruct (pc_view (e, m)) as [[w x]|] eqn:V; [|exact (pc_keep _ _ _ _ _ E V)].
  destruct m; try discriminate V. injection V as -> ->. cbn [step] in E. unbind E as ow Eo. injection E as <- _.
  exists ow. split; [exact Eo|]. split; reflexivity.
Qed.
Lemma pc_back : forall em s w m o, pc_view em = Some (w, m) -> shadow owner pc_fac pc_time proposal em s w m = Some o -> pc_act em s <> None.
Proof.
  intros [e m'] s w m o V H. destruct m'; try discriminate V. injection V as -> ->. unfold pc_act. cbn [step fst snd].
  change (OwnershipModel.step _ _) with (shadow owner pc_fac pc_time proposal (e, Ownership w m) s w m). rewrite H. discriminate.
Qed.
Lemma pc_goes l : forall s, goes pc_act s l = run s l.
Proof.
  induction l as [|[e m] l IH]; intros s; [reflexivity|]. change (goes pc_act (go pc_act s (e, m)) l = run (exec s (e, m)) l). rewrite IH.
  f_equal. unfold go, pc_act, exec. cbn [fst snd]. destruct (step e m s) as [[? ?]|]; reflexivity.
Qed.
End Pcl.

Section Duality.
Import PclModel DualityModel.
Definition du_own (st : dstate) : option Z := owner (pool st).
Definition du_prop (st : dstate) : option OwnershipModel.proposal := proposal (pool st).
Definition du_act (em : denv * dmsg) (s : dstate) : option dstate :=
  match dstep (fst em) (snd em) s with Some (s', _) => Some s' | None => None end.
Definition du_view (em : denv * dmsg) : option (Z * OwnershipModel.msg) :=
  match snd em with DConfig (Ownership w m) => Some (w, m) | _ => None end.
Definition du_fac (em : denv * dmsg) : Z := factory_owner (base (fst em)).
Definition du_time (em : denv * dmsg) : Z := now (base (fst em)).

Lemma close_own st k0 k1 sup l ps c o d : du_prop (close st k0 k1 sup l ps c o d) = du_prop st /\ du_own (close st k0 k1 sup l ps c o d) = du_own st.
Proof. destruct c as [[? ?] ?]. split; reflexivity. Qed.

Lemma du_keep e m s s' o : dstep e m s = Some (s', o) -> du_view (e, m) = None -> du_prop s' = du_prop s /\ du_own s' = du_own s.
Proof.
  intros H N. destruct m; cbn [dstep] in H; cbn in N.
  - apply DualityProofs.provide_inv in H. cbv zeta in H. crush. subst s'. apply close_own.
  - apply DualityProofs.withdraw_inv in H. cbv zeta in H. crush. subst s'. apply close_own.
  - unguard H G. apply DualityProofs.swap_inv in H. cbv zeta in H. crush. subst s'. apply close_own.
  - apply DualityProofs.sync_inv in H. cbv zeta in H. crush. subst s'. apply close_own.
  - unfold update_ob in H. unguard H G1. unguard H G2. unguard H G3. unbind H as [os d] E. unguard H G4. unbind H as k0 E1. unbind H as k1 E2.
    injection H as <- _. split; reflexivity.
  - unguard H C. unbind H as [s1 o'] E. injection H as <- _. unfold du_prop, du_own. cbn [pool]. apply (pc_keep _ _ _ _ _ E).
    unfold pc_view. cbn [snd]. destruct m; try reflexivity. discriminate N.
  - unbind H as od E. unguard H G. injection H as <- _. split; reflexivity.
Qed.
Lemma du_step : forall em s s', du_act em s = Some s' -> match du_view em with
  | Some (w, m) => exists o, shadow du_own du_fac du_time du_prop em s w m = Some o /\ du_prop s' = OwnershipModel.prop o /\
      du_own s' = match m with OwnershipModel.Claim => Some (OwnershipModel.owner o) | _ => du_own s end
  | None => du_prop s' = du_prop s /\ du_own s' = du_own s
  end.
Proof.
  intros [e m] s s' H. unfold du_act in H. cbn [fst snd] in H. destruct (dstep e m s) as [[s1 o]|] eqn:E; [|discriminate H]. injection H as ->.
  destruct (du_view (e, m)) as [[w x]|] eqn:V; [|exact (du_keep _ _ _ _ _ E V)].
  destruct m; try discriminate V. destruct m; try discriminate V. injection V as -> ->. cbn [dstep step config_msg] in E.
  unbind E as [s2 o2] E2. injection E as <- _. unbind E2 as ow Eo. injection E2 as <- _.
  exists ow. split; [exact Eo|]. split; reflexivity.
Qed.
Lemma du_back : forall em s w m o, du_view em = Some (w, m) -> shadow du_own du_fac du_time du_prop em s w m = Some o -> du_act em s <> None.
Proof.
  intros [e m'] s w m o V H. destruct m' as [| | | | |m'|]; try discriminate V. destruct m'; try discriminate V. injection V as -> ->. unfold du_act. cbn [dstep step fst snd config_msg].
  change (OwnershipModel.step _ _) with (shadow du_own du_fac du_time du_prop (e, DConfig (Ownership w m)) s w m). rewrite H. discriminate.
Qed.
Lemma du_goes l : forall s, goes du_act s l = drun s l.
Proof.
  induction l as [|[e m] l IH]; intros s; [reflexivity|]. change (goes du_act (go du_act s (e, m)) l = drun (dexec s (e, m)) l). rewrite IH.
  f_equal. unfold go, du_act, dexec. cbn [fst snd]. destruct (dstep e m s) as [[? ?]|]; reflexivity.
Qed.
End Duality.

(** ** Theorems *)

(** In every history of a stable pair its owner changes only by the claim of the account which the then governor had proposed, as the
    last accepted ownership message, at most 14 days earlier; and such a claim is accepted. *)
Theorem c117_stable : forall t a o q0 q1 n0 n1 s, StableModel.instantiate t a o q0 q1 n0 n1 = Some s ->
  (forall l e, StableModel.owner (StableModel.run s (l ++ [e])) <> StableModel.owner (StableModel.run s l) ->
     transferred st_act StableModel.owner st_fac st_time st_view s l e) /\
  claimable st_act StableModel.owner st_fac st_time st_view s.
Proof.
  intros t a o q0 q1 n0 n1 s H. assert (N : StableModel.proposal s = None).
  { unfold StableModel.instantiate in H. unguard H G. injection H as <-. reflexivity. }
  split.
  - intros l e D. apply (gov_transferred _ _ _ _ _ _ st_step); [exact N|]. rewrite <- !st_goes, goes_app in D. exact D.
  - exact (gov_claimable _ _ _ _ _ _ st_step st_back s).
Qed.
Theorem c117_concentrated : forall t h u am ga ps tr q0 q1 n0 n1 s, PclModel.instantiate t h u am ga ps tr q0 q1 n0 n1 = Some s ->
  (forall l e, PclModel.owner (PclModel.run s (l ++ [e])) <> PclModel.owner (PclModel.run s l) ->
     transferred pc_act PclModel.owner pc_fac pc_time pc_view s l e) /\
  claimable pc_act PclModel.owner pc_fac pc_time pc_view s.
Proof.
  intros t h u am ga ps tr q0 q1 n0 n1 s H. assert (N : PclModel.proposal s = None).
  { unfold PclModel.instantiate in H. unguard H G1. unguard H G2. unbind H as p E. unguard H G3. injection H as <-. reflexivity. }
  split.
  - intros l e D. apply (gov_transferred _ _ _ _ _ _ pc_step); [exact N|]. rewrite <- !pc_goes, goes_app in D. exact D.
  - exact (gov_claimable _ _ _ _ _ _ pc_step pc_back s).
Qed.
Theorem c117_order_book : forall t u am ga ps q0 q1 ex n m0 m1 lq ad s, DualityModel.dinstantiate t u am ga ps q0 q1 ex n m0 m1 lq ad = Some s ->
  (forall l e, du_own (DualityModel.drun s (l ++ [e])) <> du_own (DualityModel.drun s l) ->
     transferred du_act du_own du_fac du_time du_view s l e) /\
  claimable du_act du_own du_fac du_time du_view s.
Proof.
  intros t u am ga ps q0 q1 ex n m0 m1 lq ad s H. assert (N : du_prop s = None).
  { unfold DualityModel.dinstantiate in H. unbind H as p E0. unguard H G. injection H as <-. unfold PclModel.instantiate in E0.
    unguard E0 G1. unguard E0 G2. unbind E0 as p' E. unguard E0 G3. injection E0 as <-. reflexivity. }
  split.
  - intros l e D. apply (gov_transferred _ _ _ _ _ _ du_step); [exact N|]. rewrite <- !du_goes, goes_app in D. exact D.
  - exact (gov_claimable _ _ _ _ _ _ du_step du_back s).
Qed.

(** What the owner decides changes only by the governor's message: amplification and fee share of a stable pair ... *)
Theorem c117_stable_authority : forall e m s s' o, StableModel.step e m s = Some (s', o) ->
  (StableModel.amp s' <> StableModel.amp s \/ StableModel.fshare s' <> StableModel.fshare s) ->
  let who := governor StableModel.owner st_fac (e, m) s in
  (exists a t, m = StableModel.StartAmp who a t) \/ m = StableModel.StopAmp who \/
  (exists b, m = StableModel.EnableFeeShare who b /\ 1 <= b <= 1000 /\ StableModel.fshare s' = Some b) \/
  (m = StableModel.DisableFeeShare who /\ StableModel.fshare s' = None).
Proof.
  intros e m s s' o H D who. destruct m; cbn [StableModel.step] in H.
  - exfalso. apply StablePair.provide_inv in H. crush. tauto.
  - exfalso. apply StablePair.withdraw_inv in H. crush. tauto.
  - exfalso. unguard H G. unfold StableModel.swap in H. unbind H as [[ret spread] comm] Eq.
    unbind H as gross Eg. unbind H as u Eu.
    unbind H as shr Es. unbind H as maker Em. unbind H as no E1. unbind H as k1 E2. unbind H as k2 E3. unbind H as na E4.
    unbind H as x Ex. unbind H as y Ey. unbind H as c Ec. injection H as <- _. destruct c as [[? ?] ?]. destruct D as [D|D]; apply D; reflexivity.
  - unguard H G. bools. subst sender. left. exists next, time. reflexivity.
  - unguard H G. bools. subst sender. right; left. reflexivity.
  - unguard H G. injection H as <- _. bools. subst sender. unfold StableModel.MAX_FEE_SHARE_BPS in *. right; right; left. exists bps.
    split; [reflexivity|]. split; [lia|reflexivity].
  - unguard H G. injection H as <- _. bools. subst sender. right; right; right. split; reflexivity.
  - exfalso. unbind H as ow Eo. injection H as <- _. destruct D as [D|D]; apply D; reflexivity.
  - exfalso. unguard H G. unbind H as n En. injection H as <- _. destruct D as [D|D]; apply D; reflexivity.
  - exfalso. unguard H G. injection H as <- _. destruct D as [D|D]; apply D; reflexivity.
Qed.
(** ... and parameters, ramp and fee share of an order-book pair (for the concentrated pair see [c31_authority]). *)
Theorem c117_order_book_authority : forall e m s s' o, DualityModel.dstep e m s = Some (s', o) ->
  let p := DualityModel.pool s in let p' := DualityModel.pool s' in
  (PclModel.par p' <> PclModel.par p \/ PclModel.rmp p' <> PclModel.rmp p \/ PclModel.fshare p' <> PclModel.fshare p) ->
  let who := governor du_own du_fac (e, m) s in
  exists m', m = DualityModel.DConfig m' /\
  ((exists u, m' = PclModel.UpdateParams who u) \/ (exists a g t, m' = PclModel.Promote who a g t) \/ m' = PclModel.StopPromotion who \/
   (exists b, m' = PclModel.EnableFeeShare who b /\ 1 <= b <= 1000) \/ m' = PclModel.DisableFeeShare who).
Proof.
  intros e m s s' o H p p' D who.
  assert (K : forall st k0 k1 sup l ps c o d, let q := DualityModel.pool (DualityModel.close st k0 k1 sup l ps c o d) in
    PclModel.par q = PclModel.par (DualityModel.pool st) /\ PclModel.rmp q = PclModel.rmp (DualityModel.pool st) /\ PclModel.fshare q = PclModel.fshare (DualityModel.pool st)).
  { intros st k0 k1 sup l ps [[? ?] ?] ob d. repeat split. }
  assert (X : forall st k0 k1 sup l ps c ob d, s = st -> s' = DualityModel.close st k0 k1 sup l ps c ob d -> False).
  { intros st k0 k1 sup l ps c ob d -> E. unfold p, p' in D. rewrite E in D. destruct (K st k0 k1 sup l ps c ob d) as (-> & -> & ->) in D.
    destruct D as [D|[D|D]]; apply D; reflexivity. }
  destruct m; cbn [DualityModel.dstep] in H.
  - exfalso. apply DualityProofs.provide_inv in H. cbv zeta in H. crush. eapply X; [reflexivity|eassumption].
  - exfalso. apply DualityProofs.withdraw_inv in H. cbv zeta in H. crush. eapply X; [reflexivity|eassumption].
  - exfalso. unguard H G. apply DualityProofs.swap_inv in H. cbv zeta in H. crush. eapply X; [reflexivity|eassumption].
  - exfalso. apply DualityProofs.sync_inv in H. cbv zeta in H. crush. eapply X; [reflexivity|eassumption].
  - exfalso. unfold DualityModel.update_ob in H. unguard H G1. unguard H G2. unguard H G3. unbind H as [os d] E. unguard H G4. unbind H as k0 E1. unbind H as k1 E2.
    injection H as <- _. unfold p' in D. cbn in D. destruct D as [D|[D|D]]; apply D; reflexivity.
  - unguard H C. unbind H as [s1 o'] E. injection H as <- _. exists m. split; [reflexivity|].
    exact (PclParamProps.c31_authority _ _ _ _ _ E D).
  - exfalso. unbind H as od E. unguard H G. injection H as <- _. destruct D as [D|[D|D]]; apply D; reflexivity.
Qed.

(** ** A proposal outlives the factory owner who made it *)

Definition owned_by (f t : Z) : PclModel.env := PclModel.mkEnv t t PclParamProps.no_fees f true.
Definition h117 : list (PclModel.env * PclModel.msg) :=
  [(owned_by 7 2000, PclModel.Ownership 7 (OwnershipModel.Propose 9 1000000)); (owned_by 7 3000, PclModel.Provide 5 2000000000 1000000000 None None)].

(** The intended "only who governs now decides who governs next" is false while the pair has no owner: account 7 proposes 9 for the pair,
    then the factory passes to 8. The proposal stays; 9 claims the pair, 8 never agreed and is locked out. *)
Theorem c117_former_owner_refuted : exists s l e, PclParamProps.pool0 230000000000000 (2 * DEC) = Some s /\
  governor PclModel.owner pc_fac e (PclModel.run s l) = 8 /\
  (forall e' m, In e' l -> pc_view e' <> Some (8, m)) /\
  let s' := PclModel.run s (l ++ [e]) in PclModel.owner s' = Some 9 /\
  (forall t u, PclModel.step (owned_by 8 t) (PclModel.UpdateParams 8 u) s' = None) /\
  (forall t m, m = OwnershipModel.Drop \/ (exists n x, m = OwnershipModel.Propose n x) -> PclModel.step (owned_by 8 t) (PclModel.Ownership 8 m) s' = None).
Proof.
  exists PclSwapProps.ex0, h117, (owned_by 8 500000, PclModel.Ownership 9 OwnershipModel.Claim). split; [exact PclSwapProps.ex0_ok|].
  split; [vm_compute; reflexivity|]. split.
  { intros e' m [<-|[<-|[]]]; discriminate. }
  cbv zeta. assert (O : PclModel.owner (PclModel.run PclSwapProps.ex0 (h117 ++ [(owned_by 8 500000, PclModel.Ownership 9 OwnershipModel.Claim)])) = Some 9) by (vm_compute; reflexivity).
  split; [exact O|]. set (s' := PclModel.run _ _) in *. clearbody s'. split.
  - intros t u. cbn [PclModel.step]. unfold PclModel.eff_owner. rewrite O. reflexivity.
  - intros t m M. cbn [PclModel.step]. unfold PclModel.eff_owner. rewrite O. destruct M as [->|(n & x & ->)]; reflexivity.
Qed.

(** An uneventful transfer of each kind of pair, with a late and an unauthorised claim refused. *)
Example c117_example :
  (exists s, StableModel.instantiate 100 1 None 6 6 true true = Some s /\
    let e t := StableProps.ex_e t in let p := (e 200, StableModel.Ownership 7 (OwnershipModel.Propose 9 1000)) in
    StableModel.owner (StableModel.run s [p; (e 1200, StableModel.Ownership 9 OwnershipModel.Claim)]) = Some 9 /\
    StableModel.owner (StableModel.run s [p; (e 1201, StableModel.Ownership 9 OwnershipModel.Claim)]) = None /\
    StableModel.owner (StableModel.run s [p; (e 300, StableModel.Ownership 7 OwnershipModel.Drop); (e 400, StableModel.Ownership 9 OwnershipModel.Claim)]) = None) /\
  (let s := PclModel.run PclSwapProps.ex0 [(owned_by 7 2000, PclModel.Ownership 7 (OwnershipModel.Propose 9 1000))] in
    PclModel.owner (PclModel.run s [(owned_by 7 3000, PclModel.Ownership 9 OwnershipModel.Claim)]) = Some 9 /\
    PclModel.owner (PclModel.run s [(owned_by 7 3001, PclModel.Ownership 9 OwnershipModel.Claim)]) = None /\
    PclModel.owner (PclModel.run s [(owned_by 7 2500, PclModel.Ownership 8 OwnershipModel.Claim)]) = None).
Proof. split; [eexists; split; [vm_compute; reflexivity|]|]; vm_compute; repeat split. Qed.

Print Assumptions c117_stable.
Print Assumptions c117_concentrated.
Print Assumptions c117_order_book.
Print Assumptions c117_stable_authority.
Print Assumptions c117_order_book_authority.
Print Assumptions c117_former_owner_refuted.
