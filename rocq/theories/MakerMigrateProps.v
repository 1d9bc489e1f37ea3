(** C142: what migrating the maker changes, and what its queries tell. *)
From Coq Require Import ZArith Lia Bool List String.
From Verif Require Import Num Ledger Amap MakerModel MakerSpec MakerProofs MakerInv MakerProps MakerMigrateModel.
From Verif Require OwnershipModel.
Import ListNotations.
Open Scope Z_scope.

(** ** Specification *)

(** Configuration that no migration touches: who decides, where the fees go, at which spread, the release of the ASTRO
    collected before the rewards were enabled. *)
Definition same_rules (c c' : config) : Prop :=
  own c' = own c /\ factory c' = factory c /\ staking c' = staking c /\ dbridge c' = dbridge c /\ gov c' = gov c /\ pct c' = pct c /\
  astro c' = astro c /\ spread c' = spread c /\ enabled c' = enabled c /\ pblocks c' = pblocks c /\ lastblk c' = lastblk c /\
  remainder c' = remainder c /\ preamt c' = preamt c.
Definition versions : list string := ["1.2.0"; "1.4.0"; "1.5.0"; "1.6.0"]%string.
(** What the message says is acceptable. *)
Definition valid_mig (m : migmsg) : Prop :=
  (forall r k, m_second m = Some (r, k) -> 1 <= k <= 50) /\ (forall k, m_cooldown m = Some k -> 30 <= k <= 600).
(** Messages only, none of which configures seizing. *)
Definition no_seize_config (l : list event) : Prop := Forall (fun v => forall to x, ev_msg v <> UpdateSeize to x) l.

(** ** Proofs *)

Lemma valid_iff m : valid_mig m <-> cooldown_ok (m_cooldown m) && second_ok (m_second m) = true.
Proof.
  unfold valid_mig, cooldown_ok, second_ok, MIN_COOLDOWN, MAX_COOLDOWN, MAX_CUT. destruct m as [[[r k]|] [c|]]; cbn [m_second m_cooldown].
  all: rewrite ?andb_true_r, ?andb_true_l, ?andb_true_iff, ?Z.leb_le, ?Z.ltb_lt. 
  - split; [intros (A & B); specialize (A _ _ eq_refl); specialize (B _ eq_refl); lia|intros H; split; [intros ? ? [= <- <-]|intros ? [= <-]]; lia].
  - split; [intros (A & B); specialize (A _ _ eq_refl); lia|intros H; split; [intros ? ? [= <- <-]; lia|discriminate]].
  - split; [intros (A & B); specialize (B _ eq_refl); lia|intros H; split; [discriminate|intros ? [= <-]; lia]].
  - split; [reflexivity|intros _; split; discriminate].
Qed.

(** The maker can be migrated from the four versions only, to the current one, hence once; the message matters to the
    first of them only. *)
Theorem c142_accepts t m o : (exists o', migrate t m o = Some o') <->
  sname o = "astroport-maker"%string /\ In (sver o) versions /\ (sver o = "1.2.0"%string -> valid_mig m).
Proof.
  unfold migrate. destruct (String.eqb_spec (sname o) "astroport-maker") as [->|N]; [|split; [intros (? & ?); discriminate|intros (? & _); contradiction]].
  cbv zeta. unfold from_v120.
  destruct (String.eqb_spec (sver o) "1.2.0") as [E|N].
  - rewrite E. split.
    + intros (o' & H). split; [reflexivity|]. split; [left; reflexivity|]. intros _. apply valid_iff. destruct (cooldown_ok _); [|discriminate]. destruct (second_ok _); [reflexivity|discriminate].
    + intros (_ & _ & V). specialize (V eq_refl). apply valid_iff in V. apply andb_prop in V. destruct V as (-> & ->). eexists. reflexivity.
  - destruct (String.eqb_spec (sver o) "1.4.0") as [->|N4]; [split; [intros _; split; [reflexivity|]; split; [cbn; tauto|discriminate]|intros _; eexists; reflexivity]|].
    destruct (String.eqb_spec (sver o) "1.5.0") as [->|N5]; [split; [intros _; split; [reflexivity|]; split; [cbn; tauto|discriminate]|intros _; eexists; reflexivity]|].
    destruct (String.eqb_spec (sver o) "1.6.0") as [->|N6]; [split; [intros _; split; [reflexivity|]; split; [cbn; tauto|discriminate]|intros _; eexists; reflexivity]|].
    cbn [orb]. split; [intros (? & ?); discriminate|]. intros (_ & I & _). cbn [versions In] in I. exfalso. intuition congruence.
Qed.
Print Assumptions c142_accepts.

Lemma migrate_inv t m o o' : migrate t m o = Some o' ->
  sname o' = "astroport-maker"%string /\ sver o' = "1.7.0"%string /\ bal (body o') = bal (body o) /\ bridges (body o') = bridges (body o) /\
  seize_to (body o') = None /\ seizable (body o') = [] /\
  if String.eqb (sver o) "1.2.0" then valid_mig m /\ lastcol (body o') = t /\ from_v120 m (cfg (body o)) = Some (cfg (body o'))
  else cfg (body o') = cfg (body o) /\ lastcol (body o') = lastcol (body o).
Proof.
  intros H. assert (A : exists o', migrate t m o = Some o') by eauto. apply c142_accepts in A. destruct A as (_ & _ & V).
  unfold migrate in H. unguard H G. cbv zeta in H. destruct (String.eqb_spec (sver o) "1.2.0") as [E|N].
  - unbind H as c E1. injection H as <-. cbn. intuition.
  - destruct (_ || _ || _); [|discriminate]. injection H as <-. cbn. intuition.
Qed.

(** C142: funds, bridges, ownership and the rules of distribution stay; nothing can be seized any more; a second migration
    is refused. From 1.2.0 the message decides about second receiver (if it names one) and cooldown, there is no dev fund,
    and the time of the migration counts as that of a collection; from later versions everything else stays as well. *)
Theorem c142_kept t m o o' : migrate t m o = Some o' ->
  bal (body o') = bal (body o) /\ bridges (body o') = bridges (body o) /\ same_rules (cfg (body o)) (cfg (body o')) /\ seizable (body o') = [] /\
  (forall t' m', migrate t' m' o' = None) /\
  (sver o = "1.2.0"%string -> dev (cfg (body o')) = None /\ cooldown (cfg (body o')) = m_cooldown m /\ lastcol (body o') = t /\
     second (cfg (body o')) = match m_second m with Some x => Some x | None => second (cfg (body o)) end) /\
  (sver o <> "1.2.0"%string -> cfg (body o') = cfg (body o) /\ lastcol (body o') = lastcol (body o)).
Proof.
  intros H. destruct (migrate_inv _ _ _ _ H) as (N & V & B & Br & _ & Sz & C).
  split; [exact B|]. split; [exact Br|]. split; [|split; [exact Sz|split; [|split]]].
  - destruct (String.eqb _ _); [|destruct C as (-> & _); unfold same_rules; intuition]. destruct C as (_ & _ & C). unfold from_v120 in C. unguard C G1. unguard C G2. injection C as <-. unfold same_rules. cbn. intuition.
  - intros t' m'. destruct (migrate t' m' o') eqn:E; [|reflexivity]. exfalso. assert (A : exists x, migrate t' m' o' = Some x) by eauto. apply c142_accepts in A. destruct A as (_ & I & _).
    rewrite V in I. cbn in I. intuition discriminate.
  - intros E. rewrite E in C. cbn [String.eqb] in C. change (String.eqb "1.2.0" "1.2.0") with true in C. cbv iota in C. destruct C as (_ & L & C). unfold from_v120 in C. unguard C G1. unguard C G2. injection C as C.
    rewrite <- C. cbn. destruct (m_second m); auto.
  - intros N2. destruct (String.eqb_spec (sver o) "1.2.0"); [contradiction|]. exact C.
Qed.
Print Assumptions c142_kept.

(** C142: the documented limits of the configuration hold throughout, messages and migrations in any order. *)
Theorem c142_limits o l : good_config (cfg (body o)) -> good_config (cfg (body (mrun o l))).
Proof.
  revert o. induction l as [|v l IH]; intros o G; [exact G|]. cbn [mrun fold_left]. apply IH. destruct v as [v|e m]; cbn [mexec body].
  - exact (run_good [v] _ G).
  - destruct (migrate (now e) m o) as [o'|] eqn:E; [|exact G]. apply migrate_inv in E. destruct E as (_ & _ & _ & _ & _ & _ & C).
    destruct (String.eqb _ _); [|destruct C as (-> & _); exact G]. destruct C as ((V1 & V2) & _ & C). unfold from_v120 in C. unguard C G1. unguard C G2. injection C as <-.
    destruct G as (A1 & A2 & A3 & A4 & A5 & A6). unfold good_config. cbn. split; [exact A1|]. split; [exact A2|]. split; [|split; [exact V2|split; [discriminate|exact A6]]].
    intros r k. destruct (m_second m) as [[r' k']|] eqn:E; cbn [orsome]; [intros [= <- <-]; eapply V1; reflexivity|apply A3].
Qed.
Print Assumptions c142_limits.

(** C142: the ASTRO reserved for the release after the upgrade stays reserved and held. *)
Theorem c142_backed t m o o' : migrate t m o = Some o' -> (backed (body o') <-> backed (body o)).
Proof.
  intros H. destruct (c142_kept _ _ _ _ H) as (B & _ & (_ & _ & _ & _ & _ & _ & A & _ & _ & _ & _ & R & _) & _). unfold backed, holds, ASTRO. rewrite B, A, R. tauto.
Qed.
Print Assumptions c142_backed.

(** C142: after a migration nothing is seized until the owner configures it again. *)
Theorem c142_seize t m o o' l e sender x : migrate t m o = Some o' -> no_seize_config l -> step e sender (Seize x) (run (body o') l) = None.
Proof.
  intros H Nc. apply c76_refused. left. destruct (c142_kept _ _ _ _ H) as (_ & _ & _ & S0 & _). revert S0. generalize (body o') as s.
  induction Nc as [|v l N1 _ IH]; intros s S0; [exact S0|]. cbn [run fold_left]. apply IH. unfold exec. destruct (step _ _ _ s) as [[s' os]|] eqn:E; [|exact S0].
  destruct (step_config _ _ _ _ _ _ E) as (_ & _ & _ & _ & _ & [(_ & ->)|(_ & a & r & K)]); [exact S0|exfalso; eapply N1; exact K].
Qed.
Print Assumptions c142_seize.

(** C142: after a migration from 1.2.0 the first collection waits for the cooldown; after one from a later version the
    cooldown since the last collection goes on. *)
Theorem c142_cooldown t m o o' l h e sender c s' os cd : migrate t m o = Some o' -> sver o = "1.2.0"%string \/ lastcol (body o) <= t -> clock t h l ->
  step e sender (Collect c) (run (body o') l) = Some (s', os) -> cooldown (cfg (run (body o') l)) = Some cd ->
  (if String.eqb (sver o) "1.2.0" then t else lastcol (body o)) + cd <= now e.
Proof.
  intros H T Ck St Cd. destruct (migrate_inv _ _ _ _ H) as (_ & _ & _ & _ & _ & _ & C).
  assert (L : lastcol (body o') = if String.eqb (sver o) "1.2.0" then t else lastcol (body o)) by (destruct (String.eqb _ _); tauto).
  destruct (run_lastcol l (body o') t h) as (A & _); [destruct (String.eqb_spec (sver o) "1.2.0"); [lia|destruct T; [contradiction|lia]]|exact Ck|].
  destruct (collect_spec _ _ _ _ _ St) as (B & _). specialize (B _ Cd). rewrite <- L. lia.
Qed.
Print Assumptions c142_cooldown.

(** C142: it does not hold that a migration obeys its message: from 1.5.0, say, a second receiver and a cooldown are
    accepted, even outside their limits, and forgotten. *)
Definition c0 : config := mkCfg (OwnershipModel.init 7) 20 (Some 50) None None (Some 60) 50 1 DEFAULT_SPREAD false 0 0 0 0 None None.
Definition old15 : stored := mkStored "astroport-maker" "1.5.0" (mkState c0 100 [] None [] [(1, 500)]).
Theorem c142_obeyed_refuted : exists t m o o', good_config (cfg (body o)) /\ migrate t m o = Some o' /\ m_cooldown m = Some 300 /\ m_second m = Some (70, 99) /\
  cooldown (cfg (body o')) = None /\ second (cfg (body o')) = None.
Proof.
  exists 1000, (mkMig (Some (70, 99)) (Some 300)), old15. eexists. split.
  { unfold good_config. cbn. unfold MAX_SPREAD, DEFAULT_SPREAD. repeat split; try lia; try discriminate; congruence. }
  split; [vm_compute; reflexivity|]. repeat split.
Qed.
Print Assumptions c142_obeyed_refuted.

(** C142: Balances lists every asset asked for of which the maker holds something, with what it holds, in the order (and
    as often as) asked. *)
Theorem c142_balances s l : (forall a v, In (a, v) (query_balances s l) <-> In a l /\ v = holds s a /\ v <> 0) /\
  map fst (query_balances s l) = filter (fun a => negb (holds s a =? 0)) l.
Proof.
  unfold query_balances, holds. split.
  - intros a v. rewrite filter_In, in_map_iff. cbn [snd]. rewrite negb_true_iff, Z.eqb_neq. split.
    + intros ((x & [= <- <-] & I) & N). auto.
    + intros (I & -> & N). split; [exists a; auto|exact N].
  - induction l as [|a l IH]; [reflexivity|]. cbn [map filter snd]. destruct (negb (get (bal s) a =? 0)); cbn [map fst]; congruence.
Qed.
Print Assumptions c142_balances.

(** C142: Config tells the rules of distribution, but not whether a collection has to wait. *)
Theorem c142_config s s' : query_config s = query_config s' ->
  let c := cfg s in let c' := cfg s' in
  OwnershipModel.owner (own c) = OwnershipModel.owner (own c') /\ factory c = factory c' /\ staking c = staking c' /\ dev c = dev c' /\ gov c = gov c' /\ pct c = pct c' /\
  astro c = astro c' /\ spread c = spread c' /\ remainder c = remainder c' /\ preamt c = preamt c' /\ dbridge c = dbridge c' /\ second c = second c'.
Proof. unfold query_config. cbv zeta. intros [= -> -> -> -> -> -> -> -> -> -> -> ->]. repeat split. Qed.
Print Assumptions c142_config.
Definition waits : state := mkState (mkCfg (OwnershipModel.init 7) 20 (Some 50) None None (Some 60) 50 1 DEFAULT_SPREAD true 0 0 0 0 None (Some 600)) 100 [] None [] [(1, 500)].
Definition at_once : state := mkState (mkCfg (OwnershipModel.init 7) 20 (Some 50) None None (Some 60) 50 1 DEFAULT_SPREAD true 0 0 0 0 None None) 100 [] None [] [(1, 500)].
Theorem c142_config_refuted : exists s s' e, query_config s = query_config s' /\ step e 8 (Collect []) s = None /\
  exists r, step e 8 (Collect []) s' = Some r.
Proof. exists waits, at_once, (env0 200 1). split; [reflexivity|]. split; [vm_compute; reflexivity|]. eexists. vm_compute. reflexivity. Qed.
Print Assumptions c142_config_refuted.

(** A maker of version 1.2.0, migrated with a second receiver and a cooldown, and used. *)
Definition old12 : stored := mkStored "astroport-maker" "1.2.0" (mkState (mkCfg (OwnershipModel.init 7) 20 (Some 50) None None (Some 60) 50 1 DEFAULT_SPREAD true 0 0 0 0 None None) 0 [] None [] [(1, 500)]).
Example c142_example : good_config (cfg (body old12)) /\
  exists o', migrate 1000 (mkMig (Some (70, 20)) (Some 300)) old12 = Some o' /\ step (env0 1299 1) 8 (Collect []) (body o') = None /\
  exists s' os, step (env0 1300 1) 8 (Collect []) (body o') = Some (s', os) /\ paid 1 70 os = 100 /\ paid 1 60 os = 200 /\ paid 1 50 os = 200.
Proof.
  split. { unfold good_config. cbn. unfold MAX_SPREAD, DEFAULT_SPREAD. repeat split; try lia; try discriminate; congruence. }
  eexists. split; [vm_compute; reflexivity|]. split; [vm_compute; reflexivity|]. do 2 eexists. split; [vm_compute; reflexivity|]. vm_compute. auto.
Qed.
