(** C84: the whitelist contract. *)
From Coq Require Import ZArith Lia Bool List.
From Verif Require Import Num WhitelistModel.
Import ListNotations.
Open Scope Z_scope.

Lemma mem_In x l : mem x l = true <-> In x l.
Proof.
  induction l as [|y l IH]; simpl; [split; [discriminate|tauto]|].
  rewrite orb_true_iff, Z.eqb_eq, IH. intuition congruence.
Qed.
(** Messages go out only at the request of a current admin, unchanged; the admin list and its
    mutability change only by a current admin while mutable. *)
Theorem c84_authority e s s' out : step e s = Some (s', out) ->
  (out <> [] -> In (sender e) (admins s) /\ what e = Execute out /\ s' = s) /\
  (s' <> s -> In (sender e) (admins s) /\ mutable s = true /\
     ((what e = Freeze /\ s' = mkState (admins s) false) \/
      (exists l, what e = UpdateAdmins l /\ s' = mkState l true))).
Proof.
  unfold step, can_modify, is_admin. intros H. destruct (what e) as [l| |l|].
  - unguard H G. injection H as <- <-. apply mem_In in G. split; [auto|congruence].
  - unguard H G. injection H as <- <-. bools. apply mem_In in H0. split; [congruence|]. intros _. repeat split; auto.
  - unguard H G. injection H as <- <-. bools. apply mem_In in H0. rewrite H. split; [congruence|]. intros _. repeat split; auto.
    right. exists l. auto.
  - injection H as <- <-. split; congruence.
Qed.
(** Once frozen, nothing ever changes the list. *)
Theorem c84_frozen s l : mutable s = false -> run s l = s.
Proof.
  intros M. induction l as [|e l IH]; [reflexivity|]. change (run s (e :: l)) with (run (exec s e) l).
  replace (exec s e) with s; [exact IH|]. unfold exec. destruct (step e s) as [[s' o]|] eqn:H; auto.
  destruct (c84_authority _ _ _ _ H) as (_ & Q). unfold step, can_modify in H. rewrite M in H.
  destruct (what e); simpl in H; try discriminate.
  - unguard H G. congruence.
  - congruence.
Qed.
(** An admin's messages are always passed on. *)
Theorem c84_open s a l : In a (admins s) -> step (mkEv a (Execute l)) s = Some (s, l).
Proof. intros I. apply mem_In in I. unfold step, is_admin. simpl. rewrite I. reflexivity. Qed.

Example k_list :
  let s := mkState [1; 2] true in
  run s [mkEv 3 (UpdateAdmins [3]); mkEv 2 (UpdateAdmins [2; 4]); mkEv 1 Freeze; mkEv 4 Freeze; mkEv 4 (UpdateAdmins [])]
    = mkState [2; 4] false /\
  step (mkEv 3 (Execute [7])) s = None /\ step (mkEv 2 (Execute [7])) s = Some (s, [7]).
Proof. vm_compute. auto. Qed.

Print Assumptions c84_authority.
Print Assumptions c84_frozen.
Print Assumptions c84_open.
