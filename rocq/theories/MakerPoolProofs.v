(** Proofs about the maker over its pairs. *)
From Coq Require Import ZArith Bool List Lia Permutation.
From Verif Require Import Num Ledger MakerModel MakerSpec MakerProofs MakerProps MakerPoolModel MakerPoolSpec.
From Verif Require XykModel XykSpec XykProofs XykProps.
Import ListNotations.
Open Scope Z_scope.

(** * Sales *)
Lemma lookup_spec r a b p : lookup r a b = Some p -> trades_at r p a b (a =? pa1 p) \/ (pa0 p = pa1 p /\ In p (pairs r)).
Proof.
  unfold lookup. intros H. apply find_some in H. destruct H as (I & H). bools. unfold is_pair in H.
  apply mem_In in H0.
  destruct (Z.eqb_spec (pa0 p) (pa1 p)) as [E|E]; [right; auto|]. left. unfold trades_at. split; [exact I|]. split; [exact H0|].
  apply orb_prop in H. destruct H as [H|H]; bools; subst; [|rewrite Z.eqb_refl; auto].
  destruct (Z.eqb_spec (pa0 p) (pa1 p)) as [E2|E2]; [contradiction|auto].
Qed.

Definition apart (r : registry) : Prop := forall p, In p (pairs r) -> pa0 p <> pa1 p.

Lemma sale_spec e r sp f a b v g q : apart r -> sale e r sp f a b v = Some (g, q) ->
  exists p s' so, trades_at r p a b (a =? pa1 p) /\
  XykModel.step (xenv e p) (XykModel.Swap (a =? pa1 p) v None (Some sp)) (f (pid p)) = Some (s', XykModel.OSwap so) /\
  g = upd f (pid p) s' /\ q = XykModel.so_return so + (if mine e then XykModel.so_maker so else 0).
Proof.
  intros A H. unfold sale in H. unbind H as p L. unbind H as (s', o) S. destruct o as [| |so|]; try discriminate.
  injection H as <- <-. destruct (lookup_spec _ _ _ _ L) as [T|(E & I)]; [|elim (A _ I E)].
  exists p, s', so. auto.
Qed.

(** * The effects are a story *)
(** Quotes that the effects report are the quotes of the pairs at that point. *)
Fixpoint told (e : env) (r : registry) (sp : Z) (os : list out) (f : Z -> XykModel.state) : Prop :=
  match os with
  | [] => True
  | Paid _ _ _ :: l => told e r sp l f
  | Swapped a b v q :: l => exists g, sale e r sp f a b v = Some (g, q) /\ told e r sp l g
  end.
Lemma told_story e r sp : apart r -> forall os f g, told e r sp os f -> settle e r sp os f = Some g -> story e r sp f os g.
Proof.
  intros A. induction os as [|[a to v|a b v q] os IH]; cbn [told settle]; intros f g T S.
  - injection S as <-. constructor.
  - constructor. auto.
  - destruct T as (h & E & T). rewrite E in S. destruct (sale_spec _ _ _ _ _ _ _ _ _ A E) as (p & s' & so & Tr & Sw & -> & Q).
    econstructor; [exact Tr|exact Sw|exact Q|]. apply IH; [exact T|exact S].
Qed.
Lemma told_app e r sp : forall o1 o2 f g, settle e r sp o1 f = Some g -> (told e r sp (o1 ++ o2) f <-> told e r sp o1 f /\ told e r sp o2 g).
Proof.
  induction o1 as [|[a to v|a b v q] o1 IH]; cbn [told settle app]; intros o2 f g S.
  - injection S as <-. tauto.
  - apply IH; exact S.
  - unbind S as (f', x) E. split.
    + intros (h & E1 & T). injection E1 as <- <-. destruct (proj1 (IH _ _ _ S) T) as (T1 & T2). split; [exists f'; auto|auto].
    + intros ((h & E1 & T1) & T2). injection E1 as <- <-. exists f'. split; [reflexivity|]. apply (IH _ _ _ S). auto.
Qed.
Lemma settle_app e r sp : forall o1 o2 f, settle e r sp (o1 ++ o2) f = (do g <- settle e r sp o1 f; settle e r sp o2 g).
Proof.
  induction o1 as [|[a to v|a b v q] o1 IH]; cbn [settle app]; intros o2 f; [reflexivity|apply IH|].
  destruct (sale e r sp f a b v) as [(f', x)|]; [apply IH|reflexivity].
Qed.

(** * The maker alone, with the quotes written on a tape *)
Fixpoint swaps (os : list out) : list (Z * Z * Z * Z) :=
  match os with [] => [] | Paid _ _ _ :: l => swaps l | Swapped a b v q :: l => (a, b, v, q) :: swaps l end.
Definition tape (l : list (Z * Z * Z * Z)) : nat -> Z -> Z -> Z -> option Z :=
  fun k a b v => match nth_error l k with
                 | Some (a', b', v', q) => if (a =? a') && (b =? b') && (v =? v') then Some q else None
                 | None => None end.
Lemma swaps_app o1 o2 : swaps (o1 ++ o2) = swaps o1 ++ swaps o2.
Proof. induction o1 as [|[? ? ?|? ? ? ?] o1 IH]; cbn [swaps app]; [reflexivity|exact IH|rewrite IH; reflexivity]. Qed.
Lemma tape_at l1 a b v q l2 : tape (l1 ++ (a, b, v, q) :: l2) (length l1) a b v = Some q.
Proof. unfold tape. rewrite nth_error_app2, Nat.sub_diag by lia. cbn [nth_error]. rewrite !Z.eqb_refl. reflexivity. Qed.

Lemma trade_same e r q1 q2 k1 k2 a t v s s' o x : trade (menv e r q1) k1 a t v s = Some (s', Swapped a t v x) ->
  o = Swapped a t v x -> q2 k2 a t v = Some x -> trade (menv e r q2) k2 a t v s = Some (s', o).
Proof.
  intros H -> Q. unfold trade in *. cbn [quote menv] in *. unguard H G. rewrite Q. unbind H as y E. unguard H G2. unbind H as n E2.
  injection H as <- <-. rewrite G2. rewrite E2. reflexivity.
Qed.
Lemma trade_out e k a t v s s' o : trade e k a t v s = Some (s', o) -> exists x, o = Swapped a t v x /\ quote e k a t v = Some x.
Proof.
  intros H. unfold trade in H. unguard H G. unbind H as y E. unguard H G2. unbind H as n E2. injection H as <- <-. eauto.
Qed.
Lemma trade_cfg e k a t v s s' o : trade e k a t v s = Some (s', o) -> cfg s' = cfg s.
Proof.
  intros H. unfold trade in H. unguard H G. unbind H as y E. unguard H G2. unbind H as n E2. injection H as <- <-. reflexivity.
Qed.

Definition cont (l1 : list (Z * Z * Z * Z)) (os : list out) (l2 : list (Z * Z * Z * Z)) := l1 ++ swaps os ++ l2.

Lemma wtrades_spec e : forall ms w w' os, wtrades e ms w = Some (w', os) ->
  reg w' = reg w /\ cfg (mk w') = cfg (mk w) /\ settle e (reg w) (spread (cfg (mk w))) os (sts w) = Some (sts w') /\
  told e (reg w) (spread (cfg (mk w))) os (sts w) /\
  forall l1 l2, trades (menv e (reg w) (tape (cont l1 os l2))) (length l1) ms (mk w) = Some ((length l1 + length (swaps os))%nat, mk w', os).
Proof.
  induction ms as [|[[a t] v] ms IH]; intros w w' os H; cbn [wtrades] in H.
  - injection H as <- <-. split; [reflexivity|]. split; [reflexivity|]. split; [reflexivity|]. split; [exact Logic.I|].
    intros l1 l2. cbn [trades swaps length]. rewrite Nat.add_0_r. reflexivity.
  - unbind H as (s1, o) E1. unbind H as f E2. unbind H as (w2, os2) E3. injection H as <- <-.
    destruct (trade_out _ _ _ _ _ _ _ _ E1) as (x & -> & Q). pose proof (trade_cfg _ _ _ _ _ _ _ _ E1) as C.
    destruct (IH _ _ _ E3) as (R & C2 & St & T & Tp). cbn [reg mk sts] in *. rewrite C in *. cbn [settle] in E2. unbind E2 as (f', y) E4.
    injection E2 as ->. cbn [wenv menv quote] in Q. unfold at_pools in Q. rewrite E4 in Q. injection Q as ->.
    split; [exact R|]. split; [exact C2|]. cbn [settle told]. rewrite E4. split; [exact St|]. split; [exists f; auto|].
    intros l1 l2. cbn [trades]. unfold cont. cbn [swaps app].
    rewrite (trade_same e (reg w) _ (tape (l1 ++ (a, t, v, x) :: swaps os2 ++ l2)) 0%nat (length l1) a t v (mk w) s1 _ x E1 eq_refl (tape_at _ _ _ _ _ _)).
    specialize (Tp (l1 ++ [(a, t, v, x)]) l2). unfold cont in Tp. rewrite <- app_assoc in Tp. cbn [app] in Tp.
    rewrite app_length in Tp. cbn [length] in Tp. rewrite Nat.add_1_r in Tp. rewrite Tp.
    cbn [length]. replace (length l1 + S (length (swaps os2)))%nat with (S (length l1) + length (swaps os2))%nat by lia. reflexivity.
Qed.

Lemma send_opt_quiet e a to v s s' os : send_opt e a to v s = Some (s', os) -> swaps os = [] /\ forall e0 r sp f, told e0 r sp os f /\ settle e0 r sp os f = Some f.
Proof.
  unfold send_opt, send. intros H. destruct (v =? 0); [injection H as <- <-; split; [reflexivity|split; [exact Logic.I|reflexivity]]|].
  unbind H as (s1, o) E. injection H as <- <-. unguard E G. unguard E G2. injection E as <- <-. split; [reflexivity|split; [exact Logic.I|reflexivity]].
Qed.
Ltac stp E :=
  match type of E with ?u = _ => match goal with |- (match ?x with Some _ => _ | None => _ end) = _ => change x with u end end;
  rewrite E; cbv beta iota.
Lemma distribute_spec e r sp f s s' os : distribute (menv e r (at_pools e r sp f)) 0 s = Some (s', os) ->
  told e r sp os f /\ forall l1 l2, distribute (menv e r (tape (cont l1 os l2))) (length l1) s = Some (s', os).
Proof.
  intros H. unfold distribute in H |- *. unbind H as (c, am) E0.
  assert (E0' : forall q, distributable (menv e r q) s = Some (c, am)) by (intros q; exact E0).
  destruct am as [amount|].
  2:{ injection H as <- <-. split; [exact Logic.I|]. intros l1 l2. rewrite E0'. reflexivity. }
  unbind H as sec E1. unbind H as gv E2. unbind H as dv E3. unbind H as stk E4.
  unbind H as (s1, o1) X1. unbind H as (s2, o2) X2. unbind H as (s3, o3) X3. unbind H as (s4, o4) X4. injection H as <- <-.
  assert (Q1 : swaps o1 = [] /\ forall e0 r sp f, told e0 r sp o1 f /\ settle e0 r sp o1 f = Some f).
  { clear - X1. destruct (second c) as [[t k]|]; [exact (send_opt_quiet _ _ _ _ _ _ _ X1)|injection X1 as <- <-; split; [reflexivity|split; [exact Logic.I|reflexivity]]]. }
  assert (Q2 : swaps o2 = [] /\ forall e0 r sp f, told e0 r sp o2 f /\ settle e0 r sp o2 f = Some f).
  { clear - X2. destruct (gov c) as [t|]; [exact (send_opt_quiet _ _ _ _ _ _ _ X2)|injection X2 as <- <-; split; [reflexivity|split; [exact Logic.I|reflexivity]]]. }
  assert (Q4 : swaps o4 = [] /\ forall e0 r sp f, told e0 r sp o4 f /\ settle e0 r sp o4 f = Some f).
  { clear - X4. destruct (staking c) as [t|]; [exact (send_opt_quiet _ _ _ _ _ _ _ X4)|injection X4 as <- <-; split; [reflexivity|split; [exact Logic.I|reflexivity]]]. }
  destruct Q1 as (Q1 & Q1'). destruct Q2 as (Q2 & Q2'). destruct Q4 as (Q4 & Q4').
  assert (Q3 : told e r sp o3 f /\ forall l1 l2, 
     match dev c with
       | Some d =>
           if dv =? 0 then Some (s2, [])
           else
             do '(sa, oa) <- trade (menv e r (tape (l1 ++ swaps o3 ++ l2))) (length l1) (astro c) (d_asset d) dv s2;
             do '(sb, ob) <- send (menv e r (tape (l1 ++ swaps o3 ++ l2))) (d_asset d) (d_to d) (get (bal sa) (d_asset d)) sa;
             Some (sb, [oa; ob])
       | None => Some (s2, [])
       end = Some (s3, o3)).
  { clear - X3. destruct (dev c) as [d|]; [|injection X3 as <- <-; split; [exact Logic.I|reflexivity]].
    destruct (dv =? 0); [injection X3 as <- <-; split; [exact Logic.I|reflexivity]|].
    unbind X3 as (sa, oa) Y1. unbind X3 as (sb, ob) Y2. injection X3 as <- <-.
    destruct (trade_out _ _ _ _ _ _ _ _ Y1) as (x & -> & Q).
    assert (P : exists a t v, ob = Paid a t v).
    { clear - Y2. unfold send in Y2. unguard Y2 G. unguard Y2 G2. injection Y2 as <- <-. eauto. }
    destruct P as (pa & pt & pv & ->). cbn [menv quote] in Q. unfold at_pools in Q. unbind Q as (g, y) S. injection Q as ->.
    split; [cbn [told]; exists g; auto|]. intros l1 l2. cbn [swaps app].
    rewrite (trade_same e r _ (tape (l1 ++ (astro c, d_asset d, dv, x) :: l2)) 0%nat (length l1) _ _ _ _ _ _ x Y1 eq_refl (tape_at _ _ _ _ _ _)).
    match type of Y2 with ?u = _ => match goal with |- match ?v with _ => _ end = _ => change v with u end end. rewrite Y2. reflexivity. }
  destruct Q3 as (Q3 & Q3').
  split.
  - rewrite (told_app _ _ _ _ _ _ _ (proj2 (Q1' e r sp f))). split; [exact (proj1 (Q1' _ _ _ _))|].
    rewrite (told_app _ _ _ _ _ _ _ (proj2 (Q2' e r sp f))). split; [exact (proj1 (Q2' _ _ _ _))|].
    clear - Q3 Q4'. revert f Q3. induction o3 as [|[? ? ?|a b v q] o3 IH]; intros f Q3; cbn [told app] in *; [apply Q4'|auto|].
    destruct Q3 as (g & A & B). exists g. auto.
  - intros l1 l2. unfold cont. rewrite !swaps_app, Q1, Q2, Q4, app_nil_r. cbn [app]. rewrite E0'. cbv zeta.
    set (T := tape (l1 ++ swaps o3 ++ l2)).
    specialize (Q3' l1 l2). fold T in Q3'. stp E1. stp E2. stp E3. stp E4. stp X1. stp X2. stp Q3'. stp X4. reflexivity.
Qed.

Lemma wdistribute_spec e w w' os : wdistribute e w = Some (w', os) ->
  reg w' = reg w /\ settle e (reg w) (spread (cfg (mk w))) os (sts w) = Some (sts w') /\
  told e (reg w) (spread (cfg (mk w))) os (sts w) /\
  forall l1 l2, distribute (menv e (reg w) (tape (cont l1 os l2))) (length l1) (mk w) = Some (mk w', os).
Proof.
  unfold wdistribute. intros H. unbind H as (s1, os1) E1. unbind H as f E2. injection H as <- <-. cbn [reg mk sts].
  destruct (distribute_spec _ _ _ _ _ _ _ E1) as (T & D). auto.
Qed.
Lemma validate_quote e r q1 q2 s : forall n a b, validate_bridge (menv e r q1) s n a b = validate_bridge (menv e r q2) s n a b.
Proof.
  induction n as [|n IH]; intros a b; cbn [validate_bridge]; [reflexivity|]. cbn [menv pool]. destruct (Amap.find b (bridges s)); [rewrite IH|]; reflexivity.
Qed.
Lemma target_quote e r q1 q2 s a : target (menv e r q1) s a = target (menv e r q2) s a.
Proof. unfold target. cbv zeta. destruct (Amap.find a (bridges s)); [rewrite (validate_quote e r q1 q2)|]; reflexivity. Qed.
Lemma swap_assets_quote e r q1 q2 s l : swap_assets (menv e r q1) s l = swap_assets (menv e r q2) s l.
Proof.
  induction l as [|[a lim] l IH]; cbn [swap_assets]; [reflexivity|]. rewrite IH, (target_quote e r q1 q2). reflexivity.
Qed.

Lemma wbridge_spec e : forall fuel bs w w' os, wbridge fuel e bs w = Some (w', os) ->
  reg w' = reg w /\ settle e (reg w) (spread (cfg (mk w))) os (sts w) = Some (sts w') /\
  told e (reg w) (spread (cfg (mk w))) os (sts w) /\
  forall l1 l2, bridge fuel (menv e (reg w) (tape (cont l1 os l2))) (length l1) bs (mk w) = Some (mk w', os).
Proof.
  induction fuel as [|n IH]; intros bs w w' os H.
  - destruct bs as [|b bs]; [exact (wdistribute_spec _ _ _ _ H)|discriminate].
  - destruct bs as [|b bs]; [exact (wdistribute_spec _ _ _ _ H)|]. cbn [wbridge] in H. remember (b :: bs) as B eqn:EB.
    unbind H as (ms, nb) E1. destruct ms as [|m ms]; [discriminate|]. remember (m :: ms) as M eqn:EM.
    unbind H as (w1, o1) E2. unbind H as (w2, o2) E3. injection H as <- <-.
    destruct (wtrades_spec _ _ _ _ _ E2) as (R1 & C1 & S1 & T1 & P1).
    destruct (IH _ _ _ _ E3) as (R2 & S2 & T2 & P2). rewrite R1, C1 in *.
    split; [exact R2|]. split; [rewrite settle_app, S1; exact S2|]. split; [apply (told_app _ _ _ _ _ _ _ S1); auto|].
    intros l1 l2. rewrite EB. cbn [bridge]. rewrite <- EB.
    rewrite (swap_assets_quote e (reg w) _ (at_pools e (reg w) (spread (cfg (mk w))) (sts w))).
    unfold wenv in E1. rewrite E1. rewrite EM, <- EM. unfold cont. rewrite swaps_app, <- app_assoc.
    specialize (P1 l1 (swaps o2 ++ l2)). unfold cont in P1. rewrite P1.
    specialize (P2 (l1 ++ swaps o1) l2). unfold cont in P2. rewrite <- app_assoc, app_length in P2.
    cbn [menv MakerModel.order]. rewrite P2. reflexivity.
Qed.
Lemma wcollect_spec e l w w' os : wcollect e l w = Some (w', os) ->
  reg w' = reg w /\ settle e (reg w) (spread (cfg (mk w))) os (sts w) = Some (sts w') /\
  told e (reg w) (spread (cfg (mk w))) os (sts w) /\
  collect (menv e (reg w) (tape (swaps os))) l (mk w) = Some (mk w', os).
Proof.
  unfold wcollect, collect. cbv zeta. intros H. unguard H G1. unbind H as ok E0. unguard H G2. unguard H G3.
  cbn [MakerModel.now menv]. rewrite E0. try rewrite G2. try rewrite G3.
  set (w0 := mkW _ (reg w) (sts w)) in *.
  unbind H as (ms, bs) E1. destruct ms as [|m ms].
  - destruct (wdistribute_spec _ _ _ _ H) as (A & B & C & D). cbn [w0 reg mk sts cfg] in A, B, C, D.
    split; [exact A|]. split; [exact B|]. split; [exact C|].
    rewrite (swap_assets_quote e (reg w) _ (at_pools e (reg w) (spread (cfg (mk w))) (sts w))). unfold wenv in E1. cbn [w0 reg mk sts cfg] in E1.
    rewrite E1. specialize (D [] []). unfold cont in D. cbn [app length] in D. rewrite app_nil_r in D. exact D.
  - remember (m :: ms) as M eqn:EM. unbind H as (w1, o1) E2. unbind H as (w2, o2) E3. injection H as <- <-.
    destruct (wtrades_spec _ _ _ _ _ E2) as (R1 & C1 & S1 & T1 & P1).
    destruct (wbridge_spec _ _ _ _ _ _ E3) as (R2 & S2 & T2 & P2). rewrite R1, C1 in *. cbn [w0 reg mk sts cfg] in *.
    split; [exact R2|]. split; [rewrite settle_app, S1; exact S2|]. split; [apply (told_app _ _ _ _ _ _ _ S1); auto|].
    rewrite (swap_assets_quote e (reg w) _ (at_pools e (reg w) (spread (cfg (mk w))) (sts w))). unfold wenv in E1. cbn [w0 reg mk sts cfg] in E1.
    rewrite E1. rewrite EM, <- EM. rewrite swaps_app.
    specialize (P1 [] (swaps o2)). unfold cont in P1. cbn [app length] in P1. rewrite P1.
    specialize (P2 (swaps o1) []). unfold cont in P2. rewrite app_nil_r in P2. cbn [Nat.add]. stp P2. reflexivity.
Qed.

(** * Stories *)
Lemma story_split e r sp : forall o1 f a b v q o2 g, story e r sp f (o1 ++ Swapped a b v q :: o2) g ->
  exists h p one s' so, story e r sp f o1 h /\ trades_at r p a b one /\
    XykModel.step (XykModel.mkEnv (now e) (height e) (fees e (pid p)) (fowner e))
      (XykModel.Swap one v None (Some sp)) (h (pid p)) = Some (s', XykModel.OSwap so) /\
    q = XykModel.so_return so + (if mine e then XykModel.so_maker so else 0) /\
    story e r sp (fun j => if j =? pid p then s' else h j) o2 g.
Proof.
  induction o1 as [|o o1 IH]; cbn [app]; intros f a b v q o2 g H.
  - inversion H; subst. exists f, p, one, s', so. split; [constructor|]. auto.
  - inversion H; subst.
    + destruct (IH _ _ _ _ _ _ _ H4) as (h & p & one & s' & so & A & B). exists h, p, one, s', so. split; [constructor; exact A|exact B].
    + destruct (IH _ _ _ _ _ _ _ H7) as (h & p' & one' & s2 & so2 & A & B). exists h, p', one', s2, so2. split; [|exact B].
      econstructor; eauto.
Qed.

(** What happens to one pair. *)
Definition sells (e : env) (i sp : Z) (em : XykModel.env * XykModel.msg) : Prop :=
  fst em = XykModel.mkEnv (now e) (height e) (fees e i) (fowner e) /\ exists one v, snd em = XykModel.Swap one v None (Some sp).
Lemma story_pool e r sp : forall f os g, story e r sp f os g -> forall i,
  exists l, g i = XykModel.run (f i) l /\ Forall (sells e i sp) l.
Proof.
  induction 1 as [f|f a to v os g H IH|f a b v q os g p one s' so Tr Sw Q H IH]; intros i.
  - exists []. split; [reflexivity|constructor].
  - exact (IH i).
  - destruct (IH i) as (l & A & B). destruct (Z.eqb_spec i (pid p)) as [->|N]; [|exists l; split; [exact A|exact B]].
    exists ((XykModel.mkEnv (now e) (height e) (fees e (pid p)) (fowner e), XykModel.Swap one v None (Some sp)) :: l).
    split; [|constructor; [split; [reflexivity|exists one, v; reflexivity]|exact B]].
    rewrite A. unfold XykModel.run. cbn [fold_left]. unfold XykModel.exec. cbn [fst snd]. rewrite Sw. reflexivity.
Qed.
Lemma sells_lp e i sp : forall l s, Forall (sells e i sp) l ->
  XykModel.supply (XykModel.run s l) = XykModel.supply s /\ XykModel.lp (XykModel.run s l) = XykModel.lp s /\
  XykModel.fshare (XykModel.run s l) = XykModel.fshare s.
Proof.
  unfold XykModel.run. induction l as [|(e1, m) l IH]; intros s H; cbn [fold_left]; [auto|]. inversion H as [|? ? (A & one & v & B) H2]; subst.
  cbn [fst snd] in *. subst. destruct (IH (XykModel.exec s (XykModel.mkEnv (now e) (height e) (fees e i) (fowner e), XykModel.Swap one v None (Some sp))) H2) as (X & Y & T).
  rewrite X, Y, T. unfold XykModel.exec. cbn [fst snd XykModel.step]. destruct (0 <? v); [|auto].
  destruct (XykModel.swap _ _ _ _ _ _) as [(s1, o)|] eqn:Sw; [|auto]. apply XykProofs.swap_inv in Sw. cbv zeta in Sw.
  destruct Sw as (so & _ & _ & _ & _ & _ & S1 & S2 & S3 & _). auto.
Qed.

Lemma xyk_reach s l : XykSpec.reachable s -> XykSpec.envs_ok l -> XykSpec.reachable (XykModel.run s l).
Proof.
  intros (b & l0 & A & ->) B. exists b, (l0 ++ l). split; [apply Forall_app; auto|].
  unfold XykModel.run. rewrite fold_left_app. reflexivity.
Qed.
Lemma story_reach e r sp f os g : env_ok e -> story e r sp f os g -> (forall i, XykSpec.reachable (f i)) -> forall i, XykSpec.reachable (g i).
Proof.
  intros (Ok & _) H R i. destruct (story_pool _ _ _ _ _ _ H i) as (l & -> & F). apply xyk_reach; [apply R|].
  unfold XykSpec.envs_ok. eapply Forall_impl; [|exact F]. intros em (-> & _). unfold XykSpec.env_ok. apply Ok.
Qed.

(** * Worlds *)
Record winv (w : world) : Prop := mkWi {
  w_apart : apart (reg w);
  w_pids : NoDup (map pid (pairs (reg w)));
  w_reach : forall i, XykSpec.reachable (sts w i);
  w_cfg : good_config (cfg (mk w));
  w_nn : nonneg (bal (mk w)) }.

Lemma collect_story e sender l w w' os : apart (reg w) -> step e (Maker sender (Collect l)) w = Some (w', os) ->
  reg w' = reg w /\ story e (reg w) (spread (cfg (mk w))) (sts w) os (sts w') /\
  collect (menv e (reg w) (tape (swaps os))) l (mk w) = Some (mk w', os).
Proof.
  intros A H. cbn [step] in H. destruct (wcollect_spec _ _ _ _ _ H) as (R & S & T & C). split; [exact R|]. split; [|exact C].
  exact (told_story _ _ _ A _ _ _ T S).
Qed.
Lemma maker_step e sender m w w' os : step e (Maker sender m) w = Some (w', os) -> (forall l, m <> Collect l) ->
  sender <> self e /\ reg w' = reg w /\ sts w' = sts w /\ MakerModel.step (wenv e w) sender m (mk w) = Some (mk w', os).
Proof.
  intros H N. destruct m; cbn [step] in H; try solve [elim (N _ eq_refl)];
  (unguard H G; unbind H as (s, os1) E; injection H as <- <-; bools; auto).
Qed.
Lemma pair_step e i m w w' os : step e (Pair i m) w = Some (w', os) ->
  exists p s' o s, In p (pairs (reg w)) /\ pid p = i /\ XykModel.step (xenv e p) m (sts w i) = Some (s', o) /\
    credit e p m o (mk w) = Some s /\ w' = mkW s (reg w) (upd (sts w) i s') /\ os = [].
Proof.
  intros H. cbn [step] in H. unbind H as p E. unbind H as (s', o) S. unbind H as s C. injection H as <- <-.
  apply find_some in E. destruct E as (I & E). bools. exists p, s', o, s. auto 10.
Qed.
Lemma credit_spec e p m o s s' : credit e p m o s = Some s' -> cfg s' = cfg s /\ exists b, s' = set_bal s b.
Proof.
  unfold credit. intros H. assert (Sm : forall u : state, u = set_bal u (bal u)) by (intros []; reflexivity).
  destruct m; try (injection H as <-; split; [reflexivity|eauto]). destruct o; try (injection H as <-; split; [reflexivity|eauto]).
  destruct (mine e); [|injection H as <-; split; [reflexivity|eauto]]. unbind H as n E. injection H as <-. split; [reflexivity|eauto].
Qed.

Lemma step_inv_w e m w w' os : env_ok e -> winv w -> step e m w = Some (w', os) -> winv w'.
Proof.
  intros Ok [A P R C N] H. destruct m as [sender m|i m|p track|i].
  - assert (D : (exists l, m = Collect l) \/ forall l, m <> Collect l) by (destruct m; [left; eauto|right; discriminate..]).
    destruct D as [(l & ->)|D].
    + destruct (collect_story _ _ _ _ _ _ A H) as (Rg & S & Cl).
      assert (St : MakerModel.step (menv e (reg w) (tape (swaps os))) sender (Collect l) (mk w) = Some (mk w', os)) by exact Cl.
      constructor; try (rewrite Rg; assumption).
      * exact (story_reach _ _ _ _ _ _ Ok S R).
      * exact (MakerInv.step_good _ _ _ _ _ _ St C).
      * apply (step_flow _ _ _ _ _ _ St); [discriminate|exact N].
    + destruct (maker_step _ _ _ _ _ _ H D) as (_ & Rg & Sx & St).
      constructor; try (rewrite Rg; assumption); try (rewrite Sx; assumption).
      * exact (MakerInv.step_good _ _ _ _ _ _ St C).
      * assert (D2 : (exists a v, m = Receive a v) \/ forall a v, m <> Receive a v) by (destruct m; [right; discriminate..|left; eauto]).
        destruct D2 as [(a & v & ->)|D2]; [|apply (step_flow _ _ _ _ _ _ St); assumption].
        clear - St N. cbn [MakerModel.step] in St. unfold silent in St. unbind St as s E. unguard E G. unbind E as n E2. injection E as <-. injection St as <- <-.
        apply nonneg_set; [exact N|]. apply add128_Some in E2. bools. pose proof (nonneg_get _ a N). lia.
  - destruct (pair_step _ _ _ _ _ _ H) as (p & s' & o & s & I & Ei & St & Cr & -> & ->). destruct (credit_spec _ _ _ _ _ _ Cr) as (Cc & _).
    constructor; cbn [reg sts mk]; try assumption.
    + intros j. unfold upd. destruct (j =? i); [|apply R]. assert (X : s' = XykModel.run (sts w i) [(xenv e p, m)]).
      { unfold XykModel.run. cbn [fold_left]. unfold XykModel.exec. cbn [fst snd]. rewrite St. reflexivity. }
      rewrite X. apply xyk_reach; [apply R|]. constructor; [|constructor]. apply Ok.
    + rewrite Cc. exact C.
    + clear - Cr N St R Ok. unfold credit in Cr. destruct m; try (injection Cr as <-; exact N). destruct o; try (injection Cr as <-; exact N).
      destruct (mine e); [|injection Cr as <-; exact N]. unbind Cr as n E. injection Cr as <-. apply nonneg_set; [exact N|].
      apply add128_Some in E. lia.
  - cbn [step] in H. unguard H G. unguard H G2. injection H as <- <-. bools. constructor; cbn [reg sts mk pairs map]; try assumption.
    + intros q [<-|I]; [assumption|apply A; exact I].
    + constructor; [|exact P]. intros I. apply mem_In in I. congruence.
    + intros j. unfold upd. destruct (j =? pid p); [|apply R]. exists track, []. split; [constructor|reflexivity].
  - cbn [step] in H. injection H as <- <-. constructor; cbn [reg sts mk pairs]; assumption.
Qed.
Lemma run_inv_w l : forall w, envs_ok l -> winv w -> winv (run w l).
Proof.
  induction l as [|(e, m) l IH]; intros w O I; [exact I|]. inversion O; subst. unfold run in *. cbn [fold_left]. apply IH; [assumption|].
  unfold exec. cbn [fst snd] in *. destruct (step e m w) as [(w', os)|] eqn:E; [|exact I]. exact (step_inv_w _ _ _ _ _ H1 I E).
Qed.
Lemma reachable_inv w : reachable w -> winv w.
Proof.
  intros (t & i & w0 & l & H & O & ->). apply run_inv_w; [exact O|]. unfold init in H. unbind H as s E. injection H as <-.
  constructor; cbn [reg sts mk pairs map].
  - intros p [].
  - constructor.
  - intros j. exists false, []. split; [constructor|reflexivity].
  - exact (MakerInv.inst_good _ _ _ E).
  - unfold instantiate in E. cbv zeta in E. unguard E G1. unguard E G2. unguard E G3. unguard E G4. unguard E G5. unguard E G6. injection E as <-. constructor.
Qed.

(** * The price of a sale *)
Lemma sale_worth e s one v sp s' so : XykSpec.reachable s -> XykSpec.env_ok e -> 0 <= sp <= 500000000000000000 ->
  XykModel.step e (XykModel.Swap one v None (Some sp)) s = Some (s', XykModel.OSwap so) ->
  0 < v /\ 0 < offer_of s one /\ 0 < ask_of s one /\
  worth v (offer_of s one) (ask_of s one) sp (XykModel.total_fee (XykModel.fees e)) (XykModel.so_return so) /\
  0 <= XykModel.so_maker so /\ 0 <= XykModel.so_share so /\
  offer_of s' one = offer_of s one + v /\
  ask_of s' one = ask_of s one - XykModel.so_return so - XykModel.so_maker so - XykModel.so_share so.
Proof.
  intros R Ok Hs H. cbn [XykModel.step] in H. unguard H G. bools. apply XykProofs.reachable_inv0 in R. destruct R as [J0 J1 _ _ _ Jb].
  apply XykProofs.swap_inv in H. cbv zeta in H. destruct H as (so' & E & Am & Ro & Ra & _). injection E as <-.
  unfold offer_of, ask_of. set (x := if one then XykModel.r1 s else XykModel.r0 s) in *. set (y := if one then XykModel.r0 s else XykModel.r1 s) in *.
  assert (Hx : 0 <= x) by (unfold x; destruct one; assumption). assert (Hy : 0 <= y) by (unfold y; destruct one; assumption).
  destruct (XykProofs.swap_amounts_inv _ _ _ _ _ _ _ _ Am Hx Hy ltac:(lia) Ok Jb) as (Px & Py & Pv & Hg & Hc & Hr & Hcm & Hsh & Hmk & _ & Hsp & Mx).
  split; [exact G|]. split; [exact Px|]. split; [exact Py|]. split; [|auto].
  set (g := (y * DEC - x * y * DEC / (x + v)) / DEC) in *. clearbody g. destruct Ok as ((Hf & Hf2) & _).
  set (fee := XykModel.total_fee (XykModel.fees e)) in *. clearbody fee. pose proof DEC_pos as DP.
  assert (Hg0 : 0 <= g) by lia. apply XykProofs.max_spread_inv in Mx; try solve [lia | intros m E; injection E as <-; lia | discriminate]. cbv zeta in Mx. destruct Mx as (_ & Mx).
  assert (Hd : DEC = 1000000000000000000) by reflexivity.
  set (P := y * DEC / x) in *. set (ideal := v * P / DEC) in *.
  assert (HP : y * DEC - x < P * x). { unfold P. pose proof (Z.mod_pos_bound (y * DEC) x Px). pose proof (Z.div_mod (y * DEC) x ltac:(lia)). lia. }
  assert (HP0 : 0 <= P) by (unfold P; apply Z.div_pos; nia).
  assert (HI : v * P - DEC < ideal * DEC). { unfold ideal. pose proof (Z.mod_pos_bound (v * P) DEC DP). pose proof (Z.div_mod (v * P) DEC ltac:(lia)). lia. }
  assert (HI0 : 0 <= ideal) by (unfold ideal; apply Z.div_pos; nia). clearbody P ideal.
  assert (K1 : ideal * (DEC - sp - 1) <= g * DEC).
  { destruct (Z_le_gt_dec ideal g) as [L|L]; [nia|]. rewrite Hsp, Z.max_r in Mx by lia. replace (g + (ideal - g)) with ideal in Mx by lia. nia. }
  assert (K2 : g * (DEC - fee) <= XykModel.so_return so * DEC).
  { assert (XykModel.so_commission so * DEC <= g * fee). { rewrite Hc. pose proof (Z.mul_div_le (g * fee) DEC DP). lia. }
    replace (XykModel.so_return so) with (g - XykModel.so_commission so) by lia. lia. }
  assert (K3 : v * y * DEC - (v + DEC) * x <= ideal * DEC * x).
  { assert ((v * P - DEC) * x <= ideal * DEC * x) by (apply Z.mul_le_mono_nonneg_r; lia).
    assert (v * (y * DEC - x) <= v * (P * x)) by (apply Z.mul_le_mono_nonneg_l; lia). lia. }
  unfold worth. set (k := DEC - sp - 1) in *. set (m := DEC - fee) in *. assert (0 <= k) by lia. assert (0 <= m) by lia.
  assert (A1 : (v * y * DEC - (v + DEC) * x) * k * m <= ideal * DEC * x * k * m).
  { apply Z.mul_le_mono_nonneg_r; [assumption|]. apply Z.mul_le_mono_nonneg_r; assumption. }
  assert (A2 : ideal * k * (DEC * x * m) <= g * DEC * (DEC * x * m)) by (apply Z.mul_le_mono_nonneg_r; [|exact K1]; apply Z.mul_nonneg_nonneg; nia).
  assert (A3 : g * m * (DEC * DEC * x) <= XykModel.so_return so * DEC * (DEC * DEC * x)) by (apply Z.mul_le_mono_nonneg_r; [nia|exact K2]).
  nia.
Qed.

(** * Coins *)
Fixpoint sold (a : Z) (os : list out) : Z :=
  match os with
  | [] => 0
  | Paid _ _ _ :: r => sold a r
  | Swapped b _ v _ :: r => (if a =? b then v else 0) + sold a r
  end.
Lemma spent_sold a os : spent a os = outgoing a os + sold a os.
Proof. induction os as [|[]]; cbn [spent outgoing sold]; lia. Qed.
Lemma reserves_other a p s' : forall l f, ~ In (pid p) (map pid l) -> reserves a (fun j => if j =? pid p then s' else f j) l = reserves a f l.
Proof.
  induction l as [|q l IH]; intros f N; cbn [reserves map] in *; [reflexivity|]. rewrite IH by (intros I; apply N; right; exact I).
  unfold reserve. rewrite (proj2 (Z.eqb_neq (pid q) (pid p))) by (intros E; apply N; left; exact E). reflexivity.
Qed.
Lemma reserves_upd a p s' : forall l f, NoDup (map pid l) -> In p l ->
  reserves a (fun j => if j =? pid p then s' else f j) l =
  reserves a f l - reserve a f p + reserve a (fun j => if j =? pid p then s' else f j) p.
Proof.
  induction l as [|q l IH]; intros f N I; [elim I|]. cbn [reserves map] in *. inversion N as [|? ? N1 N2]; subst. destruct I as [->|I].
  - rewrite reserves_other by exact N1. lia.
  - rewrite (IH f N2 I). unfold reserve at 1. assert (pid q <> pid p) by (intros E; apply N1; rewrite E; apply in_map; exact I).
    rewrite (proj2 (Z.eqb_neq (pid q) (pid p))) by assumption. unfold reserve. lia.
Qed.
Lemma no_share fi x y v bl ms so : XykModel.swap_amounts fi None x y v bl ms = Some so ->
  XykModel.so_share so = 0 /\ (XykModel.maker_on fi = false -> XykModel.so_maker so = 0).
Proof.
  intros H. unfold XykModel.swap_amounts in H. unbind H as ((rt, spd), cm) E1. unbind H as gr E2. unbind H as u E3. unbind H as mkr E4.
  injection H as <-. cbn [XykModel.so_share XykModel.so_maker]. split; [reflexivity|]. intros M. rewrite M in E4. injection E4 as <-. reflexivity.
Qed.
Lemma swap_no_leak e s one v bl ms s' so : XykModel.step e (XykModel.Swap one v bl ms) s = Some (s', XykModel.OSwap so) -> XykModel.fshare s = None ->
  XykModel.fshare s' = None /\ XykModel.so_share so = 0 /\ (XykModel.maker_on (XykModel.fees e) = false -> XykModel.so_maker so = 0).
Proof.
  intros H F. cbn [XykModel.step] in H. unguard H G. apply XykProofs.swap_inv in H. cbv zeta in H. rewrite F in H.
  destruct H as (so' & E & A & _ & _ & _ & _ & _ & Fs & _). injection E as <-. destruct (no_share _ _ _ _ _ _ _ A). auto.
Qed.

Lemma story_coins e r sp : env_ok e -> 0 <= sp <= 500000000000000000 -> apart r -> NoDup (map pid (pairs r)) -> forall f os g, story e r sp f os g ->
  (forall i, XykSpec.reachable (f i)) -> forall a,
  reserves a g (pairs r) + gained a os <= reserves a f (pairs r) + sold a os /\
  ((mine e = true \/ forall i, XykModel.maker_on (fees e i) = false) -> (forall i, XykModel.fshare (f i) = None) ->
   reserves a g (pairs r) + gained a os = reserves a f (pairs r) + sold a os).
Proof.
  intros Ok Hs A N. induction 1 as [f|f x to v os g H IH|f x b v q os g p one s' so Tr Sw Q H IH]; intros R a; cbn [gained sold].
  - lia.
  - exact (IH R a).
  - destruct Tr as (Ip & _ & As). pose proof (proj1 Ok (pid p)) as Op.
    destruct (sale_worth (XykModel.mkEnv (now e) (height e) (fees e (pid p)) (fowner e)) _ _ _ _ _ _ (R (pid p)) Op Hs Sw) as (_ & _ & _ & _ & Mk & Sh & Ro & Ra).
    assert (R2 : forall i, XykSpec.reachable ((fun j => if j =? pid p then s' else f j) i)).
    { intros i. cbn beta. destruct (i =? pid p); [|apply R].
      assert (X : s' = XykModel.run (f (pid p)) [(XykModel.mkEnv (now e) (height e) (fees e (pid p)) (fowner e), XykModel.Swap one v None (Some sp))]).
      { unfold XykModel.run. cbn [fold_left]. unfold XykModel.exec. cbn [fst snd]. rewrite Sw. reflexivity. }
      rewrite X. apply xyk_reach; [apply R|]. constructor; [|constructor]. apply (proj1 Ok). }
    specialize (IH R2 a). pose proof (reserves_upd a p s' (pairs r) f N Ip) as U. rewrite U in IH. unfold reserve in IH. rewrite Z.eqb_refl in IH.
    pose proof (A _ Ip) as Ap. unfold offer_of, ask_of in Ro, Ra. destruct IH as (IH1 & IH2).
    set (L := XykModel.so_share so + if mine e then 0 else XykModel.so_maker so).
    assert (HL : 0 <= L) by (unfold L; destruct (mine e); lia).
    assert (HQ : q = XykModel.so_return so + XykModel.so_maker so + XykModel.so_share so - L) by (rewrite Q; unfold L; destruct (mine e); lia).
    assert (K : forall d : Z,
      (if a =? pa0 p then XykModel.r0 s' else 0) + (if a =? pa1 p then XykModel.r1 s' else 0) + (if a =? b then q else 0) + (if a =? b then L else 0) =
      (if a =? pa0 p then XykModel.r0 (f (pid p)) else 0) + (if a =? pa1 p then XykModel.r1 (f (pid p)) else 0) + (if a =? x then v else 0)).
    { intros _. destruct one; destruct As as (-> & ->); destruct (Z.eqb_spec a (pa0 p)); destruct (Z.eqb_spec a (pa1 p)); subst; try lia; congruence. }
    specialize (K 0). split.
    + destruct (a =? b); lia.
    + intros M F. destruct (swap_no_leak _ _ _ _ _ _ _ _ Sw (F (pid p))) as (F1 & F2 & F3). cbn [XykModel.fees] in F3.
      assert (L = 0). { unfold L. rewrite F2. destruct (mine e) eqn:Em; [reflexivity|]. rewrite F3; [reflexivity|]. destruct M as [M|M]; [discriminate|apply M]. }
      assert (F' : forall i, XykModel.fshare (if i =? pid p then s' else f i) = None) by (intros i; destruct (i =? pid p); [exact F1|apply F]).
      specialize (IH2 M F'). destruct (a =? b); lia.
Qed.
