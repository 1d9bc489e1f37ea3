(** Theorems C118 and C76: fees find their way to ASTRO. *)
From Coq Require Import ZArith Lia Bool List Permutation.
From Verif Require Import Num Ledger Amap MakerModel MakerSpec MakerProofs MakerInv MakerProps.
From Verif Require OwnershipModel.
Import ListNotations.
Open Scope Z_scope.

(** ASTRO can be reached from [a] by existing pools: at once, or over at most [n] configured bridges. *)
Inductive leads (e : env) (s : state) : nat -> Z -> Prop :=
| leads_here n : leads e s n (ASTRO s)
| leads_pool n a : pool e (factory (cfg s)) a (ASTRO s) = true -> leads e s n a
| leads_bridge n a b : find a (bridges s) = Some b -> pool e (factory (cfg s)) a b = true -> leads e s n b -> leads e s (S n) a.

Lemma validate_leads e s n : forall a b, validate_bridge e s n a b = true -> pool e (factory (cfg s)) a b = true /\ leads e s n b.
Proof.
  induction n as [|n IH]; intros a b H; cbn [validate_bridge] in H; apply andb_prop in H as (P & H); (split; [exact P|]);
    destruct (Z.eqb_spec b (astro (cfg s))) as [->|N]; try apply leads_here;
    destruct (pool e (factory (cfg s)) b (astro (cfg s))) eqn:Q; try (apply leads_pool; exact Q); [discriminate H|].
  destruct (find b (bridges s)) as [nb|] eqn:Fb; [|discriminate H]. apply IH in H as (H1 & H2). exact (leads_bridge _ _ _ _ _ Fb H1 H2).
Qed.

(** ** One round of swaps *)

Lemma trades_gain e a ms : forall k s k' s' os, trades e k ms s = Some (k', s', os) -> 0 < gained a os -> exists x v, In (x, a, v) ms.
Proof.
  induction ms as [|[[x t] v] ms IH]; intros k s k' s' os H G; simpl in H.
  - injection H as <- <- <-. simpl in G. lia.
  - unbind H as (s1, o) E1. unbind H as ((k2, s2), os2) E2. injection H as <- <- <-.
    apply trade_spec in E1. destruct E1 as (q & _ & _ & -> & _). simpl in G. destruct (Z.eqb_spec a t) as [->|N].
    + exists x, v. left. reflexivity.
    + destruct (IH _ _ _ _ _ E2) as (y & w & I); [lia|]. exists y, w. right. exact I.
Qed.
Lemma swap_assets_bridges e s l : forall ms bs, swap_assets e s l = Some (ms, bs) -> NoDup bs /\
  forall x t v, In (x, t, v) ms -> t <> astro (cfg s) -> In t bs.
Proof.
  induction l as [|[a lim] l IH]; intros ms bs H; simpl in H.
  - injection H as <- <-. split; [constructor|]. intros x t v [].
  - destruct (take s a lim =? 0); [exact (IH _ _ H)|].
    unbind H as (t, br) E1. unbind H as (ms2, bs2) E2. injection H as <- <-. destruct (IH _ _ eq_refl) as (ND & T). split.
    + destruct br; cbn [andb]; [|exact ND]. destruct (mem t bs2) eqn:M; cbn [negb]; [exact ND|].
      constructor; [|exact ND]. intros I. apply mem_In in I. congruence.
    + intros x t2 v [I|I] N.
      * injection I as <- <- <-. assert (B : br = true).
        { unfold target in E1. cbv zeta in E1. destruct (find a (bridges s)) as [b|].
          - unguard E1 G. injection E1 as -> <-. destruct (Z.eqb_spec t (astro (cfg s))); [contradiction|reflexivity].
          - destruct (dbridge (cfg s)) as [d|].
            + destruct (negb (a =? d) && pool e (factory (cfg s)) a d); [injection E1 as _ <-; reflexivity|].
              unguard E1 G. injection E1 as E1 _. congruence.
            + unguard E1 G. injection E1 as E1 _. congruence. }
        subst br. cbn [andb]. destruct (mem t bs2) eqn:M; cbn [negb]; [apply mem_In; exact M|left; reflexivity].
      * specialize (T _ _ _ I N). destruct (br && negb (mem t bs2)); [right|]; exact T.
Qed.
Lemma distribute_gain e k s s' os a : distribute e k s = Some (s', os) -> a <> astro (cfg s) ->
  (forall d, dev (cfg s) = Some d -> d_asset d <> a) -> gained a os = 0.
Proof.
  intros H Na Nd. destruct (distribute_spec _ _ _ _ _ H) as (c & am & E0 & _ & X).
  destruct (distributable_spec _ _ _ _ E0) as ((K1 & K2 & K3 & K4 & K5 & K6 & K7 & _) & _).
  destruct am as [x|]; [|destruct X as (_ & ->); reflexivity].
  destruct X as (sec & gv & dv & st & q & al & _ & _ & _ & _ & _ & ->).
  rewrite K1, K2, K3, K4, K6. rewrite !gained_app.
  destruct (second (cfg s)) as [[r k2]|], (gov (cfg s)) as [g|], (staking (cfg s)) as [sk|], (dev (cfg s)) as [d|];
    rewrite ?gained_payl; simpl; auto; try (specialize (Nd _ eq_refl));
    (destruct (dv =? 0); simpl; [reflexivity|]); (destruct (Z.eqb_spec a (d_asset d)); [congruence|reflexivity]).
Qed.
Lemma distribute_keeps e k s s' os a : distribute e k s = Some (s', os) -> a <> astro (cfg s) ->
  (forall d, dev (cfg s) = Some d -> d_asset d <> a) -> get (bal s') a = get (bal s) a.
Proof.
  intros H Na Nd. pose proof (distribute_gain _ _ _ _ _ _ H Na Nd) as G. pose proof (distribute_other _ _ _ _ _ _ H Na Nd) as S.
  destruct (distribute_F _ _ _ _ _ H) as (c & (A & _) & _). rewrite A. cbn [bal set_cfg]. lia.
Qed.

(** The amounts an asset set [L] (each at most once) leaves behind after a round: only what came in during it, and that is up for the next. *)
Lemma round_left e s l ms bs k k' s1 o1 a : swap_assets e s l = Some (ms, bs) -> NoDup (map fst l) -> In (a, None) l ->
  trades e k ms s = Some (k', s1, o1) -> get (bal s1) a = gained a o1.
Proof.
  intros E ND I T. destruct (trades_spec _ _ _ _ _ _ _ T) as ((A & _) & _). rewrite A, (trades_offers _ _ _ _ _ _ _ _ T).
  rewrite (offers_one _ _ _ _ _ _ _ E ND I). unfold take. lia.
Qed.

Definition clean (s : state) (a : Z) : Prop := a <> ASTRO s /\ forall d, dev (cfg s) = Some d -> d_asset d <> a.

Lemma bridge_gain fuel : forall e k bs s s' os, bridge fuel e k bs s = Some (s', os) -> sane e -> NoDup bs -> nonneg (bal s) ->
  forall a, clean s a -> (In a bs \/ 0 < gained a os -> get (bal s') a = 0) /\ 0 <= gained a os /\ 0 <= spent a os /\
    get (bal s') a = get (bal s) a + gained a os - spent a os /\ 0 <= get (bal s') a.
Proof.
  induction fuel as [|f IH]; intros e k bs s s' os H Sn ND NN a (Ca & Cd).
  - destruct bs; [|discriminate H]. pose proof (distribute_gain _ _ _ _ _ _ H Ca Cd). pose proof (distribute_other _ _ _ _ _ _ H Ca Cd).
    pose proof (distribute_keeps _ _ _ _ _ _ H Ca Cd). pose proof (nonneg_get _ a NN). split; [intros [[]|?]; lia|lia].
  - destruct bs as [|b0 bs].
    { pose proof (distribute_gain _ _ _ _ _ _ H Ca Cd). pose proof (distribute_other _ _ _ _ _ _ H Ca Cd).
      pose proof (distribute_keeps _ _ _ _ _ _ H Ca Cd). pose proof (nonneg_get _ a NN). split; [intros [[]|?]; lia|lia]. }
    remember (b0 :: bs) as B eqn:EB. assert (H' : bridge (S f) e k B s = Some (s', os)) by exact H. rewrite EB in H. cbn [bridge] in H. rewrite <- EB in H.
    unbind H as (ms, nb) E1. destruct ms as [|m ms]; [discriminate H|]. remember (m :: ms) as M.
    unbind H as ((k2, s1), o1) E2. unbind H as (s2, o2) E3. injection H as <- <-.
    destruct (trades_spec _ _ _ _ _ _ _ E2) as (F1 & _ & _ & G1 & O1). pose proof F1 as (A1 & N1 & Eq1).
    destruct (swap_assets_bridges _ _ _ _ _ E1) as (NDn & T).
    destruct Sn as (Sp & Pm). assert (ND2 : NoDup (order e nb)) by (apply (Permutation_NoDup (Pm nb)); exact NDn).
    assert (C1 : clean s1 a). { unfold clean, ASTRO. rewrite (F_cfg _ _ _ F1). split; [exact Ca|exact Cd]. }
    destruct (IH _ _ _ _ _ _ E3 (conj Sp Pm) ND2 (N1 NN) a C1) as (Z2 & G2 & S2 & B2 & P2).
    assert (Sp1 : 0 <= spent a o1) by (pose proof (O1 a a); lia).
    rewrite gained_app, spent_app. specialize (G1 a). rewrite (A1 a) in B2. split; [|split; [lia|split; [lia|split; [lia|exact P2]]]].
    assert (In_nb : 0 < gained a o1 -> get (bal s2) a = 0).
    { intros G. destruct (trades_gain _ _ _ _ _ _ _ _ E2 G) as (x & v & I). apply Z2. left.
      apply (Permutation_in _ (Pm nb)). exact (T _ _ _ I Ca). }
    intros [I|G].
    + destruct (Z_lt_le_dec 0 (gained a o1)) as [L|L]; [exact (In_nb L)|].
      destruct (Z_lt_le_dec 0 (gained a o2)) as [L2|L2]; [apply Z2; right; exact L2|].
      assert (NDB : NoDup (map fst (map (fun a : Z => (a, @None Z)) B))) by (rewrite map_map, map_id; exact ND).
      assert (IB : In (a, None) (map (fun a : Z => (a, @None Z)) B)) by (apply in_map_iff; exists a; auto).
      pose proof (round_left _ _ _ _ _ _ _ _ _ _ E1 NDB IB E2) as R. rewrite (A1 a) in R. lia.
    + destruct (Z_lt_le_dec 0 (gained a o1)) as [L|L]; [exact (In_nb L)|]. apply Z2. right. lia.
Qed.

(** ** Theorems *)

(** A collection leaves nothing behind on the way: of every asset collected without limit, and of every asset received in a swap
    on the way, the maker holds nothing afterwards (ASTRO and the asset of the dev fund aside). *)
Theorem c118_no_residue : forall e sender l s s' os a, step e sender (Collect l) s = Some (s', os) -> sane e -> nonneg (bal s) ->
  a <> ASTRO s -> (forall d, dev (cfg s) = Some d -> d_asset d <> a) -> In (a, None) l \/ 0 < gained a os -> holds s' a = 0.
Proof.
  intros e sender l s s' os a H Sn NN Na Nd HG. simpl in H. unfold collect in H. cbv zeta in H. unguard H G1. unbind H as ok E0. unguard H G2. unguard H G3.
  set (s0 := mkState (cfg s) (now e) (bridges s) (seize_to s) (seizable s) (bal s)) in *.
  set (L := filter (fun x : Z * option Z => negb (fst x =? astro (cfg s))) l) in *. unfold holds.
  assert (NDl : NoDup (map fst l)).
  { clear - G3. induction (map fst l) as [|x r IH]; [constructor|]. simpl in G3. bools. constructor; auto.
    intros I. apply mem_In in I. congruence. }
  assert (NL : NoDup (map fst L)).
  { unfold L. clear - NDl. induction l as [|[x v] l IH]; simpl in *; [constructor|].
    inversion NDl as [|? ? N1 N2]; subst. destruct (negb (x =? astro (cfg s))); simpl; auto.
    constructor; auto. intros I. apply N1. apply in_map_iff in I. destruct I as (y & <- & I).
    apply filter_In in I. apply in_map_iff. exists y. tauto. }
  assert (IL : In (a, None) l -> In (a, None) L).
  { intros I. unfold L. apply filter_In. split; [exact I|]. cbn [fst]. unfold ASTRO in Na. destruct (Z.eqb_spec a (astro (cfg s))); [contradiction|reflexivity]. }
  unbind H as (ms, bs) E1. destruct ms as [|m ms].
  - pose proof (distribute_gain _ _ _ _ _ _ H Na Nd) as G. rewrite (distribute_keeps _ _ _ _ _ _ H Na Nd).
    destruct HG as [I|?]; [|lia]. pose proof (offers_one _ _ _ _ _ _ _ E1 NL (IL I)) as O. cbn [offers] in O. unfold take in O. cbn [bal] in *. lia.
  - remember (m :: ms) as M. unbind H as ((k2, s1), o1) E2. unbind H as (s2, o2) E3. injection H as <- <-.
    destruct (trades_spec _ _ _ _ _ _ _ E2) as (F1 & _ & _ & Gn & O1). pose proof F1 as (A1 & N1 & Eq1).
    destruct (swap_assets_bridges _ _ _ _ _ E1) as (NDn & T). pose proof Sn as (Sp & Pm).
    assert (C1 : clean s1 a). { unfold clean, ASTRO. rewrite (F_cfg _ _ _ F1). split; [exact Na|exact Nd]. }
    destruct (bridge_gain _ _ _ _ _ _ _ E3 Sn (Permutation_NoDup (Pm bs) NDn) (N1 NN) a C1) as (Z2 & Gg2 & S2 & B2 & P2).
    assert (In_nb : 0 < gained a o1 -> get (bal s2) a = 0).
    { intros G. destruct (trades_gain _ _ _ _ _ _ _ _ E2 G) as (x & v & I). apply Z2. left.
      apply (Permutation_in _ (Pm bs)). exact (T _ _ _ I Na). }
    specialize (Gn a). destruct (Z_lt_le_dec 0 (gained a o1)) as [Lt|Lt]; [exact (In_nb Lt)|].
    destruct (Z_lt_le_dec 0 (gained a o2)) as [L2|L2]; [apply Z2; right; exact L2|].
    destruct HG as [I|G]; [|rewrite gained_app in G; lia].
    pose proof (round_left _ _ _ _ _ _ _ _ _ _ E1 NL (IL I) E2) as R. lia.
Qed.

(** A collected asset with a configured bridge is swapped to that bridge asset, over an existing pool, and from there ASTRO can be reached
    over existing pools and at most two more bridges; an asset without goes to the default bridge asset if there is a pool of the two,
    else straight to ASTRO. *)
Theorem c118_routes : forall e sender l s s' os a lim, step e sender (Collect l) s = Some (s', os) -> In (a, lim) l -> a <> ASTRO s ->
  nonneg (bal s) -> 0 < holds s a ->
  match find a (bridges s) with
  | Some b => pool e (factory (cfg s)) a b = true /\ leads e s 2 b /\ 0 < offered a b os
  | None =>
      match dbridge (cfg s) with
      | Some d => if negb (a =? d) && pool e (factory (cfg s)) a d then 0 < offered a d os
                  else pool e (factory (cfg s)) a (ASTRO s) = true /\ 0 < offered a (ASTRO s) os
      | None => pool e (factory (cfg s)) a (ASTRO s) = true /\ 0 < offered a (ASTRO s) os
      end
  end.
Proof.
  intros e sender l s s' os a lim H I Na NN Hp. simpl in H. unfold collect in H. cbv zeta in H. unguard H G1. unbind H as ok E0. unguard H G2. unguard H G3.
  set (s0 := mkState (cfg s) (now e) (bridges s) (seize_to s) (seizable s) (bal s)) in *.
  set (L := filter (fun x : Z * option Z => negb (fst x =? astro (cfg s))) l) in *.
  assert (IL : In (a, lim) L).
  { unfold L. apply filter_In. split; [exact I|]. cbn [fst]. unfold ASTRO in Na. destruct (Z.eqb_spec a (astro (cfg s))); [contradiction|reflexivity]. }
  assert (TK : take s0 a lim <> 0).
  { unfold take, holds in *. cbn [bal s0]. destruct lim as [x|]; [|lia]. destruct (Z.ltb_spec x (get (bal s) a)), (Z.ltb_spec 0 x); cbn [andb]; lia. }
  unbind H as (ms, bs) E1.
  assert (X : exists t br v, target e s0 a = Some (t, br) /\ In (a, t, v) ms /\ v <> 0).
  { clear - E1 IL TK. revert ms bs E1. induction L as [|[x lm] L IH]; intros ms bs E1; [destruct IL|]. simpl in E1. destruct IL as [E|IL].
    - injection E as -> ->. destruct (Z.eqb_spec (take s0 a lim) 0); [contradiction|]. unbind E1 as (t, br) E2. unbind E1 as (ms2, bs2) E3.
      injection E1 as <- <-. exists t, br, (take s0 a lim). split; [reflexivity|]. split; [left; reflexivity|exact n].
    - destruct (take s0 x lm =? 0); [exact (IH IL _ _ E1)|]. unbind E1 as (t, br) E2. unbind E1 as (ms2, bs2) E3. injection E1 as <- <-.
      destruct (IH IL _ _ eq_refl) as (t' & br' & v & A & B & C). exists t', br', v. split; [exact A|]. split; [right; exact B|exact C]. }
  destruct X as (t & br & v & Tg & Im & Vn). destruct ms as [|m ms]; [destruct Im|]. remember (m :: ms) as M.
  unbind H as ((k2, s1), o1) E2. unbind H as (s2, o2) E3. injection H as <- <-.
  assert (Of : 0 < offered a t (o1 ++ o2)).
  { rewrite offered_app. assert (0 < offered a t o1).
    { clear - E2 Im Vn. revert E2 Im. generalize 0%nat as k. generalize s0. revert o1. induction M as [|[[x y] w] M IH]; intros o1 s00 k E2 Im; [destruct Im|].
      simpl in E2. unbind E2 as (sa, o) E1. unbind E2 as ((k3, sb), os2) E2'. injection E2 as -> -> <-.
      destruct (trade_spec _ _ _ _ _ _ _ _ E1) as (q & _ & _ & -> & W & _). simpl.
      destruct (trades_spec _ _ _ _ _ _ _ E2') as (_ & _ & _ & _ & O2). destruct Im as [E|Im].
      - injection E as -> -> ->. rewrite !Z.eqb_refl. cbn [andb]. specialize (O2 a t). lia.
      - specialize (IH _ _ _ E2' Im). destruct ((a =? x) && (t =? y)); lia. }
    destruct (bridge_spec _ _ _ _ _ _ _ E3) as (k3 & pre & oa & ob & (_ & _ & _ & Oa) & Ds & -> & _).
    rewrite offered_app. pose proof (Oa a t). assert (0 <= offered a t ob); [|lia].
    destruct (distribute_spec _ _ _ _ _ Ds) as (c & am & D0 & _ & X).
    destruct am as [x|]; [|destruct X as (_ & ->); cbn; lia].
    destruct X as (sec & gv & dv & st & q & al & _ & _ & X2 & _ & _ & ->). rewrite !offered_app.
    assert (Dv : 0 <= dv) by (destruct (dev c) as [d|]; [destruct X2 as (X2 & _); unfold umul in X2; num_inv; lia|lia]).
    destruct (second c) as [[r k4]|], (gov c) as [g|], (staking c) as [sk|], (dev c) as [d|]; rewrite ?offered_payl; simpl; try lia;
      destruct (Z.eqb_spec dv 0); simpl; try lia; destruct ((a =? astro c) && (t =? d_asset d)); lia. }
  unfold target in Tg. cbv zeta in Tg. cbn [cfg bridges s0] in Tg. unfold ASTRO. destruct (find a (bridges s)) as [b|].
  - unguard Tg G. injection Tg as <- _. apply validate_leads in G as (V1 & V2). split; [exact V1|]. split; [|exact Of].
    clear - V2. unfold MAX_DEPTH in V2. remember 2%nat as n eqn:En. clear En. induction V2 as [n|n x P|n x y Fx P _ IH]; [exact (leads_here e s n)|exact (leads_pool e s n x P)|].
    exact (leads_bridge e s n x y Fx P IH).
  - destruct (dbridge (cfg s)) as [d|].
    + destruct (negb (a =? d) && pool e (factory (cfg s)) a d); [injection Tg as <- _; exact Of|]. unguard Tg G. injection Tg as <- _. auto.
    + unguard Tg G. injection Tg as <- _. auto.
Qed.

(** Bridges that never reach ASTRO: no collection of such an asset succeeds. *)
Definition circular (s : state) (C : Z -> Prop) : Prop :=
  ~ C (ASTRO s) /\ forall a, C a -> exists b, find a (bridges s) = Some b /\ C b.

(** Every swap that goes through returns something. *)
Definition paying (e : env) : Prop := forall n a b x q, 0 < x -> quote e n a b x = Some q -> 0 < q.

Lemma trades_pays e a t v ms : paying e -> forall k s k' s' os, trades e k ms s = Some (k', s', os) -> In (a, t, v) ms -> 0 < v -> 0 < gained t os.
Proof.
  intros P. induction ms as [|[[x y] w] ms IH]; intros k s k' s' os H I V; [destruct I|]. simpl in H.
  unbind H as (s1, o) E1. unbind H as ((k2, s2), os2) E2. injection H as <- <- <-.
  apply trade_spec in E1. destruct E1 as (q & Q & Q0 & -> & _). simpl. destruct (trades_spec _ _ _ _ _ _ _ E2) as (_ & _ & _ & G & _). specialize (G t).
  destruct I as [I|I].
  - injection I as -> -> ->. rewrite Z.eqb_refl. pose proof (P _ _ _ _ _ V Q). lia.
  - specialize (IH _ _ _ _ _ E2 I V). destruct (t =? y); lia.
Qed.
Lemma offers_le e s a l : nonneg (bal s) -> NoDup (map fst l) -> forall ms bs, swap_assets e s l = Some (ms, bs) -> offers a ms <= get (bal s) a.
Proof.
  intros NN ND ms bs H. pose proof (nonneg_get _ a NN). destruct (in_dec Z.eq_dec a (map fst l)) as [I|N].
  - apply in_map_iff in I as ([x lim] & E & I). cbn [fst] in E. subst x. rewrite (offers_one _ _ _ _ _ _ _ H ND I). unfold take.
    destruct lim as [v|]; [|lia]. destruct (Z.ltb_spec v (get (bal s) a)), (Z.ltb_spec 0 v); cbn [andb]; lia.
  - rewrite (offers_none _ _ _ _ _ _ H N). exact H0.
Qed.
(** One round moves the fees on along the circle. *)
Lemma round_circular e s l ms bs k k' s1 o1 C a lim : paying e -> circular s C -> nonneg (bal s) -> NoDup (map fst l) ->
  swap_assets e s l = Some (ms, bs) -> trades e k ms s = Some (k', s1, o1) -> In (a, lim) l -> C a -> 0 < get (bal s) a ->
  exists b, In b bs /\ C b /\ 0 < get (bal s1) b.
Proof.
  intros P (Na & Cl) NN ND E1 E2 I Ca Pa. destruct (Cl _ Ca) as (b & Fb & Cb). exists b.
  assert (TK : 0 < take s a lim).
  { unfold take. destruct lim as [x|]; [|lia]. destruct (Z.ltb_spec x (get (bal s) a)), (Z.ltb_spec 0 x); cbn [andb]; lia. }
  assert (Im : In (a, b, take s a lim) ms).
  { clear - E1 I TK Fb. revert ms bs E1. induction l as [|[x lm] l IH]; intros ms bs E1; [destruct I|]. simpl in E1. destruct I as [E|I].
    - injection E as -> ->. destruct (Z.eqb_spec (take s a lim) 0); [lia|]. unbind E1 as (t, br) E2. unbind E1 as (ms2, bs2) E3.
      injection E1 as <- <-. left. unfold target in E2. cbv zeta in E2. rewrite Fb in E2. unguard E2 G. injection E2 as <- _. reflexivity.
    - destruct (take s x lm =? 0); [exact (IH I _ _ E1)|]. unbind E1 as (t, br) E2. unbind E1 as (ms2, bs2) E3. injection E1 as <- <-.
      right. exact (IH I _ _ eq_refl). }
  assert (Nb : b <> astro (cfg s)) by (intros ->; exact (Na Cb)).
  split; [exact (proj2 (swap_assets_bridges _ _ _ _ _ E1) _ _ _ Im Nb)|]. split; [exact Cb|].
  destruct (trades_spec _ _ _ _ _ _ _ E2) as ((A1 & _) & _). rewrite A1, (trades_offers _ _ _ _ _ _ _ _ E2).
  pose proof (trades_pays _ _ _ _ _ P _ _ _ _ _ E2 Im TK). pose proof (offers_le _ _ b _ NN ND _ _ E1). lia.
Qed.
Lemma bridge_circular fuel : forall e k bs s C, sane e -> paying e -> nonneg (bal s) -> NoDup bs -> circular s C ->
  (exists a, In a bs /\ C a /\ 0 < get (bal s) a) -> bridge fuel e k bs s = None.
Proof.
  induction fuel as [|f IH]; intros e k bs s C Sn P NN ND Ci (a & I & Ca & Pa).
  - destruct bs; [destruct I|reflexivity].
  - destruct (bridge (S f) e k bs s) as [[s' os]|] eqn:H; [exfalso|reflexivity]. destruct bs as [|b0 bs]; [destruct I|].
    remember (b0 :: bs) as B eqn:EB. rewrite EB in H. cbn [bridge] in H. rewrite <- EB in H.
    unbind H as (ms, nb) E1. destruct ms as [|m ms]; [discriminate H|]. remember (m :: ms) as M.
    unbind H as ((k2, s1), o1) E2. unbind H as (s2, o2) E3.
    assert (NDB : NoDup (map fst (map (fun a : Z => (a, @None Z)) B))) by (rewrite map_map, map_id; exact ND).
    assert (IB : In (a, None) (map (fun a : Z => (a, @None Z)) B)) by (apply in_map_iff; exists a; auto).
    destruct (round_circular _ _ _ _ _ _ _ _ _ _ _ _ P Ci NN NDB E1 E2 IB Ca Pa) as (b & Ib & Cb & Pb).
    destruct (trades_spec _ _ _ _ _ _ _ E2) as (F1 & _). pose proof F1 as (_ & N1 & Eq1). destruct Sn as (Sp & Pm).
    assert (Ci1 : circular s1 C). { destruct Ci as (X & Y). unfold circular, ASTRO in *. rewrite (F_cfg _ _ _ F1), Eq1. split; [exact X|exact Y]. }
    rewrite (IH e k2 (order e nb) s1 C (conj Sp Pm) P (N1 NN) (Permutation_NoDup (Pm nb) (proj1 (swap_assets_bridges _ _ _ _ _ E1))) Ci1) in E3; [discriminate E3|].
    exists b. split; [exact (Permutation_in _ (Pm nb) Ib)|]. split; [exact Cb|exact Pb].
Qed.
Theorem c118_circular : forall e sender l s C a lim, sane e -> paying e -> nonneg (bal s) -> circular s C -> In (a, lim) l -> C a -> 0 < holds s a ->
  step e sender (Collect l) s = None.
Proof.
  intros e sender l s C a lim Sn P NN Ci I Ca Pa. destruct (step e sender (Collect l) s) as [[s' os]|] eqn:H; [exfalso|reflexivity].
  simpl in H. unfold collect in H. cbv zeta in H. unguard H G1. unbind H as ok E0. unguard H G2. unguard H G3.
  set (s0 := mkState (cfg s) (now e) (bridges s) (seize_to s) (seizable s) (bal s)) in *.
  set (L := filter (fun x : Z * option Z => negb (fst x =? astro (cfg s))) l) in *. unfold holds in Pa.
  assert (NDl : NoDup (map fst l)).
  { clear - G3. induction (map fst l) as [|x r IH]; [constructor|]. simpl in G3. bools. constructor; auto.
    intros I. apply mem_In in I. congruence. }
  assert (NL : NoDup (map fst L)).
  { unfold L. clear - NDl. induction l as [|[x v] l IH]; simpl in *; [constructor|].
    inversion NDl as [|? ? N1 N2]; subst. destruct (negb (x =? astro (cfg s))); simpl; auto.
    constructor; auto. intros I. apply N1. apply in_map_iff in I. destruct I as (y & <- & I).
    apply filter_In in I. apply in_map_iff. exists y. tauto. }
  assert (Na : a <> astro (cfg s)) by (intros ->; exact (proj1 Ci Ca)).
  assert (IL : In (a, lim) L).
  { unfold L. apply filter_In. split; [exact I|]. cbn [fst]. destruct (Z.eqb_spec a (astro (cfg s))); [contradiction|reflexivity]. }
  unbind H as (ms, bs) E1. assert (TK : take s0 a lim <> 0).
  { unfold take. cbn [bal s0]. destruct lim as [x|]; [|lia]. destruct (Z.ltb_spec x (get (bal s) a)), (Z.ltb_spec 0 x); cbn [andb]; lia. }
  destruct ms as [|m ms].
  - pose proof (offers_one _ _ _ _ _ _ _ E1 NL IL) as O. cbn [offers] in O. congruence.
  - remember (m :: ms) as M. unbind H as ((k2, s1), o1) E2. unbind H as (s2, o2) E3.
    destruct (round_circular e s0 L M bs 0 k2 s1 o1 C a lim P Ci NN NL E1 E2 IL Ca Pa) as (b & Ib & Cb & Pb).
    destruct (trades_spec _ _ _ _ _ _ _ E2) as (F1 & _). pose proof F1 as (_ & N1 & Eq1). pose proof Sn as (Sp & Pm).
    assert (Ci1 : circular s1 C). { destruct Ci as (X & Y). unfold circular, ASTRO in *. rewrite (F_cfg _ _ _ F1), Eq1. split; [exact X|exact Y]. }
    rewrite (bridge_circular EXEC_DEPTH e k2 (order e bs) s1 C Sn P (N1 NN) (Permutation_NoDup (Pm bs) (proj1 (swap_assets_bridges _ _ _ _ _ E1))) Ci1) in E3; [discriminate E3|].
    exists b. split; [exact (Permutation_in _ (Pm bs) Ib)|]. split; [exact Cb|exact Pb].
Qed.

(** Such bridges are accepted: assets 2 and 3 both have a pool with ASTRO (asset 1) and with each other, and the owner registers 3 as the
    bridge of 2 and 2 as the bridge of 3. Afterwards neither can be collected, whatever the pools do; before, both could. *)
Definition fees_run : list event := [mkEv (env0 2 2) 8 (Receive 2 1000); mkEv (env0 3 3) 8 (Receive 3 5)].
Definition circle_run : list event := fees_run ++ [mkEv (env0 4 4) 7 (UpdateBridges [(2, 3); (3, 2)] [])].
Theorem c118_refuted : exists t i s0 l1 e1 owner_ adds, instantiate t i = Some s0 /\
  step e1 owner_ (UpdateBridges adds []) (run s0 l1) <> None /\
  step (env0 5 5) 9 (Collect [(2, None); (3, None)]) (run s0 l1) <> None /\
  let s := exec (run s0 l1) (mkEv e1 owner_ (UpdateBridges adds [])) in
  holds s 2 = 1000 /\ holds s 3 = 5 /\
  forall e sender l a lim, sane e -> paying e -> a = 2 \/ a = 3 -> In (a, lim) l -> step e sender (Collect l) s = None.
Proof.
  destruct (instantiate 0 inst2) as [s0|] eqn:I; [|discriminate].
  exists 0, inst2, s0, fees_run, (env0 4 4), 7, [(2, 3); (3, 2)]. split; [assumption|]. vm_compute in I. injection I as <-.
  split; [vm_compute; discriminate|]. split; [vm_compute; discriminate|]. cbv zeta.
  match goal with |- holds ?x 2 = _ /\ _ => set (s := x); assert (E : bal s = bal s) by reflexivity end.
  split; [reflexivity|]. split; [reflexivity|]. intros e sender l a lim Sn P A In_.
  apply (c118_circular e sender l s (fun x => x = 2 \/ x = 3) a lim Sn P); [|split|exact In_|exact A|].
  - vm_compute. repeat constructor; discriminate.
  - intros [H|H]; vm_compute in H; discriminate H.
  - intros x [->| ->]; [exists 3|exists 2]; split; try reflexivity; auto.
  - destruct A as [->| ->]; reflexivity.
Qed.

(** The default bridge is preferred to a direct pool: as soon as anyone has created a pool of the asset and the default bridge asset, and as long as
    this pool refuses swaps (it is empty), the asset cannot be collected even though its pool with ASTRO works. *)
Theorem c118_default_bridge : forall e sender l s d a lim, dbridge (cfg s) = Some d -> find a (bridges s) = None -> a <> d -> a <> ASTRO s ->
  pool e (factory (cfg s)) a d = true -> (forall n x, quote e n a d x = None) -> nonneg (bal s) -> 0 < holds s a -> In (a, lim) l ->
  step e sender (Collect l) s = None.
Proof.
  intros e sender l s d a lim D Fb Nd Na Pd Q NN Hp I. destruct (step e sender (Collect l) s) as [[s' os]|] eqn:H; [exfalso|reflexivity].
  pose proof (c118_routes _ _ _ _ _ _ _ _ H I Na NN Hp) as R. rewrite Fb, D, Pd in R. destruct (Z.eqb_spec a d); [contradiction|]. cbn [negb andb] in R.
  destruct (collect_spec _ _ _ _ _ H) as (_ & k & pre & o1 & o2 & _).
  simpl in H. unfold collect in H. cbv zeta in H. unguard H G1. unbind H as ok E0. unguard H G2. unguard H G3.
  set (s0 := mkState (cfg s) (now e) (bridges s) (seize_to s) (seizable s) (bal s)) in *.
  set (L := filter (fun x : Z * option Z => negb (fst x =? astro (cfg s))) l) in *.
  assert (IL : In (a, lim) L).
  { unfold L. apply filter_In. split; [exact I|]. cbn [fst]. unfold ASTRO in Na. destruct (Z.eqb_spec a (astro (cfg s))); [contradiction|reflexivity]. }
  assert (TK : take s0 a lim <> 0).
  { unfold take, holds in *. cbn [bal s0]. destruct lim as [x|]; [|lia]. destruct (Z.ltb_spec x (get (bal s) a)), (Z.ltb_spec 0 x); cbn [andb]; lia. }
  unbind H as (ms, bs) E1. assert (Im : In (a, d, take s0 a lim) ms).
  { clear - E1 IL TK Fb D Pd n. revert ms bs E1. induction L as [|[x lm] L IH]; intros ms bs E1; [destruct IL|]. simpl in E1. destruct IL as [E|IL].
    - injection E as -> ->. destruct (Z.eqb_spec (take s0 a lim) 0); [contradiction|]. unbind E1 as (t, br) E2. unbind E1 as (ms2, bs2) E3.
      injection E1 as <- <-. left. unfold target in E2. cbv zeta in E2. cbn [cfg bridges s0] in E2. rewrite Fb, D, Pd in E2.
      destruct (Z.eqb_spec a d); [contradiction|]. cbn [negb andb] in E2. injection E2 as <- _. reflexivity.
    - destruct (take s0 x lm =? 0); [exact (IH IL _ _ E1)|]. unbind E1 as (t, br) E2. unbind E1 as (ms2, bs2) E3. injection E1 as <- <-.
      right. exact (IH IL _ _ eq_refl). }
  destruct ms as [|m ms]; [destruct Im|]. unbind H as ((k2, s1), o3) E2. clear - E2 Im Q.
  revert E2 Im. generalize (take s0 a lim) as v. generalize 0%nat as j. generalize (m :: ms) as M. generalize s0 as z. intros z M j v. revert j z k2 s1 o3.
  induction M as [|[[x y] w] M IH]; intros j z k2 s1 o3 E2 Im; [destruct Im|]. simpl in E2. unbind E2 as (sa, o) E1. unbind E2 as ((k3, sb), os2) E3.
  destruct Im as [E|Im]; [|exact (IH _ _ _ _ _ E3 Im)]. injection E as -> -> ->. destruct (trade_spec _ _ _ _ _ _ _ _ E1) as (q & Eq & _).
  rewrite Q in Eq. discriminate Eq.
Qed.
(** ** C76: the owner decides what can be seized and for whom *)
Theorem c76_update : forall e sender to l s,
  (sender <> owner s -> step e sender (UpdateSeize to l) s = None) /\
  (sender = owner s -> exists s', step e sender (UpdateSeize to l) s = Some (s', []) /\ seizable s' = l /\
     (forall r, to = Some r -> seize_to s' = Some r) /\ (to = None -> seize_to s' = seize_to s) /\
     cfg s' = cfg s /\ bridges s' = bridges s /\ lastcol s' = lastcol s /\ forall a, holds s' a = holds s a) /\
  forall m s' os, step e sender m s = Some (s', os) -> (forall a r, m <> UpdateSeize a r) -> seize_to s' = seize_to s /\ seizable s' = seizable s.
Proof.
  intros e sender to l s. split; [|split].
  - intros N. simpl. destruct (Z.eqb_spec sender (owner s)); [contradiction|reflexivity].
  - intros ->. simpl. rewrite Z.eqb_refl. eexists. split; [reflexivity|]. cbn. split; [reflexivity|]. split; [intros r ->; reflexivity|].
    split; [intros ->; reflexivity|]. split; [reflexivity|]. split; [reflexivity|]. split; [reflexivity|]. intros a. reflexivity.
  - intros m s' os H N. destruct (step_config _ _ _ _ _ _ H) as (_ & _ & _ & _ & _ & [K|(_ & a & r & K)]); [exact K|destruct (N _ _ K)].
Qed.

(** ** Examples *)
(** Asset 2 goes to asset 3, asset 3 to asset 4 and asset 4 to ASTRO (asset 1): nothing of 2, 3 or 4 is left, and both routes are taken. *)
Definition route_state : state := Eval vm_compute in
  match instantiate 0 inst2 with
  | Some s0 => run s0 (fees_run ++ [mkEv (env0 4 4) 7 (UpdateBridges [(2, 3); (3, 4)] [])])
  | None => mkState (mkCfg (OwnershipModel.init 0) 0 None None None None 0 0 0 false 0 0 0 0 None None) 0 [] None [] []
  end.
Example c118_example_routes : match step (env0 5 5) 9 (Collect [(2, None); (3, None)]) route_state with
  | Some (s', os) => holds s' 2 = 0 /\ holds s' 3 = 0 /\ holds s' 4 = 0 /\ gained 4 os = 1005 /\ offered 2 3 os = 1000 /\ offered 3 4 os = 1005 /\
      offered 4 1 os = 1005
  | None => False end /\ find 2 (bridges route_state) = Some 3 /\ holds route_state 2 = 1000.
Proof. vm_compute. repeat split. Qed.
Example c118_example_leads : leads (env0 5 5) route_state 2 3 /\ leads (env0 5 5) route_state 0 4.
Proof. split; apply leads_pool; reflexivity. Qed.
(** A default bridge (asset 6): with a dead pool of 2 and 6, asset 2 is stuck; without that pool it is swapped to ASTRO. *)
Definition env_dead (known : bool) : env :=
  mkEnv 99 9 9 (fun _ a b => negb (a =? b) && (known || negb ((a =? 2) && (b =? 6)))) (fun _ a b x => if (a =? 2) && (b =? 6) then None else Some x) (fun l => l) false.
Definition default_state : state := Eval vm_compute in
  match instantiate 0 (mkInst 7 (Some 6) 1 10 (Some 20) (Some 30) (Some 25) None None None) with
  | Some s0 => run s0 fees_run
  | None => route_state
  end.
Example c118_example_default : dbridge (cfg default_state) = Some 6 /\ find 2 (bridges default_state) = None /\ holds default_state 2 = 1000 /\
  pool (env_dead true) (factory (cfg default_state)) 2 6 = true /\ pool (env_dead true) (factory (cfg default_state)) 2 1 = true /\
  step (env_dead true) 9 (Collect [(2, None)]) default_state = None /\ step (env_dead false) 9 (Collect [(2, None)]) default_state <> None.
Proof. vm_compute. repeat split; discriminate. Qed.
Example c118_example_circular : paying (env0 5 5) /\ sane (env0 5 5).
Proof. split; [|apply sane0]. intros n a b x q P H. injection H as <-. exact P. Qed.

Print Assumptions c118_no_residue.
Print Assumptions c118_routes.
Print Assumptions c118_circular.
Print Assumptions c118_refuted.
Print Assumptions c118_default_bridge.
Print Assumptions c76_update.
