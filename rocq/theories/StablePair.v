(** Invariants of the stable pair over all histories. *)
From Coq Require Import ZArith Lia Bool List.
From Verif Require Import Num Ledger StableMath StableModel.
From Verif Require XykModel XykProofs OwnershipModel.
Import ListNotations.
Open Scope Z_scope.

(** Amplification values are stored times 100; times are u64. *)
Definition ramp_ok (r : ramp) : Prop :=
  100 <= init_amp r <= 100000000 /\ 100 <= next_amp r <= 100000000 /\ 0 <= init_t r <= next_t r /\
  next_t r <= U64MAX.

(** The environment's numbers are machine numbers and rates at most 100%. *)
Definition env_ok (e : env) : Prop :=
  is_u64 (now e) /\ 0 <= total_fee (fees e) <= DEC /\ 0 <= maker_rate (fees e) <= DEC.
Definition msg_ok (m : msg) : Prop := match m with StartAmp _ _ time => time <= U64MAX | _ => True end.
Definition hist_ok (l : list (env * msg)) : Prop := Forall (fun em => env_ok (fst em) /\ msg_ok (snd em)) l.

Record inv (s : state) : Prop := mkInv
  { i_r0 : 0 <= r0 s; i_r1 : 0 <= r1 s;
    i_nn : nonneg (lp s); i_tot : total (lp s) = supply s;
    i_lock : supply s = 0 \/ MINIMUM_LIQUIDITY <= get (lp s) SELF;
    i_amp : ramp_ok (amp s);
    i_share : match fshare s with Some b => 0 < b <= MAX_FEE_SHARE_BPS | None => True end }.

(** ** The ramp *)
Lemma div_between p r d : 0 < r -> 0 <= p <= d * r -> 0 <= p / r <= d.
Proof. intros. split; [apply Z.div_pos; lia|apply Z.div_le_upper_bound; lia]. Qed.
Lemma current_amp_spec r t : ramp_ok r -> init_t r <= t ->
  exists a, current_amp r t = Some a /\
    (t < next_t r -> let el := t - init_t r in let w := next_t r - init_t r in
       0 < w /\ 0 <= el < w /\
       a = if init_amp r <? next_amp r then init_amp r + (next_amp r - init_amp r) * el / w
           else init_amp r - (init_amp r - next_amp r) * el / w) /\
    (next_t r <= t -> a = next_amp r) /\
    (Z.min (init_amp r) (next_amp r) <= a <= Z.max (init_amp r) (next_amp r)).
Proof.
  intros (A & B & C & D) Ht. unfold current_amp. destruct (Z.ltb_spec t (next_t r)) as [L|L].
  2: { exists (next_amp r). split; [reflexivity|]. split; [lia|]. split; [auto|lia]. }
  set (el := ssub t (init_t r)). set (w := ssub (next_t r) (init_t r)).
  assert (W : w = next_t r - init_t r) by (unfold w, ssub; lia).
  assert (EL : 0 <= el < next_t r - init_t r) by (unfold el, ssub; lia).
  assert (EE : el = t - init_t r) by (unfold el, ssub; lia).
  assert (W0 : 0 < w) by lia. assert (EW : 0 <= el < w) by lia.
  assert (U : el <= U64MAX) by (unfold U64MAX in *; lia). clearbody el w.
  assert (Wn : (w =? 0) = false) by (apply Z.eqb_neq; lia). rewrite Wn. cbn [negb].
  destruct (Z.ltb_spec (init_amp r) (next_amp r)) as [M|M].
  - assert (P : 0 <= (next_amp r - init_amp r) * el <= (next_amp r - init_amp r) * w) by nia.
    assert (P2 : (next_amp r - init_amp r) * el <= 100000000 * U64MAX) by (unfold U64MAX in *; nia).
    pose proof (div_between _ _ _ W0 P) as Q.
    unfold mul128, add128, u128, u64.
    rewrite (proj2 (fits_iff U128MAX _)) by (unfold U128MAX, U64MAX in *; lia).
    rewrite (proj2 (fits_iff U128MAX _)) by (unfold U128MAX, U64MAX in *; lia).
    rewrite (proj2 (fits_iff U64MAX _)) by (unfold U64MAX in *; lia).
    eexists. split; [reflexivity|]. split; [|split; lia].
    intros _. cbv zeta. rewrite <- W, <- EE. split; [lia|]. split; [lia|]. reflexivity.
  - assert (P : 0 <= (init_amp r - next_amp r) * el <= (init_amp r - next_amp r) * w) by nia.
    assert (P2 : (init_amp r - next_amp r) * el <= 100000000 * U64MAX) by (unfold U64MAX in *; nia).
    pose proof (div_between _ _ _ W0 P) as Q.
    unfold mul128, sub128, u128, u64.
    rewrite (proj2 (fits_iff U128MAX _)) by (unfold U128MAX, U64MAX in *; lia).
    rewrite (proj2 (fits_iff U128MAX _)) by (unfold U128MAX, U64MAX in *; lia).
    rewrite (proj2 (fits_iff U64MAX _)) by (unfold U64MAX in *; lia).
    eexists. split; [reflexivity|]. split; [|split; lia].
    intros _. cbv zeta. rewrite <- W, <- EE. split; [lia|]. split; [lia|]. reflexivity.
Qed.
Lemma current_amp_range r t a : ramp_ok r -> current_amp r t = Some a -> 100 <= a <= 100000000.
Proof.
  intros R H. destruct (Z.le_gt_cases (init_t r) t) as [L|L].
  - destruct (current_amp_spec r t R L) as (a' & E & _ & _ & B). rewrite E in H.
    injection H as <-. destruct R as (A & C & _). lia.
  - destruct R as (A & B & C & _). unfold current_amp, ssub in H. rewrite (proj2 (Z.ltb_lt t (next_t r))) in H by lia.
    rewrite (Z.max_l 0 (t - init_t r)) in H by lia.
    destruct (init_amp r <? next_amp r); unbind H as p Ep; unguard H G; unbind H as v Ev;
      apply mul128_Some in Ep; destruct Ep as (-> & _); rewrite Z.mul_0_r, Z.div_0_l in Ev
      by (bools; assumption); apply u64_Some in H; num_inv; lia.
Qed.
Lemma start_amp_inv r t next time r' : start_amp r t next time = Some r' ->
  exists cur, current_amp r t = Some cur /\ r' = mkRamp cur t (100 * next) time /\
    1 <= next <= 1000000 /\ init_t r + 86400 <= t /\ t + 86400 <= time /\
    cur <= 10 * (100 * next) /\ 100 * next <= 10 * cur.
Proof.
  unfold start_amp. intros H. unguard H G1. unbind H as cur E1. unbind H as n E2. unbind H as n10 E3. unbind H as c10 E4.
  unguard H G2. unbind H as t1 E5. unbind H as t2 E6. unguard H G3. injection H as <-.
  apply u64_Some in E2, E3, E4. apply add64_Some in E5, E6.
  destruct E2 as (-> & E2), E3 as (-> & E3), E4 as (-> & E4), E5 as (-> & E5), E6 as (-> & E6).
  apply negb_true_iff in G1, G2, G3. apply orb_false_iff in G1, G2, G3.
  destruct G1 as (G1 & G1'), G2 as (G2 & G2'), G3 as (G3 & G3').
  unfold MAX_AMP, AMP_PRECISION, MAX_AMP_CHANGE, MIN_AMP_CHANGING_TIME in *.
  apply Z.eqb_neq in G1. apply Z.ltb_ge in G1', G2, G2', G3, G3'.
  exists cur. split; [reflexivity|]. split; [f_equal; lia|]. lia.
Qed.
Lemma start_amp_ok r t next time r' : ramp_ok r -> 0 <= t -> time <= U64MAX ->
  start_amp r t next time = Some r' -> ramp_ok r'.
Proof.
  intros R Ht Hm H. apply start_amp_inv in H. destruct H as (cur & E & -> & H).
  apply current_amp_range in E; auto. unfold ramp_ok. cbn [init_amp next_amp init_t next_t]. lia.
Qed.
Lemma stop_amp_ok r t r' : ramp_ok r -> is_u64 t -> stop_amp r t = Some r' -> ramp_ok r'.
Proof.
  intros R Ht H. unfold stop_amp in H. unbind H as cur E. injection H as <-. unfold is_u64 in Ht.
  apply current_amp_range in E; [|auto]. unfold ramp_ok. cbn [init_amp next_amp init_t next_t]. lia.
Qed.

(** ** The three pool operations *)
Lemma calculate_shares_pos a d0 d1 x y p0 p1 g total share :
  calculate_shares a d0 d1 x y p0 p1 g total = Some share -> 0 < share.
Proof.
  unfold calculate_shares. intros H.
  do 7 (let E := fresh "E" in unbind H as ? E).
  destruct (total =? 0).
  - unbind H as v Ev. unbind H as sh Es. unguard H G. injection H as <-. apply sub128_Some in Es. bools. lia.
  - unbind H as v Ev. unbind H as t Et. unbind H as m Em. unbind H as sh Es. unguard H G. injection H as <-.
    unfold to_prec in Es. unguard Es G2. apply u128_Some in Es. bools. lia.
Qed.

Lemma provide_inv e s receiver d0 d1 min_lp s' o :
  provide e s receiver d0 d1 min_lp = Some (s', o) ->
  exists a share, o = OProvide share /\ 0 <= d0 /\ 0 <= d1 /\ 0 < share /\
    current_amp (amp s) (now e) = Some a /\
    calculate_shares a d0 d1 (r0 s) (r1 s) (p0 s) (p1 s) (greatest s) (supply s) = Some share /\
    (forall m, min_lp = Some m -> m <= share) /\
    r0 s' = r0 s + d0 /\ r1 s' = r1 s + d1 /\
    (exists x y c, with_prec (if nat0 s then r0 s + d0 else r0 s) (p0 s) = Some x /\
       with_prec (if nat1 s then r1 s + d1 else r1 s) (p1 s) = Some y /\
       accumulate_prices e s x y = Some c /\ (c01 s', c10 s', last_t s') = c) /\
    supply s' = supply s + (if supply s =? 0 then MINIMUM_LIQUIDITY else 0) + share /\
    lp s' = (let lp1 := if supply s =? 0 then set (lp s) SELF (get (lp s) SELF + MINIMUM_LIQUIDITY) else lp s in
             set lp1 receiver (get lp1 receiver + share)) /\
    amp s' = amp s /\ fshare s' = fshare s /\ owner s' = owner s /\ proposal s' = proposal s /\
    p0 s' = p0 s /\ p1 s' = p1 s /\ nat0 s' = nat0 s /\ nat1 s' = nat1 s.
Proof.
  unfold provide. intros H. unguard H G1. unguard H G2. unbind H as a Ea. unbind H as share Es. unguard H G3.
  unbind H as n0 E0. unbind H as n1 E1. unbind H as x Ex. unbind H as y Ey. unbind H as c Ec. injection H as <- <-.
  apply add128_Some in E0, E1. destruct E0 as (-> & _), E1 as (-> & _).
  apply andb_true_iff in G1. destruct G1 as [G1 _]. bools.
  exists a, share. destruct c as [[c1 c2] c3]. unfold set_core. cbn -[get set].
  repeat (split; [solve [auto; eapply calculate_shares_pos; eauto]|]).
  split; [intros m ->; assumption|]. split; [reflexivity|]. split; [reflexivity|].
  split; [exists x, y, (c1, c2, c3); auto|]. repeat split; reflexivity.
Qed.

Lemma withdraw_inv e s who amount mins s' o :
  withdraw e s who amount mins = Some (s', o) ->
  exists a0 a1, o = OWithdraw a0 a1 /\ who <> SELF /\ 0 < amount <= get (lp s) who /\
    XykModel.share_of (r0 s) amount (supply s) = Some a0 /\ XykModel.share_of (r1 s) amount (supply s) = Some a1 /\
    (forall m0 m1, mins = Some (m0, m1) -> m0 <= a0 /\ m1 <= a1) /\
    r0 s' = r0 s - a0 /\ r1 s' = r1 s - a1 /\ 0 <= r0 s - a0 /\ 0 <= r1 s - a1 /\
    supply s' = supply s - amount /\ lp s' = set (lp s) who (get (lp s) who - amount) /\
    amp s' = amp s /\ fshare s' = fshare s /\ owner s' = owner s /\ proposal s' = proposal s /\
    (exists x y c, with_prec (r0 s) (p0 s) = Some x /\ with_prec (r1 s) (p1 s) = Some y /\
       accumulate_prices e s x y = Some c /\ (c01 s', c10 s', last_t s') = c) /\
    p0 s' = p0 s /\ p1 s' = p1 s /\ nat0 s' = nat0 s /\ nat1 s' = nat1 s.
Proof.
  unfold withdraw. intros H. unguard H G1. unbind H as a0 E0. unbind H as a1 E1. unguard H G2.
  unbind H as n0 F0. unbind H as n1 F1. unbind H as x Ex. unbind H as y Ey. unbind H as c Ec. injection H as <- <-.
  apply sub128_Some in F0, F1. destruct F0 as (-> & F0), F1 as (-> & F1). bools.
  exists a0, a1. destruct c as [[c1 c2] c3]. unfold set_core. cbn -[get set].
  split; [reflexivity|]. split; [assumption|]. split; [lia|]. split; [reflexivity|]. split; [reflexivity|].
  split. { intros m0 m1 ->. bools. auto. }
  repeat (split; [solve [auto; lia]|]).
  split; [exists x, y, (c1, c2, c3); auto|]. repeat split; reflexivity.
Qed.

Lemma quote_inv e s one offer ret spread comm : env_ok e -> quote e s one offer = Some (ret, spread, comm) ->
  exists gross a x y off, with_prec (r0 s) (p0 s) = Some x /\ with_prec (r1 s) (p1 s) = Some y /\
    with_prec offer (if one then p1 s else p0 s) = Some off /\
    current_amp (amp s) (now e) = Some a /\ r0 s <> 0 /\ r1 s <> 0 /\ offer <> 0 /\
    compute_swap a off (if one then y else x) (if one then x else y) x y (if one then p0 s else p1 s) =
      Some (gross, spread) /\
    comm = gross * total_fee (fees e) / DEC /\ ret = gross - comm /\ 0 <= ret /\ 0 <= comm /\ 0 <= gross.
Proof.
  intros (_ & He & _) H. unfold quote in H. unbind H as x Ex. unbind H as y Ey. unguard H G. unbind H as off Eo.
  unbind H as a Ea. unbind H as [gross sp] Ec. unbind H as cm Em. injection H as <- <- <-. bools.
  exists gross, a, x, y, off. rewrite ?Ex, ?Ey, ?Eo, ?Ea.
  assert (G0 : 0 <= gross).
  { unfold compute_swap in Ec. unbind Ec as na E1. unbind Ec as nk E2. unbind Ec as ask E3. unbind Ec as r E4.
    unbind Ec as of E5. injection Ec as <- <-. apply sub128_Some in E4. lia. }
  apply umul_Some in Em. destruct Em as (-> & Em).
  pose proof (XykProofs.frac_le gross (total_fee (fees e)) G0 He) as F.
  unfold ssub. rewrite Z.max_r by lia. repeat split; auto; lia.
Qed.

Lemma swap_inv e s one offer belief ms s' o : env_ok e ->
  match fshare s with Some b => 0 < b <= MAX_FEE_SHARE_BPS | None => True end ->
  swap e s one offer belief ms = Some (s', o) ->
  exists ret spread comm maker shr, o = OSwap ret spread comm maker shr /\
    quote e s one offer = Some (ret, spread, comm) /\
    XykModel.assert_max_spread belief ms offer (ret + comm) spread = Some tt /\
    0 <= shr /\ 0 <= maker /\ shr + maker <= comm /\
    shr = (match fshare s with Some b => comm * (b * DEC / 10000) / DEC | None => 0 end) /\
    maker = (if maker_on (fees e) then (comm - shr) * maker_rate (fees e) / DEC else 0) /\
    (let rin s := if one then r1 s else r0 s in let rout s := if one then r0 s else r1 s in
     rin s' = rin s + offer /\ rout s' = rout s - ret - maker - shr /\ 0 <= rout s' /\ 0 <= rin s') /\
    supply s' = supply s /\ lp s' = lp s /\
    amp s' = amp s /\ fshare s' = fshare s /\ owner s' = owner s /\ proposal s' = proposal s /\
    (exists x y c, with_prec (r0 s) (p0 s) = Some x /\ with_prec (r1 s) (p1 s) = Some y /\
       accumulate_prices e s x y = Some c /\ (c01 s', c10 s', last_t s') = c) /\
    p0 s' = p0 s /\ p1 s' = p1 s /\ nat0 s' = nat0 s /\ nat1 s' = nat1 s.
Proof.
  intros He Hb H. unfold swap in H. unbind H as [[ret spread] comm] Eq. unbind H as gross Eg. unbind H as u Eu.
  unbind H as shr Es. unbind H as maker Em. unbind H as no E1. unbind H as k1 E2. unbind H as k2 E3. unbind H as na E4.
  unbind H as x Ex. unbind H as y Ey. unbind H as c Ec. injection H as <- <-.
  pose proof (quote_inv _ _ _ _ _ _ _ He Eq) as (g & a & x' & y' & off & _ & _ & _ & _ & _ & _ & _ & _ & Hc & Hr & R0 & C0 & G0).
  destruct He as (_ & _ & He).
  apply add128_Some in Eg, E1. apply sub128_Some in E2, E3, E4.
  destruct Eg as (-> & _), E1 as (-> & E1), E2 as (-> & _), E3 as (-> & _), E4 as (-> & E4).
  destruct u. exists ret, spread, comm, maker, shr.
  assert (Hs : shr = (match fshare s with Some b => comm * (b * DEC / 10000) / DEC | None => 0 end) /\ 0 <= shr <= comm).
  { destruct (fshare s) as [b|].
    - unbind Es as rate Er. apply dratio_Some in Er. apply umul_Some in Es. destruct Er as (_ & -> & _), Es as (-> & _).
      split; [reflexivity|]. apply XykProofs.frac_le; [lia|]. unfold MAX_FEE_SHARE_BPS in Hb. pose proof DEC_pos.
      apply div_between; [lia|]. nia.
    - injection Es as <-. lia. }
  destruct Hs as [Hs Hs'].
  assert (Hm : maker = (if maker_on (fees e) then (comm - shr) * maker_rate (fees e) / DEC else 0) /\ 0 <= maker <= comm - shr).
  { unfold ssub in Em. rewrite Z.max_r in Em by lia. destruct (maker_on (fees e)).
    - apply umul_Some in Em. destruct Em as (-> & _). split; [reflexivity|]. apply XykProofs.frac_le; lia.
    - injection Em as <-. lia. }
  destruct Hm as [Hm Hm'].
  destruct c as [[c1 c2] c3]. unfold set_core. cbn.
  split; [reflexivity|]. split; [reflexivity|]. split; [exact Eu|]. split; [lia|]. split; [lia|]. split; [lia|].
  split; [exact Hs|]. split; [exact Hm|].
  split; [destruct one; cbn; lia|].
  repeat (split; [reflexivity|]).
  split; [exists x, y, (c1, c2, c3); auto|]. repeat split; reflexivity.
Qed.

(** ** Preservation *)
Lemma step_inv e m s s' o : env_ok e -> msg_ok m -> inv s -> step e m s = Some (s', o) -> inv s'.
Proof.
  intros He Hm I H. pose proof I as [I0 I1 In It Il Ia If]. destruct m; cbn [step] in H.
  - apply provide_inv in H.
    destruct H as (a & share & -> & Hd0 & Hd1 & Hp & _ & _ & _ & R0 & R1 & _ & Hs & Hl & Ea & Ef & _).
    pose proof (nonneg_get (lp s) receiver In) as Hg. pose proof (nonneg_get (lp s) SELF In) as Hgs.
    destruct (Z.eqb_spec (supply s) 0) as [E|E]; cbv zeta in Hl.
    + set (l1 := set (lp s) SELF (get (lp s) SELF + MINIMUM_LIQUIDITY)) in *.
      assert (N1 : nonneg l1) by (apply nonneg_set; auto; unfold MINIMUM_LIQUIDITY; lia).
      pose proof (nonneg_get l1 receiver N1).
      constructor; try lia.
      * rewrite Hl. apply nonneg_set; auto. lia.
      * rewrite Hl, total_set. unfold l1 at 1. rewrite total_set. lia.
      * right. rewrite Hl. destruct (Z.eq_dec receiver SELF) as [->|Hn].
        -- rewrite get_set_same. unfold l1. rewrite get_set_same. lia.
        -- rewrite get_set_other by auto. unfold l1. rewrite get_set_same. lia.
      * rewrite Ea. auto.
      * rewrite Ef. auto.
    + constructor; try lia.
      * rewrite Hl. apply nonneg_set; auto. lia.
      * rewrite Hl, total_set. lia.
      * right. destruct Il as [Il|Il]; [lia|]. rewrite Hl. destruct (Z.eq_dec receiver SELF) as [->|Hn].
        -- rewrite get_set_same. lia.
        -- rewrite get_set_other by auto. lia.
      * rewrite Ea. auto.
      * rewrite Ef. auto.
  - apply withdraw_inv in H.
    destruct H as (a0 & a1 & -> & Hw & Ha & _ & _ & _ & R0 & R1 & P0 & P1 & Hs & Hl & Ea & Ef & _).
    constructor; try lia.
    + rewrite Hl. apply nonneg_set; auto. lia.
    + rewrite Hl, total_set. lia.
    + destruct Il as [Il|Il].
      * pose proof (get_le_total (lp s) who In). lia.
      * right. rewrite Hl, get_set_other by auto. lia.
    + rewrite Ea. auto.
    + rewrite Ef. auto.
  - unguard H Ho. apply swap_inv in H; auto. bools.
    destruct H as (ret & spread & comm & maker & shr & _ & _ & _ & _ & _ & _ & _ & _ & (A & B & C & D) & Hs & Hl & Ea & Ef & _).
    destruct one; cbn in *; constructor; rewrite ?Hl, ?Hs, ?Ea, ?Ef; auto; lia.
  - unguard H G. unbind H as r Er. injection H as <- <-. constructor; cbn; auto.
    eapply start_amp_ok; [exact Ia| |exact Hm|exact Er]. destruct He as [[He _] _]. exact He.
  - unguard H G. unbind H as r Er. injection H as <- <-. constructor; cbn; auto.
    eapply stop_amp_ok; eauto. apply He.
  - unguard H G. injection H as <- <-. bools. constructor; cbn; auto.
  - unguard H G. injection H as <- <-. constructor; cbn; auto.
  - unbind H as ow Eo. injection H as <- <-. constructor; cbn; auto.
  - unguard H G. unbind H as n En. injection H as <- <-. apply add128_Some in En. bools.
    destruct one; constructor; cbn; auto; lia.
  - unguard H G. injection H as <- <-. bools.
    constructor; cbn -[move]; auto.
    + apply nonneg_move; auto.
    + rewrite total_move. auto.
    + destruct Il as [Il|Il]; [auto|]. right. destruct (Z.eq_dec to SELF) as [->|Hn].
      * rewrite get_move_to by auto. lia.
      * rewrite get_move_other; auto.
Qed.

Lemma run_inv l : forall s, hist_ok l -> inv s -> inv (run s l).
Proof.
  induction l as [|em l IH]; intros s Hl I; cbn; auto. inversion Hl; subst. apply IH; auto.
  unfold exec. destruct (step (fst em) (snd em) s) as [[s' o]|] eqn:E; auto.
  eapply step_inv; eauto; tauto.
Qed.

(** States reachable from an instantiation. *)
Definition reachable (s : state) : Prop :=
  exists t a o p0 p1 n0 n1 s0 l, is_u64 t /\ 0 <= a /\ instantiate t a o p0 p1 n0 n1 = Some s0 /\ hist_ok l /\ s = run s0 l.
Lemma instantiate_inv t a o p0 p1 n0 n1 s : is_u64 t -> 0 <= a -> instantiate t a o p0 p1 n0 n1 = Some s -> inv s.
Proof.
  intros Ht Ha H. unfold instantiate in H. unguard H G. injection H as <-. apply negb_true_iff in G.
  apply orb_false_iff in G. destruct G as [G1 G2]. apply Z.eqb_neq in G1. apply Z.ltb_ge in G2.
  unfold MAX_AMP, is_u64 in *. constructor; cbn; try lia; auto.
  - constructor.
  - unfold ramp_ok, AMP_PRECISION. cbn. lia.
Qed.
Lemma reachable_inv s : reachable s -> inv s.
Proof.
  intros (t & a & o & p0' & p1' & n0 & n1 & s0 & l & Ht & Ha & H & Hl & ->).
  apply run_inv; auto. eapply instantiate_inv; eauto.
Qed.
