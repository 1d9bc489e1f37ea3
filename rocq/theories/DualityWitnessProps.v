(** Order-book pair: histories showing what fails (C101, C102, C104, C105, C109, C112) and concrete cases of the
    theorems of DualityProps and DualityOrderProps. *)
From Coq Require Import ZArith Lia Bool List.
From Verif Require Import Num Ledger PclMath PclModel PclParamProps PclProofs PclLpProps PclSwapProps DualityModel DualityProofs
  DualityProps DualityOrderProps.
From Verif Require Amap XykModel ObservationModel.
Import ListNotations.
Open Scope Z_scope.

(** ** A pair and its history *)

Definition dinit (o : option dstate) : dstate :=
  match o with Some s => s | None => mkD (init0 None) (mkOb false None 0 0 0 0 0 [] None None None) [] end.
(** price [ps], precisions [q0], [q1], [n] orders per side, minimal sizes, share of the liquidity in the book *)
Definition ini (ps q0 q1 n mn0 mn1 lq : Z) : option dstate :=
  dinstantiate 1000 (std 230000000000000) (40 * DEC) 145000000000000 ps q0 q1 None n mn0 mn1 lq 1000000000000000.
Definition env_ (p : book) (g1 : Z) : denv := mkDEnv (at_ 1000) false p 0 g1.
(** the same with half of the fee going to the maker *)
Definition env_fee (p : book) : denv := mkDEnv (at_fee 1000) false p 0 0.
Definition switch (b : bool) : ob_update := mkObUpd (Some b) None false None None None None None.

Lemma dreach_step st de m st' o : dreach st -> dstep de m st = Some (st', o) -> dreach st'.
Proof.
  intros (st0 & l & H & ->) S. exists st0, (l ++ [(de, m)]). split; [exact H|].
  unfold drun. rewrite fold_left_app. change (st' = dexec (drun st0 l) (de, m)). unfold dexec at 1. cbn [fst snd]. rewrite S. reflexivity.
Qed.
Lemma ini_reach ps q0 q1 n m0 m1 lq st l : ini ps q0 q1 n m0 m1 lq = Some st -> dreach (drun st l).
Proof.
  intros H. exists st, l. split; [left|reflexivity].
  exists 1000, (std 230000000000000), (40 * DEC), 145000000000000, ps, q0, q1, None, n, m0, m1, lq, 1000000000000000.
  split; [unfold U64MAX; lia|exact H].
Qed.

(** 2000 of asset 0 and 1000 of asset 1; user 5 holds 900 LP tokens, user 6 514; a fifth of the liquidity goes to the
    book in one order per side of at least 100 of asset 0 and 50 of asset 1. *)
Definition d0 : dstate := Eval vm_compute in dinit (ini (2 * DEC) 6 6 1 100000000 50000000 200000000000000000).
Definition l1 : list (denv * dmsg) :=
  [(env_ [] 0, DProvide 5 2000000000 1000000000 None None); (env_ [] 0, DConfig (LpTransfer 5 6 514212562));
   (env_ [] 0, DUpdateOb 7 (switch true))].
Definition d1 : dstate := Eval vm_compute in drun d0 l1.
Definition rest2 : book := [(1, mkOrder false 200100000 0); (2, mkOrder true 99950130 0)].
Definition m2 : dmsg := DSwap false 1000000 None None.
(** a swap, which places the orders *)
Definition d2 : dstate := Eval vm_compute in dexec d1 (env_ rest2 0, m2).
Definition w2 : list post :=
  [mkPost false 200100000 545389794204303747000000000 544844949255048699000000000;
   mkPost true 99950130 2185523702777610270000000000 2183340362415195075000000000].
Lemma d1_reach : dreach d1.
Proof.
  assert (E : drun d0 l1 = d1) by (vm_compute; reflexivity). rewrite <- E.
  apply (ini_reach (2 * DEC) 6 6 1 100000000 50000000 200000000000000000). vm_compute. reflexivity.
Qed.
Lemma d2_step : dstep (env_ rest2 0) m2 d1 = Some (d2, mkOut (OSwap 498695 3 1301 0 0) w2 0 0).
Proof. vm_compute. reflexivity. Qed.
Lemma d2_reach : dreach d2.
Proof. exact (dreach_step _ _ _ _ _ d1_reach d2_step). Qed.
Lemma d2_in_step : in_step d2.
Proof. intros k [<-|[<-|[]]]; discriminate. Qed.

(** ** C101 *)

(** User 5 withdraws. What is left is too little for orders of the minimal size, so none are placed, and from then on
    no message settles: user 6 can never withdraw, and the owner cannot switch the book off. *)
Definition d2w : dstate := Eval vm_compute in dexec d2 (env_ [] 0, DWithdraw 5 900000000 false None).
Theorem c101_refuted : exists st st' de o, dreach st /\ in_step st /\
  dstep de (DWithdraw 5 900000000 false None) st = Some (st', o) /\ o_res o = OWithdraw 1273428601 636078734 /\
  get (lp (pool st')) 6 = 514212562 /\ r0 (pool st') = 727571399 /\ r1 (pool st') = 363422571 /\
  forall l de' m, trading m \/ disables m -> dstep de' m (drun st' l) = None.
Proof.
  exists d2, d2w, (env_ [] 0), (mkOut (OWithdraw 1273428601 636078734) [] 0 0). split; [exact d2_reach|]. split; [exact d2_in_step|].
  split; [vm_compute; reflexivity|]. split; [reflexivity|]. split; [reflexivity|]. split; [reflexivity|]. split; [reflexivity|].
  intros l de' m M. assert (S : stuck d2w) by (exists 1; split; [left; reflexivity|reflexivity]).
  destruct (c101_for_ever _ S l) as (_ & _ & _ & _ & _ & A). exact (A de' m M).
Qed.
Example c101_example : in_step d2 /\ stuck d2w /\ keys (ob d2) = [1; 2] /\ keys (ob d2w) = [1; 2] /\ dex d2w = [].
Proof.
  split; [exact d2_in_step|]. split; [exists 1; split; [left; reflexivity|reflexivity]|]. repeat split.
Qed.

(** ** C102, C103 *)

Example c102_example : dreach d1 /\ trading m2 /\ dstep (env_ rest2 0) m2 d1 = Some (d2, mkOut (OSwap 498695 3 1301 0 0) w2 0 0) /\ w2 <> [].
Proof. split; [exact d1_reach|]. split; [exact Logic.I|]. split; [exact d2_step|]. discriminate. Qed.
Example c103_example : sizes (ob d2) = Some (200100000, 99950130) /\ r0 (pool d2) + 200100000 = 2001000000 /\ liq (ob d1) = 2 * 10 ^ 17.
Proof. repeat split. Qed.

(** A pair of an 18-decimal asset 0 worth 1.9 * 10^-6 of a 6-decimal asset 1. The order that sells asset 0 is sent with
    the price 10^-18 per smallest unit, 10^-6 per token: about half of what the pool charges for it. *)
Definition g0 : dstate := Eval vm_compute in dinit (ini 526315789473684210526315 18 6 1 1000 1000 20000000000000000).
Definition lg : list (denv * dmsg) :=
  [(env_ [] 0, DProvide 5 526315789473684210526315789 1000000000 None None); (env_ [] 0, DUpdateOb 7 (switch true))].
Definition g1 : dstate := Eval vm_compute in drun g0 lg.
Definition restg : book := [(1, mkOrder false 5257908530023787961754618 0); (2, mkOrder true 10010000 0)].
Definition g2 : dstate := Eval vm_compute in dexec g1 (env_ restg 0, DSwap true 1000000 None None).
Theorem c102_refuted : exists st de m st' o w, dreach st /\ trading m /\ dstep de m st = Some (st', o) /\
  In w (o_posts o) /\ w_buy w = false /\ w_amount w = 5257908530023787961754618 /\
  w_limit w = 10 ^ 9 /\ w_avg w = 10 ^ 9 /\ p0 (pool st) = 18 /\ p1 (pool st) = 6 /\
  100 * (w_limit w * 10 ^ 12 * scale (pst (pool st'))) < 53 * (10 ^ 27 * 10 ^ 18).
Proof.
  exists g1, (env_ restg 0), (DSwap true 1000000 None None), g2,
    (mkOut (OSwap 524936471305414350853924 6585341345672437515 1372732826924187234876 0 0)
      [mkPost false 5257908530023787961754618 1000000000 1000000000;
       mkPost true 10010000 529348753553420136066643000000000000000000000 528819933619800335730913000000000000000000000] 0 0),
    (mkPost false 5257908530023787961754618 1000000000 1000000000).
  split.
  { assert (E : drun g0 lg = g1) by (vm_compute; reflexivity). rewrite <- E.
    apply (ini_reach 526315789473684210526315 18 6 1 1000 1000 20000000000000000). vm_compute. reflexivity. }
  split; [exact Logic.I|]. split; [vm_compute; reflexivity|]. split; [left; reflexivity|].
  do 6 (split; [reflexivity|]). vm_compute. reflexivity.
Qed.

(** ** C104, C105, C107, C108, C110 *)

(** The sell order is filled completely at its price of 0.5454 and then the buy order in a small part at its price of
    2.1855; both trades were made at prices (asset 0 per asset 1) between 1.83 and 2.19. The sync records 0.002. *)
Definition d4 : dstate := Eval vm_compute in dexec d2 (env_ [] 0, Fill 1 0 109132497).
Definition d3 : dstate := Eval vm_compute in dexec d4 (env_ [] 0, Fill 2 99850130 218552).
Lemma d4_reach : dreach d4.
Proof. apply (dreach_step d2 (env_ [] 0) (Fill 1 0 109132497) d4 (mkOut ONone [] 0 0) d2_reach). vm_compute. reflexivity. Qed.
Lemma d3_reach : dreach d3.
Proof. apply (dreach_step d4 (env_ [] 0) (Fill 2 99850130 218552) d3 (mkOut ONone [] 0 0) d4_reach). vm_compute. reflexivity. Qed.
Definition rest5 : book := [(3, mkOrder false 180066832 0); (4, mkOrder true 110853357 0)].
Definition d5 : dstate := Eval vm_compute in dexec d3 (env_fee rest5, DSync 9).
Definition w5 : list post :=
  [mkPost false 180066832 676949776564102004000000000 676273503061040964000000000;
   mkPost true 110853357 1857758855778755198000000000 1855902952825929269000000000].
Lemma d5_step : dstep (env_fee rest5) (DSync 9) d3 = Some (d5, mkOut ONone w5 450225 225).
Proof. vm_compute. reflexivity. Qed.
Theorem c104_refuted : exists st de st' o, dreach st /\
  dex st = [(1, mkOrder false 0 109132497); (2, mkOrder true 99850130 218552)] /\ sizes (ob st) = Some (200100000, 99950130) /\
  dstep de (DSync 9) st = Some (st', o) /\ last (pst (pool st)) = 2005230122309600816 /\
  183 * 109132497 <= 100 * (200100000 - 0) <= 219 * 109132497 /\ 183 * (99950130 - 99850130) <= 100 * 218552 <= 219 * (99950130 - 99850130) /\
  last (pst (pool st')) = 2002629885761708.
Proof.
  exists d3, (env_fee rest5), d5, (mkOut ONone w5 450225 225). split; [exact d3_reach|]. split; [reflexivity|]. split; [reflexivity|].
  split; [exact d5_step|]. split; [reflexivity|]. split; [lia|]. split; [lia|]. reflexivity.
Qed.
Example c104_two_sides_example : received true (fills d3 (map snd (dex d3))) = 218552 /\ received false (fills d3 (map snd (dex d3))) = 109132497 /\
  sold true 99950130 (fills d3 (map snd (dex d3))) = 100000 /\ sold false 200100000 (fills d3 (map snd (dex d3))) = 200100000.
Proof. repeat split. Qed.
(** Only the sell order filled: the price recorded is that of the trade. *)
Definition rest6 : book := [(3, mkOrder false 180044977 0); (4, mkOrder true 110863380 0)].
Definition d6 : dstate := Eval vm_compute in dexec d4 (env_fee rest6, DSync 9).
Lemma d6_step : dstep (env_fee rest6) (DSync 9) d4 = Some (d6, mkOut ONone
  [mkPost false 180044977 677096239054455289000000000 676419819235220069000000000;
   mkPost true 110863380 1857411210601488623000000000 1855555654946542081000000000] 450225 0).
Proof. vm_compute. reflexivity. Qed.
Example c104_example : lookup (keys (ob d4)) (dex d4) = Some [mkOrder false 0 109132497; mkOrder true 99950130 0] /\
  last (pst (pool d6)) = 1833551009100433210 /\ 1833551009100433210 = 200100000 * 10 ^ 12 * 10 ^ 18 / (109132497 * 10 ^ 12).
Proof. repeat split. Qed.
(** the fee: the maker's half of 0.45 per cent of the 200.1 sold *)
Example c108_example : book_fee (at_fee 1000) (pool d4) 200100000 6 = 450225 /\ fees_ok (at_fee 1000).
Proof. split; [vm_compute; reflexivity|]. split; vm_compute; discriminate. Qed.
Example c110_example : healthy (pst (pool d4)) /\ healthy (pst (pool d6)) /\ xreal (pst (pool d4)) = 1000000650779570671 /\
  xreal (pst (pool d6)) = 1000175319560498594 /\ f_time (rmp (pool d4)) <= 1000.
Proof. unfold healthy. vm_compute. repeat split; discriminate. Qed.
Example c107_example : r0 (pool d4) = 1800900000 /\ r1 (pool d4) = 899551175 /\
  r0 (pool d6) = 1800900000 + 0 - 450225 - 180044977 /\ r1 (pool d6) = 899551175 + (99950130 + 109132497) - 110863380.
Proof. repeat split. Qed.

(** The two orders receive and sell the same amount of asset 0, 100 each. Until somebody changes that by filling more,
    nobody can deposit, withdraw, swap or sync. *)
Definition d7 : dstate := Eval vm_compute in drun d2 [(env_ [] 0, Fill 1 100100000 54538980); (env_ [] 0, Fill 2 54194205 100000000)].
Theorem c105_refuted : exists st os, dreach st /\ in_step st /\ lookup (keys (ob st)) (dex st) = Some os /\
  get (lp (pool st)) 5 = 900000000 /\ get (lp (pool st)) 6 = 514212562 /\
  os = [mkOrder false 100100000 54538980; mkOrder true 54194205 100000000] /\ sizes (ob st) = Some (200100000, 99950130) /\
  forall de m, trading m -> flip de = false -> dstep de m st = None.
Proof.
  exists d7, [mkOrder false 100100000 54538980; mkOrder true 54194205 100000000].
  split.
  { apply (dreach_step (dexec d2 (env_ [] 0, Fill 1 100100000 54538980)) (env_ [] 0) (Fill 2 54194205 100000000) d7 (mkOut ONone [] 0 0)).
    - apply (dreach_step d2 (env_ [] 0) (Fill 1 100100000 54538980) _ (mkOut ONone [] 0 0) d2_reach). vm_compute. reflexivity.
    - vm_compute. reflexivity. }
  split; [intros k [<-|[<-|[]]]; discriminate|]. do 5 (split; [reflexivity|]).
  intros de m T Fl. apply (c105_tie d7 de m [mkOrder false 100100000 54538980; mkOrder true 54194205 100000000] 200100000 99950130 T);
    [reflexivity|reflexivity|discriminate|discriminate|]. rewrite Fl. reflexivity.
Qed.

(** ** C106, C111, C113 *)

Example c106_example : exists o, dstep (env_ [] 0) (DUpdateOb 7 (switch true)) (mkD (pool d1) (ob d0) []) = Some (d1, o) /\
  enabled (ob d0) = false /\ enabled (ob d1) = true /\ dstep (env_ [] 0) (DUpdateOb 8 (switch true)) (mkD (pool d1) (ob d0) []) = None /\
  dstep (env_ [] 0) (DUpdateOb 7 (mkObUpd None None false (Some 16) None None None None)) d1 = None.
Proof. eexists. split; [vm_compute; reflexivity|]. split; [reflexivity|]. split; [reflexivity|]. split; vm_compute; reflexivity. Qed.
Example c111_example : dquery_share (env_ [] 0) d2 900000000 = Some (1273428601, 636078734) /\
  dquery_simulation (env_ [] 0) d1 false 1000000 = Some (498695, 3, 1301).
Proof. split; vm_compute; reflexivity. Qed.
Definition d1off : dstate := Eval vm_compute in dexec d1 (env_ [] 0, DUpdateOb 7 (switch false)).
Example c113_example : plain d1off /\ as_plain m2 = Some (Swap false 1000000 None None) /\
  match step (at_ 1000) (Swap false 1000000 None None) (pool d1off), dstep (env_ [] 0) m2 d1off with
  | Some (s, r), Some (st', o) => r = OSwap 498695 3 1301 0 0 /\ o_res o = r /\ pool st' = forget s
  | _, _ => False
  end.
Proof. split; [repeat split|]. split; [reflexivity|]. vm_compute. repeat split. Qed.

(** ** C109 *)

(** Two orders per side. Both sell orders are taken while they are placed, 200.1 of asset 0 for 109.1 of asset 1,
    which is a price of 1.83; the sync records half of that price and takes half of the fee. *)
Definition f0 : dstate := Eval vm_compute in dinit (ini (2 * DEC) 6 6 2 1000 1000 200000000000000000).
Definition lf : list (denv * dmsg) :=
  [(env_ [] 0, DProvide 5 2000000000 1000000000 None None); (env_ [] 0, DUpdateOb 7 (switch true))].
Definition f1 : dstate := Eval vm_compute in drun f0 lf.
Definition restf : book := [(2, mkOrder true 49975065 0); (4, mkOrder true 49975065 0)].
Definition f2 : dstate := Eval vm_compute in dexec f1 (env_ restf 109132497, m2).
Definition restf3 : book :=
  [(3, mkOrder false 90033744 0); (5, mkOrder false 90033744 0); (6, mkOrder true 55431690 0); (7, mkOrder true 55431690 0)].
Definition f3 : dstate := Eval vm_compute in dexec f2 (env_fee restf3, DSync 9).
Lemma f1_reach : dreach f1.
Proof.
  assert (E : drun f0 lf = f1) by (vm_compute; reflexivity). rewrite <- E.
  apply (ini_reach (2 * DEC) 6 6 2 1000 1000 200000000000000000). vm_compute. reflexivity.
Qed.
Theorem c109_refuted : exists st de m st1 o1 de2 st2 o2, dreach st /\ dstep de m st = Some (st1, o1) /\
  posted false (o_posts o1) = 200100000 /\ dex st1 = placed de /\ sum_out false 0 (map snd (dex st1)) = 0 /\
  lying false (map snd (dex st1)) = 0 /\ got0 de = 0 /\ got1 de = 109132497 /\
  dstep de2 (DSync 9) st1 = Some (st2, o2) /\
  200100000 * 10 ^ 18 / 109132497 = 1833551009100433210 /\ last (pst (pool st2)) = 916775496149643711 /\
  book_fee (base de2) (pool st1) 200100000 6 = 450225 /\ o_fee0 o2 = 225112.
Proof.
  exists f1, (env_ restf 109132497), m2, f2,
    (mkOut (OSwap 498695 3 1301 0 0)
      [mkPost false 100050000 516060572573574243000000000 515545027546028215000000000;
       mkPost true 49975065 2067339674900573723000000000 2065274400500073650000000000;
       mkPost false 100050000 574719015835033252000000000 574144870964069183000000000;
       mkPost true 49975065 2303707730654646817000000000 2301406324330316501000000000] 0 0),
    (env_fee restf3), f3,
    (mkOut ONone
      [mkPost false 90033744 640788627008323111000000000 640148478529793318000000000;
       mkPost true 55431690 1756572076594405084000000000 1754817259335070014000000000;
       mkPost false 90033744 713230923999657685000000000 712518405594063622000000000;
       mkPost true 55431690 1958660872040423735000000000 1956704167872551184000000000] 225112 0).
  split; [exact f1_reach|]. split; [vm_compute; reflexivity|]. do 6 (split; [reflexivity|]). split; [vm_compute; reflexivity|].
  split; [vm_compute; reflexivity|]. split; [reflexivity|]. split; [vm_compute; reflexivity|]. reflexivity.
Qed.
(** When the message was a swap of asset 1, its rounding leaves a unit of asset 0 with the contract, and the pair takes
    that unit for the trade: the 199.8 of asset 0 sold for 109.1 of asset 1 are never recorded, and the fee is taken on
    asset 1, of which nothing was sold. *)
Definition restd : book := [(2, mkOrder true 50050000 0); (4, mkOrder true 50050000 0)].
Definition fd : dstate := Eval vm_compute in dexec f1 (env_ restd 109132497, DSwap true 1000000 None None).
Definition fd2 : dstate := Eval vm_compute in dexec fd (env_fee restf3, DSync 9).
Theorem c109_dust_refuted : exists st de m st1 o1 de2 st2 o2, dreach st /\ dstep de m st = Some (st1, o1) /\
  posted false (o_posts o1) = 199800524 /\ dex st1 = placed de /\ lying false (map snd (dex st1)) = 0 /\
  got0 de = 0 /\ got1 de = 109132497 /\ delayed (ob st1) = Some (mkOrder true 0 1) /\
  dstep de2 (DSync 9) st1 = Some (st2, o2) /\ last (pst (pool st2)) = last (pst (pool st1)) /\
  o_fee0 o2 = 0 /\ 0 < o_fee1 o2.
Proof.
  exists f1, (env_ restd 109132497), (DSwap true 1000000 None None), fd.
  match eval vm_compute in (dstep (env_ restd 109132497) (DSwap true 1000000 None None) f1) with Some (_, ?o) => exists o end.
  exists (env_fee restf3), fd2.
  match eval vm_compute in (dstep (env_fee restf3) (DSync 9) fd) with Some (_, ?o) => exists o end.
  split; [exact f1_reach|]. split; [vm_compute; reflexivity|]. do 6 (split; [reflexivity|]). split; [vm_compute; reflexivity|].
  split; [reflexivity|]. split; [reflexivity|]. vm_compute. reflexivity.
Qed.
Example c109_example : delayed (ob f2) = Some (mkOrder false 0 109132498) /\ length (keys (ob f2)) = 2%nat /\ num (ob f1) = 2.
Proof. repeat split. Qed.

(** ** C112 *)

(** The fee of a filled order is lost when the book is switched off before the next settlement: a sync would have paid
    450225 of asset 0, the switch pays nothing, and so does every message after it. *)
Definition d8 : dstate := Eval vm_compute in dexec d4 (env_fee [], DUpdateOb 7 (switch false)).
Theorem c112_refuted : exists st de st1 o1 st2 o2, dreach st /\
  dstep de (DSync 9) st = Some (st1, o1) /\ o_fee0 o1 = 450225 /\
  dstep de (DUpdateOb 7 (switch false)) st = Some (st2, o2) /\ o_fee0 o2 = 0 /\
  forall de' m st3 o3, trading m -> dstep de' m st2 = Some (st3, o3) -> o_fee0 o3 = 0 /\ o_fee1 o3 = 0.
Proof.
  exists d4, (env_fee rest6), d6,
    (mkOut ONone [mkPost false 180044977 677096239054455289000000000 676419819235220069000000000;
      mkPost true 110863380 1857411210601488623000000000 1855555654946542081000000000] 450225 0), d8, (mkOut ONone [] 0 0).
  split; [exact d4_reach|]. split; [exact d6_step|]. split; [reflexivity|]. split; [vm_compute; reflexivity|]. split; [reflexivity|].
  intros de' m st3 o3 T H.
  assert (R : dreach d8).
  { apply (dreach_step d4 (env_fee []) (DUpdateOb 7 (switch false)) d8 (mkOut ONone [] 0 0) d4_reach). vm_compute. reflexivity. }
  destruct (c108_fee _ _ _ _ _ R T H) as (os & L & F). injection L as <-. exact F.
Qed.
Example c112_example : dstep (env_fee []) (DUpdateOb 7 (switch false)) d4 = Some (d8, mkOut ONone [] 0 0) /\
  r0 (pool d8) = 1800900000 /\ r1 (pool d8) = 899551175 + 99950130 + 109132497 /\ dex d8 = [].
Proof. split; [vm_compute; reflexivity|]. repeat split. Qed.

Print Assumptions c101_refuted.
Print Assumptions c102_refuted.
Print Assumptions c104_refuted.
Print Assumptions c105_refuted.
Print Assumptions c109_refuted.
Print Assumptions c109_dust_refuted.
Print Assumptions c112_refuted.
