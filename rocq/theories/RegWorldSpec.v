(** The factory and the incentives contract together: vocabulary of the properties. *)
From Coq Require Import ZArith Bool List.
From Verif Require Import Num Amap Bytes.
From Verif Require FactoryModel IncentivesModel IncentivesSpec.
From Verif Require Import RegWorldModel.
Import ListNotations.
Open Scope Z_scope.

(** The factory was just instantiated. *)
Definition fresh (f : FactoryModel.state) : Prop := exists o fee g l tr, FactoryModel.instantiate o fee g l tr = Some f.
(** [lp] is the LP token of a pair that the factory lists. *)
Definition listed (c : cfg) (f : FactoryModel.state) (lp : Z) : Prop :=
  exists assets a, FactoryModel.query_pair f assets = Some a /\ lp_of c a = lp.
(** [lp] shares in the emission of ASTRO. *)
Definition earns (lp : Z) (i : IncentivesModel.state) : Prop := In lp (map fst (IncentivesModel.active i)).
(** Messages that need a listed pair for [lp]. *)
Definition needs (lp : Z) (m : IncentivesModel.msg) : Prop :=
  match m with
  | IncentivesModel.Deposit l _ _ => l = lp
  | IncentivesModel.SetupPools l => In lp (map fst l)
  | IncentivesModel.Incentivize l _ => In lp (map fst l)
  | _ => False
  end.

(** Messages that the incentives contract handles. *)
Definition inc_msgs (c : cfg) (e : wenv) (m : msg) (w : world) : list (IncentivesModel.env * Z * IncentivesModel.msg) :=
  match m with
  | Fac m =>
      match logged m (fac w, known w, []) with
      | Some (_, _, n) => map (fun lp => (seen c e (fac w), fac_addr c, IncentivesModel.DeactivatePool lp)) (told c n)
      | None => []
      end
  | Inc sd m => [(seen c e (fac w), sd, m)]
  end.
Fixpoint inc_hist (c : cfg) (w : world) (l : list (wenv * msg)) : list (IncentivesModel.env * Z * IncentivesModel.msg) :=
  match l with
  | [] => []
  | (e, m) :: r =>
      match step c e m w with
      | Some (w', _) => inc_msgs c e m w ++ inc_hist c w' r
      | None => inc_hist c w r
      end
  end.
(** Messages that the factory handles. *)
Fixpoint fac_hist (c : cfg) (w : world) (l : list (wenv * msg)) : list FactoryModel.msg :=
  match l with
  | [] => []
  | (e, m) :: r =>
      match step c e m w with
      | Some (w', _) => (match m with Fac m => [m] | Inc _ _ => [] end) ++ fac_hist c w' r
      | None => fac_hist c w r
      end
  end.

(** If the message deregisters pairs: the factory is configured with this incentives contract, and ASTRO is being
    emitted (with at most 10^18 allocation points, so that no rate rounds to zero). *)
Definition effective (c : cfg) (m : msg) (w : world) : Prop :=
  match m with
  | Fac m => forall f k n, logged m (fac w, known w, []) = Some (f, k, n) -> n <> [] ->
      (forall g a, In (g, a) n -> g = Some (gen c)) /\
      0 < IncentivesModel.aps (inc w) /\ IncentivesModel.talloc (inc w) <= 10 ^ 18
  | Inc _ _ => True
  end.
Fixpoint all_effective (c : cfg) (w : world) (l : list (wenv * msg)) : Prop :=
  match l with [] => True | (e, m) :: r => effective c m w /\ all_effective c (exec c w (e, m)) r end.
(** Addresses at which a message creates pairs. *)
Fixpoint creates (m : FactoryModel.msg) : list Z :=
  match m with
  | FactoryModel.CreatePair _ _ _ addr nested =>
      addr :: (fix go l := match l with [] => [] | m' :: r => creates m' ++ go r end) nested
  | _ => []
  end.
