(** Deployed constant-product pairs moved to other code: to the pair with sale tax
    (/repo/contracts/pair_xyk_sale_tax/src/contract.rs:1416-1467) and to the pair in front of the ASTRO
    converter (/repo/contracts/pair_astro_converter/src/contract.rs:150-192, migration.rs).

    The accepted versions of "astroport-pair" all have a cw20 LP token; the code they are moved to works
    with an LP coin of the token factory. *)
From Coq Require Import ZArith Bool List String.
From Verif Require Import Num Ledger SnapshotModel.
From Verif Require XykModel SaleTaxModel ConverterModel.
Import ListNotations.
Open Scope Z_scope.

(** ** To the pair with sale tax *)

(** pair_xyk_sale_tax contract.rs:1422-1431 *)
Definition TAX_FROM : list string := ["1.3.0"; "1.3.1"; "1.3.3"; "1.4.0"; "1.5.0"; "1.5.1"]%string.
(** contract.rs:1434-1452: the fields of the old configuration are copied; a fee share is not. [n0], [n1]:
    whether the pool assets are coins. *)
Definition migrate_tax (name ver : string) (n0 n1 : bool) (b : XykModel.state) (c : SaleTaxModel.configs) (admin : Z)
  : option SaleTaxModel.state :=
  guard String.eqb name "astroport-pair";
  guard existsb (String.eqb ver) TAX_FROM;
  guard SaleTaxModel.check n0 n1 c;
  Some (SaleTaxModel.mkState (XykModel.set_fshare b None) n0 n1 (SaleTaxModel.cfg0 c) (SaleTaxModel.cfg1 c) admin).

(** The coin of denom [liquidity_token]: its supply and what an account has of it. A migrated pair
    ([coin] = false) has the address of a cw20 contract there; no coin has that name. *)
Definition lp_supply_seen (coin : bool) (s : SaleTaxModel.state) : Z :=
  if coin then XykModel.supply (SaleTaxModel.base s) else 0.
Definition lp_coins (coin : bool) (s : SaleTaxModel.state) (who : Z) : Z :=
  if coin then get (XykModel.lp (SaleTaxModel.base s)) who else 0.
Definition see (coin : bool) (s : SaleTaxModel.state) : SaleTaxModel.state :=
  let b := SaleTaxModel.base s in
  SaleTaxModel.with_base s
    (XykModel.mkState (XykModel.r0 b) (XykModel.r1 b) (lp_supply_seen coin s) (XykModel.lp b) (XykModel.c0 b) (XykModel.c1 b)
       (XykModel.last_t b) (XykModel.fshare b) (XykModel.track b) (XykModel.h0 b) (XykModel.h1 b)).
(** contract.rs:219-266 [execute] on a pair whose LP token is a coin, or a cw20 token ([coin] = false):
    deposits end with a token factory mint (446-486), which exists only for the denoms the contract created;
    withdrawals need LP coins attached (498-504; the cw20 hook 276-318 has only swaps). The cw20 LP token
    itself can still be passed on. *)
Definition tstep (coin : bool) (e : XykModel.env) (m : SaleTaxModel.msg) (s : SaleTaxModel.state)
  : option (SaleTaxModel.state * SaleTaxModel.out) :=
  match m with
  | SaleTaxModel.Provide _ _ _ _ _ _ =>
      do r <- SaleTaxModel.step e m (see coin s); guard coin; Some r
  | SaleTaxModel.Withdraw who amount _ =>
      guard (0 <? amount) && (amount <=? lp_coins coin s who); SaleTaxModel.step e m s
  | _ => SaleTaxModel.step e m s
  end.
Definition texec (coin : bool) (s : SaleTaxModel.state) (em : XykModel.env * SaleTaxModel.msg) : SaleTaxModel.state :=
  match tstep coin (fst em) (snd em) s with Some (s', _) => s' | None => s end.
Definition trun (coin : bool) (s : SaleTaxModel.state) (l : list (XykModel.env * SaleTaxModel.msg)) : SaleTaxModel.state :=
  fold_left (texec coin) l s.

(** ** To the pair in front of the converter *)

(** pair_astro_converter contract.rs:155-166 *)
Definition CONV_FROM : list string := ["1.0.1"; "1.1.0"; "1.3.0"; "1.3.3"]%string.
(** [h_old], [h_new]: what the pair holds of the two ASTRO assets, its former pools; [shares]: the cw20 LP
    tokens still in circulation. *)
Record cpair := mkC { pr : ConverterModel.pair; h_old : Z; h_new : Z; shares : Z; kv : ConverterModel.state }.
(** contract.rs:152-188 [migrate] with migration.rs:26-69: [l]: the pair's assets; [x], [y] its pools of old and
    new ASTRO *)
Definition migrate_conv (name ver : string) (c : ConverterModel.config) (l : list ConverterModel.asset)
    (x y n : Z) (k : ConverterModel.state) : option cpair :=
  guard String.eqb name "astroport-pair";
  guard existsb (String.eqb ver) CONV_FROM;
  do p <- ConverterModel.pair_of c l;
  Some (mkC p x y n k).
(** A message to the migrated pair: the attached coins (or the cw20 tokens sent) arrive first, then the pair
    passes the offered amount on to the converter. The bank and the cw20 contract refuse to send more than
    the pair has. *)
Definition cstep (c : ConverterModel.config) (self who : Z) (f : list (Z * Z)) (m : ConverterModel.pmsg) (s : cpair)
  : option (cpair * ConverterModel.out) :=
  guard forallb (fun p => 0 <? snd p) f;
  do '(k, o) <- ConverterModel.pair_step c (pr s) self who f m (kv s);
  let came := match m, ConverterModel.c_old c with
              | ConverterModel.PSend _ v _, ConverterModel.Token _ => v
              | _, ConverterModel.Coin d => ConverterModel.sent f d
              | _, _ => 0
              end in
  guard ConverterModel.taken o <=? h_old s + came;
  Some (mkC (pr s) (h_old s + came - ConverterModel.taken o) (h_new s + ConverterModel.sent f (ConverterModel.c_new c)) (shares s) k, o).
Definition cexec (c : ConverterModel.config) (self : Z) (s : cpair) (e : Z * list (Z * Z) * ConverterModel.pmsg) : cpair :=
  match cstep c self (fst (fst e)) (snd (fst e)) (snd e) s with Some (s', _) => s' | None => s end.
Definition crun (c : ConverterModel.config) (self : Z) (s : cpair) (h : list (Z * list (Z * Z) * ConverterModel.pmsg)) : cpair :=
  fold_left (cexec c self) h s.
