# Formal model of astroport-core: design

## Conventions

* Rocq / Coq 8.16.1, standard library only. All sources are in `rocq/theories`, namespace `Verif`.
* Amounts, times, heights, decimals are `Z`. Machine ranges are explicit: every `Uint128`, `Uint256`, `u64`
  operation that can overflow, underflow or divide by zero is a partial function in `Num.v` returning `option`
  (`None` = the transaction reverts, whether by `Err(..)` or by panic; the two are not distinguished because
  both discard all state changes of the transaction).
* `Decimal`/`Decimal256` are their atomics (18 digits) as `Z`.
* A contract is `step : env -> msg -> state -> option state` (or with outputs). A history is a list of
  (env, sender, message); a failed message leaves the state unchanged. Properties about histories are proved by
  induction over such lists, with no bound.
* For each contract `Foo`: `FooModel.v` (definitions, with `/repo` citations and simplifications noted),
  `FooProofs.v` (lemmas), `FooProps.v` (the theorems named in MANIFEST.json, each closed with `exact`, each with
  an `Example` showing a concrete non-trivial instance, and `Print Assumptions`).
* Specifications are stated with plain arithmetic / list functions, not with the model's helpers, wherever the
  claim is not itself about agreement of two model functions.
* Theorem names: `cNN_...` proves property CNN; `_partial` = something is missing (said in MANIFEST note);
  `_refuted` = the intuitive full statement is false of the code, with a concrete witness.

## Trusted base

* Coq's kernel (with `vm_compute` in witness proofs); the gate checks the compiled files again with `coqchk`.
* `Print Assumptions`: every theorem is closed under the global context, see "Assumptions" at the end. The
  development adds no axiom and uses none of the standard library's.
* The fidelity of the hand-written model to the Rust text. Each definition cites file and lines of `/repo`;
  simplifications are stated in the comments at the definition or at the head of the file.
* The behaviour assumed of things outside `/repo`: cw-storage-plus snapshots (SnapshotModel.v), cw20-base
  allowances (XTokenModel.v), cw1-whitelist (WhitelistModel.v), the Cosmos SDK fee-grant module
  (FeeGranterModel.v), cosmwasm-std `Uint*`/`Decimal*` arithmetic (Num.v: floor rounding, failure on overflow),
  token factory mint/burn order (TrackerModel.v), the Duality order book (DualityModel.v: cancelling a missing order
  fails, a cancellation returns unsold part and proceeds), bank transfers (move exactly the amount, fail when not covered,
  fail for zero coins where a model says so).

### Modelled code

| Model file | Code | Not modelled |
|----|----|----|
| Num, Ledger, Amap, Hist, Bytes | arithmetic, balances, maps, histories, key bytes | – |
| XykModel | contracts/pair: provide, withdraw, swap, config, accumulators, queries, tracked balances | asset validation, auto-staking (StakeWorldModel) |
| SaleTaxModel | contracts/pair_xyk_sale_tax | as XykModel |
| StableMath, StableModel, StablePair | contracts/pair_stable: D and y iterations, provide, withdraw, swap, ramps, accumulators, queries | – (`instantiate` admits exactly two assets) |
| PclMath, PclModel | packages/astroport_pcl_common and contracts/pair_concentrated: parameters, ramps, Newton iterations, provide, withdraw, swap, repegging, oracle, fee share, tracked balances, queries | `pair_concentrated_inj` (commented out of the workspace in /repo/Cargo.toml: it is not compiled) |
| AttachModel | packages/astroport/src/asset.rs `assert_coins_properly_sent`, `assert_sent_native_token_balance`; entry points of the pairs up to the amounts the pair models start from | address validation, the CW20 contracts |
| DualityModel | contracts/pair_concentrated_duality: deposits, withdrawals, swaps, syncs, configuration, order construction and settlement of fills, reply, Share/Simulation/SimulateProvide queries | the Duality module itself (assumed as in the head of the file), other queries |
| ObMigrateModel | contracts/pair_concentrated_duality/src/migrate.rs and a migrated pair with a CW20 asset while the book is off | the book switched on with a CW20 asset (the code panics) |
| MakerMigrateModel | contracts/tokenomics/maker migrate entry point, migration.rs, Config, Balances and Bridges queries | reading old storage (assumed as the listed versions wrote it), the order of the bridges |
| VestMigrateModel, FactMigrateModel, XykMigrateModel, MiscMigrateModel | migrate entry points of vesting (with the converter), factory, sale-tax pair, converter pair, tracker, oracle; the accepted and written cw2 versions of all 17 codes | reading old storage (assumed as the listed versions wrote it), pre-release parts of version numbers |
| ObservationModel, BufferModel | packages/circular_buffer, packages/astroport observation | – |
| TransmuterModel | contracts/pair_transmuter | – |
| XastroPairModel, ConverterModel | contracts/pair_xastro, pair_astro_converter, periphery/astro_converter(_neutron) | IBC acknowledgement plumbing |
| FactoryModel | contracts/factory: all execute messages, reply, queries | – |
| RouterModel | contracts/router with arbitrary (also re-entrant) pairs | – |
| StakingModel, XTokenModel, TrackerModel | tokenomics/staking, xastro_token, periphery/tokenfactory_tracker | marketing, pagination of allowances |
| VestingModel | tokenomics/vesting | – |
| VestedModel | tokenomics/incentives and tokenomics/vesting together | replacement of the vesting contract in the configuration |
| IncentivesModel | tokenomics/incentives: every execute message, pending-rewards query | ownership (OwnershipModel), queries of IncQueryModel |
| StakeWorldModel | contracts/pair and tokenomics/incentives together, deposits with auto_stake | CW20 LP tokens, several pairs at once |
| RegWorldModel | contracts/factory and tokenomics/incentives together: deregistration, checks of LP tokens | pairs other than their address, assets and LP token |
| RouteWorldModel | contracts/router and contracts/pair together: SwapOperations, SimulateSwapOperations | other pair types (MixRouteModel), tokens with hooks |
| MixRouteModel | contracts/router with contracts/pair, pair_stable, pair_concentrated, pair_xyk_sale_tax, pair_transmuter together | xASTRO, converter and order-book pairs on a route, tokens with hooks |
| MakerPoolModel | tokenomics/maker and contracts/pair together: collections, pair messages, opening and deregistration of pairs | other pair types |
| FacPairModel | contracts/factory and contracts/pair together, querier `query_fee_info` | other pair types (their fee assumptions only) |
| IncQueryModel | tokenomics/incentives queries: fee, schedules, stakers, pools, blocked tokens, pending rewards as listed | decoding of keys and asset strings; config and active-pools queries (they return stored records) |
| IncInfoModel | tokenomics/incentives queries RewardInfo and PoolInfo | – |
| MakerModel | tokenomics/maker: all execute messages, reply | – |
| OracleModel, RegistryModel, FeeGranterModel, WhitelistModel, OwnershipModel | periphery/oracle, native_coin_registry, fee_granter, contracts/whitelist, packages/astroport/common.rs | – |

Nowhere modelled: JSON (de)serialisation, gas, events and attributes, address validation (except the character
check of the factory), the wasm VM, auction and order-book modules of
other chains.

## Per property

| Id | Modelled code | How it is proved |
|----|----|----|
| C01 C04 C08 | `compute_swap`, `swap`, `calculate_maker_fee` of contracts/pair with exact Decimal256 rounding | division lemmas; witness for the degenerate region by `vm_compute` |
| C02 C03 C05 C58 C59 | pair state machine (provide/withdraw/swap/donate/transfer) | cross-multiplied invariant, induction over histories |
| C06 C07 | `assert_max_spread`, `assert_slippage_tolerance` | unfolding to inequalities over floors |
| C09 | `query_simulation`, `compute_offer_amount` | equality; counterexample for reverse simulation |
| C10 | `accumulate_prices` | induction over histories; modular sums against a separately written integral |
| C11 C41 C42 C44 C95 | cw-storage-plus `SnapshotMap` (EveryBlock), callers on top | refinement against a plain height-indexed history |
| C12 C13 C14 C60 | staking enter/leave | cross-multiplied invariant over histories |
| C15–C18 | vesting contract, all schedules | interpolation lemmas; sum invariants over an association list of accounts |
| C19 | ownership helper | trace invariant: owner changes imply a matching earlier proposal |
| C20–C23 | factory registry, `pair_key` on byte strings, pagination on a sorted map | permutation invariance of sorting; invariants; collision witness |
| C24 C25 C61 C62 | router execute/reply with arbitrary pair behaviour | message-queue semantics, induction over hops; re-entrancy witness |
| C26 C27 C53 C54 | transmuter | invariant over histories on lists of assets |
| C28–C30 C63–C67 | stable pair | interpolation; error analysis of the Newton iterations against the exact curve (StableAcc); state invariants; witnesses |
| C31–C33 | PCL parameters, ramps, fee | invariants over histories; overflow witness |
| C34–C37 C68 C69 C72 | incentives pool/user accounting | sums over users; telescoping index invariant; exact refinement of each user's claim against an integral of the emission (IncentivesSpec, IncentivesExact); exit liveness from an invariant that every index a user still needs is on record and not smaller than the user's (IncentivesExit) |
| C70 C71 C73 C74 C77 | incentives emission, limits, roles | budget invariant over active pools; witnesses |
| C38 C39 C55–C57 | circular buffer, observation log and queries | refinement to the list of pushes; binary search loop invariant |
| C40 | oracle | modular arithmetic, end-to-end with C10 |
| C43 | xASTRO cw20 | sum over accounts |
| C45–C47 C75 C76 C78 C79 | maker | conservation over arbitrary quotes and routes; invariants over histories |
| C48 C80 | coin registry | sorted-map paging; permanence by induction |
| C49 C86 C87 | sale-tax pair | simulation by the plain pair fed with offers after tax |
| C50 C85 | xASTRO pair in front of staking | arithmetic |
| C51 C83 | converter and its pair | invariants over histories |
| C52 C81 C82 | fee granter with the chain's allowances | invariants over histories; permanent-stuck invariant |
| C84 | whitelist | induction over histories |
| C88 C90 C92 C97 C99 C100 | PCL execution and queries | inversion of each message; equality of query and execution |
| C89 C91 C94 C96 C98 | PCL price state | invariants over histories; accuracy of the half-life power; witnesses |
| C101 C105 C107 C112 | order-book pair: keys on record against the orders in the book, settlement | inversion of each message; permanent-stuck invariant; witnesses |
| C102 C103 | order construction on the curve, conversion to order prices | induction over the orders with an error bound per order; witness |
| C104 C108 C109 | cumulative trades, their price and fee, trades made while placing | exact formulas against separately written sums of fills; witnesses |
| C106 C110 C111 C113 | configuration, price state, queries, disabled book | invariants over histories; equality with the concentrated pair |
| C114 | listed assets, attached coins and pulled tokens of a message, before the pair models take over | inversion for each pair kind, permutations |
| C115 | deposit and withdrawal of the concentrated pair in sequence | composition of C90; witness by `vm_compute` |
| C116 | `newton_d`, `f`, `df_dd` against the exact curve over Q (PclCurveSpec) | monotonicity of the exact curve; relative-error calculus for the rounded evaluations (PclApprox); the last Newton step bounds the residual, the slope bounds the distance (PclAccuracy) |
| C117 | ownership and configuration messages of stable, concentrated and order-book pairs, with the factory owner changing in between | one generic state machine (PairGovSpec) refined by the three models; witness |
| C118 | routes of the maker: `target`, `swap_assets`, `bridge` | induction over the rounds of swaps; circular routes never end; witnesses |
| C119, C65 (positive half) | sequences of messages of the stable pair against the exact curve | a swap leaves the pool above the computed invariant, the computed invariant is within 7 units of the exact one; induction over the history with scaled curve inequalities (StableTradeProps, StableValueProps) |
| C120 | incentives and vesting contracts together (VestedModel) | interleaved histories projected to the messages the incentives contract served; budget invariant against the vesting curve; witness |
| C121 | `newton_y`, `f`, `df_dx`, `compute_swap` against the exact curve over Q | derivative bound for the rounded `df_dx` (PclApproxY), slopes in the reserve (PclAccuracyY), existence by bisection over Q (PclCurveExists) |
| C122 | migration of a concentrated pair to the order-book code, the migrated pair with a CW20 asset while the book is off (ObMigrateModel) | simulation over message sequences (dropping tracked balances and observations commutes with every message); inversion; witness |
| C123 | vesting `migrate` with the converter it sends to, transfers and converter users in between (VestMigrateModel) | histories with migrations projected to histories of the vesting model; inversion of the converter's message |
| C124 | `migrate_pair_configs` over byte-ordered keys (FactMigrateModel) | induction over the configurations with the keys still to come; collision by the one renamed key |
| C125 C126 | migrations of constant-product pairs to sale tax and converter (XykMigrateModel) | sale-tax steps refine plain-pair steps on the migrated pool; lock by inversion; frozen holdings by induction |
| C127 | tracker with heights before and seconds after the migration (MiscMigrateModel) | histories projected to one stamped history of TrackerModel, then C41; witness |
| C128 C129 | oracle migration; version checks of all codes | inversion; exhaustive over the codes, for all strings |
| C130 | IncQueryModel: the fee query beside incentivize of IncentivesModel | cases on whether the updated pool has the reward; invariant that the reward covers the time up to the end of the incentive, kept by every message but its removal |
| C131 | IncQueryModel: rows from the updated reward and the stored schedules | additivity of the emission over an update; invariants on ends of periods (week boundaries, at most 26 weeks ahead); induction over pages |
| C132 | IncQueryModel: range, exclusive lower bound, take | generic paging lemma over sorted lists; permutation of the stored map; refuted limit with a witness |
| C133 | IncQueryModel: consecutive group_by of the entries behind a claim | induction over the list; refuted uniqueness with a witness |
| C134 | XykModel, SaleTaxModel (withdrawals, accumulators) | invariant that reserves fit 128 bits; success by evaluation of every guard; frozen pool by induction over later messages; witness |
| C135 C136 | pair and incentives contract composed, `provide_liquidity` with auto_stake | projection of a joint history onto each contract; equality of the two LP ledgers by induction; C69 and C134 chained |
| C137 | factory and incentives contract composed (RegWorldModel), adversarial answers of LP token minters | projection onto each contract; invariant that earning pools are listed; witnesses for the exceptions |
| C138 | router and constant-product pairs composed (RouteWorldModel) | induction over the hops: pairs still to be visited are as at the start, the router holds only the current asset; success hop by hop; refinement of RouterModel; witnesses |
| C139 | factory and constant-product pairs composed (FacPairModel) | every pair's state lies in its own history, with fees taken from the factory's answers, by induction over joint histories; pair types are never forgotten; witness |
| C140 | router composed with pairs of five kinds (MixRouteModel) | as C138, from the exactness of every kind's simulation; execution as an equivalence: by induction over the hops, with what each kind of pair pays out bounded by what it holds; five-hop example with one pair of each kind |
| C141 | maker and constant-product pairs composed (MakerPoolModel) | every collection is one of MakerModel with the quotes read off a tape; inductive story of the sales; price bound from the spread check; invariant over joint histories; sandwich witness |
| C143 | StableModel, withdrawals and accumulators | invariant that reserves fit 128 bits; success by evaluation of every guard; frozen pool by induction over later messages; witness |
| C144 | StableMath, StableModel | convergence of both iterations with the program's roundings: the product of the equation's value and its slope falls by 3.99 in every round that does not stop (StableConv to StableConv5), so that 63 rounds suffice from the starting point; a whole token paid in outweighs all roundings (offer_covers), hence no subtraction fails; C143 |
| C142 | maker migrations and queries (MakerMigrateModel) | inversion of the migration; invariants of the maker carried over histories of messages and migrations; witnesses |
| C145 | StableMath, StableModel | the exact curve scales with the reserves (grow_gam); the errors of both computed invariants (C63) turn this into a bound on the shares; success by evaluation of every guard, with C144's convergence and the accumulators at the reserves a deposit computes with |
| C146 | StableModel, query_reverse_simulation | StableConv6: the iteration also ends for a reserve cut to half, its result is at most 10^-10 of a token below the exact root, and a whole token asked for outweighs all roundings (ask_covers); both computed reserves compared with the one exact curve (C63), which is symmetric and monotone in the reserves; exact treatment of commission and of the roundings to each precision; witness |
| C147 | VestingModel | induction over the accounts of one registration and over histories; evaluation for success; witness |
| C148 | XykModel | the amount before commission is the exact one up to one unit below and 10^-18 above (swap_core); linear combination of these bounds for the three swaps; witness |
| C149 | stable pair: two offers compared | upper error bound at the larger offer, lower one at the smaller, monotone exact curve; witness |
| C150 | sale-tax pair: two offers, an offer in pieces | net offers are monotone, then C148; induction over the swaps with rounding of the tax |
| C151 | IncInfoModel over IncentivesModel | the update leaves the pool at the current time, so it repeats; case analysis of the three messages, induction over the claimed pools; invariant of histories; witness |
| C152 | StakingModel | the rate of C12 at every message of the history, summed over the messages of one account; witness |
| C153 | XykModel | reserves per LP token at every message (C02), summed over the messages of one account; error of the share ratio |

Not expressible: nothing so far. A property that the code does not have is kept: its statement says so, the
theorem with suffix `_refuted` is the witness, and where possible a second theorem proves the part that holds.

## Findings

Behaviour of the pinned code that the proofs brought out (each has a witness theorem or is noted in the model).

Stable pair
* Outputs are rounded up for the trader and the commission on a few units is zero: single-unit round trips gain (`c65_round_trip_refuted`).
* A provide's price accumulation counts native deposits as if present during the past period (`c66_past_price_fixed_refuted`).
* A one-sided deposit followed by a withdrawal exchanges assets without commission (`c67_commission_unavoidable_refuted`).
* A dust pool can be drained of one asset by a swap (`c29_reserves_positive_refuted`).
* `ensure_min_assets_to_receive` with duplicate entries compares the wrong asset (also constant product).

Constant product
* Product, reserves: corner cases of tiny reserves (`c01_product_always_kept_refuted`, `c05_swap_keeps_reserves_refuted`).
* Reverse simulation under-estimates by up to one unit (`c09_reverse_quote_suffices_refuted`); donations re-price the past period (`c10_donation_rewrites_past_refuted`).

Concentrated pair
* Updating `mid_fee` alone can exceed `out_fee` (`c31_fee_order_refuted`); the rate can be `mid_fee` − 1e-18 (`c32_refuted`).
* `fee_gamma = 0` is accepted, then balanced deposits revert (`c32_zero_gamma_refuted`).
* A promotion ending in the far future overflows and blocks the pair, `StopChangingAmpGamma` included (`c33_refuted`).
* `min_assets_to_receive` of WithdrawLiquidity is ignored (`c97_ignored`, `c97_refuted`).
* A reverse simulation quote can buy less than asked (`c92_reverse_refuted`).
* A zero-priced observation stops all later swaps for ever (`c93_refuted`, `c93_for_ever`).
* Trades below 1e-5 skip the loss check; Newton tolerance then gives round-trip gains of more than 1800 times the offer (`c94_refuted`).
* Lowering the amplification can put the LP price below the recorded value and below one, after which normal swaps and deposits revert (`c98_refuted`, `c89_ramp_refuted`).
* The half-life exponent is truncated to 32 bits; the weight theorem carries that bound.

Factory, router
* `pair_key` concatenation collides for denoms that are prefixes of others (`c21_distinct_sets_distinct_keys_refuted`).
* Re-entrant creation is safe unless the owner deregisters in between (`c20_reentrant_deregister_refuted`).
* `UpdateTrackerConfig` ignores the token factory address when a configuration exists.
* The router's single reply record lets a re-entrant call bypass `minimum_receive` (`c24_reentrant_refuted`); multi-hop routes switch off the spread check (`c62_no_spread_check`).

Transmuter, xASTRO pair, converter, sale tax
* Coins of a pool asset attached but not listed are kept without credit (`c53_every_sent_coin_is_credited_refuted`).
* `predict_stake` looks only at the deposit being zero (`c50_refuted`); reverse simulation floors (`c85_refuted`).
* Extra coins attached to converter messages stay; after the converter pair's migration old XYK reserves are out of reach.
* The sale-tax pair ignores minimum amounts (`c86_ignored`, `c86_refuted`).

Incentives
* Removing a reward pays orphaned rewards twice (`c37_once_refuted`); with bypassed schedules stale entries are stretched beyond the funds (`c37_bypass_refuted`).
* Two removals in one second overwrite each other's final index (`c72_removal_refuted`); a staker can be locked for ever (`c69_exit_refuted`).
* Blocking both tokens of one active pool in one message reduces the total allocation twice (`c70_refuted`, `c73_refuted`).
* `DeactivatePool` does nothing while the pool's emission is zero (`c74_deactivate_refuted`).
* The external reward limit can be passed through ASTRO (`c71_refuted`).
* `block_ts % EPOCHS_START` is wrong from 2·EPOCHS_START on (`c36_available_refuted`).

Maker, staking, tracker, vesting, periphery
* Dev share is validated independently of the governance percentage (`c46_refuted`); a pre-upgrade portion of floor(A/B)=0 is never released (`c45_released_refuted`).
* The reply sends the whole balance of the dev asset (`c78_refuted`); limits are not respected for assets on another asset's route (`c79_refuted`); limit 0 means none.
* Seizing ASTRO while a reward is pending makes collections revert (`c76_reserve_refuted`).
* Tracker supply lags after burns (`c42_supply_is_sum_refuted`); same-block supply and balances differ (`c44_same_block_refuted`).
* Vesting: the schedule limit can be exceeded.
* Fee granter: an exhausted allowance leaves a record that blocks the grantee for ever (`c82_stuck`, `c82_refuted`); bypassed grants are not covered (`c81_bypass_refuted`).
* Native coin registry: coins sent with the owner's Add/Remove are not returned.

Order-book pair (pair_concentrated_duality)
* A message that cancels the recorded orders and places none keeps their keys; every later message, the owner's disabling included, then reverts for ever (`c101_refuted`, `c101_for_ever`). An ordinary large withdrawal suffices.
* Fills of both sides with equal amounts of one asset hit `unreachable!()`: withdrawals panic until more is filled (`c105_tie`, `c105_refuted`).
* The price recorded when both sides were filled is a ratio of unrelated amounts (`c104_two_sides`, `c104_refuted`).
* Orders taken while being placed are recorded with the size of one order (`c109_refuted`); rounding can make the pair record the wrong asset (`c109_dust_refuted`).
* `price_to_duality_notation` cuts off digits when the asset sold has more decimals: orders at half of the price (`c102_refuted`).
* Fees of filled orders are lost when the book is disabled (`c112_refuted`).

### Concentrated pair: D solver
* `newton_d` stops as soon as a step is at most 1e-5 in absolute terms. In small, skewed pools the first step already is, and the reported D is a fraction of the exact one (`c116_refuted`). Shares are minted from differences of D, so a deposit of twice the reserves followed by a withdrawal pays +40% of both assets (`c115_refuted`). Outside of that corner the reported D is proved accurate (`c116_accurate`).

Ownership and routes
* While a pair has no owner of its own, a proposal made by a former factory owner stays claimable after the factory has changed hands; the new factory owner is then locked out of the pair (`c117_former_owner_refuted`).
* The maker accepts bridges forming a circle, after which the assets on it cannot be collected (`c118_circular`, `c118_refuted`).
* The default bridge is preferred to a direct pool: a dead pool of an asset and the default bridge asset, which anybody may create in a permissionless factory, blocks collecting that asset until the owner registers a bridge (`c118_default_bridge`).
* ASTRO rewards are claimed from vesting in the same message that returns LP tokens: when the vesting account is short, the LP tokens of the stakers are locked (`c120_refuted`, `c120_short`).

Migrations
* The migration of a concentrated pair to the order-book code does not check that the assets are native. With a CW20 asset, `Swap` messages naming it are not paid for: only the loss check of `update_price` stands in the way, and that check is off while amplification and gamma are changing (`c122_unpaid`, `c122_guarded`, `c122_refuted`). Deposits panic (`c122_no_deposit`).
* The migration from the constant-product pair to the sale-tax pair accepts only versions with a CW20 LP token, while the new code reads supply and burns as a coin: trading goes on, but liquidity can be neither added nor withdrawn any more (`c125_locked`, `c125_refuted`).
* After the migration to the converter pair the former reserves stay in the pair for ever (`c126_frozen`, `c126_no_liquidity`).
* The factory's migration reverts as a whole if both `concentrated` and a custom `concentrated` type are configured (`c124_collision`).
* The vesting migration fails while the vesting contract holds nothing or the converter is short (`c123_when`).
* A tracker switched to seconds answers times before the switch with the balance at the switch (`c127_earlier`, `c127_refuted`): voting power bought after a proposal's start counts if the switch happened in between.
* PoolStakers ignores limits below 50 because the limit is the maximum, not the minimum, of the request and the page limit (`c132_limit_refuted`); PendingRewards can list a token twice because only neighbouring entries are added up (`c133_once_refuted`). Amounts are right in both.
* A constant-product pool with an extreme reserve ratio that lies idle is frozen for deposits, withdrawals and swaps as soon as elapsed seconds x 10^6 x ratio reaches 2^128, because `multiply_ratio` in `accumulate_prices` panics although the accumulators themselves wrap (`c134_frozen`, `c134_refuted`: 10^6 against 10^33 units, four days). A donation to the scarce side thaws it (`meme_gift`).
* A pair deregistered while the emission of ASTRO is paused, or while the factory does not name the incentives contract, keeps its allocation points and earns ASTRO when the emission resumes, because `DeactivatePool` does nothing unless the pool is active at that moment (`c137_paused_refuted`, `c137_untold_refuted`).
* SimulateSwapOperations asks every pair in its present state, so a route that visits a pair twice delivers less than announced if both visits go the same way (`c138_twice_refuted`), more if they go there and back (`rw_back`). Coins left at the router are handed to whoever next routes through that asset (`c138_stray_refuted`).
* Belief price and spread limit of a swap are compared with the output before commission, and Swap has no minimum to receive: when the fee of the pair type is raised between quote and execution (up to 100%), the trade goes through and pays less than announced, down to nothing (`c139_quote_protected_refuted`). Only the factory's owner can do it; going through the router with a minimum protects.
* The maker's swaps carry no belief price and its maximal spread is measured against the pair's price of the moment, while anybody may call Collect: selling the fee token first, collecting, and buying back in one block earns the caller more than half of what the maker should have got, with the default spread of 5% (`c141_fair_price_refuted`). The pair's own checks are respected (`c141_price`).
* Withdrawals, swaps and cw20 deposits of a stable pair price one whole token of each asset first. In an 18-decimals pool with one nearly empty reserve the computed new reserve exceeds the old one by rounding, the subtraction fails, and the pool is frozen until a gift, a new ramp or a deposit of native coins (`c143_refuted`, `c143_frozen`, `dust_gift`).
* From versions other than 1.2.0 the maker's migration accepts second receiver and cooldown, even outside their limits, and ignores them (`c142_obeyed_refuted`). The Config query does not tell the cooldown: two makers answer alike and one of them refuses to collect (`c142_config_refuted`).
* The stable pair's reverse simulation rounds the offer down twice: swapping exactly the named offer may return one unit less than asked (`c146_exact_refuted`), which matters to callers who set the asked amount as their minimum. Two units more suffice up to the bound of `c146_suffices`.
* The limit of eight vesting schedules per user (contract.rs:26) only refuses accounts that already have eight: the check adds one for the new schedules whatever their number and is skipped for new accounts, so one registration by the owner can give an account any number (`c147_limit_refuted`).
* In the constant-product pair a large swap done in two parts can return more than at once, since the commission of the first part stays in the pool (`c148_split_refuted`); by no more than that commission's share (`c148_split`).
- C149: a stable swap is not exactly monotone in the offer: in a pool of 1 and 10 tokens of 18 decimals, offering 422837347680806002 instead of 422837347680806001 units returns about 70000 units less (7*10^-14 of a token), as the iteration stops one step earlier. Harmless in size; bounded by c149_more.
- C150: the sale tax rounds down on every swap, so pieces of less than 1/rate units are untaxed (38 units in two pieces at 5 per cent). Of no weight beside gas for assets of usual decimals; real for assets of few decimals.
- C151: PoolInfo answers from storage and lists a reward whose period is over until the pool is next touched; RewardInfo does not.
- C152: staking 3 and then 10^9 units with 1999 ASTRO held against 1001 xASTRO mints 250875 xASTRO units less than staking the sum at once, as the rounding of the first part goes to the holders. Without weight once the contract holds more than dust.

## Tests of the theorems

`seeded/LOG.jsonl` records each deliberate bug put into a scratch copy of the model: the definition, the edit, the
claim it breaks and the theorems whose proofs then fail. A theorem counts as failed when its own proof or a lemma
it rests on no longer checks (`how_counted`). Entries with an empty list carry a note: either the edit keeps every
stated property true, or a theorem was added or tightened afterwards (`theorems_tightened`).

## Assumptions

`Print Assumptions` stands after each theorem in the sources. For all of the following it prints
"Closed under the global context".

* `AttachProps.v`: `c114_provide`, `c114_accepted`, `c114_order`, `c114_stable_shares`, `c114_swap`, `c114_swap_accepted`, `c114_withdraw`
* `BufferProps.v`: `c38_last_values`, `c38_read_last`, `c38_read_out_of_range`, `c38_read_all`, `c38_manager_reuse`
* `ConverterProps.v`: `c51_exact`, `c51_history`, `c51_open`, `c51_open_cw20`, `c51_burn`, `c51_burn_open`, `c83_swap`, `c83_quotes`, `c83_open`
* `DualityOrderProps.v`: `c102_orders`, `c109_recorded`
* `DualityProps.v`: `c107_settlement`, `c107_withdraw`, `c101_in_step`, `c101_for_ever`, `c105_tie`, `c108_fee`, `c108_bound`, `c104_one_side`, `c104_two_sides`, `c103_exported`, `c106_bounds`, `c106_authority`, `c112_disable`, `c111_share`, `c111_provide`, `c111_simulation`, `c113_plain`, `c113_stays`, `c110_sync`, `c110_healthy`
* `DualityWitnessProps.v`: `c101_refuted`, `c102_refuted`, `c104_refuted`, `c105_refuted`, `c109_refuted`, `c109_dust_refuted`, `c112_refuted`
* `FacPairProps.v`: `c139_fees`, `c139_history`, `c139_listed`, `c139_swap`, `c139_isolated`, `c139_terms_only`, `c139_deregistered`, `c139_fee_share`, `c139_fee_share_set`, `c139_other_kinds`, `c139_quote_protected_refuted`
* `FactMigrateProps.v`: `c124_kept`, `c124_collision`, `c124_later`, `c124_once`
* `FactoryProps.v`: `c20_order_independent`, `c20_registered_not_created_again`, `c20_stays_registered`, `c20_created_is_registered`, `c20_deregister_exact`, `c20_deregister_succeeds`, `c20_reentrant_deregister_refuted`, `c21_prefix_free_keys`, `c21_distinct_sets_distinct_keys_refuted`, `c22_paging`, `c23_fees_bounded`, `c23_reported_fees_bounded`, `c23_only_owner`, `c23_create_permission`, `c23_update_exact`, `c23_config_exact`, `c23_owner_succeeds`, `c23_reported_exact`, `c23_creation_succeeds`
* `FeeGranterProps.v`: `c52_admins`, `c52_authority`, `c52_single`, `c81_covered`, `c81_bypass_refuted`, `c82_renew`, `c82_stuck`, `c82_refuted`
* `IncInfoProps.v`: `c151_touched`, `c151_opened`, `c151_idle`, `c151_running`, `c151_stale_refuted`
* `IncQueryProps.v`: `c130_fee`, `c130_running`, `c131_listed`, `c131_pages`, `c132_stakers`, `c132_pools`, `c132_blocked`, `c132_sizes`, `c133_sums`, `c132_limit_refuted`, `c133_once_refuted`
* `IncentivesEmissionProps.v`: `c70_rates`, `c70_total`, `c73_budget`, `c71_limit`, `c74_inactive`, `c74_stays`, `c74_blocked`, `c74_deactivate`, `c74_types`, `c70_refuted`, `c73_refuted`, `c71_refuted`, `c74_deactivate_refuted`
* `IncentivesExitProps.v`: `c69_query`, `c69_exit`, `c69_claim`
* `IncentivesProps.v`: `c34_total`, `c34_net`, `c35_solvent`, `c35_no_loss`, `c36_future`, `c37_removal`, `c68_exact`, `c72_others`, `c34_deposit`, `c34_withdraw`, `c34_others`, `c36_schedule`, `c36_available_refuted`, `c37_no_orphans`, `c72_claim`, `c72_withdraw`, `c72_deposit`, `c37_once_refuted`, `c37_bypass_refuted`, `c72_removal_refuted`, `c69_exit_refuted`
* `IncentivesRoleProps.v`: `c77_roles`, `c77_settings`, `c77_no_blocked_reward`, `c77_blocked_set`
* `MakerMigrateProps.v`: `c142_accepts`, `c142_kept`, `c142_limits`, `c142_backed`, `c142_seize`, `c142_cooldown`, `c142_obeyed_refuted`, `c142_balances`, `c142_config`, `c142_config_refuted`
* `MakerPoolProps.v`: `c141_refines`, `c141_story`, `c141_price`, `c141_pairs`, `c141_coins`, `c141_income`, `c141_fair_price_refuted`
* `MakerProps.v`: `c45_conserve`, `c45_split`, `c45_backed`, `c45_all`, `c45_schedule`, `c45_released`, `c46_distributes`, `c46_refuted`, `c45_released_refuted`, `c78_refuted`, `c78_dev`, `c47_cooldown`, `c47_first`, `c47_limits`, `c75_receivers`, `c75_owner`, `c75_limits`, `c75_start`, `c76_seize`, `c76_refused`, `c76_reserve_refuted`, `c79_limit`, `c79_refuted`
* `MakerRouteProps.v`: `c118_no_residue`, `c118_routes`, `c118_circular`, `c118_refuted`, `c118_default_bridge`, `c76_update`
* `MiscMigrateProps.v`: `c127_since`, `c127_now`, `c127_old_heights`, `c127_blocks`, `c127_earlier`, `c127_refuted`, `c127_once`, `c128_kept`, `c128_next`, `c129_same_kind`, `c129_once`, `c129_chains`, `c129_final`, `c129_order_book`
* `MixBooksProps.v`: `c140_booked`
* `MixRouteExecProps.v`: `c140_executes`
* `MixRouteProps.v`: `c140_simulated`, `c140_reserves`, `c140_others`, `c140_refines`
* `ObMigrateProps.v`: `c122_kept`, `c122_same`, `c122_native`, `c122_unpaid`, `c122_guarded`, `c122_no_deposit`, `c122_refuted`
* `ObservationProps.v`: `c39_buffer_is_recent_log`, `c39_query`, `c39_query_empty`, `c55_moving_average`, `c55_average_of_stored_prices_refuted`, `c56_small_pools_keep_trading`, `c56_observations_never_stop_trading_refuted`, `c57_first_trade_decides`, `c57_first_observation_aggregates`, `c57_block_aggregate_refuted`
* `OracleProps.v`: `c40_update_exact`, `c40_wraparound`, `c40_frozen_within_period`, `c40_once_per_period`, `c40_consult`, `c40_end_to_end`
* `OwnershipProps.v`: `c19_owner_changes_only_by_claimed_proposal`, `c19_claim_consumes_proposal`, `c19_claim_available`
* `PairGovProps.v`: `c117_stable`, `c117_concentrated`, `c117_order_book`, `c117_stable_authority`, `c117_order_book_authority`, `c117_former_owner_refuted`
* `PclCurveProps.v`: `c116_unique`, `c116_exists`, `c116_accurate`, `c116_balanced`, `c116_refuted`
* `PclExtraProps.v`: `c31_stop`, `c91_last_price`, `c99_deposit`
* `PclFeeProps.v`: `c32_far`, `c32_near`, `c32_value`
* `PclLpProps.v`: `c90_withdraw`, `c90_provide`, `c90_first_deposit`, `c89_step`, `c89_scale_kept`, `c89_history`, `c89_lp_price`, `c96_repeg`, `c91_oracle`, `c91_not_by_own_trade`, `c91_once_per_second`, `c91_defined`
* `PclParamProps.v`: `c31_params`, `c31_amp_gamma`, `c31_promotion`, `c31_authority`, `c31_fee_order`, `c31_fee_order_refuted`, `c32_between`, `c32_refuted`, `c32_defined`, `c32_zero_gamma_refuted`, `c33_usable`, `c33_refuted`
* `PclProbeProps.v`: `c100_probe`
* `PclRoundProps.v`: `c115_round_trip`, `c115_no_profit`, `c115_refuted`
* `PclSwapCurveProps.v`: `c121_unique`, `c121_exists`, `c121_swap`
* `PclSwapProps.v`: `c88_swap`, `c88_lp_ledger`, `c88_alive`, `c92_simulation`, `c92_simulate_provide`, `c92_simulate_withdraw`, `c99_max_spread`, `c97_ignored`, `c93_for_ever`, `c100_swap`, `c100_provide`, `c100_others`, `c95_balance_at`, `c92_reverse_refuted`, `c97_refuted`, `c93_refuted`
* `PclTradeProps.v`: `c94_normal_round_trip`, `c94_refuted`, `c98_refuted`, `c89_ramp_refuted`
* `RegWorldProps.v`: `c137_parts`, `c137_needs`, `c137_active`, `c137_deregister`, `c137_gone`, `c137_leave`, `c137_paused_refuted`, `c137_untold_refuted`
* `RegistryProps.v`: `c48_effect`, `c48_refund`, `c48_range`, `c48_permanent`, `c48_open`, `c80_paging`, `c80_page`
* `RouteWorldProps.v`: `c138_simulated`, `c138_executes`, `c138_others`, `c138_refines`, `c138_twice_refuted`, `c138_stray_refuted`
* `RouterProps.v`: `c24_minimum_receive`, `c24_reentrant_refuted`, `c25_route_exact`, `c25_only_valid_routes`, `c25_simulated_routes`, `c61_amounts`, `c61_simulation`, `c61_reverse_simulation`, `c62_messages`, `c62_no_spread_check`, `c62_single_checked`
* `SaleTaxMoreProps.v`: `c150_more`, `c150_split`, `c150_free`, `c150_avoided_refuted`
* `SaleTaxProps.v`: `c87_plain_pair`, `c87_message`, `c49_tax`, `c49_only_swaps`, `c49_rates`, `c49_admin`, `c49_simulation`, `c49_reverse`, `c86_ignored`, `c86_refuted`
* `StableAskProps.v`: `c146_answers`
* `StableDepositProps.v`: `c145_provide`, `c145_credited`, `c145_first`
* `StableExitProps.v`: `c143_exit`, `c143_frozen`, `c143_refuted`
* `StableLiveProps.v`: `c144_simulation`, `c144_exit`, `c144_swap`
* `StableMoreProps.v`: `c149_more`, `c149_unit`, `c149_exact_refuted`
* `StableProps.v`: `c28_between`, `c28_monotone`, `c28_range`, `c28_start`, `c28_stop`, `c28_stop_succeeds`, `c28_only_owner`, `c29_withdraw`, `c29_supply`, `c29_supply_never_returns_to_zero`, `c29_withdraw_keeps_reserves`, `c29_reserves_positive_refuted`, `c30_amounts`, `c30_simulation`, `c30_spread_enforced`, `c63_invariant`, `c63_reserve`, `c63_swap`, `c64_shares`, `c64_first`, `c65_round_trip_refuted`, `c66_swap_withdraw`, `c66_provide`, `c66_past_price_fixed_refuted`, `c67_commission_unavoidable_refuted`
* `StableReverseProps.v`: `c146_suffices`, `c146_needed`, `c146_exact_refuted`
* `StableTradeProps.v`: `c65_sequence`, `c65_no_profit`
* `StableValueProps.v`: `c119_value`
* `StakeWorldProps.v`: `c135_parts`, `c135_backed`, `c135_mine`, `c135_auto`, `c135_auto_effect`, `c135_unregistered`, `c136_exit`
* `StakingProps.v`: `c12_rate_never_falls`, `c12_rate_at_least_one`, `c13_round_trip`, `c13_round_trip_first`, `c13_payout_covered`, `c13_splitting_gains_nothing`, `c14_locked_forever`, `c14_zero_mint_rejected`, `c14_loss_below_one_xastro`, `c60_enter_exact`, `c60_leave_exact`, `c60_leave_always_possible`
* `StakingTimeProps.v`: `c152_enter`, `c152_leave`, `c152_parts`, `c152_enter_parts_refuted`
* `TrackerProps.v`: `c41_balance_at_past`, `c41_balance_now`, `c41_past_is_immutable`, `c42_supply_at`, `c42_exact_after_transfer`, `c42_supply_is_sum_refuted`
* `TransmuterProps.v`: `c26_fully_backed`, `c26_no_value_extracted`, `c26_withdraw`, `c26_redeemable`, `c26_round_trip`, `c26_round_trip_never_profitable_refuted`, `c27_swap_value`, `c27_there_and_back`, `c27_simulation`, `c53_listed_coins_are_credited`, `c53_every_sent_coin_is_credited_refuted`, `c54_reverse_exact`, `c54_reverse_quote_suffices_refuted`, `c54_feasible_request_refused_refuted`
* `VestLimitProps.v`: `c147_full`, `c147_room`, `c147_one_each`, `c147_limit_refuted`
* `VestMigrateProps.v`: `c123_converted`, `c123_when`, `c123_once`, `c123_claimed`, `c123_solvent`
* `VestedProps.v`: `c120_drawn`, `c120_paid`, `c120_exit`, `c120_short`, `c120_refuted`
* `VestingProps.v`: `c15_claimed_at_most_unlocked`, `c15_claim_pays_exactly`, `c15_too_large_claim_fails`, `c16_monotone_and_complete`, `c16_contract_computes_curve`, `c17_solvent`, `c17_claim_always_succeeds`, `c18_clawback`, `c18_clawback_reduces_total_owed`
* `WhitelistProps.v`: `c84_authority`, `c84_frozen`, `c84_open`
* `XTokenProps.v`: `c43_exact_effects`, `c43_supply_is_sum`, `c43_repeated_account_refuted`, `c43_cap`, `c43_transfer_succeeds`, `c43_zero_rejected`, `c43_supply_control`, `c43_balance_protected`, `c44_balance_at`, `c44_supply_at`, `c44_consistent_pair`, `c44_same_block_refuted`
* `XastroPairProps.v`: `c50_swap`, `c50_refuted`, `c50_open_stake`, `c50_open_unstake`, `c50_simulation`, `c85_reverse`, `c85_refuted`
* `XykExitProps.v`: `c134_exit`, `c134_ordinary`, `c134_frozen`, `c134_tax_exit`, `c134_refuted`
* `XykLpProps.v`: `c58_supply_is_sum_of_balances`, `c58_provide`, `c58_withdraw`, `c58_only_liquidity_messages_move_lp`, `c59_exact_split`, `c59_fee_share_control`, `c59_fee_share_capped`
* `XykMigrateProps.v`: `c125_kept`, `c125_trading`, `c125_locked`, `c125_refuted`, `c126_when`, `c126_swap`, `c126_frozen`, `c126_no_liquidity`
* `XykPartsProps.v`: `c153_deposits`, `c153_withdrawals`, `c153_parts`
* `XykProps.v`: `c01_swap_product`, `c01_product_always_kept_refuted`, `c02_no_dilution`, `c02_liquidity_per_asset`, `c03_provide_withdraw`, `c04_swap_back`, `c05_first_provide`, `c05_stays_alive`, `c05_stays_alive_no_swaps`, `c05_supply_floor`, `c05_swap_keeps_reserves_refuted`, `c06_max_spread`, `c06_rejects`, `c07_slippage`, `c08_fees_add_up`, `c09_simulation_exact`, `c09_reverse_plus_one`, `c09_reverse_quote_suffices_refuted`, `c10_twap_integral`, `c10_donation_rewrites_past_refuted`, `c11_balance_history`, `c11_balance_history_donations`
* `XykSplitProps.v`: `c148_more`, `c148_diminishing`, `c148_split`, `c148_split_refuted`
