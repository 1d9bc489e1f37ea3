{"id": "C01", "title": "Constant-product swap never shrinks the pool product beyond rounding", "statement": "After a successful swap on the constant-product pair, the product of the two reserves the pair keeps (after paying the trader, the fee-share recipient and the maker) is at least the product before the swap, except that when offer reserve + offer amount exceeds 10^18 and nothing of the commission stays in the pool it may be lower, by strictly less than (offer reserve + offer amount)/10^18. In particular it never falls when offer reserve + offer amount <= 10^18 or when at least one unit of commission stays.", "quantifier": "every pair of reserves, offer amount, commission rate, maker rate, fee-share bps in the 128-bit ranges accepted by the contract", "why_tests_cant": "the failing region is a set of measure zero in the input space (a fractional part below 1e-18); unit tests and random fuzzing do not hit it, and 'for all 128-bit inputs' cannot be enumerated", "anchors": ["contracts/pair/src/contract.rs: compute_swap, swap, calculate_maker_fee"]}
{"id": "C02", "title": "A share of the constant-product pool is never diluted", "statement": "Over any history of provide, withdraw, swap and plain donations to the pair, (reserve0 * reserve1) / (LP supply)^2 never decreases, provided every swap in it falls in the region where C01 guarantees the product does not fall. Provide and withdraw alone additionally never decrease reserve_i / LP supply for either asset.", "quantifier": "every finite history of operations by any mix of users starting from any initialised pool", "why_tests_cant": "needs induction over unboundedly many interleaved operations with rounding at every step", "anchors": ["contracts/pair/src/contract.rs: provide_liquidity, withdraw_liquidity, swap, calculate_shares, get_share_in_assets"]}
{"id": "C03", "title": "Providing then withdrawing the minted LP is never profitable (constant product)", "statement": "A user who provides (d0,d1) to an initialised constant-product pool and immediately withdraws the LP tokens minted for it receives at most d0 and d1.", "quantifier": "every reserves, supply, deposits for which the provide succeeds", "why_tests_cant": "two nested floor divisions (and an intermediate 18-digit ratio) must be shown to round against the user for all values", "anchors": ["contracts/pair/src/contract.rs: calculate_shares, get_share_in_assets, withdraw_liquidity"]}
{"id": "C04", "title": "Swapping there and back is never profitable (constant product)", "statement": "A trader who swaps a of asset A for b of asset B and immediately swaps all b back gets at most a, whenever the two swaps are in the non-degenerate region of C01.", "quantifier": "every reserves, amount, fee configuration accepted by the contract", "why_tests_cant": "composition of two rounded non-linear functions over 128-bit inputs", "anchors": ["contracts/pair/src/contract.rs: compute_swap, swap"]}
{"id": "C05", "title": "Locked minimum liquidity keeps an initialised constant-product pool alive", "statement": "After the first successful provide, in every reachable state the LP supply is at least 1000, and both reserves stay positive after any number of provides, withdrawals, LP transfers, donations and swaps that fall in the region where C01 guarantees the product does not fall. (A swap outside that region, with an offer about 10^18 times the whole pool, can take the entire ask reserve: exhibited.)", "quantifier": "every history of operations, by any users, of any sizes", "why_tests_cant": "unbounded histories; the claim is about all reachable states", "anchors": ["contracts/pair/src/contract.rs: provide_liquidity, withdraw_liquidity, calculate_shares; packages/astroport/src/asset.rs: MINIMUM_LIQUIDITY_AMOUNT"]}
{"id": "C06", "title": "Swap output respects the caller's belief price and max spread", "statement": "If a swap with max_spread s (default 0.5%) succeeds then s <= 50% and: with a belief price, the amount out before commission is short of floor(offer / belief price) by less than a fraction s + 1e-18 of it; without one, spread/(amount out + spread) does not exceed s by 1e-18 or more. Requests with max_spread above 50% or a zero belief price always fail.", "quantifier": "every offer amount, belief price, max spread, computed output", "why_tests_cant": "three successive roundings at 18 digits; inequality has to hold at every boundary value", "anchors": ["contracts/pair/src/contract.rs: assert_max_spread"]}
{"id": "C07", "title": "Deposit slippage check bounds the price deviation of a provide", "statement": "A provide to an initialised constant-product pool with tolerance t succeeds only if t <= 50% and the deposit ratio in each direction, reduced by the fraction t, does not exceed the pool ratio by more than the 18-digit rounding.", "quantifier": "every deposit pair, reserve pair and tolerance", "why_tests_cant": "boundary behaviour of rounded ratios", "anchors": ["contracts/pair/src/contract.rs: assert_slippage_tolerance, calculate_shares"]}
{"id": "C08", "title": "Swap payments are fully covered and fees add up (constant product)", "statement": "In every successful swap: trader amount + commission equals the gross output; maker fee + fee-share amount never exceeds the commission; everything sent out of the ask reserve never exceeds the ask reserve.", "quantifier": "every input and fee configuration with total fee <= 100%, maker fee <= 100%, fee share <= 10%", "why_tests_cant": "sum of independently rounded fractions", "anchors": ["contracts/pair/src/contract.rs: swap, compute_swap, calculate_maker_fee; packages/astroport/src/factory.rs: PairConfig::valid_fee_bps"]}
{"id": "C09", "title": "Simulation query agrees with the executed constant-product swap; reverse simulation is a bounded under-estimate", "statement": "Simulation returns exactly the amounts an immediately following swap pays. Reverse simulation of an ask amount quotes an offer which, when swapped, need not yield the ask amount (exhibited); offering one unit more than quoted yields at least ask - 1, for every ask up to 10^18.", "quantifier": "every reserves, amounts, commission rate", "why_tests_cant": "needs agreement for all inputs; rounding counter-example is found symbolically", "anchors": ["contracts/pair/src/contract.rs: query_simulation, query_reverse_simulation, compute_swap, compute_offer_amount"]}
{"id": "C10", "title": "Price accumulators are exact time-weighted sums modulo 2^128", "statement": "For any history of operations without plain donations at non-decreasing block times, the cumulative price reported equals (mod 2^128) the sum over the intervals between operations of floor(elapsed * 10^6 * reserve_y / reserve_x) using the reserves held during that interval; several operations in the same second add nothing; intervals with an empty reserve contribute 0. (A plain donation re-prices the whole interval since the last operation: exhibited.)", "quantifier": "every history of operations and block times", "why_tests_cant": "needs induction on histories, including wrap-around at 2^128 which no test reaches", "anchors": ["contracts/pair/src/contract.rs: accumulate_prices, query_cumulative_prices"]}
{"id": "C11", "title": "Constant-product pair balance history matches actual balances", "statement": "With asset balance tracking enabled, the value the pair reports for a height h equals the reserve the pair really held at the beginning of block h, for every history of provide/withdraw/swap transactions (and donations are picked up at the next transaction that touches the pair).", "quantifier": "every history of operations, every queried height", "why_tests_cant": "the tracked value is recomputed from amounts rather than read; agreement must hold after every possible operation sequence", "anchors": ["contracts/pair/src/contract.rs: provide_liquidity, withdraw_liquidity, swap, query_asset_balances_at; contracts/pair/src/state.rs: BALANCES"]}
{"id": "C12", "title": "xASTRO exchange rate never falls", "statement": "Over every history of stake, unstake and direct ASTRO transfers to the staking contract, ASTRO held per xASTRO in circulation never decreases.", "quantifier": "every finite history by any users", "why_tests_cant": "unbounded interleavings with floor rounding at each step", "anchors": ["contracts/tokenomics/staking/src/contract.rs: execute_enter, execute_leave"]}
{"id": "C13", "title": "Staking and unstaking is never profitable and never over-pays", "statement": "Stake followed by unstake of the minted xASTRO returns at most the staked ASTRO; unstake pays at most the contract's balance; whoever splits an unstake into several gets at most as much as in one piece.", "quantifier": "every deposit, supply and amount", "why_tests_cant": "universally quantified over 128-bit values with nested floors", "anchors": ["contracts/tokenomics/staking/src/contract.rs: execute_enter, execute_leave"]}
{"id": "C14", "title": "First staker cannot be inflated out of their shares beyond the locked minimum", "statement": "After the first stake, at least 1000 xASTRO remain locked in the staking contract forever, the supply never returns to zero, and a later staker whose stake would round to zero xASTRO is rejected instead of losing the deposit.", "quantifier": "every history", "why_tests_cant": "reachable-state invariant", "anchors": ["contracts/tokenomics/staking/src/contract.rs: execute_enter, execute_leave, MINIMUM_STAKE_AMOUNT"]}
{"id": "C15", "title": "Vesting never releases more than has unlocked", "statement": "For every account at every time, total claimed so far is at most the amount unlocked by its schedules at that time, and each claim pays exactly the difference (or a smaller requested amount; a larger request fails).", "quantifier": "every set of schedules, every claim history at non-decreasing times", "why_tests_cant": "unbounded number of schedules and claims, piecewise-linear rounded release", "anchors": ["contracts/tokenomics/vesting/src/contract.rs: claim, compute_available_amount, calc_schedule_unlocked_amount"]}
{"id": "C16", "title": "Vested amount is monotone and complete", "statement": "The unlocked amount of a schedule never decreases over time, is 0 before the start time, between start and end amounts during the period and equals the end amount exactly from the end time on.", "quantifier": "every schedule accepted by registration, every pair of times", "why_tests_cant": "continuous quantification over time with integer division", "anchors": ["contracts/tokenomics/vesting/src/contract.rs: calc_schedule_unlocked_amount, assert_vesting_schedules"]}
{"id": "C17", "title": "Vesting contract is always solvent", "statement": "In every reachable state the vesting token balance of the contract is at least the sum over accounts of (total scheduled end amounts - already released), so every future claim can be paid, whatever mix of registrations, claims and withdrawals from active schedules has happened.", "quantifier": "every history of register, claim, withdraw-from-active-schedule by any senders", "why_tests_cant": "global invariant over unbounded histories and accounts", "anchors": ["contracts/tokenomics/vesting/src/contract.rs: register_vesting_accounts, claim, withdraw_from_active_schedule"]}
{"id": "C18", "title": "Owner clawback cannot touch unlocked tokens", "statement": "Withdrawing from an active schedule never reduces what the account can claim at that moment and never increases the total owed.", "quantifier": "every schedule, time and withdrawn amount for which the call succeeds", "why_tests_cant": "schedule is rewritten into two with rounding; claim holds for all times after", "anchors": ["contracts/tokenomics/vesting/src/contract.rs: withdraw_from_active_schedule"]}
{"id": "C19", "title": "Ownership only moves by proposal of the owner and claim by the proposed within the deadline", "statement": "In any history of messages, the owner of a contract using the shared ownership helper changes only in a claim sent by the address which the then-current owner had proposed last, not later than the proposal's deadline, and with no drop or superseding proposal in between; the deadline is at most 14 days after the proposal.", "quantifier": "every history of propose / drop / claim messages from any senders at any times", "why_tests_cant": "trace property over unbounded histories and adversarial senders", "anchors": ["packages/astroport/src/common.rs: propose_new_owner, drop_ownership_proposal, claim_ownership"]}
{"id": "C20", "title": "At most one live pair per set of assets, found irrespective of asset order", "statement": "In every reachable factory state, querying a pair by its asset list gives the same answer for every permutation of the list; a creation request for an asset list whose lookup key is registered fails, so a registered pair is never overwritten; a successful creation registers the new contract under the requested assets whatever the new contract does meanwhile, unless a deregistration happens inside it (then it can end up under other assets); deregistration by the owner is the only way an entry disappears and it removes exactly the named pair.", "quantifier": "every history of create (with messages nested in the instantiation), reply, deregister and configuration messages, every permutation", "why_tests_cant": "quantifies over all histories, nested calls and permutations", "anchors": ["contracts/factory/src/contract.rs: execute_create_pair, reply, deregister; contracts/factory/src/state.rs: pair_key"]}
{"id": "C21", "title": "Pair lookup keys identify the asset set", "statement": "Distinct asset sets must have distinct lookup keys. This fails: keys are plain concatenations without separators, so two different pairs of valid denoms can share a key, in which case the second pair cannot be created and lookups for it resolve to the first. It holds when no identifier in use is a proper prefix of another, in particular when all have equal length.", "quantifier": "every pair of asset lists", "why_tests_cant": "collision needs specially chosen identifiers", "anchors": ["contracts/factory/src/state.rs: pair_key; packages/astroport/src/asset.rs: AssetInfo::as_bytes"]}
{"id": "C22", "title": "Paging through all pairs lists every pair exactly once", "statement": "Repeatedly querying pairs with start_after set to the last pair received returns, in order, every registered pair exactly once, for every page size.", "quantifier": "every registry content and page size", "why_tests_cant": "depends on byte-lexicographic bounds for arbitrary keys", "anchors": ["contracts/factory/src/state.rs: read_pairs, calc_range_start"]}
{"id": "C23", "title": "Factory fee configuration is always within bounds and only owner-controlled", "statement": "In every reachable factory state each pair type's total fee and maker fee are at most 100%; pair configs, config fields and deregistration are changed only by the owner (create for permissioned pair types also only by the owner; disabled types by nobody).", "quantifier": "every history of messages from any senders", "why_tests_cant": "authorisation claims quantify over all message histories", "anchors": ["contracts/factory/src/contract.rs: execute_update_config, execute_update_pair_config, execute_create_pair; packages/astroport/src/factory.rs: PairConfig"]}
{"id": "C24", "title": "Router delivers at least minimum_receive or reverts", "statement": "If a routed swap with minimum_receive succeeds, and no participating token or pair re-enters the router during it, the receiver's balance of the final asset has grown by at least minimum_receive. With a re-entrant participant the guarantee fails.", "quantifier": "every list of hops, every behaviour of the pairs (arbitrary state transformers), every starting balance", "why_tests_cant": "pairs are adversarial; the guarantee is over all behaviours", "anchors": ["contracts/router/src/contract.rs: execute_swap_operations, reply; contracts/router/src/operations.rs: execute_swap_operation"]}
{"id": "C25", "title": "Router only accepts well-formed routes", "statement": "A route is accepted exactly if it is non-empty, within the maximum length, every hop has different offer and ask assets and each hop offers what the previous hop asked; hence following the hops leads from the first offer asset to the last ask asset.", "quantifier": "every list of operations", "why_tests_cant": "unbounded list inputs", "anchors": ["contracts/router/src/contract.rs: assert_operations, execute_swap_operations"]}
{"id": "C26", "title": "Transmuter is always fully backed", "statement": "In every reachable state the decimals-normalised sum of the transmuter's reserves is at least the LP supply, whatever sequence of provides, balanced and imbalanced withdrawals, swaps and donations has happened; total value paid out never exceeds total value brought in minus the LP tokens outstanding; any LP holder can redeem any single asset up to the worth of their LP tokens as far as the pool holds it. A provide followed by a withdrawal gains at most the pool's surplus over the LP supply; a balanced withdrawal can really take part of such a surplus (exhibited).", "quantifier": "every history of operations, 2 to 5 assets of any decimals", "why_tests_cant": "unbounded histories with rounding in decimals conversion", "anchors": ["contracts/pair_transmuter/src/contract.rs: provide_liquidity, withdraw_liquidity, swap; contracts/pair_transmuter/src/utils.rs"]}
{"id": "C27", "title": "Transmuter swaps are one-to-one in value and never over-pay", "statement": "A transmuter swap pays floor(normalised offer / ask unit) of the ask asset: never more normalised value than offered, less than one ask unit below it; a swap there and back never yields more than was put in.", "quantifier": "every amounts and decimals", "why_tests_cant": "universal over amounts", "anchors": ["contracts/pair_transmuter/src/contract.rs: swap; contracts/pair_transmuter/src/utils.rs: swap, reverse_swap"]}
{"id": "C28", "title": "Stable pool amplification ramps stay between their end points", "statement": "At every time the effective amplification lies between the initial and target value of the current ramp, moves monotonically from one to the other, reaches the target at the end time; a new ramp is accepted only from the owner, at least a day after the last change, lasting at least a day and changing the value by at most 10x; it stays within [1, 10^6] forever; stopping freezes the current value.", "quantifier": "every history of start/stop ramp messages and every query time", "why_tests_cant": "continuous time quantification and unbounded histories", "anchors": ["contracts/pair_stable/src/contract.rs: start_changing_amp, stop_changing_amp", "contracts/pair_stable/src/utils.rs: compute_current_amp"]}
{"id": "C29", "title": "Stable pool share accounting never dilutes holders on proportional exit", "statement": "A stable-pool withdrawal pays each asset the proportional share of its reserve rounded down, so reserve_i per LP token never decreases for the remaining holders; LP balances sum to the supply; LP supply never falls below 1000 after initialisation; withdrawals never empty a reserve. Reserves staying positive under swaps fails: in a dust pool one large swap takes the whole other reserve, after which swaps and deposits revert.", "quantifier": "every reserves, supply, amount, history", "why_tests_cant": "universal over values and histories", "anchors": ["contracts/pair_stable/src/contract.rs: withdraw_liquidity", "contracts/pair_stable/src/utils.rs: get_share_in_assets"]}
{"id": "C30", "title": "Stable swap output is bounded by the ask reserve and fees add up", "statement": "For every successful stable swap the amounts sent to trader, maker and fee-share recipient sum to at most the ask reserve held by the pair, commission + return equals the gross output, gross output never exceeds the ask reserve, the commission and its split are the configured fractions rounded down, and the simulation query announces exactly these amounts.", "quantifier": "every reachable two-asset pool, amplification, offer, fee configuration", "why_tests_cant": "Newton iteration result is only known implicitly", "anchors": ["contracts/pair_stable/src/contract.rs: swap, query_simulation", "contracts/pair_stable/src/utils.rs: compute_swap", "contracts/pair_stable/src/math.rs: calc_y"]}
{"id": "C31", "title": "Concentrated pool parameters stay in their validated ranges", "statement": "In every reachable state every concentrated-pool parameter (fees, gamma, repeg threshold, price-scale step, EMA half time, amp, gamma) lies within its documented range, including the interpolated amp and gamma during a ramp. The intended mid_fee < out_fee ordering can be broken by an update that only changes mid_fee.", "quantifier": "every history of parameter updates, promotions and stops at any times", "why_tests_cant": "trace property; interpolation at all times", "anchors": ["packages/astroport_pcl_common/src/state.rs: PoolParams::update_params, PoolState::promote_params, stop_promotion, get_amp_gamma"]}
{"id": "C32", "title": "Concentrated pool fee always lies between mid_fee and out_fee", "statement": "For every internal reserve pair the dynamic fee rate is between mid_fee (less at most one unit of the last of 18 decimals, which does occur) and out_fee whenever mid_fee <= out_fee. It exists for all reserves of ordinary size when fee_gamma is positive; with the accepted value fee_gamma = 0 a balanced pool has no fee rate and balanced deposits revert. With one token or more in the pool, the fee is exactly out_fee where (x0-x1)^2/(x0+x1)^2 exceeds 999 times fee_gamma, and below out_fee where it stays under 998 times fee_gamma and the two fees differ by 10^-15 or more (x0, x1: reserves in terms of the first asset after the swap; up to 10^-17 of rounding). In the latter range it is the mean of mid_fee with weight fee_gamma and out_fee with weight (x0-x1)^2/(x0+x1)^2, up to rounding.", "quantifier": "every reserves, fee parameters", "why_tests_cant": "non-linear rounded expression over all reserves", "anchors": ["packages/astroport_pcl_common/src/state.rs: PoolParams::fee"]}
{"id": "C33", "title": "An accepted amp/gamma promotion never freezes a concentrated pool", "statement": "After an accepted promotion the pool can keep computing its amp and gamma at all later times. This fails: a promotion with a far-future end time (for example given in nanoseconds) is accepted but makes every later computation overflow, which also blocks withdrawals, further promotions and stopping the promotion. It holds for end times below an explicit bound.", "quantifier": "every promotion parameters and time", "why_tests_cant": "needs extreme but accepted parameter values", "anchors": ["packages/astroport_pcl_common/src/state.rs: PoolState::promote_params, get_amp_gamma, stop_promotion"]}
{"id": "C34", "title": "Incentives: LP token accounting is conservative", "statement": "In every reachable state, for every pool the recorded total equals the sum of the recorded user positions, and equals the LP tokens the contract received minus those it returned; a withdrawal never returns more than the user's recorded position.", "quantifier": "every history of deposits and withdrawals by any users", "why_tests_cant": "global sum invariant over unbounded users and operations", "anchors": ["contracts/tokenomics/incentives/src/execute.rs: deposit, withdraw; contracts/tokenomics/incentives/src/state.rs: PoolInfo::update_rewards, UserInfo"]}
{"id": "C35", "title": "Incentives: the contract always holds what it owes", "statement": "For every token, at every time, the staked amount plus the orphaned rewards plus everything that all users of all pools could claim now does not exceed the contract's balance, and no reward payment fails for lack of funds; for every history in which the owner removes that reward only without bypassing its upcoming schedules and while nothing of it is orphaned.", "quantifier": "every history of all messages by any users, arbitrary times, any iteration order of removed rewards", "why_tests_cant": "index-based accounting with rounding; needs an inductive invariant over all users", "anchors": ["contracts/tokenomics/incentives/src/state.rs: PoolInfo::update_rewards, PoolInfo::calculate_rewards, UserInfo::update_and_sync_position"]}
{"id": "C36", "title": "Incentives: an external reward is funded in full and paid out over its weeks", "statement": "An accepted incentive of 1..25 weeks runs from now to that many weeks after the next week boundary, at the largest rate (at least one unit per second) that the amount pays for; what the pool will still emit of the reward grows by exactly rate times duration, also on top of existing schedules, and the contract's balance grows by exactly the amounts. From twice the epoch start date on (July 2077) no incentive is accepted any more.", "quantifier": "every reachable state, amount, time, duration, number of entries", "why_tests_cant": "time arithmetic with alignment for every timestamp", "anchors": ["packages/astroport/src/incentives.rs: IncentivesSchedule::from_input"]}
{"id": "C37", "title": "Incentives: removing a reward returns the unemitted part once", "statement": "Only the owner removes a reward; the receiver is paid what is left to emit plus the orphaned part, rounded down; nothing is orphaned while somebody has been staking since the last update. It should be paid once, but: an orphaned part is both paid to the receiver and booked as claimable orphaned reward, so it is paid twice, out of other users' tokens; and schedules left in place by the bypass flag can be stretched by the next incentive so that pending rewards exceed the balance.", "quantifier": "every reachable pool state", "why_tests_cant": "needs a specific multi-step state (accrual with no stakers)", "anchors": ["contracts/tokenomics/incentives/src/state.rs:370-440", "contracts/tokenomics/incentives/src/utils.rs:334-560"]}
{"id": "C38", "title": "Circular buffer returns the last capacity values in order", "statement": "After any number of pushes, reading index (head - 1 - i) mod capacity yields the i-th most recent value for every i below min(pushes, capacity); older values are gone; reads and writes never go outside the capacity.", "quantifier": "every capacity and push history", "why_tests_cant": "unbounded histories with wrap-around", "anchors": ["packages/circular_buffer/src/lib.rs: BufferManager::push, commit, read, read_last"]}
{"id": "C39", "title": "Price observation query brackets the requested time", "statement": "For a buffer of observations with increasing timestamps the observe query at time t between the oldest and newest stored timestamps returns the observation at t or an interpolation between the two stored neighbours of t, so its price lies between their prices; it terminates and never reads an empty slot; times older than the oldest observation are rejected.", "quantifier": "every buffer content (full or partially filled, any rotation), every target time", "why_tests_cant": "binary search on a rotated buffer for all rotations and targets", "anchors": ["packages/astroport/src/observation.rs: query_observation, binary_search"]}
{"id": "C40", "title": "Oracle average price is the exact time-weighted average over at least one period", "statement": "The periphery oracle updates at most once per day, and the stored average of each direction equals floor((cumulative difference mod 2^128) * 10^18 / elapsed); accumulator wrap-around between two updates does not affect it; until the next update nothing changes. Together with the constant-product pair the average is the price-time integral of the pool over the window divided by the window length. Consultation multiplies by that average (or, before the first update, by the pair's spot quote).", "quantifier": "every sequence of update attempts, accumulator readings and times; every pair history", "why_tests_cant": "wrap-around at 2^128; quantifies over all histories", "anchors": ["contracts/periphery/oracle/src/contract.rs: update, consult"]}
{"id": "C41", "title": "Historical balance queries return the balance at the beginning of the queried block", "statement": "For every history of tracked transfers, mints and burns, the tokenfactory tracker's balance-at query for a past block or second returns the account's bank balance at the end of the last earlier block/second; a query for the current one returns the latest balance.", "quantifier": "every history of bank hooks with non-decreasing heights, every account and height", "why_tests_cant": "unbounded histories", "anchors": ["contracts/periphery/tokenfactory_tracker/src/contract.rs: track_balances; query.rs: balance_at"]}
{"id": "C42", "title": "Historical total supply equals the sum of balances", "statement": "The tracker's total-supply-at query should equal the sum of all tracked balances at the same height, and does after every transfer it is told about. It fails between a burn and the next transfer: the bank calls the tracker before the burn happens, so the recorded supply is the one before the burn.", "quantifier": "every history of mints, burns and transfers", "why_tests_cant": "needs the module's call order and every interleaving", "anchors": ["contracts/periphery/tokenfactory_tracker/src/contract.rs: track_balances; query.rs: total_supply_at"]}
{"id": "C43", "title": "xASTRO token conserves supply", "statement": "In every reachable state of the xASTRO cw20 token, reported total supply equals the sum of all balances (for instantiation without repeated accounts), supply changes only by mint/burn of the minter and never exceeds the cap.", "quantifier": "every history of token messages from any senders", "why_tests_cant": "global sum over unbounded accounts and histories", "anchors": ["contracts/tokenomics/xastro_token/src/contract.rs: execute_transfer, execute_burn, execute_mint, execute_send, execute_transfer_from, execute_burn_from, create_accounts"]}
{"id": "C44", "title": "xASTRO historical supply and historical balances refer to the same instant", "statement": "For governance use, total supply at block b should equal the sum of balances at block b. This fails: balances are reported as of the beginning of block b while supply is as of its end; supply-at(b-1) is the one that matches balance-at(b).", "quantifier": "every history and block", "why_tests_cant": "off-by-one-block only visible when querying the very block of a mint or burn", "anchors": ["contracts/tokenomics/xastro_token/src/state.rs: get_total_supply_at; contract.rs: query_balance_at"]}
{"id": "C45", "title": "Maker distribution never sends more than it holds and conserves the reserved remainder", "statement": "A collection splits what it shares out by the configured percentages, each rounded down, and pays the rest to staking; balances change exactly by what is reported; the pre-upgrade reward kept back is always covered by the ASTRO held, is released linearly per block and completely after at most twice the announced number of blocks. The last part fails when the announced number of blocks exceeds the reward: then nothing of it is ever released.", "quantifier": "every configuration accepted by the contract and every balance/history", "why_tests_cant": "combination of independently rounded cuts over all configurations", "anchors": ["contracts/tokenomics/maker/src/contract.rs: distribute, update_config"]}
{"id": "C46", "title": "Every accepted maker configuration can distribute", "statement": "A configuration accepted by the maker should allow distribution to succeed. It does if second receiver's cut, governance percentage of the rest and dev share do not add up to more than the whole. Otherwise it fails: the dev share is validated independently of the governance percentage, so accepted configurations exist for which every later collection reverts.", "quantifier": "every accepted configuration", "why_tests_cant": "cross-field condition", "anchors": ["contracts/tokenomics/maker/src/contract.rs: update_config, distribute"]}
{"id": "C47", "title": "Maker collection respects its cooldown", "statement": "Two successful collect calls are at least the configured cooldown apart, for every history of calls and configuration (cooldown limits 30..600 s).", "quantifier": "every history of collects and config updates", "why_tests_cant": "trace property", "anchors": ["contracts/tokenomics/maker/src/contract.rs: collect"]}
{"id": "C48", "title": "Permissionless coin registration cannot change existing decimals", "statement": "In the native coin registry a denom's recorded decimals change or disappear only by a message of the owner; anyone may add a missing denom by attaching some of it; recorded decimals are at most 18 in every reachable state; a registration returns all coins sent with it to the sender.", "quantifier": "every history of messages from any senders", "why_tests_cant": "trace property over adversarial histories", "anchors": ["contracts/periphery/native_coin_registry/src/contract.rs: register_decimals, update_decimals, inner_add, remove"]}
{"id": "C49", "title": "Sale-tax pair: tax is bounded and taken once", "statement": "In the sale-tax pair the tax on a swap is at most half of the offer, equals floor(rate*offer), goes only to the configured recipient, the remainder is swapped by the constant-product formula, and tax configuration is changed only by the tax admin.", "quantifier": "every offer, rate and configuration history", "why_tests_cant": "universal over values and histories", "anchors": ["contracts/pair_xyk_sale_tax/src/contract.rs: compute_swap, swap, update_config; packages/astroport/src/pair_xyk_sale_tax.rs: TaxConfigUnchecked::check"]}
{"id": "C50", "title": "xASTRO pair predictions match what staking pays", "statement": "The amount the ASTRO-xASTRO pair reports for a swap equals what the staking contract actually mints or pays for it. This fails when ASTRO has been donated to staking before the first stake; it holds in all other states where the staking call succeeds.", "quantifier": "every staking state and amount", "why_tests_cant": "the failing state only exists before first stake", "anchors": ["contracts/pair_xastro/src/contract.rs: predict_stake, predict_unstake; contracts/tokenomics/staking/src/contract.rs: execute_enter, execute_leave"]}
{"id": "C51", "title": "ASTRO converter exchanges strictly one for one", "statement": "Over any history, new ASTRO released by the converter equals old ASTRO received by it; nobody else can trigger a release; burning/transferring back never moves new ASTRO. The old ASTRO it holds can be burned or sent to be burned by everybody, all at once and only so, with a timeout of two to ten minutes or none given.", "quantifier": "every history", "why_tests_cant": "conservation over unbounded histories", "anchors": ["contracts/periphery/astro_converter/src/contract.rs: cw20_receive, convert, burn, ibc_transfer_for_burning"]}
{"id": "C52", "title": "Fee granter grants are exclusive to owner and admins and never doubled", "statement": "In every reachable state there are at most two admins, no grantee has two simultaneous grants, and only owner or admins can grant, revoke or move coins; only the owner changes admins.", "quantifier": "every history of messages", "why_tests_cant": "trace property", "anchors": ["contracts/periphery/fee_granter/src/contract.rs: grant, revoke, transfer_coins, update_admins; state.rs: update_admins_with_validation"]}
{"id": "C53", "title": "A transmuter provide credits exactly the listed coins", "statement": "Providing liquidity to the transmuter mints LP tokens worth exactly the assets listed in the message, which must match the coins attached; this is the worth of everything attached if every attached coin is listed. A coin of a pool asset that is attached but not listed is kept by the pool without being credited (exhibited).", "quantifier": "every reachable pool, list of assets and list of attached coins", "why_tests_cant": "Depends on every combination of listed and attached coins.", "anchors": ["contracts/pair_transmuter/src/contract.rs: provide_liquidity", "packages/astroport/src/asset.rs: CoinsExt::assert_coins_properly_sent"]}
{"id": "C54", "title": "Transmuter reverse simulation", "statement": "If the asked amount is worth a whole number of units of the offered asset, swapping the amount quoted by reverse simulation yields exactly the asked amount. Otherwise the quote is too low (it can be zero for a positive ask), and feasible requests are refused because the raw reserve is compared with the decimals-normalised amount (both exhibited).", "quantifier": "every reachable pool, offered asset and asked amount", "why_tests_cant": "Rounding and decimals combinations are unbounded.", "anchors": ["contracts/pair_transmuter/src/queries.rs: reverse_swap"]}
{"id": "C55", "title": "What the published moving average of a pool is", "statement": "After n recorded trade observations in a buffer of size N: while n < N the published average equals the arithmetic mean of all observed prices up to rounding (at most (n-1)/2 units of 1e-18 too low); from then on N times the average equals the sum of the last N-1 prices plus one phantom price, the mean of the first N-1 observations ever made, minus accumulated rounding of at most N-1 per observation. The intended reading, that the average reflects only the stored observations, is false: with the real size 3000 all stored prices can be 0.001 while the average exceeds 0.004.", "quantifier": "every history of trades and every buffer size", "why_tests_cant": "needs histories longer than the buffer and a closed form for all price sequences", "anchors": ["contracts/pair_stable/src/utils.rs: accumulate_swap_sizes", "contracts/pair_concentrated/src/utils.rs: accumulate_swap_sizes", "packages/astroport/src/observation.rs: safe_sma_calculation, safe_sma_buffer_not_full"]}
{"id": "C56", "title": "Recording price observations does not stop trading", "statement": "A swap never fails because of the price-observation bookkeeping as long as the number of observations made so far does not exceed the lowest observed price counted in units of 1e-18 (and the pending trade's price is representable). Without that condition it is false: for every price level P (in 1e-18 units) a history of about 3001+2P ordinary trades at prices P and P+1 drives the average to zero by rounding and every later swap of the pool fails for ever.", "quantifier": "every history of trades, every later swap", "why_tests_cant": "the failure needs thousands of trades and depends on accumulated rounding", "anchors": ["packages/astroport/src/observation.rs: safe_sma_calculation", "contracts/pair_stable/src/utils.rs: accumulate_swap_sizes", "contracts/pair_stable/src/contract.rs: swap", "contracts/pair_concentrated/src/contract.rs: swap"]}
{"id": "C57", "title": "Which trades of a block an observation reflects", "statement": "The very first observation of a pool is total base over total quote of the trades of its block. For every later block the recorded observation is the price of the first counted trade of that block alone, whatever else is traded in it; the intended aggregate over the block is therefore refuted.", "quantifier": "every history, every sequence of trades in one block", "why_tests_cant": "depends on the interleaving of trades and blocks", "anchors": ["packages/astroport/src/observation.rs: PrecommitObservation::save", "contracts/pair_stable/src/utils.rs: accumulate_swap_sizes"]}
{"id": "C58", "title": "Constant-product LP tokens are minted and burned exactly, and user minimums hold", "statement": "The LP supply always equals the sum of all LP balances. A successful deposit pulls exactly the two deposits, credits exactly the receiver with min(d0*S/r0, d1*S/r1) rounded down (sqrt(d0*d1)-1000 for the first deposit, with 1000 credited to the locked account) and never less than the requested minimum. A successful withdrawal burns exactly the sent tokens and pays the floor of the pro-rata share of each asset, never less than the requested minimums; no other message mints or burns LP tokens.", "quantifier": "every reachable pair state, every message and its parameters", "why_tests_cant": "tests check fixed amounts; exactness of every balance for every reachable state is a statement about all histories", "anchors": ["contracts/pair/src/contract.rs:351-450", "contracts/pair/src/contract.rs:503-577", "contracts/pair/src/contract.rs:586-599", "contracts/pair/src/contract.rs:1438-1479"]}
{"id": "C59", "title": "Commission split and control of the fee share", "statement": "In a constant-product swap the fee-share recipient gets floor(commission*bps/10000), which is at most 10% of the commission, and the maker floor((commission - share)*maker rate) when a maker fee address is set, else nothing. The fee share changes only by a message from the factory owner, and is always absent or between 1 and 1000 basis points.", "quantifier": "every reachable state, every swap, every message", "why_tests_cant": "access control over every message kind and exact rounding over the whole input range", "anchors": ["contracts/pair/src/contract.rs:616-774", "contracts/pair/src/contract.rs:820-870", "contracts/pair/src/contract.rs:886-900"]}
{"id": "C60", "title": "Staking messages have exactly the documented effect and leaving is always possible", "statement": "Entering with a ASTRO mints floor(a*supply/deposits) xASTRO to the recipient and nobody else (a-1000, plus 1000 locked, when there is no supply); leaving with x xASTRO burns exactly x from the sender and pays floor(x*deposits/supply). Any holder other than the contract itself can always leave with any positive part of their balance.", "quantifier": "every reachable staking state, every user and amount", "why_tests_cant": "liveness for every reachable state and exactness of all balances", "anchors": ["contracts/tokenomics/staking/src/contract.rs:232-307", "contracts/tokenomics/staking/src/contract.rs:311-376"]}
{"id": "C61", "title": "A routed swap passes each hop's output on in full and the router keeps nothing", "statement": "With pairs that pay what they quote, each hop offers the router's entire balance of the hop's offer asset, the last hop pays the receiver, the router ends with a zero balance of every intermediate asset, and the amount received equals the forward simulation; the reverse simulation composes the pairs' reverse quotes from the last hop to the first.", "quantifier": "every route length, every honest pair behaviour, every starting balance", "why_tests_cant": "unbounded routes and arbitrary pair behaviour", "anchors": ["contracts/router/src/operations.rs: execute_swap_operation", "contracts/router/src/contract.rs: execute_swap_operations, simulate_swap_operations, simulate_reverse_swap_operations"]}
{"id": "C62", "title": "Spread limits along a route", "statement": "A single-hop route passes the caller's max_spread to the pair without a belief price, so the pair's spread limit applies. In a route of several hops every pair is called with the largest possible belief price, for which the pair's spread check accepts any outcome: only minimum_receive protects the caller.", "quantifier": "every route and every max_spread", "why_tests_cant": "claims that a check is disabled for all amounts and spreads", "anchors": ["contracts/router/src/operations.rs:94-131"]}
{"id": "C63", "title": "The stable pool's iterations converge to the exact curve", "statement": "Whenever the invariant computation returns a value of at least one token it differs from the exact invariant of the curve by at most 5*10^-18 downwards and 1.3*10^-11 upwards; whenever a swap leaves at least one token in the ask reserve, that reserve is below the exact curve of the pool's invariant by less than one base unit plus a few 10^-18, and above it by at most 10^-12: a trader never gets more than about one base unit too much.", "quantifier": "every reserves, amplification in [1, 10^6], offers, precisions", "why_tests_cant": "error bounds of an iteration over all real-valued inputs", "anchors": ["contracts/pair_stable/src/math.rs: compute_d, calculate_step, calc_y", "contracts/pair_stable/src/utils.rs: compute_swap"]}
{"id": "C64", "title": "Stable pool deposits are paid at the invariant per share", "statement": "A deposit into a stable pool with liquidity mints exactly floor(supply*(D1-D0)/D0) LP tokens to the receiver, where D0 and D1 are the computed invariants before and after, so the invariant per LP token never decreases; the first deposit mints the invariant less 1000 locked units; no other balance changes.", "quantifier": "every reachable pool and deposit, balanced or not", "why_tests_cant": "universal over pools and deposits; D is only known through the iteration", "anchors": ["contracts/pair_stable/src/contract.rs: provide_liquidity", "contracts/pair_stable/src/utils.rs: calculate_shares"]}
{"id": "C65", "title": "Trading back and forth in a stable pool is never profitable", "statement": "No sequence of swaps, by anybody and in any direction, takes some of one asset from a stable pool without leaving more of the other, provided each swap leaves a commission of at least one unit and a hair in the pool (and the reserves stay above a token); the tolerance is 24 n k units of 10^-18 for n swaps, with k bounding the skew of the pool. Without such a commission this fails: outputs are rounded up for the trader and the commission on a few units is zero, so single-unit trades extract units from an imbalanced pool.", "quantifier": "every reachable pool and every sequence of swaps at a fixed amplification", "why_tests_cant": "all sequences of trades on a numerically solved curve", "anchors": ["contracts/pair_stable/src/contract.rs: swap", "contracts/pair_stable/src/math.rs: compute_d, calc_y"]}
{"id": "C66", "title": "Stable pool cumulative prices integrate the price that held during the period", "statement": "With a swap or withdrawal the price accumulators grow by elapsed time times the fee-free output for one whole token at the reserves before the operation (modulo 2^128), at most once per block time. With a deposit of native assets this fails: the deposit is counted as if it had been in the pool during the whole elapsed period, so a depositor shifts the recorded average price of the past.", "quantifier": "every reachable pool, operation and time", "why_tests_cant": "universal over pools and operations", "anchors": ["contracts/pair_stable/src/contract.rs:338-450 provide_liquidity", "contracts/pair_stable/src/utils.rs: accumulate_prices"]}
{"id": "C67", "title": "The stable pool's commission cannot be avoided", "statement": "Exchanging one asset for the other should cost the commission by any sequence of operations. This fails: a one-sided deposit followed by a withdrawal exchanges assets at the curve price without commission.", "quantifier": "every reachable pool", "why_tests_cant": "compares sequences of operations", "anchors": ["contracts/pair_stable/src/utils.rs: calculate_shares", "contracts/pair_stable/src/contract.rs: provide_liquidity, withdraw_liquidity"]}
{"id": "C68", "title": "Incentives: a staker is owed exactly their share of the emission", "statement": "For a user whose indexes are up to date and a pool with stake, the pending amount of every external reward is position times (carried-over amount plus the scheduled emission since the last update, across all schedule changes, divided by the total stake), rounded down, and the protocol reward likewise with the pool's constant rate.", "quantifier": "every reachable state, time, reward, user", "why_tests_cant": "universal over schedules and times", "anchors": ["contracts/tokenomics/incentives/src/state.rs:98-208 update_rewards, calculate_rewards", "contracts/tokenomics/incentives/src/query.rs:159-203"]}
{"id": "C69", "title": "Incentives: a staker can always withdraw", "statement": "If every removal of a reward so far happened in a later second than the pool's last update, with nothing orphaned and the upcoming schedules not bypassed, then at any later time a user with a position, however it came about and however long ago it was last touched, can query the pending rewards, claim them, and withdraw any part of the position up to all of it: the LP tokens are returned and the position decreases by exactly that amount. This holds while amounts fit the integer types: balances and the ASTRO budget in 128 bits, time in 64 bits, reward indexes of the pool below half of the 256-bit range. Without the later-second condition it fails: if a user is synced in the same second in which the owner removes a reward (anybody can cause this by depositing one unit for the user) and the reward is set up again and finishes with a smaller index, every later withdrawal, claim and deposit of that user reverts, whatever messages follow.", "quantifier": "all regular histories, pools, users, amounts and later times; for the failing case all continuations of a concrete history", "why_tests_cant": "liveness over all reachable states and all continuations", "anchors": ["contracts/tokenomics/incentives/src/state.rs:607-696 claim_finished_rewards, update_and_sync_position", "contracts/tokenomics/incentives/src/execute.rs:219-264 withdraw"]}
{"id": "C72", "title": "Incentives: payments equal the query and others cannot change my pending rewards", "statement": "A claim, withdrawal or deposit pays exactly what the pending-rewards query says at that time. No message of another user or of the owner, except the removal of a reward, changes the pending rewards of a user with a positive position at that time. Two removals in the same second do change them: the first finished index is overwritten and the accrued reward is lost.", "quantifier": "every reachable state and message", "why_tests_cant": "non-interference over all messages and states", "anchors": ["contracts/tokenomics/incentives/src/utils.rs:24-96 claim_rewards", "contracts/tokenomics/incentives/src/state.rs:444-480 save"]}
{"id": "C70", "title": "ASTRO emission is split in proportion to allocation points", "statement": "At any time every active pool emits astro_per_second * alloc_points / total_alloc_points (rounded down to 18 decimals), inactive pools emit nothing, and the pools together emit at most astro_per_second and all of it up to rounding.", "quantifier": "all histories of messages by all users, any number of pools and any allocation", "why_tests_cant": "The rates are stored separately in each pool and rewritten by five different administrative messages; tests check single sequences only.", "anchors": ["contracts/tokenomics/incentives/src/execute.rs:266", "contracts/tokenomics/incentives/src/execute.rs:346", "contracts/tokenomics/incentives/src/execute.rs:468", "contracts/tokenomics/incentives/src/utils.rs:101"]}
{"id": "C71", "title": "At most five external rewards per pool", "statement": "A pool never has more than five external rewards at a time (MAX_REWARD_TOKENS).", "quantifier": "all histories of messages", "why_tests_cant": "The limit is compared with == while one token is exempt; only an invariant over all histories tells when it holds.", "anchors": ["contracts/tokenomics/incentives/src/state.rs:283", "packages/astroport/src/incentives.rs:17"]}
{"id": "C73", "title": "ASTRO paid never exceeds the emission schedule", "statement": "The ASTRO paid to users since instantiation, plus all ASTRO they could claim now, is at most the sum over time of the astro_per_second in force.", "quantifier": "all histories of deposits, withdrawals, claims and administrative changes by any users, at any times", "why_tests_cant": "The bound sums rounding, index updates and rate changes over all users, pools and messages.", "anchors": ["contracts/tokenomics/incentives/src/state.rs:98", "contracts/tokenomics/incentives/src/state.rs:211", "contracts/tokenomics/incentives/src/utils.rs:24"]}
{"id": "C74", "title": "Deactivated and blocked pools stop earning ASTRO", "statement": "A pool that is not active emits no ASTRO until a SetupPools message lists it again; DeactivatePool by the factory and blocking one of the pair's tokens or its pair type make the pool inactive.", "quantifier": "all histories of messages and all pools", "why_tests_cant": "It is a statement about all later histories after deactivation.", "anchors": ["contracts/tokenomics/incentives/src/utils.rs:101", "contracts/tokenomics/incentives/src/utils.rs:151", "contracts/tokenomics/incentives/src/execute.rs:468"]}
{"id": "C75", "title": "Anyone may trigger the maker, nobody but the owner directs it", "statement": "A collection, whoever calls it and whatever it names, sends ASTRO only to the configured second receiver, governance and staking addresses, other assets only to the dev fund's receiver, and swaps only at pairs known to the configured factory; receivers, percentages, routes and seizable assets change only through messages of the owner and stay within the documented limits in every reachable state. It starts with the configuration asked for at deployment: a spread limit of 5% unless given, no rewards running, no development fund, no bridges and nothing to seize.", "quantifier": "every sender, message, history, behaviour of pairs and iteration order", "why_tests_cant": "quantifies over all call arguments, nested bridge swaps and histories", "anchors": ["contracts/tokenomics/maker/src/contract.rs: collect, distribute, update_config", "contracts/tokenomics/maker/src/utils.rs: validate_bridge"]}
{"id": "C76", "title": "Seizing moves only seizable assets to the configured receiver", "statement": "Seize, callable by anybody, moves only assets on the seizable list, only to the configured receiver, exactly the smaller of requested amount and balance, and touches nothing else; it reverts if nothing is seizable. Only the owner changes the list and the receiver, and the list becomes exactly the one given. It should not make distribution impossible; that fails: seizing ASTRO while a pre-upgrade reward is pending makes collections revert.", "quantifier": "every state, request list and sender", "why_tests_cant": "all lists, limits and states", "anchors": ["contracts/tokenomics/maker/src/contract.rs: seize, execute"]}
{"id": "C77", "title": "Incentives settings change only by the roles documented for them", "statement": "Each administrative message of the incentives contract succeeds only for the owner, guardian or generator controller as documented; histories of user messages change no setting; a blocked token cannot be offered as reward; the blocked list changes exactly as requested.", "quantifier": "every message, sender and history", "why_tests_cant": "negative authority statement over all histories", "anchors": ["contracts/tokenomics/incentives/src/execute.rs"]}
{"id": "C78", "title": "The dev fund receives exactly what its share was swapped for", "statement": "The dev fund should receive exactly the proceeds of swapping its share. It receives those plus everything else the maker holds of that asset, so uncollected fees in that asset go to the dev fund instead of being shared out.", "quantifier": "every state and collection", "why_tests_cant": "depends on unrelated balances", "anchors": ["contracts/tokenomics/maker/src/reply.rs", "contracts/tokenomics/maker/src/contract.rs: distribute"]}
{"id": "C79", "title": "A collection respects the amount limits it was given", "statement": "A collection with a positive limit for an asset swaps at most that much of it, without a limit all of it, and nothing of assets not named. This holds for assets no configured route leads through and fails for assets that are an intermediate step of another named asset's route.", "quantifier": "every state, list of assets and routes", "why_tests_cant": "all route graphs", "anchors": ["contracts/tokenomics/maker/src/contract.rs: collect, swap_assets, swap_bridge_assets"]}
{"id": "C80", "title": "Paging through the coin registry returns every denom exactly once", "statement": "Reading the registry page by page, continuing each time after the last denom received, returns each recorded denom with its decimals exactly once, for every page size; every page is as full as its limit allows, 50 by default.", "quantifier": "every registry content and page size", "why_tests_cant": "all contents and page sizes", "anchors": ["contracts/periphery/native_coin_registry/src/contract.rs: query_native_tokens"]}
{"id": "C81", "title": "Fee grants are covered by the granter's gas coins", "statement": "As long as nobody grants with the balance check bypassed and no coins are transferred out, the sum of all remaining fee allowances is at most the contract's gas coin balance, over any history of grants, revocations and spending. With the bypass it is not.", "quantifier": "every history of messages and fee payments", "why_tests_cant": "conservation over unbounded histories", "anchors": ["contracts/periphery/fee_granter/src/contract.rs: grant, revoke, transfer_coins"]}
{"id": "C82", "title": "An account whose fee grant is over can get a new one", "statement": "After a revocation the same account can be granted again. This fails when the allowance is used up completely: the chain deletes it, the contract's record stays, so that neither Revoke nor Grant for this account ever succeeds again.", "quantifier": "every history", "why_tests_cant": "depends on the chain deleting exhausted allowances, which contract tests do not simulate", "anchors": ["contracts/periphery/fee_granter/src/contract.rs: grant, revoke"]}
{"id": "C83", "title": "The converter pair swaps old ASTRO one for one", "statement": "A swap in the ASTRO converter pair pays exactly the offered amount of new ASTRO, without spread or commission, only for the old ASTRO token; simulations in both directions quote the same amount; every such swap is open as long as the converter holds enough.", "quantifier": "every amount and state", "why_tests_cant": "universal over amounts and states", "anchors": ["contracts/pair_astro_converter/src/contract.rs: swap, query_simulation, query_reverse_simulation"]}
{"id": "C84", "title": "Whitelist contract acts only for its admins and freezing is final", "statement": "Only listed admins make the whitelist contract (the generator controller / proxy account) execute messages; only they change the list, and only while it is mutable; once frozen the list never changes again; any admin can always execute.", "quantifier": "every history of messages from any senders", "why_tests_cant": "trace property", "anchors": ["contracts/whitelist/src/contract.rs: instantiate, execute"]}
{"id": "C85", "title": "Reverse simulation of the xASTRO pair names an offer that suffices", "statement": "Offering the amount quoted by the reverse simulation returns at least the asked amount. This fails: the quote is rounded down and can be one unit short; one unit more always suffices.", "quantifier": "every staking state and amount", "why_tests_cant": "needs all ratios of deposit and shares", "anchors": ["contracts/pair_xastro/src/contract.rs: query_reverse_simulation"]}
{"id": "C86", "title": "Minimum amounts are honoured by the sale-tax pair", "statement": "A provide or withdrawal carrying a minimum LP amount or minimum assets either gives at least these or is refused. This fails for the sale-tax pair: both fields are accepted and ignored.", "quantifier": "every state and amount", "why_tests_cant": "absence of a check; existing tests copied from the plain pair do not set the fields", "anchors": ["contracts/pair_xyk_sale_tax/src/contract.rs: execute (ProvideLiquidity, WithdrawLiquidity), provide_liquidity, withdraw_liquidity"]}
{"id": "C87", "title": "The sale-tax pair behaves as a plain pair fed with the offers after tax", "statement": "For every history of a sale-tax pair there is a history of a plain constant-product pair, with the offers reduced by the tax, which goes through the same pool states and makes the same payments; so the guarantees of the plain pair (product, solvency, LP value, prices) hold for it.", "quantifier": "every history of messages", "why_tests_cant": "refinement over unbounded histories", "anchors": ["contracts/pair_xyk_sale_tax/src/contract.rs: swap, provide_liquidity, withdraw_liquidity; contracts/pair/src/contract.rs"]}
{"id": "C88", "title": "Concentrated pair: every unit is accounted for", "statement": "A swap adds exactly the offer to the offered reserve and removes exactly return + maker fee + shared fee from the asked reserve, which stays non-negative; commission is at most 1/99 of the return, maker fee + shared fee are at most the commission and obey their rates; LP balances and settings do not change. LP balances always add up to the supply, and after the first deposit at least 1000 LP tokens stay in the pair for ever, so the supply never returns to zero.", "quantifier": "every state reachable from a deployment by messages in block-time order, every message", "why_tests_cant": "conservation over unbounded histories and all amounts, precisions and fee settings", "anchors": ["contracts/pair_concentrated/src/contract.rs: swap, provide_liquidity, withdraw_liquidity", "packages/astroport_pcl_common/src/utils.rs: compute_swap"]}
{"id": "C89", "title": "Trading never takes value from LP tokens of the concentrated pair", "statement": "Outside a change of amplification/gamma, no swap or deposit lowers the recorded value of an LP token unless it moves the price scale, and then LP tokens keep more than half of all recorded profit; over any history without withdrawals and parameter changes an LP token is worth at least the one unit it was created for; for 18-decimal assets the LP price reported right after a normal trade is that recorded value. During a parameter change the claim fails.", "quantifier": "every state reachable from a deployment by messages in block-time order, every message", "why_tests_cant": "an invariant of an iterative numeric algorithm over unbounded histories", "anchors": ["packages/astroport_pcl_common/src/state.rs: update_price", "packages/astroport_pcl_common/src/utils.rs: calc_last_prices", "contracts/pair_concentrated/src/queries.rs: query_lp_price"]}
{"id": "C90", "title": "Deposits and withdrawals of the concentrated pair are pro rata and dilute nobody", "statement": "Withdrawing n LP tokens pays at most (n-1)/supply of each reserve and at least that minus two units and 1e-18 of the reserve; what remains per LP token does not fall; nobody else's LP balance changes. A deposit that does not move the price scale never lowers D (as the ComputeD query reports it) per LP token. The first deposit makes an LP token worth at least one and at most one plus one LP unit's rounding, whatever was sent to the pair before.", "quantifier": "every state reachable from a deployment by messages in block-time order, every message", "why_tests_cant": "quantifies over all reserves, precisions, amounts; D comes from an iteration", "anchors": ["contracts/pair_concentrated/src/contract.rs: provide_liquidity, withdraw_liquidity", "packages/astroport_pcl_common/src/utils.rs: get_share_in_assets"]}
{"id": "C91", "title": "The internal price oracle of the concentrated pair cannot be moved within a second", "statement": "The oracle moves only in swaps and deposits, at most once per second, to a weighted mean of its old value and the price of the previous trade; the weight of the old value halves with every half-time, so the distance to the previous price at least halves too; the new value never depends on the trade that triggers it; and its computation never fails; a swap of at least 10^-5 tokens on both sides records as last price what was offered against what left the pool, a smaller one changes nothing.", "quantifier": "every state reachable from a deployment by messages in block-time order, every message", "why_tests_cant": "a claim about all pairs of trades and all elapsed times, including the truncated binomial series used for 0.5^x", "anchors": ["packages/astroport_pcl_common/src/state.rs: update_price", "packages/astroport_pcl_common/src/math/math_decimal.rs: half_float_pow"]}
{"id": "C92", "title": "Queries of the concentrated pair announce what the transaction does", "statement": "Simulation, SimulateProvide and Share/SimulateWithdraw return exactly the amounts the corresponding message would pay at the same time. The reverse simulation fails this: offering the quoted amount can return less than asked.", "quantifier": "every state reachable from a deployment by messages in block-time order, every message", "why_tests_cant": "equality of two code paths on all states", "anchors": ["contracts/pair_concentrated/src/queries.rs", "contracts/pair_concentrated/src/contract.rs"]}
{"id": "C93", "title": "A swap never disables later swaps of the concentrated pair", "statement": "No accepted trade makes all later swaps fail. This is false: with a CW20 asset of few decimals a trade that returns zero units leaves a zero price observation, after which every swap reverts for ever.", "quantifier": "every state reachable from a deployment by messages in block-time order, every message", "why_tests_cant": "needs a rare rounding case followed by an unbounded future", "anchors": ["contracts/pair_concentrated/src/contract.rs: swap", "packages/astroport_pcl_common/src/utils.rs: accumulate_swap_sizes", "packages/astroport/src/observation.rs: PrecommitObservation"]}
{"id": "C94", "title": "Swapping there and back in the concentrated pair yields no profit", "statement": "A round trip of normal size at one instant does not lower the LP price. For tiny trades (below 1e-5) the claim fails: the loss check is skipped and the tolerance of the Newton iterations lets a trader take out many times the offered amount.", "quantifier": "every state reachable from a deployment by messages in block-time order, every message", "why_tests_cant": "the gain lives below the sizes tests use and comes from an iteration's stopping rule", "anchors": ["packages/astroport_pcl_common/src/state.rs: update_price", "contracts/pair_concentrated/src/contract.rs: swap", "packages/astroport_pcl_common/src/math/math_decimal.rs: newton_d, newton_y"]}
{"id": "C95", "title": "Historic balances of the concentrated pair", "statement": "AssetBalanceAt for a height returns the reserve at the start of that block as kept by the pair's own operations, for both assets and every height, when tracking is on.", "quantifier": "every history with non-decreasing heights without plain donations", "why_tests_cant": "unbounded history", "anchors": ["contracts/pair_concentrated/src/contract.rs: provide_liquidity, withdraw_liquidity, swap", "contracts/pair_concentrated/src/queries.rs: query_asset_balances_at"]}
{"id": "C96", "title": "The price scale of the concentrated pair moves only towards the oracle and only when profit pays for it", "statement": "The price scale changes only in swaps and deposits; the step goes towards the oracle by max(min_price_scale_delta, a tenth of the relative deviation), never overshoots it, happens only if the deviation is at least the configured minimum, and afterwards LP tokens keep more than half of all recorded profit.", "quantifier": "every state reachable from a deployment by messages in block-time order, every message", "why_tests_cant": "numeric relation for all states and elapsed times", "anchors": ["packages/astroport_pcl_common/src/state.rs: update_price"]}
{"id": "C97", "title": "Minimum amounts of a withdrawal from the concentrated pair are honoured", "statement": "A withdrawal carrying min_assets_to_receive pays at least these or is refused. This fails: the field is ignored, it never changes the result.", "quantifier": "every state reachable from a deployment by messages in block-time order, every message", "why_tests_cant": "absence of a check", "anchors": ["contracts/pair_concentrated/src/contract.rs: receive_cw20, withdraw_liquidity"]}
{"id": "C98", "title": "A permitted parameter change of the concentrated pair does not stop trading", "statement": "After an accepted PromoteParams normal swaps and deposits keep working. This fails: lowering the amplification within the permitted factor lowers the computed LP value below the recorded one (and below one), after which normal swaps in both directions and deposits revert, during and long after the change.", "quantifier": "a concrete history", "why_tests_cant": "needs a day-long change and an imbalanced pool", "anchors": ["packages/astroport_pcl_common/src/state.rs: update_price, promote_params, get_amp_gamma"]}
{"id": "C99", "title": "Swaps and deposits of the concentrated pair respect the user's slippage limit", "statement": "If a swap succeeds, then with a belief price the return is at least (offer / belief) times (1 - max_spread) up to rounding, and without one the reported spread is at most max_spread of return + spread; a max_spread above 50% is refused. A deposit that is out of proportion on both sides by at least 10^-5 tokens mints at least (1 - tolerance) of the LP tokens that its value, split evenly at the pool's price, is worth; the tolerance is 5% unless given and never above 50%.", "quantifier": "every state reachable from a deployment by messages in block-time order, every message", "why_tests_cant": "all prices, amounts and limits", "anchors": ["packages/astroport_pcl_common/src/utils.rs: assert_max_spread", "contracts/pair_concentrated/src/contract.rs: swap", "packages/astroport_pcl_common/src/utils.rs: assert_slippage_tolerance"]}
{"id": "C100", "title": "Cumulative prices of the concentrated pair", "statement": "Each swap adds elapsed seconds times the price valid before it, each deposit elapsed seconds times the last price, in both directions with six decimals; no other message changes the cumulative prices; two messages in the same second count once. The price is that of swapping a ten-thousandth of the first reserve (at most one token, at least the smallest amount) including the commission.", "quantifier": "every state reachable from a deployment by messages in block-time order, every message", "why_tests_cant": "unbounded histories", "anchors": ["contracts/pair_concentrated/src/utils.rs: accumulate_prices", "contracts/pair_concentrated/src/contract.rs"]}
{"id": "C101", "title": "The order-book pair never loses track of its orders", "statement": "Every message keeps each order the pair has on record in existence, so that deposits, withdrawals, swaps and syncs keep working. This fails: a message that cancels the recorded orders and places none (sizes below the minimum, or a zero price) keeps the record; from then on every deposit, withdrawal, swap and sync and the owner's attempt to disable the book revert for ever, whatever happens, and all liquidity is locked. This is the only way the record and the book get out of step.", "quantifier": "every state reachable from a deployment of pair_concentrated_duality, or from the migration of a concentrated pair with native assets, by any messages and any fills on the order book, every message and environment, all continuations", "why_tests_cant": "unbounded continuations after the failure, and all messages", "anchors": ["contracts/pair_concentrated_duality/src/orderbook/state.rs: cancel_orders, deploy_orders, flatten_msgs_and_add_callback, fetch_all_orders", "contracts/pair_concentrated_duality/src/execute.rs: withdraw_liquidity, update_config"]}
{"id": "C102", "title": "Orders of the order-book pair lie on its curve", "statement": "Whenever a message places orders, then with D the invariant of the volumes held after the message (contract and book, within five coins), the first k sell orders together bring exactly what the curve asks for their total size net of the out fee, up to size/10^18 + 1 units of the 18-digit volumes and never more, for every k and both sides; the least average price and the limit price (price plus the configured adjustment) are these prices in smallest units. The conversion to smallest units loses digits when the asset sold has more decimals than the other: an 18-decimal asset worth 1.9e-6 of a 6-decimal asset is offered at 1e-6, half of the pool's price.", "quantifier": "every state reachable from a deployment of pair_concentrated_duality, or from the migration of a concentrated pair with native assets, by any messages and any fills on the order book, every message and environment", "why_tests_cant": "all volumes, prices and numbers of orders", "anchors": ["contracts/pair_concentrated_duality/src/orderbook/utils.rs: compute_offer_amount, SpotOrdersFactory::construct_orders, collect_spot_orders, price_to_duality_notation", "contracts/pair_concentrated_duality/src/orderbook/state.rs: deploy_orders"]}
{"id": "C103", "title": "The order-book pair exports no more than the configured share", "statement": "Whenever a message places orders the book is enabled, there are orders_number orders on each side, all of one size per side which is recorded and not below the configured minimum, and together the orders of one asset are at most liquidity_percent / 2 of what the pair then holds of it.", "quantifier": "every state reachable from a deployment of pair_concentrated_duality, or from the migration of a concentrated pair with native assets, by any messages and any fills on the order book, every message and environment", "why_tests_cant": "all pool sizes and configurations", "anchors": ["contracts/pair_concentrated_duality/src/orderbook/state.rs: deploy_orders", "contracts/pair_concentrated_duality/src/orderbook/utils.rs"]}
{"id": "C104", "title": "The price recorded for filled orders is a price that was traded", "statement": "When only one side of the book was filled, a sync records the average price of these fills (asset 0 per asset 1) as the last price, if the amounts reach the minimum trade size, and nothing otherwise. When both sides were filled it records the asset 0 received by the one over the asset 1 received by the other, which is unrelated to any price traded: with fills at 1.83 and 2.19 it records 0.002.", "quantifier": "every state reachable from a deployment of pair_concentrated_duality, or from the migration of a concentrated pair with native assets, by any messages and any fills on the order book, every message and environment", "why_tests_cant": "all combinations of partial fills", "anchors": ["contracts/pair_concentrated_duality/src/orderbook/execute.rs: process_cumulative_trades", "contracts/pair_concentrated_duality/src/orderbook/state.rs: fetch_cumulative_trades"]}
{"id": "C105", "title": "Fills on the order book cannot stop the pair", "statement": "Whatever orders are filled, deposits, withdrawals, swaps and syncs still work. This fails: when both sides were filled and the asset 0 received equals the asset 0 sold (or, in the other iteration order, the same for asset 1) every such message panics until somebody fills more.", "quantifier": "every state reachable from a deployment of pair_concentrated_duality, or from the migration of a concentrated pair with native assets, by any messages and any fills on the order book, every message and environment", "why_tests_cant": "an equality between two sums of fills that no test hits", "anchors": ["contracts/pair_concentrated_duality/src/orderbook/execute.rs: process_cumulative_trades (Ordering::Equal => unreachable!())"]}
{"id": "C106", "title": "Limits and authority of the order-book configuration", "statement": "In every reachable state 1 <= orders_number <= 15, liquidity_percent between 1% and 50%, avg_price_adjustment between 0.01% and 0.3% and both minimal sizes positive. Only the owner's message changes the configuration, exactly in the fields it names; a sync is accepted only from the executor when one is set.", "quantifier": "every state reachable from a deployment of pair_concentrated_duality, or from the migration of a concentrated pair with native assets, by any messages and any fills on the order book, every message and environment", "why_tests_cant": "all histories of updates", "anchors": ["contracts/pair_concentrated_duality/src/orderbook/state.rs: update_config, validate", "contracts/pair_concentrated_duality/src/execute.rs: update_config", "contracts/pair_concentrated_duality/src/orderbook/execute.rs: sync_pool_with_orderbook"]}
{"id": "C107", "title": "Settlement of the order-book pair conserves coins", "statement": "Every deposit, withdrawal, swap and sync first takes back everything lying in its orders; the contract's balance afterwards is what it had, plus what the message brings and what lay in the orders, minus the fees and the payout it reports and what it places in new orders, plus what these traded at once; other orders in the book stay. A withdrawal pays pro rata to what contract and book hold together after fees (up to two coins and a relative 10^-18) and at least the requested minimum.", "quantifier": "every state reachable from a deployment of pair_concentrated_duality, or from the migration of a concentrated pair with native assets, by any messages and any fills on the order book, every message and environment", "why_tests_cant": "all combinations of orders, fills and messages", "anchors": ["contracts/pair_concentrated_duality/src/execute.rs: provide_liquidity, withdraw_liquidity, swap", "contracts/pair_concentrated_duality/src/orderbook/execute.rs", "contracts/pair_concentrated_duality/src/orderbook/state.rs"]}
{"id": "C108", "title": "Fees on filled orders", "statement": "A message that settles filled orders pays, per asset, exactly the fee-share part and the maker's part of the out fee on what the orders of that asset sold, if they received anything, and never more than the out fee on it.", "quantifier": "every state reachable from a deployment of pair_concentrated_duality, or from the migration of a concentrated pair with native assets, by any messages and any fills on the order book, every message and environment", "why_tests_cant": "all fills, fee rates and precisions", "anchors": ["contracts/pair_concentrated_duality/src/orderbook/execute.rs: process_cumulative_trades"]}
{"id": "C109", "title": "Orders traded at once are accounted like other fills", "statement": "When orders trade while they are placed, the pair later records the amounts traded. It notes one trade, of the asset 0 that came in or, only if none did, of the asset 1, up to five coins, and takes the size of one order for what was paid. So this fails: with two orders taken at once it records half the price and takes half the fee; and after a swap of asset 1 the unit left by rounding is taken for the trade, so that the real one is never recorded and a fee is taken on the asset that was not sold.", "quantifier": "every state reachable from a deployment of pair_concentrated_duality, or from the migration of a concentrated pair with native assets, by any messages and any fills on the order book, every message and environment", "why_tests_cant": "depends on rounding and on how many orders match at once", "anchors": ["contracts/pair_concentrated_duality/src/orderbook/utils.rs: fetch_autoexecuted_trade", "contracts/pair_concentrated_duality/src/reply.rs", "contracts/pair_concentrated_duality/src/orderbook/state.rs: fetch_cumulative_trades"]}
{"id": "C110", "title": "Settling the book keeps the profit of the order-book pair", "statement": "After the end of a parameter change, a sync never lowers the recorded value of an LP token unless it moves the price scale, and then keeps at least half of the profit; in every message except a withdrawal the value of an LP token stays above one and above half of the profit.", "quantifier": "every state reachable from a deployment of pair_concentrated_duality, or from the migration of a concentrated pair with native assets, by any messages and any fills on the order book, every message and environment", "why_tests_cant": "numeric behaviour over all pools", "anchors": ["contracts/pair_concentrated_duality/src/orderbook/execute.rs", "packages/astroport_pcl_common/src/state.rs: update_price"]}
{"id": "C111", "title": "Queries of the order-book pair match the messages", "statement": "The Share query returns what a withdrawal pays, SimulateProvide the shares a deposit mints, Simulation the return, spread and commission of a swap in the same state, whatever lies in the order book.", "quantifier": "every state reachable from a deployment of pair_concentrated_duality, or from the migration of a concentrated pair with native assets, by any messages and any fills on the order book, every message and environment", "why_tests_cant": "all books and fills", "anchors": ["contracts/pair_concentrated_duality/src/queries.rs: query_share, query_simulation, query_simulate_provide"]}
{"id": "C112", "title": "Disabling the book brings everything back", "statement": "When the owner disables the book everything lying in the recorded orders is back in the contract, the record is empty, and LP tokens and price state are unchanged. The fees of orders filled since the last settlement are not paid, then or later.", "quantifier": "every state reachable from a deployment of pair_concentrated_duality, or from the migration of a concentrated pair with native assets, by any messages and any fills on the order book, every message and environment", "why_tests_cant": "all books and fills", "anchors": ["contracts/pair_concentrated_duality/src/execute.rs: update_config", "contracts/pair_concentrated_duality/src/orderbook/state.rs: cancel_orders"]}
{"id": "C113", "title": "Without the book the order-book pair is the concentrated pair", "statement": "While the book is disabled and empty every deposit, withdrawal without minimum, swap and configuration message has exactly the result and effect it has in the concentrated pair (apart from the price history), and this stays so until the owner enables the book.", "quantifier": "every state reachable from a deployment of pair_concentrated_duality, or from the migration of a concentrated pair with native assets, by any messages and any fills on the order book, every message and environment", "why_tests_cant": "equality of two implementations on all inputs", "anchors": ["contracts/pair_concentrated_duality/src/execute.rs", "contracts/pair_concentrated/src/contract.rs"]}
{"id": "C114", "title": "A message to a pair is credited exactly the coins that came with it", "statement": "For the constant-product, sale-tax, stable, concentrated and order-book pairs: an accepted deposit credits for each pool asset exactly what the sender hands over of it (attached coins, or tokens the pair pulls), which is the amount the message states; coins of any other denom are refused; the shares are computed from the reserves held before the message; the order in which assets or coins are listed does not matter; a correctly stated deposit is not refused for its coins. An accepted swap is for exactly the single coin attached, or exactly the amount a pool token's contract has just transferred; a withdrawal burns exactly the LP tokens attached and accepts nothing else.", "quantifier": "every pool of two distinct assets, native or CW20, all balances, every list of assets and every set of coins the chain can attach", "why_tests_cant": "quantifies over every combination of listed assets, attached coins, asset kinds and orders", "anchors": ["packages/astroport/src/asset.rs: assert_sent_native_token_balance, CoinsExt::assert_coins_properly_sent", "contracts/pair/src/contract.rs: provide_liquidity, swap, withdraw_liquidity, get_deposits_from_assets", "contracts/pair_stable/src/utils.rs: get_assets_collection", "contracts/pair_concentrated/src/utils.rs: get_assets_with_precision", "contracts/pair_concentrated_duality/src/utils.rs: get_assets_with_precision"]}
{"id": "C115", "title": "Depositing and withdrawing at once is never profitable (concentrated pair)", "statement": "A deposit into a concentrated pair followed at once by the withdrawal of the shares it minted should not return more of an asset than was put in. Holds whenever the D the pair reports does not grow by a larger factor than that reserve, and in every case the payout of asset i is at most (r_i + d_i)(D2 - D1)/D2 for the D reported before and after. Fails in small, skewed pools, where the D solver stops too early: a depositor of twice the reserves takes out 40% more of both assets at the cost of the other providers.", "quantifier": "every state reachable from a deployment of pair_concentrated, every deposit, depositor, environment (witness for the failure: one reachable state)", "why_tests_cant": "depends on the solver's error over the whole space of pools; the profitable region is a corner no test samples", "anchors": ["contracts/pair_concentrated/src/contract.rs: provide_liquidity, withdraw_liquidity", "packages/astroport_pcl_common/src/math/math_decimal.rs: newton_d"]}
{"id": "C116", "title": "The D a concentrated pair reports solves its curve", "statement": "For given amplification, gamma and reserves the curve equation has exactly one solution D between 2*sqrt(xy) and x+y (stated over fractions: everything below is at most everything above, and both sides come arbitrarily close), and the D reported by the pair is within 4e-5 + 1e-8*D of it, provided gamma >= 1e-4, x*y >= 1, gamma*D >= 1e-3, the pool is not skewed beyond a billion to one, and D lies in that range up to rounding. For a balanced pool (at most 9 decimals) it is exactly the sum of the two reserves. Fails for tiny skewed pools: reported D less than a fifth of the exact one.", "quantifier": "every state reachable from a deployment of pair_concentrated, every time, every fraction on either side of the exact solution", "why_tests_cant": "error bound of a fixed-point Newton iteration against the exact rational curve, over all reserves and parameters", "anchors": ["packages/astroport_pcl_common/src/math/math_decimal.rs: f, df_dd, newton_d", "contracts/pair_concentrated/src/queries.rs: query_compute_d"]}
{"id": "C117", "title": "Who owns a stable, concentrated or order-book pair", "statement": "A pair is governed by its own owner, or by the owner of the factory as long as it has none of its own. It gets a new owner only when the address named in the last proposal, made by whoever governed the pair then and not withdrawn or replaced since, claims it within the validity of the proposal (at most 14 days); such a claim is always accepted; nobody but the governor can change settings or make or withdraw proposals. A proposal should not outlive the authority of its author; that fails: while a pair has no owner of its own, a proposal made by a former factory owner can still be claimed after the factory has changed hands, which locks the new factory owner out of the pair.", "quantifier": "every history of messages by any senders, with the factory's owner changing arbitrarily in between, for all three kinds of pair", "why_tests_cant": "all interleavings of proposals, claims, withdrawals of proposals, settings and factory ownership changes over time", "anchors": ["packages/astroport/src/common.rs: propose_new_owner, drop_ownership_proposal, claim_ownership", "contracts/pair_stable/src/contract.rs: execute, update_config", "contracts/pair_concentrated/src/contract.rs: execute, update_config", "contracts/pair_concentrated_duality/src/execute.rs"]}
{"id": "C118", "title": "Collected fees are swapped through to ASTRO, leaving nothing behind", "statement": "A successful collection leaves no balance of any asset collected without a limit, nor of any asset received from a swap on the way (ASTRO and the asset of the dev fund aside). An asset with a bridge is swapped to exactly that bridge asset at an existing pool, from which existing pools lead on to ASTRO; without one it goes to the default bridge asset if the factory knows a pool of the two, else straight to ASTRO. Settings accepted by the contract should leave collectable what was collectable; that fails: bridges forming a circle are accepted, and then no collection of an asset on the circle succeeds as long as swaps return something. An asset without a bridge also becomes uncollectable when somebody creates a pool of it and the default bridge asset that rejects swaps, even if its ASTRO pool works.", "quantifier": "every state, list of assets with limits, sender, existing pools, swap results and iteration order of the bridge assets", "why_tests_cant": "all multi-hop routes over arbitrary pools and arbitrary swap results", "anchors": ["contracts/tokenomics/maker/src/contract.rs: collect, swap_assets, swap, swap_bridge_assets, update_bridges", "contracts/tokenomics/maker/src/utils.rs: validate_bridge, build_distribute_msg"]}
{"id": "C119", "title": "An LP token of a stable pool does not lose value", "statement": "In every history of deposits (balanced or not), withdrawals, swaps that leave a commission of at least one unit and a hair, donations, LP transfers and administration, the value of one LP token, measured as the exact invariant of the reserves divided by the supply at a fixed amplification, falls by at most one part in 3*10^10 for each deposit and swap, and by nothing for everything else.", "quantifier": "every reachable pool with at least a token of each asset and every history with the amplification unchanged", "why_tests_cant": "unbounded histories; the value is defined by the exact curve, which the code only approximates", "anchors": ["contracts/pair_stable/src/contract.rs: provide_liquidity, withdraw_liquidity, swap", "contracts/pair_stable/src/utils.rs: calculate_shares, compute_swap", "contracts/pair_stable/src/math.rs: compute_d, calc_y"]}
{"id": "C120", "title": "ASTRO rewards are covered by vesting", "statement": "The ASTRO drawn from the vesting account of the incentives contract equals what the incentives contract paid to stakers. While that account has released at least the emission speed times the elapsed time, no message to the incentives contract fails for lack of ASTRO, and in regular histories every staker can withdraw. Otherwise stakers are locked: a staker whose pending ASTRO exceeds what the vesting account can pay at the moment can neither withdraw any part of the position nor claim, and nobody can deposit for them.", "quantifier": "all interleaved histories of messages to the incentives and the vesting contract, all stakers, amounts and times", "why_tests_cant": "two contracts, unbounded interleavings, liveness", "anchors": ["contracts/tokenomics/incentives/src/utils.rs:82-92 claim_rewards", "contracts/tokenomics/vesting/src/contract.rs:244-283 claim"]}
{"id": "C121", "title": "What a swap takes out of a concentrated pair is what its curve says", "statement": "With D and one reserve given, the curve equation has exactly one solution for the other reserve (stated over fractions: both sides are ordered and come arbitrarily close). The return plus commission a simulation announces is, up to two smallest units, the asked reserve minus a value R that is within 4e-5 + 1e-8*R of the solution of the curve for the D the pair reports and the offered reserve increased by the offer; provided gamma >= 1e-4, D and both reserves are at least about one token and 1e-3/gamma, the reserves after the trade are not skewed beyond a billion to one, and R lies in the range of the curve up to rounding. (Executed swaps pay what the simulation announces: C92.)", "quantifier": "every state reachable from a deployment of pair_concentrated, both directions, every offer, every time, every fraction on either side of the exact solution", "why_tests_cant": "error bound of a fixed-point Newton iteration against the exact curve, over all reserves, offers and parameters", "anchors": ["packages/astroport_pcl_common/src/math/math_decimal.rs: f, df_dx, newton_y", "packages/astroport_pcl_common/src/utils.rs: compute_swap", "contracts/pair_concentrated/src/queries.rs: query_simulation, query_compute_d"]}
{"id": "C122", "title": "Migrating a concentrated pair to the order-book code keeps it; a CW20 asset makes it unsafe", "statement": "The migration from the concentrated pair keeps reserves, LP tokens, parameters, prices, accumulators, fee share and owner, and starts with the book off, empty and with valid settings. While the book is off, any sequence of messages the concentrated pair with native assets would accept is accepted with the same results and the same pool. A pair with a CW20 asset is accepted by the migration too although a new order-book pair may not have one: afterwards a swap naming the CW20 asset pays out the other asset and takes nothing in, and deposits always fail. Such a swap passes only if the value of an LP token has grown by as much since the last trade or an amount is below the minimum trade size, except while amplification and gamma are being changed: then anyone can take most of the other asset for nothing (refuted).", "quantifier": "every reachable state of the concentrated pair, every migration message, every sequence of messages afterwards", "why_tests_cant": "equality of two contracts over all states and sequences; the loss needs a migration, a CW20 asset and a running parameter change together", "anchors": ["contracts/pair_concentrated_duality/src/migrate.rs: migrate", "contracts/pair_concentrated_duality/src/execute.rs: execute, swap, provide_liquidity", "packages/astroport/src/asset.rs: assert_sent_native_token_balance"]}
{"id": "C123", "title": "The vesting contract's migration to new ASTRO loses nothing", "statement": "The migration exchanges the whole balance of the vesting contract one to one through the converter, changes no account, schedule or claim record, and pays nobody. Claims before and after the migration together never exceed what has unlocked and equal the recorded amount; the contract always holds, in the asset it pays claims in, at least what it still owes, so every account can take everything unlocked. The migration succeeds exactly when the stored version is one of the four old ones, the vested asset is the converter's old ASTRO, the balance is not zero and the converter has enough new ASTRO; it never runs twice.", "quantifier": "all histories of vesting messages, transfers to the contract, uses of the converter by others and migration attempts, all accounts and times", "why_tests_cant": "conservation and solvency across a change of the paid asset, over unbounded interleavings of two contracts", "anchors": ["contracts/tokenomics/vesting/src/contract.rs:520-586", "contracts/periphery/astro_converter/src/contract.rs: convert"]}
{"id": "C124", "title": "The factory's migration keeps every pair type's terms", "statement": "From the old versions every pair type keeps its code, fees and switches under its (possibly new) name and is open to everybody as before, no other type appears, and registered pairs stay. If both a concentrated and a custom type called 'concentrated' are configured the migration fails as a whole. From later versions the configurations are unchanged, and a migration cannot be repeated.", "quantifier": "all storages written by the old code, all migration messages", "why_tests_cant": "all sets of configurations under a byte-ordered key space with renaming", "anchors": ["contracts/factory/src/contract.rs:568-620 migrate", "contracts/factory/src/migration.rs: migrate_pair_configs"]}
{"id": "C125", "title": "A constant-product pair moved to the sale-tax code keeps its pools but locks its liquidity", "statement": "The migration keeps reserves, LP balances, price accumulators and recorded balances, sets taxes of at most one half and quotes as before for what is left after tax; any later trades leave pools a plain pair could have had. But the accepted versions have a CW20 LP token and the new code only handles an LP coin: afterwards every deposit and every withdrawal fails for ever, so liquidity that could be withdrawn before the migration never can be (refuted).", "quantifier": "all reachable pools, tax settings, and message sequences after the migration", "why_tests_cant": "permanent lock over all later sequences; upgrade across two contracts", "anchors": ["contracts/pair_xyk_sale_tax/src/contract.rs:1416-1463 migrate", "contracts/pair_xyk_sale_tax/src/contract.rs: provide_liquidity, withdraw_liquidity"]}
{"id": "C126", "title": "A constant-product pair moved to the converter code never touches its former pools", "statement": "The migration is accepted exactly for pairs of old and new ASTRO at the listed versions. Afterwards only swaps of old ASTRO are served; each passes exactly what the trader offered through the converter, and the assets the pair held stay in it for ever, with the LP tokens in circulation never getting anything for them.", "quantifier": "all migrated pools and all message sequences afterwards", "why_tests_cant": "claim about all later sequences", "anchors": ["contracts/pair_astro_converter/src/contract.rs:150-186 migrate", "contracts/pair_astro_converter/src/contract.rs: execute, swap"]}
{"id": "C127", "title": "A balance tracker switched from blocks to seconds answers for times since the switch only", "statement": "After the migration, balances at any time since it, the present balance, and balances at heights before it are answered correctly; kept on blocks, every height is answered correctly. A time before the migration is answered with the balance at the migration, which need not be what the account had then (refuted): a purchase made after the asked time but before the migration is counted. The migration runs once, from version 1.0.0.", "quantifier": "all chronological histories of bank events around a migration, all accounts and asked units", "why_tests_cant": "all histories; the error depends on where the asked time falls among three scales", "anchors": ["contracts/periphery/tokenfactory_tracker/src/contract.rs:128-171 migrate", "contracts/periphery/tokenfactory_tracker/src/query.rs: balance_at"]}
{"id": "C128", "title": "The oracle's migration keeps its observation", "statement": "The averages in both directions are those of before, so consulting gives the same answers; the next update is accepted only a full period after the old observation and then gives the averages over the whole time since it.", "quantifier": "all stored observations, amounts, later times and cumulative prices", "why_tests_cant": "all values including wrap-around of the cumulative prices", "anchors": ["contracts/periphery/oracle/src/contract.rs:192-252 migrate", "contracts/periphery/oracle/src/migration.rs"]}
{"id": "C129", "title": "Migrations go forward only, and to the right contract", "statement": "Every code accepts only stored versions of its own contract earlier than its own version, or, for the sale-tax and converter pairs the constant-product pair and for the order-book pair the concentrated pair. No migration can be repeated, and no two in a row are possible except a concentrated pair's own followed by the one to the order book. Constant-product, stable, transmuter, sale-tax, converter and order-book pairs of the present versions cannot be migrated at all.", "quantifier": "all 17 codes with a migrate entry point, all stored names and versions, all chains of migrations", "why_tests_cant": "all stored strings; a relation across all contracts", "anchors": ["contracts/pair/src/contract.rs", "contracts/pair_stable/src/contract.rs", "contracts/factory/src/migration.rs", "contracts/pair_concentrated_duality/src/migrate.rs", "contracts/tokenomics/incentives/src/migrate.rs", "contracts/tokenomics/staking/src/migrate.rs", "contracts/tokenomics/maker/src/migration.rs"]}
{"id": "C130", "title": "Incentives: the fee query tells who pays the fee", "statement": "When an incentive for one pool is accepted, the incentivization fee is forwarded exactly if the fee query says so at that moment, and the coins attached are exactly the reward plus that fee, no more and no less. After an incentive was accepted, adding to the same reward of the same pool costs no fee until that incentive ends, whatever happens in between, unless the owner removes the reward.", "quantifier": "all states, pools, rewards, amounts, durations and attached coins; for the second part all histories from the accepted incentive up to its end", "why_tests_cant": "agreement of a query with an execution in every state, and persistence over arbitrary histories", "anchors": ["contracts/tokenomics/incentives/src/query.rs: IsFeeExpected", "contracts/tokenomics/incentives/src/utils.rs: incentivize, incentivize_many"]}
{"id": "C131", "title": "Incentives: the schedules query lists what will be emitted", "statement": "The default answer of the external-reward-schedules query is a gapless sequence of at most 26 periods starting now; rate times duration, summed up to any later time, is exactly what the pool emits of the reward until then, and in total exactly what is left to emit. Asking in pages, each continuing after the end of the last period of the page before, gives the same list as asking once.", "quantifier": "all histories with times from the epoch start on, all pools, rewards, later times and page sizes", "why_tests_cant": "all overlaps of schedules, over all histories and all later times", "anchors": ["contracts/tokenomics/incentives/src/query.rs: query_external_reward_schedules"]}
{"id": "C132", "title": "Incentives: lists by pages are complete", "statement": "A client that pages through the stakers of a pool, continuing after the last address, sees every staker exactly once with their position, and the positions add up to the total of the pool; likewise for the pools and the blocked tokens. Pages of pools and blocked tokens are no longer than the limit. For stakers a limit below 50 should hold as well, but is ignored: the page has up to 50 entries.", "quantifier": "all reachable states, all limits, all pools", "why_tests_cant": "all contents of the maps and all page sizes; the limit fault shows only with more stakers than the limit", "anchors": ["contracts/tokenomics/incentives/src/state.rs: list_pool_stakers", "contracts/tokenomics/incentives/src/query.rs: list_pools, query_blocked_tokens"]}
{"id": "C133", "title": "Incentives: the rows of the pending-rewards query", "statement": "The rows of the pending-rewards answer add up, for every token apart from the protocol reward, to what a claim pays in that token, and the sum of all rows is the sum of all external rewards plus the protocol reward; neighbouring rows have different tokens. Each token should be listed once, but: a token whose finished part is still unclaimed while another reward was added before its next schedule is listed twice.", "quantifier": "all states, users, pools and times", "why_tests_cant": "all combinations of finished and active rewards", "anchors": ["contracts/tokenomics/incentives/src/query.rs: query_pending_rewards"]}
{"id": "C134", "title": "Constant-product pair: liquidity can be taken out", "statement": "Whoever holds LP tokens can redeem any part of them at any time for the proportional share of both reserves, as long as the price accumulators can be brought up to date (elapsed seconds times 10^6 times the price fits 128 bits in both directions); that is so whenever neither reserve is more than 10^18 times the other and the pool was used within a million years. Liquidity should be redeemable always, but: if it does not fit, every deposit, withdrawal and swap fails from then on and reserves and supply stay, until somebody gives the pool tokens. A pool of 10^6 against 10^33 units freezes after four days without use. The same holds for withdrawals from the sale-tax pair.", "quantifier": "all reachable pools, holders, amounts, times and later histories", "why_tests_cant": "liveness over all reachable states and all later histories", "anchors": ["contracts/pair/src/contract.rs: withdraw_liquidity, accumulate_prices", "contracts/pair_xyk_sale_tax/src/contract.rs: withdraw_liquidity"]}
{"id": "C135", "title": "Liquidity staked on deposit, and what backs staked LP tokens", "statement": "A constant-product pair and the incentives contract holding its LP tokens, used together in any order: each behaves exactly as it does alone on the messages it receives, so every property of either holds of the pair of them; the LP tokens on the incentives contract's account are exactly those on its books and cover all positions, unclaimed rewards in LP tokens and orphaned rewards; a position shrinks only when its owner withdraws from it. A deposit with auto-stake succeeds exactly when depositing to oneself and then staking the minted LP tokens for the same receiver does, with the same payments and the same state afterwards: the receiver's position grows by exactly the minted shares, nobody else's position changes, nobody's free LP tokens change except for rewards of the receiver. It fails for pairs that the factory does not know.", "quantifier": "all histories of messages to both contracts, all deposits, receivers and times", "why_tests_cant": "all interleavings of two contracts; equality of two ways in all states", "anchors": ["contracts/pair/src/contract.rs: provide_liquidity, mint_liquidity_token_message", "contracts/tokenomics/incentives/src/execute.rs: deposit, withdraw"]}
{"id": "C136", "title": "From a staked position back to both assets", "statement": "Whoever has a position in the incentives contract, whether staked by themselves or for them on deposit, can unstake any part of it and redeem it in the pair for the proportional share of both reserves, whatever else happened to either contract, also after the pair was deregistered, provided that rewards were removed regularly, reward amounts fit their types and the pair's accumulators can be brought up to date. Their other LP tokens stay.", "quantifier": "all histories of messages to both contracts, all stakers, amounts and times", "why_tests_cant": "liveness over all histories of two contracts", "anchors": ["contracts/tokenomics/incentives/src/execute.rs: withdraw", "contracts/pair/src/contract.rs: withdraw_liquidity"]}
{"id": "C137", "title": "Only listed pairs earn ASTRO", "statement": "An LP token gets deposits, external incentives and shares in the emission of ASTRO only while the factory lists its pair; a token whose minter claims to be another pair gets nothing. When the owner deregisters a pair, it is no longer listed under any assets, no other pair is affected, nobody's position changes, and its pool stops earning ASTRO at once; it never earns again unless a new pair is created at its address. Whether stakers can withdraw and claim never depends on the factory's list. Stopping at once needs that the factory names the incentives contract and that ASTRO is being emitted at that moment: otherwise the deregistered pair keeps its allocation points and earns ASTRO later.", "quantifier": "all histories of messages to the factory and the incentives contract, all answers of LP token minters", "why_tests_cant": "an invariant across two contracts over all histories with lying third contracts", "anchors": ["contracts/factory/src/contract.rs: deregister", "contracts/tokenomics/incentives/src/utils.rs: query_pair_info, is_pool_registered, deactivate_pool"]}
{"id": "C138", "title": "Routes deliver what their simulation announces", "statement": "A route through constant-product pairs, each visited at most once, gives its receiver exactly the amount that SimulateSwapOperations announces at that moment, never less than the minimum asked for and no other asset; nothing stays at the router and accounts that take no part keep their balances. The route succeeds whenever the simulation does and announces at least the minimum, the pairs on it can trade, and a single hop stays within the limit on the spread. It does not hold if a pair is visited twice (less than announced can be delivered) or if coins were left at the router (they go to the next who routes through that asset).", "quantifier": "all routes, pools, balances, fees, amounts, minimums and times", "why_tests_cant": "equality of a query and a transaction across any number of contracts and all their states", "anchors": ["contracts/router/src/contract.rs: execute_swap_operations, simulate_swap_operations, reply", "contracts/router/src/operations.rs: execute_swap_operation", "contracts/pair/src/contract.rs: swap, query_simulation"]}
{"id": "C139", "title": "A pair charges and obeys what its factory says", "statement": "In every history of a factory and its constant-product pairs, every listed pair exists, a pair is never lost and keeps its type, and the factory always answers it with fees of at most 100%. A swap charges exactly the basis points in force at the factory at that moment, the maker's part only if a fee address is set. Only the factory's current owner can change a pair's fee share, and always can, up to 10%. Messages to one pair change neither the factory nor another pair, factory messages change no existing pair, and being deregistered, disabled or permissioned changes nothing in what an existing pair does. A trader's belief price and spread limit do not cover the fee: if it is raised after the quote the swap succeeds and may pay nothing.", "quantifier": "all histories of messages to a factory and all its pairs, including messages nested in the creation of a pair", "why_tests_cant": "joint histories of two contracts; configuration changes between any two trades", "anchors": ["contracts/factory/src/contract.rs: execute, reply, query_fee_info, execute_update_pair_config", "contracts/pair/src/contract.rs: swap, update_config, assert_max_spread", "packages/astroport/src/querier.rs: query_fee_info"]}
{"id": "C140", "title": "Mixed routes deliver what their simulation announces and fail only if a pair does", "statement": "A route through any mix of constant-product, stable, concentrated, sale-tax and transmuter pairs, each visited at most once, that succeeds gives its receiver exactly the amount that SimulateSwapOperations announces at that moment, never less than the minimum asked for and no other asset; nothing stays at the router; accounts that are no pair and get no fees or taxes keep their balances. Such a route goes through exactly if its form is right, every pair on it would by itself carry out its trade at that moment with what the pair before it would pay, and the last amount reaches the minimum: the hops do not get in each other's way and the router adds no other reason to fail. After any route, visiting pairs once or more often, every pair's recorded reserves are exactly what it holds, if they were before.", "quantifier": "all routes, pairs of all five kinds in any state, balances, fees, taxes, amounts, minimums and times", "why_tests_cant": "equality of a query and a transaction across any number and mix of contracts in all their states", "anchors": ["contracts/router/src/contract.rs: execute_swap_operations, simulate_swap_operations, reply", "contracts/router/src/operations.rs: execute_swap_operation", "contracts/pair_stable/src/contract.rs: swap, query_simulation", "contracts/pair_concentrated/src/contract.rs: swap", "contracts/pair_xyk_sale_tax/src/contract.rs: swap", "contracts/pair_transmuter/src/utils.rs: assert_and_swap"]}
{"id": "C141", "title": "The maker sells its fees at the pairs' prices", "statement": "Over constant-product pairs, every swap of a collection happens at a listed pair, at the reserves that the swaps before it left, and gives the maker at least the worth of the amount at that pair's price of the moment less the configured maximal spread and the pair's fee. To the pairs it is nothing but swaps: LP supply and holdings stay, and of every asset the maker and the pairs together lose exactly what the collection pays out (beyond fee shares and a fee address other than the maker). A pair's message adds to the maker exactly the maker's part of the commission. It does not hold that the price is a fair one: a trader who sells before the collection and buys back after it in the same block gains at the maker's cost, whatever the configured spread.", "quantifier": "all histories of maker, pairs and registrations, all routes over bridges, fee rates, configurations, senders and amounts", "why_tests_cant": "routes, pools and amounts are unbounded; each sale moves the pool that the next one finds", "anchors": ["contracts/tokenomics/maker/src/contract.rs: collect, swap_assets, swap_bridge_assets, distribute", "contracts/tokenomics/maker/src/utils.rs: build_swap_msg, get_pool", "contracts/tokenomics/maker/src/reply.rs: reply", "contracts/pair/src/contract.rs: swap, calculate_maker_fee"]}
{"id": "C143", "title": "Liquidity of a stable pool can be taken out", "statement": "A holder of LP tokens of a stable pair can redeem any part of them for exactly the proportional share of both reserves, subject only to the stated minimum amounts, whenever the price accumulators can be brought up to date: in the second of the last update, with an empty reserve, or when a simulation of one whole token succeeds in both directions and the accrued values fit 128 bits; otherwise the withdrawal fails. While one of the tokens cannot be priced no withdrawal and no swap succeeds (and no deposit, if both assets are cw20 tokens), whatever other messages arrive, and reserves and LP supply stay as they are. It does not hold that this never happens: a pool of 18-decimals tokens one of whose reserves is nearly empty is frozen from the next second on, until somebody makes it a gift or the owner starts a new ramp.", "quantifier": "all reachable states, holders, amounts, minimum amounts, decimals up to 18, times and all later histories", "why_tests_cant": "success for every reachable pool and the freeze for every later history are statements about unboundedly many states and message sequences", "anchors": ["contracts/pair_stable/src/contract.rs: withdraw_liquidity, swap, provide_liquidity", "contracts/pair_stable/src/utils.rs: accumulate_prices, compute_swap", "contracts/pair_stable/src/math.rs: calc_y, compute_d"]}
{"id": "C144", "title": "Ordinary stable pools never get stuck", "statement": "In a stable pool holding at least one whole token of each asset, at most 10^12 whole tokens together, with neither reserve more than 10^9 times the other, the iterations for the invariant and for the new reserve converge at every reachable amplification: every offer of one to 10^12 whole tokens is priced, for no more than the other reserve holds; every holder of LP tokens can redeem any part of them at any time for the exact proportional share; and a swap of such an offer goes through at the simulated price for whoever accepts the spread (up to 50%).", "quantifier": "all reachable states and amplifications (1 to 1000000), all reserves, decimals up to 18, offers and amounts in the stated ranges, all times", "why_tests_cant": "the iterations stop with an error after 64 rounds; that they never do so is a convergence proof over about 2^100 reserves and every amplification", "anchors": ["contracts/pair_stable/src/math.rs: compute_d, calc_y", "contracts/pair_stable/src/utils.rs: compute_swap, accumulate_prices", "contracts/pair_stable/src/contract.rs: swap, withdraw_liquidity, query_simulation"]}
{"id": "C142", "title": "Migrating the maker keeps the fees and the rules of distributing them", "statement": "The maker can be migrated from versions 1.2.0, 1.4.0, 1.5.0 and 1.6.0 only, once, and (from 1.2.0) only with a cooldown and a second receiver within their limits. The migration keeps balances, bridges, the owner with a pending proposal, receivers and shares, spread and the reserved ASTRO; nothing can be seized until the owner configures it again; collection waits for the cooldown, counted from the migration (1.2.0) or from the last collection. The documented limits hold over every sequence of messages and migrations. From the later versions the parameters of the message are ignored even when invalid (so it does not hold that a migration obeys its message). Balances lists exactly the nonzero holdings among those asked for; Config tells the distribution rules but not the cooldown, so it does not show whether Collect will be refused.", "quantifier": "all stored states and versions, all messages and migrations in any order, all times", "why_tests_cant": "tests migrate one stored state; the claim covers every state, every later history and every combination of parameters", "anchors": ["contracts/tokenomics/maker/src/contract.rs: migrate, query_get_config, query_get_balances", "contracts/tokenomics/maker/src/migration.rs: migrate_from_v120_plus", "contracts/tokenomics/maker/src/utils.rs: update_second_receiver_cfg, validate_cooldown"]}
{"id": "C145", "title": "Deposits into ordinary stable pools go through and are credited at least proportionally", "statement": "In a stable pool holding at least one whole token of each asset, at most 10^12 whole tokens together, with neither reserve more than 10^9 times the other before and after, every deposit that adds between 1% and 99900% to each reserve succeeds for every minimum up to the guaranteed amount, and is credited at least the part of the LP supply that the smaller of the two additions is of its reserve, less 10^-10 of the new total and one unit. The bound on the credit holds for every deposit that goes through, of any size. The first deposit of such a pool of more than three decimals succeeds and mints at least one whole LP token (1000 units of which are locked).", "quantifier": "all reachable states and amplifications, all reserves and deposits in the stated ranges, decimals up to 18, native and cw20 assets, all times", "why_tests_cant": "success needs the convergence of two iterations for every pool before and after the deposit, and the bound on the credit an error analysis of the difference of two rounded invariants", "anchors": ["contracts/pair_stable/src/utils.rs: calculate_shares, accumulate_prices", "contracts/pair_stable/src/math.rs: compute_d", "contracts/pair_stable/src/contract.rs: provide_liquidity"]}
{"id": "C146", "title": "The stable pair's reverse simulation names the right offer up to rounding", "statement": "In an ordinary stable pool (as in C144), when no more than half of a reserve is asked for with commission: simulating the named offer plus 2*10^-9 of a token (two base units for assets of up to 8 decimals) yields the asked amount less at most one part in 10^18 and 10^-12 of a token; and the named offer less 10^-12 of a token (one base unit up to 11 decimals) yields at most two base units and 1.1*10^-9 of a token more than asked. And the query answers every request for at least one whole token. The exact form fails: the named offer itself may return one unit less than asked.", "quantifier": "all reachable ordinary pools and amplifications, both directions, all asked amounts up to half the reserve, all fee rates below 100%, decimals up to 18, all times", "why_tests_cant": "the query and the swap run different iterations from different starting data; that their results agree needs an error analysis of both against the exact curve for every pool", "anchors": ["contracts/pair_stable/src/contract.rs: query_reverse_simulation, query_simulation", "contracts/pair_stable/src/math.rs: calc_y", "contracts/pair_stable/src/utils.rs: adjust_precision, compute_swap"]}
{"id": "C147", "title": "The limit of eight schedules per vesting account", "statement": "A registration that names a vesting account with eight or more schedules fails altogether; one by the owner for an account with fewer, with valid schedules and exactly the tokens they take, goes through, adds precisely these schedules and touches no other account. As long as each registration gives an account at most one schedule, no account ever has more than eight. The documented maximum of schedules per user fails: the check counts a single new schedule whatever their number, and skips new accounts, so one registration can give an account any number.", "quantifier": "all states, all times, all lists of accounts and schedules, all histories of messages", "why_tests_cant": "the bound speaks of every history of registrations, claims and withdrawals from active schedules; tests of single registrations never meet the batch that passes the limit", "anchors": ["contracts/tokenomics/vesting/src/contract.rs: register_vesting_accounts, withdraw_from_active_schedule, SCHEDULES_LIMIT"]}
{"id": "C148", "title": "Larger and split offers in the constant-product pair", "statement": "Whoever offers more gets no less and pays no less commission, but before commission no more per unit offered (up to one unit of the return and 10^-18). Two swaps in a row in the same direction, against one of the same total size at the same fees, return at most two units less, and at most three units plus the second part's share a2/(offer reserve + a1 + a2) of the commission that the first swap left in the pool more. That splitting never brings more fails: the commission left in the pool improves the second price.", "quantifier": "all reachable pools, fee settings and fee shares, both directions, all pairs of offers, all times", "why_tests_cant": "the integer roundings of both swaps act against each other; the bounds hold for every pool and every division of the offer only by an argument about the exact curve", "anchors": ["contracts/pair/src/contract.rs: compute_swap, swap, query_simulation"]}
{"id": "C149", "title": "A larger offer to a stable pair returns more, up to rounding", "statement": "In an ordinary stable pool (as in C144) that keeps at least one token of the asked asset, offering more never returns noticeably less: for two offers, the larger one returns at most one base unit and 1.1*10^-9 of a token less than the smaller one; for assets of up to 8 decimals at most one base unit less. Exact monotonicity fails: with 18 decimals one base unit more offered can return tens of thousands of base units (10^-13 of a token) less, because the iteration for the new reserve stops a step earlier.", "quantifier": "all reachable ordinary pools and amplifications, both directions, all pairs of offers, all fee rates, decimals up to 18, all times", "why_tests_cant": "the result comes from an iteration whose number of steps depends on the input; a bound over all pairs of offers needs its error against the exact curve", "anchors": ["contracts/pair_stable/src/contract.rs: query_simulation, swap", "contracts/pair_stable/src/utils.rs: compute_swap", "contracts/pair_stable/src/math.rs: calc_y"]}
{"id": "C150", "title": "Larger and split offers in the pair with sale tax", "statement": "Whoever offers more to the sale-tax pair gets no less. Selling an amount in n pieces collects no more tax than selling it at once, and at most n-1 units less; a piece on which the rate gives less than one unit pays no tax at all, so that an amount can be sold untaxed in small enough pieces.", "quantifier": "all reachable pairs, both directions, all rates, all offers and all ways of splitting them, all times and fees in between", "why_tests_cant": "compares all pairs of offers and all splits of an offer", "anchors": ["contracts/pair_xyk_sale_tax/src/contract.rs: compute_swap, swap, query_simulation"]}
{"id": "C151", "title": "Reward query shows what is about to be stored", "statement": "For every staking contract state reached, the RewardInfo query lists each external reward at most once and only while its current period still runs (end after the time of the query), at most one protocol reward, and no negative rate, index or orphaned amount. After a successful deposit, withdrawal or claim the PoolInfo query shows for every pool of the message exactly the reward rows RewardInfo announced at that time before the message, and RewardInfo repeats them for the rest of the block; a deposit that opens a pool starts it without reward rows. Pools the message is not about keep both answers, at every later time. PoolInfo on its own does not promise this much: it still lists a reward that has ended until somebody touches the pool.", "quantifier": "for all histories of messages, times, pools, stakers and lists of pools claimed", "why_tests_cant": "The answers depend on the whole history of schedules, deposits and removals and on the time of the query; tests compare a few moments.", "anchors": ["contracts/tokenomics/incentives/src/query.rs:34-48", "contracts/tokenomics/incentives/src/state.rs:98-193", "contracts/tokenomics/incentives/src/state.rs:482-488", "contracts/tokenomics/incentives/src/execute.rs:177-260"]}
{"id": "C152", "title": "Staking and unstaking in parts and at other times", "statement": "From any reached state of the staking contract with xASTRO in existence: the entries a staker makes from then on, in any number, at any times and whatever others do in between, mint together no more xASTRO than staking the whole sum at once would mint now. The exits a staker makes from then on pay together no less ASTRO than giving back the same xASTRO at once would pay now, but for less than one unit for each exit; with nobody else acting they pay no more. That entering in parts costs at most a unit for each part fails: in a contract holding next to nothing the rounding of one part moves the rate for the next.", "quantifier": "for all reached states, histories of messages of all accounts, numbers and sizes of entries and exits", "why_tests_cant": "The claim compares arbitrary plans of entering and leaving among arbitrary actions of others; tests play single plans.", "anchors": ["contracts/tokenomics/staking/src/contract.rs:232-307", "contracts/tokenomics/staking/src/contract.rs:311-376"]}
{"id": "C153", "title": "Liquidity of the constant-product pair given and taken in parts and at other times", "statement": "From any reached state of a live constant-product pair and as long as nobody trades: the deposits a provider makes from then on, in any number, at any times and whatever others deposit, withdraw or donate in between, mint together no more LP tokens than depositing the whole at once would mint now. The withdrawals a holder makes from then on pay of each asset no less than the share given back is worth now, and no less than withdrawing it at once would pay now, but for two units and the whole 10^-18 parts of the reserve for each withdrawal. With nobody else acting, withdrawals in parts pay no more than the share given back is worth.", "quantifier": "for all reached states, histories without swaps, numbers and sizes of deposits and withdrawals", "why_tests_cant": "The claim compares arbitrary plans among arbitrary actions of others, with a bound on accumulated rounding; tests play single plans.", "anchors": ["contracts/pair/src/contract.rs:351-450", "contracts/pair/src/contract.rs:507-599"]}
