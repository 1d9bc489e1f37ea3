{
 "claims": [
  {
   "property": "C01",
   "status": "proved",
   "theorems": [
    "c01_swap_product",
    "c01_product_always_kept_refuted"
   ],
   "note": "Exact lower bound and the two sufficient conditions; the _refuted theorem exhibits the remaining corner."
  },
  {
   "property": "C02",
   "status": "proved",
   "theorems": [
    "c02_no_dilution",
    "c02_liquidity_per_asset"
   ],
   "note": "Per-LP reserves and the product per squared supply, over every history."
  },
  {
   "property": "C03",
   "status": "proved",
   "theorems": [
    "c03_provide_withdraw"
   ],
   "note": "Every reachable initialised pool, any two blocks with nothing in between; amounts unbounded."
  },
  {
   "property": "C04",
   "status": "proved",
   "theorems": [
    "c04_swap_back"
   ],
   "note": "Immediate round trip in every reachable pool within the stated conditions."
  },
  {
   "property": "C05",
   "status": "proved",
   "theorems": [
    "c05_first_provide",
    "c05_stays_alive",
    "c05_stays_alive_no_swaps",
    "c05_supply_floor",
    "c05_swap_keeps_reserves_refuted"
   ],
   "note": "Also covers regular swaps, donations and transfers; a corner swap can empty the ask reserve (_refuted)."
  },
  {
   "property": "C06",
   "status": "proved",
   "theorems": [
    "c06_max_spread",
    "c06_rejects"
   ],
   "note": "With belief price: lower bound on the return net of floors; without: bound on spread. c06_rejects is the converse."
  },
  {
   "property": "C07",
   "status": "proved",
   "theorems": [
    "c07_slippage"
   ],
   "note": "Second and later deposits; first deposit has no check in the code."
  },
  {
   "property": "C08",
   "status": "proved",
   "theorems": [
    "c08_fees_add_up"
   ],
   "note": "Maker and shared fee are parts of the commission; total payout covered by the ask reserve."
  },
  {
   "property": "C09",
   "status": "proved",
   "theorems": [
    "c09_simulation_exact",
    "c09_reverse_plus_one",
    "c09_reverse_quote_suffices_refuted"
   ],
   "note": "Reverse simulation: quoted amount + 1 suffices up to one unit (asks up to 10^18); the quoted amount itself does not (_refuted)."
  },
  {
   "property": "C10",
   "status": "proved",
   "theorems": [
    "c10_twap_integral",
    "c10_donation_rewrites_past_refuted"
   ],
   "note": "Exact for histories without plain donations; with a donation the past interval is re-priced (_refuted)."
  },
  {
   "property": "C11",
   "status": "proved",
   "theorems": [
    "c11_balance_history",
    "c11_balance_history_donations"
   ],
   "note": "Histories with and without plain donations (donations show up only at the next tracked update)."
  },
  {
   "property": "C12",
   "status": "proved",
   "theorems": [
    "c12_rate_never_falls",
    "c12_rate_at_least_one"
   ],
   "note": "Every history of enter, leave and donations."
  },
  {
   "property": "C13",
   "status": "proved",
   "theorems": [
    "c13_round_trip",
    "c13_round_trip_first",
    "c13_payout_covered",
    "c13_splitting_gains_nothing"
   ],
   "note": "Includes splitting into parts."
  },
  {
   "property": "C14",
   "status": "proved",
   "theorems": [
    "c14_locked_forever",
    "c14_zero_mint_rejected",
    "c14_loss_below_one_xastro"
   ],
   "note": "Loss below one xASTRO unit under the locked minimum."
  },
  {
   "property": "C15",
   "status": "proved",
   "theorems": [
    "c15_claimed_at_most_unlocked",
    "c15_claim_pays_exactly",
    "c15_too_large_claim_fails"
   ],
   "note": "Every history, any number of schedules."
  },
  {
   "property": "C16",
   "status": "proved",
   "theorems": [
    "c16_monotone_and_complete",
    "c16_contract_computes_curve"
   ],
   "note": "Independent curve specification in VestingSpec.v."
  },
  {
   "property": "C17",
   "status": "proved",
   "theorems": [
    "c17_solvent",
    "c17_claim_always_succeeds"
   ],
   "note": "Every history."
  },
  {
   "property": "C18",
   "status": "proved",
   "theorems": [
    "c18_clawback",
    "c18_clawback_reduces_total_owed"
   ],
   "note": "Withdrawal from the active schedule by the owner."
  },
  {
   "property": "C19",
   "status": "proved",
   "theorems": [
    "c19_owner_changes_only_by_claimed_proposal",
    "c19_claim_consumes_proposal",
    "c19_claim_available"
   ],
   "note": "Shared helper; callers use it unchanged."
  },
  {
   "property": "C20",
   "status": "proved",
   "theorems": [
    "c20_order_independent",
    "c20_registered_not_created_again",
    "c20_stays_registered",
    "c20_created_is_registered",
    "c20_deregister_exact",
    "c20_deregister_succeeds",
    "c20_reentrant_deregister_refuted"
   ],
   "note": "c20_reentrant_deregister_refuted: re-entrant creation together with an owner deregistration can leave a second pair."
  },
  {
   "property": "C21",
   "status": "proved",
   "theorems": [
    "c21_prefix_free_keys",
    "c21_distinct_sets_distinct_keys_refuted"
   ],
   "note": "Keys identify the set when no asset id is a prefix of another (c21_prefix_free_keys); c21_distinct_sets_distinct_keys_refuted gives a collision otherwise."
  },
  {
   "property": "C22",
   "status": "proved",
   "theorems": [
    "c22_paging"
   ],
   "note": "Any page size, any start."
  },
  {
   "property": "C23",
   "status": "proved",
   "theorems": [
    "c23_fees_bounded",
    "c23_reported_fees_bounded",
    "c23_only_owner",
    "c23_create_permission",
    "c23_update_exact",
    "c23_config_exact",
    "c23_owner_succeeds",
    "c23_reported_exact",
    "c23_creation_succeeds"
   ],
   "note": "All execute messages of the factory."
  },
  {
   "property": "C24",
   "status": "proved",
   "theorems": [
    "c24_minimum_receive",
    "c24_reentrant_refuted"
   ],
   "note": "c24_minimum_receive for calls without re-entrance into the router; c24_reentrant_refuted otherwise."
  },
  {
   "property": "C25",
   "status": "proved",
   "theorems": [
    "c25_route_exact",
    "c25_only_valid_routes",
    "c25_simulated_routes"
   ],
   "note": "Executed and simulated routes."
  },
  {
   "property": "C26",
   "status": "proved",
   "theorems": [
    "c26_fully_backed",
    "c26_no_value_extracted",
    "c26_withdraw",
    "c26_redeemable",
    "c26_round_trip",
    "c26_round_trip_never_profitable_refuted"
   ],
   "note": "c26_round_trip_never_profitable_refuted: the surplus left by donations and swap rounding can be taken by a provide/withdraw trip; backing of the LP supply always holds."
  },
  {
   "property": "C27",
   "status": "proved",
   "theorems": [
    "c27_swap_value",
    "c27_there_and_back",
    "c27_simulation"
   ],
   "note": "Value measured in the finest common unit."
  },
  {
   "property": "C28",
   "status": "proved",
   "theorems": [
    "c28_between",
    "c28_monotone",
    "c28_range",
    "c28_start",
    "c28_stop",
    "c28_stop_succeeds",
    "c28_only_owner"
   ],
   "note": "Every history of starts and stops."
  },
  {
   "property": "C29",
   "status": "proved",
   "theorems": [
    "c29_withdraw",
    "c29_supply",
    "c29_supply_never_returns_to_zero",
    "c29_withdraw_keeps_reserves",
    "c29_reserves_positive_refuted"
   ],
   "note": "c29_reserves_positive_refuted: a swap can empty a dust reserve."
  },
  {
   "property": "C30",
   "status": "proved",
   "theorems": [
    "c30_amounts",
    "c30_simulation",
    "c30_spread_enforced"
   ],
   "note": "Return, commission and spread of every swap."
  },
  {
   "property": "C31",
   "status": "proved",
   "theorems": [
    "c31_stop",
    "c31_params",
    "c31_amp_gamma",
    "c31_promotion",
    "c31_authority",
    "c31_fee_order",
    "c31_fee_order_refuted"
   ],
   "note": "c31_fee_order_refuted: an update of mid_fee alone may exceed out_fee."
  },
  {
   "property": "C32",
   "status": "proved",
   "theorems": [
    "c32_far",
    "c32_near",
    "c32_value",
    "c32_between",
    "c32_refuted",
    "c32_defined",
    "c32_zero_gamma_refuted"
   ],
   "note": "c32_refuted: the rate can be mid_fee - 1e-18. c32_zero_gamma_refuted: fee_gamma = 0 is accepted and blocks balanced deposits. Where the outer fee starts: c32_far, c32_near; its value before: c32_value."
  },
  {
   "property": "C33",
   "status": "proved",
   "theorems": [
    "c33_usable",
    "c33_refuted"
   ],
   "note": "c33_usable for end times up to 10^15 s; c33_refuted: a longer accepted promotion blocks the pair until its end."
  },
  {
   "property": "C34",
   "status": "proved",
   "theorems": [
    "c34_total",
    "c34_net",
    "c34_deposit",
    "c34_withdraw",
    "c34_others"
   ],
   "note": "Every history; sums over all users."
  },
  {
   "property": "C35",
   "status": "proved",
   "theorems": [
    "c35_solvent",
    "c35_no_loss"
   ],
   "note": "For regular removals (removals_ok); the exclusions are necessary, see C37."
  },
  {
   "property": "C36",
   "status": "proved",
   "theorems": [
    "c36_future",
    "c36_schedule",
    "c36_available_refuted"
   ],
   "note": "c36_available_refuted: no incentive is accepted from 2*EPOCHS_START on."
  },
  {
   "property": "C37",
   "status": "proved",
   "theorems": [
    "c37_removal",
    "c37_no_orphans",
    "c37_once_refuted",
    "c37_bypass_refuted"
   ],
   "note": "c37_once_refuted and c37_bypass_refuted show the double payment and the stretched schedules."
  },
  {
   "property": "C38",
   "status": "proved",
   "theorems": [
    "c38_last_values",
    "c38_read_last",
    "c38_read_out_of_range",
    "c38_read_all",
    "c38_manager_reuse"
   ],
   "note": "Arbitrary capacity and number of pushes."
  },
  {
   "property": "C39",
   "status": "proved",
   "theorems": [
    "c39_buffer_is_recent_log",
    "c39_query",
    "c39_query_empty"
   ],
   "note": "Observation times and interpolation, empty buffer included."
  },
  {
   "property": "C40",
   "status": "proved",
   "theorems": [
    "c40_update_exact",
    "c40_wraparound",
    "c40_frozen_within_period",
    "c40_once_per_period",
    "c40_consult",
    "c40_end_to_end"
   ],
   "note": "End-to-end theorem uses the accumulator integral of the pair (modular)."
  },
  {
   "property": "C41",
   "status": "proved",
   "theorems": [
    "c41_balance_at_past",
    "c41_balance_now",
    "c41_past_is_immutable"
   ],
   "note": "Block heights or timestamps."
  },
  {
   "property": "C42",
   "status": "proved",
   "theorems": [
    "c42_supply_at",
    "c42_exact_after_transfer",
    "c42_supply_is_sum_refuted"
   ],
   "note": "c42_supply_is_sum_refuted: the reported supply lags after burns; exact again after the next transfer."
  },
  {
   "property": "C43",
   "status": "proved",
   "theorems": [
    "c43_exact_effects",
    "c43_supply_is_sum",
    "c43_repeated_account_refuted",
    "c43_cap",
    "c43_transfer_succeeds",
    "c43_zero_rejected",
    "c43_supply_control",
    "c43_balance_protected"
   ],
   "note": "c43_repeated_account_refuted: instantiation with a repeated account breaks the sum; with distinct initial accounts it always holds."
  },
  {
   "property": "C44",
   "status": "proved",
   "theorems": [
    "c44_balance_at",
    "c44_supply_at",
    "c44_consistent_pair",
    "c44_same_block_refuted"
   ],
   "note": "c44_same_block_refuted: within the block of a change the two queries refer to different instants."
  },
  {
   "property": "C45",
   "status": "proved",
   "theorems": [
    "c45_conserve",
    "c45_split",
    "c45_backed",
    "c45_all",
    "c45_schedule",
    "c45_released",
    "c45_released_refuted"
   ],
   "note": "c45_released_refuted: blocks > reward => floor(A/B)=0, nothing is released."
  },
  {
   "property": "C46",
   "status": "proved",
   "theorems": [
    "c46_distributes",
    "c46_refuted"
   ],
   "note": "c46_distributes under the exact condition on the fractions; c46_refuted: accepted configuration after which every collection reverts."
  },
  {
   "property": "C47",
   "status": "proved",
   "theorems": [
    "c47_cooldown",
    "c47_first",
    "c47_limits"
   ],
   "note": "Every history."
  },
  {
   "property": "C48",
   "status": "proved",
   "theorems": [
    "c48_effect",
    "c48_refund",
    "c48_range",
    "c48_permanent",
    "c48_open"
   ],
   "note": "Coins sent along with the owner's Add/Remove are not returned (only Register returns them)."
  },
  {
   "property": "C49",
   "status": "proved",
   "theorems": [
    "c49_tax",
    "c49_only_swaps",
    "c49_rates",
    "c49_admin",
    "c49_simulation",
    "c49_reverse"
   ],
   "note": "c49_reverse: exact for quotes below 10^18, relative error 10^-18 otherwise."
  },
  {
   "property": "C50",
   "status": "proved",
   "theorems": [
    "c50_swap",
    "c50_refuted",
    "c50_open_stake",
    "c50_open_unstake",
    "c50_simulation"
   ],
   "note": "c50_swap with the initial-state hypothesis, c50_refuted for the donation-before-first-stake state."
  },
  {
   "property": "C51",
   "status": "proved",
   "theorems": [
    "c51_exact",
    "c51_history",
    "c51_open",
    "c51_open_cw20",
    "c51_burn",
    "c51_burn_open"
   ],
   "note": "Both converters."
  },
  {
   "property": "C52",
   "status": "proved",
   "theorems": [
    "c52_admins",
    "c52_authority",
    "c52_single"
   ],
   "note": "Every history."
  },
  {
   "property": "C53",
   "status": "proved",
   "theorems": [
    "c53_listed_coins_are_credited",
    "c53_every_sent_coin_is_credited_refuted"
   ],
   "note": "c53_every_sent_coin_is_credited_refuted exhibits the unlisted coin."
  },
  {
   "property": "C54",
   "status": "proved",
   "theorems": [
    "c54_reverse_exact",
    "c54_reverse_quote_suffices_refuted",
    "c54_feasible_request_refused_refuted"
   ],
   "note": "c54_*_refuted: floor for coarser offers, feasible requests refused."
  },
  {
   "property": "C55",
   "status": "proved",
   "theorems": [
    "c55_moving_average",
    "c55_average_of_stored_prices_refuted"
   ],
   "note": "c55_average_of_stored_prices_refuted: not the mean of the stored prices."
  },
  {
   "property": "C56",
   "status": "proved",
   "theorems": [
    "c56_small_pools_keep_trading",
    "c56_observations_never_stop_trading_refuted"
   ],
   "note": "Positive half under a price floor (stated); c56_observations_never_stop_trading_refuted without it."
  },
  {
   "property": "C57",
   "status": "proved",
   "theorems": [
    "c57_first_trade_decides",
    "c57_first_observation_aggregates",
    "c57_block_aggregate_refuted"
   ],
   "note": "c57_block_aggregate_refuted: after the first observation only the first trade of a block counts."
  },
  {
   "property": "C58",
   "status": "proved",
   "theorems": [
    "c58_supply_is_sum_of_balances",
    "c58_provide",
    "c58_withdraw",
    "c58_only_liquidity_messages_move_lp"
   ],
   "note": "Every history."
  },
  {
   "property": "C59",
   "status": "proved",
   "theorems": [
    "c59_exact_split",
    "c59_fee_share_control",
    "c59_fee_share_capped"
   ],
   "note": "Every swap; every history for the cap."
  },
  {
   "property": "C60",
   "status": "proved",
   "theorems": [
    "c60_enter_exact",
    "c60_leave_exact",
    "c60_leave_always_possible"
   ],
   "note": "Leaving succeeds for every holder in every reachable state within 128-bit range."
  },
  {
   "property": "C61",
   "status": "proved",
   "theorems": [
    "c61_amounts",
    "c61_simulation",
    "c61_reverse_simulation"
   ],
   "note": "For honest pairs and a router that holds nothing beforehand (stated as hypotheses)."
  },
  {
   "property": "C62",
   "status": "proved",
   "theorems": [
    "c62_messages",
    "c62_no_spread_check",
    "c62_single_checked"
   ],
   "note": "Exact messages the router builds."
  },
  {
   "property": "C63",
   "status": "proved",
   "theorems": [
    "c63_invariant",
    "c63_reserve",
    "c63_swap"
   ],
   "note": "Error bounds against the exact real curve written with integers."
  },
  {
   "property": "C64",
   "status": "proved",
   "theorems": [
    "c64_shares",
    "c64_first"
   ],
   "note": "Invariant per share."
  },
  {
   "property": "C65",
   "status": "proved",
   "theorems": [
    "c65_round_trip_refuted",
    "c65_sequence",
    "c65_no_profit"
   ],
   "note": "c65_sequence, c65_no_profit for swaps leaving a commission; c65_round_trip_refuted: single-unit trades pay no commission."
  },
  {
   "property": "C66",
   "status": "proved",
   "theorems": [
    "c66_swap_withdraw",
    "c66_provide",
    "c66_past_price_fixed_refuted"
   ],
   "note": "c66_past_price_fixed_refuted for native provides."
  },
  {
   "property": "C67",
   "status": "proved",
   "theorems": [
    "c67_commission_unavoidable_refuted"
   ],
   "note": "The intended property is false; the theorem is the witness."
  },
  {
   "property": "C68",
   "status": "proved",
   "theorems": [
    "c68_exact"
   ],
   "note": "Against an integral of the emission rate over time, floors explicit."
  },
  {
   "property": "C69",
   "status": "proved",
   "theorems": [
    "c69_query",
    "c69_exit",
    "c69_claim",
    "c69_exit_refuted"
   ],
   "note": "c69_query, c69_exit, c69_claim hold in regular histories (every removal happens in a later second than the pool's last update, with nothing orphaned and without bypass) while amounts fit the integer types; c69_exit_refuted shows that the later-second condition is needed: otherwise a staker can be locked for ever."
  },
  {
   "property": "C72",
   "status": "proved",
   "theorems": [
    "c72_others",
    "c72_claim",
    "c72_withdraw",
    "c72_deposit",
    "c72_removal_refuted"
   ],
   "note": "Refuted for two removals in one second."
  },
  {
   "property": "C70",
   "status": "proved",
   "theorems": [
    "c70_rates",
    "c70_total",
    "c70_refuted"
   ],
   "note": "c70_rates and c70_total hold when no UpdateBlockedTokenslist message blocks two tokens of one active pool (emissions_ok); c70_refuted shows that such a message makes the others emit more than astro_per_second."
  },
  {
   "property": "C71",
   "status": "proved",
   "theorems": [
    "c71_limit",
    "c71_refuted"
   ],
   "note": "c71_limit needs that ASTRO is never an external reward; c71_refuted has 8 external rewards after ASTRO took the sixth place."
  },
  {
   "property": "C73",
   "status": "proved",
   "theorems": [
    "c73_budget",
    "c73_refuted"
   ],
   "note": "c73_budget under the same condition as C70; c73_refuted without it."
  },
  {
   "property": "C74",
   "status": "proved",
   "theorems": [
    "c74_inactive",
    "c74_stays",
    "c74_blocked",
    "c74_deactivate",
    "c74_types",
    "c74_deactivate_refuted"
   ],
   "note": "c74_deactivate needs the pool to be emitting; c74_deactivate_refuted: while astro_per_second is 0 DeactivatePool does nothing and the pool emits again later. c74_blocked assumes that pairs do not change their assets."
  },
  {
   "property": "C75",
   "status": "proved",
   "theorems": [
    "c75_receivers",
    "c75_owner",
    "c75_limits",
    "c75_start"
   ],
   "note": "Every history."
  },
  {
   "property": "C76",
   "status": "proved",
   "theorems": [
    "c76_seize",
    "c76_refused",
    "c76_reserve_refuted",
    "c76_update"
   ],
   "note": "c76_reserve_refuted: seizing ASTRO blocks collections while a reward is pending."
  },
  {
   "property": "C77",
   "status": "proved",
   "theorems": [
    "c77_roles",
    "c77_settings",
    "c77_no_blocked_reward",
    "c77_blocked_set"
   ],
   "note": "Every message and sender."
  },
  {
   "property": "C78",
   "status": "proved",
   "theorems": [
    "c78_refuted",
    "c78_dev"
   ],
   "note": "Refuted; c78_dev states what is sent instead."
  },
  {
   "property": "C79",
   "status": "proved",
   "theorems": [
    "c79_limit",
    "c79_refuted"
   ],
   "note": "c79_limit for assets without routes through them; c79_refuted otherwise."
  },
  {
   "property": "C80",
   "status": "proved",
   "theorems": [
    "c80_paging",
    "c80_page"
   ],
   "note": "Any page size."
  },
  {
   "property": "C81",
   "status": "proved",
   "theorems": [
    "c81_covered",
    "c81_bypass_refuted"
   ],
   "note": "c81_covered without bypass/transfers; c81_bypass_refuted otherwise."
  },
  {
   "property": "C82",
   "status": "proved",
   "theorems": [
    "c82_renew",
    "c82_stuck",
    "c82_refuted"
   ],
   "note": "c82_renew after a revocation; c82_stuck, c82_refuted for exhausted allowances (Cosmos SDK feegrant semantics modelled)."
  },
  {
   "property": "C83",
   "status": "proved",
   "theorems": [
    "c83_swap",
    "c83_quotes",
    "c83_open"
   ],
   "note": "Pair in front of the converter."
  },
  {
   "property": "C84",
   "status": "proved",
   "theorems": [
    "c84_authority",
    "c84_frozen",
    "c84_open"
   ],
   "note": "Every history."
  },
  {
   "property": "C85",
   "status": "proved",
   "theorems": [
    "c85_reverse",
    "c85_refuted"
   ],
   "note": "c85_reverse: one unit more suffices; c85_refuted: the quote itself may not."
  },
  {
   "property": "C86",
   "status": "proved",
   "theorems": [
    "c86_ignored",
    "c86_refuted"
   ],
   "note": "The intended property is false: c86_refuted gives the witness, c86_ignored shows the fields never matter."
  },
  {
   "property": "C87",
   "status": "proved",
   "theorems": [
    "c87_plain_pair",
    "c87_message"
   ],
   "note": "Simulation relation over histories."
  },
  {
   "property": "C88",
   "status": "proved",
   "theorems": [
    "c88_swap",
    "c88_lp_ledger",
    "c88_alive"
   ],
   "note": "Every swap; ledger and alive over histories."
  },
  {
   "property": "C89",
   "status": "proved",
   "theorems": [
    "c89_step",
    "c89_scale_kept",
    "c89_history",
    "c89_lp_price",
    "c89_ramp_refuted"
   ],
   "note": "c89_ramp_refuted: the LP price falls below one by a permitted change of the amplification. Equality of reported LP price and recorded value is proved for 18-decimal assets."
  },
  {
   "property": "C90",
   "status": "proved",
   "theorems": [
    "c90_withdraw",
    "c90_provide",
    "c90_first_deposit"
   ],
   "note": "Per message, in reachable states."
  },
  {
   "property": "C91",
   "status": "proved",
   "theorems": [
    "c91_last_price",
    "c91_oracle",
    "c91_not_by_own_trade",
    "c91_once_per_second",
    "c91_defined"
   ],
   "note": "Accuracy of 0.5^x is stated by bracketing between consecutive powers of two (and exactness of the mean); the weight theorem needs fewer than 2^32 half-times elapsed because of a truncating cast."
  },
  {
   "property": "C92",
   "status": "proved",
   "theorems": [
    "c92_simulation",
    "c92_simulate_provide",
    "c92_simulate_withdraw",
    "c92_reverse_refuted"
   ],
   "note": "Positive half for the three forward queries; c92_reverse_refuted for the reverse simulation."
  },
  {
   "property": "C93",
   "status": "proved",
   "theorems": [
    "c93_for_ever",
    "c93_refuted"
   ],
   "note": "The intended property is false: c93_refuted gives the witness, c93_for_ever the general statement."
  },
  {
   "property": "C94",
   "status": "proved",
   "theorems": [
    "c94_normal_round_trip",
    "c94_refuted"
   ],
   "note": "c94_normal_round_trip for normal sizes (LP price does not fall); c94_refuted: for tiny trades a gain of more than 1800 times the offer."
  },
  {
   "property": "C95",
   "status": "proved",
   "theorems": [
    "c95_balance_at"
   ],
   "note": "Histories without plain donations to the pair."
  },
  {
   "property": "C96",
   "status": "proved",
   "theorems": [
    "c96_repeg"
   ],
   "note": "Per repeg, in reachable states."
  },
  {
   "property": "C97",
   "status": "proved",
   "theorems": [
    "c97_ignored",
    "c97_refuted"
   ],
   "note": "The intended property is false: c97_refuted gives the witness, c97_ignored shows the field never matters."
  },
  {
   "property": "C98",
   "status": "proved",
   "theorems": [
    "c98_refuted"
   ],
   "note": "The intended property is false; the theorem is the witness."
  },
  {
   "property": "C99",
   "status": "proved",
   "theorems": [
    "c99_deposit",
    "c99_max_spread"
   ],
   "note": "Both forms of the check; every accepted swap."
  },
  {
   "property": "C100",
   "status": "proved",
   "theorems": [
    "c100_probe",
    "c100_swap",
    "c100_provide",
    "c100_others"
   ],
   "note": "Modulo 2^128; recorded price for the elapsed seconds. The price probed: c100_probe."
  },
  {
   "property": "C101",
   "status": "proved",
   "theorems": [
    "c101_in_step",
    "c101_for_ever",
    "c101_refuted"
   ],
   "note": "c101_in_step: the only way out of step; c101_for_ever: then nothing ever settles; c101_refuted: a reachable history."
  },
  {
   "property": "C102",
   "status": "proved",
   "theorems": [
    "c102_orders",
    "c102_refuted"
   ],
   "note": "c102_orders holds for every placement; c102_refuted: the conversion to order prices can halve the price."
  },
  {
   "property": "C103",
   "status": "proved",
   "theorems": [
    "c103_exported"
   ],
   "note": ""
  },
  {
   "property": "C104",
   "status": "proved",
   "theorems": [
    "c104_one_side",
    "c104_two_sides",
    "c104_refuted"
   ],
   "note": "One-sided fills exact; two-sided: what is recorded (c104_two_sides) and a history where it is off by a factor of a thousand (c104_refuted)."
  },
  {
   "property": "C105",
   "status": "proved",
   "theorems": [
    "c105_tie",
    "c105_refuted"
   ],
   "note": "Refuted; c105_tie states exactly when the pair stops."
  },
  {
   "property": "C106",
   "status": "proved",
   "theorems": [
    "c106_bounds",
    "c106_authority"
   ],
   "note": ""
  },
  {
   "property": "C107",
   "status": "proved",
   "theorems": [
    "c107_settlement",
    "c107_withdraw"
   ],
   "note": ""
  },
  {
   "property": "C108",
   "status": "proved",
   "theorems": [
    "c108_fee",
    "c108_bound"
   ],
   "note": ""
  },
  {
   "property": "C109",
   "status": "proved",
   "theorems": [
    "c109_recorded",
    "c109_refuted",
    "c109_dust_refuted"
   ],
   "note": "c109_recorded: what is noted; two _refuted histories."
  },
  {
   "property": "C110",
   "status": "proved",
   "theorems": [
    "c110_sync",
    "c110_healthy"
   ],
   "note": ""
  },
  {
   "property": "C111",
   "status": "proved",
   "theorems": [
    "c111_share",
    "c111_provide",
    "c111_simulation"
   ],
   "note": ""
  },
  {
   "property": "C112",
   "status": "proved",
   "theorems": [
    "c112_disable",
    "c112_refuted"
   ],
   "note": "c112_refuted: the fees of fills are lost."
  },
  {
   "property": "C113",
   "status": "proved",
   "theorems": [
    "c113_plain",
    "c113_stays"
   ],
   "note": ""
  },
  {
   "property": "C114",
   "status": "proved",
   "theorems": [
    "c114_provide",
    "c114_accepted",
    "c114_order",
    "c114_stable_shares",
    "c114_swap",
    "c114_swap_accepted",
    "c114_withdraw"
   ],
   "note": ""
  },
  {
   "property": "C115",
   "status": "proved",
   "theorems": [
    "c115_round_trip",
    "c115_no_profit",
    "c115_refuted"
   ],
   "note": "c115_round_trip, c115_no_profit: upper bounds on the payout; c115_refuted: a profitable round trip in a small skewed pool."
  },
  {
   "property": "C116",
   "status": "proved",
   "theorems": [
    "c116_unique",
    "c116_exists",
    "c116_accurate",
    "c116_balanced",
    "c116_refuted"
   ],
   "note": "c116_unique and c116_exists: the exact solution as a cut of the fractions; c116_accurate with explicit side conditions on size and skew; c116_refuted: a tiny pool."
  },
  {
   "property": "C117",
   "status": "proved",
   "theorems": [
    "c117_stable",
    "c117_concentrated",
    "c117_order_book",
    "c117_stable_authority",
    "c117_order_book_authority",
    "c117_former_owner_refuted"
   ],
   "note": "Positive theorems for each kind of pair; c117_former_owner_refuted: a proposal survives the factory owner who made it."
  },
  {
   "property": "C118",
   "status": "proved",
   "theorems": [
    "c118_no_residue",
    "c118_routes",
    "c118_circular",
    "c118_refuted",
    "c118_default_bridge"
   ],
   "note": "c118_no_residue, c118_routes positive; c118_circular, c118_refuted, c118_default_bridge: how accepted settings or foreign pools block collections."
  },
  {
   "property": "C119",
   "status": "proved",
   "theorems": [
    "c119_value"
   ],
   "note": "Value per LP token on the exact curve, amplification fixed."
  },
  {
   "property": "C120",
   "status": "proved",
   "theorems": [
    "c120_drawn",
    "c120_paid",
    "c120_exit",
    "c120_short",
    "c120_refuted"
   ],
   "note": ""
  },
  {
   "property": "C121",
   "status": "proved",
   "theorems": [
    "c121_unique",
    "c121_exists",
    "c121_swap"
   ],
   "note": "c121_swap with explicit side conditions on size and skew; the solution is given as a cut of the fractions (c121_unique, c121_exists)."
  },
  {
   "property": "C122",
   "status": "proved",
   "theorems": [
    "c122_kept",
    "c122_same",
    "c122_native",
    "c122_unpaid",
    "c122_guarded",
    "c122_no_deposit",
    "c122_refuted"
   ],
   "note": "c122_kept, c122_same, c122_native and c122_guarded are the parts that hold; c122_refuted is the witness for a pair with a CW20 asset."
  },
  {
   "property": "C123",
   "status": "proved",
   "theorems": [
    "c123_converted",
    "c123_when",
    "c123_once",
    "c123_claimed",
    "c123_solvent"
   ],
   "note": "The converter is the one of C83; before the migration the vested asset is the old ASTRO of that converter."
  },
  {
   "property": "C124",
   "status": "proved",
   "theorems": [
    "c124_kept",
    "c124_collision",
    "c124_later",
    "c124_once"
   ],
   "note": "c124_collision is the exception to c124_kept."
  },
  {
   "property": "C125",
   "status": "proved",
   "theorems": [
    "c125_kept",
    "c125_trading",
    "c125_locked",
    "c125_refuted"
   ],
   "note": "c125_kept and c125_trading are the parts that hold; c125_locked and c125_refuted show that liquidity is locked. The failure of a withdrawal rests on the new code treating the stored LP token as a coin denomination."
  },
  {
   "property": "C126",
   "status": "proved",
   "theorems": [
    "c126_when",
    "c126_swap",
    "c126_frozen",
    "c126_no_liquidity"
   ],
   "note": ""
  },
  {
   "property": "C127",
   "status": "proved",
   "theorems": [
    "c127_since",
    "c127_now",
    "c127_old_heights",
    "c127_blocks",
    "c127_earlier",
    "c127_refuted",
    "c127_once"
   ],
   "note": "c127_refuted: times before the migration. Heights are assumed smaller than block times in seconds."
  },
  {
   "property": "C128",
   "status": "proved",
   "theorems": [
    "c128_kept",
    "c128_next"
   ],
   "note": ""
  },
  {
   "property": "C129",
   "status": "proved",
   "theorems": [
    "c129_same_kind",
    "c129_once",
    "c129_chains",
    "c129_final",
    "c129_order_book"
   ],
   "note": "Version strings without pre-release parts; pair_concentrated_inj is not part of the workspace."
  },
  {
   "property": "C130",
   "status": "proved",
   "theorems": [
    "c130_fee",
    "c130_running"
   ],
   "note": "Incentives of one pool per message; the fee query assumes the LP token and reward strings are valid."
  },
  {
   "property": "C131",
   "status": "proved",
   "theorems": [
    "c131_listed",
    "c131_pages"
   ],
   "note": "Block times from the epoch start (9 October 2023) on."
  },
  {
   "property": "C132",
   "status": "proved",
   "theorems": [
    "c132_stakers",
    "c132_pools",
    "c132_blocked",
    "c132_sizes",
    "c132_limit_refuted"
   ],
   "note": "Keys are integers in the model; their order stands for the byte order of the stored keys."
  },
  {
   "property": "C133",
   "status": "proved",
   "theorems": [
    "c133_sums",
    "c133_once_refuted"
   ],
   "note": ""
  },
  {
   "property": "C134",
   "status": "proved",
   "theorems": [
    "c134_exit",
    "c134_ordinary",
    "c134_frozen",
    "c134_tax_exit",
    "c134_refuted"
   ],
   "note": "Liveness inside the model: a transfer of zero coins that the bank may refuse (withdrawals so small that one asset rounds to zero) is not modelled."
  },
  {
   "property": "C135",
   "status": "proved",
   "theorems": [
    "c135_parts",
    "c135_backed",
    "c135_mine",
    "c135_auto",
    "c135_auto_effect",
    "c135_unregistered"
   ],
   "note": "One pair with a native LP denom; both models complete. Positions cannot shrink otherwise also means: not by auto-staking of others."
  },
  {
   "property": "C136",
   "status": "proved",
   "theorems": [
    "c136_exit"
   ],
   "note": "Hypotheses are those of C69 (regular removals, ranges) and C134 (accumulators); hw_meets shows a history that meets them."
  },
  {
   "property": "C137",
   "status": "proved",
   "theorems": [
    "c137_parts",
    "c137_needs",
    "c137_active",
    "c137_deregister",
    "c137_gone",
    "c137_leave",
    "c137_paused_refuted",
    "c137_untold_refuted"
   ],
   "note": "The intended unconditional reading (a deregistered pair never earns ASTRO) is refuted by c137_paused_refuted and c137_untold_refuted; c137_active holds for histories whose deregistrations reach the incentives contract while ASTRO is emitted (hr_meets)."
  },
  {
   "property": "C138",
   "status": "proved",
   "theorems": [
    "c138_simulated",
    "c138_executes",
    "c138_others",
    "c138_refines",
    "c138_twice_refuted",
    "c138_stray_refuted"
   ],
   "note": "c138_twice_refuted and c138_stray_refuted show the two exceptions. c138_refines links this model to RouterModel, so C24, C25, C61 and C62 hold here as well. rw_two and rw_ready meet the hypotheses."
  },
  {
   "property": "C139",
   "status": "proved",
   "theorems": [
    "c139_fees",
    "c139_history",
    "c139_listed",
    "c139_swap",
    "c139_isolated",
    "c139_terms_only",
    "c139_deregistered",
    "c139_fee_share",
    "c139_fee_share_set",
    "c139_other_kinds",
    "c139_quote_protected_refuted"
   ],
   "note": "c139_quote_protected_refuted shows that a trader's limits do not cover the fee. fp_swap meets the hypotheses. c139_fees and c139_other_kinds discharge the fee assumptions of C01-C11, C30 and C88 for pairs of this factory."
  },
  {
   "property": "C140",
   "status": "proved",
   "theorems": [
    "c140_booked",
    "c140_executes",
    "c140_simulated",
    "c140_reserves",
    "c140_others",
    "c140_refines"
   ],
   "note": "Generalises C138 to stable, concentrated, sale-tax and transmuter pairs. c140_executes is an equivalence whose condition speaks about single trades as things stand; when a constant-product trade goes through is C138, a stable one C144. mw_five and mw_trades (with mw_apart, mw_clean) meet the hypotheses with one pair of each kind. c140_booked: after a route every pair's recorded reserves are again exactly what it holds, so what is paid out (return, fee share, maker's part, tax) is what was booked."
  },
  {
   "property": "C141",
   "status": "proved",
   "theorems": [
    "c141_refines",
    "c141_story",
    "c141_price",
    "c141_pairs",
    "c141_coins",
    "c141_income",
    "c141_fair_price_refuted"
   ],
   "note": "c141_fair_price_refuted: the sandwich. c141_refines carries C45-C47, C75-C79 and C118 over; c141_example and c141_no_leak meet the hypotheses with a bridge and a dev fund."
  },
  {
   "property": "C143",
   "status": "proved",
   "theorems": [
    "c143_exit",
    "c143_frozen",
    "c143_refuted"
   ],
   "note": "c143_exit: both directions; c143_frozen: for every later history; c143_refuted: the witness dust, 20 tokens against 500 units at amplification 1000."
  },
  {
   "property": "C144",
   "status": "proved",
   "theorems": [
    "c144_simulation",
    "c144_exit",
    "c144_swap"
   ],
   "note": "Newton's method with the program's roundings: a potential falls by the factor 3.99 per round. Deposits are not covered (they may fail for giving no LP tokens). C143 gives the pools outside the range that are frozen."
  },
  {
   "property": "C142",
   "status": "proved",
   "theorems": [
    "c142_accepts",
    "c142_kept",
    "c142_limits",
    "c142_backed",
    "c142_seize",
    "c142_cooldown",
    "c142_obeyed_refuted",
    "c142_balances",
    "c142_config",
    "c142_config_refuted"
   ],
   "note": "c142_obeyed_refuted and c142_config_refuted: witnesses of the two failures named in the statement. c142_example: a maker of version 1.2.0 migrated with second receiver and cooldown, then collecting."
  },
  {
   "property": "C145",
   "status": "proved",
   "theorems": [
    "c145_provide",
    "c145_credited",
    "c145_first"
   ],
   "note": "c145_provide: liveness and lower bound; c145_credited: the bound for every deposit that goes through; c145_first: the first deposit. c145_example and c145_first_example meet the hypotheses."
  },
  {
   "property": "C146",
   "status": "proved",
   "theorems": [
    "c146_answers",
    "c146_suffices",
    "c146_needed",
    "c146_exact_refuted"
   ],
   "note": "c146_exact_refuted: the named offer itself may be one unit short. c146_example meets the hypotheses of both bounds. c146_answers: requests between one whole token and half of the reserve are always answered (both iterations end, no subtraction fails)."
  },
  {
   "property": "C147",
   "status": "proved",
   "theorems": [
    "c147_full",
    "c147_room",
    "c147_one_each",
    "c147_limit_refuted"
   ],
   "note": "Refusal of full accounts, liveness with the exact deposit, and the bound of eight for one-at-a-time registrations over all histories. The documented limit itself is refuted by one registration of nine schedules (c147_limit_refuted)."
  },
  {
   "property": "C148",
   "status": "proved",
   "theorems": [
    "c148_more",
    "c148_diminishing",
    "c148_split",
    "c148_split_refuted"
   ],
   "note": "Monotone in the offer, diminishing per unit, and both bounds on splitting, for all reachable pools. Gains from splitting exist (c148_split_refuted) and are bounded by the commission kept in the pool."
  },
  {
   "property": "C149",
   "status": "proved",
   "theorems": [
    "c149_more",
    "c149_unit",
    "c149_exact_refuted"
   ],
   "note": "Two-sided error of the iteration (C63) against the exact curve, which is monotone. The witness of c149_exact_refuted was found by searching for offers at which the number of steps changes. Swaps pay what the simulation says (C30)."
  },
  {
   "property": "C150",
   "status": "proved",
   "theorems": [
    "c150_more",
    "c150_split",
    "c150_free",
    "c150_avoided_refuted"
   ],
   "note": "c150_more reduces to C148 by C87 (the pool is a plain pool fed with offers after tax). sold is the execution of swaps in a row. c150_avoided_refuted: tax avoided by splitting."
  },
  {
   "property": "C151",
   "status": "proved",
   "theorems": [
    "c151_touched",
    "c151_opened",
    "c151_idle",
    "c151_running",
    "c151_stale_refuted"
   ],
   "note": "RewardInfo brings a copy of the pool up to date, PoolInfo reads the stored one. Proved: after a deposit, withdrawal or claim the stored rows are the announced ones (c151_touched), a first deposit opens without rewards (c151_opened), other pools are untouched (c151_idle), and on every reachable state the announced rows run, are distinct and not negative (c151_running). That PoolInfo alone lists only running rewards is refuted (c151_stale_refuted)."
  },
  {
   "property": "C152",
   "status": "proved",
   "theorems": [
    "c152_enter",
    "c152_leave",
    "c152_parts",
    "c152_enter_parts_refuted"
   ],
   "note": "Histories of all accounts with any messages between the staker's own. Entries: c152_enter; exits: c152_leave (lower bound), c152_parts (upper bound without others). A unit-per-part bound for entries is refuted (c152_enter_parts_refuted: 3 and 10^9 units into a contract of 1999 ASTRO against 1001 xASTRO)."
  },
  {
   "property": "C153",
   "status": "proved",
   "theorems": [
    "c153_deposits",
    "c153_withdrawals",
    "c153_parts"
   ],
   "note": "Histories of all messages but swaps. Deposits: c153_deposits; withdrawals: c153_withdrawals (lower bound with the rounding stated for each withdrawal), c153_parts (upper bound without others)."
  }
 ]
}