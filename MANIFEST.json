{
 "claims": [
  {
   "property": "C01",
   "status": "proved",
   "theorems": [
    "C01_tick_price_total_and_bounded",
    "C01_tick_price_strictly_increasing",
    "C01_other_ticks_rejected_guarded",
    "C01_other_ticks_rejected_refuted"
   ],
   "note": "Total, bounded and strictly increasing for all valid ticks; every other i32 rejected except i32::MIN, which is accepted (refuted theorem)."
  },
  {
   "property": "C02",
   "status": "proved",
   "theorems": [
    "C02_tick_of_price_is_floor",
    "C02_floor_tick_unique",
    "C02_round_trip",
    "C02_outside_range_rejected",
    "C02_result_is_valid_tick_refuted"
   ],
   "note": "Full statement, via a real-logarithm error analysis; plus uniqueness, round trip, rejection outside the range, and a refutation of the stronger claim that the result is always a valid tick."
  },
  {
   "property": "C03",
   "status": "proved",
   "theorems": [
    "C03_delta_y_down_is_floor",
    "C03_delta_y_up_is_ceil",
    "C03_delta_y_down_fails_only_on_overflow",
    "C03_delta_y_up_fails_only_on_overflow"
   ],
   "note": "Floor/ceiling characterisation for all u128 prices and u256 liquidity, failure only on 256-bit overflow."
  },
  {
   "property": "C04",
   "status": "proved",
   "theorems": [
    "C04_delta_x_down_at_most_exact",
    "C04_delta_x_up_at_least_exact_guarded",
    "C04_delta_x_up_at_least_exact_refuted",
    "C04_amounts_exist"
   ],
   "note": "Rounding down proved. The rounding-up half is false as stated (refuted theorem); the sharp bound, the sufficient condition and totality between admissible prices are proved."
  },
  {
   "property": "C05",
   "status": "proved",
   "theorems": [
    "C05_round_trip_never_profits"
   ],
   "note": "For the amounts computed at an unchanged price, any ticks and liquidity."
  },
  {
   "property": "C06",
   "status": "proved",
   "theorems": [
    "C06_step_stops_at_target_y_to_x",
    "C06_step_moves_down_x_to_y",
    "C06_step_stops_at_target_exact_out",
    "C06_step_stops_at_target_exact_in_guarded",
    "C06_overshoot_bound",
    "C06_step_stops_at_target_refuted"
   ],
   "note": "Three of four modes unconditionally; exact-in x-to-y refuted in general, proved under p^2 >= 10^24*(p-t+1), with a bound on the overshoot in all cases."
  },
  {
   "property": "C07",
   "status": "proved",
   "theorems": [
    "C07_exact_out_at_most_amount",
    "C07_exact_in_at_most_amount_guarded",
    "C07_exact_in_uses_whole_amount",
    "C07_exact_out_delivers_whole_amount_y",
    "C07_exact_in_at_most_amount_refuted",
    "C07_step_total",
    "C07_step_total_zero_fee_refuted"
   ],
   "note": "Exact-out unconditional; exact-in refuted by a witness landing exactly on the target, proved outside that single case; totality with non-zero fee, refuted with zero fee."
  },
  {
   "property": "C08",
   "status": "proved",
   "theorems": [
    "C08_input_y_covers_exact",
    "C08_output_x_at_most_exact",
    "C08_output_y_at_most_exact",
    "C08_input_x_covers_exact"
   ],
   "note": "All four token/direction combinations against the exact rational amounts."
  },
  {
   "property": "C09",
   "status": "proved",
   "theorems": [
    "C09_fee_is_ceil_of_input",
    "C09_fee_of_short_step"
   ],
   "note": "Exact fee when the target is reached or exact-out; lower bound otherwise."
  },
  {
   "property": "C10",
   "status": "proved",
   "theorems": [
    "C10_add_is_modular",
    "C10_sub_is_modular",
    "C10_add_then_sub",
    "C10_sub_then_add",
    "C10_inside_is_difference"
   ],
   "note": ""
  },
  {
   "property": "C11",
   "status": "proved",
   "theorems": [
    "C11_distributed_at_most_collected",
    "C11_share_of_one_fee"
   ],
   "note": "For any list of positions, any interleaving of fees and collections, including wrap-around of the accumulator."
  },
  {
   "property": "C12",
   "status": "proved",
   "theorems": [
    "C12_fee_split",
    "C12_over_100_percent_panics"
   ],
   "note": ""
  },
  {
   "property": "C13",
   "status": "proved",
   "theorems": [
    "C13_position_total",
    "C13_position_bounds",
    "C13_position_inverse",
    "C13_position_injective",
    "C13_flip_effect",
    "C13_flip_total",
    "C13_empty_map"
   ],
   "note": ""
  },
  {
   "property": "C14",
   "status": "proved",
   "theorems": [
    "C14_next_initialized",
    "C14_prev_initialized"
   ],
   "note": ""
  },
  {
   "property": "C15",
   "status": "proved",
   "theorems": [
    "C15_target_down",
    "C15_target_up"
   ],
   "note": "Both directions, for any pool whose price and tick agree (C24 shows reachable pools do)."
  },
  {
   "property": "C16",
   "status": "proved",
   "theorems": [
    "C16_dense",
    "C16_create",
    "C16_swap_remove",
    "C16_remove",
    "C16_transfer",
    "C16_claim",
    "C16_others",
    "C16_room"
   ],
   "note": "For every history in which no owner reaches 2^32-1 positions (C16_room: every history of fewer than 2^32-1 events)."
  },
  {
   "property": "C17",
   "status": "proved",
   "theorems": [
    "C17_listing",
    "C17_creation_order",
    "C17_room",
    "C17_wrap_refuted"
   ],
   "note": "For every history in which fewer than 2^16-1 pools exist; refuted beyond (counter wraps)."
  },
  {
   "property": "C18",
   "status": "proved",
   "theorems": [
    "C18_valid_set",
    "C18_add",
    "C18_add_iff",
    "C18_remove",
    "C18_remove_iff",
    "C18_exists"
   ],
   "note": ""
  },
  {
   "property": "C19",
   "status": "proved",
   "theorems": [
    "C19_admin_constant",
    "C19_admin_fixed",
    "C19_protocol_fee",
    "C19_fee_tiers",
    "C19_fee_receiver",
    "C19_others_rejected"
   ],
   "note": ""
  },
  {
   "property": "C20",
   "status": "proved",
   "theorems": [
    "C20_balances",
    "C20_positions"
   ],
   "note": ""
  },
  {
   "property": "C21",
   "status": "proved",
   "theorems": [
    "C21_canonical",
    "C21_order",
    "C21_unique",
    "C21_created",
    "C21_duplicate_rejected",
    "C21_never_deleted"
   ],
   "note": ""
  },
  {
   "property": "C22",
   "status": "proved",
   "theorems": [
    "C22_tick_stored_iff_boundary",
    "C22_bitmap_iff_stored",
    "C22_bitmap_total",
    "C22_tick_liquidity",
    "C22_tick_price_and_range"
   ],
   "note": "For every history in which no owner reaches 2^32-1 positions (C16_room)."
  },
  {
   "property": "C23",
   "status": "proved",
   "theorems": [
    "C23_active_liquidity_guarded",
    "C23_careful_swaps_are_clean",
    "C23_exact_out_x_to_y_is_clean",
    "C23_clean_swap_preserves",
    "C23_active_liquidity_refuted",
    "C23_overshoot_refuted",
    "C23_put_back_refuted"
   ],
   "note": "False in the code (three refutations: price limit on a tick, overshoot, tick put back). Proved for every history whose swaps cross exactly the ticks they pass; conditions under which a swap does are proved."
  },
  {
   "property": "C24",
   "status": "proved",
   "theorems": [
    "C24_price_and_tick_agree"
   ],
   "note": ""
  },
  {
   "property": "C25",
   "status": "proved",
   "theorems": [
    "C25_remove_position",
    "C25_claim_fee",
    "C25_withdraw_protocol_fee",
    "C25_everybody_can_leave"
   ],
   "note": "For every regular trace (no swap excluded in C23, fewer than 2*10^14 roundings, deposits of the tokens of the pool below 2^256)."
  },
  {
   "property": "C26",
   "status": "proved",
   "theorems": [
    "C26_exact",
    "C26_solvent",
    "C26_balances_covered",
    "C26_closing",
    "C26_held",
    "C26_held_vara",
    "C26_unclean_refuted"
   ],
   "note": "For every regular trace and, with tokens in flight, for every regular interleaving with a truthful token contract. Refuted without the exclusion of C23."
  },
  {
   "property": "C27",
   "status": "proved",
   "theorems": [
    "C27_swap_loop_terminates",
    "C27_calls_terminate",
    "C27_quotes_terminate"
   ],
   "note": "At most 443637 iterations (2^96 for exact output towards higher prices); every call and quote returns."
  },
  {
   "property": "C28",
   "status": "proved",
   "theorems": [
    "C28_exact_in_charges_amount",
    "C28_exact_out_pays_amount",
    "C28_price_limit_respected",
    "C28_price_limit_exact_in_down",
    "C28_price_limit_guarded",
    "C28_price_limit_refuted"
   ],
   "note": "Amounts exact in all modes. Price limit: proved except for exact-in towards lower prices, where it is refuted and the overshoot bounded."
  },
  {
   "property": "C29",
   "status": "proved",
   "theorems": [
    "C29_quote_any_time",
    "C29_swap_any_time",
    "C29_swap_does_what_quote_says",
    "C29_quoted_swap_succeeds",
    "C29_failed_quote_failed_swap"
   ],
   "note": "Queries return no state, so they cannot change it. Quotes and swaps at different times: the pool must exist at both."
  },
  {
   "property": "C30",
   "status": "proved",
   "theorems": [
    "C30_slippage_bound",
    "C30_route_moves",
    "C30_route_net_effect",
    "C30_quote_route_distinct_pools",
    "C30_quote_route_refuted"
   ],
   "note": "Slippage, joint amounts, net effect; quote equality for distinct pools, refuted for repeated ones."
  },
  {
   "property": "C31",
   "status": "proved",
   "theorems": [
    "C31_balances_bounded",
    "C31_balance_is_the_query",
    "C31_create",
    "C31_remove",
    "C31_claim",
    "C31_swap",
    "C31_swap_covered",
    "C31_protocol_fee",
    "C31_deposit_vara",
    "C31_withdraw_vara",
    "C31_no_other_moves"
   ],
   "note": "Route swaps are composed of swaps; their net effect is under C30."
  },
  {
   "property": "C32",
   "status": "proved",
   "theorems": [
    "C32_settlement",
    "C32_at_most_once",
    "C32_no_late_settlement",
    "C32_start",
    "C32_other_steps",
    "C32_completed",
    "C32_every_moved_deposit_credited_refuted"
   ],
   "note": "For every interleaving in which no owner reaches 2^32-1 positions (C33_room: every run of fewer than 2^32-1 actions). The converse (every moved deposit is credited) is refuted: replies after the deadline are ignored."
  },
  {
   "property": "C33",
   "status": "proved",
   "theorems": [
    "C33_custody",
    "C33_custody_vara",
    "C33_token_isolation",
    "C33_interleavings_are_histories",
    "C33_room"
   ],
   "note": "Same side condition. For VARA without any assumption on token contracts."
  },
  {
   "property": "C34",
   "status": "proved",
   "theorems": [
    "C34_second_claim_pays_zero",
    "C34_claim_moves_no_liquidity"
   ],
   "note": "For every history in which no owner reaches 2^32-1 positions (C16_room)."
  },
  {
   "property": "C35",
   "status": "proved",
   "theorems": [
    "C35_receiver_only_and_exact",
    "C35_once",
    "C35_others_refused"
   ],
   "note": ""
  },
  {
   "property": "C36",
   "status": "proved",
   "theorems": [
    "C36_positions_listing",
    "C36_listing_by_index"
   ],
   "note": "For offset + size < 2^32 (the argument width of the API)."
  },
  {
   "property": "C37",
   "status": "proved",
   "theorems": [
    "C37_tickmap_complete",
    "C37_ticks_amount",
    "C37_ticks_amount_guarded",
    "C37_ticks_amount_refuted",
    "C37_liquidity_ticks",
    "C37_position_ticks"
   ],
   "note": "get_tickmap is exact. The number of ticks is wrong when a tick lies in the last bitmap chunk (refuted); the exact value it returns is proved."
  },
  {
   "property": "C38",
   "status": "proved",
   "theorems": [
    "C38_gross_liquidity_bounded",
    "C38_pool_liquidity_fits",
    "C38_active_liquidity_fits"
   ],
   "note": ""
  },
  {
   "property": "C39",
   "status": "proved",
   "theorems": [
    "C39_initial_price_refuted",
    "C39_initial_state_guarded"
   ],
   "note": "False in the code (refuted); the exact initial state is proved."
  },
  {
   "property": "C40",
   "status": "proved",
   "theorems": [
    "C40_exact_out_down_guarded",
    "C40_exact_out_refuted"
   ],
   "note": "Exact outputs of y (C40_exact_out_down_guarded), for histories as in C58; no such guarantee is proved for exact outputs of x. The unconditional claim is false in the code (C40_exact_out_refuted)."
  },
  {
   "property": "C41",
   "status": "proved",
   "theorems": [
    "C41_create_position_guards",
    "C41_create_position_needs_pool"
   ],
   "note": ""
  },
  {
   "property": "C42",
   "status": "proved",
   "theorems": [
    "C42_snapshot_is_true",
    "C42_simulation_matches_swap",
    "C42_step_limit",
    "C42_simulation_matches_quote",
    "C42_simulation_warns",
    "C42_clean_simulation",
    "C42_clean_simulation_refuted",
    "C42_simulation_terminates",
    "C42_filter",
    "C42_filter_complete_refuted",
    "C42_position_of_tick"
   ],
   "note": "Same room condition as C16. A flagless simulation of an exact output can be one on which the contract panics (refuted converse)."
  },
  {
   "property": "C43",
   "status": "proved",
   "theorems": [
    "C43_tick_price_accuracy"
   ],
   "note": ""
  },
  {
   "property": "C44",
   "status": "proved",
   "theorems": [
    "C44_by_x_is_affordable",
    "C44_by_y_is_affordable",
    "C44_both_is_affordable",
    "C44_by_y_is_largest",
    "C44_by_x_is_almost_largest",
    "C44_by_x_outcomes",
    "C44_by_y_outcomes",
    "C44_estimate_covers_refuted",
    "C44_both_amounts_refuted"
   ],
   "note": "Affordability for all inputs and histories; largest for y, bounded slack for x. Two claims of the helpers are false and refuted (estimate of the other token, pairing in get_liquidity)."
  },
  {
   "property": "C45",
   "status": "proved",
   "theorems": [
    "C45_associates",
    "C45_fee_preview",
    "C45_removal_preview"
   ],
   "note": "For every reachable position."
  },
  {
   "property": "C46",
   "status": "proved",
   "theorems": [
    "C46_sqrt_exact",
    "C46_sqrt_four_refuted",
    "C46_slippage_up",
    "C46_slippage_down",
    "C46_create_at_seen_price",
    "C46_create_within_tolerance",
    "C46_price_impact"
   ],
   "note": "The square root of 4 is wrong (refuted); everything else holds for all prices and tolerances."
  },
  {
   "property": "C47",
   "status": "proved",
   "theorems": [
    "C47_amounts_cover",
    "C47_amounts_cover_refuted"
   ],
   "note": "Under the stated proviso; false without it (refuted)."
  },
  {
   "property": "C48",
   "status": "proved",
   "theorems": [
    "C48_liquidity_map"
   ],
   "note": "For every reachable pool."
  },
  {
   "property": "C49",
   "status": "proved",
   "theorems": [
    "C49_token_order",
    "C49_same_pool_key",
    "C49_upper_case_refuted"
   ],
   "note": "For lower-case texts, as the SDK produces them; false for mixed case (refuted)."
  },
  {
   "property": "C50",
   "status": "proved",
   "theorems": [
    "C50_pool_tick_valid",
    "C50_valid_tick_exact"
   ],
   "note": "Rests on the strict form of C24."
  },
  {
   "property": "C51",
   "status": "proved",
   "theorems": [
    "C51_new_position",
    "C51_boundary_ticks",
    "C51_pools_of_a_pair",
    "C51_pair_of_one_token",
    "C51_balances_listed",
    "C51_pools_of_a_pair_complete_refuted"
   ],
   "note": "For every history in which no owner reaches 2^32-1 positions (C16_room). The pair listing omits pools whose fee tier was removed (refuted)."
  },
  {
   "property": "C52",
   "status": "proved",
   "theorems": [
    "C52_deposit_single",
    "C52_deposit_pair",
    "C52_withdraw_single",
    "C52_withdraw_pair"
   ],
   "note": "For every history in which no owner reaches 2^32-1 positions."
  },
  {
   "property": "C54",
   "status": "proved",
   "theorems": [
    "C54_created",
    "C54_removed",
    "C54_swap",
    "C54_route",
    "C54_silent",
    "C54_positions",
    "C54_prices",
    "C54_active_liquidity_guarded",
    "C54_owners_refuted",
    "C54_fee_refuted"
   ],
   "note": "For every history in which no owner reaches 2^32-1 positions; the active liquidity under the side condition of C23. Two expectations are refuted (fee field, owners)."
  },
  {
   "property": "C57",
   "status": "proved",
   "theorems": [
    "C57_swap_walks_the_curve",
    "C57_quote_walks_the_curve"
   ],
   "note": "For every history in which no owner reaches 2^32-1 positions and every swap was clean (side condition of C23)."
  },
  {
   "property": "C53",
   "status": "proved",
   "theorems": [
    "C53_seconds_outside",
    "C53_time_read_off",
    "C53_time_in_range",
    "C53_timestamps",
    "C53_new_pool",
    "C53_last_timestamp",
    "C53_start_is_fixed",
    "C53_seconds_outside_refuted"
   ],
   "note": "For every history in which time does not run backwards, no owner reaches 2^32-1 positions and every swap was clean (side condition of C23); C53_seconds_outside_refuted shows that it fails without the latter."
  },
  {
   "property": "C58",
   "status": "proved",
   "theorems": [
    "C58_quote_outcome",
    "C58_swap_outcome",
    "C58_exact_in_up_guarded",
    "C58_exact_in_down_guarded",
    "C58_enough_liquidity_refuted",
    "C58_exact_in_monotone_refuted",
    "C58_least_price_refuted"
   ],
   "note": "For every history in which no owner reaches 2^32-1 positions and every swap was clean (side condition of C23), in the circumstances of the record ordinary. That enough liquidity suffices, and that amounts between two that succeed succeed, is refuted."
  },
  {
   "property": "C56",
   "status": "proved",
   "theorems": [
    "C56_supply",
    "C56_mint",
    "C56_burn",
    "C56_powers",
    "C56_roles",
    "C56_no_admin",
    "C56_transfers",
    "C56_switch"
   ],
   "note": "For every inherited token service that moves balances without creating or destroying any (SpecToken.conserving); the crate vft_service itself is not part of the repository."
  },
  {
   "property": "C59",
   "status": "proved",
   "theorems": [
    "C59_pool_keys",
    "C59_many_pools_refuted",
    "C59_position_page",
    "C59_all_positions",
    "C59_counted_positions",
    "C59_every_position",
    "C59_default_size",
    "C59_skipped_page_refuted"
   ],
   "note": "For every history in which no owner reaches 2^32-1 positions, respectively at most 65535 pools are created; answers to several queries are taken from one state. Two expectations are refuted (more than 57540 pools, skipping page 0)."
  },
  {
   "property": "C55",
   "status": "proved",
   "theorems": [
    "C55_quote_then_swap",
    "C55_within_tolerance",
    "C55_full_tolerance_refuted",
    "C55_zero_tolerance_refuted",
    "C55_exact_out_refuted"
   ],
   "note": "Exact input; for exact output the equality is refuted. The three refuted expectations are part of the statement."
  },
  {
   "property": "C60",
   "status": "proved",
   "theorems": [
    "C60_create_position",
    "C60_create_position_regular",
    "C60_create_position_no_pool",
    "C60_check_ticks",
    "C60_check_ticks_refuted",
    "C60_create_pool",
    "C60_change_protocol_fee",
    "C60_change_fee_receiver",
    "C60_withdraw_protocol_fee",
    "C60_transfer_position",
    "C60_deposit_vara",
    "C60_withdraw_vara"
   ],
   "note": "For every history in which no owner reaches 2^32-1 positions. Fee tiers: C18; swaps: C58; closing and claiming: C25; token deposits and withdrawals: C52."
  },
  {
   "property": "C61",
   "status": "proved",
   "theorems": [
    "C61_cost",
    "C61_proceeds",
    "C61_loss_y",
    "C61_loss_x",
    "C61_below_range",
    "C61_above_range",
    "C61_monotone",
    "C61_split",
    "C61_round_trip"
   ],
   "note": "For every history in which no owner reaches 2^32-1 positions; the round trip for two calls in a row at one price."
  },
  {
   "property": "C62",
   "status": "proved",
   "theorems": [
    "C62_claim_pays",
    "C62_starts_at_zero",
    "C62_swap",
    "C62_route",
    "C62_only_swaps",
    "C62_out_of_range",
    "C62_in_range",
    "C62_proportional",
    "C62_equal_terms"
   ],
   "note": "For every history in which no owner reaches 2^32-1 positions and every swap was clean (side condition of C23)."
  },
  {
   "property": "C63",
   "status": "proved",
   "theorems": [
    "C63_add_sub",
    "C63_mul_div",
    "C63_big_mul_div",
    "C63_mul_to_value",
    "C63_checked_div",
    "C63_by_number",
    "C63_up_exceeds_down",
    "C63_checked_by_number_up_refuted",
    "C63_types",
    "C63_contract_arithmetic"
   ],
   "note": "The refuted expectation (checked_big_div_by_number_up) is part of the statement."
  },
  {
   "property": "C64",
   "status": "proved",
   "theorems": [
    "C64_representation",
    "C64_widen",
    "C64_narrow",
    "C64_to_u64_u128",
    "C64_from_primitive",
    "C64_to_small_refuted",
    "C64_to_small_guarded",
    "C64_shifts",
    "C64_bigint"
   ],
   "note": "The refuted expectation (u8, u16, u32) is part of the statement, with the guarded version beside it."
  },
  {
   "property": "C65",
   "status": "proved",
   "theorems": [
    "C65_from_integer",
    "C65_from_scale",
    "C65_checked_from_scale_refuted",
    "C65_between",
    "C65_round_trip",
    "C65_to_value_guarded",
    "C65_between_checked",
    "C65_to_value_refuted",
    "C65_sdk",
    "C65_sdk_refuted",
    "C65_display",
    "C65_denominators"
   ],
   "note": "The refuted expectations are part of the statement."
  },
  {
   "property": "C66",
   "status": "proved",
   "theorems": [
    "C66_modular",
    "C66_global",
    "C66_global_refuted",
    "C66_inside_grows",
    "C66_crossing",
    "C66_inside_adds"
   ],
   "note": "The refuted expectation is part of the statement. No entry point of the contract calls these functions."
  },
  {
   "property": "C67",
   "status": "proved",
   "theorems": [
    "C67_meaning",
    "C67_decreasing",
    "C67_tick_delta",
    "C67_inverse",
    "C67_tick_delta_none",
    "C67_array",
    "C67_array_zero_refuted",
    "C67_array_decreasing_refuted",
    "C67_fits_guarded",
    "C67_fits_refuted",
    "C67_new_fee_tier",
    "C67_new_fee_tier_guarded",
    "C67_new_fee_tier_refuted",
    "C67_linear"
   ],
   "note": "Real arithmetic in place of double precision. The refuted expectations are part of the statement. Uses the axioms of the real numbers of the standard library."
  },
  {
   "property": "C68",
   "status": "proved",
   "theorems": [
    "C68_swap_pays_the_positions",
    "C68_holdings_order",
    "C68_round_trip",
    "C68_gaining_x_costs_y",
    "C68_gaining_y_costs_x",
    "C68_round_trip_refuted"
   ],
   "note": "For swaps that cross the ticks they pass (see C23). Refuted without that condition: a concrete profitable round trip. The bounds on the number of swaps come from the rounding of C04."
  },
  {
   "property": "C69",
   "status": "proved",
   "theorems": [
    "C69_no_better_than_before",
    "C69_exact_in_no_worse_than_after",
    "C69_quote_no_better_than_the_price"
   ],
   "note": "For every history in which no owner reaches 2^32-1 positions and every earlier swap was clean (side condition of C23); the swap itself need not be."
  },
  {
   "property": "C70",
   "status": "proved",
   "theorems": [
    "C70_untouched",
    "C70_depends_only_on",
    "C70_either_order",
    "C70_users_in_different_pools",
    "C70_any_interleaving",
    "C70_quotes_stay_valid",
    "C70_one_pool_refuted"
   ],
   "note": "For all states, not only reachable ones. Granularity: an account is all balances and positions of one user; the awaited token transfers are one part."
  },
  {
   "property": "C71",
   "status": "proved",
   "theorems": [
    "C71_no_trace",
    "C71_nobody_notices",
    "C71_come_and_gone",
    "C71_queries",
    "C71_storage_shows_refuted"
   ],
   "note": "Same state up to what is listed, same answers to every later sequence of calls of the others, same quotes and queries; the two visible storage traces as a refuted theorem."
  },
  {
   "property": "C72",
   "status": "proved",
   "theorems": [
    "C72_claim_unnoticed",
    "C72_others_continue",
    "C72_claim_often",
    "C72_wrap_refuted"
   ],
   "note": "Claims invisible to the others for all continuations; n claims against one claim at the end, both directions; the wrap-around of the growth counter as a refuted theorem."
  },
  {
   "property": "C73",
   "status": "proved",
   "theorems": [
    "C73_unnoticed",
    "C73_cost",
    "C73_fees",
    "C73_closing",
    "C73_cheaper_refuted"
   ],
   "note": "Two positions against one: same state for the others and same answers for all continuations; fees, cost and closing compared with exact rounding bounds; one unit of x cheaper shown by a refuted theorem."
  },
  {
   "property": "C74",
   "status": "proved",
   "theorems": [
    "C74_any_order",
    "C74_never_noticed",
    "C74_afterwards",
    "C74_same_wealth",
    "C74_mixed_refuted",
    "C74_own_calls_refuted"
   ],
   "note": "Any permutation of a block of openings and claims, or closings and claims, by different users; all continuations. Room: nobody comes within the length of the block of 2^32 - 1 positions. Mixed blocks and one user calling twice are shown to differ by refuted theorems."
  },
  {
   "property": "C75",
   "status": "proved",
   "theorems": [
    "C75_nobody_else",
    "C75_same_worth",
    "C75_same_closing",
    "C75_never_noticed",
    "C75_giving_back",
    "C75_to_oneself_refuted"
   ],
   "note": "Any course of events in which others (neither giver nor receiver) act and the owner claims; the claims go through in both courses (they can differ only by a balance overflowing 2^256). Closing: with the exact overflow condition. Room: nobody holds 2^32 - 1 positions."
  },
  {
   "property": "C76",
   "status": "proved",
   "theorems": [
    "C76_renaming",
    "C76_from_the_start",
    "C76_queries",
    "C76_same_treatment",
    "C76_same_answer",
    "C76_offices_matter"
   ],
   "note": "Any injective renaming of users, any two states that differ by it, all calls, token movements and queries; positions are compared in order, balances token by token. Tokens keep their addresses. Ordinary: neither administrator nor fee receiver, and no transfer under way."
  },
  {
   "property": "C77",
   "status": "proved",
   "theorems": [
    "C77_clock",
    "C77_in_order",
    "C77_any_clock",
    "C77_quote",
    "C77_quote_route",
    "C77_clock_back_refuted"
   ],
   "note": "All calls, token movements and quotes. Compared: everything but the start and last timestamps of pools, the seconds outside of ticks and the last block number of positions. The clock is the timestamp each call carries; the condition all_dated is implied by in_order."
  },
  {
   "property": "C78",
   "status": "proved",
   "theorems": [
    "C78_tokens",
    "C78_from_the_start",
    "C78_queries",
    "C78_order_matters"
   ],
   "note": "Any strictly increasing change of token addresses that fixes VARA, all calls, token movements and queries. The listing of balances is compared up to order. Users keep their addresses (C76 is about them)."
  },
  {
   "property": "C79",
   "status": "proved",
   "theorems": [
    "C79_more_wanted_costs_more",
    "C79_more_wanted_costs_more_swap",
    "C79_more_offered_yields_more",
    "C79_more_offered_yields_more_swap",
    "C79_more_offered_yields_more_refuted",
    "C79_more_x_offered_refuted",
    "C79_more_x_wanted_refuted"
   ],
   "note": "Both swaps succeed in the same state, in one direction, with one limit. Orders that fix an amount of y: exact for y wanted; for y offered the price is exact and the amount of x paid up to one part in 10^14 and one unit. The margin is necessary, and the rule is false for orders that fix an amount of x (refutations at a price of 2.7e-10, the one for x offered with a fee tier of 10^-12)."
  },
  {
   "property": "C80",
   "status": "proved",
   "theorems": [
    "C80_same_market",
    "C80_protocol_fee",
    "C80_from_the_start",
    "C80_quote",
    "C80_quote_route",
    "C80_protocol_fee_refuted"
   ],
   "note": "All calls and token movements but the three that pay fees out, any changes of the protocol fee, any two states with the same market, no call panicking; quotes and route quotes as well. That panics must be excluded is shown by a refutation (protocol fee of 200%)."
  },
  {
   "property": "C81",
   "status": "proved",
   "theorems": [
    "C81_any_offer",
    "C81_removal",
    "C81_queries",
    "C81_pair_listing_refuted"
   ],
   "note": "All calls and token movements, any two lists of fee tiers; success, answers and states are equal, panics included. That the listing of the pools of a pair forgets pools of removed fee tiers is proved as a refutation."
  },
  {
   "property": "C82",
   "status": "proved",
   "theorems": [
    "C82_ticks",
    "C82_prices",
    "C82_pools_stay_inside",
    "C82_whole_range_in_use",
    "C82_whole_range_in_use_refuted"
   ],
   "note": "Any 16-bit spacing; the range of pools for all histories, the liquidity of whole-range positions for histories in which every swap crosses the ticks it passes (see C23). That such a position is idle at the highest price is proved as a refutation."
  }
 ]
}