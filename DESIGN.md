# Formal model of invariant-labs/protocol-vara in Rocq (Coq 8.16.1)

## Shape of the model

All numbers (u64, u128, U256, U384, U448, U512, i32, ...) are `Z`.  Every Rust
operation that can overflow, underflow, divide by zero or fail a cast is a
function that checks the bound of the Rust type and returns one of

* `Ok v`
* `Err e`   – a Rust `Err` value that is propagated with `?`
* `Panic`   – a Rust panic (`unwrap`, `assert!`, operator overflow, ...)
* `Loop`    – the iteration budget (2^100) of a `while` loop is exhausted; C27 and
  C42 show that no call produces it, so loops are modelled faithfully

Model files (bottom up; each definition cites the lines it models and says where it simplifies):

| file | code modelled |
|---|---|
| `Base.v` | result monad, integer widths, checked arithmetic, casts, loops |
| `Decimal.v` | `calc/decimal/decimal_core` (macro generated operators) |
| `SqrtPriceM.v`, `LogM.v` | `calc/math/types/sqrt_price.rs`, `calc/math/log.rs` |
| `ClammM.v`, `FeeGrowthM.v` | `calc/math/clamm.rs`, `calc/math/types/fee_growth.rs` |
| `Types.v` | `PoolKey`, `FeeTier`, `Pool`, `Tick`, `Position` |
| `TickmapM.v` | `src/contracts/collections/tickmap.rs` |
| `StorageM.v` | `src/contracts/storage/{tick,pool,position}.rs` |
| `CollectionsM.v` | `src/contracts/collections/*.rs` |
| `StateM.v` | `src/invariant_storage.rs` |
| `ServiceM.v` | entry points and queries of `src/invariant_service.rs` |
| `AsyncM.v` | deposits and withdrawals: sends, reply hook, timeouts, resumption; single-token, two-token and VARA variants |
| `SdkM.v` | `sdk/src/wasm/{swap,clamm}.rs`, `collections/tickmap.rs`, `storage/{pool,tick}.rs`: swap simulation |
| `SdkFetchM.v` | `sdk/src/invariant.ts`, `utils.ts`: how the snapshot for a simulation is fetched and filtered |
| `LiquidityM.v` | `sdk/src/wasm/math.rs`, `src/contracts/logic/liquidity_result.rs`: liquidity from token amounts |
| `SdkUtilM.v` | `sdk/src/utils.ts`, `sdk/src/invariant.ts` (argument preparation of `createPosition`, `quote`, `swapWithSlippage`), `sdk/src/wasm/custom.rs`, `sdk/src/wasm/storage/pool_key.rs`: square root, prices, slippage, price impact, previews, liquidity map, token order, tick check |
| `EventM.v` | `io/src/lib.rs` (`InvariantEvent`) and the `notify_on` calls of `src/invariant_service.rs` |
| `TokenM.v` | `extended-vft/app/src/services/extended_vft/{mod,funcs}.rs`: mint, burn, roles, test switch; the inherited `vft_service` is a parameter |
| `SdkListM.v` | `sdk/src/invariant.ts`: `getAllPoolKeys`, `getPositions`, `getAllPositions` |
| `DecimalLibM.v` | `calc/decimal/decimal_core/src/*.rs`, `calc/decimal/src/uint.rs`, `sdk/src/wasm/helpers.rs`: the whole fixed-point library for an arbitrary type, casts on limbs, conversions, printing |
| `SecondsM.v` | `calc/math/types/seconds_per_liquidity.rs` and its copy in `sdk/src/wasm/types/` |
| `ConcentrationM.v` | `sdk/src/utils.ts:726-783` (`calculateConcentration`, `calculateTickDelta`, `getConcentrationArray`, `calculateFeeTierWithLinearRatio`) over real numbers, `sdk/src/wasm/storage/fee_tier.rs` |

Specifications are in `Spec*.v` (small, independent of the model's helpers);
proofs in `P_*.v`; the theorems named in `MANIFEST.json` are collected in
`Prop_*.v`, each followed by a concrete case that meets its hypotheses and by
`Print Assumptions`.

| specification | says |
|---|---|
| `SpecMath.v` | integer widths, price range, exact amounts |
| `SpecFees.v`, `SpecSum.v` | fee growth as a history, sums over maps |
| `SpecHistory.v` | histories of calls and settled transfers; `history G evs s`: `s` is reached by `evs`, every event allowed by `G` |
| `SpecState.v` | sums of liquidity over positions and ticks |
| `SpecClean.v` | swaps that cross exactly the ticks they pass (`clean`, `regular`) |
| `SpecLoop.v`, `SpecRoute.v` | how many iterations a loop takes; the effect of a route |
| `SpecAsync.v`, `SpecHeld.v` | worlds with tokens in flight, interleavings, tokens held by the contract |
| `SpecSolv.v` | real-valued claims of positions and of the fee receiver |
| `SpecSdk.v` | truthful snapshots, what a simulation reports |
| `SpecUtil.v` | step function from breakpoints (C48), text of an actor id (C49) |
| `SpecRecords.v` | data of a tick after a position was opened on it (C51), transfers that can be sent, what a start asks for (C52) |
| `SpecLog.v` | runs with the log they emit, open/created/removed positions, connected price moves, payments, order of crossed ticks (C54) |
| `SpecPath.v` | the liquidity curve given by the open positions, segments priced on it, what a walk charges, pays and books (C57) |
| `SpecTime.v` | histories interleaved with waiting, a stopwatch for every tick (C53) |
| `SpecOutcome.v` | walks that lead to a price, the end of the prices, the causes of the outcomes of a quote, ordinary circumstances (C40, C58) |
| `SpecToken.v` | sum of balances, token histories, last decision about a role, what minting may change (C56) |
| `SpecCost.v` | price moved into a range, cost and worth of liquidity (C60, C61) |
| `SpecShare.v` | the positions a segment of a walk lies in, what they earn, what is due to a position (C62) |
| `SpecDecimal.v` | rational meaning of a raw value, rounding, value of limbs, meaning of a text (C63, C64, C65) |
| `SpecConcentration.v` | worth of liquidity in a range and everywhere (C67) |
| `SpecTrade.v` | holdings of the open positions at a price, what traders pay into a pool, calls that open and close no position (C68) |
| `SpecPrice.v` | what an amount is worth at a price, up to the rounding of each step (C69) |
| `SpecIndep.v` | the parts of the exchange, which of them a call changes and depends on, answers, schedules of two parties (C70) |
| `SpecTrace.v` | when two states are the same but for the balances of one user; the same answers, quotes and swap results (C71) |
| `SpecOften.v` | when two states are the same for everybody but one user; turns of others' calls followed by a claim, what the claims pay (C72) |
| `SpecSplit.v` | opening and closing a position; two positions opened in place of one (C73) |
| `SpecOrder.v` | the calls of liquidity providers in a block; states that nobody can tell apart (C74) |
| `SpecSale.v` | a position changes hands; what happens while somebody holds it (C75) |
| `SpecAnon.v` | users under other names; users who own the same (C76) |
| `SpecClock.v` | states, calls and answers without their clock data; a clock that never goes back (C77) |
| `SpecCoins.v` | states, calls and answers with the tokens at other addresses (C78) |
| `SpecFeeless.v` | states, trades, answers and quotes with the division of fees blotted out (C80) |
| `SpecTiers.v` | states that differ in the fee tiers on offer, calls that do not use them (C81) |

`Cases.v`, `CasesClean.v` hold the concrete histories used to show that
hypotheses are satisfiable.

A property that is false of the code is proved false (`..._refuted`: a concrete
reachable witness) and the strongest true variant is proved beside it
(`..._guarded`, or a bound on the error).

## Execution semantics

A synchronous entry point is a function `env -> state -> args -> res (state * result)`.
If it returns `Err` or `Panic` the Gear runtime discards all its effects (the
service panics on `Err`, `invariant_service.rs`), so the history-level step keeps
the old state.  A history is a list of events: calls by arbitrary callers with
arbitrary arguments of the API's types, and credits/debits of settled transfers.
Properties of "every reachable state" are proved by induction over that list,
with no bound on its length.  Asynchronous entry points are split at their single
`await`: the part before it commits its effects, the reply hook is a separate
execution, and the resumption is a third one.  The environment chooses replies,
their order, timeouts and content, and interleaves other calls between them.

## Trusted base

* Coq 8.16.1's kernel (including its virtual machine, used by `vm_compute` for the
  concrete cases, the refutations and some numeric bounds).
* The axioms that `Print Assumptions` lists, see the end of this file: four axioms
  of the standard library's classical real numbers, nothing else.
* The reading of Rust, of the Gear runtime and of the external crates described in
  the comments of the model: `primitive-types` big integers (exact, panicking
  operators), `gstd::collections::HashMap` (a finite map), atomicity of one message
  execution, rollback of the state on panic, delivery of every reply to the hook of
  the message it answers.

Modelled: everything reachable from the service's exported functions, i.e. all of
`src/invariant_service.rs`, `src/invariant_storage.rs`, `src/contracts` and the parts
of `calc` that they use, and the SDK parts in the table above.

Not modelled:

* gas and block limits (a call may stop for lack of gas; then it has no effect), except
  the explicit gas checks of the transfers, which appear as nondeterministic refusals;
* SCALE encoding, sails routing, generated clients, the wasm build;
* the crate `vft_service` that `extended-vft` builds on, and its entry point; to the exchange a token contract is any program that replies arbitrarily
  (C32, C33) or, for C26, one that moves what it says it moved;
* the text of errors (`traceable_result`);
* the rest of the TypeScript SDK (network access, decoding of payloads, formatting, transaction batching).

## Plan and method per property

* C01 – model of `calculate_sqrt_price`; a linear gap invariant is preserved by
  each truncated multiplication, the diverging bit is checked per bit.
* C02 – model of the fixed-point logarithm; each squaring and shift loses a
  bounded amount of (real) logarithm, log2(1.0001) is bracketed by the same
  digit recurrence at 40 digits; uses the standard library's reals.
* C03, C04, C05 – model of `get_delta_x/y`; floor/ceil characterisations
  against exact rational bounds stated by cross multiplication.
* C06 – C09 – model of `compute_swap_step`; case analysis + C03/C04.
* C10 – C12 – modular arithmetic; sum over lists of positions and events.
* C13 – C15 – bit-level model of the bitmap; set specification `is_init`.
* C16 – C18 – refinement of the maps to lists.
* C19 – C21, C31, C35, C41 – case analysis over all entry points.
* C22 – C24, C38 – inductive invariant `Inv` over histories (P_Inv, P_InvPos, P_InvSwap,
  P_InvHist); C23 additionally needs that swaps cross exactly the ticks they pass.
* C25, C26 – every position and the fee receiver have a real-valued claim on the pool
  (`SpecSolv.v`); each call changes claims, balances and deposits so that deposits cover
  the rest; every rounding costs at most 1/(2·10^14) of a token unit, so fewer than
  2·10^14 roundings cannot lose a whole unit.  C26 is lifted to interleavings with
  tokens in flight (`SpecHeld.v`).
* C27 – decreasing measure for the loop (current tick, or price for exact outputs
  towards higher prices).
* C28 – C30 – loop invariant of `calculate_swap`; routes by induction over hops.
* C32, C33 – invariant over interleavings of the asynchronous model.
* C34, C36, C37, C39, C40 – direct proofs, or refutations by computed histories.
* C42 – simulation relation between the contract's and the SDK's loops: the SDK's functions
  refine the contract's (they clamp where the contract fails), so each contract step is
  matched by one SDK step on a truthful snapshot; the fetched and filtered snapshot is
  shown to be truthful on the side that the swap can see.
* C43 – the logarithm bounds of C02, for the factor table and the truncations.
* C44 – invert the checked arithmetic of the helpers to closed forms of the prices, compare with
  the closed form of what `create_position` charges (`P_LiqCharge.v`), bound the roundings.
* C45 – the summaries of `claim_fee` and `remove_position` (`P_PosOps.v`) against the SDK's formulas.
* C46 – Newton's iteration: invariant "not below the root", budget log2(n) + 2; then the slippage formula as
  a scaled integer square root.
* C47 – monotonicity of the charged amounts in the price, with the closed forms of C44.
* C48 – the fetched ticks are the sorted keys of the tick map; prefix sums of net liquidity are sums over positions.
* C49 – lexicographic order of equally long digit strings is the numeric order, by induction on the length.
* C50 – strict invariant price < price(tick + spacing) over all histories (`P_Tight.v`).
* C51 – from the inversion lemmas of `create_position` (`P_Effects.v`, `P_PosOps.v`) and an induction over histories that no stored balance is zero (`P_Bals.v`).
* C52 – equivalences computed through the monadic first half of the four asynchronous entry points, with the balance invariants of `P_Bals.v`.
* C54 – multiset of positions by counting occurrences per call; prices by composing connected paths; the order of the crossed ticks from the loop invariant of the swap (`P_SwapLoop.v`).
* C57 – induction over the iterations of the swap loop; the segment of an iteration is priced by the closed form of the step (`P_Step.v`), its liquidity is the curve's because no initialized tick lies between the price and the target of the iteration.
* C53 – invariant over histories interleaved with waiting: every tick's seconds against a stopwatch; swaps by induction over the loop, using that a clean swap crosses exactly the ticks it passes.
* C58 – progress lemma for one iteration of the swap loop (every call inside it succeeds, or fails for one of the named reasons), an invariant that bounds all accumulators, and the walk of C57 up to the failing iteration; capacity by summing the segments' exact amounts (telescoping).
* C56 – invariant over all sequences of successful token calls, with the inherited service as a parameter of the theorems.
* C59 – lists: sorting a permutation of consecutively numbered entries, concatenating pages; on top of C17 and C36.
* C55 – simulation between two runs of the swap loop with different limits (P_Limit.v): an iteration that ends before both limits is the same with either, a not-reached target can be replaced by another; P_Timeless.v: the two runs at different times are related by a relation that ignores last_timestamp and seconds_outside.
* C60 – necessity from the inversion lemmas of the calls; sufficiency by running the call: every arithmetic step is shown to stay in its type from the invariants of C16, C22 and C23 (P_Create.v).
* C61 – the two amount functions are computed in closed form over the reachable prices; comparisons by arithmetic on quotients.
* C62 – the induction over the swap loop of C57, carrying the growth below every tick of the position: each iteration adds the growth of its segment to exactly one side (P_Share.v); the other calls leave ticks and global growth of positions alone (`calm`).
* C63 – C65 – the generated functions are run symbolically for an arbitrary fixed-point type; rounding is compared with rational numbers (`QArith`) by cross multiplication; casts by induction over the limbs; texts by induction over the digits (P_Decimal.v).
* C66 – arithmetic modulo 2^128; the branches of the inside function are compared case by case.
* C67 – exponentials and logarithms of the standard library's real numbers (idealised: no rounding of doubles); the loops by induction; the counterexample by enclosing 1.0001^-50 between two fractions and comparing integers.
* C68 – potential argument: what the open positions hold as a function of the price (monotone, one token is the other times the prices); the induction over the swap loop bounds the change of holdings by the amounts; for the way back towards lower prices the rounding errors are weighted with the prices at which they occur (`P_Trade.v`).
* C69 – the bounds hold on every segment of the walk of C57 at its own price and add up; the number of segments from the strict movement of the tick in the swap loop (`P_Price.v`).
* C70 – one relation (agreement of two states on a list of parts) is kept by every function of the state when both sides write the same values; a frame lemma per function; both together give commutation and, by induction on the schedule, interleavings (`P_Indep.v`).
* C71 – a bisimulation: states that differ only in the balances of one user, last-change times and signs of zero ticks answer every call of the other users alike and stay so related (`P_Trace.v`); a round trip restores the positions, and the invariant of C22 – C24 (ticks and bitmap are functions of the positions) gives the rest (`P_OpenClose.v`).
* C72 – the bisimulation of C71, which leaves out the positions of the claiming user (`P_Trace.v`, parameter `ow`), carries the growth inside the range from the run without claims to the run with claims; the increments add up modulo 2^128 (`P_Often.v`), and sums of rounded parts do the rest.
* C73 – both runs start the ticks of the range from the same values, so the ticks and the bitmap are determined by the liquidity at the ticks (`P_OpenClose.v`, `P_Split.v`); the bisimulation of C72 carries the two states through all calls of the others, and the amounts follow from C61 and rounding.
* C74 – two neighbouring calls are exchanged: in different pools by the independence of C70, in one pool by comparing what each does on either side of the other (`P_Order.v`: what a call needs of the state it is made in, and that ticks and bitmap are determined by the positions and by the values the ticks start from). Induction over permutations, with the bisimulation of C71 carrying the difference through the rest of the block and through everything later.
* C75 – the two courses of events are related by: everything but the two users' parts is equal, and position i of the giver is position j of the receiver. Calls of others keep the relation by the locality of C70, claims and the closing by running both sides in step (`P_Sale.v`). Giving back: C16 twice.
* C76 – two states are related if one is the other with the users renamed; every function of the contract commutes with the renaming (pool updates and the swap loop), or keeps the relation (`P_Anon.v`). Two equal users: the renaming that exchanges them maps the state to itself.
* C77 – every function of the contract commutes with blotting out the clock data (`P_Clock.v`), the swap loop under the invariant that the pool was created before the call; a clock that never goes back keeps that true of all pools. Two histories that differ in their times only have the same blotted image.
* C78 – the state with its tokens at other addresses (`kmap` over every map keyed by a pool or a token); every function of the contract commutes with it (`P_Coins.v`), because it compares tokens only when a pool key is made and looks maps up at keys only.
* C79 – two runs of the swap loop side by side (`P_Mono.v`): as long as the smaller order reaches the target of a step, so does the larger, at the same cost, and the pools stay equal; in the step where the smaller one is used up the larger goes at least as far, and from there on the larger one only adds.
* C80 – two runs related by equality of everything but protocol fee, protocol tokens and fee growths, call by call (for swaps step by step through the loop) and then over lists of events (`P_Feeless.v`); results may differ only where one of the two runs panics.
* C81 – replacing the list of fee tiers commutes with every call but those that use it (`P_Tiers.v`), then induction over lists of events.
* C82 – the multiples of the spacing nearest to the ends, monotonicity of the tick price, the pool invariant of `P_Inv.v` and the active liquidity of C23.

## Assumptions of the theorems

`Print Assumptions` prints "Closed under the global context" for the theorems below
without an axiom list, and otherwise these four axioms of the standard library
(they come with the classical reals of `Coq.Reals`, used for logarithms in C02/C43
and for claims in C25/C26; theorems that rest on the bound for the tick of a price
inherit them):

* `ClassicalDedekindReals.sig_not_dec : forall P : Prop, {~ ~ P} + {~ P}`
* `ClassicalDedekindReals.sig_forall_dec : forall P : nat -> Prop, (forall n, {P n} + {~ P n}) -> {n | ~ P n} + {forall n, P n}`
* `FunctionalExtensionality.functional_extensionality_dep : forall A B (f g : forall x : A, B x), (forall x, f x = g x) -> f = g`
* `Classical_Prop.classic : forall P : Prop, P \/ ~ P`

Closed under the global context (no axioms):

* `Prop_Async.v`: `C32_start`, `C32_other_steps`
* `Prop_Casts.v`: `C64_representation`, `C64_widen`, `C64_narrow`, `C64_to_u64_u128`, `C64_from_primitive`, `C64_to_small_refuted`, `C64_to_small_guarded`, `C64_shifts`, `C64_bigint`
* `Prop_Concentration.v`: `C67_new_fee_tier`, `C67_new_fee_tier_guarded`, `C67_new_fee_tier_refuted`, `C67_linear`
* `Prop_Cost.v`: `C61_loss_y`, `C61_loss_x`, `C61_below_range`, `C61_above_range`, `C61_monotone`, `C61_split`
* `Prop_Decimal.v`: `C63_add_sub`, `C63_mul_div`, `C63_big_mul_div`, `C63_mul_to_value`, `C63_checked_div`, `C63_by_number`, `C63_up_exceeds_down`, `C63_checked_by_number_up_refuted`, `C63_types`, `C63_contract_arithmetic`
* `Prop_Liq.v`: `C44_by_y_is_largest`, `C44_by_x_is_almost_largest`, `C44_by_x_outcomes`, `C44_by_y_outcomes`, `C44_estimate_covers_refuted`, `C44_both_amounts_refuted`
* `Prop_Log.v`: `C54_silent`, `C54_owners_refuted`, `C54_fee_refuted`
* `Prop_Math.v`: `C03_delta_y_down_is_floor`, `C03_delta_y_up_is_ceil`, `C03_delta_y_down_fails_only_on_overflow`, `C03_delta_y_up_fails_only_on_overflow`, `C04_delta_x_down_at_most_exact`, `C04_delta_x_up_at_least_exact_guarded`, `C04_delta_x_up_at_least_exact_refuted`, `C04_amounts_exist`, `C05_round_trip_never_profits`, `C06_step_stops_at_target_y_to_x`, `C06_step_moves_down_x_to_y`, `C06_step_stops_at_target_exact_out`, `C06_step_stops_at_target_exact_in_guarded`, `C06_overshoot_bound`, `C06_step_stops_at_target_refuted`, `C07_exact_out_at_most_amount`, `C07_exact_in_at_most_amount_guarded`, `C07_exact_in_uses_whole_amount`, `C07_exact_out_delivers_whole_amount_y`, `C07_exact_in_at_most_amount_refuted`, `C07_step_total`, `C07_step_total_zero_fee_refuted`, `C08_input_y_covers_exact`, `C08_output_x_at_most_exact`, `C08_output_y_at_most_exact`, `C08_input_x_covers_exact`, `C09_fee_is_ceil_of_input`, `C09_fee_of_short_step`, `C10_add_is_modular`, `C10_sub_is_modular`, `C10_add_then_sub`, `C10_sub_then_add`, `C10_inside_is_difference`, `C11_distributed_at_most_collected`, `C11_share_of_one_fee`, `C12_fee_split`, `C12_over_100_percent_panics`
* `Prop_Outcome.v`: `C58_enough_liquidity_refuted`, `C58_exact_in_monotone_refuted`, `C58_least_price_refuted`
* `Prop_Queries.v`: `C37_ticks_amount_refuted`, `C37_liquidity_ticks`
* `Prop_Records.v`: `C51_pools_of_a_pair`, `C51_pair_of_one_token`, `C51_pools_of_a_pair_complete_refuted`
* `Prop_SdkKeys.v`: `C49_token_order`, `C49_same_pool_key`, `C49_upper_case_refuted`
* `Prop_SdkList.v`: `C59_pool_keys`, `C59_many_pools_refuted`, `C59_default_size`
* `Prop_SdkSwap.v`: `C29_quote_any_time`, `C55_full_tolerance_refuted`, `C55_zero_tolerance_refuted`, `C55_exact_out_refuted`
* `Prop_SdkUtil.v`: `C46_sqrt_exact`, `C46_sqrt_four_refuted`, `C46_slippage_up`, `C46_slippage_down`, `C46_price_impact`, `C47_amounts_cover_refuted`
* `Prop_Seconds.v`: `C66_modular`, `C66_global`, `C66_global_refuted`, `C66_inside_grows`, `C66_crossing`, `C66_inside_adds`
* `Prop_Share.v`: `C62_proportional`, `C62_equal_terms`
* `Prop_Solvency.v`: `C26_unclean_refuted`
* `Prop_State.v`: `C16_dense`, `C16_create`, `C16_swap_remove`, `C16_remove`, `C16_transfer`, `C16_claim`, `C16_others`, `C16_room`, `C17_listing`, `C17_creation_order`, `C17_room`, `C17_wrap_refuted`, `C18_valid_set`, `C18_add`, `C18_add_iff`, `C18_remove`, `C18_remove_iff`, `C19_admin_constant`, `C19_admin_fixed`, `C19_protocol_fee`, `C19_fee_tiers`, `C19_fee_receiver`, `C19_others_rejected`, `C20_balances`, `C20_positions`, `C21_canonical`, `C21_order`, `C21_unique`, `C21_created`, `C21_duplicate_rejected`, `C21_never_deleted`, `C31_balance_is_the_query`, `C31_create`, `C31_remove`, `C31_claim`, `C31_swap`, `C31_swap_covered`, `C31_protocol_fee`, `C31_deposit_vara`, `C31_withdraw_vara`, `C31_no_other_moves`, `C35_receiver_only_and_exact`, `C35_once`, `C35_others_refused`, `C39_initial_price_refuted`, `C39_initial_state_guarded`
* `Prop_Swap.v`: `C28_price_limit_refuted`, `C29_swap_does_what_quote_says`, `C29_failed_quote_failed_swap`, `C30_slippage_bound`, `C30_quote_route_distinct_pools`, `C30_quote_route_refuted`, `C40_exact_out_refuted`
* `Prop_Tick.v`: `C01_tick_price_total_and_bounded`, `C01_tick_price_strictly_increasing`, `C01_other_ticks_rejected_guarded`, `C01_other_ticks_rejected_refuted`, `C02_floor_tick_unique`, `C02_outside_range_rejected`, `C02_result_is_valid_tick_refuted`
* `Prop_Tickmap.v`: `C13_position_total`, `C13_position_bounds`, `C13_position_inverse`, `C13_position_injective`, `C13_flip_effect`, `C13_flip_total`, `C13_empty_map`, `C14_next_initialized`, `C14_prev_initialized`, `C15_target_down`, `C15_target_up`
* `Prop_Ticks.v`: `C23_active_liquidity_refuted`, `C23_overshoot_refuted`, `C23_put_back_refuted`, `C41_create_position_needs_pool`
* `Prop_Time.v`: `C53_time_in_range`, `C53_new_pool`, `C53_seconds_outside_refuted`
* `Prop_Trade.v`: `C68_round_trip_refuted`
* `Prop_Indep.v`: `C70_untouched`, `C70_depends_only_on`, `C70_either_order`, `C70_users_in_different_pools`, `C70_any_interleaving`, `C70_quotes_stay_valid`, `C70_one_pool_refuted`
* `Prop_Trace.v`: `C71_storage_shows_refuted`
* `Prop_Often.v`: `C72_wrap_refuted`
* `Prop_Split.v`: `C73_cheaper_refuted`
* `Prop_Order.v`: `C74_same_wealth`, `C74_mixed_refuted`, `C74_own_calls_refuted`
* `Prop_Sdk.v`: `C42_simulation_terminates`, `C42_filter`, `C42_filter_complete_refuted`, `C42_position_of_tick`
* `Prop_Token.v`: `C56_supply`, `C56_mint`, `C56_burn`, `C56_powers`, `C56_roles`, `C56_no_admin`, `C56_transfers`, `C56_switch`
* `Prop_Sale.v`: `C75_nobody_else`, `C75_never_noticed`, `C75_giving_back`, `C75_to_oneself_refuted`
* `Prop_Anon.v`: `C76_renaming`, `C76_from_the_start`, `C76_queries`, `C76_same_treatment`, `C76_same_answer`, `C76_offices_matter`
* `Prop_Calls.v`: `C60_create_position_no_pool`, `C60_check_ticks`, `C60_check_ticks_refuted`, `C60_create_pool`, `C60_change_protocol_fee`, `C60_change_fee_receiver`
* `Prop_Clock.v`: `C77_clock`, `C77_in_order`, `C77_any_clock`, `C77_quote`, `C77_quote_route`, `C77_clock_back_refuted`
* `Prop_Coins.v`: `C78_tokens`, `C78_from_the_start`, `C78_queries`, `C78_order_matters`
* `Prop_Mono.v`: `C79_more_offered_yields_more_refuted`, `C79_more_x_offered_refuted`, `C79_more_x_wanted_refuted`
* `Prop_Feeless.v`: `C80_same_market`, `C80_protocol_fee`, `C80_from_the_start`, `C80_quote`, `C80_quote_route`, `C80_protocol_fee_refuted`
* `Prop_Convert.v`: `C65_from_integer`, `C65_from_scale`, `C65_checked_from_scale_refuted`, `C65_between`, `C65_round_trip`, `C65_to_value_guarded`, `C65_between_checked`, `C65_to_value_refuted`, `C65_sdk`, `C65_sdk_refuted`, `C65_display`, `C65_denominators`
* `Prop_Range.v`: `C82_ticks`, `C82_prices`, `C82_whole_range_in_use_refuted`
* `Prop_Tiers.v`: `C81_any_offer`, `C81_removal`, `C81_queries`, `C81_pair_listing_refuted`, `C18_exists`

The four axioms above:

* `Prop_Async.v`: `C32_settlement`, `C32_at_most_once`, `C32_no_late_settlement`, `C32_completed`, `C33_custody`, `C33_custody_vara`, `C33_token_isolation`, `C33_interleavings_are_histories`, `C33_room`, `C32_every_moved_deposit_credited_refuted`
* `Prop_Concentration.v`: `C67_meaning`, `C67_decreasing`, `C67_tick_delta`, `C67_inverse`, `C67_tick_delta_none`, `C67_array`, `C67_array_zero_refuted`, `C67_array_decreasing_refuted`, `C67_fits_guarded`, `C67_fits_refuted`
* `Prop_Cost.v`: `C61_cost`, `C61_proceeds`, `C61_round_trip`
* `Prop_Liq.v`: `C44_by_x_is_affordable`, `C44_by_y_is_affordable`, `C44_both_is_affordable`
* `Prop_Log.v`: `C54_created`, `C54_removed`, `C54_swap`, `C54_route`, `C54_positions`, `C54_prices`, `C54_active_liquidity_guarded`
* `Prop_Outcome.v`: `C58_quote_outcome`, `C58_swap_outcome`, `C58_exact_in_up_guarded`, `C40_exact_out_down_guarded`, `C58_exact_in_down_guarded`
* `Prop_Path.v`: `C57_swap_walks_the_curve`, `C57_quote_walks_the_curve`
* `Prop_Price.v`: `C69_no_better_than_before`, `C69_exact_in_no_worse_than_after`, `C69_quote_no_better_than_the_price`
* `Prop_Queries.v`: `C31_balances_bounded`, `C34_second_claim_pays_zero`, `C34_claim_moves_no_liquidity`, `C36_positions_listing`, `C36_listing_by_index`, `C37_tickmap_complete`, `C37_ticks_amount`, `C37_ticks_amount_guarded`, `C37_position_ticks`
* `Prop_Records.v`: `C51_new_position`, `C51_boundary_ticks`, `C51_balances_listed`, `C52_deposit_single`, `C52_deposit_pair`, `C52_withdraw_single`, `C52_withdraw_pair`
* `Prop_SdkKeys.v`: `C48_liquidity_map`, `C50_pool_tick_valid`, `C50_valid_tick_exact`
* `Prop_SdkList.v`: `C59_position_page`, `C59_all_positions`, `C59_counted_positions`, `C59_every_position`, `C59_skipped_page_refuted`
* `Prop_SdkSwap.v`: `C29_swap_any_time`, `C55_quote_then_swap`, `C55_within_tolerance`
* `Prop_SdkUtil.v`: `C45_associates`, `C45_fee_preview`, `C45_removal_preview`, `C46_create_at_seen_price`, `C46_create_within_tolerance`, `C47_amounts_cover`
* `Prop_Share.v`: `C62_claim_pays`, `C62_starts_at_zero`, `C62_swap`, `C62_route`, `C62_only_swaps`, `C62_out_of_range`, `C62_in_range`
* `Prop_Solvency.v`: `C26_exact`, `C26_solvent`, `C26_balances_covered`, `C26_closing`, `C26_held`, `C26_held_vara`, `C25_remove_position`, `C25_claim_fee`, `C25_withdraw_protocol_fee`, `C25_everybody_can_leave`
* `Prop_Swap.v`: `C27_swap_loop_terminates`, `C27_calls_terminate`, `C27_quotes_terminate`, `C28_exact_in_charges_amount`, `C28_exact_out_pays_amount`, `C28_price_limit_respected`, `C28_price_limit_exact_in_down`, `C28_price_limit_guarded`, `C29_quoted_swap_succeeds`, `C30_route_moves`, `C30_route_net_effect`
* `Prop_Tick.v`: `C02_tick_of_price_is_floor`, `C02_round_trip`, `C43_tick_price_accuracy`
* `Prop_Ticks.v`: `C22_tick_stored_iff_boundary`, `C22_bitmap_iff_stored`, `C22_bitmap_total`, `C22_tick_liquidity`, `C22_tick_price_and_range`, `C23_active_liquidity_guarded`, `C23_careful_swaps_are_clean`, `C23_exact_out_x_to_y_is_clean`, `C23_clean_swap_preserves`, `C24_price_and_tick_agree`, `C38_gross_liquidity_bounded`, `C38_pool_liquidity_fits`, `C38_active_liquidity_fits`, `C41_create_position_guards`
* `Prop_Time.v`: `C53_seconds_outside`, `C53_time_read_off`, `C53_timestamps`, `C53_last_timestamp`, `C53_start_is_fixed`
* `Prop_Trade.v`: `C68_swap_pays_the_positions`, `C68_holdings_order`, `C68_round_trip`, `C68_gaining_x_costs_y`, `C68_gaining_y_costs_x`
* `Prop_Trace.v`: `C71_no_trace`, `C71_nobody_notices`, `C71_come_and_gone`, `C71_queries`
* `Prop_Often.v`: `C72_claim_unnoticed`, `C72_others_continue`, `C72_claim_often`
* `Prop_Split.v`: `C73_unnoticed`, `C73_cost`, `C73_fees`, `C73_closing`
* `Prop_Order.v`: `C74_any_order`, `C74_never_noticed`, `C74_afterwards`
* `Prop_Sdk.v`: `C42_snapshot_is_true`, `C42_simulation_matches_swap`, `C42_step_limit`, `C42_simulation_matches_quote`, `C42_simulation_warns`, `C42_clean_simulation`, `C42_clean_simulation_refuted`
* `Prop_Sale.v`: `C75_same_worth`, `C75_same_closing`
* `Prop_Calls.v`: `C60_create_position`, `C60_create_position_regular`, `C60_withdraw_protocol_fee`, `C60_transfer_position`, `C60_deposit_vara`, `C60_withdraw_vara`
* `Prop_Mono.v`: `C79_more_wanted_costs_more`, `C79_more_wanted_costs_more_swap`, `C79_more_offered_yields_more`, `C79_more_offered_yields_more_swap`
* `Prop_Range.v`: `C82_pools_stay_inside`, `C82_whole_range_in_use`

