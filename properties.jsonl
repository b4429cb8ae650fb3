{"id": "C01", "title": "Tick prices are total, bounded and strictly increasing", "statement": "For every tick index t with |t| <= 221818 the tick-to-sqrt-price conversion succeeds, its result lies in [MIN_SQRT_PRICE, MAX_SQRT_PRICE] with equality exactly at the two extreme ticks, and t1 < t2 implies price(t1) < price(t2). For every other i32 index except -2^31 the conversion reports an error; -2^31, whose absolute value wraps to itself, is accepted.", "quantifier": "every i32 tick index, and every pair of them", "why_tests_cant": "443637 indices and all pairs; the truncated 18-factor product gives no obvious monotonicity", "anchors": ["calc/math/types/sqrt_price.rs:calculate_sqrt_price", "calc/math/consts.rs"]}
{"id": "C02", "title": "Price to tick conversion is the exact floor inverse", "statement": "For every sqrt price p in [MIN_SQRT_PRICE, MAX_SQRT_PRICE] and every tick spacing s in 1..100, get_tick_at_sqrt_price(p, s) succeeds and returns the largest multiple of s that is at most T, where T is the unique tick with price(T) <= p < price(T+1).", "quantifier": "every 96-bit sqrt price in the domain and every spacing", "why_tests_cant": "6.5e28 prices; correctness depends on the error of an iterated fixed-point logarithm", "anchors": ["calc/math/log.rs:get_tick_at_sqrt_price", "calc/math/log.rs:log2_iterative_approximation_x32"]}
{"id": "C03", "title": "delta_y is the correctly rounded exact amount", "statement": "The y amount computed for liquidity L between sqrt prices a and b is exactly floor (rounding down) or ceiling (rounding up) of L*|a-b|, in token units; it fails only when that value does not fit 256 bits.", "quantifier": "all liquidity values, all pairs of prices, both roundings", "why_tests_cant": "256-bit x 128-bit input space", "anchors": ["calc/math/clamm.rs:get_delta_y"]}
{"id": "C04", "title": "delta_x never favours the trader by a unit", "statement": "The x amount computed for liquidity L between a and b is, rounding down, at most the exact value L*|1/a-1/b|. Rounding up it is short of the exact value by less than 1/floor(a*b) of a unit, and not at all if L*|a-b| is a multiple of 10^5; that it can be short at all is shown by a witness. Both amounts exist for all admissible prices.", "quantifier": "all liquidity values and all price pairs in the domain", "why_tests_cant": "256-bit x 2x128-bit input space; the defect shows only for special residues", "anchors": ["calc/math/clamm.rs:get_delta_x", "calc/math/types/sqrt_price.rs:big_div_values_to_token_up"]}
{"id": "C05", "title": "Opening and closing a position at an unchanged price never pays out more than was paid in", "statement": "For the same liquidity, range and pool price, the amounts charged when creating a position are at least the amounts returned when removing it, in each token.", "quantifier": "all liquidity values, ranges, current ticks and prices", "why_tests_cant": "unbounded input space", "anchors": ["calc/math/clamm.rs:calculate_amount_delta", "src/contracts/storage/position.rs:create", "src/contracts/storage/position.rs:remove"]}
{"id": "C06", "title": "A swap step stops at its target price, up to a bounded overshoot", "statement": "One swap step moves the price monotonically from the current price towards the target, and not past it, in all modes and directions but one: an exact-in step from x to y can go past its target, by less than 10^24/price, and does so only if price^2 < 10^24*(distance+1). A witness shows that it happens.", "quantifier": "all prices, targets, liquidities, amounts, fees and both modes", "why_tests_cant": "overshoot occurs only in a thin window of amounts", "anchors": ["calc/math/clamm.rs:compute_swap_step"]}
{"id": "C07", "title": "A swap step never exceeds the requested amount, with one exception", "statement": "In exact-out mode amount_out <= amount. In exact-in mode amount_in + fee = amount when the target is not reached and amount_in + fee <= amount otherwise, except that a step from x to y whose rounded price lands exactly on the target can charge more than the amount (a witness is given). A step succeeds for all admissible arguments, except exact-in steps at a zero fee, which can trap (a witness is given).", "quantifier": "all prices, targets, liquidities, amounts, fees", "why_tests_cant": "unbounded input space", "anchors": ["calc/math/clamm.rs:compute_swap_step"]}
{"id": "C08", "title": "A swap step is priced in favour of the pool", "statement": "The input amount (without fee) of a step is at least the exact amount needed to move the price from the current to the next price (up to the sub-unit defect of C04 for token x), and the output amount is at most the exact amount released.", "quantifier": "all steps", "why_tests_cant": "unbounded input space", "anchors": ["calc/math/clamm.rs:compute_swap_step"]}
{"id": "C09", "title": "The full fee is charged", "statement": "The fee of a step that reaches its target is ceil(amount_in * fee_rate); the fee of an exact-in step that does not reach its target is everything left of the amount, and is at least ceil(amount*fee_rate) minus the rounding of the price.", "quantifier": "all steps, all fee rates below 100%", "why_tests_cant": "unbounded input space", "anchors": ["calc/math/clamm.rs:compute_swap_step"]}
{"id": "C10", "title": "Fee growth accumulators form a modular group", "statement": "Fee-growth addition and subtraction are addition and subtraction modulo 2^128, so adding then subtracting restores the value for all inputs, and the growth attributed to a range is (growth below upper) - (growth below lower) mod 2^128 whatever the relative place of the current tick.", "quantifier": "all 128-bit accumulator values, all ticks", "why_tests_cant": "2^256 input pairs; wrap-around happens after years", "anchors": ["calc/math/types/fee_growth.rs:unchecked_add", "calc/math/types/fee_growth.rs:unchecked_sub", "calc/math/types/fee_growth.rs:calculate_fee_growth_inside"]}
{"id": "C11", "title": "Distributed fees never exceed collected fees", "statement": "Turning a fee f into growth for total liquidity L and paying every position j its share liquidity_j*growth, for any split of L into positions and any number of fee events, pays in total at most the fees collected.", "quantifier": "all fees, all liquidity splits, all sequences of fee events", "why_tests_cant": "unbounded number of positions and events", "anchors": ["calc/math/types/fee_growth.rs:from_fee", "calc/math/types/fee_growth.rs:to_fee", "src/contracts/storage/pool.rs:add_fee"]}
{"id": "C12", "title": "Fee split between protocol and liquidity providers is exact", "statement": "When a fee is added to a pool the protocol part is ceil(fee*protocol_fee) and protocol part + provider part = fee; only the accumulator of the input token changes; with a protocol fee above 100% the swap fails instead of creating money.", "quantifier": "all fees, pools, protocol fee rates", "why_tests_cant": "unbounded input space", "anchors": ["src/contracts/storage/pool.rs:add_fee"]}
{"id": "C13", "title": "Tick bitmap behaves as a set of ticks per pool", "statement": "For every spacing in 1..100 the mapping from valid tick to (chunk, bit) is injective and inverse to position_to_tick; flipping a tick changes the membership of exactly that tick of exactly that pool; flipping to the value it already has fails.", "quantifier": "all spacings, all valid ticks, all pools, all bitmap states", "why_tests_cant": "443637 ticks x 100 spacings x all bitmaps", "anchors": ["src/contracts/collections/tickmap.rs:tick_to_position", "src/contracts/collections/tickmap.rs:position_to_tick", "src/contracts/collections/tickmap.rs:flip", "src/contracts/collections/tickmap.rs:get"]}
{"id": "C14", "title": "Tick search finds the nearest initialized tick", "statement": "next_initialized returns the smallest initialized tick strictly above the given one within 256 spacings (clipped to the tick domain), prev_initialized the largest one at or below it; they return nothing only if no initialized tick exists in that window.", "quantifier": "all bitmaps, all aligned ticks, all spacings", "why_tests_cant": "all 64-bit chunk contents", "anchors": ["src/contracts/collections/tickmap.rs:next_initialized", "src/contracts/collections/tickmap.rs:prev_initialized"]}
{"id": "C15", "title": "A swap step never aims past an initialized tick or the price limit", "statement": "The target price handed to a swap step is between the pool price and the limit, and no initialized tick lies strictly between the current tick and the target price in the swap direction.", "quantifier": "all bitmaps, all pool states, all limits", "why_tests_cant": "all 64-bit chunk contents", "anchors": ["src/contracts/collections/tickmap.rs:get_closer_limit"]}
{"id": "C16", "title": "Position lists are dense and removal/transfer touch one position", "statement": "For every history of position operations each owner's positions are exactly indexed 0..length-1; removing index i returns that position and leaves the others (the last one moved to i); transferring moves exactly one position to the end of the receiver's list; no other owner is affected.", "quantifier": "all histories of add/update/remove/transfer over any owners", "why_tests_cant": "unbounded histories", "anchors": ["src/contracts/collections/positions.rs"]}
{"id": "C17", "title": "Pool listing is complete and duplicate free", "statement": "After any history with fewer than 65535 pools, paging through get_pool_keys yields each created pool exactly once in creation order and the reported count equals the number of pools. Beyond that the 16-bit counter of the list wraps and a listing loses pools (a witness is given).", "quantifier": "all histories, all page sizes and offsets", "why_tests_cant": "needs 65536 pools", "anchors": ["src/contracts/collections/pool_keys.rs"]}
{"id": "C18", "title": "Fee tiers form a duplicate-free set under admin control", "statement": "In every reachable state the fee tier list has no duplicates, every listed tier has spacing 1..100 and fee below 100%; adding/removing changes membership of exactly the given tier. The query fee_tier_exists answers true exactly for the listed tiers.", "quantifier": "all histories", "why_tests_cant": "unbounded histories", "anchors": ["src/contracts/collections/fee_tiers.rs", "src/invariant_service.rs:add_fee_tier", "src/invariant_service.rs:remove_fee_tier", "src/invariant_service.rs:fee_tier_exists"]}
{"id": "C19", "title": "Administrative powers are confined to the admin", "statement": "In any history the admin never changes, and the protocol fee, the fee tier list and every pool's fee receiver change only through a successful call by the admin.", "quantifier": "all histories, all callers", "why_tests_cant": "unbounded histories and callers", "anchors": ["src/invariant_service.rs:change_protocol_fee", "src/invariant_service.rs:add_fee_tier", "src/invariant_service.rs:remove_fee_tier", "src/invariant_service.rs:change_fee_receiver"]}
{"id": "C20", "title": "Only the owner can spend a balance or touch a position", "statement": "A call by user c never decreases the balance of another user in any token and never changes, removes or re-indexes another user's positions (a transfer may append to the receiver's list).", "quantifier": "all states, all calls, all callers", "why_tests_cant": "unbounded", "anchors": ["src/invariant_service.rs", "src/invariant_storage.rs:decrease_token_balance"]}
{"id": "C21", "title": "Pools are canonical and unique", "statement": "Every stored pool has token_x < token_y, a fee tier that was listed by the admin, and one entry per (token pair, fee tier) whatever the argument order; creating an existing pool fails; a pool is never deleted.", "quantifier": "all histories", "why_tests_cant": "unbounded histories", "anchors": ["src/invariant_service.rs:create_pool", "src/contracts/storage/pool_key.rs:new"]}
{"id": "C22", "title": "Initialized ticks are exactly the position boundaries", "statement": "In every reachable state, for every pool and tick: the tick is stored, and its bitmap bit is set, iff some position has it as boundary; its gross liquidity is the sum of liquidity of positions bounded by it, and its net liquidity is (sum over lower boundaries) - (sum over upper boundaries).", "quantifier": "all reachable states, all pools, all ticks", "why_tests_cant": "unbounded histories", "anchors": ["src/invariant_service.rs:create_position", "src/invariant_service.rs:remove_position", "src/contracts/storage/tick.rs:update"]}
{"id": "C23", "title": "Active liquidity equals the liquidity of in-range positions while swaps are clean", "statement": "After every history whose swaps cross exactly the initialized ticks between their old and new current tick, the liquidity of a pool equals the sum of the liquidity of the positions whose range contains the current tick. Every exact-out swap from x to y is such a swap, and so are the others unless (y to x) the limit is the price of an initialized tick or (exact in, x to y) the final price is at or less than 10^24/price below that of an initialized tick. Without the condition the equality fails in three ways, each shown by a history: a limit on a tick's price, an overshoot past a tick, and a tick put back after it was crossed.", "quantifier": "all histories of pools, positions and swaps", "why_tests_cant": "the violating swaps need exact amounts", "anchors": ["src/contracts/storage/pool.rs:update_tick", "src/contracts/storage/tick.rs:cross", "src/invariant_storage.rs:calculate_swap"]}
{"id": "C24", "title": "Stored price and stored tick agree", "statement": "In every reachable state a pool's current tick is a valid aligned tick c with price(c) <= sqrt_price < price(c+spacing); at the last tick of the grid, where price(c+spacing) does not exist, sqrt_price = price(c).", "quantifier": "all histories", "why_tests_cant": "unbounded histories", "anchors": ["src/contracts/storage/pool.rs:update_tick", "src/contracts/storage/pool.rs:create"]}
{"id": "C25", "title": "A position can always be closed", "statement": "After every history whose swaps are as in C23, with fewer than 2*10^14 roundings and net deposits that fit 256 bits, the owner's remove_position and claim_fee calls on an existing position succeed, in any order and until nothing is left, and so does the withdrawal of the protocol fees: funds cannot get locked.", "quantifier": "all histories, all positions", "why_tests_cant": "liveness over all reachable states", "anchors": ["src/invariant_service.rs:remove_position", "src/invariant_service.rs:claim_fee"]}
{"id": "C26", "title": "The exchange is solvent", "statement": "After every history whose swaps are as in C23, for every token, the sum of all user balances plus everything that would be paid by closing all positions and withdrawing all protocol fees is at most the net amount deposited, and with transfers in flight at most what the contract holds in the token contract. Without the condition on swaps a history leaves the contract insolvent (a witness is given).", "quantifier": "all histories, all tokens", "why_tests_cant": "unbounded histories; rounding errors accumulate", "anchors": ["src/invariant_service.rs", "src/invariant_storage.rs"]}
{"id": "C27", "title": "Swaps terminate", "statement": "The swap loop executes finitely many iterations for every pool state reachable and every argument.", "quantifier": "all pool states and arguments", "why_tests_cant": "non-termination cannot be observed by a test", "anchors": ["src/invariant_storage.rs:calculate_swap"]}
{"id": "C28", "title": "Swap respects amount and price limit", "statement": "A successful exact-in swap charges exactly the requested amount, a successful exact-out swap pays exactly the requested amount, and the output is positive. The final price is not beyond the price limit, except that an exact-in swap from x to y may end less than 10^24/price below it; a witness shows that it does.", "quantifier": "all states and arguments", "why_tests_cant": "unbounded", "anchors": ["src/invariant_storage.rs:calculate_swap"]}
{"id": "C29", "title": "Quotes are faithful and side-effect free", "statement": "quote returns exactly the amounts, final price and crossed ticks that swap would produce in the same state, and fails exactly when the swap computation fails; in another block of the same state a quote and a swap do the same, up to the seconds recorded in the ticks; no query changes the state.", "quantifier": "all states, arguments, callers and times after the creation of the pool", "why_tests_cant": "unbounded; a test quotes and swaps in a few states and one block", "anchors": ["src/invariant_service.rs:quote", "src/invariant_service.rs:swap"]}
{"id": "C30", "title": "Route swaps honour the slippage bound; route quotes match when no pool repeats", "statement": "A successful swap_route pays at least ceil(expected*(1-slippage)), each hop swaps exactly what the previous one paid, and the caller pays the first amount and receives the last one. quote_route equals the amount that swap_route pays when all hops use distinct pools; with a repeated pool the two differ (a witness is given).", "quantifier": "all routes", "why_tests_cant": "unbounded route length", "anchors": ["src/invariant_service.rs:swap_route", "src/invariant_service.rs:quote_route", "src/invariant_service.rs:route"]}
{"id": "C31", "title": "Internal balance ledger moves exactly the reported amounts", "statement": "Each successful call changes the balances of the caller by exactly the amounts it reports (create: -x,-y; remove/claim: +x,+y; swap: -in,+out; protocol fee: +stored fees; vara: +/-value) and changes nobody else's balances.", "quantifier": "all states, all calls", "why_tests_cant": "unbounded", "anchors": ["src/invariant_service.rs", "src/invariant_storage.rs:increase_token_balance", "src/invariant_storage.rs:decrease_token_balance"]}
{"id": "C32", "title": "Each token transfer is settled at most once", "statement": "For every interleaving of calls, token replies of any content, timeouts and resumptions, a deposit is credited at most once and only after a success reply of the token contract for that very message that arrives in time; a withdrawal is refunded at most once and only after a failure reply for that message. A deposit whose success reply arrives after the deadline is never credited (a witness is given).", "quantifier": "all interleavings, all reply contents, duplicated or late replies", "why_tests_cant": "exponential number of schedules", "anchors": ["src/invariant_service.rs:reply_handler", "src/invariant_service.rs:handle_valid_reply", "src/invariant_service.rs:handle_panic", "src/invariant_service.rs:handle_transfer_result"]}
{"id": "C33", "title": "Token custody covers the ledger", "statement": "If a token contract replies success exactly when it moved the tokens, then in every interleaving the tokens held by the exchange are at least the sum of recorded user balances plus pool reserves in that token; replies of one token never change balances in another token.", "quantifier": "all interleavings and tokens", "why_tests_cant": "exponential number of schedules", "anchors": ["src/invariant_service.rs:deposit_single_token", "src/invariant_service.rs:withdraw_single_token", "src/invariant_service.rs:deposit_token_pair", "src/invariant_service.rs:withdraw_token_pair"]}
{"id": "C34", "title": "Claiming fees twice pays once", "statement": "Immediately after a successful claim_fee a second claim_fee of the same position pays zero; claiming never changes liquidity, ticks' liquidity or the price.", "quantifier": "all reachable states", "why_tests_cant": "unbounded", "anchors": ["src/invariant_service.rs:claim_fee", "src/contracts/storage/position.rs:claim_fee"]}
{"id": "C35", "title": "Protocol fees can be collected only by the pool's fee receiver and only once", "statement": "withdraw_protocol_fee succeeds only for the pool's fee receiver, pays exactly the accumulated protocol fee of both tokens and resets them to zero.", "quantifier": "all states and callers", "why_tests_cant": "unbounded", "anchors": ["src/invariant_service.rs:withdraw_protocol_fee"]}
{"id": "C36", "title": "Position listing is exact", "statement": "get_positions(owner, size, offset) returns every position of the requested index range exactly once, grouped by pool with the right pool data and index, together with the total number of positions.", "quantifier": "all reachable states, sizes and offsets", "why_tests_cant": "unbounded", "anchors": ["src/invariant_service.rs:get_positions", "src/contracts/collections/positions.rs:get_slice"]}
{"id": "C37", "title": "What the tick queries report", "statement": "get_tickmap returns every non-empty bitmap chunk of the pool, and get_liquidity_ticks returns the initialized ticks it is asked for. get_position_ticks returns the two boundary ticks of each position of the owner, in order, from the requested position on, for at most 8936 positions. get_liquidity_ticks_amount returns the number of initialized ticks outside the last chunk of the bitmap, so all of them exactly when the last chunk is empty; a history with a tick in the last chunk shows that it is wrong otherwise.", "quantifier": "all reachable states", "why_tests_cant": "bug shows only for ticks in the last chunk", "anchors": ["src/invariant_storage.rs:liquidity_ticks_count", "src/invariant_storage.rs:tickmap_slice", "src/contracts/collections/tickmap.rs:get_max_chunk", "src/invariant_service.rs:get_position_ticks"]}
{"id": "C38", "title": "Liquidity per tick is bounded", "statement": "In every reachable state every tick's gross liquidity is below the per-tick maximum, and the sum of the liquidity of all positions of a pool fits 256 bits, so no liquidity addition overflows.", "quantifier": "all reachable states", "why_tests_cant": "needs astronomically large positions", "anchors": ["calc/math/clamm.rs:calculate_max_liquidity_per_tick", "src/contracts/storage/tick.rs:calculate_new_liquidity_gross"]}
{"id": "C39", "title": "Where a new pool starts", "statement": "create_pool with an initial sqrt price p and tick t, accepted when p lies in the range of t, yields a pool at the price of the tick t, with current tick t, no liquidity, no fees and the current time; p itself is not used, so the pool does not start at p unless p is the price of t (a witness is given).", "quantifier": "all accepted arguments", "why_tests_cant": "every existing test uses p = price(t)", "anchors": ["src/contracts/storage/pool.rs:create"]}
{"id": "C40", "title": "When exact-out swaps succeed", "statement": "An exact-out swap from x to y succeeds if, at all prices down to the limit, the open positions have at least a liquidity L that alone pays the requested output plus one unit for each of at most 443637 segments, before a limit above the end of the prices. Liquidity beyond a thin range does not count: a history shows that a pool that pays 197762973 units for an exact input traps when asked for 100000000 of them, because at a boundary the rest is checked against the liquidity of the range just left.", "quantifier": "all pool states, amounts and limits", "why_tests_cant": "needs multi-range pools with thin first range", "anchors": ["src/contracts/storage/pool.rs:update_tick", "calc/math/clamm.rs:is_enough_amount_to_change_price"]}
{"id": "C41", "title": "Slippage guard on position creation", "statement": "create_position succeeds only if the pool price lies within the caller's slippage limits, the liquidity is non-zero, and both ticks are valid for the pool's spacing with lower < upper.", "quantifier": "all states and arguments", "why_tests_cant": "unbounded", "anchors": ["src/invariant_service.rs:create_position", "src/contracts/storage/position.rs:create"]}
{"id": "C42", "title": "Off-chain simulation agrees with the contract", "statement": "On a truthful snapshot of a pool (pool, tickmap chunks and initialised ticks on the side the swap moves to; in particular what getPool, getTickmap, getAllLiquidityTicks, filterTickmap and filterTicks return in one contract state), simulateInvariantSwap reports exactly the amounts, fee, prices and crossed ticks of the swap that the contract would carry out, with no flag raised, or raises maxSwapStepsReached, which happens exactly when the swap needs more than 142 steps. When the contract refuses the swap the simulation fails, raises a flag or reports a zero output. Conversely a simulation without flags and with a positive output is what the contract quotes, unless the contract panics (which does happen: exact output from a thin pool). The simulation ends within 143 steps on any input. The chunk and bit at which the SDK looks for a tick number the multiples of the tick spacing within the price range through from the lowest one; any other tick is refused, and the way back gives the tick.", "quantifier": "all pools and arguments", "why_tests_cant": "two independent implementations over unbounded inputs", "anchors": ["sdk/src/wasm/swap.rs", "src/invariant_storage.rs:calculate_swap"]}
{"id": "C43", "title": "Tick prices follow sqrt(1.0001)^t", "statement": "For every valid tick t the price returned by the tick-to-price conversion differs from sqrt(1.0001)^t by a relative error of at most 1.5e-7 (in logarithm).", "quantifier": "all ticks t with |t| <= 221818", "why_tests_cant": "443637 ticks, each a different product of up to eighteen truncated factors; the bound is about a real number no test can compute exactly", "anchors": ["calc/math/types/sqrt_price.rs:calculate_sqrt_price"]}
{"id": "C44", "title": "Liquidity offered for an amount is affordable and largest", "statement": "The liquidity that getLiquidityByX (getLiquidityByY, getLiquidity) computes from an amount of a token, a price range and the current pool price can be added at that price: creating the position then charges at most that amount of the given token (both given amounts for getLiquidity). For an amount of token y it is the largest such liquidity; for token x any larger liquidity that is still affordable exceeds it by less than the stated rounding bound. The helpers fail only for the documented reasons. The estimated amount of the other token is NOT an upper bound of what is charged (refuted: it can be short), and getLiquidity may report amounts that belong to different liquidities (refuted).", "quantifier": "all amounts, ranges, prices and pool states reachable by any history", "why_tests_cant": "rounding in five nested divisions over 128-bit prices; the claim is about every amount and price", "anchors": ["sdk/src/wasm/math.rs:get_liquidity_by_x", "sdk/src/wasm/math.rs:get_liquidity_by_y", "sdk/src/wasm/math.rs:get_liquidity", "src/invariant_service.rs:create_position"]}
{"id": "C45", "title": "Previews of fees and of a removal are what is paid", "statement": "Every position can be fetched together with its pool and its two ticks. The fee that calculateFee computes from them is exactly what claimFee then pays, and claimFee succeeds whenever the owner's balances can hold it. calculateTokenAmounts plus calculateFee is exactly what removePosition pays out.", "quantifier": "all histories, owners, positions", "why_tests_cant": "two independent implementations (SDK and contract) must agree on every reachable pool, tick and position state", "anchors": ["sdk/src/wasm/storage/position.rs", "sdk/src/wasm/custom.rs:calculate_fee", "src/invariant_service.rs:get_position_with_associates", "src/invariant_service.rs:claim_fee", "src/invariant_service.rs:remove_position"]}
{"id": "C46", "title": "Slippage limits are as wide as the tolerance, and no wider", "statement": "The integer square root used for prices is exact and terminates for every number except 4 (where it returns 1). calculateSqrtPriceAfterSlippage returns a limit whose price deviates from the given price by at most the tolerance and by the tolerance up to rounding. createPosition with a tolerance is never refused because of the price when the pool is still at the price the caller saw, and succeeds only if the pool's price is within the tolerance. calculatePriceImpact is symmetric, below 100% and the exact relative distance rounded down.", "quantifier": "all prices in range, all tolerances up to 100%, all histories", "why_tests_cant": "a Newton iteration on unbounded integers; a claim about every price and tolerance", "anchors": ["sdk/src/utils.ts:sqrt", "sdk/src/utils.ts:calculateSqrtPriceAfterSlippage", "sdk/src/utils.ts:calculatePriceImpact", "sdk/src/invariant.ts:createPosition"]}
{"id": "C47", "title": "Token amounts with slippage cover the cost", "statement": "The amounts that calculateTokenAmountsWithSlippage computes (rounding up) cover what createPosition charges at any pool price that the tolerance admits, provided that the tick of the price the caller saw is inside the range or the pool's price has not entered the range. Without the proviso the estimate can miss a token (refuted).", "quantifier": "all histories, ranges, liquidities, prices and tolerances", "why_tests_cant": "the price may be anywhere in the tolerance when the call executes; all of them are covered", "anchors": ["sdk/src/utils.ts:calculateTokenAmountsWithSlippage", "src/invariant_service.rs:create_position"]}
{"id": "C48", "title": "The liquidity map shows the liquidity of the positions", "statement": "The ticks of every pool can be fetched through the tickmap and the paged tick query; they come in strictly increasing order without repetition and are exactly the existing ticks. The breakpoints computed from them give at every tick the total liquidity of the open positions whose range contains it.", "quantifier": "all histories, pools and ticks", "why_tests_cant": "prefix sums over arbitrarily many ticks left by arbitrary histories of positions and swaps", "anchors": ["sdk/src/utils.ts:calculateLiquidityBreakpoints", "sdk/src/invariant.ts:getAllLiquidityTicks", "sdk/src/invariant.ts:getTickmap", "src/invariant_service.rs:get_liquidity_ticks"]}
{"id": "C49", "title": "SDK and contract order the two tokens alike", "statement": "isTokenX on the hexadecimal texts of two actor ids compares the ids; newPoolKey of the SDK yields the tokens in the order of the contract's pool key for both orders of the arguments, and fails exactly when the contract does. With texts in upper case the order can be wrong (refuted).", "quantifier": "all pairs of 256-bit actor ids", "why_tests_cant": "2^512 pairs; string order against numeric order", "anchors": ["sdk/src/wasm/custom.rs:is_token_x", "sdk/src/wasm/storage/pool_key.rs", "src/contracts/storage/pool_key.rs:new"]}
{"id": "C50", "title": "isValidTick accepts every pool", "statement": "The SDK's check of a tick against a price accepts the current tick and price of every pool at any time, and accepts a tick of the grid for a price exactly when the tick is the one computed from that price.", "quantifier": "all histories and pools; all ticks, spacings and prices", "why_tests_cant": "a swap may end at any price; the invariant must survive every sequence of crossings", "anchors": ["sdk/src/wasm/custom.rs:_isValidTick", "src/invariant_storage.rs:calculate_swap"]}
{"id": "C51", "title": "What a call records and what the listings show", "statement": "A created position is stored under the caller's next index with exactly the requested pool, range and liquidity, the current block number and no owed tokens, and no other position changes. Its two boundary ticks keep their history if they existed; a fresh tick starts with the pool's fee growth and elapsed time when it lies at or below the current tick and with zero otherwise; no other tick changes. The pools listed for a pair are those of the fee tiers on offer, in either order of the tokens, each once; a user's balance list has each token once and exactly the nonzero balances. That the pair list shows every pool of the pair is false once a fee tier was removed (refuted).", "quantifier": "all histories, callers, arguments, pools, tokens and users", "why_tests_cant": "the frame ('nothing else changes') ranges over all keys; the listings over all reachable stores", "anchors": ["src/invariant_service.rs:create_position", "src/contracts/storage/position.rs:create", "src/contracts/storage/tick.rs:create", "src/contracts/storage/pool.rs", "src/invariant_service.rs:get_all_pools_for_pair", "src/invariant_service.rs:get_user_balances"]}
{"id": "C52", "title": "When deposits and withdrawals start and what they request", "statement": "A deposit of one or two tokens starts exactly when the tokens differ, no amount would lift the stored balance to 2^256, a single amount is not zero, no transferred token is the native one, there is enough gas and the messages can be sent; it then requests exactly the nonzero transfers asked for. A withdrawal starts exactly when the stored balances cover the amounts (a missing amount means everything), under the same conditions, and requests exactly these transfers.", "quantifier": "all histories, callers, tokens, amounts, gas limits and outcomes of sending", "why_tests_cant": "an equivalence over all balances, amounts and environments", "anchors": ["src/invariant_service.rs:deposit_single_token", "src/invariant_service.rs:deposit_token_pair", "src/invariant_service.rs:withdraw_single_token", "src/invariant_service.rs:withdraw_token_pair", "src/invariant_service.rs:can_increase_token_balance"]}
{"id": "C54", "title": "The emitted events tell the history", "statement": "A successful creation or removal of a position emits exactly one event with the position's pool, liquidity and range and the pool's price; a swap emits one swap event, preceded by the list of crossed ticks if there are any, and a route one per hop; failed calls and all other calls emit nothing. In a swap event 0 <= fee <= amount_in, the price moves in the direction of the swap and the balances of the caller change by exactly the reported amounts; the crossed ticks exist, are in the order of the movement and lie between the two prices. An observer of all events knows the open positions (created minus removed), the price of every pool (each reported move starts where the previous one ended, the last one ends at the present price) and, in the histories of C23, the active liquidity. Two further expectations are false: the fee field is not always the fee taken, and owners cannot be reconstructed because transfers are silent (refuted).", "quantifier": "all histories, and all continuations of them, with all their events", "why_tests_cant": "a statement about the whole sequence of events of every history", "anchors": ["io/src/lib.rs:InvariantEvent", "src/invariant_service.rs:create_position", "src/invariant_service.rs:remove_position", "src/invariant_service.rs:swap", "src/invariant_service.rs:route"]}
{"id": "C57", "title": "A swap is a walk along the liquidity curve", "statement": "The curve of a pool is given by its open positions alone: at a price the liquidity is the sum of the liquidities of the positions whose price range contains it. Every successful swap (and every quote) walks from the old to the new price in connected segments, each at the curve's liquidity at every price inside it. On each segment the input is the exact amount rounded up and the output the exact amount rounded down (exact out: the last segment may pay less, never more), the fee is the fee rate of the input rounded up, except on the last segment of an exact-in swap, where the unused rest of the input is part of the fee and the fee is at least the rate of all that is paid. The amount charged is the sum of inputs, fees and leftover, the amount paid the sum of the outputs, the reported fee the sum of the fees; the protocol is credited its rounded-up part of every fee, the fee growth rises by the rest divided by the segment's liquidity (modulo 2^128), and nothing is booked in the other token. Leftover occurs only in exact-in swaps from x to y, on the last segment. Stated for the histories of C23; an exact-in swap from x to y may end up to 10^24/price raw units past a boundary (C06). The fee of a segment exceeds the fee rate, and input is left over, only by amounts that are too little to move the price by its last digit.", "quantifier": "all histories, pools, directions, modes, amounts and price limits", "why_tests_cant": "the number of segments is unbounded and the statement relates every price inside them to all open positions", "anchors": ["src/invariant_storage.rs:calculate_swap", "src/invariant_service.rs:swap", "src/invariant_service.rs:quote", "calc/math/clamm.rs:compute_swap_step", "src/contracts/storage/pool.rs:add_fee"]}
{"id": "C53", "title": "Time accounting", "statement": "The time a pool spends on the two sides of a tick can be read off from what the contract stores. Put a stopwatch on every tick that runs while the pool's current tick is below it (before the tick exists, the whole time since the pool's creation is counted). At any moment the seconds stored in the tick are the reading of the stopwatch if the current tick is at or above it, and the age of the pool minus the reading otherwise; so the seconds spent between any two initialized ticks can be computed, as with the fees. A pool's start is the time of its creation and never changes; its last timestamp lies between the start and now, is set by opening, closing and claiming positions and by swaps that cross a tick, and is left alone by other swaps. Stated for the histories of C23 in which the block time never decreases; refuted without its side condition on swaps: after a swap that stops on a tick without crossing it the seconds stored there are wrong.", "quantifier": "all histories, waiting times between the calls, pools and ticks", "why_tests_cant": "the accounting must survive every interleaving of crossings, creations, removals and waits", "anchors": ["src/contracts/storage/tick.rs:create", "src/contracts/storage/tick.rs:cross", "src/contracts/storage/pool.rs:create", "src/contracts/storage/position.rs:modify", "src/invariant_service.rs:create_position"]}
{"id": "C58", "title": "Why a swap does not succeed", "statement": "Every quote ends, with a result or with the cause that its error names, for which there is a walk along the liquidity curve of the open positions as evidence: the amount is zero; the limit is on the wrong side; all liquidity up to the limit is used up and some of the amount is left; the walk has reached the end of the prices; an exact input pays nothing out. No other error occurs. It is trapped only if (a) the amount left at a boundary would take the liquidity of the range just left to a price that does not exist, or (b) on an exact input of x, by a rounding, the last step charges more than is left (by at most 2*10^-14 of it and 3 units) or ends below the least price; each occurs in a history. A swap fails only for these reasons or because the caller lacks the input or cannot receive the output. An exact input of y succeeds (or pays nothing out) if the liquidity of the curve at every price up to the limit is at least some L that alone takes the amount; an exact input of x does so too, up to one unit per segment and but for (b).", "quantifier": "all histories with clean swaps (C23), pools with a fee of at most 99% (positive for exact inputs), a protocol fee of at most 100% and counters with room, directions, modes, amounts and limits", "why_tests_cant": "the absence of other failures, and that every failure has its cause, must hold for every pool state, amount and limit; the traps occur at single amounts between two that succeed", "anchors": ["src/invariant_storage.rs:calculate_swap", "src/invariant_service.rs:quote", "src/invariant_service.rs:swap", "calc/math/clamm.rs:compute_swap_step", "calc/math/clamm.rs:is_enough_amount_to_change_price"]}
{"id": "C56", "title": "The token program creates and destroys only what its minters and burners ask for", "statement": "Of the token program that ships with the exchange: the total supply is the sum of all balances and what was minted minus what was burnt, and stays below 2^256; no balance is negative or exceeds the supply. Minting adds exactly the amount to one balance and the supply and nothing else, succeeds for a minter whenever the supply has room and never otherwise; burning takes exactly the amount, succeeds for a burner whenever the holder has it and never otherwise. Only a minter can raise the supply, only a burner lower it, only an admin change roles. A role is held by exactly those for whom the last decision was to grant it, and by the deployer if there was no decision. Once nobody is admin, roles never change again. Outside of test builds transfers and approvals are exactly those of the inherited token service, and do not touch the roles.", "quantifier": "all sequences of successful calls by any callers, all amounts, and all inherited token services that move balances without creating or destroying any", "why_tests_cant": "supply and roles must be right after every sequence of calls, also at the limit of 256 bits", "anchors": ["extended-vft/app/src/services/extended_vft/mod.rs:ExtendedService", "extended-vft/app/src/services/extended_vft/funcs.rs:mint", "extended-vft/app/src/services/extended_vft/funcs.rs:burn"]}
{"id": "C59", "title": "The SDK's listings of pools and positions are complete", "statement": "getAllPoolKeys returns the key of every existing pool exactly once, in the order of the contract, as long as there are at most 57540 pools; with more it fails (shown by a history). getPositions returns the requested positions in order of their index, each with the current data of its own pool, and the owner's number of positions. getAllPositions, without a count, returns page 0 and every later nonempty page that is not to be skipped, in order, each with exactly the positions of that page; so with nothing to be skipped, all positions of the owner once and in order. With a count it returns exactly the pages up to the count that are not to be skipped. A size or count of zero counts as not given, and a page has 1800 positions then. Refuted: without a count page 0 is returned even if it is to be skipped.", "quantifier": "all histories in which no owner reaches 2^32-1 positions (pools: in which no more than 65535 pools were created), owners, page sizes, counts and lists of pages to skip, up to 2^32 positions", "why_tests_cant": "completeness must hold for every number of pools and positions and every page size; the tests use a few pages", "anchors": ["sdk/src/invariant.ts:getAllPoolKeys", "sdk/src/invariant.ts:getPositions", "sdk/src/invariant.ts:getAllPositions"]}
{"id": "C55", "title": "A quote followed by a swap with slippage pays the quote", "statement": "The SDK's quote of an exact input always ends strictly before the price limit it sends. If the pool has not changed since, swapWithSlippage with the quoted price and any positive tolerance below 100% (towards higher prices: any tolerance from 0 to 100%) succeeds, in any later block and by any caller who holds the input, charges the input exactly and pays the quoted output. If the pool has changed, a swap that goes through ends at a price within the tolerance of the estimate, up to two units of the 24-decimal price (with an exact input towards lower prices, plus less than 10^24/price). Refuted: a tolerance of 100% towards lower prices can never be sent; a tolerance of zero towards lower prices can fail although nothing changed; with an exact output the swap can charge more than was quoted although nothing changed.", "quantifier": "all histories, pools, directions, amounts, tolerances, callers and times after the creation of the pool", "why_tests_cant": "the limit sent differs from the limit quoted with, so the two computations must agree for every path of steps and every rounding; the tests try a few amounts", "anchors": ["sdk/src/invariant.ts:quote", "sdk/src/invariant.ts:swapWithSlippageTx", "sdk/src/utils.ts:calculateSqrtPriceAfterSlippage", "src/invariant_storage.rs:calculate_swap"]}
{"id": "C60", "title": "Exactly when each call succeeds", "statement": "Opening a position succeeds exactly if the pool exists, the liquidity is positive, the two ticks are ordered, inside the allowed range and multiples of the tick spacing, the price of the pool is within the given slippage bounds, neither tick exceeds the share of liquidity a tick may hold, and the caller holds the amounts that the liquidity costs at the current price in both tokens. (After histories with unclean swaps one more condition can stop it: the pool's liquidity field must not overflow.) Creating a pool succeeds exactly if the tokens differ, the fee tier is listed, no such pool exists, and the price lies between the price of the initial tick and that of the next one. Changing the protocol fee or a fee receiver succeeds exactly for the admin (and an existing pool); withdrawing protocol fees exactly for the pool's fee receiver whose balances have room; transferring a position exactly if the caller has a position with that index; depositing VARA exactly if the balance has room; withdrawing VARA exactly if the amount is positive, held, and fits the 128-bit reply. The client library's check of a pair of ticks accepts exactly the ordered pairs of admissible ticks; unlike the contract it accepts two equal ticks, with which no position can be opened (refuted).", "quantifier": "all histories in which no owner reaches 2^32-1 positions, all callers and arguments", "why_tests_cant": "liveness for every state: a call that meets the stated conditions must not fail or trap at any of the hundreds of arithmetic steps behind it; the tests call a few states", "anchors": ["src/invariant_service.rs:create_position", "src/invariant_service.rs:create_pool", "src/invariant_service.rs:change_protocol_fee", "src/invariant_service.rs:change_fee_receiver", "src/invariant_service.rs:withdraw_protocol_fee", "src/invariant_service.rs:transfer_position", "src/invariant_service.rs:deposit_vara", "src/invariant_service.rs:withdraw_vara", "src/contracts/storage/tick.rs:update", "calc/math/clamm.rs:check_ticks"]}
{"id": "C61", "title": "What a position costs and what closing it pays", "statement": "Opening a position charges, with the price of the pool moved into the range, L*(price-lower) of token y rounded up and L*(upper-price)/(price*upper) of token x, each by a fixed formula, and nothing else. Closing it pays the same expressions rounded down plus the fees a claim would pay, and nothing else. At one price the worth never exceeds the cost; it is at most one unit of y lower, and of x at most two units and a 10^14th. Below the range only x is charged, above it only y. More liquidity never costs less. Splitting a position in two changes its cost by at most one unit, and never makes y cheaper. So opening and closing a position at an unchanged price never gains.", "quantifier": "all histories in which no owner reaches 2^32-1 positions, all pools, ranges, liquidities and prices", "why_tests_cant": "roundings must favour the pool for every price, range and liquidity; the tests compare single amounts", "anchors": ["calc/math/clamm.rs:calculate_amount_delta", "calc/math/clamm.rs:get_delta_x", "calc/math/clamm.rs:get_delta_y", "src/contracts/storage/position.rs:create", "src/contracts/storage/position.rs:remove"]}
{"id": "C62", "title": "Fees are shared in proportion to the liquidity that earned them", "statement": "The fee of every step of a swap is shared among exactly the positions whose range the step lies in: it is divided, less the protocol's part, by the sum of their liquidities, and each is credited that growth times its own liquidity; input left over at the end goes in the same way to the positions containing the final price. Credits are in the token paid in only, and no position of another pool, nor one whose range the swap does not touch, is credited anything. A route credits what its swaps credit one by one. No other call changes what a position has due. A new position starts with nothing due; a claim pays exactly what is due, rounded down, and leaves nothing due. Two positions with the same range and the same start are due amounts in the ratio of their liquidities up to rounding.", "quantifier": "all histories in which no owner reaches 2^32-1 positions and every swap was clean (C23), all swaps and routes, all positions", "why_tests_cant": "depends on every position opened before, on every tick crossed in any order, and on arithmetic modulo 2^128; tests compute one or two shares", "anchors": ["src/contracts/storage/pool.rs:add_fee", "src/contracts/storage/pool.rs:update_tick", "src/contracts/storage/tick.rs:cross", "calc/math/types/fee_growth.rs:calculate_fee_growth_inside", "src/contracts/storage/position.rs:claim_fee", "src/invariant_storage.rs:calculate_swap"]}
{"id": "C63", "title": "Fixed-point arithmetic rounds as its name says and never wraps around", "statement": "For every fixed-point type and every operand: sums and differences are exact; mul, div, big_mul, big_div, division by a number and big_mul_to_value return the exact rational result rounded down, the variants ending in _up return it rounded up, and the two differ by at most one unit. An operation whose exact intermediate result does not fit is refused (a panic, or an error in the checked variants) and never returns a wrapped value; exactly when that happens is stated for each. The checked variants never panic, except that checked_big_div_by_number_up panics on the number zero. The arithmetic in the model of the contract is this library's.", "quantifier": "all fixed-point types the macro accepts (scale up to 38, one representable), all operand values", "why_tests_cant": "the macro's tests try one or two small operands per operation; rounding and overflow must be right for all operands of 128 to 512 bits", "anchors": ["calc/decimal/decimal_core/src/ops.rs", "calc/decimal/decimal_core/src/big_ops.rs", "calc/decimal/decimal_core/src/checked_ops.rs", "calc/decimal/decimal_core/src/others.rs", "calc/decimal/decimal_core/src/by_number.rs:generate_by_number"]}
{"id": "C64", "title": "Conversions between integer sizes keep the value or are refused", "statement": "A conversion to a wider integer keeps the value. A conversion to a narrower wide integer, to u64 or to u128 succeeds exactly if the value fits, and keeps it. Conversions by shifting and the hand-over to JavaScript keep the value. Conversions to u8, u16 and u32 look at the lowest 64 bits only: they are right below 2^64, but above they can return a wrong value without an error.", "quantifier": "all wide integers of any number of 64-bit limbs, all target sizes", "why_tests_cant": "the tests convert a few values around one boundary; the limbs above the lowest are not all covered", "anchors": ["calc/decimal/decimal_core/src/uint_casts.rs:impl_uint_casts", "calc/decimal/decimal_core/src/uint_casts.rs:impl_primitive_casts", "calc/decimal/src/uint.rs:checked_u320_to_u256", "sdk/src/wasm/helpers.rs:decimal_ops_uint"]}
{"id": "C65", "title": "Conversions into fixed-point types, between them, and to text", "statement": "from_integer, from_scale and from_decimal return the exact value if it can be represented, otherwise the value rounded down (from_scale_up and from_decimal_up: up), or are refused; exactly when is stated. Converting to a finer type and back is the identity; to a coarser type and back loses less than one of its units and never gains. The SDK's toX(value, scale) does the same for scales up to 255, and its denominators are the ones of the types. The printed text of a value means exactly that value. Refuted: checked_from_scale and checked_from_scale_to_value never panic; toX with a scale of 256 or more is right; toX returns 0 for every value that rounds to 0.", "quantifier": "all fixed-point types of the code, all values and scales", "why_tests_cant": "tests convert a handful of constants; the claims are about all values and scales", "anchors": ["calc/decimal/decimal_core/src/factories.rs:generate_factories", "calc/decimal/decimal_core/src/others.rs:fmt", "sdk/src/wasm/helpers.rs:decimal_ops", "sdk/src/utils.ts:toPercentage"]}
{"id": "C66", "title": "Seconds per unit of liquidity", "statement": "Adding and subtracting accumulated seconds per liquidity is arithmetic modulo 2^128, and each undoes the other. The growth over an interval is the elapsed time divided by the liquidity, rounded down; it is refused exactly if no time has passed, if there is no liquidity, or if the time times 10^30 does not fit into 128 bits. A range accumulates time exactly while the current tick is in it, moving the price over a boundary (with the boundary's record taken from the total) changes nothing inside, and two adjacent ranges together count what the joined range counts. Refuted: every interval with positive liquidity has a result (340282367 seconds has none).", "quantifier": "all accumulated values, timestamps, liquidities, ranges, current ticks", "why_tests_cant": "tests use a few values around the wrap; the claims are about every wrap and every tick", "anchors": ["calc/math/types/seconds_per_liquidity.rs:calculate_seconds_per_liquidity_global", "calc/math/types/seconds_per_liquidity.rs:calculate_seconds_per_liquidity_inside", "calc/math/types/seconds_per_liquidity.rs:unchecked_sub", "sdk/src/wasm/types/seconds_per_liquidity.rs"]}
{"id": "C67", "title": "Concentration of a range and the SDK's fee tiers", "statement": "calculateConcentration(tickSpacing, minimumRange, n) times the SDK's constant is the worth of a liquidity at all prices divided by its worth in the range of tickSpacing*(minimumRange/2+n) ticks on either side of the price, whatever the price and the liquidity. Wider ranges are less concentrated and none reaches the limit 1/constant. calculateTickDelta returns the least n whose concentration is at most the one asked for, undoes calculateConcentration, and has no answer at or below the limit. getConcentrationArray is characterised exactly: when it fails, its entries, how many. Entries computed for an index fit below the last tick. newFeeTier accepts exactly fees up to 100% and spacings 1 to 100 (below 2^16); calculateFeeTierWithLinearRatio(n) is the tier of n hundredths of a percent and exists exactly for 1 to 100. Refuted: the array is decreasing; every listed concentration fits between the price and the last tick; the array exists for a minimum range of 0; newFeeTier never changes the spacing (65537 becomes 1).", "quantifier": "all spacings, minimum ranges, steps, concentrations, current ticks, prices and liquidities; real arithmetic without rounding", "why_tests_cant": "tests compare a few doubles; the claims are about all parameters", "anchors": ["sdk/src/utils.ts:calculateConcentration", "sdk/src/utils.ts:calculateTickDelta", "sdk/src/utils.ts:getConcentrationArray", "sdk/src/utils.ts:calculateFeeTierWithLinearRatio", "sdk/src/wasm/storage/fee_tier.rs:new_fee_tier"]}
{"id": "C68", "title": "Trading against one pool never gains", "statement": "Whoever swaps in one direction and then back in the same pool, paying at most what they got, gets back at most what they paid. After any sequence of calls that open and close no position (swaps and routes in any direction by any number of traders, collected fees, transfers, deposits), those who traded in a pool have not jointly gained one of its tokens without having paid in the other: a gain in the first token costs some of the second for up to 4*10^8 swaps, a gain in the second costs some of the first as long as the number of swaps times the price of the first token in the second stays below about 4.5*10^8. A swap moves the price to where the open positions hold at most what was paid more of the one token and at least what was paid out less of the other. All this for swaps that cross exactly the ticks they pass (C23); refuted without that condition: a trader who buys up to the end of a position's range with that price as the limit and sells back gains 76304 for 173541 paid.", "quantifier": "all histories without unclean swaps, all pools, prices, positions, directions, amounts, modes, limits, sequences of calls of any length within the stated bounds", "why_tests_cant": "tests check one swap and its reverse for a few amounts; the claim is about every pool and every sequence of trades", "anchors": ["src/invariant_service.rs:swap", "src/invariant_service.rs:swap_route", "src/contracts/storage/pool.rs:update_tick", "calc/math/clamm.rs:compute_swap_step"]}
{"id": "C69", "title": "A swap is executed between the price before and the price after it", "statement": "What a swap pays out is worth at most what it takes in, without the fee, at the price of the pool before the swap (selling the second token: exactly; selling the first: up to 2/10^24 of a unit per step); a quote promises nothing better than that either. An exact-in swap converts all that is paid in, but for the fee rate, one unit of either token per step and at most twice an amount too little to move the price by its last digit, and it converts it at the price after the swap or a better one. The number of steps is at most the number of ticks the pool moves plus its tick spacing plus one.", "quantifier": "all histories without unclean swaps, all pools, prices, positions, directions, amounts, modes and limits", "why_tests_cant": "tests compare a few swaps with precomputed numbers; the bounds must hold at every price, liquidity and amount, over every sequence of ranges a swap crosses", "anchors": ["src/invariant_service.rs:swap", "src/invariant_service.rs:quote", "calc/math/clamm.rs:compute_swap_step", "calc/math/clamm.rs:is_enough_amount_to_change_price"]}
{"id": "C70", "title": "Pools and users do not influence one another", "statement": "A call changes nothing but the parts it is about: a swap, a new position or a fee withdrawal one pool and the caller's own account, closing a position or claiming its fees the pool of the position and the caller's account, a route its pools and the caller's account, a transfer two accounts, creating a pool that pool and the list of pools, the administrator's calls the settings or one pool, a deposit or withdrawal one account. Its answer (value returned or reason of failure) depends on these parts only, and on the protocol fee (swaps) or the fee tiers (new pools). So calls about different parts can be made in either order with the same answers and the same final state, and however the calls of two parties that keep to their own pools and accounts are interleaved, each gets the answers it would get alone. Quotes and queries about a pool stay valid as long as nobody acts on that pool and the protocol fee is unchanged. Within one pool the order does matter (refuted: of two equal orders the first gets more).", "quantifier": "all states (reachable or not), all pairs of calls, all schedules of two parties of any length, successful and failing calls alike", "why_tests_cant": "Tests run one fixed sequence; independence is a statement about all pairs of states and all interleavings.", "anchors": ["src/invariant_service.rs: all entry points", "src/invariant_storage.rs: calculate_swap, add_tick, remove_tick, increase_token_balance, decrease_token_balance", "src/contracts/collections"]}
{"id": "C71", "title": "Opening and closing a position leaves no trace", "statement": "If a user opens a position and closes it again, the exchange is as it was before, except for that user's own balances (C61 says how little they lose), the time of the pool's last change and the meaningless sign of ticks whose liquidity change is zero: the same pools, ticks, initialised-tick bits, positions under the same indices, settings, list of pools and balances of everybody else. From then on every sequence of calls by the other users gets the same answers (values and failures) as if the position had never existed, and so do quotes and queries. Two traces are visible in queries that show the storage itself (refuted): the sign stored with a tick of zero liquidity change may flip, and a bitmap chunk used for the first time stays listed as an empty chunk.", "quantifier": "all reachable states, users, pools, ranges, liquidities and times, and all later sequences of calls by other users, of any length, successful or failing", "why_tests_cant": "A test compares a few fields after one round trip; that nobody can ever notice is a statement about all continuations.", "anchors": ["src/invariant_service.rs:create_position", "src/invariant_service.rs:remove_position", "src/contracts/storage/tick.rs:update", "src/contracts/collections/tickmap.rs:flip"]}
{"id": "C72", "title": "Claiming fees concerns nobody else, and claiming often does not pay", "statement": "A claim of fees changes nothing that another user can see: pools, ticks, positions and balances of the others stay as they are, and every later sequence of calls by the others gets the same answers as without the claim. Claiming a position's fees again and again, between any calls of other users, pays in total no more than claiming once at the end, and each additional claim costs at most one unit per token. This holds as long as the fee growth collected stays below 2^128; if more growth accumulates between two claims, the counter wraps around and the owner who waits loses the difference (refuted by a concrete run: 415799049079 units with two claims, 75516682158 with one).", "quantifier": "all reachable states, positions, numbers of claims, and all sequences of other users' calls between the claims", "why_tests_cant": "The two schedules to compare range over all interleavings of other users' calls; the wrap-around appears only at extreme fee growth.", "anchors": ["src/invariant_service.rs:claim_fee", "src/contracts/storage/position.rs:modify", "calc/math/types/fee_growth.rs:to_fee", "calc/math/types/fee_growth.rs:unchecked_sub"]}
{"id": "C73", "title": "Splitting a position makes no difference to others and earns nothing", "statement": "Opening two positions over the same range instead of one with their joint liquidity leads to a state that is the same for everybody else: the same pools, ticks and bitmap, and every later sequence of calls by others gets the same answers. The fees due to the two positions are at any later time those due to the single one, or one unit per token less; closing the two pays what closing the one pays, or up to two units per token less; and opening them costs the same up to one unit per token. Of token y the two never cost less than the one; of token x they can cost one unit less (refuted by a concrete run).", "quantifier": "all reachable states, pools, ranges, pairs of liquidities, and all sequences of other users' calls afterwards", "why_tests_cant": "Two runs that differ in the number of positions have to be compared over all continuations by all other users; the rounding differences depend on every amount involved.", "anchors": ["src/invariant_service.rs:create_position", "src/invariant_service.rs:remove_position", "src/contracts/storage/position.rs:create", "src/contracts/storage/tick.rs:create", "calc/math/clamm.rs:calculate_amount_delta"]}
{"id": "C74", "title": "The order of liquidity providers' calls within a block does not matter", "statement": "Take any number of calls of different users made in the same block, in which positions are opened and fees claimed, or in which positions are closed and fees claimed, in the same pool or in different ones. If they all go through in one order, then they all go through in every other order, every user gets the same answer, and the resulting states cannot be told apart: same pools, ticks, bitmap, positions and balances, and every later call by anybody is answered alike. So nobody gains from serving liquidity providers in a particular order. It does not hold when a block mixes openings and closings: if the last position at a tick is closed before a new one is opened there, the new owner is told another starting value (refuted by a concrete run), nor for two calls of the same user, whose positions are numbered in the order of opening.", "quantifier": "all reachable states, all lists of such calls by different users, all permutations of the list, and all sequences of calls afterwards", "why_tests_cant": "The orders of a block grow factorially with its length, and the comparison has to hold in every state and for every continuation.", "anchors": ["src/invariant_service.rs:create_position", "src/invariant_service.rs:remove_position", "src/invariant_service.rs:claim_fee", "src/contracts/storage/tick.rs:create", "src/contracts/storage/pool.rs:update_liquidity"]}
{"id": "C75", "title": "A position is worth as much to whoever it is transferred to", "statement": "A transfer moves no tokens and concerns nobody but the giver and the receiver. Compare the course of events after a transfer with the one in which the giver had kept the position: whatever others do in the meantime and however often the owner claims, every claim pays the new owner exactly what it would have paid the old one, all other calls are answered alike, the position and everything but the two users' belongings stay equal, and closing it in the end pays the same amounts (if the new owner's balances can hold them). Nobody else ever notices the transfer. Giving the position back restores everybody's positions and balances, except that the position has moved to the end of its owner's list. A transfer to oneself is therefore not without effect: it renumbers the positions (refuted by a concrete run).", "quantifier": "all reachable states, positions and receivers, all sequences of calls of others interleaved with claims of the owner, all final closings", "why_tests_cant": "The two courses of events have to be compared for every interleaving of trades, positions and claims that can follow the transfer.", "anchors": ["src/invariant_service.rs:transfer_position", "src/invariant_service.rs:claim_fee", "src/invariant_service.rs:remove_position", "src/contracts/collections/positions.rs:transfer"]}
{"id": "C76", "title": "All users are treated alike", "statement": "Nothing depends on who a user is, beyond the offices of administrator and fee receiver. If the users of any history are renamed (every address replaced by another one, different addresses by different ones, in callers, receivers and offices alike), every call gets the same answer, and the resulting balances, positions, pools, ticks and quotes are the same under the new names. In particular two users without an office who own the same balances and positions get the same answer to the same call, are left with the same belongings by it, and exchanging their names in the whole later history exchanges them in its outcome. The administrator may do what others may not.", "quantifier": "all injective renamings, all states, all histories of calls and token movements, all queries, all pairs of users who own the same", "why_tests_cant": "A special case for one address among 2^256 cannot be found by trying some; it has to be excluded for every address, call and state.", "anchors": ["src/invariant_service.rs", "src/contracts/collections/positions.rs", "src/contracts/collections/pools.rs", "src/invariant_storage.rs:increase_token_balance", "src/invariant_storage.rs:decrease_token_balance"]}
{"id": "C77", "title": "Time and block numbers do not influence money", "statement": "When a call is made makes no difference to money. Make the same calls in the same order at other times and other block numbers: every call gets the same answer up to the timestamps, seconds and block numbers it mentions (in particular it succeeds or fails, with the same error, exactly as before), and the resulting balances, positions, liquidity, prices, fee growths, ticks, tickmap and settings are the same. Quotes do not depend on when they are asked for. The only condition is that no swap is dated before the creation of the pool it uses, which holds whenever the clock never goes back; without it a swap that crosses a tick can fail where the same swap made later goes through.", "quantifier": "all histories of calls and token movements, all pairs of assignments of timestamps and block numbers to the calls, all queries for quotes", "why_tests_cant": "Tests run at one or two clock readings; the claim is about every assignment of times to every history.", "anchors": ["src/invariant_service.rs", "src/contracts/storage/pool.rs", "src/contracts/storage/tick.rs:cross", "src/contracts/storage/position.rs:modify"]}
{"id": "C78", "title": "All tokens are treated alike", "statement": "Nothing depends on which tokens are traded, beyond the order of their addresses (which decides which token of a pool is x and which is y) and the fixed address of the native coin. If the tokens of any history get other addresses in the same order, every call gets the same answer, and the resulting pools, ticks, tickmaps, positions and balances are the same under the new addresses; so are the answers to all queries: balances, positions, pools, quotes, tick listings. Exchange two tokens, and the pool's key is another one.", "quantifier": "all order-preserving changes of addresses that fix the native coin, all states, all histories of calls and token movements, all queries", "why_tests_cant": "A special case for one token address among 2^256 cannot be found by trying some; it has to be excluded for every address, call and state.", "anchors": ["src/invariant_service.rs", "src/contracts/storage/pool_key.rs:new", "src/contracts/collections/tickmap.rs", "src/contracts/collections/ticks.rs", "src/contracts/collections/pools.rs", "src/invariant_storage.rs:increase_token_balance", "src/invariant_storage.rs:decrease_token_balance"]}
{"id": "C79", "title": "Whoever offers more is paid no less, whoever wants more pays no less", "statement": "Compare two orders that could be placed in the same state of a pool, in the same direction, with the same limit, one for more than the other, and both successful. If both fix the amount of token y to be received, the larger order costs at least as much x, at least as much of it as fee, and moves the price at least as far. If both fix the amount of token y to be paid, the larger order moves the price at least as far and is paid at least as much x, up to one part in 10^14 and one unit. That margin is needed: at low prices one more unit of y offered can yield less x. For orders that fix an amount of token x the rule can fail at low prices: one more unit of x offered can yield less y, and one more unit of x wanted can cost less y.", "quantifier": "all reachable states, all pools, all pairs of amounts, all price limits, quotes and swaps, across any number of ticks", "why_tests_cant": "The claim compares every pair of amounts in every state; it depends on every rounding in the price steps and on two runs of the swap loop staying together over any number of ticks.", "anchors": ["src/invariant_service.rs:swap", "src/invariant_service.rs:quote", "src/invariant_storage.rs:calculate_swap", "src/contracts/storage/pool.rs:update_tick", "calc/math/clamm.rs:compute_swap_step"]}
{"id": "C80", "title": "How fees are divided concerns only those who are paid fees", "statement": "Let two exchanges have the same pools, prices, ticks, liquidity, positions, balances and administrator, but possibly other protocol fees, other protocol earnings and other fees credited to liquidity. If the same calls and token movements happen in both, none of them paying fees out (claiming fees, closing a position, withdrawing the protocol fee), and the administrator changes the protocol fee on the way, perhaps to different values, then every call gets the same answer (amounts paid and received, fee, prices, reason of failure) and afterwards all users have the same balances and positions and all pools the same price, tick and liquidity. Quotes are the same too. The exception are panics: a protocol fee above the whole makes swaps panic that succeed otherwise.", "quantifier": "all pairs of states with the same market, all protocol fees, all lists of calls and token movements that pay no fees out and in which no call panics", "why_tests_cant": "The claim compares two histories of any length for every pair of protocol fees and every earlier division of fees.", "anchors": ["src/invariant_service.rs:swap", "src/invariant_service.rs:swap_route", "src/invariant_service.rs:quote", "src/invariant_service.rs:change_protocol_fee", "src/invariant_storage.rs:calculate_swap", "src/contracts/storage/pool.rs:add_fee", "src/contracts/storage/pool.rs:update_tick", "src/contracts/storage/tick.rs:cross", "src/invariant_service.rs:create_position", "src/contracts/storage/position.rs:create"]}
{"id": "C81", "title": "A fee tier taken off the list leaves the pools that use it alone", "statement": "Which fee tiers are on offer matters only when a pool is opened and when the list itself is changed. Two exchanges that differ in nothing but the list give the same answers to the same calls and keep differing in nothing else, if no call changes the list or opens a pool with a fee tier that only one of them offers. In particular, after the administrator removes a fee tier, swaps, routes, opening, transferring and closing positions, claiming and withdrawing fees in the pools with that fee tier go on as if it had stayed, and the queries about pools, positions, ticks, balances and quotes answer the same. One query is an exception: the listing of all pools of a pair leaves out the pools whose fee tier was removed, although they hold liquidity and trade.", "quantifier": "all states, all lists of fee tiers, all lists of calls and token movements", "why_tests_cant": "The claim compares two histories of any length from any state, for every list of fee tiers.", "anchors": ["src/invariant_service.rs:remove_fee_tier", "src/invariant_service.rs:create_pool", "src/invariant_service.rs:get_all_pools_for_pair", "src/invariant_service.rs:swap", "src/invariant_service.rs:remove_position", "src/contracts/collections/fee_tiers.rs:remove"]}
{"id": "C82", "title": "The widest range of a tick spacing", "statement": "For every tick spacing other than zero the highest tick offered is the largest multiple of the spacing up to 221818, the lowest is its opposite, and the highest and lowest prices offered are the prices of these ticks; every tick usable with the spacing has a price between them, and a spacing of zero traps. No pool ever leaves this range: in every reachable state its price and tick are inside, and its tick is the highest only at the highest price. Hence a position over the whole range is in use at every price but the highest: the pool trades with at least its liquidity. At the highest price it is not: a pool opened there with a position over the whole range has no liquidity.", "quantifier": "all 16-bit tick spacings, all ticks, all histories, all pools and positions", "why_tests_cant": "There are 65536 spacings and unboundedly many histories; the project's tests compare five spacings with constants.", "anchors": ["calc/math/types/sqrt_price.rs:get_max_tick", "calc/math/types/sqrt_price.rs:get_min_tick", "calc/math/types/sqrt_price.rs:get_max_sqrt_price", "calc/math/types/sqrt_price.rs:get_min_sqrt_price", "sdk/src/wasm/types/sqrt_price.rs:get_max_tick", "src/invariant_service.rs:create_position", "src/invariant_service.rs:swap"]}
