(** Helpers of the SDK around positions, prices and keys:
    /repo/sdk/src/utils.ts, /repo/sdk/src/invariant.ts,
    /repo/sdk/src/wasm/custom.rs and /repo/sdk/src/wasm/storage/pool_key.rs.

    JavaScript's [bigint] is [Z]; its division truncates towards zero ([Z.quot]).
    A thrown exception is [Err]. *)
From Verif Require Import Base Decimal SqrtPriceM LogM ClammM FeeGrowthM Types CollectionsM StateM ServiceM.
From Coq Require Import ZArith List Bool.
Import ListNotations.
Open Scope Z_scope.

(** ** Square root and slippage *)

(** utils.ts:419-425.  The recursion has no bound of its own; [fuel] is the number of
    calls that may follow, and [Loop] says that they did not suffice. *)
Fixpoint newton_iteration (fuel : nat) (n x0 : Z) : res Z :=
  let x1 := Z.shiftr (Z.quot n x0 + x0) 1 in
  if (x0 =? x1) || (x0 =? x1 - 1) then Ok x0
  else match fuel with
       | O => Loop
       | S fuel' => newton_iteration fuel' n x1
       end.

(** utils.ts:407-417; the budget of log2(value)+1 further calls is shown to suffice (C46). *)
Definition sdk_sqrt (value : Z) : res Z :=
  if value <? 0 then Err ETrack
  else if value <? 2 then Ok value
  else newton_iteration (S (Z.to_nat (Z.log2 value))) value 1.

(** utils.ts:441-443 and 445-447 *)
Definition sqrt_price_to_price (sqrt_price : Z) : Z := Z.quot (sqrt_price * sqrt_price) SQRT_PRICE_ONE.
Definition price_to_sqrt_price (price : Z) : res Z := sdk_sqrt (price * SQRT_PRICE_ONE).

(** utils.ts:463-479 *)
Definition sqrt_price_after_slippage (sqrt_price slippage : Z) (up : bool) : res Z :=
  if slippage =? 0 then Ok sqrt_price
  else
    let multiplier := PERCENTAGE_ONE + (if up then slippage else - slippage) in
    let price := sqrt_price_to_price sqrt_price in
    let price_with_slippage := price * multiplier * PERCENTAGE_ONE in
    let* r := price_to_sqrt_price price_with_slippage in
    Ok (Z.quot r PERCENTAGE_ONE).

(** utils.ts:427-439; [bigint] division by zero throws. *)
Definition price_impact (starting ending : Z) : res Z :=
  let starting_price := starting * starting in
  let ending_price := ending * ending in
  let diff := starting_price - ending_price in
  let nominator := if 0 <? diff then diff else - diff in
  let denominator := if ending_price <? starting_price then starting_price else ending_price in
  if denominator =? 0 then Err ETrack else Ok (Z.quot (nominator * PERCENTAGE_ONE) denominator).

(** invariant.ts:529-560: the call that [createPosition] sends.  The limits are encoded
    as u128; a negative or larger number cannot be encoded and throws. *)
Definition encode_u128 (v : Z) : res Z := if (0 <=? v) && (v <? M128) then Ok v else Err ETrack.
Definition sdk_create_position (e : env) (s : state) (k : pool_key) (lower_tick upper_tick liquidity_delta
    spot_sqrt_price slippage_tolerance : Z) : res (state * position) :=
  let* lower := sqrt_price_after_slippage spot_sqrt_price slippage_tolerance false in
  let* upper := sqrt_price_after_slippage spot_sqrt_price slippage_tolerance true in
  let* lower := encode_u128 lower in
  let* upper := encode_u128 upper in
  create_position e s k lower_tick upper_tick liquidity_delta lower upper.

(** invariant.ts:737-762: the call that [swapWithSlippage] sends. *)
Definition sdk_swap_limit (x_to_y : bool) (estimated_sqrt_price slippage : Z) : res Z :=
  let* after := sqrt_price_after_slippage estimated_sqrt_price slippage (negb x_to_y) in
  encode_u128 (if x_to_y then after - 1 else after + 1).
Definition sdk_swap_with_slippage (e : env) (s : state) (k : pool_key) (x_to_y : bool) (amount : Z)
    (by_amount_in : bool) (estimated_sqrt_price slippage : Z) : res (state * calculate_swap_result) :=
  let* limit := sdk_swap_limit x_to_y estimated_sqrt_price slippage in
  swap e s k x_to_y amount by_amount_in limit.

(** ** Amounts of a position *)

(** utils.ts:542-563; wasm/clamm.rs [calculate_amount_delta] has the text of the contract's *)
Definition sdk_calculate_token_amounts (p : pool) (pos : position) : res (Z * Z) :=
  let* (x, y, _) := calculate_amount_delta (p_current_tick_index p) (p_sqrt_price p) (pos_liquidity pos)
                      false (pos_upper pos) (pos_lower pos) in
  Ok (x, y).

(** utils.ts:574-594, wasm/custom.rs:46-81; wasm/types/fee_growth.rs has the text of the contract's *)
Definition sdk_calculate_fee (p : pool) (pos : position) (lower upper : tick) : res (Z * Z) :=
  let (inside_x, inside_y) := calculate_fee_growth_inside
      (t_index lower) (t_fee_growth_outside_x lower) (t_fee_growth_outside_y lower)
      (t_index upper) (t_fee_growth_outside_x upper) (t_fee_growth_outside_y upper)
      (p_current_tick_index p) (p_fee_growth_global_x p) (p_fee_growth_global_y p) in
  let* x := to_fee (unchecked_sub inside_x (pos_fee_growth_inside_x pos)) (pos_liquidity pos) in
  let* y := to_fee (unchecked_sub inside_y (pos_fee_growth_inside_y pos)) (pos_liquidity pos) in
  Ok (x, y).

(** utils.ts:804-851 *)
Definition token_amounts_with_slippage (tick_spacing current_sqrt_price liquidity lower_tick upper_tick slippage : Z)
    (rounding_up : bool) : res (Z * Z) :=
  let* lower_bound := sqrt_price_after_slippage current_sqrt_price slippage false in
  let* upper_bound := sqrt_price_after_slippage current_sqrt_price slippage true in
  let* current_tick := get_tick_at_sqrt_price current_sqrt_price tick_spacing in
  let* lower_bound := encode_u128 lower_bound in
  let* (lower_x, lower_y, _) := calculate_amount_delta current_tick lower_bound liquidity rounding_up upper_tick lower_tick in
  let* upper_bound := encode_u128 upper_bound in
  let* (upper_x, upper_y, _) := calculate_amount_delta current_tick upper_bound liquidity rounding_up upper_tick lower_tick in
  Ok (if upper_x <? lower_x then lower_x else upper_x, if upper_y <? lower_y then lower_y else upper_y).

(** ** Liquidity over the ticks *)

(** utils.ts:449-461: index and liquidity of each breakpoint, in the order of the ticks *)
Fixpoint liquidity_breakpoints_from (current : Z) (ticks : list liquidity_tick) : list (Z * Z) :=
  match ticks with
  | [] => []
  | t :: ticks' =>
      let current' := current + lt_liquidity_change t * (if lt_sign t then 1 else -1) in
      (lt_index t, current') :: liquidity_breakpoints_from current' ticks'
  end.
Definition liquidity_breakpoints (ticks : list liquidity_tick) : list (Z * Z) := liquidity_breakpoints_from 0 ticks.

(** ** Token order *)

(** Rust's order on [String]: lexicographic on the bytes. *)
Fixpoint str_ltb (a b : list Z) : bool :=
  match a, b with
  | _, [] => false
  | [], _ :: _ => true
  | x :: a', y :: b' => if x <? y then true else if y <? x then false else str_ltb a' b'
  end.
Fixpoint str_eqb (a b : list Z) : bool :=
  match a, b with
  | [], [] => true
  | x :: a', y :: b' => (x =? y) && str_eqb a' b'
  | _, _ => false
  end.

(** wasm/custom.rs:83-86 *)
Definition is_token_x (candidate compare : list Z) : bool := str_ltb candidate compare.

(** wasm/storage/pool_key.rs:21-45: the token strings in the order of the key *)
Definition sdk_new_pool_key (token_0 token_1 : list Z) : res (list Z * list Z) :=
  if str_eqb token_0 token_1 then Err TokensAreSame
  else Ok (if is_token_x token_0 token_1 then (token_0, token_1) else (token_1, token_0)).

(** wasm/custom.rs:88-111; [tick_index + tick_spacing] is an i32 sum *)
Definition is_valid_tick (tick_index tick_spacing sqrt_price : Z) : res bool :=
  if MAX_TICK <? tick_index + tick_spacing then
    let* max_tick := get_max_tick tick_spacing in
    let* max_sqrt_price := calculate_sqrt_price max_tick in
    Ok (sqrt_price =? max_sqrt_price)
  else
    let* lower_bound := calculate_sqrt_price tick_index in
    let* upper_bound := calculate_sqrt_price (tick_index + tick_spacing) in
    Ok (negb ((upper_bound <=? sqrt_price) || (sqrt_price <? lower_bound))).

(** invariant.ts:398-420: the limit is the price of the lowest or highest tick of the
    spacing (wasm/types/sqrt_price.rs:223-233, the text of the contract's). *)
Definition sdk_quote (e : env) (s : state) (k : pool_key) (x_to_y : bool) (amount : Z) (by_amount_in : bool)
    : res quote_result :=
  let* limit := if x_to_y then get_min_sqrt_price (pk_spacing k) else get_max_sqrt_price (pk_spacing k) in
  quote e s k x_to_y amount by_amount_in limit.
