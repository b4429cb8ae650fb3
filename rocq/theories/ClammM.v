(** /repo/calc/math/clamm.rs *)
From Verif Require Import Base Decimal SqrtPriceM.
From Coq Require Import ZArith Bool.
Open Scope Z_scope.

(** clamm.rs:7-13 *)
Record swap_result : Type := mkSwapResult {
  sr_next_sqrt_price : Z;
  sr_amount_in : Z;
  sr_amount_out : Z;
  sr_fee_amount : Z;
}.

(** clamm.rs:134-157 *)
Definition get_delta_x (a b liquidity : Z) (rounding_up : bool) : res Z :=
  let delta_price := if b <? a then a - b else b - a in
  let* nominator := sqrt_price_mul_liquidity delta_price liquidity in
  if rounding_up then
    let* denominator := sqrt_price_mul_sqrt_price a b in
    big_div_values_to_token_up nominator denominator
  else
    let* denominator := sqrt_price_mul_sqrt_price_up a b in
    big_div_values_to_token nominator denominator.

(** clamm.rs:159-188 *)
Definition get_delta_y (a b liquidity : Z) (rounding_up : bool) : res Z :=
  let delta := if b <? a then a - b else b - a in
  let* delta_y :=
    if rounding_up then
      let* v := sqrt_price_mul_liquidity_up delta liquidity in
      let* s := ok_or (checked_add M384 v SQRT_PRICE_ALMOST_ONE) ETrack in
      ok_or (checked_div s SQRT_PRICE_ONE) ETrack
    else
      let* v := sqrt_price_mul_liquidity delta liquidity in
      ok_or (checked_div v SQRT_PRICE_ONE) ETrack in
  ok_or (checked_cast M256 delta_y) ETrack.

(** factories.rs:127-137 at SqrtPrice: Liquidity (scale 5) is multiplied by
    10^19, TokenAmount (scale 0) by 10^24, in U384; [.unwrap()] panics. *)
Definition liquidity_to_sqrt_price_value (l : Z) : res Z :=
  expect (checked_mul M384 l 10000000000000000000).
Definition token_to_sqrt_price_value (y : Z) : res Z :=
  expect (checked_mul M384 y 1000000000000000000000000).

(** clamm.rs:222-244 *)
Definition get_next_sqrt_price_x_up (starting liquidity x : Z) (add_x : bool) : res Z :=
  if x =? 0 then Ok starting
  else
    let* price_delta := liquidity_to_sqrt_price_value liquidity in
    let* px := sqrt_price_mul_token starting x in
    let* denominator :=
      ok_or (if add_x then checked_add M384 price_delta px else checked_sub price_delta px) ETrack in
    let* nominator := sqrt_price_mul_liquidity_up starting liquidity in
    checked_big_div_values_up nominator denominator.

(** clamm.rs:246-271 *)
Definition get_next_sqrt_price_y_down (starting liquidity y : Z) (add_y : bool) : res Z :=
  let* numerator := token_to_sqrt_price_value y in
  let* denominator := liquidity_to_sqrt_price_value liquidity in
  if add_y then
    let* quotient := checked_big_div_values numerator denominator in
    dec_checked_add M128 starting quotient
  else
    let* quotient := checked_big_div_values_up numerator denominator in
    dec_checked_sub starting quotient.

(** clamm.rs:190-204 *)
Definition get_next_sqrt_price_from_input (starting liquidity amount : Z) (x_to_y : bool) : res Z :=
  if x_to_y then get_next_sqrt_price_x_up starting liquidity amount true
  else get_next_sqrt_price_y_down starting liquidity amount true.

(** clamm.rs:206-220 *)
Definition get_next_sqrt_price_from_output (starting liquidity amount : Z) (x_to_y : bool) : res Z :=
  if x_to_y then get_next_sqrt_price_y_down starting liquidity amount false
  else get_next_sqrt_price_x_up starting liquidity amount false.

(** clamm.rs:15-132 *)
Definition compute_swap_step (current target liquidity amount : Z) (by_amount_in : bool) (fee : Z)
    : res swap_result :=
  if liquidity =? 0 then Ok (mkSwapResult target 0 0 0)
  else
    let x_to_y := target <=? current in
    (* lines 39-75 *)
    let* (next, amount_in0, amount_out0) :=
      if by_amount_in then
        let* rate := dec_sub PERCENTAGE_ONE fee in
        let* amount_after_fee := token_big_mul_percentage amount rate in
        let* amount_in :=
          if x_to_y then get_delta_x target current liquidity true
          else get_delta_y current target liquidity true in
        let* next :=
          if amount_in <=? amount_after_fee then Ok target
          else get_next_sqrt_price_from_input current liquidity amount_after_fee x_to_y in
        Ok (next, amount_in, 0)
      else
        let* amount_out :=
          if x_to_y then get_delta_y target current liquidity false
          else get_delta_x current target liquidity false in
        let* next :=
          if amount_out <=? amount then Ok target
          else get_next_sqrt_price_from_output current liquidity amount x_to_y in
        Ok (next, 0, amount_out) in
    (* line 77 *)
    let not_max := negb (target =? next) in
    (* lines 79-113 *)
    let* amount_in :=
      if not_max || negb by_amount_in then
        if x_to_y then get_delta_x next current liquidity true
        else get_delta_y current next liquidity true
      else Ok amount_in0 in
    let* amount_out :=
      if not_max || by_amount_in then
        if x_to_y then get_delta_y next current liquidity false
        else get_delta_x current next liquidity false
      else Ok amount_out0 in
    (* lines 115-118 *)
    let amount_out := if negb by_amount_in && (amount <? amount_out) then amount else amount_out in
    (* lines 120-124 *)
    let* fee_amount :=
      if by_amount_in && negb (next =? target) then dec_sub amount amount_in
      else token_big_mul_up_percentage amount_in fee in
    Ok (mkSwapResult next amount_in amount_out fee_amount).

(** clamm.rs:273-319 *)
Definition calculate_amount_delta
    (current_tick_index current_sqrt_price liquidity_delta : Z) (liquidity_sign : bool)
    (upper_tick lower_tick : Z) : res (Z * Z * bool) :=
  if upper_tick <? lower_tick then Err ETrack
  else if current_tick_index <? lower_tick then
    let* pl := calculate_sqrt_price lower_tick in
    let* pu := calculate_sqrt_price upper_tick in
    let* x := get_delta_x pl pu liquidity_delta liquidity_sign in
    Ok (x, 0, false)
  else if current_tick_index <? upper_tick then
    let* pu := calculate_sqrt_price upper_tick in
    let* x := get_delta_x current_sqrt_price pu liquidity_delta liquidity_sign in
    let* pl := calculate_sqrt_price lower_tick in
    let* y := get_delta_y pl current_sqrt_price liquidity_delta liquidity_sign in
    Ok (x, y, true)
  else
    let* pl := calculate_sqrt_price lower_tick in
    let* pu := calculate_sqrt_price upper_tick in
    let* y := get_delta_y pl pu liquidity_delta liquidity_sign in
    Ok (0, y, false).

(** clamm.rs:321-341 *)
Definition is_enough_amount_to_change_price
    (amount starting liquidity fee : Z) (by_amount_in x_to_y : bool) : res bool :=
  if liquidity =? 0 then Ok true
  else
    let* next :=
      if by_amount_in then
        let* rate := dec_sub PERCENTAGE_ONE fee in
        let* amount_after_fee := token_big_mul_percentage amount rate in
        get_next_sqrt_price_from_input starting liquidity amount_after_fee x_to_y
      else get_next_sqrt_price_from_output starting liquidity amount x_to_y in
    Ok (negb (starting =? next)).

(** clamm.rs:343-347; both divisions panic on zero. *)
Definition calculate_max_liquidity_per_tick (tick_spacing : Z) : res Z :=
  let* n := expect (checked_div (2 * MAX_TICK + 1) tick_spacing) in
  expect (checked_div (M256 - 1) n).

(** clamm.rs:359-370 *)
Definition check_tick (tick_index tick_spacing : Z) : res unit :=
  let* min_tick := get_min_tick tick_spacing in
  let* max_tick := get_max_tick tick_spacing in
  let* r := i32_rem tick_index tick_spacing in
  let* _ := fail_if (negb (r =? 0)) ETrack in
  fail_if ((max_tick <? tick_index) || (tick_index <? min_tick)) ETrack.

(** clamm.rs:349-357 *)
Definition check_ticks (tick_lower tick_upper tick_spacing : Z) : res unit :=
  let* _ := fail_if (tick_upper <? tick_lower) ETrack in
  let* _ := check_tick tick_lower tick_spacing in
  check_tick tick_upper tick_spacing.

(** clamm.rs:371-376 *)
Definition calculate_min_amount_out (expected_amount_out slippage : Z) : res Z :=
  let* rate := dec_sub PERCENTAGE_ONE slippage in
  token_big_mul_up_percentage expected_amount_out rate.
