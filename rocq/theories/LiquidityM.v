(** Liquidity for an amount of one token: /repo/sdk/src/wasm/math.rs (exported to
    wallets as getLiquidityByX / getLiquidityByY, /repo/sdk/src/utils.ts:596-630)
    and /repo/src/contracts/logic/liquidity_result.rs, which has the same functions
    and [get_liquidity].  A [SingleTokenLiquidity] is modelled as the pair of its
    fields (l, amount). *)
From Verif Require Import Base Decimal SqrtPriceM ClammM.
From Coq Require Import ZArith Bool.
Open Scope Z_scope.

(** /repo/calc/decimal/decimal_core/src/big_ops.rs:53-64 *)
Definition big_div (mU mB one a b : Z) : res Z :=
  let* p := expect (checked_mul mB a one) in
  let* q := expect (checked_div p b) in
  expect (checked_cast mU q).

(** math.rs:180-196, liquidity_result.rs:245-261; [+], [-] and [/] on U256 panic. *)
Definition calculate_x (nominator denominator liquidity : Z) (rounding_up : bool) : res Z :=
  let* m := big_mul M256 M512 SQRT_PRICE_ONE liquidity nominator in
  let* common := big_div M256 M512 SQRT_PRICE_ONE m denominator in
  if rounding_up then
    let* s := expect (checked_add M256 common LIQUIDITY_ONE) in
    let* s := expect (checked_sub s 1) in
    expect (checked_div s LIQUIDITY_ONE)
  else expect (checked_div common LIQUIDITY_ONE).

(** math.rs:198-218, liquidity_result.rs:263-283 *)
Definition calculate_y (sqrt_price_diff liquidity : Z) (rounding_up : bool) : res Z :=
  let* shifted := expect (checked_div liquidity LIQUIDITY_ONE) in
  let* m := expect (checked_mul M256 sqrt_price_diff shifted) in
  if rounding_up then
    let* s := expect (checked_add M256 m SQRT_PRICE_ONE) in
    let* s := expect (checked_sub s 1) in
    expect (checked_div s SQRT_PRICE_ONE)
  else expect (checked_div m SQRT_PRICE_ONE).

(** math.rs:65-66 and 88-90: [a.big_mul(b).big_div(SqrtPrice::from_integer(1))] *)
Definition price_product (a b : Z) : res Z :=
  let* m := big_mul M128 M384 SQRT_PRICE_ONE a b in
  big_div M128 M384 SQRT_PRICE_ONE m SQRT_PRICE_ONE.

(** math.rs:68-75 and 92-98: operators on U512 panic, the cast to U256 is an error. *)
Definition liquidity_quotient (amount factor divisor : Z) : res Z :=
  let* m := expect (checked_mul M512 amount factor) in
  let* m := expect (checked_mul M512 m LIQUIDITY_ONE) in
  let* q := expect (checked_div m divisor) in
  ok_or (checked_cast M256 q) ETrack.

(** math.rs:54-102, liquidity_result.rs:120-164 *)
Definition get_liquidity_by_x_sqrt_price (x lower upper current : Z) (rounding_up : bool)
    : res (Z * Z) :=
  if upper <? current then Err ETrack
  else if current <? lower then
    let* nominator := price_product lower upper in
    let* denominator := dec_sub upper lower in
    let* l := liquidity_quotient x nominator denominator in
    Ok (l, 0)
  else
    let* nominator := price_product current upper in
    let* denominator := dec_sub upper current in
    let* l := liquidity_quotient x nominator denominator in
    let* diff := dec_sub current lower in
    let* y := calculate_y diff l rounding_up in
    Ok (l, y).

(** math.rs:129-178, liquidity_result.rs:194-243 *)
Definition get_liquidity_by_y_sqrt_price (y lower upper current : Z) (rounding_up : bool)
    : res (Z * Z) :=
  if current <? lower then Err ETrack
  else if upper <=? current then
    let* diff := dec_sub upper lower in
    let* l := liquidity_quotient y SQRT_PRICE_ONE diff in
    Ok (l, 0)
  else
    let* diff := dec_sub current lower in
    let* l := liquidity_quotient y SQRT_PRICE_ONE diff in
    let* denominator := price_product current upper in
    let* nominator := dec_sub upper current in
    let* x := calculate_x nominator denominator l rounding_up in
    Ok (l, x).

(** math.rs:30-52, liquidity_result.rs:96-118 *)
Definition get_liquidity_by_x (x lower_tick upper_tick current : Z) (rounding_up : bool)
    : res (Z * Z) :=
  let* _ := fail_if ((lower_tick <? - MAX_TICK) || (MAX_TICK <? upper_tick)) ETrack in
  let* lower := calculate_sqrt_price lower_tick in
  let* upper := calculate_sqrt_price upper_tick in
  get_liquidity_by_x_sqrt_price x lower upper current rounding_up.

(** math.rs:104-127, liquidity_result.rs:170-192 *)
Definition get_liquidity_by_y (y lower_tick upper_tick current : Z) (rounding_up : bool)
    : res (Z * Z) :=
  let* _ := fail_if ((lower_tick <? - MAX_TICK) || (MAX_TICK <? upper_tick)) ETrack in
  let* lower := calculate_sqrt_price lower_tick in
  let* upper := calculate_sqrt_price upper_tick in
  get_liquidity_by_y_sqrt_price y lower upper current rounding_up.

(** liquidity_result.rs:22-93; the result is (x, y, l). *)
Definition get_liquidity (x y lower_tick upper_tick current : Z) (rounding_up : bool)
    : res (Z * Z * Z) :=
  let* _ := fail_if ((lower_tick <? - MAX_TICK) || (MAX_TICK <? upper_tick)) ETrack in
  let* lower := calculate_sqrt_price lower_tick in
  let* upper := calculate_sqrt_price upper_tick in
  if upper <? current then
    let* (l, ax) := get_liquidity_by_y_sqrt_price y lower upper current rounding_up in
    Ok (ax, y, l)
  else if current <? lower then
    let* (l, ay) := get_liquidity_by_x_sqrt_price x lower upper current rounding_up in
    Ok (x, ay, l)
  else
    let* (ly, ax) := get_liquidity_by_y_sqrt_price y lower upper current rounding_up in
    let* (lx, ay) := get_liquidity_by_x_sqrt_price x lower upper current rounding_up in
    Ok (if ly <? lx then (ax, ay, ly) else (ax, ay, lx)).
