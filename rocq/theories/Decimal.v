(** Fixed-point types of the [decimal] crate.

    A decimal value is modelled by its raw integer.  Each type is given by the
    exclusive bound of its underlying type, the bound of its big type and the
    raw representation of one:

      type            underlying  big    one      declared in /repo/calc/math/types
      SqrtPrice       u128        U384   10^24    sqrt_price.rs:7-9
      FixedPoint      u128        U192   10^12    fixed_point.rs
      Liquidity       U256        U512   10^5     liquidity.rs
      Percentage      u128        U256   10^12    percentage.rs
      TokenAmount     U256        U512   1        token_amount.rs
      FeeGrowth       u128        U256   10^28    fee_growth.rs:6-8 *)
From Verif Require Import Base.
From Coq Require Import ZArith.
Open Scope Z_scope.

Definition SQRT_PRICE_ONE : Z := 1000000000000000000000000.
Definition SQRT_PRICE_ALMOST_ONE : Z := 999999999999999999999999.
Definition FIXED_POINT_ONE : Z := 1000000000000.
Definition LIQUIDITY_ONE : Z := 100000.
Definition LIQUIDITY_ALMOST_ONE : Z := 99999.
Definition PERCENTAGE_ONE : Z := 1000000000000.
Definition PERCENTAGE_ALMOST_ONE : Z := 999999999999.
Definition FEE_GROWTH_ONE : Z := 10000000000000000000000000000.

(** /repo/calc/decimal/decimal_core/src/ops.rs:20-60: [+] and [-] panic on
    overflow; [m] is the bound of the underlying type. *)
Definition dec_add (m a b : Z) : res Z := expect (checked_add m a b).
Definition dec_sub (a b : Z) : res Z := expect (checked_sub a b).

(** /repo/calc/decimal/decimal_core/src/ops.rs:62-85: [*] (and [*=]): product in the
    underlying type, divided by the rhs type's one; panics on overflow. *)
Definition dec_mul (m one a b : Z) : res Z :=
  let* p := expect (checked_mul m a b) in
  expect (checked_div p one).

(** /repo/calc/decimal/decimal_core/src/checked_ops.rs:19-42 *)
Definition dec_checked_add (m a b : Z) : res Z := ok_or (checked_add m a b) ETrack.
Definition dec_checked_sub (a b : Z) : res Z := ok_or (checked_sub a b) ETrack.
Definition dec_checked_div (m one a b : Z) : res Z :=
  let* p := ok_or (checked_mul m a one) ETrack in
  ok_or (checked_div p b) ETrack.

(** /repo/calc/decimal/decimal_core/src/big_ops.rs:24-35 ([big_mul]) and 37-51
    ([big_mul_up]); [mU] bounds the underlying type of the receiver, [mB] its
    big type, [one] is the one of the right operand's type. *)
Definition big_mul (mU mB one a b : Z) : res Z :=
  let* p := expect (checked_mul mB a b) in
  let* q := expect (checked_div p one) in
  expect (checked_cast mU q).

Definition big_mul_up (mU mB one a b : Z) : res Z :=
  let* p := expect (checked_mul mB a b) in
  let* s := expect (checked_add mB p (one - 1)) in
  let* q := expect (checked_div s one) in
  expect (checked_cast mU q).

(** /repo/calc/decimal/decimal_core/src/by_number.rs:82-92 and 94-108 *)
Definition big_mul_to_value (mB one a b : Z) : res Z :=
  let* p := expect (checked_mul mB a b) in
  expect (checked_div p one).

Definition big_mul_to_value_up (mB one a b : Z) : res Z :=
  let* p := expect (checked_mul mB a b) in
  let* s := expect (checked_add mB p (one - 1)) in
  expect (checked_div s one).

(** Instances used by the code. *)
Definition token_big_mul_percentage (a p : Z) : res Z := big_mul M256 M512 PERCENTAGE_ONE a p.
Definition token_big_mul_up_percentage (a p : Z) : res Z := big_mul_up M256 M512 PERCENTAGE_ONE a p.
Definition sqrt_price_mul_liquidity (p l : Z) : res Z := big_mul_to_value M384 LIQUIDITY_ONE p l.
Definition sqrt_price_mul_liquidity_up (p l : Z) : res Z := big_mul_to_value_up M384 LIQUIDITY_ONE p l.
Definition sqrt_price_mul_sqrt_price (p q : Z) : res Z := big_mul_to_value M384 SQRT_PRICE_ONE p q.
Definition sqrt_price_mul_sqrt_price_up (p q : Z) : res Z := big_mul_to_value_up M384 SQRT_PRICE_ONE p q.
Definition sqrt_price_mul_token (p x : Z) : res Z := big_mul_to_value M384 1 p x.
