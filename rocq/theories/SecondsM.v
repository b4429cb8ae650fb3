(** /repo/calc/math/types/seconds_per_liquidity.rs, and the same functions in
    /repo/sdk/src/wasm/types/seconds_per_liquidity.rs:19-92.  No entry point of the
    contract calls them. *)
From Verif Require Import Base Decimal.
From Coq Require Import ZArith Bool.
Open Scope Z_scope.

(** [SecondsPerLiquidity::max_instance().get()] and [SecondsPerLiquidity::one()] (lines 6-8) *)
Definition SPL_MAX : Z := M128 - 1.
Definition SPL_ONE : Z := 10000000000000000000000000.

(** seconds_per_liquidity.rs:11-19 *)
Definition spl_unchecked_add (self other : Z) : Z :=
  if SPL_MAX - self <? other then (other - (SPL_MAX - self)) - 1 else self + other.

(** seconds_per_liquidity.rs:21-29 *)
Definition spl_unchecked_sub (self other : Z) : Z :=
  if self <? other then SPL_MAX - (other - self) + 1 else self - other.

(** seconds_per_liquidity.rs:30-54: the products are computed in u128, the quotient in U256. *)
Definition spl_global (liquidity current_timestamp last_timestamp : Z) : res Z :=
  if current_timestamp <=? last_timestamp then Err ETrack else
  let delta_time := current_timestamp - last_timestamp in
  let* a := ok_or (checked_mul M128 delta_time SPL_ONE) ETrack in
  let* b := ok_or (checked_mul M128 a LIQUIDITY_ONE) ETrack in
  let* c := ok_or (checked_div b liquidity) ETrack in
  ok_or (checked_cast M128 c) ETrack.

(** seconds_per_liquidity.rs:57-83 *)
Definition spl_inside (tick_lower tick_upper tick_current lower_outside upper_outside global : Z) : Z :=
  let current_above_lower := tick_lower <=? tick_current in
  let current_below_upper := tick_current <? tick_upper in
  let below := if current_above_lower then lower_outside else spl_unchecked_sub global lower_outside in
  let above := if current_below_upper then upper_outside else spl_unchecked_sub global upper_outside in
  spl_unchecked_sub (spl_unchecked_sub global below) above.
