(** /repo/calc/math/types/fee_growth.rs *)
From Verif Require Import Base Decimal.
From Coq Require Import ZArith Bool.
Open Scope Z_scope.

(** u128::MAX = [FeeGrowth::max_instance().get()] *)
Definition FG_MAX : Z := M128 - 1.

(** fee_growth.rs:11-17 *)
Definition unchecked_add (self other : Z) : Z :=
  if FG_MAX - self <? other then other - (FG_MAX - self) - 1 else self + other.

(** fee_growth.rs:19-25 *)
Definition unchecked_sub (self other : Z) : Z :=
  if self <? other then FG_MAX - (other - self) + 1 else self - other.

(** fee_growth.rs:27-40 *)
Definition from_fee (liquidity fee : Z) : res Z :=
  let* a := ok_or (checked_mul M384 fee FEE_GROWTH_ONE) ETrack in
  let* b := ok_or (checked_mul M384 a LIQUIDITY_ONE) ETrack in
  let* c := ok_or (checked_div b liquidity) ETrack in
  ok_or (checked_cast M128 c) ETrack.

(** fee_growth.rs:42-55 *)
Definition to_fee (self liquidity : Z) : res Z :=
  let* a := ok_or (checked_mul M384 self liquidity) ETrack in
  let* b := ok_or (checked_div a LIQUIDITY_ONE) ETrack in
  let* c := ok_or (checked_div b FEE_GROWTH_ONE) ETrack in
  ok_or (checked_cast M256 c) ETrack.

(** fee_growth.rs:59-107, one token (the code computes the x and y components
    by the same expressions; the pair is assembled by the callers below). *)
Definition fee_growth_inside_one
    (tick_lower lower_outside tick_upper upper_outside tick_current global : Z) : Z :=
  let current_above_lower := tick_lower <=? tick_current in
  let current_below_upper := tick_current <? tick_upper in
  let below := if current_above_lower then lower_outside else unchecked_sub global lower_outside in
  let above := if current_below_upper then upper_outside else unchecked_sub global upper_outside in
  unchecked_sub (unchecked_sub global below) above.

Definition calculate_fee_growth_inside
    (tick_lower lower_x lower_y tick_upper upper_x upper_y tick_current global_x global_y : Z)
    : Z * Z :=
  (fee_growth_inside_one tick_lower lower_x tick_upper upper_x tick_current global_x,
   fee_growth_inside_one tick_lower lower_y tick_upper upper_y tick_current global_y).
