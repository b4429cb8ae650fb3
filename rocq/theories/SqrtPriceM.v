(** /repo/calc/math/types/sqrt_price.rs and /repo/calc/math/consts.rs *)
From Verif Require Import Base Decimal.
From Coq Require Import ZArith Bool List.
Import ListNotations.
Open Scope Z_scope.

(** /repo/calc/math/consts.rs:1-7 *)
Definition MAX_TICK : Z := 221818.
Definition MIN_TICK : Z := -221818.
Definition MAX_SQRT_PRICE : Z := 65535383934512647000000000000.
Definition MIN_SQRT_PRICE : Z := 15258932000000000000.
Definition TICK_SEARCH_RANGE : Z := 256.

(** sqrt_price.rs:16-40 *)
Definition big_div_values_to_token (nominator denominator : Z) : res Z :=
  let* m := ok_or (checked_mul M448 nominator SQRT_PRICE_ONE) ETrack in
  let* intermediate := ok_or (checked_div m denominator) ETrack in
  let* casted := ok_or (checked_cast M384 intermediate) ETrack in
  let* result := ok_or (checked_div casted SQRT_PRICE_ONE) ETrack in
  ok_or (checked_cast M256 result) ETrack.

(** sqrt_price.rs:42-70; [denominator - 1] (line 52) panics when the
    denominator is zero (construct_uint subtraction). *)
Definition big_div_values_to_token_up (nominator denominator : Z) : res Z :=
  let* m := ok_or (checked_mul M448 nominator SQRT_PRICE_ONE) ETrack in
  let* d1 := expect (checked_sub denominator 1) in
  let* s := ok_or (checked_add M448 m d1) ETrack in
  let* intermediate := ok_or (checked_div s denominator) ETrack in
  let* casted := ok_or (checked_cast M384 intermediate) ETrack in
  let* s2 := ok_or (checked_add M384 casted SQRT_PRICE_ALMOST_ONE) ETrack in
  let* result := ok_or (checked_div s2 SQRT_PRICE_ONE) ETrack in
  ok_or (checked_cast M256 result) ETrack.

(** sqrt_price.rs:85-98 *)
Definition checked_big_div_values (nominator denominator : Z) : res Z :=
  let* m := ok_or (checked_mul M448 nominator SQRT_PRICE_ONE) ETrack in
  let* r := ok_or (checked_div m denominator) ETrack in
  ok_or (checked_cast M128 r) ETrack.

(** sqrt_price.rs:100-120 *)
Definition checked_big_div_values_up (nominator denominator : Z) : res Z :=
  let* m := ok_or (checked_mul M448 nominator SQRT_PRICE_ONE) ETrack in
  let* d1 := ok_or (checked_sub denominator 1) ETrack in
  let* s := ok_or (checked_add M448 m d1) ETrack in
  let* r := ok_or (checked_div s denominator) ETrack in
  ok_or (checked_cast M128 r) ETrack.

(** sqrt_price.rs:156-209: the factor table, bit 0 first. *)
Definition price_factors : list Z :=
  [1000049998750; 1000100000000; 1000200010000; 1000400060004; 1000800280056;
   1001601200560; 1003204964963; 1006420201726; 1012881622442; 1025929181080;
   1052530684591; 1107820842005; 1227267017980; 1506184333421; 2268591246242;
   5146506242525; 26486526504348; 701536086265529].

(** sqrt_price.rs:154-209: the eighteen conditional multiplications.
    [tick & 2^k != 0] is written as the parity of [tick / 2^k]. *)
Fixpoint mul_factors (fs : list Z) (tick acc : Z) : res Z :=
  match fs with
  | [] => Ok acc
  | f :: fs' =>
      let* acc' := if Z.odd tick then dec_mul M128 FIXED_POINT_ONE acc f else Ok acc in
      mul_factors fs' (Z.div2 tick) acc'
  end.

(** sqrt_price.rs:146-222 ([calculate_sqrt_price] = [SqrtPrice::from_tick], 12-14).
    FixedPoint (scale 12) to SqrtPrice (scale 24) multiplies by 10^12
    (factories.rs:75-87).  [i32_abs] is the release-mode [abs]. *)
Definition calculate_sqrt_price (tick_index : Z) : res Z :=
  let tick := i32_abs tick_index in
  if MAX_TICK <? tick then Err ETrack
  else
    let* p := mul_factors price_factors tick FIXED_POINT_ONE in
    if 0 <=? tick_index then ok_or (checked_mul M128 p 1000000000000) ETrack
    else
      let* q := dec_checked_div M128 FIXED_POINT_ONE FIXED_POINT_ONE p in
      ok_or (checked_mul M128 q 1000000000000) ETrack.

(** sqrt_price.rs:224-232; a zero spacing panics (division by zero). *)
Definition get_max_tick (tick_spacing : Z) : res Z :=
  let* q := i32_div MAX_TICK tick_spacing in Ok (q * tick_spacing).
Definition get_min_tick (tick_spacing : Z) : res Z :=
  let* q := i32_div MIN_TICK tick_spacing in Ok (q * tick_spacing).

(** sqrt_price.rs:234-243 *)
Definition get_max_sqrt_price (tick_spacing : Z) : res Z :=
  let* t := get_max_tick tick_spacing in unwrap (calculate_sqrt_price t).
Definition get_min_sqrt_price (tick_spacing : Z) : res Z :=
  let* t := get_min_tick tick_spacing in unwrap (calculate_sqrt_price t).

(** sqrt_price.rs:123-144; [checked_add(..).unwrap()] on i32. *)
Definition check_tick_to_sqrt_price_relationship
    (tick_index tick_spacing sqrt_price : Z) : res bool :=
  let* next := expect (checked_add (i32_max + 1) tick_index tick_spacing) in
  if MAX_TICK <? next then
    let* max_tick := get_max_tick tick_spacing in
    let* max_sqrt_price := calculate_sqrt_price max_tick in
    Ok (sqrt_price =? max_sqrt_price)
  else
    let* lower_bound := calculate_sqrt_price tick_index in
    let* upper_bound := calculate_sqrt_price next in
    Ok (negb ((upper_bound <=? sqrt_price) || (sqrt_price <? lower_bound))).
