(** /repo/calc/math/log.rs *)
From Verif Require Import Base Decimal SqrtPriceM.
From Coq Require Import ZArith Bool.
Open Scope Z_scope.

(** log.rs:7-17 *)
Definition LOG2_ONE : Z := 4294967296.
Definition LOG2_HALF : Z := 2147483648.
Definition LOG2_TWO : Z := 8589934592.
Definition LOG2_DOUBLE_ONE : Z := 18446744073709551616.
Definition LOG2_SQRT_10001 : Z := 309801.
Definition LOG2_NEGATIVE_MAX_LOSE : Z := 300000.
Definition LOG2_ACCURACY : Z := 65536.

(** log.rs:19-21. Simplification: the u128 product and the [as u64] cast are
    exact for every price admitted by line 87 (< 2^96), so no wrap is modelled. *)
Definition sqrt_price_to_x32 (p : Z) : Z := p * LOG2_ONE / SQRT_PRICE_ONE.

(** log.rs:23-28. [tick_spacing] is never 0 where this is called with a
    validated spacing; a zero spacing panics. *)
Definition align_tick_to_spacing (accurate_tick tick_spacing : Z) : res Z :=
  if tick_spacing =? 0 then Panic
  else if 0 <? accurate_tick then Ok (accurate_tick - Z.rem accurate_tick tick_spacing)
  else Ok (accurate_tick - accurate_tick mod tick_spacing).

(** log.rs:30-58 *)
Definition log2_floor_x32 (x : Z) : Z :=
  let '(x, msb) := if 2 ^ 32 <=? x then (Z.shiftr x 32, 32) else (x, 0) in
  let '(x, msb) := if 2 ^ 16 <=? x then (Z.shiftr x 16, Z.lor msb 16) else (x, msb) in
  let '(x, msb) := if 2 ^ 8 <=? x then (Z.shiftr x 8, Z.lor msb 8) else (x, msb) in
  let '(x, msb) := if 2 ^ 4 <=? x then (Z.shiftr x 4, Z.lor msb 4) else (x, msb) in
  let '(x, msb) := if 2 ^ 2 <=? x then (Z.shiftr x 2, Z.lor msb 2) else (x, msb) in
  if 2 ^ 1 <=? x then Z.lor msb 1 else msb.

(** log.rs:75-82: the loop runs while delta > 2^16, starting from 2^31 and
    halving, that is exactly fifteen times: [n] counts the remaining rounds. *)
Fixpoint log2_loop (n : nat) (y result delta : Z) : Z :=
  match n with
  | O => result
  | S n' =>
      if LOG2_ACCURACY <? delta then
        let y := y * y / LOG2_ONE in
        if LOG2_TWO <=? y
        then log2_loop n' (Z.shiftr y 1) (Z.lor result delta) (Z.shiftr delta 1)
        else log2_loop n' y result (Z.shiftr delta 1)
      else result
  end.

(** log.rs:60-84. The budget 32 exceeds the fifteen rounds of the loop. *)
Definition log2_iterative_approximation_x32 (x : Z) : bool * Z :=
  let sign := negb (x <? LOG2_ONE) in
  let x := if x <? LOG2_ONE then LOG2_DOUBLE_ONE / (x + 1) else x in
  let log2_floor := log2_floor_x32 (Z.shiftr x 32) in
  let result := Z.shiftl log2_floor 32 in
  let y := Z.shiftr x log2_floor in
  if y =? LOG2_ONE then (sign, result)
  else (sign, log2_loop 32 y result LOG2_HALF).

(** log.rs:86-135 *)
Definition get_tick_at_sqrt_price (sqrt_price tick_spacing : Z) : res Z :=
  if (MAX_SQRT_PRICE <? sqrt_price) || (sqrt_price <? MIN_SQRT_PRICE) then Err ETrack
  else
    let x32 := sqrt_price_to_x32 sqrt_price in
    let '(log2_sign, log2_sqrt_price) := log2_iterative_approximation_x32 x32 in
    let abs_floor_tick :=
      if log2_sign then log2_sqrt_price / LOG2_SQRT_10001
      else (log2_sqrt_price + LOG2_NEGATIVE_MAX_LOSE) / LOG2_SQRT_10001 in
    let nearer_tick := if log2_sign then abs_floor_tick else - abs_floor_tick in
    let farther_tick := if log2_sign then abs_floor_tick + 1 else - abs_floor_tick - 1 in
    let* farther_sp := align_tick_to_spacing farther_tick tick_spacing in
    let* nearer_sp := align_tick_to_spacing nearer_tick tick_spacing in
    if farther_sp =? nearer_sp then Ok nearer_sp
    else
      let* accurate_tick :=
        if log2_sign then
          let* fp := calculate_sqrt_price farther_tick in
          Ok (if fp <=? sqrt_price then farther_sp else nearer_sp)
        else
          let* np := calculate_sqrt_price nearer_tick in
          Ok (if np <=? sqrt_price then nearer_sp else farther_sp) in
      if 1 <? tick_spacing then align_tick_to_spacing accurate_tick tick_spacing
      else Ok accurate_tick.
