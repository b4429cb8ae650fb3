(** The decimal crate: the operations its macro generates for a fixed-point type.

    /repo/calc/decimal/decimal_core/src/lib.rs:44-106: [#[decimal(scale, Big)]] on a
    struct with one field generates the operations below.  A decimal value is modelled
    by its raw integer; the error strings are dropped.  [Decimal.v] has the instances
    the contract calls in the form they are used there; this file has the whole
    interface, with the conversions of the operands. *)
From Verif Require Import Base.
From Coq Require Import ZArith Bool List.
Import ListNotations.
Open Scope Z_scope.

(** /repo/calc/decimal/decimal_core/src/structs.rs:1-11: bounds (exclusive) of the
    underlying type and of the big type, and the scale. *)
Record dtype := DType { t_bound : Z; t_big : Z; t_scale : Z }.

(** /repo/calc/math/types: sqrt_price.rs:7-9, fixed_point.rs:4-6, percentage.rs:3-7,
    fee_growth.rs:6-8, seconds_per_liquidity.rs:6-8, liquidity.rs:4-6,
    token_amount.rs:4-6; Price: /repo/sdk/src/wasm/types/price.rs:9-12 *)
Definition T_SqrtPrice := DType M128 M384 24.
Definition T_Price := DType M128 M384 24.
Definition T_FixedPoint := DType M128 M192 12.
Definition T_Percentage := DType M128 M256 12.
Definition T_FeeGrowth := DType M128 M256 28.
Definition T_SecondsPerLiquidity := DType M128 M256 25.
Definition T_Liquidity := DType M256 M512 5.
Definition T_TokenAmount := DType M256 M512 0.
Definition decimal_types : list dtype :=
  [T_SqrtPrice; T_Price; T_FixedPoint; T_Percentage; T_FeeGrowth; T_SecondsPerLiquidity; T_Liquidity; T_TokenAmount].

(** [checked_pow] of the integer types. *)
Definition checked_pow (m b n : Z) : option Z := if b ^ n <? m then Some (b ^ n) else None.

(** /repo/calc/decimal/decimal_core/src/base.rs:53-77: [checked_one], [one],
    [checked_almost_one], [almost_one] *)
Definition d_checked_one (t : dtype) : res Z := ok_or (checked_pow (t_bound t) 10 (t_scale t)) ETrack.
Definition d_one (t : dtype) : res Z := unwrap (d_checked_one t).
Definition d_checked_almost_one (t : dtype) : res Z :=
  let* one := d_checked_one t in ok_or (checked_sub one 1) ETrack.
Definition d_almost_one (t : dtype) : res Z := unwrap (d_checked_almost_one t).

(** [UintCast::uint_cast] to a type of bound [m]: panics if the value does not fit. *)
Definition cast (m v : Z) : res Z := expect (checked_cast m v).

(** /repo/calc/decimal/decimal_core/src/ops.rs:20-85; [t] is the type of the receiver
    and of the result, [u] the type of the right operand. *)
Definition d_add (t : dtype) (a b : Z) : res Z := expect (checked_add (t_bound t) a b).
Definition d_sub (t : dtype) (a b : Z) : res Z := expect (checked_sub a b).
Definition d_mul (t u : dtype) (a b : Z) : res Z :=
  let* rhs := cast (t_bound t) b in
  let* one := let* o := d_one u in cast (t_bound t) o in
  let* p := expect (checked_mul (t_bound t) a rhs) in
  expect (checked_div p one).
Definition d_div (t u : dtype) (a b : Z) : res Z :=
  let* rhs := cast (t_bound t) b in
  let* one := let* o := d_one u in cast (t_bound t) o in
  let* e := expect (checked_mul (t_bound t) a one) in
  expect (checked_div e rhs).

(** /repo/calc/decimal/decimal_core/src/others.rs:24-73: [mul_up], [div_up], [sub_abs] *)
Definition d_mul_up (t u : dtype) (a b : Z) : res Z :=
  let* rhs := cast (t_bound t) b in
  let* one := let* o := d_one u in cast (t_bound t) o in
  let* almost := let* o := d_almost_one u in cast (t_bound t) o in
  let* p := expect (checked_mul (t_bound t) a rhs) in
  let* q := expect (checked_add (t_bound t) p almost) in
  expect (checked_div q one).
Definition d_div_up (t u : dtype) (a b : Z) : res Z :=
  let* rhs := cast (t_bound t) b in
  let* one := let* o := d_one u in cast (t_bound t) o in
  let* almost := let* o := d_almost_one u in cast (t_bound t) o in
  let* e := expect (checked_mul (t_bound t) a one) in
  let* less := expect (checked_sub rhs 1) in
  let* q := expect (checked_add (t_bound t) e less) in
  expect (checked_div q rhs).
Definition d_sub_abs (t : dtype) (a b : Z) : res Z := if a >? b then d_sub t a b else d_sub t b a.

(** /repo/calc/decimal/decimal_core/src/checked_ops.rs:19-42 *)
Definition d_checked_add (t : dtype) (a b : Z) : res Z := ok_or (checked_add (t_bound t) a b) ETrack.
Definition d_checked_sub (t : dtype) (a b : Z) : res Z := ok_or (checked_sub a b) ETrack.
Definition d_checked_div (t : dtype) (a b : Z) : res Z :=
  let* one := d_one t in
  let* e := ok_or (checked_mul (t_bound t) a one) ETrack in
  ok_or (checked_div e b) ETrack.

(** /repo/calc/decimal/decimal_core/src/big_ops.rs:24-98 *)
Definition d_big_mul (t u : dtype) (a b : Z) : res Z :=
  let* big_a := cast (t_big t) a in
  let* big_b := cast (t_big t) b in
  let* one := let* o := d_one u in cast (t_big t) o in
  let* p := expect (checked_mul (t_big t) big_a big_b) in
  let* q := expect (checked_div p one) in
  cast (t_bound t) q.
Definition d_big_mul_up (t u : dtype) (a b : Z) : res Z :=
  let* big_a := cast (t_big t) a in
  let* big_b := cast (t_big t) b in
  let* one := let* o := d_one u in cast (t_big t) o in
  let* almost := let* o := d_almost_one u in cast (t_big t) o in
  let* p := expect (checked_mul (t_big t) big_a big_b) in
  let* s := expect (checked_add (t_big t) p almost) in
  let* q := expect (checked_div s one) in
  cast (t_bound t) q.
Definition d_big_div (t u : dtype) (a b : Z) : res Z :=
  let* big_a := cast (t_big t) a in
  let* big_b := cast (t_big t) b in
  let* one := let* o := d_one u in cast (t_big t) o in
  let* p := expect (checked_mul (t_big t) big_a one) in
  let* q := expect (checked_div p big_b) in
  cast (t_bound t) q.
Definition d_checked_big_div (t u : dtype) (a b : Z) : res Z :=
  let* big_a := cast (t_big t) a in
  let* big_b := cast (t_big t) b in
  let* one := let* o := d_one u in cast (t_big t) o in
  let* p := ok_or (checked_mul (t_big t) big_a one) ETrack in
  let* q := ok_or (checked_div p big_b) ETrack in
  ok_or (checked_cast (t_bound t) q) ETrack.
Definition d_big_div_up (t u : dtype) (a b : Z) : res Z :=
  let* big_a := cast (t_big t) a in
  let* big_b := cast (t_big t) b in
  let* one := let* o := d_one u in cast (t_big t) o in
  let* p := expect (checked_mul (t_big t) big_a one) in
  let* s := expect (checked_add (t_big t) p big_b) in
  let* r := expect (checked_sub s 1) in
  let* q := expect (checked_div r big_b) in
  cast (t_bound t) q.

(** /repo/calc/decimal/decimal_core/src/by_number.rs:22-74; the number is a value [n] of
    the big type. *)
Definition d_by_number (t : dtype) (a n : Z) : res Z :=
  let* big_a := cast (t_big t) a in
  let* one := let* o := d_one t in cast (t_big t) o in
  let* p := expect (checked_mul (t_big t) big_a one) in
  let* q := expect (checked_div p n) in
  cast (t_bound t) q.
Definition d_checked_by_number (t : dtype) (a n : Z) : res Z :=
  let* big_a := cast (t_big t) a in
  let* one := let* o := d_one t in cast (t_big t) o in
  let* p := ok_or (checked_mul (t_big t) big_a one) ETrack in
  let* q := ok_or (checked_div p n) ETrack in
  ok_or (checked_cast (t_bound t) q) ETrack.
Definition d_by_number_up (t : dtype) (a n : Z) : res Z :=
  let* big_a := cast (t_big t) a in
  let* one := let* o := d_one t in cast (t_big t) o in
  let* p := expect (checked_mul (t_big t) big_a one) in
  let* less := expect (checked_sub n 1) in
  let* s := expect (checked_add (t_big t) p less) in
  let* q := expect (checked_div s n) in
  cast (t_bound t) q.
(** Lines 62-74: [rhs.checked_sub(1).unwrap()] inside a function that returns [Result]. *)
Definition d_checked_by_number_up (t : dtype) (a n : Z) : res Z :=
  let* big_a := cast (t_big t) a in
  let* one := let* o := d_one t in cast (t_big t) o in
  let* p := ok_or (checked_mul (t_big t) big_a one) ETrack in
  let* less := expect (checked_sub n 1) in
  let* s := ok_or (checked_add (t_big t) p less) ETrack in
  let* q := ok_or (checked_div s n) ETrack in
  ok_or (checked_cast (t_bound t) q) ETrack.

(** /repo/calc/decimal/decimal_core/src/by_number.rs:82-107; the result is of the big type. *)
Definition d_mul_to_value (t u : dtype) (a b : Z) : res Z :=
  let* big_a := cast (t_big t) a in
  let* big_b := cast (t_big t) b in
  let* one := let* o := d_one u in cast (t_big t) o in
  let* p := expect (checked_mul (t_big t) big_a big_b) in
  expect (checked_div p one).
Definition d_mul_to_value_up (t u : dtype) (a b : Z) : res Z :=
  let* big_a := cast (t_big t) a in
  let* big_b := cast (t_big t) b in
  let* one := let* o := d_one u in cast (t_big t) o in
  let* almost := let* o := d_almost_one u in cast (t_big t) o in
  let* p := expect (checked_mul (t_big t) big_a big_b) in
  let* s := expect (checked_add (t_big t) p almost) in
  expect (checked_div s one).

(** /repo/calc/decimal/decimal_core/src/factories.rs:32-46 and 53-102: the integer is first
    converted to the underlying type, by [uint_cast] also in [checked_from_scale]. *)
Definition d_from_integer (t : dtype) (n : Z) : res Z :=
  let* v := cast (t_bound t) n in
  let* one := d_one t in
  expect (checked_mul (t_bound t) v one).
Definition d_from_scale (t : dtype) (n scale : Z) : res Z :=
  let* v := cast (t_bound t) n in
  if t_scale t >? scale then
    let* m := expect (checked_pow (t_bound t) 10 (t_scale t - scale)) in
    expect (checked_mul (t_bound t) v m)
  else
    let* d := expect (checked_pow (t_bound t) 10 (scale - t_scale t)) in
    expect (checked_div v d).
Definition d_checked_from_scale (t : dtype) (n scale : Z) : res Z :=
  let* v := cast (t_bound t) n in
  if t_scale t >? scale then
    let* m := ok_or (checked_pow (t_bound t) 10 (t_scale t - scale)) ETrack in
    ok_or (checked_mul (t_bound t) v m) ETrack
  else
    let* d := ok_or (checked_pow (t_bound t) 10 (scale - t_scale t)) ETrack in
    ok_or (checked_div v d) ETrack.
Definition d_from_scale_up (t : dtype) (n scale : Z) : res Z :=
  let* v := cast (t_bound t) n in
  if t_scale t >? scale then
    let* m := expect (checked_pow (t_bound t) 10 (t_scale t - scale)) in
    expect (checked_mul (t_bound t) v m)
  else
    let* d := expect (checked_pow (t_bound t) 10 (scale - t_scale t)) in
    let* less := expect (checked_sub d 1) in
    let* s := expect (checked_add (t_bound t) v less) in
    expect (checked_div s d).

(** /repo/calc/decimal/decimal_core/src/factories.rs:110-120 *)
Definition d_from_decimal (t u : dtype) (a : Z) : res Z := d_from_scale t a (t_scale u).
Definition d_checked_from_decimal (t u : dtype) (a : Z) : res Z := d_checked_from_scale t a (t_scale u).
Definition d_from_decimal_up (t u : dtype) (a : Z) : res Z := d_from_scale_up t a (t_scale u).

(** /repo/calc/decimal/decimal_core/src/factories.rs:127-147: powers of ten in u128, the
    value in the big type; the product and the quotient are unwrapped. *)
Definition d_checked_from_scale_to_value (t : dtype) (n scale : Z) : res Z :=
  let* base := cast (t_big t) n in
  if t_scale t >? scale then
    let* m := ok_or (checked_pow M128 10 (t_scale t - scale)) ETrack in
    expect (checked_mul (t_big t) base m)
  else
    let* d := ok_or (checked_pow M128 10 (scale - t_scale t)) ETrack in
    expect (checked_div base d).
Definition d_checked_from_decimal_to_value (t u : dtype) (a : Z) : res Z := d_checked_from_scale_to_value t a (t_scale u).

(** /repo/sdk/src/wasm/helpers.rs:38-53 and 69-81: [_toX(val, scale)]; both arguments are
    u64, the scale is truncated to its low byte.  [getXDenominator()] *)
Definition sdk_to (t : dtype) (v scale : Z) : res Z := d_from_scale t v (scale mod 256).
Definition sdk_denominator (t : dtype) : res Z := d_from_integer t 1.

(** /repo/calc/decimal/decimal_core/src/others.rs:75-97: [Display].  A text is the digits
    before the point and, if the scale is positive, those after it; [digits] is the
    formatting of an unsigned integer (core::fmt / uint crate). *)
Fixpoint digits_fuel (fuel : nat) (n : Z) (acc : list Z) : list Z :=
  match fuel with
  | O => n mod 10 :: acc
  | S f => if n <? 10 then n :: acc else digits_fuel f (n / 10) (n mod 10 :: acc)
  end.
Definition digits (n : Z) : list Z := digits_fuel (Z.to_nat (Z.log2 n)) n [].

(** The loop that counts the digits of the fractional part. *)
Fixpoint tail_fuel (fuel : nat) (places tail : Z) : Z :=
  match fuel with
  | O => tail
  | S f => if places >? 0 then tail_fuel f (places / 10) (tail + 1) else tail
  end.

Record text := Text { x_whole : list Z; x_fraction : option (list Z) }.

Definition d_display (t : dtype) (a : Z) : res text :=
  if t_scale t >? 0 then
    let* one := d_one t in
    let* places := expect (checked_div a one) in
    let* rem := if one =? 0 then Panic else Ok (a mod one) in
    let tail := tail_fuel (S (Z.to_nat (Z.log2 rem))) rem 0 in
    let* zeros := expect (checked_sub (t_scale t) tail) in
    Ok (Text (digits places) (Some (repeat 0 (Z.to_nat zeros) ++ digits rem)))
  else Ok (Text (digits a) None).

(** ** Integers as arrays of 64-bit limbs, least significant first
    ([construct_uint!]; U128 .. U512 of sails_rs have the same representation). *)
Definition limb (l : list Z) (i : nat) : Z := nth i l 0.

(** /repo/calc/decimal/decimal_core/src/uint_casts.rs:26-42: [val.0[k] | ... | val.0[n-1]] *)
Definition overflow_chunks (l : list Z) (k : nat) : Z := fold_left Z.lor (skipn k l) 0.

(** Lines 126-137: from a smaller to a bigger uint of [n] limbs. *)
Definition l_cast_up (n : nat) (l : list Z) : list Z := l ++ repeat 0 (n - length l).

(** Lines 140-155: from a bigger to a smaller uint of [k] limbs. *)
Definition l_cast_down (k : nat) (l : list Z) : res (list Z) :=
  if overflow_chunks l k =? 0 then Ok (firstn k l) else Err ETrack.

(** Lines 183-209: from u8 .. u128 ([uint::from]): low and high half of the value. *)
Definition l_from_primitive (n : nat) (v : Z) : list Z :=
  v mod M64 :: v / M64 :: repeat 0 (n - 2).
(** Lines 177-194: from i32; [uint::from] panics on negative values. *)
Definition l_from_i32 (n : nat) (v : Z) : res (list Z) := if v <? 0 then Panic else Ok (l_from_primitive n v).

(** Lines 246-269: to u8, u16, u32 (bound [m]): only the lowest limb is looked at. *)
Definition l_to_small (m : Z) (l : list Z) : res Z :=
  if limb l 0 >? m - 1 then Err ETrack else Ok (limb l 0 mod m).

(** Lines 271-291 and 293-312 (to u64 and u128; 230-242 for U128 to u128, which has no
    higher limbs to test). *)
Definition l_to_u64 (l : list Z) : res Z := if overflow_chunks l 1 =? 0 then Ok (limb l 0) else Err ETrack.
Definition l_to_u128 (l : list Z) : res Z :=
  if overflow_chunks l 2 =? 0 then Ok (limb l 0 + M64 * limb l 1) else Err ETrack.

(** /repo/calc/decimal/src/uint.rs:113-151: conversions by shifting the number [n]. *)
Definition low_u64 (n : Z) : Z := Z.land n (M64 - 1).
Definition u320_to_u256 (n : Z) : option (list Z) :=
  if Z.shiftr n 256 =? 0 then Some [low_u64 n; low_u64 (Z.shiftr n 64); low_u64 (Z.shiftr n 128); low_u64 (Z.shiftr n 192)]
  else None.
Definition to_u256 (n : Z) : list Z := [low_u64 n; low_u64 (Z.shiftr n 64); 0; 0].
Definition u256_to_u320 (n : Z) : list Z :=
  [low_u64 n; low_u64 (Z.shiftr n 64); low_u64 (Z.shiftr n 128); low_u64 (Z.shiftr n 192); 0].

(** /repo/sdk/src/wasm/helpers.rs:50-53: limbs to a BigInt. *)
Definition sdk_bigint (l : list Z) : Z := fold_left (fun acc x => Z.lor (Z.shiftl acc 64) x) (rev l) 0.
