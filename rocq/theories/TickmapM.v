(** /repo/src/contracts/collections/tickmap.rs *)
From Verif Require Import Base Decimal SqrtPriceM Types.
From stdpp Require Import gmap.
Open Scope Z_scope.

(** tickmap.rs:9 *)
Definition CHUNK_SIZE : Z := 64.

(** tickmap.rs:12-14, the bitmap of every pool: (chunk, pool) -> 64 bits. *)
Notation bitmap := (gmap (Z * pool_key) Z).

(** tickmap.rs:16-21 (the [as u16] cast is exact: the value is below 2^16). *)
Definition get_max_chunk (tick_spacing : Z) : res Z :=
  let* max_tick := get_max_tick tick_spacing in
  let* max_bitmap_index := i32_div (max_tick + MAX_TICK) tick_spacing in
  Ok (Z.quot max_bitmap_index CHUNK_SIZE).

(** tickmap.rs:23-43 (the casts of lines 39-40 are exact: the index is at most 443636). *)
Definition tick_to_position (tick tick_spacing : Z) : res (Z * Z) :=
  let* _ := assert ((- MAX_TICK <=? tick) && (tick <=? MAX_TICK)) in
  let* r := i32_rem tick tick_spacing in
  let* _ := assert (r =? 0) in
  let* bitmap_index := i32_div (tick + MAX_TICK) tick_spacing in
  Ok (Z.quot bitmap_index CHUNK_SIZE, Z.rem bitmap_index CHUNK_SIZE).

(** tickmap.rs:45-49 *)
Definition position_to_tick (chunk bit tick_spacing : Z) : res Z :=
  let* tick_range_limit := get_max_tick tick_spacing in
  Ok (chunk * CHUNK_SIZE * tick_spacing + bit * tick_spacing - tick_range_limit).

(** tickmap.rs:51-57 *)
Definition get_bit_at_position (value position : Z) : Z := Z.land (Z.shiftr value position) 1.
Definition flip_bit_at_position (value position : Z) : Z := Z.lxor value (Z.shiftl 1 position).

(** tickmap.rs:59-79 *)
Definition get_search_limit (tick tick_spacing : Z) (up : bool) : res Z :=
  let* index := i32_div tick tick_spacing in
  let* limit :=
    if up then
      let* sqrt_price_limit := i32_div MAX_TICK tick_spacing in
      Ok (Z.min (index + TICK_SEARCH_RANGE) sqrt_price_limit)
    else
      let* sqrt_price_limit := i32_div (- MAX_TICK) tick_spacing in
      Ok (Z.max (index - TICK_SEARCH_RANGE) sqrt_price_limit) in
  Ok (limit * tick_spacing).

(** [self.bitmap.get(&(chunk, pool_key)).copied().unwrap_or(0)] *)
Definition chunk_at (b : bitmap) (k : pool_key) (chunk : Z) : Z :=
  default 0 (b !! (chunk, k)).

(** tickmap.rs:98-101: skip zero bits of [shifted]; at most 64 rounds. *)
Fixpoint skip_zeros_up (n : nat) (shifted bit : Z) : Z :=
  match n with
  | O => bit
  | S n' => if shifted mod 2 =? 0 then skip_zeros_up n' (Z.shiftr shifted 1) (bit + 1) else bit
  end.

(** tickmap.rs:106-112 *)
Definition index_to_tick (chunk bit tick_spacing : Z) : res Z :=
  let* m := i32_div MAX_TICK tick_spacing in
  Ok ((chunk * CHUNK_SIZE + bit - m) * tick_spacing).

(** tickmap.rs:94-127; [n] is the number of chunks left up to the limiting one,
    so the loop condition is false when it is exhausted. *)
Fixpoint next_loop (b : bitmap) (k : pool_key) (tick_spacing limiting_chunk limiting_bit : Z)
    (n : nat) (chunk bit : Z) : res (option Z) :=
  match n with
  | O => Ok None
  | S n' =>
      if (chunk <? limiting_chunk) || ((chunk =? limiting_chunk) && (bit <=? limiting_bit)) then
        let shifted := Z.shiftr (chunk_at b k chunk) bit in
        if negb (shifted =? 0) then
          let bit := skip_zeros_up 64 shifted bit in
          if (chunk <? limiting_chunk) || ((chunk =? limiting_chunk) && (bit <=? limiting_bit))
          then let* t := index_to_tick chunk bit tick_spacing in Ok (Some t)
          else Ok None
        else next_loop b k tick_spacing limiting_chunk limiting_bit n' (chunk + 1) 0
      else Ok None
  end.

(** tickmap.rs:82-128 *)
Definition next_initialized (b : bitmap) (tick tick_spacing : Z) (k : pool_key) : res (option Z) :=
  let* limit := get_search_limit tick tick_spacing true in
  if MAX_TICK <? tick + tick_spacing then Ok None
  else
    let* (chunk, bit) := tick_to_position (tick + tick_spacing) tick_spacing in
    let* (limiting_chunk, limiting_bit) := tick_to_position limit tick_spacing in
    next_loop b k tick_spacing limiting_chunk limiting_bit
      (Z.to_nat (limiting_chunk - chunk + 1)) chunk bit.

(** tickmap.rs:145-148: walk down to a set bit; at most 64 rounds. *)
Fixpoint skip_zeros_down (n : nat) (value mask bit : Z) : Z :=
  match n with
  | O => bit
  | S n' => if Z.land value mask =? 0 then skip_zeros_down n' value (Z.shiftr mask 1) (bit - 1) else bit
  end.

(** tickmap.rs:137-175 *)
Fixpoint prev_loop (b : bitmap) (k : pool_key) (tick_spacing limiting_chunk limiting_bit : Z)
    (n : nat) (chunk bit : Z) : res (option Z) :=
  match n with
  | O => Ok None
  | S n' =>
      if (limiting_chunk <? chunk) || ((chunk =? limiting_chunk) && (limiting_bit <=? bit)) then
        let mask := Z.shiftl 1 bit in
        let value := chunk_at b k chunk in
        if 0 <? value mod (Z.shiftl mask 1) then
          let bit := skip_zeros_down 64 value mask bit in
          if (limiting_chunk <? chunk) || ((chunk =? limiting_chunk) && (limiting_bit <=? bit))
          then let* t := index_to_tick chunk bit tick_spacing in Ok (Some t)
          else Ok None
        else if chunk =? 0 then Ok None
        else prev_loop b k tick_spacing limiting_chunk limiting_bit n' (chunk - 1) (CHUNK_SIZE - 1)
      else Ok None
  end.

(** tickmap.rs:131-176 *)
Definition prev_initialized (b : bitmap) (tick tick_spacing : Z) (k : pool_key) : res (option Z) :=
  let* limit := get_search_limit tick tick_spacing false in
  let* (chunk, bit) := tick_to_position tick tick_spacing in
  let* (limiting_chunk, limiting_bit) := tick_to_position limit tick_spacing in
  prev_loop b k tick_spacing limiting_chunk limiting_bit
    (Z.to_nat (chunk - limiting_chunk + 1)) chunk bit.

(** tickmap.rs:180-223 *)
Definition get_closer_limit (b : bitmap) (sqrt_price_limit : Z) (x_to_y : bool)
    (current_tick tick_spacing : Z) (k : pool_key) : res (Z * option (Z * bool)) :=
  let* closest :=
    if x_to_y then prev_initialized b current_tick tick_spacing k
    else next_initialized b current_tick tick_spacing k in
  match closest with
  | Some index =>
      let* sqrt_price := unwrap (calculate_sqrt_price index) in
      if (x_to_y && (sqrt_price_limit <? sqrt_price))
         || (negb x_to_y && (sqrt_price <? sqrt_price_limit))
      then Ok (sqrt_price, Some (index, true))
      else Ok (sqrt_price_limit, None)
  | None =>
      let* index := get_search_limit current_tick tick_spacing (negb x_to_y) in
      let* sqrt_price := unwrap (calculate_sqrt_price index) in
      let* _ := fail_if (current_tick =? index) TickLimitReached in
      if (x_to_y && (sqrt_price_limit <? sqrt_price))
         || (negb x_to_y && (sqrt_price <? sqrt_price_limit))
      then Ok (sqrt_price, Some (index, false))
      else Ok (sqrt_price_limit, None)
  end.

(** tickmap.rs:225-229 *)
Definition tickmap_get (b : bitmap) (tick tick_spacing : Z) (k : pool_key) : res bool :=
  let* (chunk, bit) := tick_to_position tick tick_spacing in
  Ok (get_bit_at_position (chunk_at b k chunk) bit =? 1).

(** tickmap.rs:231-243 *)
Definition tickmap_flip (b : bitmap) (value : bool) (tick tick_spacing : Z) (k : pool_key)
    : res bitmap :=
  let* (chunk, bit) := tick_to_position tick tick_spacing in
  let returned_chunk := chunk_at b k chunk in
  let* _ := assert (Bool.eqb (get_bit_at_position returned_chunk bit =? 0) value) in
  Ok (<[(chunk, k) := flip_bit_at_position returned_chunk bit]> b).

(** u64::count_ones *)
Fixpoint count_ones_n (n : nat) (v : Z) : Z :=
  match n with
  | O => 0
  | S n' => v mod 2 + count_ones_n n' (Z.shiftr v 1)
  end.
Definition count_ones (v : Z) : Z := count_ones_n 64 v.
