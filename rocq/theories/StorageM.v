(** Methods of Pool, Tick and Position: /repo/src/contracts/storage/pool.rs, tick.rs, position.rs.
    A [&mut] receiver is modelled by returning the new value. *)
From Verif Require Import Base Decimal SqrtPriceM LogM ClammM FeeGrowthM Types.
From stdpp Require Import gmap.
Open Scope Z_scope.

(** ** pool.rs *)

(** pool.rs:56-79 *)
Definition pool_create (init_sqrt_price init_tick current_timestamp tick_spacing : Z)
    (fee_receiver : actor_id) : res pool :=
  let* ok := map_err (check_tick_to_sqrt_price_relationship init_tick tick_spacing init_sqrt_price)
               InvalidInitTick in
  let* _ := fail_if (negb ok) InvalidInitSqrtPrice in
  let* p := unwrap (calculate_sqrt_price init_tick) in
  Ok (mkPool 0 p init_tick 0 0 0 0 current_timestamp current_timestamp fee_receiver).

(** pool.rs:81-105; [+=] on TokenAmount panics on overflow. *)
Definition pool_add_fee (p : pool) (amount : Z) (in_x : bool) (protocol_fee : Z) : res pool :=
  let* protocol_part := token_big_mul_up_percentage amount protocol_fee in
  let* pool_fee := dec_sub amount protocol_part in
  if ((pool_fee =? 0) && (protocol_part =? 0)) || (p_liquidity p =? 0) then Ok p
  else
    let* fee_growth := from_fee (p_liquidity p) pool_fee in
    if in_x then
      let* f := dec_add M256 (p_fee_protocol_token_x p) protocol_part in
      Ok (set_fees_x (unchecked_add (p_fee_growth_global_x p) fee_growth) f p)
    else
      let* f := dec_add M256 (p_fee_protocol_token_y p) protocol_part in
      Ok (set_fees_y (unchecked_add (p_fee_growth_global_y p) fee_growth) f p).

(** pool.rs:107-140 *)
Definition pool_update_liquidity (p : pool) (liquidity_delta : Z) (liquidity_sign : bool)
    (upper_tick lower_tick : Z) : res (pool * (Z * Z)) :=
  let* (x, y, update) :=
    calculate_amount_delta (p_current_tick_index p) (p_sqrt_price p) liquidity_delta
      liquidity_sign upper_tick lower_tick in
  if negb update then Ok (p, (x, y))
  else if liquidity_sign then
    let* l := dec_checked_add M256 (p_liquidity p) liquidity_delta in
    Ok (set_liquidity l p, (x, y))
  else
    let* l := dec_checked_sub (p_liquidity p) liquidity_delta in
    Ok (set_liquidity l p, (x, y)).

(** pool.rs:32-36 *)
Inductive update_pool_tick : Type :=
| NoTick
| TickInitialized (t : tick)
| TickUninitialized (index : Z).

(** ** tick.rs *)

(** tick.rs:79-100; the u64 subtraction of line 95 wraps in a release build. *)
Definition tick_create (index : Z) (p : pool) (current_timestamp : Z) : res tick :=
  let below := index <=? p_current_tick_index p in
  let* sp := unwrap (calculate_sqrt_price index) in
  Ok (mkTick index true 0 0 sp
        (if below then p_fee_growth_global_x p else 0)
        (if below then p_fee_growth_global_y p else 0)
        (if below then (current_timestamp - p_start_timestamp p) mod M64 else 0)).

(** tick.rs:102-131 *)
Definition tick_cross (t : tick) (p : pool) (current_timestamp : Z) : res (tick * pool) :=
  let ox := unchecked_sub (p_fee_growth_global_x p) (t_fee_growth_outside_x t) in
  let oy := unchecked_sub (p_fee_growth_global_y p) (t_fee_growth_outside_y t) in
  let* seconds_passed := ok_or (checked_sub current_timestamp (p_start_timestamp p)) ETrack in
  let seconds := (seconds_passed - t_seconds_outside t) mod M64 in
  let t' := mkTick (t_index t) (t_sign t) (t_liquidity_change t) (t_liquidity_gross t)
              (t_sqrt_price t) ox oy seconds in
  let p := set_last_timestamp current_timestamp p in
  if xorb (t_index t <=? p_current_tick_index p) (t_sign t) then
    let* l := dec_checked_add M256 (p_liquidity p) (t_liquidity_change t) in
    Ok (t', set_liquidity l p)
  else
    let* l := dec_checked_sub (p_liquidity p) (t_liquidity_change t) in
    Ok (t', set_liquidity l p).

(** tick.rs:163-189 *)
Definition tick_new_liquidity_gross (t : tick) (sign : bool) (liquidity_delta max_liquidity_per_tick : Z)
    : res Z :=
  let* _ := fail_if (negb sign && (t_liquidity_gross t <? liquidity_delta)) ETrack in
  let* new_liquidity :=
    if sign then dec_checked_add M256 (t_liquidity_gross t) liquidity_delta
    else dec_checked_sub (t_liquidity_gross t) liquidity_delta in
  let* _ := fail_if (sign && (max_liquidity_per_tick <=? new_liquidity)) ETrack in
  Ok new_liquidity.

(** tick.rs:150-161, returning the new (sign, liquidity_change); [+=] and [-=] panic. *)
Definition tick_new_liquidity_change (t : tick) (liquidity_delta : Z) (add : bool) : res (bool * Z) :=
  if xorb (t_sign t) add then
    if liquidity_delta <? t_liquidity_change t then
      let* c := dec_sub (t_liquidity_change t) liquidity_delta in
      Ok (t_sign t, c)
    else
      let* c := dec_sub liquidity_delta (t_liquidity_change t) in
      Ok (negb (t_sign t), c)
  else
    let* c := dec_add M256 (t_liquidity_change t) liquidity_delta in
    Ok (t_sign t, c).

(** tick.rs:133-148 *)
Definition tick_update (t : tick) (liquidity_delta max_liquidity_per_tick : Z)
    (is_upper is_deposit : bool) : res tick :=
  let* gross := tick_new_liquidity_gross t is_deposit liquidity_delta max_liquidity_per_tick in
  let* (sign, change) := tick_new_liquidity_change t liquidity_delta (xorb is_deposit is_upper) in
  Ok (mkTick (t_index t) sign change gross (t_sqrt_price t)
        (t_fee_growth_outside_x t) (t_fee_growth_outside_y t) (t_seconds_outside t)).

(** pool.rs:143-202; returns the pool, the updated tick, and the triple
    (total_amount, remaining_amount, has_crossed). *)
Definition pool_update_tick (p : pool) (result : swap_result) (swap_limit : Z)
    (tk : update_pool_tick) (remaining_amount : Z) (by_amount_in x_to_y : bool)
    (current_timestamp protocol_fee : Z) (ft : fee_tier)
    : res (pool * update_pool_tick * (Z * Z * bool)) :=
  let no_tick := match tk with NoTick => true | _ => false end in
  if no_tick || negb (swap_limit =? sr_next_sqrt_price result) then
    let* c := unwrap (get_tick_at_sqrt_price (sr_next_sqrt_price result) (ft_tick_spacing ft)) in
    Ok (set_current_tick_index c p, tk, (0, remaining_amount, false))
  else
    let* enough :=
      unwrap (is_enough_amount_to_change_price remaining_amount (sr_next_sqrt_price result)
                (p_liquidity p) (ft_fee ft) by_amount_in x_to_y) in
    let* (p, tk, tick_index, total_amount, remaining_amount, has_crossed) :=
      match tk with
      | TickInitialized t =>
          if negb x_to_y || enough then
            let* (t', p') := unwrap (tick_cross t p current_timestamp) in
            Ok (p', TickInitialized t', t_index t', 0, remaining_amount, true)
          else if negb (remaining_amount =? 0) then
            if by_amount_in then
              let* p' := unwrap (pool_add_fee p remaining_amount x_to_y protocol_fee) in
              Ok (p', tk, t_index t, remaining_amount, 0, false)
            else Ok (p, tk, t_index t, 0, 0, false)
          else Ok (p, tk, t_index t, 0, remaining_amount, false)
      | TickUninitialized index => Ok (p, tk, index, 0, remaining_amount, false)
      | NoTick => Panic
      end in
    let c := if x_to_y && enough then tick_index - ft_tick_spacing ft else tick_index in
    Ok (set_current_tick_index c p, tk, (total_amount, remaining_amount, has_crossed)).

(** pool.rs:204-212 *)
Definition pool_withdraw_protocol_fee (p : pool) : pool * (Z * Z) :=
  (set_fees_x (p_fee_growth_global_x p) 0 (set_fees_y (p_fee_growth_global_y p) 0 p),
   (p_fee_protocol_token_x p, p_fee_protocol_token_y p)).

(** ** position.rs *)

(** position.rs:109-129 *)
Definition position_new_liquidity (pos : position) (sign : bool) (liquidity_delta : Z) : res Z :=
  let* _ := fail_if (negb sign && (pos_liquidity pos <? liquidity_delta)) ETrack in
  if sign then dec_checked_add M256 (pos_liquidity pos) liquidity_delta
  else dec_checked_sub (pos_liquidity pos) liquidity_delta.

(** position.rs:80-107 *)
Definition position_update (pos : position) (sign : bool) (liquidity_delta fgi_x fgi_y : Z)
    : res position :=
  let* _ := fail_if ((liquidity_delta =? 0) && (pos_liquidity pos =? 0)) ETrack in
  let* owed_x := to_fee (unchecked_sub fgi_x (pos_fee_growth_inside_x pos)) (pos_liquidity pos) in
  let* owed_y := to_fee (unchecked_sub fgi_y (pos_fee_growth_inside_y pos)) (pos_liquidity pos) in
  let* l := position_new_liquidity pos sign liquidity_delta in
  let* ox := dec_add M256 (pos_tokens_owed_x pos) owed_x in
  let* oy := dec_add M256 (pos_tokens_owed_y pos) owed_y in
  Ok (mkPosition (pos_pool_key pos) l (pos_lower pos) (pos_upper pos) fgi_x fgi_y
        (pos_last_block_number pos) ox oy).

(** position.rs:32-78; returns the four updated objects and the token amounts. *)
Definition position_modify (pos : position) (p : pool) (upper lower : tick)
    (liquidity_delta : Z) (add : bool) (current_timestamp tick_spacing : Z)
    : res (position * pool * tick * tick * (Z * Z)) :=
  let p := set_last_timestamp current_timestamp p in
  let* max_liquidity_per_tick := calculate_max_liquidity_per_tick tick_spacing in
  let* lower := tick_update lower liquidity_delta max_liquidity_per_tick false add in
  let* upper := tick_update upper liquidity_delta max_liquidity_per_tick true add in
  let '(fgi_x, fgi_y) :=
    calculate_fee_growth_inside (t_index lower) (t_fee_growth_outside_x lower)
      (t_fee_growth_outside_y lower) (t_index upper) (t_fee_growth_outside_x upper)
      (t_fee_growth_outside_y upper) (p_current_tick_index p) (p_fee_growth_global_x p)
      (p_fee_growth_global_y p) in
  let* pos := position_update pos add liquidity_delta fgi_x fgi_y in
  let* (p, xy) := pool_update_liquidity p liquidity_delta add (t_index upper) (t_index lower) in
  Ok (pos, p, upper, lower, xy).

(** position.rs:131-155 *)
Definition position_claim_fee (pos : position) (p : pool) (upper lower : tick) (current_timestamp : Z)
    : res (position * pool * tick * tick * (Z * Z)) :=
  let* (pos, p, upper, lower, _) :=
    unwrap (position_modify pos p upper lower 0 true current_timestamp
              (pk_spacing (pos_pool_key pos))) in
  Ok (mkPosition (pos_pool_key pos) (pos_liquidity pos) (pos_lower pos) (pos_upper pos)
        (pos_fee_growth_inside_x pos) (pos_fee_growth_inside_y pos) (pos_last_block_number pos) 0 0,
      p, upper, lower, (pos_tokens_owed_x pos, pos_tokens_owed_y pos)).

(** position.rs:158-198 *)
Definition position_create (p : pool) (key : pool_key) (lower upper : tick)
    (current_timestamp liquidity_delta slippage_limit_lower slippage_limit_upper
     block_number tick_spacing : Z)
    : res (position * pool * tick * tick * (Z * Z)) :=
  let* _ := fail_if ((p_sqrt_price p <? slippage_limit_lower)
                     || (slippage_limit_upper <? p_sqrt_price p)) PriceLimitReached in
  let pos := mkPosition key 0 (t_index lower) (t_index upper) 0 0 block_number 0 0 in
  unwrap (position_modify pos p upper lower liquidity_delta true current_timestamp tick_spacing).

(** position.rs:200-231; returns (position, pool, upper, lower, (x, y), remove_lower, remove_upper) *)
Definition position_remove (pos : position) (p : pool) (current_timestamp : Z)
    (lower upper : tick) (tick_spacing : Z)
    : res (position * pool * tick * tick * (Z * Z) * bool * bool) :=
  let* (pos, p, upper, lower, (x, y)) :=
    unwrap (position_modify pos p upper lower (pos_liquidity pos) false current_timestamp
              tick_spacing) in
  let* x := dec_add M256 x (pos_tokens_owed_x pos) in
  let* y := dec_add M256 y (pos_tokens_owed_y pos) in
  Ok (pos, p, upper, lower, (x, y), t_liquidity_gross lower =? 0, t_liquidity_gross upper =? 0).
