(** The off-chain swap simulation of the SDK: /repo/sdk/src/wasm (paths below are
    relative to it).

    The SDK carries its own copy of the price mathematics and of the tickmap
    search.  Functions whose text is the same as in /repo/calc/math are not
    repeated here: get_delta_x, get_delta_y (clamm.rs:163-219), calculate_sqrt_price
    (types/sqrt_price.rs:132-209), get_tick_at_sqrt_price (log.rs), the [decimal]
    crate (the same crate, Cargo.toml).  Everything that differs, or that has its
    own text, is modelled below.

    Simplification: the SDK's widened integers (tick spacing u64, tick index i64)
    are cast back to u16 / i32 before use (swap.rs:45-47, 67-68, 107; pool.rs:57,
    93); the casts are exact on values that the contract can produce (u16 and
    i32), so they are not modelled. *)
From Verif Require Import Base Decimal SqrtPriceM LogM ClammM FeeGrowthM Types TickmapM StateM.
From stdpp Require Import gmap list.
Open Scope Z_scope.

(** consts.rs:22 ([1117 * 8 / 10 * 120 / 750] in u32) *)
Definition MAX_SWAP_STEPS : Z := 1117 * 8 / 10 * 120 / 750.

(** [Result::unwrap_or]: an [Err] is replaced, a panic stays a panic. *)
Definition res_or {A} (r : res A) (d : A) : res A :=
  match r with Err _ => Ok d | r => r end.

(** ** clamm.rs *)

(** clamm.rs:255-291.  [denominator] falls back to the raw constants; the
    quotient falls back to the extreme prices. *)
Definition sdk_next_sqrt_price_x_up (starting liquidity x : Z) (add_x : bool) : res Z :=
  if x =? 0 then Ok starting
  else
    let* price_delta := liquidity_to_sqrt_price_value liquidity in
    let* px := sqrt_price_mul_token starting x in
    let denominator :=
      if add_x then default MAX_SQRT_PRICE (checked_add M384 price_delta px)
      else default MIN_SQRT_PRICE (checked_sub price_delta px) in
    let* nominator := sqrt_price_mul_liquidity_up starting liquidity in
    res_or (checked_big_div_values_up nominator denominator)
           (if add_x then MIN_SQRT_PRICE else MAX_SQRT_PRICE).

(** clamm.rs:293-325 *)
Definition sdk_next_sqrt_price_y_down (starting liquidity y : Z) (add_y : bool) : res Z :=
  let* numerator := token_to_sqrt_price_value y in
  let* denominator := liquidity_to_sqrt_price_value liquidity in
  if add_y then
    let* quotient := res_or (checked_big_div_values numerator denominator) MAX_SQRT_PRICE in
    res_or (dec_checked_add M128 starting quotient) MAX_SQRT_PRICE
  else
    let* quotient := res_or (checked_big_div_values_up numerator denominator) MAX_SQRT_PRICE in
    res_or (dec_checked_sub starting quotient) MIN_SQRT_PRICE.

(** clamm.rs:221-236 *)
Definition sdk_next_sqrt_price_from_input (starting liquidity amount : Z) (x_to_y : bool) : res Z :=
  if x_to_y then sdk_next_sqrt_price_x_up starting liquidity amount true
  else sdk_next_sqrt_price_y_down starting liquidity amount true.

(** clamm.rs:238-253 *)
Definition sdk_next_sqrt_price_from_output (starting liquidity amount : Z) (x_to_y : bool) : res Z :=
  if x_to_y then sdk_next_sqrt_price_y_down starting liquidity amount false
  else sdk_next_sqrt_price_x_up starting liquidity amount false.

(** clamm.rs:43-161 *)
Definition sdk_compute_swap_step (current target liquidity amount : Z) (by_amount_in : bool) (fee : Z)
    : res swap_result :=
  if liquidity =? 0 then Ok (mkSwapResult target 0 0 0)
  else
    let x_to_y := target <=? current in
    (* 69-103 *)
    let* (next, amount_in0, amount_out0) :=
      if by_amount_in then
        let* rate := dec_sub PERCENTAGE_ONE fee in
        let* amount_after_fee := token_big_mul_percentage amount rate in
        let* amount_in :=
          if x_to_y then get_delta_x target current liquidity true
          else get_delta_y current target liquidity true in
        let* next :=
          if amount_in <=? amount_after_fee then Ok target
          else sdk_next_sqrt_price_from_input current liquidity amount_after_fee x_to_y in
        Ok (next, amount_in, 0)
      else
        let* amount_out :=
          if x_to_y then get_delta_y target current liquidity false
          else get_delta_x current target liquidity false in
        let* next :=
          if amount_out <=? amount then Ok target
          else sdk_next_sqrt_price_from_output current liquidity amount x_to_y in
        Ok (next, 0, amount_out) in
    (* 105-141 *)
    let not_max := negb (target =? next) in
    let* amount_in :=
      if not_max || negb by_amount_in then
        if x_to_y then get_delta_x next current liquidity true
        else get_delta_y current next liquidity true
      else Ok amount_in0 in
    let* amount_out :=
      if not_max || by_amount_in then
        if x_to_y then get_delta_y next current liquidity false
        else get_delta_x current next liquidity false
      else Ok amount_out0 in
    (* 143-153 *)
    let amount_out := if negb by_amount_in && (amount <? amount_out) then amount else amount_out in
    let* fee_amount :=
      if by_amount_in && negb (next =? target) then dec_sub amount amount_in
      else token_big_mul_up_percentage amount_in fee in
    Ok (mkSwapResult next amount_in amount_out fee_amount).

(** clamm.rs:376-397 *)
Definition sdk_is_enough_amount_to_change_price
    (amount starting liquidity fee : Z) (by_amount_in x_to_y : bool) : res bool :=
  if liquidity =? 0 then Ok true
  else
    let* next :=
      if by_amount_in then
        let* rate := dec_sub PERCENTAGE_ONE fee in
        let* amount_after_fee := token_big_mul_percentage amount rate in
        sdk_next_sqrt_price_from_input starting liquidity amount_after_fee x_to_y
      else sdk_next_sqrt_price_from_output starting liquidity amount x_to_y in
    Ok (negb (starting =? next)).

(** ** collections/tickmap.rs *)

(** tickmap.rs:13-18: chunk -> 64 bits, for one pool. *)
Notation sdk_tickmap := (gmap Z Z).

Definition sdk_chunk_at (m : sdk_tickmap) (chunk : Z) : Z := default 0 (m !! chunk).

(** tickmap.rs:53-77 *)
Definition sdk_tick_to_position (tick tick_spacing : Z) : res (Z * Z) :=
  let* _ := assert ((- MAX_TICK <=? tick) && (tick <=? MAX_TICK)) in
  let* r := i32_rem tick tick_spacing in
  let* _ := assert (r =? 0) in
  let* bitmap_index := i32_div (tick + MAX_TICK) tick_spacing in
  Ok (Z.quot bitmap_index CHUNK_SIZE, Z.rem bitmap_index CHUNK_SIZE).

(** tickmap.rs:27-51: the exported variant that returns an error instead of panicking. *)
Definition sdk_tick_index_to_position (tick tick_spacing : Z) : res (Z * Z) :=
  let* _ := fail_if (negb ((- MAX_TICK <=? tick) && (tick <=? MAX_TICK))) ETrack in
  let* _ := fail_if (tick_spacing =? 0) ETrack in
  let* _ := fail_if (negb (Z.rem tick tick_spacing =? 0)) ETrack in
  let bitmap_index := Z.quot (tick + MAX_TICK) tick_spacing in
  Ok (Z.quot bitmap_index CHUNK_SIZE, Z.rem bitmap_index CHUNK_SIZE).

(** i32 [checked_mul], [checked_add], [checked_sub] *)
Definition i32_checked (v : Z) : res Z :=
  if (i32_min <=? v) && (v <=? i32_max) then Ok v else Err ETrack.

(** tickmap.rs:78-99 *)
Definition sdk_position_to_tick (chunk bit tick_spacing : Z) : res Z :=
  let* _ := fail_if (tick_spacing =? 0) ETrack in
  let* tick_range_limit := i32_checked (MAX_TICK - Z.rem MAX_TICK tick_spacing) in
  let* a := i32_checked (chunk * CHUNK_SIZE) in
  let* a := i32_checked (a * tick_spacing) in
  let* b := i32_checked (bit * tick_spacing) in
  let* c := i32_checked (a + b) in
  i32_checked (c - tick_range_limit).

(** tickmap.rs:109-133 (the [checked_*().unwrap()]s cannot fail on i32 ticks
    within the tick range and u16 spacings) *)
Definition sdk_get_search_limit (tick tick_spacing : Z) (up : bool) : res Z :=
  let* index := i32_div tick tick_spacing in
  let* limit :=
    if up then
      let* sqrt_price_limit := i32_div MAX_TICK tick_spacing in
      Ok (Z.min (index + TICK_SEARCH_RANGE) sqrt_price_limit)
    else
      let* sqrt_price_limit := i32_div (0 - MAX_TICK) tick_spacing in
      Ok (Z.max (index - TICK_SEARCH_RANGE) sqrt_price_limit) in
  Ok (limit * tick_spacing).

(** tickmap.rs:148-184; [n] is the number of chunks left up to the limiting one. *)
Fixpoint sdk_next_loop (m : sdk_tickmap) (tick_spacing limiting_chunk limiting_bit : Z)
    (n : nat) (chunk bit : Z) : res (option Z) :=
  match n with
  | O => Ok None
  | S n' =>
      if (chunk <? limiting_chunk) || ((chunk =? limiting_chunk) && (bit <=? limiting_bit)) then
        let shifted := Z.shiftr (sdk_chunk_at m chunk) bit in
        if negb (shifted =? 0) then
          let bit := skip_zeros_up 64 shifted bit in
          if (chunk <? limiting_chunk) || ((chunk =? limiting_chunk) && (bit <=? limiting_bit))
          then
            let* q := i32_div MAX_TICK tick_spacing in
            Ok (Some ((chunk * CHUNK_SIZE + bit - q) * tick_spacing))
          else Ok None
        else sdk_next_loop m tick_spacing limiting_chunk limiting_bit n' (chunk + 1) 0
      else Ok None
  end.

(** tickmap.rs:136-187 *)
Definition sdk_next_initialized (m : sdk_tickmap) (tick tick_spacing : Z) : res (option Z) :=
  let* limit := sdk_get_search_limit tick tick_spacing true in
  if MAX_TICK <? tick + tick_spacing then Ok None
  else
    let* (chunk, bit) := sdk_tick_to_position (tick + tick_spacing) tick_spacing in
    let* (limiting_chunk, limiting_bit) := sdk_tick_to_position limit tick_spacing in
    sdk_next_loop m tick_spacing limiting_chunk limiting_bit
      (Z.to_nat (limiting_chunk - chunk + 1)) chunk bit.

(** tickmap.rs:196-237 *)
Fixpoint sdk_prev_loop (m : sdk_tickmap) (tick_spacing limiting_chunk limiting_bit : Z)
    (n : nat) (chunk bit : Z) : res (option Z) :=
  match n with
  | O => Ok None
  | S n' =>
      if (limiting_chunk <? chunk) || ((chunk =? limiting_chunk) && (limiting_bit <=? bit)) then
        let mask := Z.shiftl 1 bit in
        let value := sdk_chunk_at m chunk in
        if 0 <? value mod (Z.shiftl mask 1) then
          let bit := skip_zeros_down 64 value mask bit in
          if (limiting_chunk <? chunk) || ((chunk =? limiting_chunk) && (limiting_bit <=? bit))
          then
            let* q := i32_div MAX_TICK tick_spacing in
            Ok (Some ((chunk * CHUNK_SIZE + bit - q) * tick_spacing))
          else Ok None
        else if chunk =? 0 then Ok None
        else sdk_prev_loop m tick_spacing limiting_chunk limiting_bit n' (chunk - 1) (CHUNK_SIZE - 1)
      else Ok None
  end.

(** tickmap.rs:190-240 *)
Definition sdk_prev_initialized (m : sdk_tickmap) (tick tick_spacing : Z) : res (option Z) :=
  let* limit := sdk_get_search_limit tick tick_spacing false in
  let* (chunk, bit) := sdk_tick_to_position tick tick_spacing in
  let* (limiting_chunk, limiting_bit) := sdk_tick_to_position limit tick_spacing in
  sdk_prev_loop m tick_spacing limiting_chunk limiting_bit
    (Z.to_nat (chunk - limiting_chunk + 1)) chunk bit.

(** tickmap.rs:244-287 *)
Definition sdk_get_closer_limit (m : sdk_tickmap) (sqrt_price_limit : Z) (x_to_y : bool)
    (current_tick tick_spacing : Z) : res (Z * option (Z * bool)) :=
  let* closest :=
    if x_to_y then sdk_prev_initialized m current_tick tick_spacing
    else sdk_next_initialized m current_tick tick_spacing in
  match closest with
  | Some index =>
      let* sqrt_price := unwrap (calculate_sqrt_price index) in
      if (x_to_y && (sqrt_price_limit <? sqrt_price))
         || (negb x_to_y && (sqrt_price <? sqrt_price_limit))
      then Ok (sqrt_price, Some (index, true))
      else Ok (sqrt_price_limit, None)
  | None =>
      let* index := sdk_get_search_limit current_tick tick_spacing (negb x_to_y) in
      let* sqrt_price := unwrap (calculate_sqrt_price index) in
      let* _ := fail_if (current_tick =? index) TickLimitReached in
      if (x_to_y && (sqrt_price_limit <? sqrt_price))
         || (negb x_to_y && (sqrt_price <? sqrt_price_limit))
      then Ok (sqrt_price, Some (index, false))
      else Ok (sqrt_price_limit, None)
  end.

(** ** storage/tick.rs and storage/pool.rs *)

(** tick.rs:63-79; only the pool changes. *)
Definition sdk_tick_cross (t : liquidity_tick) (p : pool) : res pool :=
  if xorb (lt_index t <=? p_current_tick_index p) (lt_sign t) then
    let* l := dec_checked_add M256 (p_liquidity p) (lt_liquidity_change t) in
    Ok (set_liquidity l p)
  else
    let* l := dec_checked_sub (p_liquidity p) (lt_liquidity_change t) in
    Ok (set_liquidity l p).

(** pool.rs:33-38 *)
Inductive sdk_update_pool_tick : Type :=
| SdkNoTick
| SdkTickInitialized (t : liquidity_tick)
| SdkTickUninitialized (index : Z).

(** pool.rs:40-98; returns the pool and (total_amount, remaining_amount, has_crossed). *)
Definition sdk_pool_update_tick (p : pool) (result : swap_result) (swap_limit : Z)
    (tk : sdk_update_pool_tick) (remaining_amount : Z) (by_amount_in x_to_y : bool) (ft : fee_tier)
    : res (pool * (Z * Z * bool)) :=
  let no_tick := match tk with SdkNoTick => true | _ => false end in
  if no_tick || negb (swap_limit =? sr_next_sqrt_price result) then
    let* c := unwrap (get_tick_at_sqrt_price (sr_next_sqrt_price result) (ft_tick_spacing ft)) in
    Ok (set_current_tick_index c p, (0, remaining_amount, false))
  else
    let* enough :=
      unwrap (sdk_is_enough_amount_to_change_price remaining_amount (sr_next_sqrt_price result)
                (p_liquidity p) (ft_fee ft) by_amount_in x_to_y) in
    let* (p, tick_index, total_amount, remaining_amount, has_crossed) :=
      match tk with
      | SdkTickInitialized t =>
          if negb x_to_y || enough then
            let* p' := sdk_tick_cross t p in
            Ok (p', lt_index t, 0, remaining_amount, true)
          else if negb (remaining_amount =? 0) then
            Ok (p, lt_index t, if by_amount_in then remaining_amount else 0, 0, false)
          else Ok (p, lt_index t, 0, remaining_amount, false)
      | SdkTickUninitialized index => Ok (p, index, 0, remaining_amount, false)
      | SdkNoTick => Panic
      end in
    let c := if x_to_y && enough then tick_index - ft_tick_spacing ft else tick_index in
    Ok (set_current_tick_index c p, (total_amount, remaining_amount, has_crossed)).

(** ** swap.rs *)

(** storage/swap_simulation.rs:9-19 *)
Record simulate_swap_result : Type := mkSimResult {
  sim_amount_in : Z;
  sim_amount_out : Z;
  sim_fee : Z;
  sim_start_sqrt_price : Z;
  sim_target_sqrt_price : Z;
  sim_crossed_ticks : list liquidity_tick;
  sim_global_insufficient_liquidity : bool;
  sim_max_swap_steps_reached : bool;
  sim_state_outdated : bool;
}.

(** The mutable locals of [simulate_invariant_swap] (swap.rs:50-60 and [pool]). *)
Record sim_loop_state : Type := mkSim {
  m_pool : pool;
  m_remaining : Z;
  m_in : Z;
  m_out : Z;
  m_fee : Z;
  m_crossed : list liquidity_tick;
  m_steps : Z;
  m_insufficient : bool;
  m_max_steps : bool;
  m_outdated : bool;
}.

(** The reasons to [break] out of the loop. *)
Inductive sim_break : Type := Insufficient | MaxSteps | Outdated.
Definition sim_stop (b : sim_break) (m : sim_loop_state) : sim_loop_state :=
  mkSim (m_pool m) (m_remaining m) (m_in m) (m_out m) (m_fee m) (m_crossed m) (m_steps m)
    (match b with Insufficient => true | _ => m_insufficient m end)
    (match b with MaxSteps => true | _ => m_max_steps m end)
    (match b with Outdated => true | _ => m_outdated m end).
Definition sim_stopped (m : sim_loop_state) : bool :=
  m_insufficient m || m_max_steps m || m_outdated m.

(** swap.rs:63-166: one iteration; a [break] sets one of the three flags. *)
Definition sim_iteration (tickmap : sdk_tickmap) (ft : fee_tier) (ticks : list liquidity_tick)
    (x_to_y by_amount_in : bool) (sqrt_price_limit tick_limit : Z) (m : sim_loop_state)
    : res sim_loop_state :=
  let p := m_pool m in
  (* 63-74 *)
  match sdk_get_closer_limit tickmap sqrt_price_limit x_to_y (p_current_tick_index p)
          (ft_tick_spacing ft) with
  | Panic => Panic
  | Loop => Loop
  | Err _ => Ok (sim_stop Insufficient m)
  | Ok (swap_limit, limiting_tick) =>
    (* 76-84 *)
    let* result := sdk_compute_swap_step (p_sqrt_price p) swap_limit (p_liquidity p) (m_remaining m)
                     by_amount_in (ft_fee ft) in
    let steps := m_steps m + 1 in
    (* 86-98 *)
    let* in_plus_fee := dec_add M256 (sr_amount_in result) (sr_fee_amount result) in
    let* remaining :=
      if by_amount_in then dec_sub (m_remaining m) in_plus_fee
      else dec_sub (m_remaining m) (sr_amount_out result) in
    let* total_fee := dec_add M256 (m_fee m) (sr_fee_amount result) in
    let p := set_sqrt_price (sr_next_sqrt_price result) p in
    let* total_in := dec_add M256 (m_in m) in_plus_fee in
    let* total_out := dec_add M256 (m_out m) (sr_amount_out result) in
    let here := mkSim p remaining total_in total_out total_fee (m_crossed m) steps
                  (m_insufficient m) (m_max_steps m) (m_outdated m) in
    (* 100-104 *)
    if (p_sqrt_price p =? sqrt_price_limit) && negb (remaining =? 0) then Ok (sim_stop Insufficient here)
    else
      (* 106-125 *)
      let tick_update :=
        match limiting_tick with
        | Some (tick_index, true) =>
            option_map SdkTickInitialized (find (fun t => lt_index t =? tick_index) ticks)
        | Some (tick_index, false) => Some (SdkTickUninitialized tick_index)
        | None => Some SdkNoTick
        end in
      match tick_update with
      | None => Ok (sim_stop Outdated here)
      | Some tick_update =>
        (* 127-142 *)
        match sdk_pool_update_tick p result swap_limit tick_update remaining by_amount_in x_to_y ft with
        | Panic => Panic
        | Loop => Loop
        | Err _ => Ok (sim_stop Outdated here)
        | Ok (p, (amount_to_add, remaining, has_crossed)) =>
          (* 144-151 *)
          let* total_in := dec_add M256 total_in amount_to_add in
          let crossed :=
            match tick_update with
            | SdkTickInitialized t => if has_crossed : bool then m_crossed m ++ [t] else m_crossed m
            | _ => m_crossed m
            end in
          let here := mkSim p remaining total_in total_out total_fee crossed steps
                        (m_insufficient m) (m_max_steps m) (m_outdated m) in
          (* 153-166 *)
          let reached := if x_to_y then p_current_tick_index p <=? tick_limit
                         else tick_limit <=? p_current_tick_index p in
          if reached then Ok (sim_stop Insufficient here)
          else if MAX_SWAP_STEPS <? steps then Ok (sim_stop MaxSteps here)
          else Ok here
        end
      end
  end.

(** swap.rs:19-182; the loop ends when nothing remains or after a [break]. *)
Definition simulate_invariant_swap (tickmap : sdk_tickmap) (ft : fee_tier) (p : pool)
    (ticks : list liquidity_tick) (x_to_y : bool) (amount : Z) (by_amount_in : bool)
    (sqrt_price_limit : Z) : res simulate_swap_result :=
  let* _ := fail_if (amount =? 0) ETrack in
  let* _ := fail_if (if x_to_y
                     then (p_sqrt_price p <=? sqrt_price_limit) || (MAX_SQRT_PRICE <? sqrt_price_limit)
                     else (sqrt_price_limit <=? p_sqrt_price p) || (sqrt_price_limit <? MIN_SQRT_PRICE))
              ETrack in
  let* tick_limit := if x_to_y then get_min_tick (ft_tick_spacing ft)
                     else get_max_tick (ft_tick_spacing ft) in
  let* m := while_loop (fun m => (m_remaining m =? 0) || sim_stopped m)
              (sim_iteration tickmap ft ticks x_to_y by_amount_in sqrt_price_limit tick_limit)
              (mkSim p amount 0 0 0 [] 0 false false false) in
  Ok (mkSimResult (m_in m) (m_out m) (m_fee m) (p_sqrt_price p) (p_sqrt_price (m_pool m))
        (m_crossed m) (m_insufficient m) (m_max_steps m) (m_outdated m)).
