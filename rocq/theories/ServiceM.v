(** Entry points of the service that run in one message execution:
    /repo/src/invariant_service.rs.

    An entry point either returns [Ok] (the new state is committed) or anything
    else: [panicking!] (lines 32-40) turns an [Err e] into a panic whose text is
    [e], and a panic rolls the whole execution back.  The model keeps [Err e]
    so that the reason of a failure stays visible; [exec_op] below performs the
    rollback.  Events ([notify_on]) are modelled in
    EventM.v; sending them is assumed to succeed. *)
From Verif Require Import Base Decimal SqrtPriceM LogM ClammM FeeGrowthM Types TickmapM StorageM
  CollectionsM StateM.
From stdpp Require Import gmap list.
Open Scope Z_scope.

(** Message context: [msg::source]/[exec_context.actor_id], [exec::block_timestamp],
    [exec::block_height], [msg::value], [exec::gas_available], [exec::program_id]. *)
Record env : Type := mkEnv {
  e_caller : actor_id;
  e_timestamp : Z;
  e_block : Z;
  e_value : Z;
  e_gas : Z;
  e_program : actor_id;
}.

(** invariant_service.rs:60 *)
Definition VARA_ADDRESS : actor_id := 0.

(** invariant_service.rs:932-934 *)
Definition is_caller_admin (e : env) (s : state) : bool := s_admin s =? e_caller e.

(** 86-98 *)
Definition change_protocol_fee (e : env) (s : state) (protocol_fee : Z) : res (state * Z) :=
  let* _ := fail_if (negb (is_caller_admin e s)) NotAdmin in
  Ok (set_protocol_fee protocol_fee s, protocol_fee).

(** 104-123 *)
Definition add_fee_tier (e : env) (s : state) (ft : fee_tier) : res (state * fee_tier) :=
  let* _ := fail_if ((ft_tick_spacing ft =? 0) || (100 <? ft_tick_spacing ft)) InvalidTickSpacing in
  let* _ := fail_if (PERCENTAGE_ONE <=? ft_fee ft) InvalidFee in
  let* _ := fail_if (negb (is_caller_admin e s)) NotAdmin in
  let* l := fee_tiers_add (s_fee_tiers s) ft in
  Ok (set_fee_tiers l s, ft).

(** 129-140 *)
Definition remove_fee_tier (e : env) (s : state) (ft : fee_tier) : res (state * fee_tier) :=
  let* _ := fail_if (negb (is_caller_admin e s)) NotAdmin in
  let* l := fee_tiers_remove (s_fee_tiers s) ft in
  Ok (set_fee_tiers l s, ft).

(** 100-102, 125-127, 142-144: queries *)
Definition get_protocol_fee (s : state) : Z := s_protocol_fee s.
Definition fee_tier_exists (s : state) (ft : fee_tier) : bool := fee_tiers_contains (s_fee_tiers s) ft.
Definition get_fee_tiers (s : state) : list fee_tier := s_fee_tiers s.

(** 146-183 *)
Definition create_pool (e : env) (s : state) (token_x token_y : actor_id) (ft : fee_tier)
    (init_sqrt_price init_tick : Z) : res (state * unit) :=
  let* _ := fail_if (negb (fee_tiers_contains (s_fee_tiers s) ft)) FeeTierNotFound in
  let* _ := map_err (check_tick init_tick (ft_tick_spacing ft)) InvalidInitTick in
  let* k := pool_key_new token_x token_y ft in
  let* _ := fail_if (is_ok (pools_get s k)) PoolAlreadyExist in
  let* p := pool_create init_sqrt_price init_tick (e_timestamp e) (ft_tick_spacing ft) (s_admin s) in
  let* s := pools_add s k p in
  let* s := pool_keys_add s k in
  Ok (s, tt).

(** 185-195 *)
Definition get_pool (s : state) (token_x token_y : actor_id) (ft : fee_tier) : res pool :=
  let* k := pool_key_new token_x token_y ft in pools_get s k.

(** 197-202 *)
Definition get_pool_keys (s : state) (size offset : Z) : res (list pool_key * Z) :=
  let* l := pool_keys_get_all s size offset in Ok (l, s_pool_keys_length s).

(** 204-218 *)
Definition change_fee_receiver (e : env) (s : state) (k : pool_key) (fee_receiver : actor_id)
    : res (state * unit) :=
  let* _ := fail_if (negb (is_caller_admin e s)) NotAdmin in
  let* p := pools_get s k in
  let* s := pools_update s k (set_fee_receiver fee_receiver p) in
  Ok (s, tt).

(** 220-301 *)
Definition create_position (e : env) (s : state) (k : pool_key) (lower_tick upper_tick
    liquidity_delta slippage_limit_lower slippage_limit_upper : Z) : res (state * position) :=
  let caller := e_caller e in
  let* _ := fail_if (liquidity_delta =? 0) ZeroLiquidity in
  let* _ := fail_if (lower_tick =? upper_tick) InvalidTickIndex in
  let* p := pools_get s k in
  let* (lower, should_add_lower) := get_or_create_tick s (e_timestamp e) k lower_tick in
  let* (upper, should_add_upper) := get_or_create_tick s (e_timestamp e) k upper_tick in
  let* (pos, p, upper, lower, (x, y)) :=
    position_create p k lower upper (e_timestamp e) liquidity_delta slippage_limit_lower
      slippage_limit_upper (e_block e) (pk_spacing k) in
  let* (s, _) := decrease_token_balance s (pk_token_x k) caller (Some x) in
  let* (s, _) := decrease_token_balance s (pk_token_y k) caller (Some y) in
  let* s := pools_update s k p in
  let s := positions_add s caller pos in
  let* s := if should_add_lower : bool then add_tick s k lower
            else ticks_update s k (t_index lower) lower in
  let* s := if should_add_upper : bool then add_tick s k upper
            else ticks_update s k (t_index upper) upper in
  Ok (s, pos).

(** 303-318: queries *)
Definition get_position (s : state) (owner : actor_id) (index : Z) : res position :=
  positions_get s owner index.
Definition get_tick (s : state) (k : pool_key) (index : Z) : res tick := ticks_get s k index.
Definition is_tick_initialized (s : state) (k : pool_key) (index : Z) : res bool :=
  tickmap_get (s_bitmap s) index (pk_spacing k) k.

(** 319-388 *)
Definition remove_position (e : env) (s : state) (index : Z) : res (state * (Z * Z)) :=
  let caller := e_caller e in
  let* pos := positions_get s caller index in
  let k := pos_pool_key pos in
  let lower_tick_index := pos_lower pos in
  let upper_tick_index := pos_upper pos in
  let* lower := ticks_get s k lower_tick_index in
  let* upper := ticks_get s k upper_tick_index in
  let* p := pools_get s k in
  let* (_, p, upper, lower, (amount_x, amount_y), remove_lower, remove_upper) :=
    position_remove pos p (e_timestamp e) lower upper (pk_spacing k) in
  let* s := pools_update s k p in
  let* s := if remove_lower : bool then remove_tick s k lower
            else ticks_update s k lower_tick_index lower in
  let* s := if remove_upper : bool then remove_tick s k upper
            else ticks_update s k upper_tick_index upper in
  let* (s, _) := positions_remove s caller index in
  let* s := increase_token_balance s (pk_token_x k) caller amount_x in
  let* s := increase_token_balance s (pk_token_y k) caller amount_y in
  Ok (s, (amount_x, amount_y)).

(** 390-398 *)
Definition transfer_position (e : env) (s : state) (index : Z) (receiver : actor_id)
    : res (state * unit) :=
  let* s := positions_transfer s (e_caller e) index receiver in Ok (s, tt).

(** 400-402 *)
Definition get_all_positions (s : state) (owner : actor_id) : res (list position) :=
  positions_get_all s owner.

(** 417-430: append to the group of the same pool, or open a new group. *)
Fixpoint push_to_group (groups : list (pool * list (position * Z))) (pos : position) (i : Z)
    : option (list (pool * list (position * Z))) :=
  match groups with
  | [] => None
  | (p, ps) :: gs =>
      match ps with
      | (q, j) :: _ =>
          if bool_decide (pos_pool_key q = pos_pool_key pos) then Some ((p, ps ++ [(pos, i)]) :: gs)
          else option_map (cons (p, ps)) (push_to_group gs pos i)
      | [] => option_map (cons (p, ps)) (push_to_group gs pos i)
      end
  end.

(** 404-433.  Simplification: the unreachable panic of line 420 (an empty group)
    is modelled as "no match". *)
Definition get_positions (s : state) (owner : actor_id) (size offset : Z)
    : res (list (pool * list (position * Z)) * Z) :=
  let* l := positions_get_slice s owner offset size in
  let* (groups, _) :=
    foldM_res (fun (acc : list (pool * list (position * Z)) * Z) pos =>
                 let '(groups, i) := acc in
                 match push_to_group groups pos (offset + i) with
                 | Some groups' => Ok (groups', i + 1)
                 | None => let* p := pools_get s (pos_pool_key pos) in
                           Ok (groups ++ [(p, [(pos, offset + i)])], i + 1)
                 end) l ([], 0) in
  Ok (groups, positions_get_length s owner).

(** 435-451 *)
Definition get_position_with_associates (s : state) (owner : actor_id) (index : Z)
    : res (position * pool * tick * tick) :=
  let* pos := positions_get s owner index in
  let* p := pools_get s (pos_pool_key pos) in
  let* lower := ticks_get s (pos_pool_key pos) (pos_lower pos) in
  let* upper := ticks_get s (pos_pool_key pos) (pos_upper pos) in
  Ok (pos, p, lower, upper).

(** 453-460 *)
Definition get_user_position_amount (s : state) (owner : actor_id) : Z := positions_get_length s owner.
Definition get_liquidity_ticks_amount (s : state) (k : pool_key) : res Z := liquidity_ticks_count s k.

(** 462-477 *)
Definition get_all_pools_for_pair (s : state) (token0 token1 : actor_id)
    : res (list (fee_tier * pool)) :=
  foldM_res (fun acc ft =>
               let* k := pool_key_new token0 token1 ft in
               match pools_get s k with Ok p => Ok (acc ++ [(ft, p)]) | _ => Ok acc end)
    (s_fee_tiers s) [].

(** 479-554 *)
Definition swap (e : env) (s : state) (k : pool_key) (x_to_y : bool) (amount : Z)
    (by_amount_in : bool) (sqrt_price_limit : Z) : res (state * calculate_swap_result) :=
  let caller := e_caller e in
  let* r := calculate_swap s (e_timestamp e) k x_to_y amount by_amount_in sqrt_price_limit in
  let* s := foldM_res (fun s t => ticks_update s k (t_index t) t) (cs_ticks r) s in
  let* s := pools_update s k (cs_pool r) in
  let '(swapped_token, returned_token) :=
    if x_to_y then (pk_token_x k, pk_token_y k) else (pk_token_y k, pk_token_x k) in
  let* (s, _) := decrease_token_balance s swapped_token caller (Some (cs_amount_in r)) in
  let* s := increase_token_balance s returned_token caller (cs_amount_out r) in
  Ok (s, r).

(** /repo/io/src/lib.rs:74-86 *)
Record swap_hop : Type := mkHop { h_pool_key : pool_key; h_x_to_y : bool }.
Record quote_result : Type := mkQuote {
  q_amount_in : Z; q_amount_out : Z; q_target_sqrt_price : Z; q_ticks : list tick }.

(** 616-620 *)
Definition hop_limit (x_to_y : bool) : Z := if x_to_y then MIN_SQRT_PRICE else MAX_SQRT_PRICE.

(** 605-638 with [RouteType::Swap] *)
Fixpoint route_swap (e : env) (s : state) (next_swap_amount : Z) (swaps : list swap_hop)
    : res (state * Z) :=
  match swaps with
  | [] => Ok (s, next_swap_amount)
  | h :: hs =>
      let* (s, r) := swap e s (h_pool_key h) (h_x_to_y h) next_swap_amount true
                       (hop_limit (h_x_to_y h)) in
      route_swap e s (cs_amount_out r) hs
  end.

(** 605-638 with [RouteType::Quote] *)
Fixpoint route_quote (e : env) (s : state) (next_swap_amount : Z) (swaps : list swap_hop) : res Z :=
  match swaps with
  | [] => Ok next_swap_amount
  | h :: hs =>
      let* r := calculate_swap s (e_timestamp e) (h_pool_key h) (h_x_to_y h) next_swap_amount true
                  (hop_limit (h_x_to_y h)) in
      route_quote e s (cs_amount_out r) hs
  end.

(** 556-574 *)
Definition swap_route (e : env) (s : state) (amount_in expected_amount_out slippage : Z)
    (swaps : list swap_hop) : res (state * Z) :=
  let* (s, amount_out) := route_swap e s amount_in swaps in
  let* min_amount_out := calculate_min_amount_out expected_amount_out slippage in
  let* _ := fail_if (amount_out <? min_amount_out) AmountUnderMinimumAmountOut in
  Ok (s, amount_out).

(** 576-595 *)
Definition quote (e : env) (s : state) (k : pool_key) (x_to_y : bool) (amount : Z)
    (by_amount_in : bool) (sqrt_price_limit : Z) : res quote_result :=
  let* r := calculate_swap s (e_timestamp e) k x_to_y amount by_amount_in sqrt_price_limit in
  Ok (mkQuote (cs_amount_in r) (cs_amount_out r) (p_sqrt_price (cs_pool r)) (cs_ticks r)).

(** 597-603 *)
Definition quote_route (e : env) (s : state) (amount_in : Z) (swaps : list swap_hop) : res Z :=
  route_quote e s amount_in swaps.

(** 640-682 *)
Definition claim_fee (e : env) (s : state) (index : Z) : res (state * (Z * Z)) :=
  let caller := e_caller e in
  let* pos := positions_get s caller index in
  let k := pos_pool_key pos in
  let* lower := ticks_get s k (pos_lower pos) in
  let* upper := ticks_get s k (pos_upper pos) in
  let* p := pools_get s k in
  let* (pos, p, upper, lower, (x, y)) := position_claim_fee pos p upper lower (e_timestamp e) in
  let* s := positions_update s caller index pos in
  let* s := pools_update s k p in
  let* s := ticks_update s k (t_index upper) upper in
  let* s := ticks_update s k (t_index lower) lower in
  let* s := increase_token_balance s (pk_token_x k) caller x in
  let* s := increase_token_balance s (pk_token_y k) caller y in
  Ok (s, (x, y)).

(** 684-704 *)
Definition withdraw_protocol_fee (e : env) (s : state) (k : pool_key) : res (state * unit) :=
  let caller := e_caller e in
  let* p := pools_get s k in
  let* _ := fail_if (negb (p_fee_receiver p =? caller)) NotFeeReceiver in
  let '(p, (amount_x, amount_y)) := pool_withdraw_protocol_fee p in
  let* s := pools_update s k p in
  let* s := increase_token_balance s (pk_token_x k) caller amount_x in
  let* s := increase_token_balance s (pk_token_y k) caller amount_y in
  Ok (s, tt).

(** 706-715; the order of the list is the map's iteration order. *)
Definition get_user_balances (s : state) (user : actor_id) : list (actor_id * Z) :=
  map_to_list (default ∅ (s_balances s !! user)).

(** 717-726; the message carries [e_value] VARA which the program keeps. *)
Definition deposit_vara (e : env) (s : state) : res (state * Z) :=
  let* s := increase_token_balance s VARA_ADDRESS (e_caller e) (e_value e) in
  Ok (s, e_value e).

(** 728-767; on success the reply carries the returned number of VARA
    ([as_u128] panics above 2^128).  Sending the reply is assumed to succeed
    when the program holds that much VARA (see AsyncM). *)
Definition withdraw_vara (e : env) (s : state) (value : option Z) : res (state * Z) :=
  let* (s, v) :=
    match value with
    | Some v =>
        let* _ := fail_if (v =? 0) AmountIsZero in
        decrease_token_balance s VARA_ADDRESS (e_caller e) (Some v)
    | None =>
        match decrease_token_balance s VARA_ADDRESS (e_caller e) None with
        | Ok r => Ok r
        | Err _ => Ok (s, 0)
        | Panic => Panic
        | Loop => Loop
        end
    end in
  let* v := expect (checked_cast M128 v) in
  Ok (s, v).

(** 1062-1069 *)
Definition get_tickmap (s : state) (k : pool_key) : res (list (Z * Z)) :=
  let* m := get_max_chunk (pk_spacing k) in
  Ok (tickmap_slice s (range 0 (m + 1)) k).

(** tick.rs:12-13 *)
Definition LIQUIDITY_TICK_LIMIT : Z := 21544.
Definition POSITION_TICK_LIMIT : Z := 17872.

(** 1071-1086 *)
Definition get_liquidity_ticks (s : state) (k : pool_key) (tickmap : list Z)
    : res (list liquidity_tick) :=
  let* _ := fail_if (LIQUIDITY_TICK_LIMIT <? Z.of_nat (length tickmap)) TickLimitReached in
  mapM_res (fun i => let* t := unwrap (ticks_get s k i) in
                     Ok (mkLiquidityTick (t_index t) (t_liquidity_change t) (t_sign t))) tickmap.

(** tick.rs:67-76 *)
Definition position_tick_of (t : tick) : position_tick :=
  mkPositionTick (t_index t) (t_fee_growth_outside_x t) (t_fee_growth_outside_y t)
    (t_seconds_outside t).

(** 1093-1119 *)
Fixpoint position_ticks_loop (s : state) (owner : actor_id) (is : list Z) (ticks : list position_tick)
    : list position_tick :=
  match is with
  | [] => ticks
  | i :: is' =>
      let ticks :=
        match s_positions s !! (owner, i) with
        | Some pos =>
            ticks
            ++ match s_ticks s !! (pos_pool_key pos, pos_lower pos) with
               | Some t => [position_tick_of t] | None => [] end
            ++ match s_ticks s !! (pos_pool_key pos, pos_upper pos) with
               | Some t => [position_tick_of t] | None => [] end
        | None => ticks
        end in
      if POSITION_TICK_LIMIT <=? Z.of_nat (length ticks) then ticks
      else position_ticks_loop s owner is' ticks
  end.

(** 1088-1122 *)
Definition get_position_ticks (s : state) (owner : actor_id) (offset : Z) : list position_tick :=
  position_ticks_loop s owner (range offset (positions_get_length s owner)) [].

(** ** One message execution *)

(** The state-changing calls a user can send (queries do not change the state). *)
Inductive op : Type :=
| OpChangeProtocolFee (protocol_fee : Z)
| OpAddFeeTier (ft : fee_tier)
| OpRemoveFeeTier (ft : fee_tier)
| OpCreatePool (token_x token_y : actor_id) (ft : fee_tier) (init_sqrt_price init_tick : Z)
| OpChangeFeeReceiver (k : pool_key) (receiver : actor_id)
| OpCreatePosition (k : pool_key)
    (lower upper liquidity_delta slippage_limit_lower slippage_limit_upper : Z)
| OpRemovePosition (index : Z)
| OpTransferPosition (index : Z) (receiver : actor_id)
| OpSwap (k : pool_key) (x_to_y : bool) (amount : Z) (by_amount_in : bool) (sqrt_price_limit : Z)
| OpSwapRoute (amount_in expected_amount_out slippage : Z) (swaps : list swap_hop)
| OpClaimFee (index : Z)
| OpWithdrawProtocolFee (k : pool_key)
| OpDepositVara
| OpWithdrawVara (value : option Z).

Definition drop_result {A} (r : res (state * A)) : res state :=
  let* (s, _) := r in Ok s.

Definition run_op (e : env) (s : state) (o : op) : res state :=
  match o with
  | OpChangeProtocolFee f => drop_result (change_protocol_fee e s f)
  | OpAddFeeTier ft => drop_result (add_fee_tier e s ft)
  | OpRemoveFeeTier ft => drop_result (remove_fee_tier e s ft)
  | OpCreatePool x y ft p t => drop_result (create_pool e s x y ft p t)
  | OpChangeFeeReceiver k r => drop_result (change_fee_receiver e s k r)
  | OpCreatePosition k lo up l sl su => drop_result (create_position e s k lo up l sl su)
  | OpRemovePosition i => drop_result (remove_position e s i)
  | OpTransferPosition i r => drop_result (transfer_position e s i r)
  | OpSwap k d a b l => drop_result (swap e s k d a b l)
  | OpSwapRoute a x sl h => drop_result (swap_route e s a x sl h)
  | OpClaimFee i => drop_result (claim_fee e s i)
  | OpWithdrawProtocolFee k => drop_result (withdraw_protocol_fee e s k)
  | OpDepositVara => drop_result (deposit_vara e s)
  | OpWithdrawVara v => drop_result (withdraw_vara e s v)
  end.

(** A failed execution leaves the state as it was. *)
Definition exec_op (e : env) (s : state) (o : op) : state :=
  match run_op e s o with Ok s' => s' | _ => s end.
