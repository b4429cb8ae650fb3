(** The events a call emits: /repo/io/src/lib.rs:24-61 ([InvariantEvent]) and the
    [notify_on] calls of /repo/src/invariant_service.rs.  Gear discards the events
    of an execution that fails, with its other messages; sending an event is
    assumed to succeed (the [expect]s at 297, 384, 537 and 550). *)
From Verif Require Import Base Types CollectionsM StateM ServiceM.
From stdpp Require Import gmap list.
Open Scope Z_scope.

(** io/src/lib.rs:24-61 *)
Inductive emitted : Type :=
| PositionCreatedEvent (timestamp : Z) (address : actor_id) (k : pool_key)
    (liquidity_delta lower_tick upper_tick current_sqrt_price : Z)
| PositionRemovedEvent (timestamp : Z) (address : actor_id) (k : pool_key)
    (liquidity lower_tick_index upper_tick_index sqrt_price : Z)
| CrossTickEvent (timestamp : Z) (address : actor_id) (k : pool_key) (indexes : list Z)
| SwapEvent (timestamp : Z) (address : actor_id) (k : pool_key)
    (amount_in amount_out fee start_sqrt_price target_sqrt_price : Z) (x_to_y : bool).

(** 288-297.  [lower_tick.index] and [upper_tick.index] are the indices
    [Position::create] copied into the position (position.rs:171-198);
    [pool.sqrt_price] is that of the pool just stored. *)
Definition create_position_events (e : env) (k : pool_key) (liquidity_delta : Z)
    (s' : state) (pos : position) : list emitted :=
  match pools_get s' k with
  | Ok p => [PositionCreatedEvent (e_timestamp e) (e_caller e) k liquidity_delta (pos_lower pos) (pos_upper pos)
               (p_sqrt_price p)]
  | _ => []
  end.

(** 328-335 (the data of the position before the removal) and 375-384 *)
Definition remove_position_events (e : env) (s : state) (index : Z) (s' : state) : list emitted :=
  match positions_get s (e_caller e) index with
  | Ok pos =>
      let k := pos_pool_key pos in
      match ticks_get s k (pos_lower pos), ticks_get s k (pos_upper pos), pools_get s' k with
      | Ok lower, Ok upper, Ok p =>
          [PositionRemovedEvent (e_timestamp e) (e_caller e) k (pos_liquidity pos) (t_index lower) (t_index upper)
             (p_sqrt_price p)]
      | _, _, _ => []
      end
  | _ => []
  end.

(** 501-506 and 529-550 *)
Definition swap_events (e : env) (k : pool_key) (x_to_y : bool) (r : calculate_swap_result) : list emitted :=
  let indexes := map t_index (cs_ticks r) in
  (if bool_decide (indexes = []) then []
   else [CrossTickEvent (e_timestamp e) (e_caller e) k indexes])
  ++ [SwapEvent (e_timestamp e) (e_caller e) k (cs_amount_in r) (cs_amount_out r) (cs_fee r)
        (cs_start_sqrt_price r) (cs_target_sqrt_price r) x_to_y].

(** 605-638 with [RouteType::Swap]: the events of the swap of each hop *)
Fixpoint route_events (e : env) (s : state) (next_swap_amount : Z) (swaps : list swap_hop) : list emitted :=
  match swaps with
  | [] => []
  | h :: hs =>
      match swap e s (h_pool_key h) (h_x_to_y h) next_swap_amount true (hop_limit (h_x_to_y h)) with
      | Ok (s', r) => swap_events e (h_pool_key h) (h_x_to_y h) r ++ route_events e s' (cs_amount_out r) hs
      | _ => []
      end
  end.

(** The events of one message; no other entry point notifies. *)
Definition emits (e : env) (s : state) (o : op) : list emitted :=
  match o with
  | OpCreatePosition k lo up l sl su =>
      match create_position e s k lo up l sl su with
      | Ok (s', pos) => create_position_events e k l s' pos
      | _ => []
      end
  | OpRemovePosition i =>
      match remove_position e s i with
      | Ok (s', _) => remove_position_events e s i s'
      | _ => []
      end
  | OpSwap k d a b l =>
      match swap e s k d a b l with
      | Ok (_, r) => swap_events e k d r
      | _ => []
      end
  | OpSwapRoute a x sl hops =>
      match swap_route e s a x sl hops with
      | Ok _ => route_events e s a hops
      | _ => []
      end
  | _ => []
  end.
