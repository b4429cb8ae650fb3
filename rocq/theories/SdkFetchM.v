(** How the SDK obtains the snapshot that it simulates swaps on:
    /repo/sdk/src/invariant.ts and /repo/sdk/src/utils.ts.

    A JavaScript [Map] is modelled by the list of its entries in insertion order
    (the keys that the contract returns are distinct).  Awaiting several queries is
    modelled as if they were answered in one contract state. *)
From Verif Require Import Base Types TickmapM CollectionsM StateM ServiceM SdkM.
From stdpp Require Import gmap list.
Open Scope Z_scope.

(** invariant.ts:327-336 *)
Definition sdk_get_tickmap (s : state) (k : pool_key) : res (list (Z * Z)) := get_tickmap s k.

(** What [simulateInvariantSwap] receives: tickmap.rs:13-18 *)
Definition sdk_bitmap (l : list (Z * Z)) : gmap Z Z := list_to_map l.

(** invariant.ts:349-358: the indices of the set bits, chunk by chunk *)
Definition sdk_tick_indexes (tickmap : list (Z * Z)) (tick_spacing : Z) : res (list Z) :=
  let* rows := mapM_res (fun '(chunk, value) =>
      mapM_res (fun bit => sdk_position_to_tick chunk bit tick_spacing)
        (List.filter (Z.testbit value) (range 0 CHUNK_SIZE))) tickmap in
  Ok (concat rows).

(** invariant.ts:361-363: slices of at most LIQUIDITY_TICKS_LIMIT (wasm/consts.rs:7) indices *)
Fixpoint sdk_slices (n : nat) (l : list Z) : list (list Z) :=
  match n, l with
  | O, _ | _, [] => []
  | S n', _ => take (Z.to_nat LIQUIDITY_TICK_LIMIT) l :: sdk_slices n' (drop (Z.to_nat LIQUIDITY_TICK_LIMIT) l)
  end.

(** invariant.ts:348-367 *)
Definition sdk_get_all_liquidity_ticks (s : state) (k : pool_key) (tickmap : list (Z * Z))
    : res (list liquidity_tick) :=
  let* indexes := sdk_tick_indexes tickmap (pk_spacing k) in
  let* results := mapM_res (get_liquidity_ticks s k) (sdk_slices (length indexes) indexes) in
  Ok (concat results).

(** utils.ts:509-536: the first MAX_SWAP_STEPS entries are filtered, the rest is kept *)
Definition sdk_filter_tickmap (tickmap : list (Z * Z)) (tick_spacing index : Z) (x_to_y : bool)
    : res (list (Z * Z)) :=
  let* (current_chunk, _) := sdk_tick_index_to_position index tick_spacing in
  let keep := fun '(chunk, _) =>
    negb (if x_to_y then current_chunk <? chunk else chunk <? current_chunk) in
  let n := Z.to_nat MAX_SWAP_STEPS in
  Ok (List.filter keep (take n tickmap) ++ drop n tickmap).

(** utils.ts:481-507: the array shrinks while it is iterated over, so the entry after
    a removed one is kept unexamined; [n] iterations are left. *)
Fixpoint sdk_filter_ticks_from (n : nat) (ticks : list liquidity_tick) (tick_index : Z) (x_to_y : bool)
    : list liquidity_tick :=
  match n, ticks with
  | O, _ | _, [] => ticks
  | S n', t :: ticks' =>
      if (if x_to_y then tick_index <? lt_index t else lt_index t <? tick_index) then
        match ticks' with
        | [] => []
        | t' :: ticks'' => t' :: sdk_filter_ticks_from n' ticks'' tick_index x_to_y
        end
      else t :: sdk_filter_ticks_from n' ticks' tick_index x_to_y
  end.
Definition sdk_filter_ticks (ticks : list liquidity_tick) (tick_index : Z) (x_to_y : bool)
    : list liquidity_tick :=
  sdk_filter_ticks_from (Z.to_nat MAX_SWAP_STEPS) ticks tick_index x_to_y.

(** The documented way to simulate a swap (as in
    sdk/tests/simulate-invariant-swap.test.ts:76-111): fetch the pool, the tickmap
    and the ticks, filter both, simulate.  [filtered = false] leaves the filters out. *)
Definition sdk_snapshot (s : state) (k : pool_key) (x_to_y filtered : bool)
    : res (pool * gmap Z Z * list liquidity_tick) :=
  let* p := pools_get s k in
  let* all := sdk_get_tickmap s k in
  let* tickmap := if filtered
                  then sdk_filter_tickmap all (pk_spacing k) (p_current_tick_index p) x_to_y
                  else Ok all in
  let* ticks := sdk_get_all_liquidity_ticks s k tickmap in
  Ok (p, sdk_bitmap tickmap,
      if filtered then sdk_filter_ticks ticks (p_current_tick_index p) x_to_y else ticks).

Definition sdk_simulate (s : state) (k : pool_key) (x_to_y : bool) (amount : Z)
    (by_amount_in : bool) (sqrt_price_limit : Z) (filtered : bool) : res simulate_swap_result :=
  let* (p, m, ticks) := sdk_snapshot s k x_to_y filtered in
  simulate_invariant_swap m (pk_fee_tier k) p ticks x_to_y amount by_amount_in sqrt_price_limit.
