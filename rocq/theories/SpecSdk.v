(** What the off-chain simulation is given (specification of C42).

    The SDK works on a snapshot of one pool: the pool itself, its 64-bit tickmap
    chunks and its initialised ticks.  [sdk_view d s k p m ticks] says that the
    snapshot shows the pool [k] of the contract state [s] truthfully, as far as a
    swap in the direction [d] can see: a swap of x for y moves the price down and
    never looks above the chunk of the current tick, a swap of y for x never looks
    below it.  (The SDK drops the other side with [filterTickmap], [filterTicks].) *)
From Verif Require Import Base Types TickmapM CollectionsM StateM ServiceM SdkM.
From stdpp Require Import gmap list.
Open Scope Z_scope.

Definition liquidity_tick_of (t : tick) : liquidity_tick :=
  mkLiquidityTick (t_index t) (t_liquidity_change t) (t_sign t).

(** The number of the 64-bit chunk that holds a tick. *)
Definition chunk_of (spacing tick : Z) : Z := (tick + 221818) / spacing / 64.

Record sdk_view (x_to_y : bool) (s : state) (k : pool_key) (p : pool) (m : gmap Z Z)
    (ticks : list liquidity_tick) : Prop := {
  sv_pool : pools_get s k = Ok p;
  (* the chunk is the same in the snapshot and in the contract *)
  sv_bits : forall chunk, let here := chunk_of (pk_spacing k) (p_current_tick_index p) in
    (if x_to_y then chunk <= here else here <= chunk) ->
    default 0 (m !! chunk) = default 0 (s_bitmap s !! (chunk, k));
  (* the listed ticks exist *)
  sv_true : forall lt, In lt ticks ->
    exists t, get_tick s k (lt_index lt) = Ok t /\ lt = liquidity_tick_of t;
  (* the initialised ticks are listed *)
  sv_all : forall i t, get_tick s k i = Ok t ->
    (if x_to_y then i <= p_current_tick_index p else p_current_tick_index p <= i) ->
    In (liquidity_tick_of t) ticks;
}.

(** The simulation reports the swap [r] exactly, and raises none of its flags. *)
Record reports (r' : simulate_swap_result) (r : calculate_swap_result) : Prop := {
  rp_in : sim_amount_in r' = cs_amount_in r;
  rp_out : sim_amount_out r' = cs_amount_out r;
  rp_fee : sim_fee r' = cs_fee r;
  rp_start : sim_start_sqrt_price r' = cs_start_sqrt_price r;
  rp_target : sim_target_sqrt_price r' = cs_target_sqrt_price r;
  rp_crossed : sim_crossed_ticks r' = map liquidity_tick_of (cs_ticks r);
  rp_sufficient : sim_global_insufficient_liquidity r' = false;
  rp_steps : sim_max_swap_steps_reached r' = false;
  rp_current : sim_state_outdated r' = false;
}.
