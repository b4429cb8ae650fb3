(** Data types of the contract state. *)
From Verif Require Import Base Decimal SqrtPriceM.
From stdpp Require Import gmap countable.
Open Scope Z_scope.

(** [ActorId] and [MessageId] are 32-byte identifiers ordered as big-endian
    integers; they are modelled by [Z].  Token addresses are [ActorId]s. *)
Notation actor_id := Z (only parsing).
Notation message_id := Z (only parsing).

(** /repo/src/contracts/storage/fee_tier.rs:7-10 *)
Record fee_tier : Type := mkFeeTier { ft_fee : Z; ft_tick_spacing : Z }.

(** /repo/src/contracts/storage/pool_key.rs:7-11 *)
Record pool_key : Type := mkPoolKey {
  pk_token_x : actor_id;
  pk_token_y : actor_id;
  pk_fee_tier : fee_tier;
}.

Definition pk_spacing (k : pool_key) : Z := ft_tick_spacing (pk_fee_tier k).
Definition pk_fee (k : pool_key) : Z := ft_fee (pk_fee_tier k).

#[global] Instance fee_tier_eq_dec : EqDecision fee_tier.
Proof. solve_decision. Defined.
#[global] Instance pool_key_eq_dec : EqDecision pool_key.
Proof. solve_decision. Defined.
#[global] Instance pool_key_countable : Countable pool_key.
Proof.
  refine (inj_countable'
    (fun k => (pk_token_x k, pk_token_y k, ft_fee (pk_fee_tier k), ft_tick_spacing (pk_fee_tier k)))
    (fun q => match q with (x, y, f, s) => mkPoolKey x y (mkFeeTier f s) end) _).
  intros [x y [f s]]; reflexivity.
Defined.

(** /repo/src/contracts/storage/pool.rs:18-29 *)
Record pool : Type := mkPool {
  p_liquidity : Z;
  p_sqrt_price : Z;
  p_current_tick_index : Z;
  p_fee_growth_global_x : Z;
  p_fee_growth_global_y : Z;
  p_fee_protocol_token_x : Z;
  p_fee_protocol_token_y : Z;
  p_start_timestamp : Z;
  p_last_timestamp : Z;
  p_fee_receiver : actor_id;
}.

(** Field assignments of [Pool]. *)
Definition set_liquidity (v : Z) (p : pool) : pool :=
  mkPool v (p_sqrt_price p) (p_current_tick_index p) (p_fee_growth_global_x p)
    (p_fee_growth_global_y p) (p_fee_protocol_token_x p) (p_fee_protocol_token_y p)
    (p_start_timestamp p) (p_last_timestamp p) (p_fee_receiver p).
Definition set_sqrt_price (v : Z) (p : pool) : pool :=
  mkPool (p_liquidity p) v (p_current_tick_index p) (p_fee_growth_global_x p)
    (p_fee_growth_global_y p) (p_fee_protocol_token_x p) (p_fee_protocol_token_y p)
    (p_start_timestamp p) (p_last_timestamp p) (p_fee_receiver p).
Definition set_current_tick_index (v : Z) (p : pool) : pool :=
  mkPool (p_liquidity p) (p_sqrt_price p) v (p_fee_growth_global_x p)
    (p_fee_growth_global_y p) (p_fee_protocol_token_x p) (p_fee_protocol_token_y p)
    (p_start_timestamp p) (p_last_timestamp p) (p_fee_receiver p).
Definition set_fees_x (g f : Z) (p : pool) : pool :=
  mkPool (p_liquidity p) (p_sqrt_price p) (p_current_tick_index p) g
    (p_fee_growth_global_y p) f (p_fee_protocol_token_y p)
    (p_start_timestamp p) (p_last_timestamp p) (p_fee_receiver p).
Definition set_fees_y (g f : Z) (p : pool) : pool :=
  mkPool (p_liquidity p) (p_sqrt_price p) (p_current_tick_index p) (p_fee_growth_global_x p)
    g (p_fee_protocol_token_x p) f
    (p_start_timestamp p) (p_last_timestamp p) (p_fee_receiver p).
Definition set_last_timestamp (v : Z) (p : pool) : pool :=
  mkPool (p_liquidity p) (p_sqrt_price p) (p_current_tick_index p) (p_fee_growth_global_x p)
    (p_fee_growth_global_y p) (p_fee_protocol_token_x p) (p_fee_protocol_token_y p)
    (p_start_timestamp p) v (p_fee_receiver p).
Definition set_fee_receiver (v : actor_id) (p : pool) : pool :=
  mkPool (p_liquidity p) (p_sqrt_price p) (p_current_tick_index p) (p_fee_growth_global_x p)
    (p_fee_growth_global_y p) (p_fee_protocol_token_x p) (p_fee_protocol_token_y p)
    (p_start_timestamp p) (p_last_timestamp p) v.

(** /repo/src/contracts/storage/tick.rs:16-25 *)
Record tick : Type := mkTick {
  t_index : Z;
  t_sign : bool;
  t_liquidity_change : Z;
  t_liquidity_gross : Z;
  t_sqrt_price : Z;
  t_fee_growth_outside_x : Z;
  t_fee_growth_outside_y : Z;
  t_seconds_outside : Z;
}.

(** /repo/src/contracts/storage/tick.rs:43-65 *)
Record liquidity_tick : Type := mkLiquidityTick {
  lt_index : Z; lt_liquidity_change : Z; lt_sign : bool }.
Record position_tick : Type := mkPositionTick {
  pt_index : Z; pt_fee_growth_outside_x : Z; pt_fee_growth_outside_y : Z;
  pt_seconds_outside : Z }.

(** /repo/src/contracts/storage/position.rs:18-28 *)
Record position : Type := mkPosition {
  pos_pool_key : pool_key;
  pos_liquidity : Z;
  pos_lower : Z;
  pos_upper : Z;
  pos_fee_growth_inside_x : Z;
  pos_fee_growth_inside_y : Z;
  pos_last_block_number : Z;
  pos_tokens_owed_x : Z;
  pos_tokens_owed_y : Z;
}.

(** /repo/src/contracts/storage/awaiting_transfers.rs:4-15 *)
Inductive transfer_type : Type := Deposit | Withdrawal.
Record awaiting_transfer : Type := mkAwaiting {
  aw_account : actor_id;
  aw_amount : Z;
  aw_type : transfer_type;
}.

(** /repo/src/invariant_storage.rs:18-29 (with config, fee_tiers, pools, pool_keys,
    positions, ticks and tickmap flattened into one record).
    - config: /repo/src/io.rs InvariantConfig { admin, protocol_fee }
    - fee_tiers: collections/fee_tiers.rs:6-8
    - pools: collections/pools.rs:5-7
    - pool_keys, pool_keys_by_index, pool_keys_length: collections/pool_keys.rs:5-9
    - positions_length, positions: collections/positions.rs:5-8
    - ticks: collections/ticks.rs:5-7
    - bitmap: collections/tickmap.rs:12-14
    [HashMap] is modelled by std++'s finite map [gmap]. *)
Record state : Type := mkState {
  s_admin : actor_id;
  s_protocol_fee : Z;
  s_fee_tiers : list fee_tier;
  s_pools : gmap pool_key pool;
  s_pool_keys : gmap pool_key Z;
  s_pool_keys_by_index : gmap Z pool_key;
  s_pool_keys_length : Z;
  s_positions_length : gmap actor_id Z;
  s_positions : gmap (actor_id * Z) position;
  s_ticks : gmap (pool_key * Z) tick;
  s_bitmap : gmap (Z * pool_key) Z;
  s_balances : gmap actor_id (gmap actor_id Z);
  s_awaiting : gmap (message_id * actor_id) awaiting_transfer;
}.

(** Field assignments of [Invariant]. *)
Definition set_protocol_fee v s :=
  mkState (s_admin s) v (s_fee_tiers s) (s_pools s) (s_pool_keys s) (s_pool_keys_by_index s)
    (s_pool_keys_length s) (s_positions_length s) (s_positions s) (s_ticks s) (s_bitmap s)
    (s_balances s) (s_awaiting s).
Definition set_fee_tiers v s :=
  mkState (s_admin s) (s_protocol_fee s) v (s_pools s) (s_pool_keys s) (s_pool_keys_by_index s)
    (s_pool_keys_length s) (s_positions_length s) (s_positions s) (s_ticks s) (s_bitmap s)
    (s_balances s) (s_awaiting s).
Definition set_pools v s :=
  mkState (s_admin s) (s_protocol_fee s) (s_fee_tiers s) v (s_pool_keys s) (s_pool_keys_by_index s)
    (s_pool_keys_length s) (s_positions_length s) (s_positions s) (s_ticks s) (s_bitmap s)
    (s_balances s) (s_awaiting s).
Definition set_pool_keys v w n s :=
  mkState (s_admin s) (s_protocol_fee s) (s_fee_tiers s) (s_pools s) v w
    n (s_positions_length s) (s_positions s) (s_ticks s) (s_bitmap s)
    (s_balances s) (s_awaiting s).
Definition set_positions n v s :=
  mkState (s_admin s) (s_protocol_fee s) (s_fee_tiers s) (s_pools s) (s_pool_keys s)
    (s_pool_keys_by_index s) (s_pool_keys_length s) n v (s_ticks s) (s_bitmap s)
    (s_balances s) (s_awaiting s).
Definition set_ticks v s :=
  mkState (s_admin s) (s_protocol_fee s) (s_fee_tiers s) (s_pools s) (s_pool_keys s)
    (s_pool_keys_by_index s) (s_pool_keys_length s) (s_positions_length s) (s_positions s) v
    (s_bitmap s) (s_balances s) (s_awaiting s).
Definition set_bitmap v s :=
  mkState (s_admin s) (s_protocol_fee s) (s_fee_tiers s) (s_pools s) (s_pool_keys s)
    (s_pool_keys_by_index s) (s_pool_keys_length s) (s_positions_length s) (s_positions s)
    (s_ticks s) v (s_balances s) (s_awaiting s).
Definition set_balances v s :=
  mkState (s_admin s) (s_protocol_fee s) (s_fee_tiers s) (s_pools s) (s_pool_keys s)
    (s_pool_keys_by_index s) (s_pool_keys_length s) (s_positions_length s) (s_positions s)
    (s_ticks s) (s_bitmap s) v (s_awaiting s).
Definition set_awaiting v s :=
  mkState (s_admin s) (s_protocol_fee s) (s_fee_tiers s) (s_pools s) (s_pool_keys s)
    (s_pool_keys_by_index s) (s_pool_keys_length s) (s_positions_length s) (s_positions s)
    (s_ticks s) (s_bitmap s) (s_balances s) v.

(** /repo/src/invariant_storage.rs:323-328 and /repo/src/invariant_service.rs:72-74:
    the state right after program initialisation. *)
Definition init_state (admin : actor_id) (protocol_fee : Z) : state :=
  mkState admin protocol_fee [] ∅ ∅ ∅ 0 ∅ ∅ ∅ ∅ ∅ ∅.
