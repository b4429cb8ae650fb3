(** The exchange without its fee accounting (specification for C80).

    Every swap fee is divided between the protocol and the liquidity providers.  Here the
    records of that division are blotted out: the protocol's tokens and the fee growths. *)
From Verif Require Import Base Types CollectionsM StateM ServiceM SpecHistory SpecIndep.
From stdpp Require Import gmap list.
Open Scope Z_scope.

Definition feeless_pool (p : pool) : pool :=
  mkPool (p_liquidity p) (p_sqrt_price p) (p_current_tick_index p) 0 0 0 0
    (p_start_timestamp p) (p_last_timestamp p) (p_fee_receiver p).
Definition feeless_tick (t : tick) : tick :=
  mkTick (t_index t) (t_sign t) (t_liquidity_change t) (t_liquidity_gross t) (t_sqrt_price t)
    0 0 (t_seconds_outside t).

Definition feeless_position (p : position) : position :=
  mkPosition (pos_pool_key p) (pos_liquidity p) (pos_lower p) (pos_upper p) 0 0
    (pos_last_block_number p) 0 0.

(** Two states that differ at most in the protocol fee and in the records of the division:
    the same pools and prices, the same liquidity at the same ticks, the same positions, the
    same balances. *)
Record same_market (s s' : state) : Prop := {
  sm_admin : s_admin s' = s_admin s;
  sm_fee_tiers : s_fee_tiers s' = s_fee_tiers s;
  sm_pools : feeless_pool <$> s_pools s' = feeless_pool <$> s_pools s;
  sm_pool_keys : s_pool_keys s' = s_pool_keys s;
  sm_pool_keys_by_index : s_pool_keys_by_index s' = s_pool_keys_by_index s;
  sm_pool_keys_length : s_pool_keys_length s' = s_pool_keys_length s;
  sm_positions_length : s_positions_length s' = s_positions_length s;
  sm_positions : feeless_position <$> s_positions s' = feeless_position <$> s_positions s;
  sm_ticks : feeless_tick <$> s_ticks s' = feeless_tick <$> s_ticks s;
  sm_bitmap : s_bitmap s' = s_bitmap s;
  sm_balances : s_balances s' = s_balances s;
  sm_awaiting : s_awaiting s' = s_awaiting s;
}.

(** The same call or token movement, if it is none that pays fees out; or the protocol fee
    is changed, perhaps differently. *)
Definition same_trade (ev ev' : event) : Prop :=
  match ev with
  | Call _ (OpRemovePosition _) | Call _ (OpClaimFee _) | Call _ (OpWithdrawProtocolFee _) => False
  | Call e (OpChangeProtocolFee _) => exists f', ev' = Call e (OpChangeProtocolFee f')
  | _ => ev' = ev
  end.

Definition feeless_swap (r : calculate_swap_result) : calculate_swap_result :=
  mkSwapOut (cs_amount_in r) (cs_amount_out r) (cs_start_sqrt_price r) (cs_target_sqrt_price r)
    (cs_fee r) (feeless_pool (cs_pool r)) (map feeless_tick (cs_ticks r)).
Definition feeless_reply (r : reply) : reply :=
  match r with RSwap r => RSwap (feeless_swap r) | RFee _ => RFee 0
  | RPosition p => RPosition (feeless_position p) | _ => r end.
Definition feeless_answer (a : res reply) : res reply :=
  match a with Ok r => Ok (feeless_reply r) | Err e => Err e | Panic => Panic | Loop => Loop end.
Definition feeless_quote (q : quote_result) : quote_result :=
  mkQuote (q_amount_in q) (q_amount_out q) (q_target_sqrt_price q) (map feeless_tick (q_ticks q)).

(** The call comes to an end: success or an error, no panic. *)
Definition ends {A} (r : res A) : Prop := match r with Ok _ | Err _ => True | _ => False end.
