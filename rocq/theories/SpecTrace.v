(** When two states of the exchange cannot be told apart (specification for C71).

    Two things are left out of the comparison on purpose: the time of a pool's last
    change, which nothing reads, and the sign stored with a tick whose liquidity
    change is zero, which has no meaning. *)
From Verif Require Import Base Types TickmapM CollectionsM StateM ServiceM SpecHistory SpecIndep.
From stdpp Require Import gmap list.
Open Scope Z_scope.

(** The same pool, except perhaps for the time of its last change. *)
Definition same_pool (p q : pool) : Prop :=
  p_liquidity p = p_liquidity q /\ p_sqrt_price p = p_sqrt_price q /\
  p_current_tick_index p = p_current_tick_index q /\
  p_fee_growth_global_x p = p_fee_growth_global_x q /\ p_fee_growth_global_y p = p_fee_growth_global_y q /\
  p_fee_protocol_token_x p = p_fee_protocol_token_x q /\ p_fee_protocol_token_y p = p_fee_protocol_token_y q /\
  p_start_timestamp p = p_start_timestamp q /\ p_fee_receiver p = p_fee_receiver q.

(** The same tick; the sign only matters if the liquidity change is not zero. *)
Definition same_tick (t u : tick) : Prop :=
  t_index t = t_index u /\ t_liquidity_change t = t_liquidity_change u /\
  t_liquidity_gross t = t_liquidity_gross u /\ t_sqrt_price t = t_sqrt_price u /\
  t_fee_growth_outside_x t = t_fee_growth_outside_x u /\ t_fee_growth_outside_y t = t_fee_growth_outside_y u /\
  t_seconds_outside t = t_seconds_outside u /\
  (t_liquidity_change t <> 0 -> t_sign t = t_sign u).

(** Both are absent, or both are present and related. *)
Definition both_or_none {A} (R : A -> A -> Prop) (x y : option A) : Prop :=
  match x, y with Some a, Some b => R a b | None, None => True | _, _ => False end.

(** The two states are the same for everybody, except for the balances of [u]. *)
Record same_but_for (u : actor_id) (s s' : state) : Prop := {
  sb_settings : s_admin s = s_admin s' /\ s_protocol_fee s = s_protocol_fee s' /\ s_fee_tiers s = s_fee_tiers s';
  sb_registry : s_pool_keys s = s_pool_keys s' /\ s_pool_keys_by_index s = s_pool_keys_by_index s' /\
                s_pool_keys_length s = s_pool_keys_length s';
  sb_transfers : s_awaiting s = s_awaiting s';
  sb_pools : forall k, both_or_none same_pool (s_pools s !! k) (s_pools s' !! k);
  sb_ticks : forall k i, both_or_none same_tick (s_ticks s !! (k, i)) (s_ticks s' !! (k, i));
  sb_bitmap : forall k c, chunk_at (s_bitmap s) k c = chunk_at (s_bitmap s') k c;
  sb_positions : forall v i, get_position s v i = get_position s' v i;
  sb_amounts : forall v, get_user_position_amount s v = get_user_position_amount s' v;
  sb_balances : forall v, v <> u -> s_balances s !! v = s_balances s' !! v;
}.

(** The event is not a call of [u] and not a transfer of tokens to or from [u]. *)
Definition not_by (u : actor_id) (ev : event) : Prop :=
  match ev with
  | Call e _ => e_caller e <> u
  | Credit v _ _ | Debit v _ _ => v <> u
  | Awaiting _ => True
  end.

(** The same result of a swap. *)
Definition same_swap (r r' : calculate_swap_result) : Prop :=
  cs_amount_in r = cs_amount_in r' /\ cs_amount_out r = cs_amount_out r' /\
  cs_start_sqrt_price r = cs_start_sqrt_price r' /\ cs_target_sqrt_price r = cs_target_sqrt_price r' /\
  cs_fee r = cs_fee r' /\ same_pool (cs_pool r) (cs_pool r') /\ Forall2 same_tick (cs_ticks r) (cs_ticks r').

(** The same answer of a call: the same failure, or the same value. *)
Definition same_answer (a a' : res reply) : Prop :=
  match a, a' with
  | Ok (RSwap r), Ok (RSwap r') => same_swap r r'
  | _, _ => a = a'
  end.

(** Two outcomes of a query: the same failure, or related values. *)
Definition like {A} (R : A -> A -> Prop) (r r' : res A) : Prop :=
  match r, r' with
  | Ok a, Ok b => R a b
  | Err e, Err e' => e = e'
  | Panic, Panic => True
  | Loop, Loop => True
  | _, _ => False
  end.

(** The same quotation. *)
Definition same_quote (q q' : quote_result) : Prop :=
  q_amount_in q = q_amount_in q' /\ q_amount_out q = q_amount_out q' /\
  q_target_sqrt_price q = q_target_sqrt_price q' /\ Forall2 same_tick (q_ticks q) (q_ticks q').
