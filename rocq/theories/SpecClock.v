(** What the program knows about time (specification for C77).

    Pools, ticks and positions carry timestamps, seconds and block numbers.  Here all
    of these are blotted out, in states, in calls and in answers. *)
From Verif Require Import Base Types CollectionsM StateM ServiceM SpecHistory SpecIndep.
From stdpp Require Import gmap list.
Open Scope Z_scope.

Definition timeless_pool (p : pool) : pool :=
  mkPool (p_liquidity p) (p_sqrt_price p) (p_current_tick_index p) (p_fee_growth_global_x p)
    (p_fee_growth_global_y p) (p_fee_protocol_token_x p) (p_fee_protocol_token_y p)
    0 0 (p_fee_receiver p).
Definition timeless_tick (t : tick) : tick :=
  mkTick (t_index t) (t_sign t) (t_liquidity_change t) (t_liquidity_gross t) (t_sqrt_price t)
    (t_fee_growth_outside_x t) (t_fee_growth_outside_y t) 0.
Definition timeless_position (q : position) : position :=
  mkPosition (pos_pool_key q) (pos_liquidity q) (pos_lower q) (pos_upper q)
    (pos_fee_growth_inside_x q) (pos_fee_growth_inside_y q) 0 (pos_tokens_owed_x q) (pos_tokens_owed_y q).
Definition timeless (s : state) : state :=
  mkState (s_admin s) (s_protocol_fee s) (s_fee_tiers s) (timeless_pool <$> s_pools s) (s_pool_keys s)
    (s_pool_keys_by_index s) (s_pool_keys_length s) (s_positions_length s)
    (timeless_position <$> s_positions s) (timeless_tick <$> s_ticks s) (s_bitmap s) (s_balances s) (s_awaiting s).

Definition timeless_env (e : env) : env := mkEnv (e_caller e) 0 0 (e_value e) (e_gas e) (e_program e).
Definition timeless_event (ev : event) : event :=
  match ev with Call e o => Call (timeless_env e) o | _ => ev end.

Definition timeless_swap (r : calculate_swap_result) : calculate_swap_result :=
  mkSwapOut (cs_amount_in r) (cs_amount_out r) (cs_start_sqrt_price r) (cs_target_sqrt_price r)
    (cs_fee r) (timeless_pool (cs_pool r)) (map timeless_tick (cs_ticks r)).
Definition timeless_reply (r : reply) : reply :=
  match r with RSwap r => RSwap (timeless_swap r) | RPosition q => RPosition (timeless_position q) | _ => r end.
Definition timeless_answer (a : res reply) : res reply :=
  match a with Ok r => Ok (timeless_reply r) | Err e => Err e | Panic => Panic | Loop => Loop end.

(** No pool used by a swap was created after it. *)
Definition created_by (now : Z) (s : state) (k : pool_key) : Prop :=
  forall p, pools_get s k = Ok p -> p_start_timestamp p <= now.
Definition dated (s : state) (ev : event) : Prop :=
  match ev with
  | Call e (OpSwap k _ _ _ _) => created_by (e_timestamp e) s k
  | Call e (OpSwapRoute _ _ _ hops) => forall h, h ∈ hops -> created_by (e_timestamp e) s (h_pool_key h)
  | _ => True
  end.
Fixpoint all_dated (s : state) (evs : list event) : Prop :=
  match evs with [] => True | ev :: evs' => dated s ev /\ all_dated (exec_event s ev) evs' end.

(** The clock never goes back. *)
Fixpoint in_order (now : Z) (evs : list event) : Prop :=
  match evs with
  | [] => True
  | Call e _ :: evs' => now <= e_timestamp e /\ in_order (e_timestamp e) evs'
  | _ :: evs' => in_order now evs'
  end.

(** A quote also lists the ticks crossed. *)
Definition timeless_quote (r : res quote_result) : res quote_result :=
  match r with
  | Ok q => Ok (mkQuote (q_amount_in q) (q_amount_out q) (q_target_sqrt_price q) (map timeless_tick (q_ticks q)))
  | _ => r
  end.
