(** What a call records and lists, and when a token transfer may start (specification). *)
From Verif Require Import Base Decimal Types StateM ServiceM AsyncM SpecMath.
From stdpp Require Import gmap list.
Open Scope Z_scope.

(** The data of tick [i] of pool [k] after a position was opened on it at time
    [now]: what the tick remembered before is kept; a tick that did not exist
    remembers the whole past when it lies at or below the current tick and nothing
    when it lies above. *)
Definition opened_tick (s : state) (k : pool_key) (p : pool) (now i : Z) (t' : tick) : Prop :=
  t_index t' = i /\
  match get_tick s k i with
  | Ok t =>
      t_fee_growth_outside_x t' = t_fee_growth_outside_x t /\
      t_fee_growth_outside_y t' = t_fee_growth_outside_y t /\
      t_seconds_outside t' = t_seconds_outside t
  | _ =>
      (i <= p_current_tick_index p ->
         t_fee_growth_outside_x t' = p_fee_growth_global_x p /\
         t_fee_growth_outside_y t' = p_fee_growth_global_y p /\
         t_seconds_outside t' = (now - p_start_timestamp p) mod 2 ^ 64) /\
      (p_current_tick_index p < i ->
         t_fee_growth_outside_x t' = 0 /\ t_fee_growth_outside_y t' = 0 /\ t_seconds_outside t' = 0)
  end.

(** The transfers among the listed (token, amount) pairs that move something. *)
Definition nonzero (ts : list (Z * Z)) : list (Z * Z) := List.filter (fun ta => negb (snd ta =? 0)) ts.

(** The transfers can be requested: none of them is in VARA, there is gas for each
    of them, the caller is not the program itself, and the system accepts the
    messages. *)
Definition sendable (e : env) (n : send_env) (ts : list (Z * Z)) : Prop :=
  (forall t a, In (t, a) (nonzero ts) -> t <> VARA_ADDRESS) /\
  (nonzero ts <> [] -> Z.of_nat (length (nonzero ts)) * 42400200000 <= e_gas e /\
     e_caller e <> e_program e /\ n_ok1 n = true) /\
  ((2 <= length (nonzero ts))%nat -> n_ok2 n = true).

(** The first execution succeeds and asks for exactly these transfers. *)
Definition asks (r : res (state * transfer_type * list request)) (ty : transfer_type) (ts : list (Z * Z)) : Prop :=
  exists s' qs, r = Ok (s', ty, qs) /\ map (fun q => (q_token q, q_amount q)) qs = nonzero ts.
Definition starts (r : res (state * transfer_type * list request)) : Prop :=
  exists x, r = Ok x.
