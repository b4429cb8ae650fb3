(** Swaps that cross the ticks they pass (specification of the guard of C23, C25 and C26).

    Tick [i] separates the ticks below it from [i] and those above.  When the
    current tick of a pool moves from [c] to [c'], it passes the ticks in (c', c]
    or in (c, c'].  A swap is clean if the initialized ticks it crossed are
    exactly those that its current tick passed. *)
From Verif Require Import Base Types StateM ServiceM SpecHistory.
From stdpp Require Import gmap list.
Open Scope Z_scope.

Definition passes (c c' i : Z) : Prop := c' < i <= c \/ c < i <= c'.

Definition clean_result (s : state) (k : pool_key) (r : calculate_swap_result) : Prop :=
  forall p i, s_pools s !! k = Some p -> is_Some (s_ticks s !! (k, i)) ->
    (i ∈ map t_index (cs_ticks r) <-> passes (p_current_tick_index p) (p_current_tick_index (cs_pool r)) i).

Fixpoint clean_route (e : env) (s : state) (amount : Z) (hops : list swap_hop) : Prop :=
  match hops with
  | [] => True
  | h :: t =>
      forall s' r, swap e s (h_pool_key h) (h_x_to_y h) amount true (hop_limit (h_x_to_y h)) = Ok (s', r) ->
        clean_result s (h_pool_key h) r /\ clean_route e s' (cs_amount_out r) t
  end.

Definition clean (s : state) (ev : event) : Prop :=
  match ev with
  | Call e (OpSwap k d a bi lim) => forall s' r, swap e s k d a bi lim = Ok (s', r) -> clean_result s k r
  | Call e (OpSwapRoute a _ _ hops) => clean_route e s a hops
  | _ => True
  end.

(** The side condition of the guarded theorems. *)
Definition regular (s : state) (ev : event) : Prop := room s ev /\ clean s ev.

(** Conditions, on the arguments of a swap, the initialized ticks and the final
    price [pf], under which every swap is clean: towards higher prices the limit
    is not the price of an initialized tick; towards lower prices with an exact
    input the final price is not just below (or at) that of an initialized tick. *)
Definition careful (s : state) (k : pool_key) (x_to_y by_amount_in : bool) (lim pf : Z) : Prop :=
  forall i t, s_ticks s !! (k, i) = Some t ->
    if x_to_y
    then by_amount_in = true -> pf <= t_sqrt_price t -> 10 ^ 24 <= (t_sqrt_price t - pf) * t_sqrt_price t
    else t_sqrt_price t <> lim.
