(** What an observer reconstructs from the emitted events (specification). *)
From Verif Require Import Base Types StateM ServiceM SpecHistory EventM.
From stdpp Require Import gmap list.
From Coq Require Import Sorted Bool.
Open Scope Z_scope.

(** What one event of a history emits: only the synchronous entry points notify. *)
Definition event_log (s : state) (ev : event) : list emitted :=
  match ev with Call e o => emits e s o | _ => [] end.

(** [run_log G s0 evs s log]: running [evs] from [s0] leads to [s] and emits [log];
    every event satisfied [G] when it ran. *)
Inductive run_log (G : state -> event -> Prop) (s0 : state) : list event -> state -> list emitted -> Prop :=
| run_log_nil : run_log G s0 [] s0 []
| run_log_snoc evs s log ev :
    run_log G s0 evs s log -> event_wf ev -> G s ev ->
    run_log G s0 (evs ++ [ev]) (exec_event s ev) (log ++ event_log s ev).

(** A position without its owner and its fee data: pool, liquidity, lower and upper tick. *)
Definition shape : Type := pool_key * Z * Z * Z.
Definition shape_of (p : position) : shape := (pos_pool_key p, pos_liquidity p, pos_lower p, pos_upper p).

(** All the open positions of all owners. *)
Definition open_shapes (s : state) : list shape := map (fun kp => shape_of (snd kp)) (map_to_list (s_positions s)).

Definition created_shapes (log : list emitted) : list shape :=
  omap (fun ev => match ev with PositionCreatedEvent _ _ k l lo up _ => Some (k, l, lo, up) | _ => None end) log.
Definition removed_shapes (log : list emitted) : list shape :=
  omap (fun ev => match ev with PositionRemovedEvent _ _ k l lo up _ => Some (k, l, lo, up) | _ => None end) log.

(** The prices at the two ends of the swaps of pool [k]. *)
Definition price_moves (k : pool_key) (log : list emitted) : list (Z * Z) :=
  omap (fun ev => match ev with
                  | SwapEvent _ _ k' _ _ _ start target _ => if bool_decide (k' = k) then Some (start, target) else None
                  | _ => None end) log.
(** Each move starts where the previous one ended; the whole leads from [a] to [b]. *)
Fixpoint chained (a : Z) (moves : list (Z * Z)) (b : Z) : Prop :=
  match moves with
  | [] => a = b
  | (start, target) :: rest => start = a /\ chained target rest b
  end.

(** The payments reported by swap events: (token, change of the caller's balance). *)
Definition payments (log : list emitted) : list (Z * Z) :=
  flat_map (fun ev => match ev with
                      | SwapEvent _ _ k i o _ _ _ x_to_y =>
                          if x_to_y then [(pk_token_x k, - i); (pk_token_y k, o)]
                          else [(pk_token_y k, - i); (pk_token_x k, o)]
                      | _ => [] end) log.

(** Liquidity that a list of shapes puts at tick [c] of pool [k]. *)
Definition liquidity_at (k : pool_key) (c : Z) (l : list shape) : Z :=
  foldr (fun x acc => let '(k', liq, lo, up) := x in
           (if bool_decide (k' = k) && (lo <=? c) && (c <? up) then liq else 0) + acc) 0 l.

(** The listed ticks of pool [k] exist in [s], come in the order in which a swap
    from price [start] to price [target] meets them, and lie between the two. *)
Definition crossed_in_order (s : state) (k : pool_key) (start target : Z) (x_to_y : bool) (idx : list Z) : Prop :=
  StronglySorted (fun i j : Z => if x_to_y then j < i else i < j) idx /\
  forall i, In i idx -> exists t, get_tick s k i = Ok t /\
    if x_to_y then target <= t_sqrt_price t <= start else start <= t_sqrt_price t <= target.

(** The events of a sequence of swaps of [who] at time [now]: each swap reports the
    ticks it crossed, if any, and then itself. *)
Inductive reports (s : state) (now who : Z) : list emitted -> Prop :=
| reports_none : reports s now who []
| reports_swap k i o f start target (d : bool) idx rest :
    0 <= f <= i -> 0 < o -> (if d then target <= start else start <= target) ->
    crossed_in_order s k start target d idx -> reports s now who rest ->
    reports s now who
      ((if bool_decide (idx = []) then [] else [CrossTickEvent now who k idx])
       ++ SwapEvent now who k i o f start target d :: rest).

(** Pool and direction of the reported swaps. *)
Definition swaps_told (log : list emitted) : list (pool_key * bool) :=
  omap (fun ev => match ev with SwapEvent _ _ k _ _ _ _ _ d => Some (k, d) | _ => None end) log.
