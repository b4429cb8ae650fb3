(** Histories in time, with a stopwatch on every tick (specification).

    Time passes between the calls.  The stopwatch of tick [i] of a pool runs while
    the pool's current tick is below [i].  Before a tick exists the whole time
    since the creation of the pool is counted. *)
From Verif Require Import Base Types CollectionsM StateM ServiceM SpecMath SpecHistory SpecClean.
From stdpp Require Import gmap list.
Open Scope Z_scope.

Definition stopwatches : Type := pool_key -> Z -> Z.

(** The current tick of pool [k] is below [i]. *)
Definition is_below (s : state) (k : pool_key) (i : Z) : bool :=
  match pools_get s k with Ok p => p_current_tick_index p <? i | _ => false end.

(** Seconds from the creation of pool [k] to [now]. *)
Definition age (s : state) (k : pool_key) (now : Z) : Z :=
  match pools_get s k with Ok p => now - p_start_timestamp p | _ => 0 end.

(** After some time has passed. *)
Definition after_wait (s : state) (dt : Z) (w : stopwatches) : stopwatches :=
  fun k i => w k i + (if is_below s k i then dt else 0).
(** After an event that led from [s] to [s'] at time [now]. *)
Definition after_event (s s' : state) (now : Z) (w : stopwatches) : stopwatches :=
  fun k i => match get_tick s k i with Ok _ => w k i | _ => age s' k now end.

(** [timed G evs s now w]: the history [evs], with the side condition [G], ends in
    [s]; it is [now], and the stopwatches show [w].  The block time never decreases
    and every call sees the present time. *)
Inductive timed (G : state -> event -> Prop) : list event -> state -> Z -> stopwatches -> Prop :=
| timed_start admin fee now : u128 fee -> u64 now -> timed G [] (init_state admin fee) now (fun _ _ => 0)
| timed_wait evs s now w now' :
    timed G evs s now w -> now <= now' -> u64 now' -> timed G evs s now' (after_wait s (now' - now) w)
| timed_event evs s now w ev :
    timed G evs s now w -> event_wf ev -> G s ev ->
    match ev with Call e _ => e_timestamp e = now | _ => True end ->
    timed G (evs ++ [ev]) (exec_event s ev) now (after_event s (exec_event s ev) now w).

(** Seconds spent below tick [t] and at or above it, read off from what the pool and the tick store. *)
Definition seconds_below (now : Z) (p : pool) (t : tick) : Z :=
  if t_index t <=? p_current_tick_index p then t_seconds_outside t else now - p_start_timestamp p - t_seconds_outside t.
Definition seconds_above (now : Z) (p : pool) (t : tick) : Z :=
  if t_index t <=? p_current_tick_index p then now - p_start_timestamp p - t_seconds_outside t else t_seconds_outside t.
