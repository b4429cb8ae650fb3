(** What a route of swaps moves between tokens (specification of C30). *)
From Verif Require Import Base Types ServiceM.
From stdpp Require Import list.
Open Scope Z_scope.

(** Token a hop takes and token it gives. *)
Definition hop_in (h : swap_hop) : actor_id := if h_x_to_y h then pk_token_x (h_pool_key h) else pk_token_y (h_pool_key h).
Definition hop_out (h : swap_hop) : actor_id := if h_x_to_y h then pk_token_y (h_pool_key h) else pk_token_x (h_pool_key h).

(** What the hops move in token [t] when the amounts at their joints are [amounts]. *)
Fixpoint flow (hops : list swap_hop) (amounts : list Z) (t : Z) : Z :=
  match hops, amounts with
  | h :: hs, a :: ((b :: _) as rest) =>
      (if t =? hop_out h then b else 0) - (if t =? hop_in h then a else 0) + flow hs rest t
  | _, _ => 0
  end.

(** Each hop takes the token that the previous one gives. *)
Fixpoint chained (t : actor_id) (hops : list swap_hop) (t' : actor_id) : Prop :=
  match hops with
  | [] => t = t'
  | h :: hs => hop_in h = t /\ chained (hop_out h) hs t'
  end.
