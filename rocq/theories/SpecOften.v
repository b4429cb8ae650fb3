(** Claiming the fees of a position again and again (specification for C72). *)
From Verif Require Import Base Types TickmapM CollectionsM StateM ServiceM SpecMath SpecFees SpecSum SpecHistory SpecSolv SpecShare SpecIndep SpecTrace.
From stdpp Require Import gmap list.
Open Scope Z_scope.

(** The two states are the same for everybody but [u]: everything but the balances
    and the positions of [u]. *)
Record same_for_others (u : actor_id) (s s' : state) : Prop := {
  sf_settings : s_admin s = s_admin s' /\ s_protocol_fee s = s_protocol_fee s' /\ s_fee_tiers s = s_fee_tiers s';
  sf_pool_list : s_pool_keys s = s_pool_keys s' /\ s_pool_keys_by_index s = s_pool_keys_by_index s' /\
                 s_pool_keys_length s = s_pool_keys_length s';
  sf_transfers : s_awaiting s = s_awaiting s';
  sf_pools : forall k, both_or_none same_pool (s_pools s !! k) (s_pools s' !! k);
  sf_ticks : forall k i, both_or_none same_tick (s_ticks s !! (k, i)) (s_ticks s' !! (k, i));
  sf_bitmap : forall k c, chunk_at (s_bitmap s) k c = chunk_at (s_bitmap s') k c;
  sf_positions : forall v i, v <> u -> get_position s v i = get_position s' v i;
  sf_amounts : forall v, v <> u -> get_user_position_amount s v = get_user_position_amount s' v;
  sf_balances : forall v, v <> u -> s_balances s !! v = s_balances s' !! v;
}.

(** The event is somebody else's and does not hand [u] a position. *)
Definition aside (u : actor_id) (ev : event) : Prop :=
  not_by u ev /\ match ev with Call _ (OpTransferPosition _ v) => v <> u | _ => True end.

(** A turn: what the others do, and then a claim of position [i]. *)
Definition turn : Type := list event * env.
Definition turn_of (u : actor_id) (t : turn) : Prop :=
  e_caller (snd t) = u /\ Forall event_wf (fst t) /\ Forall (aside u) (fst t).

(** All that happens in the turns, and what of it the others do. *)
Definition with_claims (i : Z) (ts : list turn) : list event :=
  concat (map (fun t => fst t ++ [Call (snd t) (OpClaimFee i)]) ts).
Definition without_claims (ts : list turn) : list event := concat (map fst ts).

(** The claims of the turns: the state each of them meets and what it pays; [None]
    if one of them fails. *)
Fixpoint claims (i : Z) (s : state) (ts : list turn) : option (list (state * (Z * Z))) :=
  match ts with
  | [] => Some []
  | t :: ts' =>
      let s1 := run s (fst t) in
      match claim_fee (snd t) s1 i with
      | Ok (s2, xy) => match claims i s2 ts' with Some cs => Some ((s1, xy) :: cs) | None => None end
      | _ => None
      end
  end.

(** All that the claims paid in token x ([x] = true) or y. *)
Definition paid_out (x : bool) (cs : list (state * (Z * Z))) : Z :=
  sumZ (fun c => if x then fst (snd c) else snd (snd c)) cs.

(** The growth per unit of liquidity that the claims collected, all together. *)
Definition collected (x : bool) (u : actor_id) (i : Z) (cs : list (state * (Z * Z))) : Z :=
  sumZ (fun c => match get_position (fst c) u i with Ok pos => uncollected x (fst c) pos | _ => 0 end) cs.
