(** Tokens under other addresses (specification for C78).

    The users keep their addresses; [g] gives every token another one. *)
From Verif Require Import Base Types CollectionsM StateM ServiceM SpecHistory SpecIndep.
From stdpp Require Import gmap list.
Open Scope Z_scope.

(** The order of the addresses decides which token of a pool is x and which is y, and
    VARA, the native coin, has a fixed address; both are respected. *)
Definition respects_order (g : actor_id -> actor_id) : Prop :=
  (forall a b, a < b -> g a < g b) /\ g VARA_ADDRESS = VARA_ADDRESS.

Section coins.
  Context (g : actor_id -> actor_id).
  Definition other_key (k : pool_key) : pool_key := mkPoolKey (g (pk_token_x k)) (g (pk_token_y k)) (pk_fee_tier k).
  Definition other_position (q : position) : position :=
    mkPosition (other_key (pos_pool_key q)) (pos_liquidity q) (pos_lower q) (pos_upper q) (pos_fee_growth_inside_x q)
      (pos_fee_growth_inside_y q) (pos_last_block_number q) (pos_tokens_owed_x q) (pos_tokens_owed_y q).
  Definition other_balances (m : gmap actor_id Z) : gmap actor_id Z := kmap g m.
  (** Same pools, ticks and bitmaps under the new keys; same positions in the pools of
      the new keys; same balances of the new tokens. *)
  Definition other_tokens (s : state) : state :=
    mkState (s_admin s) (s_protocol_fee s) (s_fee_tiers s) (kmap other_key (s_pools s)) (kmap other_key (s_pool_keys s))
      (other_key <$> s_pool_keys_by_index s) (s_pool_keys_length s) (s_positions_length s)
      (other_position <$> s_positions s) (kmap (fun ki => (other_key ki.1, ki.2)) (s_ticks s))
      (kmap (fun ck => (ck.1, other_key ck.2)) (s_bitmap s)) (other_balances <$> s_balances s) (s_awaiting s).

  Definition other_hop (h : swap_hop) : swap_hop := mkHop (other_key (h_pool_key h)) (h_x_to_y h).
  Definition other_op (o : op) : op :=
    match o with
    | OpCreatePool x y ft p t => OpCreatePool (g x) (g y) ft p t
    | OpChangeFeeReceiver k r => OpChangeFeeReceiver (other_key k) r
    | OpCreatePosition k lo up l sl su => OpCreatePosition (other_key k) lo up l sl su
    | OpSwap k d a b l => OpSwap (other_key k) d a b l
    | OpSwapRoute a x sl hops => OpSwapRoute a x sl (map other_hop hops)
    | OpWithdrawProtocolFee k => OpWithdrawProtocolFee (other_key k)
    | _ => o
    end.
  Definition other_event (ev : event) : event :=
    match ev with
    | Call e o => Call e (other_op o)
    | Credit u t a => Credit u (g t) a
    | Debit u t a => Debit u (g t) a
    | Awaiting m => Awaiting m
    end.
  Definition other_result {A B} (f : A -> B) (r : res A) : res B :=
    match r with Ok a => Ok (f a) | Err e => Err e | Panic => Panic | Loop => Loop end.
  Definition other_reply (r : reply) : reply :=
    match r with RPosition q => RPosition (other_position q) | _ => r end.
  Definition other_groups (gs : list (pool * list (position * Z))) : list (pool * list (position * Z)) :=
    map (fun r => (r.1, map (fun qi => (other_position qi.1, qi.2)) r.2)) gs.
End coins.
