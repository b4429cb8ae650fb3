(** Which calls the list of fee tiers matters to (specification for C81). *)
From Verif Require Import Base Types CollectionsM StateM ServiceM SpecHistory SpecIndep.
From stdpp Require Import gmap list.
Open Scope Z_scope.

(** Two states that differ at most in the fee tiers on offer. *)
Record same_but_tiers (s s' : state) : Prop := {
  st_admin : s_admin s' = s_admin s;
  st_protocol_fee : s_protocol_fee s' = s_protocol_fee s;
  st_pools : s_pools s' = s_pools s;
  st_pool_keys : s_pool_keys s' = s_pool_keys s;
  st_pool_keys_by_index : s_pool_keys_by_index s' = s_pool_keys_by_index s;
  st_pool_keys_length : s_pool_keys_length s' = s_pool_keys_length s;
  st_positions_length : s_positions_length s' = s_positions_length s;
  st_positions : s_positions s' = s_positions s;
  st_ticks : s_ticks s' = s_ticks s;
  st_bitmap : s_bitmap s' = s_bitmap s;
  st_balances : s_balances s' = s_balances s;
  st_awaiting : s_awaiting s' = s_awaiting s;
}.

(** The call does not change the offer, and if it opens a pool, then with a fee tier that
    is in both offers or in neither. *)
Definition for_both (l l' : list fee_tier) (ev : event) : Prop :=
  match ev with
  | Call _ (OpAddFeeTier _) | Call _ (OpRemoveFeeTier _) => False
  | Call _ (OpCreatePool _ _ ft _ _) => ft ∈ l <-> ft ∈ l'
  | _ => True
  end.
