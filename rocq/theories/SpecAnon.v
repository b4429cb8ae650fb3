(** Users under other names (specification for C76).

    A renaming of the users is an injective function on addresses.  It renames the
    administrator, the fee receivers, the callers and the owners of balances,
    positions and awaited transfers; tokens keep their addresses. *)
From Verif Require Import Base Types CollectionsM StateM ServiceM SpecHistory SpecIndep SpecSale.
From stdpp Require Import gmap list.
Open Scope Z_scope.

Section rename.
  Context (f : actor_id -> actor_id).

  Definition rename_pool (p : pool) : pool := set_fee_receiver (f (p_fee_receiver p)) p.
  Definition rename_op (o : op) : op :=
    match o with
    | OpChangeFeeReceiver k r => OpChangeFeeReceiver k (f r)
    | OpTransferPosition i r => OpTransferPosition i (f r)
    | _ => o
    end.
  Definition rename_transfer (a : awaiting_transfer) : awaiting_transfer :=
    mkAwaiting (f (aw_account a)) (aw_amount a) (aw_type a).
  Definition rename_event (ev : event) : event :=
    match ev with
    | Call e o => Call (sent_by (f (e_caller e)) e) (rename_op o)
    | Credit u t a => Credit (f u) t a
    | Debit u t a => Debit (f u) t a
    | Awaiting m => Awaiting (rename_transfer <$> m)
    end.

  (** Answers mention users only as fee receivers of a pool. *)
  Definition rename_swap (r : calculate_swap_result) : calculate_swap_result :=
    mkSwapOut (cs_amount_in r) (cs_amount_out r) (cs_start_sqrt_price r) (cs_target_sqrt_price r)
      (cs_fee r) (rename_pool (cs_pool r)) (cs_ticks r).
  Definition rename_reply (r : reply) : reply :=
    match r with RSwap r => RSwap (rename_swap r) | _ => r end.
  Definition rename_answer (a : res reply) : res reply :=
    match a with Ok r => Ok (rename_reply r) | Err e => Err e | Panic => Panic | Loop => Loop end.

  (** The second state is the first one with the users renamed. *)
  Record renamed (s s' : state) : Prop := {
    rn_admin : s_admin s' = f (s_admin s);
    rn_fee : s_protocol_fee s' = s_protocol_fee s;
    rn_tiers : s_fee_tiers s' = s_fee_tiers s;
    rn_pools : s_pools s' = rename_pool <$> s_pools s;
    rn_keys : s_pool_keys s' = s_pool_keys s /\ s_pool_keys_by_index s' = s_pool_keys_by_index s /\
              s_pool_keys_length s' = s_pool_keys_length s;
    rn_ticks : s_ticks s' = s_ticks s;
    rn_bitmap : s_bitmap s' = s_bitmap s;
    rn_balances : forall u, s_balances s' !! f u = s_balances s !! u;
    rn_amounts : forall u, get_user_position_amount s' (f u) = get_user_position_amount s u;
    rn_positions : forall u i, s_positions s' !! (f u, i) = s_positions s !! (u, i);
    rn_awaiting : s_awaiting s' = rename_transfer <$> s_awaiting s;
  }.
End rename.

(** Exchanging the names of two users. *)
Definition exchange (u v w : actor_id) : actor_id :=
  if Z.eqb w u then v else if Z.eqb w v then u else w.

(** Two users who own the same: balances and positions, in the same order. *)
Definition own_the_same (s : state) (u v : actor_id) : Prop :=
  s_balances s !! u = s_balances s !! v /\
  get_user_position_amount s u = get_user_position_amount s v /\
  forall i, s_positions s !! (u, i) = s_positions s !! (v, i).

(** A user with no office: neither administrator nor fee receiver, and with no
    token transfer under way. *)
Definition ordinary (s : state) (u : actor_id) : Prop :=
  u <> s_admin s /\ (forall k p, s_pools s !! k = Some p -> u <> p_fee_receiver p) /\
  forall m a, s_awaiting s !! m = Some a -> u <> aw_account a.

(** The call does not name the user. *)
Definition names (u : actor_id) (o : op) : Prop :=
  match o with OpChangeFeeReceiver _ r | OpTransferPosition _ r => r = u | _ => False end.

(** Pools handed out by a query, with the users renamed. *)
Definition rename_result {A B} (h : A -> B) (r : res A) : res B :=
  match r with Ok a => Ok (h a) | Err e => Err e | Panic => Panic | Loop => Loop end.
Definition rename_groups (f : actor_id -> actor_id) (g : list (pool * list (position * Z))) :
    list (pool * list (position * Z)) := map (fun x => (rename_pool f x.1, x.2)) g.
