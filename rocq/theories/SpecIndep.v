(** Which parts of the exchange a call concerns (specification for C70).

    The exchange consists of its pools, its users, the administrator's settings,
    the list of pools and the table of awaited token transfers. *)
From Verif Require Import Base Types CollectionsM StateM ServiceM SpecHistory.
From stdpp Require Import gmap list.
Open Scope Z_scope.

Inductive part : Type :=
| PoolPart (k : pool_key)        (* a pool, its ticks and its bitmap *)
| UserPart (u : actor_id)        (* a user's balances and positions *)
| SettingsPart                   (* the protocol fee and the fee tiers *)
| RegistryPart                   (* the list of pools *)
| TransfersPart.                 (* token transfers under way *)

#[global] Instance part_eq_dec : EqDecision part.
Proof. solve_decision. Defined.

(** The two states agree about a part. *)
Definition same_part (c : part) (s s' : state) : Prop :=
  match c with
  | PoolPart k =>
      s_pools s !! k = s_pools s' !! k /\
      (forall i, s_ticks s !! (k, i) = s_ticks s' !! (k, i)) /\
      (forall j, s_bitmap s !! (j, k) = s_bitmap s' !! (j, k))
  | UserPart u =>
      s_balances s !! u = s_balances s' !! u /\
      s_positions_length s !! u = s_positions_length s' !! u /\
      (forall i, s_positions s !! (u, i) = s_positions s' !! (u, i))
  | SettingsPart => s_protocol_fee s = s_protocol_fee s' /\ s_fee_tiers s = s_fee_tiers s'
  | RegistryPart =>
      s_pool_keys s = s_pool_keys s' /\ s_pool_keys_by_index s = s_pool_keys_by_index s' /\
      s_pool_keys_length s = s_pool_keys_length s'
  | TransfersPart => s_awaiting s = s_awaiting s'
  end.

(** The pool of the position with this index, if there is one. *)
Definition pool_of_position (s : state) (u : actor_id) (i : Z) : list part :=
  match s_positions s !! (u, i) with Some pos => [PoolPart (pos_pool_key pos)] | None => [] end.

(** The parts a call may change. *)
Definition changes (s : state) (ev : event) : list part :=
  match ev with
  | Call e o =>
      let u := e_caller e in
      match o with
      | OpChangeProtocolFee _ | OpAddFeeTier _ | OpRemoveFeeTier _ => [SettingsPart]
      | OpCreatePool x y ft _ _ => [RegistryPart; PoolPart (mkPoolKey (Z.min x y) (Z.max x y) ft)]
      | OpChangeFeeReceiver k _ => [PoolPart k]
      | OpCreatePosition k _ _ _ _ _ | OpSwap k _ _ _ _ | OpWithdrawProtocolFee k => [UserPart u; PoolPart k]
      | OpRemovePosition i | OpClaimFee i => UserPart u :: pool_of_position s u i
      | OpTransferPosition _ v => [UserPart u; UserPart v]
      | OpSwapRoute _ _ _ hops => UserPart u :: map (fun h => PoolPart (h_pool_key h)) hops
      | OpDepositVara | OpWithdrawVara _ => [UserPart u]
      end
  | Credit u _ _ | Debit u _ _ => [UserPart u]
  | Awaiting _ => [TransfersPart]
  end.

(** The parts a call depends on: swaps read the protocol fee, and creating a pool
    reads the fee tiers. *)
Definition concerns (s : state) (ev : event) : list part :=
  match ev with
  | Call _ (OpSwap _ _ _ _ _) | Call _ (OpSwapRoute _ _ _ _) | Call _ (OpCreatePool _ _ _ _ _) =>
      SettingsPart :: changes s ev
  | _ => changes s ev
  end.

(** Neither call changes what the other one depends on. *)
Definition independent (s : state) (a b : event) : Prop :=
  (forall c, c ∈ changes s a -> c ∉ concerns s b) /\ (forall c, c ∈ changes s b -> c ∉ concerns s a).

(** What the caller is told: the value returned, or the reason of the failure. *)
Inductive reply : Type :=
| RUnit | RFee (f : Z) | RTier (ft : fee_tier) | RPosition (p : position) | RAmounts (x y : Z)
| RSwap (r : calculate_swap_result) | RAmount (a : Z).

Definition told {A} (f : A -> reply) (r : res (state * A)) : res reply :=
  let* (_, a) := r in Ok (f a).

Definition answer (s : state) (ev : event) : res reply :=
  match ev with
  | Call e o =>
      match o with
      | OpChangeProtocolFee f => told RFee (change_protocol_fee e s f)
      | OpAddFeeTier ft => told RTier (add_fee_tier e s ft)
      | OpRemoveFeeTier ft => told RTier (remove_fee_tier e s ft)
      | OpCreatePool x y ft p t => told (fun _ => RUnit) (create_pool e s x y ft p t)
      | OpChangeFeeReceiver k r => told (fun _ => RUnit) (change_fee_receiver e s k r)
      | OpCreatePosition k lo up l sl su => told RPosition (create_position e s k lo up l sl su)
      | OpRemovePosition i => told (fun a => RAmounts a.1 a.2) (remove_position e s i)
      | OpTransferPosition i r => told (fun _ => RUnit) (transfer_position e s i r)
      | OpSwap k d a b l => told RSwap (swap e s k d a b l)
      | OpSwapRoute a x sl h => told RAmount (swap_route e s a x sl h)
      | OpClaimFee i => told (fun a => RAmounts a.1 a.2) (claim_fee e s i)
      | OpWithdrawProtocolFee k => told (fun _ => RUnit) (withdraw_protocol_fee e s k)
      | OpDepositVara => told RAmount (deposit_vara e s)
      | OpWithdrawVara v => told RAmount (withdraw_vara e s v)
      end
  | Credit u t a => let* _ := increase_token_balance s t u a in Ok RUnit
  | Debit u t a => told RAmount (decrease_token_balance s t u a)
  | Awaiting _ => Ok RUnit
  end.

(** Running a list of calls, and the answers they get. *)
Fixpoint run (s : state) (evs : list event) : state :=
  match evs with [] => s | ev :: evs' => run (exec_event s ev) evs' end.
Fixpoint answers (s : state) (evs : list event) : list (res reply) :=
  match evs with [] => [] | ev :: evs' => answer s ev :: answers (exec_event s ev) evs' end.

(** All calls of a list keep to the given parts. *)
Fixpoint keeps_to (W R : part -> Prop) (s : state) (evs : list event) : Prop :=
  match evs with
  | [] => True
  | ev :: evs' =>
      (forall c, c ∈ changes s ev -> W c) /\ (forall c, c ∈ concerns s ev -> R c) /\
      keeps_to W R (exec_event s ev) evs'
  end.

(** A schedule of two parties: every call is marked with the party that makes it. *)
Definition calls_of (b : bool) (sched : list (bool * event)) : list event :=
  map snd (List.filter (fun c => Bool.eqb (fst c) b) sched).
Fixpoint answers_to (b : bool) (s : state) (sched : list (bool * event)) : list (res reply) :=
  match sched with
  | [] => []
  | (b', ev) :: sched' =>
      (if Bool.eqb b' b then [answer s ev] else []) ++ answers_to b (exec_event s ev) sched'
  end.
