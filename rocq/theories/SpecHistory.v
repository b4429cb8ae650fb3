(** Histories of the contract (specification).

    A history is a list of events.  [Call] is one message to a synchronous entry
    point; a failed call leaves the state as it was.  The asynchronous entry
    points (deposits and withdrawals of fungible tokens) act on the state only by
    crediting or debiting one user's balance in one token and by changing the
    table of awaited transfers, in separate executions: [Credit], [Debit] and
    [Awaiting] stand for those (AsyncM.v models the protocol itself and shows
    that each of its steps is a sequence of these events). *)
From Verif Require Import Base Decimal Types StateM ServiceM SpecMath.
From stdpp Require Import gmap list.
Open Scope Z_scope.

Inductive event : Type :=
| Call (e : env) (o : op)
| Credit (user token amount : Z)
| Debit (user token : Z) (amount : option Z)
| Awaiting (m : gmap (message_id * actor_id) awaiting_transfer).

Definition exec_event (s : state) (ev : event) : state :=
  match ev with
  | Call e o => exec_op e s o
  | Credit u t a => match increase_token_balance s t u a with Ok s' => s' | _ => s end
  | Debit u t a => match decrease_token_balance s t u a with Ok (s', _) => s' | _ => s end
  | Awaiting m => set_awaiting m s
  end.

(** Arguments are values of their Rust types. *)
Definition u16 (v : Z) : Prop := 0 <= v < 2 ^ 16.
Definition u32 (v : Z) : Prop := 0 <= v < 2 ^ 32.
Definition u64 (v : Z) : Prop := 0 <= v < 2 ^ 64.
Definition i32 (v : Z) : Prop := - 2 ^ 31 <= v < 2 ^ 31.

Definition env_wf (e : env) : Prop := u64 (e_timestamp e) /\ u32 (e_block e) /\ u128 (e_value e).
Definition tier_wf (ft : fee_tier) : Prop := u128 (ft_fee ft) /\ u16 (ft_tick_spacing ft).

Definition op_wf (o : op) : Prop :=
  match o with
  | OpChangeProtocolFee f => u128 f
  | OpAddFeeTier ft | OpRemoveFeeTier ft => tier_wf ft
  | OpCreatePool _ _ ft p t => tier_wf ft /\ u128 p /\ i32 t
  | OpChangeFeeReceiver _ _ => True
  | OpCreatePosition _ lo up l sl su => i32 lo /\ i32 up /\ u256 l /\ u128 sl /\ u128 su
  | OpRemovePosition i | OpTransferPosition i _ | OpClaimFee i => u32 i
  | OpSwap _ _ a _ l => u256 a /\ u128 l
  | OpSwapRoute a x sl _ => u256 a /\ u256 x /\ u128 sl
  | OpWithdrawProtocolFee _ | OpDepositVara => True
  | OpWithdrawVara v => match v with Some a => u256 a | None => True end
  end.

Definition event_wf (ev : event) : Prop :=
  match ev with
  | Call e o => env_wf e /\ op_wf o
  | Credit _ _ a => u256 a
  | Debit _ _ a => match a with Some a => u256 a | None => True end
  | Awaiting _ => True
  end.

(** [history G evs s]: running [evs] from a freshly initialised contract ends in
    [s], and every event satisfied the side condition [G] when it ran. *)
Inductive history (G : state -> event -> Prop) : list event -> state -> Prop :=
| history_init admin fee : u128 fee -> history G [] (init_state admin fee)
| history_step evs s ev :
    history G evs s -> event_wf ev -> G s ev -> history G (evs ++ [ev]) (exec_event s ev).

(** No side condition. *)
Definition anything (s : state) (ev : event) : Prop := True.

(** No owner holds 2^32 - 1 positions (the position counter is a u32 that wraps). *)
Definition room (s : state) (ev : event) : Prop :=
  forall owner, get_user_position_amount s owner < 2 ^ 32 - 1.

(** The reported number of pools is below the 16-bit limit. *)
Definition pool_room (s : state) (ev : event) : Prop := s_pool_keys_length s < 2 ^ 16 - 1.

Lemma history_weaken (G G' : state -> event -> Prop) evs s :
  (forall s ev, G s ev -> G' s ev) -> history G evs s -> history G' evs s.
Proof. intros HG. induction 1; constructor; auto. Qed.
