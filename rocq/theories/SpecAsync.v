(** Interleavings of calls, token replies, timeouts and resumptions (specification). *)
From Verif Require Import Base Decimal Types StateM ServiceM AsyncM SpecMath SpecHistory P_Balance.
From stdpp Require Import gmap list.
Open Scope Z_scope.

(** Arguments are values of their Rust types; gifts are not negative. *)
Definition opt_u256 (o : option Z) : Prop := match o with Some a => u256 a | None => True end.
Definition async_wf (o : async_op) : Prop :=
  match o with
  | DepositSingleToken _ a => u256 a
  | WithdrawSingleToken _ a => opt_u256 a
  | DepositTokenPair x y => u256 (snd x) /\ u256 (snd y)
  | WithdrawTokenPair x y => opt_u256 (snd x) /\ opt_u256 (snd y)
  end.
Definition action_wf (a : action) : Prop :=
  match a with
  | ACall e o => env_wf e /\ op_wf o
  | AStart e _ _ o => env_wf e /\ async_wf o
  | AGift _ a => 0 <= a
  | _ => True
  end.

Definition is_init (w : world) : Prop :=
  exists admin fee held, u128 fee /\ (forall t, 0 <= held t) /\ w = init_world admin fee held.

(** [interleaving G w0 acts w]: performing [acts] from [w0] leads to [w]; every
    action satisfied [G] when it was performed. *)
Inductive interleaving (G : world -> action -> Prop) (w0 : world) : list action -> world -> Prop :=
| interleaving_nil : interleaving G w0 [] w0
| interleaving_snoc acts w a : interleaving G w0 acts w -> action_wf a -> G w a ->
    interleaving G w0 (acts ++ [a]) (wexec w a).

Definition any_action (w : world) (a : action) : Prop := True.

(** Balance of a user, and sum of all balances, in a token. *)
Definition wbal (w : world) (user token : Z) : Z := bal (w_state w) user token.
Definition wtotal (w : world) (token : Z) : Z := bal_total (w_state w) token.

(** The account a transfer is made from or to, on the side of the user. *)
Definition account_of (ty : transfer_type) (q : request) : actor_id :=
  match ty with Deposit => q_from q | Withdrawal => q_to q end.

(** The reply says that the transfer was made / was not made. *)
Definition says_moved (r : reply) : Prop := r_payload r = PTransfer true true.
Definition says_not_moved (r : reply) : Prop := r_payload r = PTransfer true false \/ r_payload r = PText.
(** A deposit is settled by crediting, a withdrawal by refunding. *)
Definition says_settle (ty : transfer_type) (r : reply) : Prop :=
  match ty with Deposit => says_moved r | Withdrawal => says_not_moved r end.

(** The contract of token [t] replies truthfully. *)
Definition truthful (t : actor_id) (w : world) (a : action) : Prop :=
  match a with
  | AProcess id moved r =>
      forall m, w_messages w !! id = Some m -> q_token (m_request m) = t ->
        (says_moved r -> moved = true) /\ (says_not_moved r -> moved = false)
  | _ => True
  end.

(** What users have paid into the pools less what they took out, in token [t]:
    the decrease of the sum of balances in trading calls. *)
Definition paid_in (w : world) (a : action) (t : actor_id) : Z :=
  match a with
  | ACall _ OpDepositVara | ACall _ (OpWithdrawVara _) => 0
  | ACall _ _ => wtotal w t - wtotal (wexec w a) t
  | _ => 0
  end.
Fixpoint reserves (w : world) (acts : list action) (t : actor_id) : Z :=
  match acts with
  | [] => 0
  | a :: acts => paid_in w a t + reserves (wexec w a) acts t
  end.

(** No owner holds 2^32 - 1 positions. *)
Definition wroom (w : world) (a : action) : Prop :=
  forall owner, get_user_position_amount (w_state w) owner < 2 ^ 32 - 1.

(** The transfers a call asks for: an amount left out means the whole balance, and
    nothing is sent for an amount of zero. *)
Definition asked (w : world) (caller token : actor_id) (amount : option Z) : actor_id * Z :=
  (token, match amount with Some a => a | None => wbal w caller token end).
Definition nonzero (l : list (actor_id * Z)) : list (actor_id * Z) :=
  List.filter (fun p => negb (snd p =? 0)) l.
Definition transfers_asked (w : world) (caller : actor_id) (o : async_op) : transfer_type * list (actor_id * Z) :=
  match o with
  | DepositSingleToken t a => (Deposit, nonzero [(t, a)])
  | WithdrawSingleToken t a => (Withdrawal, nonzero [asked w caller t a])
  | DepositTokenPair x y => (Deposit, nonzero [x; y])
  | WithdrawTokenPair x y => (Withdrawal, nonzero [asked w caller (fst x) (snd x); asked w caller (fst y) (snd y)])
  end.

(** Sum of the amounts of [t] in a list of transfers. *)
Definition total_of (t : actor_id) (l : list (actor_id * Z)) : Z :=
  foldr (fun p acc => (if t =? fst p then snd p else 0) + acc) 0 l.

(** The reply to message [id] that the token contract has produced so far. *)
Definition reply_to (w : world) (id : message_id) : option reply :=
  match w_messages w !! id with
  | Some m => match m_status m with Sent => None | Answered _ r | Delivered _ r => Some r end
  | None => None
  end.
Definition request_of (w : world) (id : message_id) : option (transfer_type * request) :=
  match w_messages w !! id with Some m => Some (m_type m, m_request m) | None => None end.

(** Delivering reply [id] in [w] changes nobody's balance. *)
Definition deliver_silent (w : world) (id : message_id) (hook : bool) : Prop :=
  forall u t, wbal (wexec w (ADeliver id hook)) u t = wbal w u t.
(** Delivering it adds the amount of the request to its account, and changes no
    other balance. *)
Definition deliver_pays (w : world) (id : message_id) (ty : transfer_type) (q : request) : Prop :=
  forall u t, wbal (wexec w (ADeliver id true)) u t = wbal w u t +
    (if (u =? account_of ty q) && (t =? q_token q) then q_amount q else 0).
