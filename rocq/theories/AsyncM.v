(** The asynchronous entry points: deposits and withdrawals of fungible tokens.
    /repo/src/invariant_service.rs:769-1060 and 1124-1346.

    One call runs in several executions of the program.  The first one checks its
    arguments, sends one or two messages to token contracts and suspends.  When a
    reply arrives the reply hook runs in an execution of its own.  The suspended
    call is resumed when every awaited reply has arrived or its deadline has
    passed.  Each execution is atomic: if it panics, its changes of the state and
    the messages it sent are discarded, but not those of earlier executions.

    Simplifications: strings and byte payloads are reduced to what the code tests
    of them; gas is a number given with the call; a message id is a counter value
    (Gear derives unique ids by hashing). *)
From Verif Require Import Base Decimal Types CollectionsM StateM ServiceM.
From stdpp Require Import gmap list.
Open Scope Z_scope.

(** invariant_service.rs:54-60 *)
Definition TRANSFER_GAS_LIMIT : Z := 10600000000 * 2.
Definition TRANSFER_REPLY_HANDLING_COST : Z := 10600000000 * 2.
Definition BALANCE_CHANGE_COST : Z := 100000 * 2.
Definition TRANSFER_COST : Z := TRANSFER_GAS_LIMIT + TRANSFER_REPLY_HANDLING_COST + BALANCE_CHANGE_COST.

(** The four entry points (769, 788, 824, 873) with their arguments. *)
Inductive async_op : Type :=
| DepositSingleToken (token : actor_id) (amount : Z)
| WithdrawSingleToken (token : actor_id) (amount : option Z)
| DepositTokenPair (token_x : actor_id * Z) (token_y : actor_id * Z)
| WithdrawTokenPair (token_x : actor_id * option Z) (token_y : actor_id * option Z).

(** 1124-1181: a [TransferFrom] request.  [sent_ok] is the outcome of the two
    system calls (1149-1166), [id] the id of the message. *)
Record request : Type := mkRequest {
  q_id : message_id;
  q_token : actor_id;
  q_from : actor_id;
  q_to : actor_id;
  q_amount : Z;
}.

(** 1124-1181 *)
Definition send_transfer_token_message (s : state) (id : message_id) (sent_ok : bool)
    (token from to : actor_id) (amount : Z) (ty : transfer_type) : res (state * request) :=
  let* _ := fail_if (amount =? 0) TransferError in
  let* _ := fail_if (from =? to) TransferError in
  let* _ := fail_if (negb sent_ok) TransferError in
  let account := match ty with Deposit => from | Withdrawal => to end in
  Ok (set_awaiting (<[(id, token) := mkAwaiting account amount ty]> (s_awaiting s)) s,
      mkRequest id token from to amount).

(** What the environment decides in the first execution of a call: the ids of the
    two messages it may send and whether sending them succeeds. *)
Record send_env : Type := mkSendEnv {
  n_id1 : message_id;
  n_id2 : message_id;
  n_ok1 : bool;
  n_ok2 : bool;
}.

Definition endpoints (e : env) (ty : transfer_type) : actor_id * actor_id :=
  match ty with
  | Deposit => (e_caller e, e_program e)
  | Withdrawal => (e_program e, e_caller e)
  end.

(** 936-966: [transfer_single_token] up to its [await]. *)
Definition transfer_single_send (e : env) (n : send_env) (s : state) (token : actor_id) (amount : Z)
    (ty : transfer_type) : res (state * list request) :=
  let* _ := fail_if (token =? VARA_ADDRESS)
              (match ty with Deposit => InvalidVaraDepositAttempt | Withdrawal => InvalidVaraWithdrawAttempt end) in
  let* _ := fail_if (e_gas e <? TRANSFER_COST) NotEnoughGasToExecute in
  let (from, to) := endpoints e ty in
  let* (s, q) := map_err (send_transfer_token_message s (n_id1 n) (n_ok1 n) token from to amount ty) TransferError in
  Ok (s, [q]).

(** 980-1027: [transfer_token_pair] up to its [await]. *)
Definition transfer_pair_send (e : env) (n : send_env) (s : state) (token_x token_y : actor_id * Z)
    (ty : transfer_type) : res (state * list request) :=
  let* _ := fail_if ((fst token_x =? VARA_ADDRESS) || (fst token_y =? VARA_ADDRESS))
              (match ty with Deposit => InvalidVaraDepositAttempt | Withdrawal => InvalidVaraWithdrawAttempt end) in
  let* _ := fail_if (e_gas e <? 2 * TRANSFER_COST) NotEnoughGasToExecute in
  let (from, to) := endpoints e ty in
  let* (s, qx) := send_transfer_token_message s (n_id1 n) (n_ok1 n) (fst token_x) from to (snd token_x) ty in
  let* (s, qy) := send_transfer_token_message s (n_id2 n) (n_ok2 n) (fst token_y) from to (snd token_y) ty in
  Ok (s, [qx; qy]).

(** 841-867 and 909-929: which transfers a pair call makes. *)
Definition transfer_pair_or_single (e : env) (n : send_env) (s : state) (token_x token_y : actor_id * Z)
    (ty : transfer_type) : res (state * list request) :=
  if negb (snd token_x =? 0) && negb (snd token_y =? 0) then
    transfer_pair_send e n s token_x token_y ty
  else if negb (snd token_x =? 0) then
    transfer_single_send e n s (fst token_x) (snd token_x) ty
  else if negb (snd token_y =? 0) then
    transfer_single_send e n s (fst token_y) (snd token_y) ty
  else Ok (s, []).

(** 892-908: a missing balance counts as zero when no amount was asked for. *)
Definition amount_or_zero (asked : option Z) (r : res (state * Z)) (s : state) : res (state * Z) :=
  match r, asked with
  | Err NoBalanceForTheToken, None => Ok (s, 0)
  | _, _ => r
  end.

(** 769-933: the first execution of a call, up to the [await] (or to the end when
    nothing is to be sent).  Returns the new state and the messages sent.
    In [WithdrawTokenPair] both balances are reduced before the errors are
    looked at (885-908); as an error discards the execution, the order of the
    second reduction and the first test does not matter. *)
Definition async_start (e : env) (n : send_env) (s : state) (o : async_op)
    : res (state * transfer_type * list request) :=
  match o with
  | DepositSingleToken token amount =>
      (* 769-786 *)
      let* _ := fail_if (negb (can_increase_token_balance s token (e_caller e) amount)) FailedToChangeTokenBalance in
      let* (s, qs) := transfer_single_send e n s token amount Deposit in
      Ok (s, Deposit, qs)
  | WithdrawSingleToken token amount =>
      (* 788-822 *)
      let* (s, v) :=
        match amount with
        | Some a =>
            let* _ := fail_if (a =? 0) AmountIsZero in
            decrease_token_balance s token (e_caller e) (Some a)
        | None =>
            match decrease_token_balance s token (e_caller e) None with
            | Err _ => Ok (s, 0)
            | r => r
            end
        end in
      if negb (v =? 0) then
        let* (s, qs) := transfer_single_send e n s token v Withdrawal in
        Ok (s, Withdrawal, qs)
      else Ok (s, Withdrawal, [])
  | DepositTokenPair token_x token_y =>
      (* 824-871 *)
      let* _ := fail_if (fst token_x =? fst token_y) TokensAreSame in
      let* _ := fail_if (negb (can_increase_token_balance s (fst token_x) (e_caller e) (snd token_x))
                         || negb (can_increase_token_balance s (fst token_y) (e_caller e) (snd token_y)))
                  FailedToChangeTokenBalance in
      let* (s, qs) := transfer_pair_or_single e n s token_x token_y Deposit in
      Ok (s, Deposit, qs)
  | WithdrawTokenPair token_x token_y =>
      (* 873-933 *)
      let* _ := fail_if (fst token_x =? fst token_y) TokensAreSame in
      let* (s, x) := amount_or_zero (snd token_x)
                       (decrease_token_balance s (fst token_x) (e_caller e) (snd token_x)) s in
      let* (s, y) := amount_or_zero (snd token_y)
                       (decrease_token_balance s (fst token_y) (e_caller e) (snd token_y)) s in
      let* (s, qs) := transfer_pair_or_single e n s (fst token_x, x) (fst token_y, y) Withdrawal in
      Ok (s, Withdrawal, qs)
  end.

(** The payload of a reply as [reply_handler] (1219-1235) sees it: a triple
    (String, String, bool), with the two expected strings or with others; else a
    String; else anything. *)
Inductive payload : Type :=
| PTransfer (expected : bool) (result : bool)
| PText
| POther.

(** A reply: its payload, and whether its code says success. *)
Record reply : Type := mkReply { r_payload : payload; r_success : bool }.

(** 1280-1288, 1319-1327 ([HashMap::remove]) *)
Definition forget_transfer (s : state) (id : message_id) (token : actor_id) : state :=
  set_awaiting (delete (id, token) (s_awaiting s)) s.

(** 1267-1278, 1321-1331: a failing credit is only logged. *)
Definition credit_or_log (s : state) (token account : actor_id) (amount : Z) : state :=
  match increase_token_balance s token account amount with Ok s' => s' | _ => s end.

(** 1237-1293 *)
Definition handle_valid_reply (s : state) (token : actor_id) (id : message_id) (result : bool) : state :=
  match s_awaiting s !! (id, token) with
  | Some a =>
      let settle := match aw_type a with Deposit => result | Withdrawal => negb result end in
      forget_transfer (if settle then credit_or_log s token (aw_account a) (aw_amount a) else s) id token
  | None => s
  end.

(** 1295-1346 *)
Definition handle_panic (s : state) (token : actor_id) (id : message_id) : state :=
  match s_awaiting s !! (id, token) with
  | Some a =>
      forget_transfer
        (match aw_type a with
         | Withdrawal => credit_or_log s token (aw_account a) (aw_amount a)
         | Deposit => s
         end) id token
  | None => s
  end.

(** 1219-1235 *)
Definition reply_handler (s : state) (token : actor_id) (id : message_id) (r : reply) : state :=
  match r_payload r with
  | PTransfer true result => handle_valid_reply s token id result
  | PTransfer false _ => s
  | PText => handle_panic s token id
  | POther => s
  end.

(** What [message.await] yields (966, 1029): the decoded payload of a success
    reply, an error for an error reply, an undecodable payload or a timeout. *)
Definition awaited (r : option reply) : option bool :=
  match r with
  | Some r => if r_success r then match r_payload r with PTransfer _ b => Some b | _ => None end else None
  | None => None
  end.

(** 1183-1212 *)
Definition handle_transfer_result (s : state) (message : option bool) (id : message_id) (token : actor_id)
    (ty : transfer_type) : state * res unit :=
  match s_awaiting s !! (id, token) with
  | Some _ => (forget_transfer s id token, Err ReplyHandlingFailed)
  | None =>
      let err := match ty with Deposit => UnrecoverableTransferError | Withdrawal => RecoverableTransferError end in
      (s, match message with Some true => Ok tt | _ => Err err end)
  end.

Definition is_handling_failed (r : res unit) : bool :=
  match r with Err ReplyHandlingFailed => true | _ => false end.

(** How the last execution of a call ends. *)
Inductive call_end : Type :=
| Returned           (** a value is returned *)
| Left               (** [reply_with_err_and_leave] (1214-1217): an error is sent, changes are kept *)
| Panicked.          (** the error is raised as a panic, changes of this execution are discarded *)

(** 966-978 and 1029-1059: the last execution of a call, given what each await
    yielded. *)
Definition async_resume (s : state) (ty : transfer_type) (awaits : list (request * option bool))
    : state * call_end :=
  match awaits with
  | [] => (s, Returned)
  | [(q, m)] =>
      let (s1, c) := handle_transfer_result s m (q_id q) (q_token q) ty in
      if is_handling_failed c then (s1, Left)
      else match c with Ok _ => (s1, Returned) | _ => (s, Panicked) end
  | (qx, mx) :: (qy, my) :: _ =>
      let (s1, cx) := handle_transfer_result s mx (q_id qx) (q_token qx) ty in
      let (s2, cy) := handle_transfer_result s1 my (q_id qy) (q_token qy) ty in
      if is_handling_failed cx || is_handling_failed cy then (s2, Left)
      else match cx, cy with Ok _, Ok _ => (s2, Returned) | _, _ => (s, Panicked) end
  end.

(** ** The world around the program *)

(** Life of a message sent to a token contract: not yet processed; processed (the
    contract has or has not moved the tokens, and has produced a reply); reply
    delivered to the program. *)
Inductive msg_status : Type :=
| Sent
| Answered (moved : bool) (r : reply)
| Delivered (moved : bool) (r : reply).

Record message : Type := mkMessage {
  m_request : request;
  m_type : transfer_type;
  m_status : msg_status;
}.

(** A suspended call. *)
Record task : Type := mkTask {
  k_type : transfer_type;
  k_requests : list request;
}.

(** [w_held t]: tokens [t] held by the program, in the books of the contract of
    [t] (for [VARA_ADDRESS]: the program's own account). *)
Record world : Type := mkWorld {
  w_state : state;
  w_next : message_id;
  w_messages : gmap message_id message;
  w_tasks : list task;
  w_held : actor_id -> Z;
}.

Definition init_world (admin : actor_id) (protocol_fee : Z) (held : actor_id -> Z) : world :=
  mkWorld (init_state admin protocol_fee) 0 ∅ [] held.

(** What can happen next. *)
Inductive action : Type :=
| ACall (e : env) (o : op)                              (** a synchronous call *)
| AStart (e : env) (ok1 ok2 : bool) (o : async_op)      (** first execution of an asynchronous call *)
| AProcess (id : message_id) (moved : bool) (r : reply) (** the token contract processes a message *)
| ADeliver (id : message_id) (hook : bool)              (** a reply arrives; the hook may fail to run *)
| AResume (n : nat)                                     (** last execution of the n-th suspended call *)
| AGift (token : actor_id) (amount : Z).                (** someone sends tokens to the program *)

Definition add_held (t : actor_id) (a : Z) (h : actor_id -> Z) : actor_id -> Z :=
  fun t' => if t' =? t then h t' + a else h t'.

(** A synchronous call.  Its attached value stays with the program when it
    succeeds.  [withdraw_vara] pays out by attaching value to its reply, which
    fails when the program does not hold that much (743-750). *)
Definition call (w : world) (e : env) (o : op) : world :=
  let h := add_held VARA_ADDRESS (e_value e) (w_held w) in
  match o with
  | OpWithdrawVara v =>
      match withdraw_vara e (w_state w) v with
      | Ok (s', paid) =>
          if paid <=? h VARA_ADDRESS
          then mkWorld s' (w_next w) (w_messages w) (w_tasks w) (add_held VARA_ADDRESS (- paid) h)
          else w
      | _ => w
      end
  | _ =>
      match run_op e (w_state w) o with
      | Ok s' => mkWorld s' (w_next w) (w_messages w) (w_tasks w) h
      | _ => w
      end
  end.

Definition add_messages (ty : transfer_type) (qs : list request) (ms : gmap message_id message)
    : gmap message_id message :=
  foldl (fun ms q => <[q_id q := mkMessage q ty Sent]> ms) ms qs.

(** The effect of the token contract moving the tokens of a request. *)
Definition move (ty : transfer_type) (q : request) (h : actor_id -> Z) : actor_id -> Z :=
  add_held (q_token q) (match ty with Deposit => q_amount q | Withdrawal => - q_amount q end) h.

Definition reply_of (w : world) (q : request) : option reply :=
  match w_messages w !! q_id q with
  | Some (mkMessage _ _ (Delivered _ r)) => Some r
  | _ => None
  end.

(** One step.  An action that is not possible changes nothing. *)
Definition wexec (w : world) (a : action) : world :=
  match a with
  | ACall e o => call w e o
  | AStart e ok1 ok2 o =>
      match async_start e (mkSendEnv (w_next w) (w_next w + 1) ok1 ok2) (w_state w) o with
      | Ok (s', ty, qs) =>
          mkWorld s' (w_next w + 2) (add_messages ty qs (w_messages w))
            (match qs with [] => w_tasks w | _ => w_tasks w ++ [mkTask ty qs] end)
            (add_held VARA_ADDRESS (e_value e) (w_held w))
      | _ => w
      end
  | AProcess id moved r =>
      match w_messages w !! id with
      | Some (mkMessage q ty Sent) =>
          mkWorld (w_state w) (w_next w) (<[id := mkMessage q ty (Answered moved r)]> (w_messages w))
            (w_tasks w) (if moved then move ty q (w_held w) else w_held w)
      | _ => w
      end
  | ADeliver id hook =>
      match w_messages w !! id with
      | Some (mkMessage q ty (Answered moved r)) | Some (mkMessage q ty (Delivered moved r)) =>
          mkWorld (if hook then reply_handler (w_state w) (q_token q) id r else w_state w) (w_next w)
            (<[id := mkMessage q ty (Delivered moved r)]> (w_messages w)) (w_tasks w) (w_held w)
      | _ => w
      end
  | AResume n =>
      match w_tasks w !! n with
      | Some t =>
          let (s', _) := async_resume (w_state w) (k_type t)
                           (map (fun q => (q, awaited (reply_of w q))) (k_requests t)) in
          mkWorld s' (w_next w) (w_messages w) (delete n (w_tasks w)) (w_held w)
      | None => w
      end
  | AGift t a => mkWorld (w_state w) (w_next w) (w_messages w) (w_tasks w) (add_held t a (w_held w))
  end.

(** How the call resumed by [AResume n] ends. *)
Definition resume_end (w : world) (n : nat) : option call_end :=
  match w_tasks w !! n with
  | Some t => Some (snd (async_resume (w_state w) (k_type t)
                           (map (fun q => (q, awaited (reply_of w q))) (k_requests t))))
  | None => None
  end.
