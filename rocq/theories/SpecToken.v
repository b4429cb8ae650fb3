(** Specification of the token program. *)
From Verif Require Import Base Types SpecSum TokenM.
From stdpp Require Import gmap list.
Open Scope Z_scope.

(** The sum of all balances. *)
Definition circulating (b : gmap actor_id Z) : Z := msum (fun v => v) b.

(** What is asked of the service that is not part of the repository: its calls move
    balances around without creating or destroying any, and keep them nonnegative. *)
Definition conserving {R} (D : inherited R) : Prop := forall caller c b n r b' n' r' x,
  D caller c b n r = Ok (b', n', r', x) -> (forall a, 0 <= balance_of b a) ->
  n' = n /\ circulating b' = circulating b /\ (forall a, 0 <= balance_of b' a).

(** Numbers in calls are 256-bit. *)
Definition sensible_call (c : token_call) : Prop :=
  match c with TMint _ v | TBurn _ v => 0 <= v < 2 ^ 256 | _ => True end.

(** The calls that have succeeded since the deployment, newest first; a call that
    fails changes nothing. *)
Inductive token_history {R} (D : inherited R) (test : bool) (rest : R) (deployer : actor_id)
    : list (actor_id * token_call) -> token_state R -> Prop :=
| th_start : token_history D test rest deployer [] (token_seed rest deployer)
| th_step log s caller c s' x :
    token_history D test rest deployer log s -> sensible_call c ->
    token_run D test caller s c = Ok (s', x) ->
    token_history D test rest deployer ((caller, c) :: log) s'.

(** The last thing that was decided about [a] having role [r]. *)
Fixpoint last_decision (r : role) (a : actor_id) (log : list (actor_id * token_call)) : option bool :=
  match log with
  | [] => None
  | (_, TGrant r' a') :: log' => if bool_decide (r' = r /\ a' = a) then Some true else last_decision r a log'
  | (_, TRevoke r' a') :: log' => if bool_decide (r' = r /\ a' = a) then Some false else last_decision r a log'
  | _ :: log' => last_decision r a log'
  end.

(** Test builds have a switch that makes transfers fail: where it was put last, at
    first off. *)
Fixpoint last_switch (log : list (actor_id * token_call)) : bool :=
  match log with
  | [] => false
  | (_, TSetTransferFail flag) :: _ => flag
  | _ :: log' => last_switch log'
  end.
Definition is_transfer (ic : inherited_call) : Prop := match ic with ITransfer _ _ | ITransferFrom _ _ _ => True | IApprove _ _ => False end.

(** What was minted and burnt altogether. *)
Definition minted (log : list (actor_id * token_call)) : Z :=
  foldr (fun x acc => match snd x with TMint _ v => v | _ => 0 end + acc) 0 log.
Definition burnt (log : list (actor_id * token_call)) : Z :=
  foldr (fun x acc => match snd x with TBurn _ v => v | _ => 0 end + acc) 0 log.

(** The same state but for the funds of [a], changed by [d]. *)
Record funded {R} (s : token_state R) (a : actor_id) (d : Z) (s' : token_state R) : Prop := {
  fu_balance : balance_of (tk_balances s') a = balance_of (tk_balances s) a + d;
  fu_others : forall b, b <> a -> balance_of (tk_balances s') b = balance_of (tk_balances s) b;
  fu_supply : tk_supply s' = tk_supply s + d;
  fu_rest : tk_rest s' = tk_rest s;
  fu_roles : forall r, holders r s' = holders r s;
  fu_fail : tk_transfer_fail s' = tk_transfer_fail s;
}.
