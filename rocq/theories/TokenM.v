(** The token program: /repo/extended-vft/app/src/services/extended_vft (paths below
    are relative to it) on top of the crate [vft_service], which is not part of the
    repository.

    What the inherited service does ([transfer], [transfer_from], [approve]) is a
    parameter, [inherited]; the theorems quantify over it.  The storage it has
    besides balances and total supply (allowances, name, ...) has an arbitrary type
    [R].  The call that sent an event is assumed to succeed in sending it. *)
From Verif Require Import Base Types.
From stdpp Require Import gmap.
Open Scope Z_scope.

(** mod.rs:7-13 and the storage of the inherited service *)
Record token_state (R : Type) : Type := mkToken {
  tk_balances : gmap actor_id Z;
  tk_supply : Z;
  tk_rest : R;
  tk_minters : gset actor_id;
  tk_burners : gset actor_id;
  tk_admins : gset actor_id;
  tk_transfer_fail : bool;
}.
Arguments mkToken {R}.
Arguments tk_balances {R}.
Arguments tk_supply {R}.
Arguments tk_rest {R}.
Arguments tk_minters {R}.
Arguments tk_burners {R}.
Arguments tk_admins {R}.
Arguments tk_transfer_fail {R}.

(** The calls that the inherited service answers. *)
Inductive inherited_call : Type :=
| ITransfer (to : actor_id) (value : Z)
| ITransferFrom (from to : actor_id) (value : Z)
| IApprove (spender : actor_id) (value : Z).
Definition inherited (R : Type) : Type :=
  actor_id -> inherited_call -> gmap actor_id Z -> Z -> R -> res (gmap actor_id Z * Z * R * bool).

(** [vft_service::funcs::balance_of] *)
Definition balance_of (b : gmap actor_id Z) (a : actor_id) : Z := default 0 (b !! a).

(** funcs.rs:7-29 *)
Definition token_mint (b : gmap actor_id Z) (supply : Z) (to : actor_id) (value : Z)
    : res (gmap actor_id Z * Z * bool) :=
  if value =? 0 then Ok (b, supply, false)
  else
    let* new_supply := ok_or (checked_add M256 supply value) ETrack in
    let* new_to := ok_or (checked_add M256 (balance_of b to) value) ETrack in
    Ok (<[to := new_to]> b, new_supply, true).

(** funcs.rs:31-54 *)
Definition token_burn (b : gmap actor_id Z) (supply : Z) (from : actor_id) (value : Z)
    : res (gmap actor_id Z * Z * bool) :=
  if value =? 0 then Ok (b, supply, false)
  else
    let* new_supply := ok_or (checked_sub supply value) ETrack in
    let* new_from := ok_or (checked_sub (balance_of b from) value) ETrack in
    Ok (if negb (new_from =? 0) then <[from := new_from]> b else delete from b, new_supply, true).

Inductive role : Type := Minter | Burner | Admin.
#[global] Instance role_eq_dec : EqDecision role.
Proof. solve_decision. Defined.

Inductive token_call : Type :=
| TMint (to : actor_id) (value : Z)
| TBurn (from : actor_id) (value : Z)
| TGrant (r : role) (to : actor_id)
| TRevoke (r : role) (from : actor_id)
| TSetTransferFail (flag : bool)
| TInherited (c : inherited_call).

Definition holders {R} (r : role) (s : token_state R) : gset actor_id :=
  match r with Minter => tk_minters s | Burner => tk_burners s | Admin => tk_admins s end.
Definition set_holders {R} (r : role) (h : gset actor_id) (s : token_state R) : token_state R :=
  mkToken (tk_balances s) (tk_supply s) (tk_rest s)
    (match r with Minter => h | _ => tk_minters s end)
    (match r with Burner => h | _ => tk_burners s end)
    (match r with Admin => h | _ => tk_admins s end)
    (tk_transfer_fail s).
Definition set_funds {R} (b : gmap actor_id Z) (supply : Z) (rest : R) (s : token_state R) : token_state R :=
  mkToken b supply rest (tk_minters s) (tk_burners s) (tk_admins s) (tk_transfer_fail s).

(** mod.rs:27-42, with the storage as the inherited [seed] leaves it: no balance, no supply *)
Definition token_seed {R} (rest : R) (deployer : actor_id) : token_state R :=
  mkToken ∅ 0 rest {[deployer]} {[deployer]} {[deployer]} false.

(** [msg::source] in a role, or a panic: mod.rs:93-95, 108-110, 160-166 *)
Definition ensure {R} (r : role) (caller : actor_id) (s : token_state R) : res unit :=
  assert (bool_decide (caller ∈ holders r s)).

(** mod.rs:67-145.  [test] says whether the crate is built with its feature "test";
    the calls that return nothing are given the result [true].  An error of mint and
    burn is raised as a panic (services/utils.rs:4-9); the model keeps the error. *)
Definition token_run {R} (D : inherited R) (test : bool) (caller : actor_id) (s : token_state R) (c : token_call)
    : res (token_state R * bool) :=
  match c with
  | TMint to value =>
      let* _ := ensure Minter caller s in
      let* (b, supply, done) := token_mint (tk_balances s) (tk_supply s) to value in
      Ok (set_funds b supply (tk_rest s) s, done)
  | TBurn from value =>
      let* _ := ensure Burner caller s in
      let* (b, supply, done) := token_burn (tk_balances s) (tk_supply s) from value in
      Ok (set_funds b supply (tk_rest s) s, done)
  | TGrant r to =>
      let* _ := ensure Admin caller s in
      Ok (set_holders r ({[to]} ∪ holders r s) s, true)
  | TRevoke r from =>
      let* _ := ensure Admin caller s in
      Ok (set_holders r (holders r s ∖ {[from]}) s, true)
  | TSetTransferFail flag =>
      if test then
        let* _ := ensure Admin caller s in
        Ok (mkToken (tk_balances s) (tk_supply s) (tk_rest s) (tk_minters s) (tk_burners s) (tk_admins s) flag, true)
      else Ok (s, true)
  | TInherited ic =>
      let forced := match ic with ITransfer _ _ | ITransferFrom _ _ _ => test && tk_transfer_fail s | IApprove _ _ => false end in
      let* _ := assert (negb forced) in
      let* (b, supply, rest, r) := D caller ic (tk_balances s) (tk_supply s) (tk_rest s) in
      Ok (set_funds b supply rest s, r)
  end.
