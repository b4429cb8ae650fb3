(** A position changes hands (specification for C75). *)
From Verif Require Import Base Types CollectionsM StateM ServiceM SpecHistory SpecIndep SpecOrder.
From stdpp Require Import gmap list.
From Coq Require Import ZArith.
Open Scope Z_scope.

(** The event is made by the user, moves the user's tokens, or gives the user a position. *)
Definition involves (u : actor_id) (ev : event) : Prop :=
  match ev with
  | Call e (OpTransferPosition _ v) => e_caller e = u \/ v = u
  | Call e _ => e_caller e = u
  | Credit w _ _ | Debit w _ _ => w = u
  | Awaiting _ => False
  end.

(** The same message sent by somebody else. *)
Definition sent_by (u : actor_id) (e : env) : env :=
  mkEnv u (e_timestamp e) (e_block e) (e_value e) (e_gas e) (e_program e).

(** What happens while somebody holds a position: others act, and the owner of the
    position claims its fees. *)
Inductive happening : Type := Others (ev : event) | OwnerClaims (e : env).

(** The same happenings when the position is number [i] in [u]'s list. *)
Definition owned_by (u : actor_id) (i : Z) (h : happening) : event :=
  match h with Others ev => ev | OwnerClaims e => Call (sent_by u e) (OpClaimFee i) end.

(** The others are neither the seller nor the buyer. *)
Definition by_others (u v : actor_id) (h : happening) : Prop :=
  match h with Others ev => ~ involves u ev /\ ~ involves v ev | OwnerClaims _ => True end.

(** The owner's claims went through. *)
Definition claims_paid (h : happening) (a : res reply) : Prop :=
  match h with Others _ => True | OwnerClaims _ => went_through a end.

(** The two states differ in nothing but the balances and positions of [u] and [v]. *)
Definition same_for_others (u v : actor_id) (s s' : state) : Prop :=
  s_admin s = s_admin s' /\ forall c, c <> UserPart u -> c <> UserPart v -> same_part c s s'.
