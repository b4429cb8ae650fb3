(** The order of calls within one block (specification for C74). *)
From Verif Require Import Base Types TickmapM CollectionsM StateM ServiceM SpecHistory SpecIndep SpecTrace.
From Coq Require Import ZArith.
Open Scope Z_scope.

(** The calls of liquidity providers. *)
Definition opening (o : op) : bool := match o with OpCreatePosition _ _ _ _ _ _ => true | _ => false end.
Definition closing (o : op) : bool := match o with OpRemovePosition _ => true | _ => false end.
Definition claiming (o : op) : bool := match o with OpClaimFee _ => true | _ => false end.

(** Positions are opened or fees are claimed. *)
Definition opens_or_claims (ev : event) : Prop :=
  match ev with Call _ o => opening o = true \/ claiming o = true | _ => False end.
(** Positions are closed or fees are claimed. *)
Definition closes_or_claims (ev : event) : Prop :=
  match ev with Call _ o => closing o = true \/ claiming o = true | _ => False end.

(** Made in the block with timestamp [ts]. *)
Definition at_timestamp (ts : Z) (ev : event) : Prop :=
  match ev with Call e _ => e_timestamp e = ts | _ => False end.
Definition caller_of (ev : event) : actor_id :=
  match ev with Call e _ => e_caller e | Credit u _ _ | Debit u _ _ => u | Awaiting _ => 0 end.

(** Nobody can tell the two states apart. *)
Definition indistinguishable (s s' : state) : Prop := forall u, same_but_for u s s'.

(** The call went through. *)
Definition went_through (a : res reply) : Prop := exists r, a = Ok r.
