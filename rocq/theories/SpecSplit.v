(** Two positions instead of one (specification for C73). *)
From Verif Require Import Base Types CollectionsM StateM ServiceM SpecMath SpecState SpecHistory.
From Coq Require Import ZArith.
Open Scope Z_scope.

(** [e]'s caller opens a position, for some limits of the price. *)
Definition opens (e : env) (s : state) (k : pool_key) (lo up L : Z) (s' : state) (pos : position) : Prop :=
  exists sl su, let ev := Call e (OpCreatePosition k lo up L sl su) in
    event_wf ev /\ room s ev /\ create_position e s k lo up L sl su = Ok (s', pos).

(** [e]'s caller closes the position with number [i] and receives [x] and [y]. *)
Definition closes (e : env) (s : state) (i : Z) (s' : state) (x y : Z) : Prop :=
  let ev := Call e (OpRemovePosition i) in event_wf ev /\ room s ev /\ remove_position e s i = Ok (s', (x, y)).

(** From [s], the user [u] opens two positions [p1] and [p2] of liquidity [L1] and
    [L2] and arrives in [two]; or, at the time of the first, one position [p] of
    liquidity [L1 + L2] over the same range and arrives in [one]. *)
Definition split_at (u : actor_id) (s : state) (k : pool_key) (lo up L1 L2 : Z)
    (two : state) (p1 p2 : position) (one : state) (p : position) : Prop :=
  exists e e' s1, e_caller e = u /\ e_caller e' = u /\
    opens e s k lo up L1 s1 p1 /\ opens e' s1 k lo up L2 two p2 /\ opens e s k lo up (L1 + L2) one p.
