(** Solvency of the exchange with tokens in flight (specification of C26). *)
From Verif Require Import Base Types StateM ServiceM AsyncM SpecMath SpecHistory SpecClean SpecAsync SpecSolv.
From stdpp Require Import gmap list.
Open Scope Z_scope.

(** The trading calls of an interleaving are clean (see SpecClean.v). *)
Definition wclean (w : world) (a : action) : Prop :=
  match a with ACall e o => clean (w_state w) (Call e o) | _ => True end.
Definition wregular (w : world) (a : action) : Prop := wroom w a /\ wclean w a.

Fixpoint wroundings (acts : list action) : Z :=
  match acts with
  | [] => 0
  | ACall e o :: acts => roundings (Call e o) + wroundings acts
  | _ :: acts => wroundings acts
  end.
