(** Specification for the fee accounting, independent of the model.

    [wrap v] is v modulo 2^128.  A fee growth is the amount of fee per unit of
    liquidity, in units of 10^-28, so a growth g pays L*g/10^33 to raw liquidity L. *)
From Coq Require Import ZArith List Bool.
Import ListNotations.
Open Scope Z_scope.

Definition wrap (v : Z) : Z := v mod 2 ^ 128.

(** Sum of a function over a list. *)
Fixpoint sumZ {A} (f : A -> Z) (l : list A) : Z :=
  match l with [] => 0 | a :: l' => f a + sumZ f l' end.

(** Growth accumulated below tick [i], from the "outside" value stored at the tick:
    the stored value counts the growth on the side of the tick away from the
    current tick. *)
Definition growth_below (i cur global outside : Z) : Z :=
  if i <=? cur then outside else wrap (global - outside).
