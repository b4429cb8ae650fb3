(** Specifications for C48 and C49: a step function from its breakpoints, and the text
    of an actor id.  Nothing of the model is used. *)
From Coq Require Import ZArith List Bool.
Import ListNotations.
Open Scope Z_scope.

(** The value at [c] of the step function with breakpoints (index, value): the value of
    the last breakpoint that is not above [c], zero before the first. *)
Definition level_at (bps : list (Z * Z)) (c : Z) : Z :=
  fold_left (fun acc '(i, L) => if i <=? c then L else acc) bps 0.

(** An actor id is a 256-bit number, written "0x" and 64 lower-case hexadecimal digits,
    most significant first.  Characters are their codes: 0 is 48, a is 97, x is 120. *)
Definition hex_digit (d : Z) : Z := if d <? 10 then 48 + d else 87 + d.
Fixpoint hex_digits (n : nat) (v : Z) : list Z :=
  match n with
  | O => []
  | S n => hex_digit (v / 16 ^ Z.of_nat n mod 16) :: hex_digits n v
  end.
Definition hex_id (v : Z) : list Z := 48 :: 120 :: hex_digits 64 v.

(** The same text in upper case (digits A to F are 65 to 70). *)
Definition upper_char (c : Z) : Z := if (97 <=? c) && (c <=? 102) then c - 32 else c.
Definition upper_id (v : Z) : list Z := 48 :: 120 :: map upper_char (hex_digits 64 v).
