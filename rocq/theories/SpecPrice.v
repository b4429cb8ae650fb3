(** The price at which a swap is executed (specification of C69).

    Sqrt prices have 24 decimal digits: at the sqrt price [q] a unit of the first
    token is worth q^2/10^48 units of the second one. *)
From Coq Require Import ZArith.
Open Scope Z_scope.

(** [out] is at most what [inp] is worth at the sqrt price [q]; from x to y up to
    2/10^24 of a unit in each of [n] steps.  [d]: [inp] is of the first token. *)
Definition worth_at_most (d : bool) (q n inp out : Z) : Prop :=
  if d then out * 10 ^ 48 <= inp * (q * q) + n * (2 * 10 ^ 24)
  else out * (q * q) <= inp * 10 ^ 48.

(** [out] is at least what [inp] is worth at the sqrt price [q], but for one unit of
    either token in each of [n] steps and for 10^-24 in the product q*q. *)
Definition worth_at_least (d : bool) (q n inp out : Z) : Prop :=
  if d then (inp - n) * (q * q - 10 ^ 24) <= (out + n) * 10 ^ 48
  else (inp - n) * 10 ^ 48 <= (out + n) * (q * q + 10 ^ 24).
