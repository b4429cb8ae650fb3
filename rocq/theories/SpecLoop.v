(** What it means for a [while] loop to terminate (specification of C27).

    [takes finished body n s r]: from [s] the loop runs [body] exactly [n] times
    and then ends with [r], either because its condition fails or because an
    iteration does not return normally. *)
From Verif Require Import Base.

Inductive takes {S : Type} (finished : S -> bool) (body : S -> res S) : nat -> S -> res S -> Prop :=
| takes_done s : finished s = true -> takes finished body 0 s (Ok s)
| takes_fail s r : finished s = false -> body s = r -> (forall s', r <> Ok s') -> takes finished body 1 s r
| takes_next n s s' r : finished s = false -> body s = Ok s' -> takes finished body n s' r ->
    takes finished body (Datatypes.S n) s r.
