(** Specification of the fixed-point library (C63, C64, C65).

    A fixed-point type is given by its size in bits and the number of decimal digits
    after the point; the raw integer [a] of a type with [s] digits means the rational
    number a / 10^s.  Operations are compared with exact rational arithmetic. *)
From Verif Require Import Base DecimalLibM.
From Coq Require Import ZArith QArith List.
Open Scope Z_scope.

(** The rational number a raw value means. *)
Definition value (s a : Z) : Q := (inject_Z a / inject_Z (10 ^ s))%Q.

(** [r], with [s] digits, is [q] rounded down / up. *)
Definition rounds_down (s r : Z) (q : Q) : Prop := (value s r <= q < value s (r + 1))%Q.
Definition rounds_up (s r : Z) (q : Q) : Prop := (value s (r - 1) < q <= value s r)%Q.

(** A fixed-point type the macro accepts: at most 38 digits; one can be represented;
    the big type is at least as large as the underlying type. *)
Definition sound_type (t : dtype) : Prop := 0 <= t_scale t <= 38 /\ 10 ^ t_scale t < t_bound t <= t_big t.

(** A value of the type. *)
Definition of_type (t : dtype) (a : Z) : Prop := 0 <= a < t_bound t.

(** What a call does: it returns a value with [P] exactly if [fits], otherwise panics
    (respectively returns an error). *)
Definition returns_or (bad : res Z) (fits : Prop) (P : Z -> Prop) (o : res Z) : Prop :=
  (fits /\ exists r, o = Ok r /\ P r) \/ (~ fits /\ o = bad).

(** ** Integers as limbs *)
Fixpoint number (l : list Z) : Z :=
  match l with nil => 0 | x :: r => x + 2 ^ 64 * number r end.
Definition limbs (n : nat) (l : list Z) : Prop := length l = n /\ Forall (fun x => 0 <= x < 2 ^ 64) l.

(** ** Texts *)
Definition digit (d : Z) : Prop := 0 <= d <= 9.
Definition read_digits (l : list Z) : Z := fold_left (fun n d => 10 * n + d) l 0.
(** The number a text means: digits before the point, and after it. *)
Definition read_text (x : text) : Q :=
  match x_fraction x with
  | None => inject_Z (read_digits (x_whole x))
  | Some f => (inject_Z (read_digits (x_whole x)) + inject_Z (read_digits f) / inject_Z (10 ^ Z.of_nat (length f)))%Q
  end.
Definition proper_text (x : text) : Prop :=
  x_whole x <> nil /\ Forall digit (x_whole x) /\ match x_fraction x with None => True | Some f => f <> nil /\ Forall digit f end.
