(** Specification of the numeric layer, independent of the model.

    Raw values: a sqrt price [p] means p/10^24, a liquidity [L] means L/10^5, a
    percentage [f] means f/10^12, a fee growth [g] means g/10^28; token amounts
    are integers.  Exact amounts are rationals; they are written here as a
    numerator and a denominator and compared by cross multiplication. *)
From Coq Require Import ZArith.
Open Scope Z_scope.

(** A price the exchange can be at: between the prices of the extreme ticks. *)
Definition price_in_range (p : Z) : Prop :=
  15258932000000000000 <= p <= 65535383934512647000000000000.

Definition u128 (v : Z) : Prop := 0 <= v < 2 ^ 128.
Definition u256 (v : Z) : Prop := 0 <= v < 2 ^ 256.

(** Exact amount of token y for liquidity L between prices a and b:
    (L/10^5) * |a-b|/10^24  =  y_num / y_den *)
Definition y_num (a b L : Z) : Z := L * Z.abs (a - b).
Definition y_den : Z := 10 ^ 29.

(** Exact amount of token x for liquidity L between prices a and b:
    (L/10^5) * |1/(a/10^24) - 1/(b/10^24)|  =  x_num / x_den *)
Definition x_num (a b L : Z) : Z := L * Z.abs (a - b) * 10 ^ 19.
Definition x_den (a b : Z) : Z := a * b.

(** [v] is the floor / the ceiling of the rational n/d (d > 0). *)
Definition is_floor (v n d : Z) : Prop := v * d <= n < (v + 1) * d.
Definition is_ceil (v n d : Z) : Prop := (v - 1) * d < n <= v * d.
