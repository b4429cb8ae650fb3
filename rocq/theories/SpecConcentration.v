(** What concentration means (C67), in real numbers and without reference to the code. *)
From Coq Require Import ZArith Reals List.
Open Scope R_scope.

(** Worth, in token y at price [P], of the tokens behind liquidity [L] between the prices
    [lo] and [hi] around [P]; and of the tokens behind the same liquidity at all prices. *)
Definition worth_in_range (L P lo hi : R) : R := L * (sqrt P - sqrt lo) + P * (L * (1 / sqrt P - 1 / sqrt hi)).
Definition worth_everywhere (L P : R) : R := L * sqrt P + P * (L * (1 / sqrt P)).

(** The price [t] ticks (possibly a half tick) up. *)
Definition up_ticks (P t : R) : R := P * Rpower (1 + / 10000) t.

(** The numbers [c], [c - 1], ..., 2. *)
Definition countdown (c : Z) : list R := map (fun j => IZR (c - Z.of_nat j)) (seq 0 (Z.to_nat (c - 1))).

(** [k] is the least integer not below [x]. *)
Definition least_integer_above (k : Z) (x : R) : Prop := IZR k - 1 < x <= IZR k.
