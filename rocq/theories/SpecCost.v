(** What liquidity costs and what it is worth at a price (specification of C60 and C61).
    Square-root prices carry 24 decimals, liquidity carries 5; token amounts none.
    Nothing of the model is used. *)
From Coq Require Import ZArith.
Open Scope Z_scope.

(** The price [p] moved into the range [lo, up]. *)
Definition into_range (lo up p : Z) : Z := Z.max lo (Z.min up p).

(** n / d rounded up. *)
Definition up_div (n d : Z) : Z := - ((- n) / d).

(** Charged for liquidity [L] when the price inside the range is [q]: of token y
    L * (q - lo), and of token x L * (up - q) / (q * up).  The division of the latter
    is made with both sides rounded down first. *)
Definition charge_y (L lo q : Z) : Z := up_div (L * (q - lo)) (10 ^ 29).
Definition charge_x (L q up : Z) : Z := up_div (L * (up - q) / 10 ^ 5) (q * up / 10 ^ 24).

(** Paid back for it. *)
Definition worth_y (L lo q : Z) : Z := L * (q - lo) / 10 ^ 29.
Definition worth_x (L q up : Z) : Z := (L * (up - q) / 10 ^ 5) / up_div (q * up) (10 ^ 24).
