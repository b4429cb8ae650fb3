(** A swap as a walk along the liquidity curve (specification).

    The curve of a pool is given by its open positions alone: at the sqrt price
    [q] the liquidity is the sum of the liquidities of the positions whose price
    range contains [q].  A swap walks from the old to the new price in segments
    on which this liquidity is constant; on each one the amounts are those of
    the exact formulas of SpecMath, rounded against the trader. *)
From Verif Require Import Base SqrtPriceM LogM Types StateM SpecMath SpecFees SpecSum.
From stdpp Require Import gmap list.
From Coq Require Import Bool.
Open Scope Z_scope.

(** Sqrt price of a tick. *)
Definition tick_price (i : Z) : Z := match calculate_sqrt_price i with Ok p => p | _ => 0 end.

(** Liquidity of the curve of pool [k] at the sqrt price [q]. *)
Definition curve (s : state) (k : pool_key) (q : Z) : Z :=
  msum (fun pos => if bool_decide (pos_pool_key pos = k) && (tick_price (pos_lower pos) <=? q) && (q <? tick_price (pos_upper pos))
                   then pos_liquidity pos else 0) (s_positions s).

(** One segment: prices at its ends, liquidity, input without fee, output, fee,
    and leftover input that is kept as an additional fee. *)
Record segment : Type := mkSegment {
  g_from : Z; g_to : Z; g_liquidity : Z; g_in : Z; g_out : Z; g_fee : Z; g_left : Z }.

(** [v] is the exact amount of x for liquidity [L] between prices [a] and [b], rounded up: short of it by
    less than 10^24/(a*b) units (not at all if L*|a-b| is a multiple of 10^5), and
    above it by at most one unit and the rounding of the product a*b. *)
Definition x_rounded_up (v a b L : Z) : Prop :=
  0 <= v /\
  x_num a b L * (x_den a b / 10 ^ 24) < (v * (x_den a b / 10 ^ 24) + 1) * x_den a b /\
  ((L * Z.abs (a - b)) mod 10 ^ 5 = 0 -> x_num a b L <= v * x_den a b) /\
  (v - 1) * (x_den a b - 10 ^ 24) <= x_num a b L.

(** The same rounded down. *)
Definition x_rounded_down (v a b L : Z) : Prop :=
  0 <= v /\ v * x_den a b <= x_num a b L /\ x_num a b L < (v + 1) * (x_den a b + 10 ^ 24).

(** All the output of the segment is paid: the exact amount, rounded down. *)
Definition full_output (d : bool) (g : segment) : Prop :=
  if d then is_floor (g_out g) (y_num (g_from g) (g_to g) (g_liquidity g)) y_den
  else x_rounded_down (g_out g) (g_from g) (g_to g) (g_liquidity g).

(** The fee is the fee rate of the input, rounded up. *)
Definition exact_fee (rate : Z) (g : segment) : Prop := is_ceil (g_fee g) (g_in g * rate) (10 ^ 12).

(** What is left of [a] once the fee is taken off, rounded down. *)
Definition less_fee (rate a : Z) : Z := a * (10 ^ 12 - rate) / 10 ^ 12.

(** [v] units of the input token are too little to move the price [q] by one unit
    of its last digit (10^-24) at the liquidity [L]: for the first token the exact
    amount that takes the price down from [q] to [q - 1] is L*10^19/(q*(q-1)), for
    the second one any unit of the price costs L/10^29. *)
Definition too_little (d : bool) (v q L : Z) : Prop :=
  if d then v * (q * (q - 1)) <= L * 10 ^ 19 + 3 * 10 ^ 24 else v * 10 ^ 29 <= L.

(** What holds on every segment of a swap of pool [k] in direction [d] (true: x
    to y), exact in or exact out ([bi]), at the fee rate [rate] (scale 10^12). *)
Record on_curve (s : state) (k : pool_key) (d bi : bool) (rate : Z) (g : segment) : Prop := {
  oc_direction : if d then g_to g <= g_from g else g_from g <= g_to g;
  (** the liquidity used is that of the curve at all prices of the segment; an
      exact-in swap from x to y may end up to 10^24/g_from past a boundary *)
  oc_liquidity : forall q, Z.min (g_from g) (g_to g) < q < Z.max (g_from g) (g_to g) ->
    (d = true -> bi = true -> 10 ^ 24 <= (q - g_to g) * g_from g) ->
    g_liquidity g = curve s k q;
  (** also if there is no price strictly between the ends: it is that of the
      curve at the start, or just below it *)
  oc_start : g_liquidity g = curve s k (g_from g) \/ g_liquidity g = curve s k (g_from g - 1);
  oc_in : if d then x_rounded_up (g_in g) (g_from g) (g_to g) (g_liquidity g)
          else is_ceil (g_in g) (y_num (g_from g) (g_to g) (g_liquidity g)) y_den;
  oc_out : 0 <= g_out g /\
           if d then g_out g * y_den <= y_num (g_from g) (g_to g) (g_liquidity g)
           else g_out g * x_den (g_from g) (g_to g) <= x_num (g_from g) (g_to g) (g_liquidity g);
  (** the fee rate of the input; or else at least the fee rate of all that is
      paid, but for the rounding of x, and more than that only by what is too
      little to move the price *)
  oc_fee : 0 <= g_fee g /\
           (exact_fee rate g \/
            (g_in g + g_fee g) * rate <= (g_fee g + (if d then (g_in g + g_fee g) / 10 ^ 14 + 1 else 0)) * 10 ^ 12 /\
            too_little d (less_fee rate (g_in g + g_fee g) - g_in g) (g_to g) (g_liquidity g));
  (** nothing is left over but what is too little to move the price *)
  oc_left : 0 <= g_left g /\ (g_left g <> 0 -> d = true /\ bi = true /\ g_liquidity g <> 0 /\
                                too_little true (less_fee rate (g_left g)) (g_to g) (g_liquidity g));
  (** exact in: all the output is paid; exact out: the fee is exact *)
  oc_mode : if bi then full_output d g else exact_fee rate g;
}.

(** What holds in addition on the segments that are not the last one. *)
Definition whole (d : bool) (rate : Z) (g : segment) : Prop :=
  exact_fee rate g /\ full_output d g /\ g_left g = 0.

(** Each segment starts where the previous one ended. *)
Fixpoint connected (a : Z) (l : list segment) (b : Z) : Prop :=
  match l with [] => a = b | g :: l' => g_from g = a /\ connected (g_to g) l' b end.

(** The protocol's part of a fee [f], and by how much the rest raises the fee
    growth per unit of liquidity of a pool with liquidity [L]. *)
Definition protocol_part (pf f : Z) : Z := (f * pf + (10 ^ 12 - 1)) / 10 ^ 12.
Definition growth_of (pf L f : Z) : Z := (f - protocol_part pf f) * 10 ^ 33 / L.

(** What a swap of pool [p], leading to [p'], reports and books along [segs]. *)
Record walk (s : state) (k : pool_key) (d bi : bool) (p p' : pool) (amount_in amount_out fee : Z) (segs : list segment) : Prop := {
  wk_connected : connected (p_sqrt_price p) segs (p_sqrt_price p');
  wk_segments : Forall (on_curve s k d bi (ft_fee (pk_fee_tier k))) segs;
  wk_whole : Forall (whole d (ft_fee (pk_fee_tier k))) (removelast segs);
  wk_in : amount_in = sumZ (fun g => g_in g + g_fee g + g_left g) segs;
  wk_out : amount_out = sumZ g_out segs;
  wk_fee : fee = sumZ g_fee segs;
  wk_protocol : (if d then p_fee_protocol_token_x p' else p_fee_protocol_token_y p') =
    (if d then p_fee_protocol_token_x p else p_fee_protocol_token_y p) +
    sumZ (fun g => protocol_part (s_protocol_fee s) (g_fee g) + protocol_part (s_protocol_fee s) (g_left g)) segs;
  wk_growth : (if d then p_fee_growth_global_x p' else p_fee_growth_global_y p') =
    ((if d then p_fee_growth_global_x p else p_fee_growth_global_y p) +
     sumZ (fun g => growth_of (s_protocol_fee s) (g_liquidity g) (g_fee g) +
                    growth_of (s_protocol_fee s) (g_liquidity g) (g_left g)) segs) mod 2 ^ 128;
  wk_other : (if d then (p_fee_protocol_token_y p', p_fee_growth_global_y p') else (p_fee_protocol_token_x p', p_fee_growth_global_x p')) =
             (if d then (p_fee_protocol_token_y p, p_fee_growth_global_y p) else (p_fee_protocol_token_x p, p_fee_growth_global_x p));
}.
