(** What a swap or a quote can end with (specification).

    A call that does not succeed has a cause: the amount is zero, the limit is on
    the wrong side, nothing would be paid out, the liquidity up to the limit or up
    to the end of the price range is used up, or the call is trapped.  [reaches] is
    the evidence: the walk along the curve (SpecPath) that leads there. *)
From Verif Require Import Base SqrtPriceM LogM ClammM Types CollectionsM StateM ServiceM SpecMath SpecFees SpecSum SpecState SpecPath.
From stdpp Require Import gmap list.
From Coq Require Import Bool.
Open Scope Z_scope.

(** Segments that lead from the price of [p] to the sqrt price [q] along the
    curve of pool [k], all but the last of them used up; they take [used] (with
    fees) and pay [paid].  They do not go past the limit, except that an exact-in
    swap from x to y may by less than 65536 (of 10^24). *)
Record reaches (s : state) (k : pool_key) (d bi : bool) (p : pool) (lim q used paid : Z) (segs : list segment) : Prop := {
  re_connected : connected (p_sqrt_price p) segs q;
  re_segments : Forall (on_curve s k d bi (ft_fee (pk_fee_tier k))) segs;
  re_whole : Forall (whole d (ft_fee (pk_fee_tier k))) (removelast segs);
  re_used : used = sumZ (fun g => g_in g + g_fee g + g_left g) segs;
  re_paid : paid = sumZ g_out segs;
  re_limit : if d then (if bi then lim < q + 65536 else lim <= q) else q <= lim;
  re_count : d || bi = true -> Z.of_nat (length segs) <= 443637;
}.

(** What is left of the amount [a] that the trader fixed (what to pay if [bi],
    what to receive otherwise). *)
Definition left_of (bi : bool) (a used paid : Z) : Z := if bi then a - used else a - paid.

(** The price at which the amount [rem] would end from the price [q] if the
    liquidity [L] went on forever is no price: below zero, infinite, or of more
    than 128 bits.  An exact-in swap from x to y always has such a price. *)
Definition unpriced (d bi : bool) (rate q L rem : Z) : Prop :=
  if bi then d = false /\ 2 ^ 128 <= q + (rem * (10 ^ 12 - rate) / 10 ^ 12) * 10 ^ 29 / L
  else if d then q * L < rem * 10 ^ 29
  else (2 ^ 128 - 1) * (L * 10 ^ 19 - q * rem) < q * L * 10 ^ 19 + 10 ^ 24.

(** The price [q] is at the end of the prices of a pool with this tick spacing. *)
Definition past_end (d : bool) (spacing q : Z) : Prop :=
  if d then exists m, get_min_tick spacing = Ok m /\ q <= tick_price (m + spacing)
  else exists m, get_max_tick spacing = Ok m /\ tick_price m <= q.

(** The step from [q] of an exact-in swap from x to y that is given [rem] charges
    more than that, by the rounding of the price, or ends below the least price. *)
Definition misstep (s : state) (k : pool_key) (q rem : Z) : Prop :=
  exists t L r, (L = curve s k q \/ L = curve s k (q - 1)) /\ price_in_range t /\ t <= q /\
    compute_swap_step q t L rem true (ft_fee (pk_fee_tier k)) = Ok r /\
    (rem < sr_amount_in r + sr_fee_amount r <= rem + 2 * (rem / 10 ^ 14) + 3 \/ sr_next_sqrt_price r < 15258932000000000000).

(** The cause of an outcome of a swap or quote of the amount [a] on the pool [p]
    with key [k]. *)
Definition explained {A : Type} (s : state) (k : pool_key) (d bi : bool) (p : pool) (a lim : Z) (r : res A) : Prop :=
  match r with
  | Ok _ => True
  | Err AmountIsZero => a = 0
  | Err WrongLimit => if d then p_sqrt_price p <= lim \/ 65535383934512647000000000000 < lim
                      else lim <= p_sqrt_price p \/ lim < 15258932000000000000
  | Err PriceLimitReached =>
      exists segs used paid, reaches s k d bi p lim lim used paid segs /\
        Forall (whole d (ft_fee (pk_fee_tier k))) segs /\ 0 < left_of bi a used paid
  | Err TickLimitReached =>
      exists segs q used paid, reaches s k d bi p lim q used paid segs /\ 0 <= left_of bi a used paid /\
        past_end d (pk_spacing k) q
  | Err NoGainSwap => bi = true /\ exists segs q, reaches s k d bi p lim q a 0 segs
  | Err _ => False
  | Panic =>
      exists segs q used paid, reaches s k d bi p lim q used paid segs /\
        Forall (whole d (ft_fee (pk_fee_tier k))) segs /\ 0 < left_of bi a used paid /\
        ((d = true /\ bi = true /\ misstep s k q (left_of bi a used paid)) \/
         (exists g, last segs = Some g /\ g_liquidity g <> 0 /\
            unpriced d bi (ft_fee (pk_fee_tier k)) q (g_liquidity g) (left_of bi a used paid)))
  | Loop => False
  end.

(** The circumstances in which all this holds: the fee of the pool is at most 99%,
    and not zero if the amount paid is fixed; the protocol's share is at most
    100%; time does not run backwards; the protocol fees of the pool have room for
    more, and, if the amount received is fixed, the liquidity of all positions of
    the pool together fits 128 bits. *)
Record ordinary (e : env) (s : state) (k : pool_key) (d bi : bool) (p : pool) (a : Z) : Prop := {
  or_amount : u256 a;
  or_pool : pools_get s k = Ok p;
  or_fee : ft_fee (pk_fee_tier k) <= 99 * 10 ^ 10;
  or_fee_pos : bi = true -> 0 < ft_fee (pk_fee_tier k);
  or_protocol_fee : s_protocol_fee s <= 10 ^ 12;
  or_time : p_start_timestamp p <= e_timestamp e;
  or_liquidity : bi = false -> pool_total s k <= 2 ^ 128;
  or_room : (if d then p_fee_protocol_token_x p else p_fee_protocol_token_y p) + (if bi then a else 2 ^ 230) < 2 ^ 256;
}.
