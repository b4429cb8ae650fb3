(** Sums over the open positions (specification of C22, C23 and C38). *)
From Verif Require Import Base Types SpecSum.
From stdpp Require Import gmap.
Open Scope Z_scope.

(** Liquidity of the positions of pool [k] that have [i] as one of their two bounds. *)
Definition gross_of (k : pool_key) (i : Z) (pos : position) : Z :=
  if bool_decide (pos_pool_key pos = k) && ((pos_lower pos =? i) || (pos_upper pos =? i))
  then pos_liquidity pos else 0.
Definition gross_at (s : state) (k : pool_key) (i : Z) : Z := msum (gross_of k i) (s_positions s).

(** Liquidity that becomes active when the price rises through tick [i]: the
    positions that start at [i] minus those that end there. *)
Definition net_of (k : pool_key) (i : Z) (pos : position) : Z :=
  if bool_decide (pos_pool_key pos = k)
  then (if pos_lower pos =? i then pos_liquidity pos else 0)
       - (if pos_upper pos =? i then pos_liquidity pos else 0)
  else 0.
Definition net_at (s : state) (k : pool_key) (i : Z) : Z := msum (net_of k i) (s_positions s).

(** Liquidity of the positions of pool [k] whose range [lower, upper) contains [c]. *)
Definition active_of (k : pool_key) (c : Z) (pos : position) : Z :=
  if bool_decide (pos_pool_key pos = k) && ((pos_lower pos <=? c) && (c <? pos_upper pos))
  then pos_liquidity pos else 0.
Definition active_at (s : state) (k : pool_key) (c : Z) : Z := msum (active_of k c) (s_positions s).

(** Liquidity of all the positions of pool [k]. *)
Definition pool_of (k : pool_key) (pos : position) : Z :=
  if bool_decide (pos_pool_key pos = k) then pos_liquidity pos else 0.
Definition pool_total (s : state) (k : pool_key) : Z := msum (pool_of k) (s_positions s).
