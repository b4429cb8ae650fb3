(** How the fee of a swap is shared among the positions (specification of C62).

    A swap is a walk in segments (SpecPath.v).  The fee of a segment raises the fee
    growth per unit of liquidity of those positions whose range the segment lies
    in; input left over at the end goes to the positions whose range contains the
    final price. *)
From Verif Require Import Base SqrtPriceM LogM Types StateM SpecMath SpecFees SpecSum SpecSolv SpecPath.
From stdpp Require Import gmap list.
From Coq Require Import Bool.
Open Scope Z_scope.

(** The range of the position contains the prices right after the start of the
    segment, in the direction [d] of the swap (true: towards lower prices). *)
Definition works (d : bool) (pos : position) (g : segment) : bool :=
  let lo := tick_price (pos_lower pos) in
  let up := tick_price (pos_upper pos) in
  if d then (lo <? g_from g) && (g_from g <=? up) else (lo <=? g_from g) && (g_from g <? up).

(** The range contains the price at which the segment ends. *)
Definition holds_end (pos : position) (g : segment) : bool :=
  (tick_price (pos_lower pos) <=? g_to g) && (g_to g <? tick_price (pos_upper pos)).

(** What a unit of liquidity of the position earns along [segs], in the token that
    is paid in (scale 10^28), at the protocol fee [pf]. *)
Definition earned (pf : Z) (d : bool) (pos : position) (segs : list segment) : Z :=
  sumZ (fun g => (if works d pos g then growth_of pf (g_liquidity g) (g_fee g) else 0) +
                 (if holds_end pos g then growth_of pf (g_liquidity g) (g_left g) else 0)) segs.

(** The liquidity of the positions of pool [k] for which [P] holds. *)
Definition among (s : state) (k : pool_key) (P : position -> bool) : Z :=
  msum (fun pos => if bool_decide (pos_pool_key pos = k) && P pos then pos_liquidity pos else 0) (s_positions s).

(** The liquidity that a fee is divided by is that of the positions that earn it. *)
Definition backed (s : state) (k : pool_key) (d : bool) (g : segment) : Prop :=
  (g_fee g <> 0 -> g_liquidity g = among s k (fun pos => works d pos g)) /\
  (g_left g <> 0 -> g_liquidity g = among s k (fun pos => holds_end pos g)).

(** The fees due to a position in token x ([x] = true) or y: its liquidity times the
    growth inside its range that it has not collected yet (SpecSolv.v), rounded down. *)
Definition due (x : bool) (s : state) (pos : position) : Z := pos_liquidity pos * uncollected x s pos / 10 ^ 33.
