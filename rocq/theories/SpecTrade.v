(** Trading against one pool (specification of C68).

    [holdings x s k q] is the exact amount of the first ([x] = true) or the second
    token that the open positions of pool [k] consist of when the price of the
    pool is [q] (see [principal] in SpecSolv.v). *)
From Verif Require Import Base Types StateM ServiceM SpecHistory SpecSolv.
From stdpp Require Import gmap list.
From Coq Require Import ZArith Reals.
Open Scope Z_scope.

Definition holdings (x : bool) (s : state) (k : pool_key) (q : Z) : R :=
  rsum (fun _ pos => if bool_decide (pos_pool_key pos = k)
                     then principal x (pos_liquidity pos) q (tick_price (pos_lower pos)) (tick_price (pos_upper pos))
                     else 0%R) (s_positions s).

(** The price of a pool. *)
Definition pool_price (s : state) (k : pool_key) : Z :=
  match s_pools s !! k with Some p => p_sqrt_price p | None => 0 end.

(** Everything but opening and closing positions: swaps and routes through any
    pools, by anyone, successful or not, deposits, withdrawals, collected fees,
    transferred positions, new pools, changes of the settings. *)
Definition trading (ev : event) : Prop :=
  match ev with
  | Call _ (OpCreatePosition _ _ _ _ _ _) | Call _ (OpRemovePosition _) => False
  | _ => True
  end.

(** What traders pay into pool [k], less what they are paid, in its first or its
    second token. *)
Definition swap_pays (x : bool) (k : pool_key) (k' : pool_key) (d : bool) (r : calculate_swap_result) : Z :=
  if bool_decide (k' = k) then if Bool.eqb x d then cs_amount_in r else - cs_amount_out r else 0.
Fixpoint route_pays (x : bool) (k : pool_key) (e : env) (s : state) (a : Z) (hops : list swap_hop) : Z :=
  match hops with
  | [] => 0
  | h :: t =>
      match swap e s (h_pool_key h) (h_x_to_y h) a true (hop_limit (h_x_to_y h)) with
      | Ok (s', r) => swap_pays x k (h_pool_key h) (h_x_to_y h) r + route_pays x k e s' (cs_amount_out r) t
      | _ => 0
      end
  end.
Definition trader_pays (x : bool) (k : pool_key) (s : state) (ev : event) : Z :=
  match ev with
  | Call e (OpSwap k' d a bi lim) =>
      match swap e s k' d a bi lim with Ok (_, r) => swap_pays x k k' d r | _ => 0 end
  | Call e (OpSwapRoute a expected sl hops) =>
      match swap_route e s a expected sl hops with Ok _ => route_pays x k e s a hops | _ => 0 end
  | _ => 0
  end.
Fixpoint traders_pay (x : bool) (k : pool_key) (s : state) (evs : list event) : Z :=
  match evs with
  | [] => 0
  | ev :: evs => trader_pays x k s ev + traders_pay x k (exec_event s ev) evs
  end.

(** Number of swaps asked for. *)
Definition swaps_of (ev : event) : Z :=
  match ev with
  | Call _ (OpSwap _ _ _ _ _) => 1
  | Call _ (OpSwapRoute _ _ _ hops) => Z.of_nat (length hops)
  | _ => 0
  end.
Fixpoint swaps_in (evs : list event) : Z :=
  match evs with [] => 0 | ev :: evs => swaps_of ev + swaps_in evs end.
