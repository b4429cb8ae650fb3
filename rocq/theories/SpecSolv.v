(** What the exchange owes (specification of C25 and C26).

    Amounts are exact real numbers here; the code pays integers.  [x = true]
    stands for the first token of a pool and [x = false] for the second. *)
From Verif Require Import Base Decimal SqrtPriceM Types CollectionsM StateM ServiceM SpecMath SpecFees SpecHistory P_Balance.
From stdpp Require Import gmap list.
From Coq Require Import ZArith Reals.
Open Scope Z_scope.

(** Sums over a finite map, of integers and of real numbers. *)
Definition zsum `{Countable K} {A} (f : K -> A -> Z) (m : gmap K A) : Z :=
  map_fold (fun k v acc => f k v + acc) 0 m.
Definition rsum `{Countable K} {A} (f : K -> A -> R) (m : gmap K A) : R :=
  map_fold (fun k v acc => (f k v + acc)%R) 0%R m.

Definition token_of (x : bool) (k : pool_key) : actor_id := if x then pk_token_x k else pk_token_y k.

(** Price of a tick. *)
Definition tick_price (i : Z) : Z := match calculate_sqrt_price i with Ok p => p | _ => 0 end.

(** Tokens that liquidity [L] between the prices [pl] and [pu] consists of when the
    price of the pool is [p]: with q the price moved into [pl, pu],
    (L/10^5) * (1/q - 1/pu) of the first token and (L/10^5) * (q - pl) of the
    second, for real prices (raw prices are multiplied by 10^24). *)
Definition principal (x : bool) (L p pl pu : Z) : R :=
  let q := Z.max pl (Z.min p pu) in
  if x then (IZR L * 10 ^ 19 * (/ IZR q - / IZR pu))%R
  else (IZR L * (IZR q - IZR pl) / 10 ^ 29)%R.

(** Fee growth of the pool, of a tick, at the last collection of a position. *)
Definition global_growth (x : bool) (p : pool) : Z :=
  if x then p_fee_growth_global_x p else p_fee_growth_global_y p.
Definition outside_growth (x : bool) (t : tick) : Z :=
  if x then t_fee_growth_outside_x t else t_fee_growth_outside_y t.
Definition seen_growth (x : bool) (pos : position) : Z :=
  if x then pos_fee_growth_inside_x pos else pos_fee_growth_inside_y pos.

(** Growth of pool [k] accumulated below tick [i] (see SpecFees.v), and the growth
    inside the range of a position since its last collection. *)
Definition below (x : bool) (s : state) (k : pool_key) (i : Z) : Z :=
  match s_pools s !! k, s_ticks s !! (k, i) with
  | Some p, Some t => growth_below i (p_current_tick_index p) (global_growth x p) (outside_growth x t)
  | _, _ => 0
  end.
Definition uncollected (x : bool) (s : state) (pos : position) : Z :=
  wrap (below x s (pos_pool_key pos) (pos_upper pos) - below x s (pos_pool_key pos) (pos_lower pos) - seen_growth x pos).

(** The exact claim of a position: its tokens and its uncollected fees. *)
Definition claim (x : bool) (s : state) (pos : position) : R :=
  match s_pools s !! pos_pool_key pos with
  | Some p =>
      (principal x (pos_liquidity pos) (p_sqrt_price p) (tick_price (pos_lower pos)) (tick_price (pos_upper pos))
       + IZR (pos_liquidity pos) * IZR (uncollected x s pos) / 10 ^ 33)%R
  | None => 0%R
  end.
Definition claim_in (t : actor_id) (s : state) (pos : position) : R :=
  ((if token_of true (pos_pool_key pos) =? t then claim true s pos else 0)
   + (if token_of false (pos_pool_key pos) =? t then claim false s pos else 0))%R.

(** Protocol fees of a pool that the fee receiver has not withdrawn. *)
Definition protocol_fee (x : bool) (p : pool) : Z :=
  if x then p_fee_protocol_token_x p else p_fee_protocol_token_y p.
Definition protocol_in (t : actor_id) (k : pool_key) (p : pool) : Z :=
  (if token_of true k =? t then protocol_fee true p else 0)
  + (if token_of false k =? t then protocol_fee false p else 0).

(** Everything the pools owe in token [t]. *)
Definition owed (s : state) (t : actor_id) : R :=
  (rsum (fun _ pos => claim_in t s pos) (s_positions s) + IZR (zsum (protocol_in t) (s_pools s)))%R.

(** What the pools pay, in whole tokens, if every position is closed and every
    protocol fee withdrawn: [closing] is the amount that remove_position returns. *)
Definition closing (t : actor_id) (ts : Z) (s : state) (key : actor_id * Z) (pos : position) : Z :=
  match remove_position (mkEnv (fst key) ts 0 0 0 0) s (snd key) with
  | Ok (_, (x, y)) =>
      (if token_of true (pos_pool_key pos) =? t then x else 0)
      + (if token_of false (pos_pool_key pos) =? t then y else 0)
  | _ => 0
  end.
Definition payable (ts : Z) (s : state) (t : actor_id) : Z :=
  zsum (closing t ts s) (s_positions s) + zsum (protocol_in t) (s_pools s).

(** What users have paid into the pools less what they were paid, in token [t]: the
    decrease of the sum of the balances in all calls but deposits and withdrawals. *)
Definition paid_by (s : state) (ev : event) (t : actor_id) : Z :=
  match ev with
  | Call _ OpDepositVara | Call _ (OpWithdrawVara _) => 0
  | Call _ _ => bal_total s t - bal_total (exec_event s ev) t
  | _ => 0
  end.
Fixpoint pool_reserves (s : state) (evs : list event) (t : actor_id) : Z :=
  match evs with
  | [] => 0
  | ev :: evs => paid_by s ev t + pool_reserves (exec_event s ev) evs t
  end.
(** Deposits less withdrawals of token [t] from outside. *)
Definition deposited_by (s : state) (ev : event) (t : actor_id) : Z :=
  match ev with
  | Call _ OpDepositVara | Call _ (OpWithdrawVara _) | Credit _ _ _ | Debit _ _ _ =>
      bal_total (exec_event s ev) t - bal_total s t
  | _ => 0
  end.
Fixpoint net_deposits (s : state) (evs : list event) (t : actor_id) : Z :=
  match evs with
  | [] => 0
  | ev :: evs => deposited_by s ev t + net_deposits (exec_event s ev) evs t
  end.

(** Number of times an amount of the first token of a pool may have been charged
    rounded in favour of the user (see C04): once per position opened, and at most
    once per tick in a swap. *)
Definition roundings (ev : event) : Z :=
  match ev with
  | Call _ (OpCreatePosition _ _ _ _ _ _) => 1
  | Call _ (OpSwap _ _ _ _ _) => 443637
  | Call _ (OpSwapRoute _ _ _ hops) => 443637 * Z.of_nat (length hops)
  | _ => 0
  end.
Fixpoint all_roundings (evs : list event) : Z :=
  match evs with [] => 0 | ev :: evs => roundings ev + all_roundings evs end.

(** [trace G s0 evs s]: running [evs] from [s0] ends in [s], and every event
    satisfied [G] when it ran. *)
Inductive trace (G : state -> event -> Prop) (s0 : state) : list event -> state -> Prop :=
| trace_nil : trace G s0 [] s0
| trace_snoc evs s ev : trace G s0 evs s -> event_wf ev -> G s ev -> trace G s0 (evs ++ [ev]) (exec_event s ev).
