(** Methods of [Invariant]: /repo/src/invariant_storage.rs *)
From Verif Require Import Base Decimal SqrtPriceM LogM ClammM FeeGrowthM Types TickmapM StorageM
  CollectionsM.
From stdpp Require Import gmap list.
Open Scope Z_scope.

(** invariant_storage.rs:32-54 *)
Definition increase_token_balance (s : state) (token caller : actor_id) (amount : Z) : res state :=
  if amount =? 0 then Ok s
  else
    let tokens := default ∅ (s_balances s !! caller) in
    let balance := default 0 (tokens !! token) in
    let* b := map_err (dec_checked_add M256 balance amount) FailedToChangeTokenBalance in
    Ok (set_balances (<[caller := <[token := b]> tokens]> (s_balances s)) s).

(** invariant_storage.rs:56-67 *)
Definition can_increase_token_balance (s : state) (token caller : actor_id) (amount : Z) : bool :=
  match s_balances s !! caller with
  | None => true
  | Some tokens =>
      match tokens !! token with
      | None => true
      | Some a => is_ok (dec_checked_add M256 a amount)
      end
  end.

(** invariant_storage.rs:69-109 *)
Definition decrease_token_balance (s : state) (token caller : actor_id) (amount : option Z)
    : res (state * Z) :=
  if bool_decide (amount = Some 0) then Ok (s, 0)
  else
    let* tokens := ok_or (s_balances s !! caller) NoBalanceForTheToken in
    let* balance := ok_or (tokens !! token) NoBalanceForTheToken in
    let remove_all :=
      (let tokens' := delete token tokens in
       if bool_decide (tokens' = ∅)
       then Ok (set_balances (delete caller (s_balances s)) s, balance)
       else Ok (set_balances (<[caller := tokens']> (s_balances s)) s, balance)) in
    match amount with
    | Some a =>
        if negb (a =? balance) then
          let* b := map_err (dec_checked_sub balance a) FailedToChangeTokenBalance in
          Ok (set_balances (<[caller := <[token := b]> tokens]> (s_balances s)) s, a)
        else remove_all
    | None => remove_all
    end.

(** /repo/io/src/lib.rs:63-72 *)
Record calculate_swap_result : Type := mkSwapOut {
  cs_amount_in : Z;
  cs_amount_out : Z;
  cs_start_sqrt_price : Z;
  cs_target_sqrt_price : Z;
  cs_fee : Z;
  cs_pool : pool;
  cs_ticks : list tick;
}.

(** The mutable locals of [calculate_swap] (lines 125-153). *)
Record swap_loop_state : Type := mkLoop {
  l_pool : pool;
  l_remaining : Z;
  l_in : Z;
  l_out : Z;
  l_fee : Z;
  l_ticks : list tick;
}.

(** invariant_storage.rs:156-233: one iteration of the [while] loop. *)
Definition swap_iteration (s : state) (k : pool_key) (x_to_y by_amount_in : bool)
    (sqrt_price_limit tick_limit current_timestamp : Z) (l : swap_loop_state)
    : res swap_loop_state :=
  let p := l_pool l in
  (* 156-171 *)
  let* (swap_limit, limiting_tick) :=
    get_closer_limit (s_bitmap s) sqrt_price_limit x_to_y (p_current_tick_index p)
      (pk_spacing k) k in
  let* result :=
    unwrap (compute_swap_step (p_sqrt_price p) swap_limit (p_liquidity p) (l_remaining l)
              by_amount_in (pk_fee k)) in
  (* 173-177 *)
  let* in_plus_fee := dec_add M256 (sr_amount_in result) (sr_fee_amount result) in
  let* remaining :=
    if by_amount_in then dec_sub (l_remaining l) in_plus_fee
    else dec_sub (l_remaining l) (sr_amount_out result) in
  (* 179-185 *)
  let* p := unwrap (pool_add_fee p (sr_fee_amount result) x_to_y (s_protocol_fee s)) in
  let* event_fee := dec_add M256 (l_fee l) (sr_fee_amount result) in
  let p := set_sqrt_price (sr_next_sqrt_price result) p in
  let* total_in := dec_add M256 (l_in l) in_plus_fee in
  let* total_out := dec_add M256 (l_out l) (sr_amount_out result) in
  (* 187-190 *)
  let* _ := fail_if ((p_sqrt_price p =? sqrt_price_limit) && negb (remaining =? 0))
              PriceLimitReached in
  (* 192-203 *)
  let* tick_update :=
    match limiting_tick with
    | Some (tick_index, true) => let* t := ticks_get s k tick_index in Ok (TickInitialized t)
    | Some (tick_index, false) => Ok (TickUninitialized tick_index)
    | None => Ok NoTick
    end in
  (* 205-218 *)
  let* (p, tick_update, (amount_to_add, remaining, has_crossed)) :=
    pool_update_tick p result swap_limit tick_update remaining by_amount_in x_to_y
      current_timestamp (s_protocol_fee s) (pk_fee_tier k) in
  let* total_in := dec_add M256 total_in amount_to_add in
  (* 220-224 *)
  let ticks :=
    match tick_update with
    | TickInitialized t => if has_crossed : bool then l_ticks l ++ [t] else l_ticks l
    | _ => l_ticks l
    end in
  (* 226-233 *)
  let reached := if x_to_y then p_current_tick_index p <=? tick_limit
                 else tick_limit <=? p_current_tick_index p in
  let* _ := fail_if reached TickLimitReached in
  Ok (mkLoop p remaining total_in total_out event_fee ticks).

(** The [while !remaining_amount.is_zero()] loop: [iterate n] runs up to 2^n
    iterations of [body] and stops as soon as the condition fails or an
    iteration does not return normally.  C27 proves that the budget used by
    [calculate_swap], 2^100 iterations, is never exhausted. *)
Inductive progress (S : Type) : Type :=
| Cont (s : S)
| Stop (r : res S).
Arguments Cont {S} _.
Arguments Stop {S} _.

Definition loop_once {S} (finished : S -> bool) (body : S -> res S) (s : S) : progress S :=
  if finished s then Stop (Ok s)
  else match body s with Ok s' => Cont s' | r => Stop r end.

Fixpoint iterate {S} (finished : S -> bool) (body : S -> res S) (n : nat) (s : S) : progress S :=
  match n with
  | O => loop_once finished body s
  | S n' => match iterate finished body n' s with
            | Cont s' => iterate finished body n' s'
            | Stop r => Stop r
            end
  end.

Definition while_loop {S} (finished : S -> bool) (body : S -> res S) (s : S) : res S :=
  match iterate finished body 100 s with Stop r => r | Cont _ => Loop end.

(** invariant_storage.rs:111-249 *)
Definition calculate_swap (s : state) (current_timestamp : Z) (k : pool_key) (x_to_y : bool)
    (amount : Z) (by_amount_in : bool) (sqrt_price_limit : Z) : res calculate_swap_result :=
  let* _ := fail_if (amount =? 0) AmountIsZero in
  let* p := pools_get s k in
  let* _ := fail_if (if x_to_y
                     then (p_sqrt_price p <=? sqrt_price_limit) || (MAX_SQRT_PRICE <? sqrt_price_limit)
                     else (sqrt_price_limit <=? p_sqrt_price p) || (sqrt_price_limit <? MIN_SQRT_PRICE))
              WrongLimit in
  let* tick_limit := if x_to_y then get_min_tick (pk_spacing k) else get_max_tick (pk_spacing k) in
  let* l := while_loop (fun l => l_remaining l =? 0)
              (swap_iteration s k x_to_y by_amount_in sqrt_price_limit tick_limit current_timestamp)
              (mkLoop p amount 0 0 0 []) in
  let* _ := fail_if (l_out l =? 0) NoGainSwap in
  Ok (mkSwapOut (l_in l) (l_out l) (p_sqrt_price p) (p_sqrt_price (l_pool l)) (l_fee l)
        (l_pool l) (l_ticks l)).

(** invariant_storage.rs:251-262 *)
Definition create_tick (s : state) (current_timestamp : Z) (k : pool_key) (index : Z) : res tick :=
  let* _ := map_err (check_tick index (pk_spacing k)) InvalidTickIndexOrTickSpacing in
  let* p := pools_get s k in
  tick_create index p current_timestamp.

(** invariant_storage.rs:264-270 *)
Definition get_or_create_tick (s : state) (current_timestamp : Z) (k : pool_key) (index : Z)
    : res (tick * bool) :=
  match s_ticks s !! (k, index) with
  | Some t => Ok (t, false)
  | None => let* t := unwrap (create_tick s current_timestamp k index) in Ok (t, true)
  end.

(** invariant_storage.rs:272-279 *)
Definition add_tick (s : state) (k : pool_key) (t : tick) : res state :=
  let* s := ticks_add s k (t_index t) t in
  let* b := tickmap_flip (s_bitmap s) true (t_index t) (pk_spacing k) k in
  Ok (set_bitmap b s).

(** invariant_storage.rs:281-290 *)
Definition remove_tick (s : state) (k : pool_key) (t : tick) : res state :=
  let* _ := fail_if (negb (t_liquidity_gross t =? 0)) NotEmptyTickDeinitialization in
  let* b := tickmap_flip (s_bitmap s) false (t_index t) (pk_spacing k) k in
  ticks_remove (set_bitmap b s) k (t_index t).

(** invariant_storage.rs:292-306, over a list of chunk indices *)
Definition tickmap_slice (s : state) (chunks : list Z) (k : pool_key) : list (Z * Z) :=
  omap (fun c => match s_bitmap s !! (c, k) with Some v => Some (c, v) | None => None end) chunks.

(** invariant_storage.rs:308-317 (the range is exclusive of the last chunk) *)
Definition liquidity_ticks_count (s : state) (k : pool_key) : res Z :=
  let* m := get_max_chunk (pk_spacing k) in
  Ok (foldr (fun c acc => (match s_bitmap s !! (c, k) with Some v => count_ones v | None => 0 end) + acc)
        0 (range 0 m)).
