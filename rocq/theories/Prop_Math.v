(** C03 - C12: amounts, swap steps and fee growth.

    Reading guide: [y_num/y_den] and [x_num/x_den] (SpecMath.v) are the exact
    amounts of token y / x for a liquidity between two prices; [is_floor v n d]
    and [is_ceil v n d] say that v is the floor / ceiling of n/d.  Arguments of
    the swap step: current price p, target price t, liquidity L, amount, mode
    (true = exact-in), fee rate in 10^-12. *)
From Verif Require Import Base Decimal SqrtPriceM ClammM FeeGrowthM Types StorageM Arith SpecMath SpecFees
  P_Clamm P_Delta P_Next P_Step P_StepProps P_Fees.
From Coq Require Import ZArith Lia Bool List.
Import ListNotations.
Open Scope Z_scope.

Ltac split_all := repeat match goal with |- _ /\ _ => split end.

(** ** C03 *)
Theorem C03_delta_y_down_is_floor a b L v :
  u128 a -> u128 b -> u256 L ->
  get_delta_y a b L false = Ok v -> is_floor v (y_num a b L) y_den /\ u256 v.
Proof. exact (delta_y_down_floor a b L v). Qed.

Theorem C03_delta_y_up_is_ceil a b L v :
  u128 a -> u128 b -> u256 L ->
  get_delta_y a b L true = Ok v -> is_ceil v (y_num a b L) y_den /\ u256 v.
Proof. exact (delta_y_up_ceil a b L v). Qed.

Theorem C03_delta_y_down_fails_only_on_overflow a b L :
  u128 a -> u128 b -> u256 L ->
  (exists v, get_delta_y a b L false = Ok v) \/
  (get_delta_y a b L false = Err ETrack /\
   forall v, is_floor v (y_num a b L) y_den -> 2 ^ 256 <= v).
Proof. exact (delta_y_down_fails a b L). Qed.

Theorem C03_delta_y_up_fails_only_on_overflow a b L :
  u128 a -> u128 b -> u256 L ->
  (exists v, get_delta_y a b L true = Ok v) \/
  (get_delta_y a b L true = Err ETrack /\
   forall v, is_ceil v (y_num a b L) y_den -> 2 ^ 256 <= v).
Proof. exact (delta_y_up_fails a b L). Qed.

Example C03_case :
  get_delta_y 1234567890123456789012345 2234567890123456789012399 55555555555 false = Ok 555555 /\
  get_delta_y 1234567890123456789012345 2234567890123456789012399 55555555555 true = Ok 555556.
Proof. vm_compute. auto. Qed.
Example C03_overflow_case :
  get_delta_y 0 (2 ^ 128 - 1) (2 ^ 256 - 1) false = Err ETrack.
Proof. vm_compute. auto. Qed.

(** ** C04 *)
(** Rounding down: never above the exact amount, and below it by less than one
    unit plus the rounding of the price product. *)
Theorem C04_delta_x_down_at_most_exact a b L v :
  u128 a -> u128 b -> u256 L ->
  get_delta_x a b L false = Ok v ->
  0 <= v /\ v * x_den a b <= x_num a b L /\ x_num a b L < (v + 1) * (x_den a b + 10 ^ 24).
Proof. exact (delta_x_down_bounds a b L v). Qed.

(** Rounding up: at least the exact amount minus less than 1/floor(a*b/10^24)
    unit; at least the exact amount when L*|a-b| is a multiple of 10^5; and not
    more than one unit plus product rounding above it. *)
Theorem C04_delta_x_up_at_least_exact_guarded a b L v :
  u128 a -> u128 b -> u256 L ->
  get_delta_x a b L true = Ok v ->
  0 <= v /\
  x_num a b L * (x_den a b / 10 ^ 24) < (v * (x_den a b / 10 ^ 24) + 1) * x_den a b /\
  ((L * Z.abs (a - b)) mod 10 ^ 5 = 0 -> x_num a b L <= v * x_den a b) /\
  (v - 1) * (x_den a b - 10 ^ 24) <= x_num a b L.
Proof. exact (delta_x_up_bounds a b L v). Qed.

(** The claim without the sub-unit correction is false. *)
Theorem C04_delta_x_up_at_least_exact_refuted :
  exists a b L v, price_in_range a /\ price_in_range b /\ u256 L /\
    get_delta_x a b L true = Ok v /\ v * x_den a b < x_num a b L.
Proof.
  exists (10 ^ 24), (2 * 10 ^ 24 - 1), (2 * 10 ^ 5 * (10 ^ 19 - 1) + 1), (10 ^ 19 - 1).
  unfold price_in_range, u256. split_all; vm_compute; congruence.
Qed.

Theorem C04_amounts_exist a b L up :
  price_in_range a -> price_in_range b -> u256 L ->
  (exists v, get_delta_x a b L up = Ok v) /\ (exists v, get_delta_y a b L up = Ok v).
Proof. exact (delta_success a b L up). Qed.

Example C04_case :
  get_delta_x 1234567890123456789012345 2234567890123456789012399 55555555555555 false = Ok 201381218 /\
  get_delta_x 1234567890123456789012345 2234567890123456789012399 55555555555555 true = Ok 201381219.
Proof. vm_compute. auto. Qed.

(** ** C05 *)
Theorem C05_round_trip_never_profits cur p L upper lower x y u x' y' u' :
  u128 p -> u256 L ->
  calculate_amount_delta cur p L true upper lower = Ok (x, y, u) ->
  calculate_amount_delta cur p L false upper lower = Ok (x', y', u') ->
  0 <= x' <= x /\ 0 <= y' <= y /\ u = u'.
Proof. exact (amount_delta_round_trip cur p L upper lower x y u x' y' u'). Qed.

Example C05_case :
  calculate_amount_delta 2 1000140000000000000000000 5000000000000 true 3 0 = Ok (501, 7000, true) /\
  calculate_amount_delta 2 1000140000000000000000000 5000000000000 false 3 0 = Ok (500, 7000, true).
Proof. vm_compute. auto. Qed.

(** ** C06 *)
Theorem C06_step_stops_at_target_y_to_x p t L amount mode fee r :
  price_in_range p -> price_in_range t -> u256 L -> u256 amount -> 0 <= fee <= 10 ^ 12 ->
  compute_swap_step p t L amount mode fee = Ok r ->
  p < t -> p <= sr_next_sqrt_price r <= t.
Proof. intros Hp Ht HL Ha Hf Hr. exact (step_price_y_to_x p t L amount mode fee Hp Ht HL Ha Hf r Hr). Qed.

Theorem C06_step_moves_down_x_to_y p t L amount mode fee r :
  price_in_range p -> price_in_range t -> u256 L -> u256 amount -> 0 <= fee <= 10 ^ 12 ->
  compute_swap_step p t L amount mode fee = Ok r ->
  t <= p -> sr_next_sqrt_price r <= p.
Proof. intros Hp Ht HL Ha Hf Hr. exact (step_price_x_to_y p t L amount mode fee Hp Ht HL Ha Hf r Hr). Qed.

Theorem C06_step_stops_at_target_exact_out p t L amount fee r :
  price_in_range p -> price_in_range t -> u256 L -> u256 amount -> 0 <= fee <= 10 ^ 12 ->
  compute_swap_step p t L amount false fee = Ok r ->
  t <= p -> t <= sr_next_sqrt_price r <= p.
Proof.
  intros Hp Ht HL Ha Hf Hr. intros. split.
  - apply (step_price_exact_out p t L amount false fee Hp Ht HL Ha Hf r Hr); auto.
  - apply (step_price_x_to_y p t L amount false fee Hp Ht HL Ha Hf r Hr); auto.
Qed.

(** Exact-in x-to-y: the target is respected when p^2 >= 10^24*(p-t+1), in
    particular whenever p >= 10^24 (price at least one). *)
Theorem C06_step_stops_at_target_exact_in_guarded p t L amount fee r :
  price_in_range p -> price_in_range t -> u256 L -> u256 amount -> 0 <= fee <= 10 ^ 12 ->
  compute_swap_step p t L amount true fee = Ok r ->
  t <= p -> 10 ^ 24 * (p - t + 1) <= p * p -> t <= sr_next_sqrt_price r <= p.
Proof.
  intros Hp Ht HL Ha Hf Hr. intros. split.
  - apply (step_price_not_past p t L amount true fee Hp Ht HL Ha Hf r Hr); auto.
  - apply (step_price_x_to_y p t L amount true fee Hp Ht HL Ha Hf r Hr); auto.
Qed.

(** In every case the target is passed by less than 10^24/p raw units. *)
Theorem C06_overshoot_bound p t L amount mode fee r :
  price_in_range p -> price_in_range t -> u256 L -> u256 amount -> 0 <= fee <= 10 ^ 12 ->
  compute_swap_step p t L amount mode fee = Ok r ->
  t <= p -> (t - sr_next_sqrt_price r) * p < 10 ^ 24.
Proof. intros Hp Ht HL Ha Hf Hr. exact (step_price_overshoot p t L amount mode fee Hp Ht HL Ha Hf r Hr). Qed.

Theorem C06_step_stops_at_target_refuted :
  exists p t L amount fee r,
    price_in_range p /\ price_in_range t /\ u256 L /\ u256 amount /\ 0 <= fee <= 10 ^ 12 /\
    compute_swap_step p t L amount true fee = Ok r /\ t <= p /\ sr_next_sqrt_price r < t.
Proof.
  exists 25247229454309550045, 25155767724576929671, (10 ^ 19), 14546312484196693, (10 ^ 10).
  exists (mkSwapResult 25155767724576929649 14400849359354731 9146172 145463124841962).
  unfold price_in_range, u256. split_all; vm_compute; congruence.
Qed.

Example C06_case :
  (exists r, compute_swap_step (10 ^ 24) (1004987562112089027021926) 2000000000000 1 true 600000000 = Ok r /\
     sr_next_sqrt_price r = 10 ^ 24) /\
  (exists r, compute_swap_step (10 ^ 24) (10 ^ 24 - 10 ^ 22) (10 ^ 20) (10 ^ 12) true 600000000 = Ok r /\
     10 ^ 24 - 10 ^ 22 < sr_next_sqrt_price r < 10 ^ 24).
Proof. split; eexists; (split; [vm_compute; reflexivity|]); vm_compute; auto. Qed.

(** ** C07 *)
Theorem C07_exact_out_at_most_amount p t L amount fee r :
  price_in_range p -> price_in_range t -> u256 L -> u256 amount -> 0 <= fee <= 10 ^ 12 ->
  compute_swap_step p t L amount false fee = Ok r -> 0 <= sr_amount_out r <= amount.
Proof. intros Hp Ht HL Ha Hf Hr. exact (step_exact_out_amount p t L amount false fee Hp Ht HL Ha Hf r Hr eq_refl). Qed.

(** Exact-in: the exception is a step that lands exactly on the target although
    the amount left after the fee is below the rounded-up cost of reaching it. *)
Theorem C07_exact_in_at_most_amount_guarded p t L amount fee r :
  price_in_range p -> price_in_range t -> u256 L -> u256 amount -> 0 <= fee <= 10 ^ 12 ->
  compute_swap_step p t L amount true fee = Ok r ->
  sr_amount_in r + sr_fee_amount r <= amount \/
  (t <= p /\ sr_next_sqrt_price r = t /\ amount * (10 ^ 12 - fee) / 10 ^ 12 < sr_amount_in r).
Proof. intros Hp Ht HL Ha Hf Hr. exact (step_exact_in_amount p t L amount true fee Hp Ht HL Ha Hf r Hr eq_refl). Qed.

Theorem C07_exact_in_uses_whole_amount p t L amount fee r :
  price_in_range p -> price_in_range t -> u256 L -> u256 amount -> 0 <= fee <= 10 ^ 12 ->
  compute_swap_step p t L amount true fee = Ok r -> L <> 0 -> sr_next_sqrt_price r <> t ->
  sr_amount_in r + sr_fee_amount r = amount.
Proof. intros Hp Ht HL Ha Hf Hr. exact (step_exact_in_short p t L amount true fee Hp Ht HL Ha Hf r Hr eq_refl). Qed.

Theorem C07_exact_out_delivers_whole_amount_y p t L amount fee r :
  price_in_range p -> price_in_range t -> u256 L -> u256 amount -> 0 <= fee <= 10 ^ 12 ->
  compute_swap_step p t L amount false fee = Ok r -> L <> 0 -> t <= p -> sr_next_sqrt_price r <> t ->
  sr_amount_out r = amount.
Proof. intros Hp Ht HL Ha Hf Hr. exact (step_exact_out_short_y p t L amount false fee Hp Ht HL Ha Hf r Hr eq_refl). Qed.

Theorem C07_exact_in_at_most_amount_refuted :
  exists p t L amount fee r,
    price_in_range p /\ price_in_range t /\ u256 L /\ u256 amount /\ 0 <= fee <= 10 ^ 12 /\
    compute_swap_step p t L amount true fee = Ok r /\
    amount < sr_amount_in r + sr_fee_amount r.
Proof.
  exists 43697474469823344535, 43375339871970515158, (10 ^ 20), 169956642781615100, 1000.
  exists (mkSwapResult 43375339871970515158 169956642611658472 322134597 169956643).
  unfold price_in_range, u256. split_all; vm_compute; congruence.
Qed.

(** The step succeeds for all admissible arguments with a non-zero fee rate (and
    for any fee rate in the other modes); with a zero fee it can panic. *)
Theorem C07_step_total p t L amount mode fee :
  price_in_range p -> price_in_range t -> u256 L -> u256 amount -> 0 <= fee <= 10 ^ 12 ->
  0 < fee \/ mode = false \/ p < t ->
  exists r, compute_swap_step p t L amount mode fee = Ok r.
Proof. intros Hp Ht HL Ha Hf. exact (step_total p t L amount mode fee Hp Ht HL Ha Hf). Qed.

Theorem C07_step_total_zero_fee_refuted :
  exists p t L amount, price_in_range p /\ price_in_range t /\ u256 L /\ u256 amount /\
    compute_swap_step p t L amount true 0 = Panic.
Proof.
  exists 590000892375170757576812, 531000803137653693218816, 6031945239897658662809462, 3833574235433744493.
  unfold price_in_range, u256. split_all; vm_compute; congruence.
Qed.

(** Concrete steps meeting the hypotheses of the theorems of C06 - C09: exact-in
    stopping short, exact-in reaching, exact-out stopping short, in each direction. *)
Example C07_case_short_x_to_y :
  compute_swap_step (10 ^ 24) (10 ^ 24 - 10 ^ 22) (10 ^ 20) (10 ^ 12) true 600000000 =
    Ok (mkSwapResult 999001597803155526366949 999400000000 998402196844 600000000).
Proof. vm_compute. reflexivity. Qed.
Example C07_case_reach_x_to_y :
  exists r, compute_swap_step (10 ^ 24) (10 ^ 24 - 10 ^ 22) (10 ^ 20) (10 ^ 14) true 600000000 = Ok r /\
    sr_next_sqrt_price r = 10 ^ 24 - 10 ^ 22 /\ sr_amount_in r = 10101010101011 /\
    sr_amount_out r = 10 ^ 13 /\ sr_fee_amount r = 6060606061.
Proof. eexists; split; [vm_compute; reflexivity|]; vm_compute; auto. Qed.
Example C07_case_out_x_to_y :
  exists r, compute_swap_step (10 ^ 24) (10 ^ 24 - 10 ^ 22) (10 ^ 20) (10 ^ 12) false 600000000 = Ok r /\
    sr_next_sqrt_price r = 10 ^ 24 - 10 ^ 21 /\ sr_amount_out r = 10 ^ 12 /\ sr_amount_in r = 1001001001002.
Proof. eexists; split; [vm_compute; reflexivity|]; vm_compute; auto. Qed.
Example C07_case_short_y_to_x :
  exists r, compute_swap_step (10 ^ 24) (10 ^ 24 + 10 ^ 22) (10 ^ 20) (10 ^ 12) true 600000000 = Ok r /\
    sr_next_sqrt_price r = 1000999400000000000000000 /\ sr_amount_in r = 999400000000 /\
    sr_fee_amount r = 600000000.
Proof. eexists; split; [vm_compute; reflexivity|]; vm_compute; auto. Qed.
Example C07_case_out_y_to_x :
  exists r, compute_swap_step (10 ^ 24) (10 ^ 24 + 10 ^ 22) (10 ^ 20) (10 ^ 12) false 600000000 = Ok r /\
    sr_amount_out r = 10 ^ 12.
Proof. eexists; split; [vm_compute; reflexivity|]; vm_compute; auto. Qed.

(** ** C08 *)
Theorem C08_input_y_covers_exact p t L amount mode fee r :
  price_in_range p -> price_in_range t -> u256 L -> u256 amount -> 0 <= fee <= 10 ^ 12 ->
  compute_swap_step p t L amount mode fee = Ok r -> p < t ->
  y_num p (sr_next_sqrt_price r) L <= sr_amount_in r * y_den.
Proof. intros Hp Ht HL Ha Hf Hr. exact (step_in_y p t L amount mode fee Hp Ht HL Ha Hf r Hr). Qed.

Theorem C08_output_x_at_most_exact p t L amount mode fee r :
  price_in_range p -> price_in_range t -> u256 L -> u256 amount -> 0 <= fee <= 10 ^ 12 ->
  compute_swap_step p t L amount mode fee = Ok r -> p < t ->
  sr_amount_out r * x_den p (sr_next_sqrt_price r) <= x_num p (sr_next_sqrt_price r) L.
Proof. intros Hp Ht HL Ha Hf Hr. exact (step_out_x p t L amount mode fee Hp Ht HL Ha Hf r Hr). Qed.

Theorem C08_output_y_at_most_exact p t L amount mode fee r :
  price_in_range p -> price_in_range t -> u256 L -> u256 amount -> 0 <= fee <= 10 ^ 12 ->
  compute_swap_step p t L amount mode fee = Ok r -> t <= p ->
  sr_amount_out r * y_den <= y_num p (sr_next_sqrt_price r) L.
Proof. intros Hp Ht HL Ha Hf Hr. exact (step_out_y p t L amount mode fee Hp Ht HL Ha Hf r Hr). Qed.

Theorem C08_input_x_covers_exact p t L amount mode fee r :
  price_in_range p -> price_in_range t -> u256 L -> u256 amount -> 0 <= fee <= 10 ^ 12 ->
  compute_swap_step p t L amount mode fee = Ok r -> t <= p ->
  let exact := x_num p (sr_next_sqrt_price r) L in
  let d := x_den p (sr_next_sqrt_price r) in
  exact * (d / 10 ^ 24) < (sr_amount_in r * (d / 10 ^ 24) + 1) * d /\
  ((L * (p - sr_next_sqrt_price r)) mod 10 ^ 5 = 0 -> exact <= sr_amount_in r * d).
Proof. intros Hp Ht HL Ha Hf Hr. exact (step_in_x p t L amount mode fee Hp Ht HL Ha Hf r Hr). Qed.

(** ** C09 *)
Theorem C09_fee_is_ceil_of_input p t L amount mode fee r :
  price_in_range p -> price_in_range t -> u256 L -> u256 amount -> 0 <= fee <= 10 ^ 12 ->
  compute_swap_step p t L amount mode fee = Ok r ->
  sr_next_sqrt_price r = t \/ mode = false ->
  is_ceil (sr_fee_amount r) (sr_amount_in r * fee) (10 ^ 12).
Proof. intros Hp Ht HL Ha Hf Hr. exact (step_fee_reached p t L amount mode fee Hp Ht HL Ha Hf r Hr). Qed.

Theorem C09_fee_of_short_step p t L amount fee r :
  price_in_range p -> price_in_range t -> u256 L -> u256 amount -> 0 <= fee <= 10 ^ 12 ->
  compute_swap_step p t L amount true fee = Ok r ->
  L <> 0 -> sr_next_sqrt_price r <> t ->
  amount * fee <= (sr_fee_amount r + (if t <=? p then amount / 10 ^ 14 + 1 else 0)) * 10 ^ 12.
Proof. intros Hp Ht HL Ha Hf Hr. exact (step_fee_short p t L amount true fee Hp Ht HL Ha Hf r Hr eq_refl). Qed.

(** ** C10 *)
Theorem C10_add_is_modular a b : u128 a -> u128 b -> unchecked_add a b = (a + b) mod 2 ^ 128.
Proof. exact (unchecked_add_wrap a b). Qed.
Theorem C10_sub_is_modular a b : u128 a -> u128 b -> unchecked_sub a b = (a - b) mod 2 ^ 128.
Proof. exact (unchecked_sub_wrap a b). Qed.
Theorem C10_add_then_sub a b : u128 a -> u128 b -> unchecked_sub (unchecked_add a b) b = a.
Proof. exact (add_sub_restore a b). Qed.
Theorem C10_sub_then_add a b : u128 a -> u128 b -> unchecked_add (unchecked_sub a b) b = a.
Proof. exact (sub_add_restore a b). Qed.
Theorem C10_inside_is_difference lo lo_x lo_y up up_x up_y cur gx gy :
  u128 lo_x -> u128 lo_y -> u128 up_x -> u128 up_y -> u128 gx -> u128 gy ->
  calculate_fee_growth_inside lo lo_x lo_y up up_x up_y cur gx gy =
    (wrap (growth_below up cur gx up_x - growth_below lo cur gx lo_x),
     wrap (growth_below up cur gy up_y - growth_below lo cur gy lo_y)).
Proof. intros. unfold calculate_fee_growth_inside. rewrite !fee_growth_inside_eq by auto. reflexivity. Qed.
Example C10_wraps :
  unchecked_add (2 ^ 128 - 1) 5 = 4 /\
  calculate_fee_growth_inside (-2) 10 10 2 15 15 3 0 1 = (5, 5) /\
  calculate_fee_growth_inside (-2) 10 10 2 15 15 0 0 1 = (2 ^ 128 - 25, 2 ^ 128 - 24).
Proof. vm_compute. auto. Qed.

(** ** C11 *)
Theorem C11_distributed_at_most_collected L lqs es :
  u256 L -> sumZ (fun l => l) lqs = L -> Forall (fun l => 0 <= l) lqs ->
  Forall (fun e => forall f, e = FeeIn f -> u256 f) es ->
  let a := fold_left (fee_event_step L) es (mkAcct (map (fun l => (l, 0)) lqs) 0 0 0) in
  0 <= fa_paid a <= fa_collected a.
Proof. exact (fees_distributed_le_collected L lqs es). Qed.

Theorem C11_share_of_one_fee L fee g l v :
  u256 L -> u256 fee -> u256 l -> from_fee L fee = Ok g -> to_fee g l = Ok v ->
  0 <= v /\ v * L <= l * fee.
Proof.
  intros HL Hf Hl H1 H2. pose proof (from_fee_le L fee g HL Hf H1).
  apply from_fee_inv in H1 as (H0 & _ & Hg); auto.
  apply to_fee_le in H2 as [? ?]; auto. split; [auto|]. apply u256_M in Hl.
  unfold E33 in *. nia.
Qed.

Example C11_case :
  let a := fold_left (fee_event_step 1000000) [FeeIn 100; Collect 0; FeeIn 77; Collect 1; Collect 0; Collect 2]
             (mkAcct (map (fun l => (l, 0)) [200000; 500000; 300000]) 0 0 0) in
  fa_collected a = 177 /\ fa_paid a = 176.
Proof. vm_compute. auto. Qed.

(** ** C12 *)
Theorem C12_fee_split p amount in_x protocol_fee p' :
  u256 amount -> 0 <= protocol_fee -> u256 (p_liquidity p) ->
  pool_add_fee p amount in_x protocol_fee = Ok p' ->
  exists part rest,
    part + rest = amount /\ 0 <= part /\ 0 <= rest /\ is_ceil part (amount * protocol_fee) (10 ^ 12) /\
    ((p' = p /\ (amount = 0 \/ p_liquidity p = 0)) \/
     (exists g, from_fee (p_liquidity p) rest = Ok g /\
        p' = (if in_x
              then set_fees_x (unchecked_add (p_fee_growth_global_x p) g) (p_fee_protocol_token_x p + part) p
              else set_fees_y (unchecked_add (p_fee_growth_global_y p) g) (p_fee_protocol_token_y p + part) p) /\
        (if in_x then p_fee_protocol_token_x p + part < 2 ^ 256 else p_fee_protocol_token_y p + part < 2 ^ 256))).
Proof. exact (pool_add_fee_spec p amount in_x protocol_fee p'). Qed.

Theorem C12_over_100_percent_panics p amount in_x protocol_fee :
  u256 amount -> 0 < amount -> 10 ^ 12 < protocol_fee < 2 ^ 128 ->
  pool_add_fee p amount in_x protocol_fee = Panic.
Proof. exact (pool_add_fee_over p amount in_x protocol_fee). Qed.

Example C12_case :
  let p := mkPool 1000000 (10 ^ 24) 0 7 8 3 4 0 0 0 in
  pool_add_fee p 100 true (10 ^ 10) = Ok (set_fees_x (7 + 99 * 10 ^ 27) 4 p).
Proof. vm_compute. reflexivity. Qed.

(** ** Assumptions *)
Print Assumptions C03_delta_y_down_is_floor.
Print Assumptions C03_delta_y_up_is_ceil.
Print Assumptions C03_delta_y_down_fails_only_on_overflow.
Print Assumptions C03_delta_y_up_fails_only_on_overflow.
Print Assumptions C04_delta_x_down_at_most_exact.
Print Assumptions C04_delta_x_up_at_least_exact_guarded.
Print Assumptions C04_delta_x_up_at_least_exact_refuted.
Print Assumptions C04_amounts_exist.
Print Assumptions C05_round_trip_never_profits.
Print Assumptions C06_step_stops_at_target_y_to_x.
Print Assumptions C06_step_moves_down_x_to_y.
Print Assumptions C06_step_stops_at_target_exact_out.
Print Assumptions C06_step_stops_at_target_exact_in_guarded.
Print Assumptions C06_overshoot_bound.
Print Assumptions C06_step_stops_at_target_refuted.
Print Assumptions C07_exact_out_at_most_amount.
Print Assumptions C07_exact_in_at_most_amount_guarded.
Print Assumptions C07_exact_in_uses_whole_amount.
Print Assumptions C07_exact_out_delivers_whole_amount_y.
Print Assumptions C07_exact_in_at_most_amount_refuted.
Print Assumptions C07_step_total.
Print Assumptions C07_step_total_zero_fee_refuted.
Print Assumptions C08_input_y_covers_exact.
Print Assumptions C08_output_x_at_most_exact.
Print Assumptions C08_output_y_at_most_exact.
Print Assumptions C08_input_x_covers_exact.
Print Assumptions C09_fee_is_ceil_of_input.
Print Assumptions C09_fee_of_short_step.
Print Assumptions C10_add_is_modular.
Print Assumptions C10_sub_is_modular.
Print Assumptions C10_add_then_sub.
Print Assumptions C10_sub_then_add.
Print Assumptions C10_inside_is_difference.
Print Assumptions C11_distributed_at_most_collected.
Print Assumptions C11_share_of_one_fee.
Print Assumptions C12_fee_split.
Print Assumptions C12_over_100_percent_panics.
