(** C01, C02, C43: ticks and prices.

    [calculate_sqrt_price t] is the code's tick-to-price conversion and
    [get_tick_at_sqrt_price p s] its price-to-tick conversion; prices are
    integers in units of 10^-24. *)
From Verif Require Import Base Decimal SqrtPriceM LogM Arith SpecMath P_Clamm P_TickPrice P_LogR P_GetTick.
From Coq Require Import ZArith Lia Bool List Reals Lra.
Import ListNotations.
Open Scope Z_scope.

(** ** C01 *)
Theorem C01_tick_price_total_and_bounded t : -221818 <= t <= 221818 ->
  exists p, calculate_sqrt_price t = Ok p /\ MIN_SQRT_PRICE <= p <= MAX_SQRT_PRICE /\
            (p = MIN_SQRT_PRICE <-> t = -221818) /\ (p = MAX_SQRT_PRICE <-> t = 221818).
Proof.
  intros Ht. exists (price t). split; [apply calculate_sqrt_price_valid; auto|].
  pose proof (price_range t Ht) as [H1 H2]. unfold MIN_SQRT_PRICE, MAX_SQRT_PRICE.
  split; [lia|]. rewrite <- price_min, <- price_max.
  split; (split; [intros E; apply price_inj in E; auto; unfold valid_tick; lia|intros ->; auto]).
Qed.

Theorem C01_tick_price_strictly_increasing t1 t2 p1 p2 :
  -221818 <= t1 <= 221818 -> -221818 <= t2 <= 221818 -> t1 < t2 ->
  calculate_sqrt_price t1 = Ok p1 -> calculate_sqrt_price t2 = Ok p2 -> p1 < p2.
Proof.
  intros H1 H2 H E1 E2. rewrite calculate_sqrt_price_valid in E1, E2 by auto.
  injection E1 as <-. injection E2 as <-. apply price_lt; auto.
Qed.

(** Every other 32-bit index except the least one is rejected ... *)
Theorem C01_other_ticks_rejected_guarded t :
  -2147483648 < t <= 2147483647 -> ~ (-221818 <= t <= 221818) -> calculate_sqrt_price t = Err ETrack.
Proof.
  intros H1 H2. apply calculate_sqrt_price_invalid; [unfold is_i32, i32_min, i32_max; lia|auto|unfold i32_min; lia].
Qed.

(** ... but the least one is accepted, with price 1.0 (the release-mode
    absolute value wraps). *)
Theorem C01_other_ticks_rejected_refuted :
  calculate_sqrt_price (-2147483648) = Ok (10 ^ 24) /\ ~ (-221818 <= -2147483648 <= 221818).
Proof. split; [vm_compute; reflexivity|lia]. Qed.

Example C01_cases :
  calculate_sqrt_price (-221818) = Ok MIN_SQRT_PRICE /\ calculate_sqrt_price 221818 = Ok MAX_SQRT_PRICE /\
  calculate_sqrt_price 0 = Ok (10 ^ 24) /\ calculate_sqrt_price 20000 = Ok 2718145925979000000000000 /\
  calculate_sqrt_price (-1) = Ok 999950003749000000000000 /\ calculate_sqrt_price 221819 = Err ETrack.
Proof. repeat split; vm_compute; reflexivity. Qed.

(** ** C02 *)
Theorem C02_tick_of_price_is_floor p s :
  MIN_SQRT_PRICE <= p <= MAX_SQRT_PRICE -> 1 <= s <= 100 ->
  exists r T pT,
    get_tick_at_sqrt_price p s = Ok r /\
    -221818 <= T <= 221818 /\
    calculate_sqrt_price T = Ok pT /\ pT <= p /\
    (T = 221818 \/ exists pT', calculate_sqrt_price (T + 1) = Ok pT' /\ p < pT') /\
    (s | r) /\ r <= T < r + s.
Proof.
  intros Hp Hs. destruct (get_tick_spec p s Hp Hs) as (T & HT & H1 & H2 & H3).
  exists (s * (T / s)), T, (price T). split; [auto|]. split; [auto|].
  split; [apply calculate_sqrt_price_valid; auto|]. split; [auto|]. split.
  - unfold valid_tick in HT. destruct (Z.eq_dec T 221818); [auto|right]. exists (price (T + 1)).
    split; [apply calculate_sqrt_price_valid; unfold valid_tick; lia|apply H2; lia].
  - split; [exists (T / s); ring|]. pose proof (div_bounds T s ltac:(lia)). lia.
Qed.

(** The tick T above is determined by the price. *)
Theorem C02_floor_tick_unique p T1 T2 p1 p2 q1 q2 :
  -221818 <= T1 < 221818 -> -221818 <= T2 < 221818 ->
  calculate_sqrt_price T1 = Ok p1 -> p1 <= p -> calculate_sqrt_price (T1 + 1) = Ok q1 -> p < q1 ->
  calculate_sqrt_price T2 = Ok p2 -> p2 <= p -> calculate_sqrt_price (T2 + 1) = Ok q2 -> p < q2 -> T1 = T2.
Proof.
  intros V1 V2 A1 A2 A3 A4 B1 B2 B3 B4.
  rewrite calculate_sqrt_price_valid in A1, A3, B1, B3 by (unfold valid_tick; lia).
  injection A1 as <-. injection A3 as <-. injection B1 as <-. injection B3 as <-.
  destruct (Z.lt_trichotomy T1 T2) as [H|[H|H]]; auto; exfalso.
  - pose proof (price_le (T1 + 1) T2 ltac:(unfold valid_tick; lia) ltac:(unfold valid_tick; lia) ltac:(lia)). lia.
  - pose proof (price_le (T2 + 1) T1 ltac:(unfold valid_tick; lia) ltac:(unfold valid_tick; lia) ltac:(lia)). lia.
Qed.

(** Round trip: the price of a tick maps back to that tick. *)
Theorem C02_round_trip t s : -221818 <= t <= 221818 -> 1 <= s <= 100 -> (s | t) ->
  exists p, calculate_sqrt_price t = Ok p /\ get_tick_at_sqrt_price p s = Ok t.
Proof.
  intros Ht Hs [k Hk]. exists (price t). split; [apply calculate_sqrt_price_valid; auto|].
  destruct (get_tick_spec (price t) s (price_range t Ht) Hs) as (T & HT & H1 & H2 & H3).
  rewrite H3. assert (T = t) as ->.
  { destruct (Z.lt_trichotomy T t) as [H|[H|H]]; auto; exfalso; unfold valid_tick in *.
    - specialize (H2 ltac:(lia)). pose proof (price_le (T + 1) t ltac:(unfold valid_tick; lia) Ht ltac:(lia)). lia.
    - pose proof (price_lt t T Ht HT ltac:(lia)). lia. }
  subst t. rewrite Z.div_mul by lia. f_equal. lia.
Qed.

Theorem C02_outside_range_rejected p s :
  p < MIN_SQRT_PRICE \/ MAX_SQRT_PRICE < p -> get_tick_at_sqrt_price p s = Err ETrack.
Proof.
  intros H. unfold get_tick_at_sqrt_price.
  destruct (Z.ltb_spec MAX_SQRT_PRICE p); [reflexivity|].
  destruct (Z.ltb_spec p MIN_SQRT_PRICE); [reflexivity|lia].
Qed.

(** The result can be a multiple of the spacing below the least valid tick. *)
Theorem C02_result_is_valid_tick_refuted :
  get_tick_at_sqrt_price MIN_SQRT_PRICE 100 = Ok (-221900) /\ calculate_sqrt_price (-221900) = Err ETrack.
Proof. split; vm_compute; reflexivity. Qed.

Example C02_cases :
  get_tick_at_sqrt_price MAX_SQRT_PRICE 1 = Ok 221818 /\
  get_tick_at_sqrt_price 2718145925979000000000000 10 = Ok 20000 /\
  get_tick_at_sqrt_price 2718145925978999999999999 10 = Ok 19990 /\
  get_tick_at_sqrt_price 999950003749000000000000 1 = Ok (-1) /\
  get_tick_at_sqrt_price 999950003748999999999999 1 = Ok (-2).
Proof. repeat split; vm_compute; reflexivity. Qed.

(** ** C43: accuracy against the mathematical price sqrt(1.0001)^t *)
Theorem C43_tick_price_accuracy t p : -221818 <= t <= 221818 -> calculate_sqrt_price t = Ok p ->
  (Rabs (ln (IZR p / 10 ^ 24) - IZR t * (ln 1.0001 / 2)) <= 1.5 / 10 ^ 7)%R.
Proof.
  intros Ht E. rewrite calculate_sqrt_price_valid in E by auto. injection E as <-.
  pose proof (price_range t Ht) as [Hr _].
  assert (EL : (ln 1.0001 / 2 = lam)%R).
  { unfold lam, lz. replace 1.0001%R with (10001 / 10000)%R by lra. unfold Rdiv.
    rewrite ln_mult, ln_Rinv by lra. lra. }
  assert (EP : (ln (IZR (price t) / 10 ^ 24) = lz (price t) - 2 * lz 1000000000000)%R).
  { assert (0 < IZR (price t))%R by (apply IZR_lt; lia).
    unfold Rdiv. rewrite ln_mult, ln_Rinv by (try apply Rinv_0_lt_compat; lra).
    replace (10 ^ 24)%R with (1000000000000 * 1000000000000)%R by lra.
    rewrite ln_mult by lra. unfold lz. lra. }
  rewrite EL, EP. clear EL EP Hr.
  assert (HB : (0 <= t /\ price t = mag t * 1000000000000) \/
               (t < 0 /\ price t = 1000000000000 * 1000000000000 / mag (- t) * 1000000000000)).
  { unfold price. destruct (Z.leb_spec 0 t); [left|right]; auto. }
  apply Rabs_le. destruct HB as [[H0 ->]|[H0 ->]].
  - pose proof (mag_bounds t ltac:(lia)) as HM. pose proof (mag_lz t ltac:(lia)) as HL.
    rewrite lz_mult by lia. lra.
  - pose proof (mag_bounds (- t) ltac:(lia)) as HM. pose proof (mag_lz (- t) ltac:(lia)) as HL.
    assert (HQ : 15258932 <= 1000000000000 * 1000000000000 / mag (- t)) by (apply div_le_lower; lia).
    pose proof (lz_div (1000000000000 * 1000000000000) (mag (- t)) 15258932 ltac:(lia) ltac:(lia) HQ) as HD.
    rewrite (lz_mult 1000000000000 1000000000000) in HD by lia. rewrite opp_IZR in HL.
    rewrite lz_mult by lia. lra.
Qed.
Example C43_case : exists p, calculate_sqrt_price (-221818) = Ok p /\ p = MIN_SQRT_PRICE.
Proof. eexists; split; [vm_compute; reflexivity|reflexivity]. Qed.

(** ** Assumptions *)
Print Assumptions C01_tick_price_total_and_bounded.
Print Assumptions C01_tick_price_strictly_increasing.
Print Assumptions C01_other_ticks_rejected_guarded.
Print Assumptions C01_other_ticks_rejected_refuted.
Print Assumptions C02_tick_of_price_is_floor.
Print Assumptions C02_floor_tick_unique.
Print Assumptions C02_round_trip.
Print Assumptions C02_outside_range_rejected.
Print Assumptions C02_result_is_valid_tick_refuted.
Print Assumptions C43_tick_price_accuracy.
