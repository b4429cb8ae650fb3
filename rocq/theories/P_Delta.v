(** get_delta_x / get_delta_y / calculate_amount_delta against the exact amounts. *)
From Verif Require Import Base Decimal SqrtPriceM ClammM Arith SpecMath P_Clamm.
From Coq Require Import ZArith Lia Bool List.
Open Scope Z_scope.

(** ** token y *)
Lemma delta_y_down_floor a b L v :
  u128 a -> u128 b -> u256 L ->
  get_delta_y a b L false = Ok v -> is_floor v (y_num a b L) y_den /\ u256 v.
Proof.
  intros Ha Hb HL. rewrite get_delta_y_down_eq by auto. cbv zeta.
  destruct (Z.ltb_spec (Z.abs (a - b) * L / E29) M256); [|discriminate]. intros H0; inv_res.
  unfold is_floor, y_num. rewrite y_den_E29.
  pose proof (div_bounds (Z.abs (a - b) * L) E29 eq_refl).
  split; [nia|]. apply u256_I. split; auto. apply div_nonneg; [reflexivity|].
  apply u256_M in HL. nia.
Qed.

Lemma delta_y_up_ceil a b L v :
  u128 a -> u128 b -> u256 L ->
  get_delta_y a b L true = Ok v -> is_ceil v (y_num a b L) y_den /\ u256 v.
Proof.
  intros Ha Hb HL. rewrite get_delta_y_up_eq by auto. cbv zeta.
  destruct (Z.ltb_spec (cdiv (Z.abs (a - b) * L) E29) M256); [|discriminate]. intros H0; inv_res.
  unfold is_ceil, y_num. rewrite y_den_E29.
  pose proof (cdiv_bounds (Z.abs (a - b) * L) E29 eq_refl).
  split; [nia|]. apply u256_I. split; auto. apply cdiv_nonneg; [reflexivity|].
  apply u256_M in HL. nia.
Qed.

Lemma delta_y_down_fails a b L :
  u128 a -> u128 b -> u256 L ->
  (exists v, get_delta_y a b L false = Ok v) \/
  (get_delta_y a b L false = Err ETrack /\
   forall v, is_floor v (y_num a b L) y_den -> 2 ^ 256 <= v).
Proof.
  intros Ha Hb HL. rewrite get_delta_y_down_eq by auto. cbv zeta.
  destruct (Z.ltb_spec (Z.abs (a - b) * L / E29) M256); [left; eauto|right].
  split; auto. intros v [H1 H2]. change (2 ^ 256) with M256.
  unfold y_num in *. rewrite y_den_E29 in *.
  pose proof (div_unique (Z.abs (a - b) * L) E29 v eq_refl) as HU.
  rewrite <- HU; [lia|]. lia.
Qed.

Lemma delta_y_up_fails a b L :
  u128 a -> u128 b -> u256 L ->
  (exists v, get_delta_y a b L true = Ok v) \/
  (get_delta_y a b L true = Err ETrack /\
   forall v, is_ceil v (y_num a b L) y_den -> 2 ^ 256 <= v).
Proof.
  intros Ha Hb HL. rewrite get_delta_y_up_eq by auto. cbv zeta.
  destruct (Z.ltb_spec (cdiv (Z.abs (a - b) * L) E29) M256); [left; eauto|right].
  split; auto. intros v [H1 H2]. change (2 ^ 256) with M256.
  unfold y_num in *. rewrite y_den_E29 in *.
  pose proof (cdiv_unique (Z.abs (a - b) * L) E29 v eq_refl) as HU.
  rewrite <- HU; [lia|]. lia.
Qed.

(** ** token x *)
Lemma get_delta_x_up_inv a b L v :
  u128 a -> u128 b -> u256 L ->
  get_delta_x a b L true = Ok v -> v = cdiv (dx_nom a b L) (dx_den a b) /\ 0 < dx_den a b.
Proof.
  intros Ha%u128_M Hb%u128_M HL%u256_M. unfold get_delta_x. rewrite abs_if.
  unfold sqrt_price_mul_liquidity, sqrt_price_mul_sqrt_price, big_mul_to_value, big_div_values_to_token_up.
  intros H. inv_res. subst. fold (dx_nom a b L) in *. fold (dx_den a b) in *.
  assert (Hd : 0 < dx_den a b) by lia. split; auto.
  change SQRT_PRICE_ALMOST_ONE with (SQRT_PRICE_ONE - 1).
  rewrite !cdiv_eq_div by (reflexivity || lia).
  apply cdiv_scale; [lia|reflexivity].
Qed.

Lemma get_delta_x_down_inv a b L v :
  u128 a -> u128 b -> u256 L ->
  get_delta_x a b L false = Ok v -> v = dx_nom a b L / dx_den_up a b /\ 0 < dx_den_up a b.
Proof.
  intros Ha%u128_M Hb%u128_M HL%u256_M. unfold get_delta_x. rewrite abs_if.
  unfold sqrt_price_mul_liquidity, sqrt_price_mul_sqrt_price_up, big_mul_to_value, big_mul_to_value_up,
    big_div_values_to_token.
  intros H. inv_res. subst. rewrite !cdiv_eq_div in * by reflexivity.
  fold (dx_nom a b L) in *. fold (dx_den_up a b) in *.
  assert (0 <= dx_den_up a b) by (apply cdiv_nonneg; [reflexivity|nia]).
  assert (Hd : 0 < dx_den_up a b) by lia. split; auto.
  apply div_scale; [lia|reflexivity].
Qed.

Lemma dx_nom_nonneg a b L : 0 <= L -> 0 <= dx_nom a b L.
Proof. intros. apply div_nonneg; [reflexivity|nia]. Qed.

Lemma delta_x_down_bounds a b L v :
  u128 a -> u128 b -> u256 L ->
  get_delta_x a b L false = Ok v ->
  0 <= v /\ v * x_den a b <= x_num a b L /\ x_num a b L < (v + 1) * (x_den a b + 10 ^ 24).
Proof.
  intros Ha Hb HL H. apply get_delta_x_down_inv in H as [-> Hd]; auto.
  apply u128_M in Ha, Hb. apply u256_M in HL.
  pose proof (dx_nom_nonneg a b L ltac:(lia)) as Hn.
  unfold x_num, x_den. change (10 ^ 19) with 10000000000000000000.
  change (10 ^ 24) with SQRT_PRICE_ONE.
  pose proof (div_bounds (dx_nom a b L) (dx_den_up a b) Hd) as H1.
  pose proof (div_nonneg (dx_nom a b L) (dx_den_up a b) Hd Hn) as H4.
  set (q := _ / dx_den_up a b) in *. unfold dx_nom, dx_den_up in *.
  pose proof (div_bounds (Z.abs (a - b) * L) LIQUIDITY_ONE eq_refl) as H2.
  pose proof (cdiv_bounds (a * b) SQRT_PRICE_ONE eq_refl) as H3.
  set (n := _ / LIQUIDITY_ONE) in *. set (d := cdiv _ _) in *.
  unfold LIQUIDITY_ONE, SQRT_PRICE_ONE in *. repeat split; nia.
Qed.

Lemma delta_x_up_bounds a b L v :
  u128 a -> u128 b -> u256 L ->
  get_delta_x a b L true = Ok v ->
  0 <= v /\
  x_num a b L * (x_den a b / 10 ^ 24) < (v * (x_den a b / 10 ^ 24) + 1) * x_den a b /\
  ((L * Z.abs (a - b)) mod 10 ^ 5 = 0 -> x_num a b L <= v * x_den a b) /\
  (v - 1) * (x_den a b - 10 ^ 24) <= x_num a b L.
Proof.
  intros Ha Hb HL H. apply get_delta_x_up_inv in H as [-> Hd]; auto.
  apply u128_M in Ha, Hb. apply u256_M in HL.
  pose proof (dx_nom_nonneg a b L ltac:(lia)) as Hn.
  unfold x_num, x_den. change (10 ^ 19) with 10000000000000000000.
  change (10 ^ 24) with SQRT_PRICE_ONE. change (10 ^ 5) with LIQUIDITY_ONE.
  pose proof (cdiv_bounds (dx_nom a b L) (dx_den a b) Hd) as H1.
  pose proof (cdiv_nonneg (dx_nom a b L) (dx_den a b) Hd Hn) as H4.
  set (q := cdiv _ (dx_den a b)) in *. fold (dx_den a b). unfold dx_nom in *.
  pose proof (div_bounds (Z.abs (a - b) * L) LIQUIDITY_ONE eq_refl) as H2.
  assert (H3 : SQRT_PRICE_ONE * dx_den a b <= a * b < SQRT_PRICE_ONE * dx_den a b + SQRT_PRICE_ONE)
    by (unfold dx_den; apply div_bounds; reflexivity).
  set (d := dx_den a b) in *. clearbody d.
  set (e := Z.abs (a - b)) in *. assert (0 <= e) by (unfold e; lia). clearbody e.
  set (n := _ / LIQUIDITY_ONE) in *.
  split; [lia|]. split; [|split].
  - assert (n <= q * d) by lia.
    assert (L * e * 10000000000000000000 * d < (n + 1) * 1000000000000000000000000 * d)
      by (unfold LIQUIDITY_ONE, SQRT_PRICE_ONE in *; nia).
    assert ((n + 1) * (SQRT_PRICE_ONE * d) <= (q * d + 1) * (a * b)) by (apply Z.mul_le_mono_nonneg; nia).
    unfold SQRT_PRICE_ONE in *. nia.
  - intros Hm. assert (e * L = LIQUIDITY_ONE * n).
    { unfold n. rewrite (Z.mul_comm e L). pose proof (Z.div_mod (L * e) LIQUIDITY_ONE ltac:(discriminate)). lia. }
    assert (n * (SQRT_PRICE_ONE * d) <= q * d * (a * b)) by (apply Z.mul_le_mono_nonneg; nia).
    clearbody n q. unfold LIQUIDITY_ONE, SQRT_PRICE_ONE in *. nia.
  - clearbody n q. unfold LIQUIDITY_ONE, SQRT_PRICE_ONE in *. nia.
Qed.

(** Success between admissible prices. *)
Lemma delta_success a b L up :
  price_in_range a -> price_in_range b -> u256 L ->
  (exists v, get_delta_x a b L up = Ok v) /\ (exists v, get_delta_y a b L up = Ok v).
Proof.
  intros Ha%range_wide Hb%range_wide HL. destruct up.
  - rewrite get_delta_x_up_eq, get_delta_y_up_ok by auto. eauto.
  - rewrite get_delta_x_down_eq, get_delta_y_down_ok by auto. eauto.
Qed.

(** ** rounding down is at most rounding up *)
Lemma delta_y_down_le_up a b L v w :
  u128 a -> u128 b -> u256 L ->
  get_delta_y a b L false = Ok v -> get_delta_y a b L true = Ok w -> v <= w.
Proof.
  intros Ha Hb HL H1 H2.
  apply delta_y_down_floor in H1 as [[? ?] _]; auto. apply delta_y_up_ceil in H2 as [[? ?] _]; auto.
  unfold y_den in *. nia.
Qed.

Lemma delta_x_down_le_up a b L v w :
  u128 a -> u128 b -> u256 L ->
  get_delta_x a b L false = Ok v -> get_delta_x a b L true = Ok w -> v <= w.
Proof.
  intros Ha Hb HL H1 H2.
  apply get_delta_x_down_inv in H1 as [-> H1]; auto. apply get_delta_x_up_inv in H2 as [-> H2]; auto.
  apply u256_M in HL.
  pose proof (dx_nom_nonneg a b L ltac:(lia)) as Hn.
  pose proof (div_le_cdiv (a * b) SQRT_PRICE_ONE eq_refl) as H3. fold (dx_den a b) in H3. fold (dx_den_up a b) in H3.
  apply div_le_upper; auto.
  pose proof (cdiv_bounds (dx_nom a b L) (dx_den a b) H2).
  pose proof (cdiv_nonneg (dx_nom a b L) (dx_den a b) H2 Hn). nia.
Qed.

Lemma mul_factors_nonneg fs : Forall (fun f => 0 <= f) fs ->
  forall t acc v, 0 <= acc -> mul_factors fs t acc = Ok v -> 0 <= v.
Proof.
  induction 1 as [|f fs Hf _ IH]; cbn; intros t acc v Ha H; inv_res; auto.
  destruct (Z.odd t); unfold dec_mul in *; inv_res; subst; [|eauto].
  eapply IH; [|eassumption].
  apply div_nonneg; [reflexivity|]. nia.
Qed.

Lemma calculate_sqrt_price_u128 t p : calculate_sqrt_price t = Ok p -> u128 p.
Proof.
  unfold calculate_sqrt_price, dec_checked_div.
  destruct (MAX_TICK <? i32_abs t); [discriminate|]. intros H. inv_res.
  assert (0 <= x).
  { eapply mul_factors_nonneg; [| |eassumption].
    - unfold price_factors. repeat constructor; lia.
    - unfold FIXED_POINT_ONE; lia. }
  destruct (0 <=? t); inv_res; subst; apply u128_I; try lia.
  assert (0 <= FIXED_POINT_ONE * FIXED_POINT_ONE / x) by (apply div_nonneg; unfold FIXED_POINT_ONE; lia). lia.
Qed.

(** Opening then closing at the same price returns at most what was paid. *)
Lemma amount_delta_round_trip cur p L upper lower x y u x' y' u' :
  u128 p -> u256 L ->
  calculate_amount_delta cur p L true upper lower = Ok (x, y, u) ->
  calculate_amount_delta cur p L false upper lower = Ok (x', y', u') ->
  0 <= x' <= x /\ 0 <= y' <= y /\ u = u'.
Proof.
  intros Hp HL. unfold calculate_amount_delta.
  destruct (upper <? lower); [discriminate|].
  destruct (cur <? lower); [|destruct (cur <? upper)]; intros H1 H2; inv_res;
    repeat match goal with
    | H : calculate_sqrt_price ?t = Ok ?a, K : calculate_sqrt_price ?t = Ok ?b |- _ =>
        rewrite H in K; inversion K; subst; clear K
    | H : calculate_sqrt_price _ = Ok _ |- _ => apply calculate_sqrt_price_u128 in H
    end;
    repeat split; try lia;
    try match goal with
    | H : get_delta_x _ _ _ false = Ok ?v |- 0 <= ?v => eapply delta_x_down_bounds in H; auto; lia
    | H : get_delta_y _ _ _ false = Ok ?v |- 0 <= ?v => eapply delta_y_down_floor in H as [_ H]; auto; apply u256_M in H; lia
    | H : get_delta_x _ _ _ false = Ok ?v |- ?v <= _ => eapply delta_x_down_le_up in H; eauto
    | H : get_delta_y _ _ _ false = Ok ?v |- ?v <= _ => eapply delta_y_down_le_up in H; eauto
    end.
Qed.
