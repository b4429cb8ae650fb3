(** Closed forms of the price arithmetic of clamm.rs. *)
From Verif Require Import Base Decimal SqrtPriceM ClammM Arith SpecMath.
From Coq Require Import ZArith Lia Bool.
Open Scope Z_scope.

Lemma checked_mul_ok m a b : a * b < m -> checked_mul m a b = Some (a * b).
Proof. intros. unfold checked_mul. destruct (Z.ltb_spec (a * b) m); auto; lia. Qed.
Lemma checked_add_ok m a b : a + b < m -> checked_add m a b = Some (a + b).
Proof. intros. unfold checked_add. destruct (Z.ltb_spec (a + b) m); auto; lia. Qed.
Lemma checked_sub_ok a b : b <= a -> checked_sub a b = Some (a - b).
Proof. intros. unfold checked_sub. destruct (Z.leb_spec b a); auto; lia. Qed.
Lemma checked_div_ok a b : b <> 0 -> checked_div a b = Some (a / b).
Proof. intros. unfold checked_div. destruct (Z.eqb_spec b 0); auto; lia. Qed.
Lemma checked_cast_ok m a : a < m -> checked_cast m a = Some a.
Proof. intros. unfold checked_cast. destruct (Z.ltb_spec a m); auto; lia. Qed.
Lemma checked_cast_fail m a : m <= a -> checked_cast m a = None.
Proof. intros. unfold checked_cast. destruct (Z.ltb_spec a m); auto; lia. Qed.

Lemma abs_if a b : (if b <? a then a - b else b - a) = Z.abs (a - b).
Proof. destruct (Z.ltb_spec b a); lia. Qed.

Lemma u128_M v : u128 v -> 0 <= v < M128.
Proof. exact (fun H => H). Qed.
Lemma u256_M v : u256 v -> 0 <= v < M256.
Proof. exact (fun H => H). Qed.
Lemma u128_I v : 0 <= v < M128 -> u128 v.
Proof. exact (fun H => H). Qed.
Lemma u256_I v : 0 <= v < M256 -> u256 v.
Proof. exact (fun H => H). Qed.

Lemma mul_bound a b m n : 0 <= a <= m -> 0 <= b <= n -> 0 <= a * b <= m * n.
Proof. intros. nia. Qed.

(** ** get_delta_y *)

Definition E29 : Z := 100000000000000000000000000000.
Lemma y_den_E29 : y_den = E29. Proof. reflexivity. Qed.
Lemma E29_split : E29 = LIQUIDITY_ONE * SQRT_PRICE_ONE. Proof. reflexivity. Qed.

Lemma u128_absdiff a b : u128 a -> u128 b -> 0 <= Z.abs (a - b) <= M128 - 1.
Proof. intros H1%u128_M H2%u128_M. lia. Qed.

Lemma prod_384 d L : 0 <= d <= M128 - 1 -> u256 L -> 0 <= d * L <= (M128 - 1) * (M256 - 1).
Proof. intros H1 H2. apply u256_M in H2. apply mul_bound; lia. Qed.

Lemma get_delta_y_up_eq a b L :
  u128 a -> u128 b -> u256 L ->
  get_delta_y a b L true =
    (let v := cdiv (Z.abs (a - b) * L) E29 in if v <? M256 then Ok v else Err ETrack).
Proof.
  intros Ha Hb HL. unfold get_delta_y. rewrite abs_if.
  pose proof (u128_absdiff a b Ha Hb) as Hd. set (d := Z.abs (a - b)) in *. clearbody d.
  pose proof (prod_384 d L Hd HL) as HP.
  assert (HB : (M128 - 1) * (M256 - 1) + 99999 < M384) by (vm_compute; reflexivity).
  unfold sqrt_price_mul_liquidity_up, big_mul_to_value_up.
  rewrite checked_mul_ok by lia. cbn [bind expect].
  rewrite checked_add_ok by (unfold LIQUIDITY_ONE in *; lia). cbn [bind expect].
  rewrite checked_div_ok by (unfold LIQUIDITY_ONE; lia). cbn [bind expect].
  rewrite (cdiv_eq_div (d * L) LIQUIDITY_ONE) by reflexivity.
  set (c := cdiv (d * L) LIQUIDITY_ONE).
  assert (Hc : 0 <= c) by (apply cdiv_nonneg; [reflexivity | lia]).
  assert (Hc2 : c < M384 - SQRT_PRICE_ALMOST_ONE).
  { apply Z.le_lt_trans with ((M128 - 1) * (M256 - 1)).
    - apply cdiv_le; [reflexivity|]. unfold LIQUIDITY_ONE. lia.
    - vm_compute; reflexivity. }
  rewrite checked_add_ok by lia. cbn [bind ok_or].
  rewrite checked_div_ok by (unfold SQRT_PRICE_ONE; lia). cbn [bind ok_or].
  change SQRT_PRICE_ALMOST_ONE with (SQRT_PRICE_ONE - 1). rewrite cdiv_eq_div by reflexivity.
  unfold c. rewrite cdiv_cdiv by reflexivity. rewrite <- E29_split. cbv zeta.
  unfold checked_cast. destruct (_ <? M256); reflexivity.
Qed.

Lemma get_delta_y_down_eq a b L :
  u128 a -> u128 b -> u256 L ->
  get_delta_y a b L false =
    (let v := Z.abs (a - b) * L / E29 in if v <? M256 then Ok v else Err ETrack).
Proof.
  intros Ha Hb HL. unfold get_delta_y. rewrite abs_if.
  pose proof (u128_absdiff a b Ha Hb) as Hd. set (d := Z.abs (a - b)) in *. clearbody d.
  pose proof (prod_384 d L Hd HL) as HP.
  assert (HB : (M128 - 1) * (M256 - 1) < M384) by (vm_compute; reflexivity).
  unfold sqrt_price_mul_liquidity, big_mul_to_value.
  rewrite checked_mul_ok by lia. cbn [bind expect].
  rewrite checked_div_ok by (unfold LIQUIDITY_ONE; lia). cbn [bind expect].
  rewrite checked_div_ok by (unfold SQRT_PRICE_ONE; lia). cbn [bind ok_or].
  rewrite div_div by reflexivity. rewrite <- E29_split. cbv zeta.
  unfold checked_cast. destruct (_ <? M256); reflexivity.
Qed.

(** ** get_delta_x *)

(** The exact numerator and the two roundings of the product of the prices. *)
Definition dx_nom (a b L : Z) : Z := Z.abs (a - b) * L / LIQUIDITY_ONE.
Definition dx_den (a b : Z) : Z := a * b / SQRT_PRICE_ONE.
Definition dx_den_up (a b : Z) : Z := cdiv (a * b) SQRT_PRICE_ONE.

(** Prices for which no intermediate value overflows. *)
Definition wide (p : Z) : Prop := 10000000000000000000 <= p <= 100000000000000000000000000000.
Lemma range_wide p : price_in_range p -> wide p.
Proof. unfold price_in_range, wide. intros. lia. Qed.
Lemma wide_u128 p : wide p -> u128 p.
Proof. intros H. apply u128_I. unfold wide, M128 in *. lia. Qed.
Lemma range_u128 p : price_in_range p -> u128 p.
Proof. intros. apply wide_u128, range_wide; auto. Qed.

Lemma dx_den_pos a b : wide a -> wide b -> 100000000000000 <= dx_den a b.
Proof.
  unfold wide. intros. unfold dx_den. apply div_le_lower; [reflexivity|].
  apply Z.le_trans with (10000000000000000000 * 10000000000000000000).
  - vm_compute; discriminate.
  - nia.
Qed.

Lemma dx_den_up_pos a b : wide a -> wide b -> 100000000000000 <= dx_den_up a b.
Proof.
  intros. eapply Z.le_trans; [apply (dx_den_pos a b); auto|]. apply div_le_cdiv. reflexivity.
Qed.

Lemma range_absdiff a b : wide a -> wide b ->
  0 <= Z.abs (a - b) <= 100000000000000000000000000000.
Proof. unfold wide. lia. Qed.

Lemma dx_nom_bounds a b L : wide a -> wide b -> u256 L ->
  0 <= dx_nom a b L /\ dx_nom a b L * SQRT_PRICE_ONE < M448 - M384 /\
  Z.abs (a - b) * L < M384.
Proof.
  intros Ha Hb HL. pose proof (range_absdiff a b Ha Hb).
  apply u256_M in HL.
  assert (HP : 0 <= Z.abs (a - b) * L <= 100000000000000000000000000000 * (M256 - 1))
    by (apply mul_bound; lia).
  unfold dx_nom. split; [apply div_nonneg; [reflexivity|lia]|]. split.
  - pose proof (div_bounds (Z.abs (a - b) * L) LIQUIDITY_ONE eq_refl).
    set (q := _ / _) in *.
    apply Z.le_lt_trans with (100000000000000000000000000000 * (M256 - 1) * SQRT_PRICE_ONE).
    + unfold LIQUIDITY_ONE, SQRT_PRICE_ONE in *. nia.
    + vm_compute; reflexivity.
  - apply Z.le_lt_trans with (100000000000000000000000000000 * (M256 - 1)); [lia|vm_compute; reflexivity].
Qed.

(** The quotient of the numerator by either denominator is below 0.66 L. *)
Lemma dx_quot_bound a b L d : wide a -> wide b -> u256 L ->
  dx_den a b <= d ->
  dx_nom a b L <= d * L.
Proof.
  intros Ha Hb HL Hd. pose proof (dx_den_pos a b Ha Hb) as HD. apply u256_M in HL.
  unfold dx_nom, dx_den in *.
  pose proof (div_bounds (Z.abs (a - b) * L) LIQUIDITY_ONE eq_refl) as H1.
  pose proof (div_bounds (a * b) SQRT_PRICE_ONE eq_refl) as H2.
  set (n := _ / LIQUIDITY_ONE) in *. set (e := _ / SQRT_PRICE_ONE) in *.
  unfold LIQUIDITY_ONE, SQRT_PRICE_ONE in *. unfold wide in *.
  assert (H3 : Z.abs (a - b) <= e * 100000).
  { assert (Z.abs (a - b) * 10000000000000000000 <= a * b - 10000000000000000000 * 10000000000000000000) by nia.
    nia. }
  nia.
Qed.

Lemma get_delta_x_up_eq a b L :
  wide a -> wide b -> u256 L ->
  get_delta_x a b L true = Ok (cdiv (dx_nom a b L) (dx_den a b)).
Proof.
  intros Ha Hb HL. unfold get_delta_x. rewrite abs_if.
  pose proof (dx_den_pos a b Ha Hb) as HD.
  destruct (dx_nom_bounds a b L Ha Hb HL) as (HN0 & HN & HP).
  pose proof (dx_quot_bound a b L _ Ha Hb HL (Z.le_refl _)) as HQ.
  unfold sqrt_price_mul_liquidity, sqrt_price_mul_sqrt_price, big_mul_to_value.
  rewrite checked_mul_ok by lia. cbn [bind expect].
  rewrite checked_div_ok by (unfold LIQUIDITY_ONE; lia). cbn [bind expect].
  fold (dx_nom a b L).
  assert (HAB : a * b < M384).
  { unfold wide in *.
    apply Z.le_lt_trans with (100000000000000000000000000000 * 100000000000000000000000000000).
    - nia.
    - vm_compute; reflexivity. }
  rewrite checked_mul_ok by lia. cbn [bind expect].
  rewrite checked_div_ok by (unfold SQRT_PRICE_ONE; lia). cbn [bind expect].
  fold (dx_den a b). set (n := dx_nom a b L) in *. set (d := dx_den a b) in *.
  assert (Hd : d < M384).
  { unfold d, dx_den. apply div_lt_upper; [reflexivity|]. unfold SQRT_PRICE_ONE.
    assert (0 < M384) by reflexivity. nia. }
  clearbody n d. apply u256_M in HL.
  unfold big_div_values_to_token_up.
  rewrite checked_mul_ok by (unfold M384, M448 in *; lia). cbn [bind ok_or].
  rewrite checked_sub_ok by lia. cbn [bind expect].
  rewrite checked_add_ok by lia. cbn [bind ok_or].
  rewrite checked_div_ok by lia. cbn [bind ok_or].
  rewrite cdiv_eq_div by lia.
  pose proof (cdiv_bounds n d ltac:(lia)) as HC.
  set (q := cdiv n d) in *.
  assert (Hq : q < M256) by (unfold M256 in *; nia).
  assert (Hi : cdiv (n * SQRT_PRICE_ONE) d <= q * SQRT_PRICE_ONE).
  { apply cdiv_le; [lia|]. unfold SQRT_PRICE_ONE. nia. }
  assert (Hi2 : q * SQRT_PRICE_ONE < M384 - SQRT_PRICE_ONE).
  { apply Z.le_lt_trans with ((M256 - 1) * SQRT_PRICE_ONE).
    - unfold SQRT_PRICE_ONE. lia.
    - vm_compute; reflexivity. }
  rewrite checked_cast_ok by (unfold SQRT_PRICE_ONE in *; lia). cbn [bind ok_or].
  rewrite checked_add_ok by (unfold SQRT_PRICE_ALMOST_ONE, SQRT_PRICE_ONE in *; lia). cbn [bind ok_or].
  rewrite checked_div_ok by (unfold SQRT_PRICE_ONE; lia). cbn [bind ok_or].
  change SQRT_PRICE_ALMOST_ONE with (SQRT_PRICE_ONE - 1). rewrite cdiv_eq_div by reflexivity.
  rewrite cdiv_scale by (reflexivity || lia). fold q.
  rewrite checked_cast_ok by lia. reflexivity.
Qed.

Lemma get_delta_x_down_eq a b L :
  wide a -> wide b -> u256 L ->
  get_delta_x a b L false = Ok (dx_nom a b L / dx_den_up a b).
Proof.
  intros Ha Hb HL. unfold get_delta_x. rewrite abs_if.
  pose proof (dx_den_up_pos a b Ha Hb) as HD.
  destruct (dx_nom_bounds a b L Ha Hb HL) as (HN0 & HN & HP).
  assert (Hle : dx_den a b <= dx_den_up a b) by (apply div_le_cdiv; reflexivity).
  pose proof (dx_quot_bound a b L _ Ha Hb HL Hle) as HQ.
  unfold sqrt_price_mul_liquidity, sqrt_price_mul_sqrt_price_up, big_mul_to_value, big_mul_to_value_up.
  rewrite checked_mul_ok by lia. cbn [bind expect].
  rewrite checked_div_ok by (unfold LIQUIDITY_ONE; lia). cbn [bind expect].
  fold (dx_nom a b L).
  assert (HAB : a * b < M384 - SQRT_PRICE_ONE).
  { unfold wide in *.
    apply Z.le_lt_trans with (100000000000000000000000000000 * 100000000000000000000000000000).
    - nia.
    - vm_compute; reflexivity. }
  rewrite checked_mul_ok by (unfold SQRT_PRICE_ONE in *; lia). cbn [bind expect].
  rewrite checked_add_ok by lia. cbn [bind expect].
  rewrite checked_div_ok by (unfold SQRT_PRICE_ONE; lia). cbn [bind expect].
  rewrite cdiv_eq_div by reflexivity.
  fold (dx_den_up a b). set (n := dx_nom a b L) in *. set (d := dx_den_up a b) in *.
  clearbody n d. apply u256_M in HL.
  unfold big_div_values_to_token.
  rewrite checked_mul_ok by (unfold M384, M448 in *; lia). cbn [bind ok_or].
  rewrite checked_div_ok by lia. cbn [bind ok_or].
  pose proof (div_bounds n d ltac:(lia)) as HC.
  pose proof (div_bounds (n * SQRT_PRICE_ONE) d ltac:(lia)) as HC2.
  set (q := n / d) in *.
  assert (Hq : q < M256) by (unfold M256 in *; nia).
  assert (Hi : n * SQRT_PRICE_ONE / d < (q + 1) * SQRT_PRICE_ONE).
  { apply div_lt_upper; [lia|]. unfold SQRT_PRICE_ONE. nia. }
  assert (Hi2 : (q + 1) * SQRT_PRICE_ONE < M384).
  { apply Z.le_lt_trans with (M256 * SQRT_PRICE_ONE).
    - unfold SQRT_PRICE_ONE. lia.
    - vm_compute; reflexivity. }
  rewrite checked_cast_ok by (unfold SQRT_PRICE_ONE in *; lia). cbn [bind ok_or].
  rewrite checked_div_ok by (unfold SQRT_PRICE_ONE; lia). cbn [bind ok_or].
  rewrite div_scale by (reflexivity || lia). fold q.
  rewrite checked_cast_ok by lia. reflexivity.
Qed.

(** delta_y between admissible prices never overflows. *)
Lemma dy_fits a b L : wide a -> wide b -> u256 L ->
  cdiv (Z.abs (a - b) * L) E29 < M256.
Proof.
  intros Ha Hb HL. pose proof (range_absdiff a b Ha Hb). apply u256_M in HL.
  eapply Z.le_lt_trans with (M256 - 1); [|reflexivity].
  apply cdiv_le; [reflexivity|].
  apply Z.le_trans with (100000000000000000000000000000 * (M256 - 1)).
  - apply mul_bound; lia.
  - vm_compute; discriminate.
Qed.

Lemma get_delta_y_up_ok a b L :
  wide a -> wide b -> u256 L ->
  get_delta_y a b L true = Ok (cdiv (Z.abs (a - b) * L) E29).
Proof.
  intros Ha Hb HL. rewrite get_delta_y_up_eq by (auto using wide_u128).
  pose proof (dy_fits a b L Ha Hb HL). cbv zeta.
  destruct (Z.ltb_spec (cdiv (Z.abs (a - b) * L) E29) M256); auto; lia.
Qed.

Lemma get_delta_y_down_ok a b L :
  wide a -> wide b -> u256 L ->
  get_delta_y a b L false = Ok (Z.abs (a - b) * L / E29).
Proof.
  intros Ha Hb HL. rewrite get_delta_y_down_eq by (auto using wide_u128).
  pose proof (dy_fits a b L Ha Hb HL). cbv zeta.
  pose proof (div_le_cdiv (Z.abs (a - b) * L) E29 eq_refl).
  destruct (Z.ltb_spec (Z.abs (a - b) * L / E29) M256); auto; lia.
Qed.
