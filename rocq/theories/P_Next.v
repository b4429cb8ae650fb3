(** Closed forms and bounds of the next-price functions of clamm.rs. *)
From Verif Require Import Base Decimal SqrtPriceM ClammM Arith SpecMath P_Clamm P_Delta.
From Coq Require Import ZArith Lia Bool.
Open Scope Z_scope.

Definition E19 : Z := 10000000000000000000.
Definition E24 : Z := 1000000000000000000000000.
Definition E48 : Z := E24 * E24.

(** Exact-in, token x: price after adding x. *)
Definition nx_nom (p L : Z) : Z := cdiv (p * L) LIQUIDITY_ONE * E24.
Definition nx_in (p L x : Z) : Z := cdiv (nx_nom p L) (L * E19 + p * x).
Definition nx_out (p L x : Z) : Z := cdiv (nx_nom p L) (L * E19 - p * x).
Definition ny_in (p L y : Z) : Z := p + y * E29 / L.
Definition ny_out (p L y : Z) : Z := p - cdiv (y * E29) L.

Lemma nx_nom_bounds p L : wide p -> u256 L ->
  p * L * E19 <= nx_nom p L < p * L * E19 + E24.
Proof.
  intros Hp HL%u256_M. unfold nx_nom. pose proof (cdiv_bounds (p * L) LIQUIDITY_ONE eq_refl).
  unfold LIQUIDITY_ONE, E24, E19 in *. nia.
Qed.


Lemma L19_fits L : u256 L -> 0 <= L * E19 <= (M256 - 1) * E19.
Proof. intros HL%u256_M. unfold E19. lia. Qed.

Lemma px_fits p x : wide p -> u256 x -> 0 <= p * x <= 100000000000000000000000000000 * (M256 - 1).
Proof. intros Hp HL%u256_M. unfold wide in *. apply mul_bound; lia. Qed.

Lemma nom_fits p L : wide p -> u256 L ->
  0 <= cdiv (p * L) LIQUIDITY_ONE <= 100000000000000000000000000000 * (M256 - 1).
Proof.
  intros Hp HL. pose proof (px_fits p L Hp HL). split.
  - apply cdiv_nonneg; [reflexivity|lia].
  - apply cdiv_le; [reflexivity|]. unfold LIQUIDITY_ONE. lia.
Qed.

Lemma sqrt_price_mul_liquidity_up_eq p L : wide p -> u256 L ->
  sqrt_price_mul_liquidity_up p L = Ok (cdiv (p * L) LIQUIDITY_ONE).
Proof.
  intros Hp HL. pose proof (px_fits p L Hp HL).
  assert (100000000000000000000000000000 * (M256 - 1) < M384 - LIQUIDITY_ONE) by reflexivity.
  unfold sqrt_price_mul_liquidity_up, big_mul_to_value_up.
  rewrite checked_mul_ok by (unfold LIQUIDITY_ONE in *; lia). cbn [bind expect].
  rewrite checked_add_ok by lia. cbn [bind expect].
  rewrite checked_div_ok by (unfold LIQUIDITY_ONE; lia). cbn [bind expect].
  rewrite cdiv_eq_div by reflexivity. reflexivity.
Qed.

Lemma sqrt_price_mul_token_eq p x : wide p -> u256 x -> sqrt_price_mul_token p x = Ok (p * x).
Proof.
  intros Hp Hx. pose proof (px_fits p x Hp Hx).
  assert (100000000000000000000000000000 * (M256 - 1) < M384) by reflexivity.
  unfold sqrt_price_mul_token, big_mul_to_value.
  rewrite checked_mul_ok by lia. cbn [bind expect].
  rewrite checked_div_ok by lia. cbn [bind expect]. rewrite Z.div_1_r. reflexivity.
Qed.

Lemma liquidity_to_value_eq L : u256 L -> liquidity_to_sqrt_price_value L = Ok (L * E19).
Proof.
  intros HL. pose proof (L19_fits L HL).
  assert ((M256 - 1) * E19 < M384) by reflexivity.
  unfold liquidity_to_sqrt_price_value. change 10000000000000000000 with E19.
  rewrite checked_mul_ok by lia. reflexivity.
Qed.

(** Price after adding x (exact-in, x to y). *)
Lemma next_x_add_eq p L x : wide p -> u256 L -> 0 < L -> u256 x ->
  get_next_sqrt_price_x_up p L x true = Ok (if x =? 0 then p else nx_in p L x) /\
  (if x =? 0 then p else nx_in p L x) <= p.
Proof.
  intros Hp HL HL0 Hx. unfold get_next_sqrt_price_x_up.
  destruct (Z.eqb_spec x 0) as [->|Hx0]; [split; [auto|lia]|].
  rewrite liquidity_to_value_eq by auto. cbn [bind].
  rewrite sqrt_price_mul_token_eq by auto. cbn [bind].
  pose proof (L19_fits L HL). pose proof (px_fits p x Hp Hx).
  assert (HB : (M256 - 1) * E19 + 100000000000000000000000000000 * (M256 - 1) < M384) by reflexivity.
  rewrite checked_add_ok by lia. cbn [bind ok_or].
  rewrite sqrt_price_mul_liquidity_up_eq by auto. cbn [bind].
  pose proof (nom_fits p L Hp HL) as HN. pose proof (nx_nom_bounds p L Hp HL) as HNB.
  unfold checked_big_div_values_up.
  assert (HC : 100000000000000000000000000000 * (M256 - 1) * SQRT_PRICE_ONE < M448 - M384) by reflexivity.
  change (cdiv (p * L) LIQUIDITY_ONE * SQRT_PRICE_ONE) with (nx_nom p L).
  assert (HNM : nx_nom p L < M448 - M384).
  { unfold nx_nom. change E24 with SQRT_PRICE_ONE in *. unfold SQRT_PRICE_ONE in *. nia. }
  rewrite checked_mul_ok by (change (cdiv (p * L) LIQUIDITY_ONE * SQRT_PRICE_ONE) with (nx_nom p L); unfold M384, M448 in *; lia).
  change (cdiv (p * L) LIQUIDITY_ONE * SQRT_PRICE_ONE) with (nx_nom p L).
  cbn [bind ok_or].
  apply u256_M in Hx. apply u256_M in HL.
  assert (0 < L * E19 + p * x) by (unfold E19 in *; lia).
  rewrite checked_sub_ok by lia. cbn [bind ok_or].
  rewrite checked_add_ok by lia. cbn [bind ok_or].
  rewrite checked_div_ok by lia. cbn [bind ok_or].
  rewrite cdiv_eq_div by lia. fold (nx_in p L x).
  assert (HLE : nx_in p L x <= p).
  { apply cdiv_le; [lia|]. assert (E24 <= p * (p * x)) by (unfold wide, E24 in *; nia). lia. }
  rewrite checked_cast_ok; [auto|]. unfold wide, M128 in *. lia.
Qed.

(** Price after removing x (exact-out, y to x). *)
Lemma next_x_sub_eq p L x t : wide p -> u256 L -> 0 < L -> u256 x ->
  p <= t -> wide t -> x < dx_nom p t L / dx_den_up p t ->
  get_next_sqrt_price_x_up p L x false = Ok (if x =? 0 then p else nx_out p L x) /\
  p <= (if x =? 0 then p else nx_out p L x) <= t /\ p * x < L * E19.
Proof.
  intros Hp HL HL0 Hx Hpt Ht Hlt. unfold get_next_sqrt_price_x_up.
  (* x * p * t <= d L 10^19 - p t *)
  assert (HK : (x + 1) * (p * t) <= (t - p) * L * E19).
  { pose proof (dx_den_up_pos p t Hp Ht) as HD.
    pose proof (div_bounds (dx_nom p t L) (dx_den_up p t) ltac:(lia)) as H1.
    apply u256_M in Hx. apply u256_M in HL. 
    assert ((x + 1) * dx_den_up p t <= dx_nom p t L) by nia.
    unfold dx_nom in *. rewrite Z.abs_neq in * by lia.
    pose proof (div_bounds (- (p - t) * L) LIQUIDITY_ONE eq_refl) as H2.
    pose proof (cdiv_bounds (p * t) SQRT_PRICE_ONE eq_refl) as H3. fold (dx_den_up p t) in H3.
    set (n := _ / LIQUIDITY_ONE) in *. set (d := dx_den_up p t) in *. clearbody n d.
    unfold LIQUIDITY_ONE, SQRT_PRICE_ONE, E19 in *. nia. }
  assert (HPX : p * x < L * E19).
  { apply u256_M in Hx. apply u256_M in HL. unfold wide, E19 in *. nia. }
  destruct (Z.eqb_spec x 0) as [->|Hx0]; [repeat split; auto; lia|].
  rewrite liquidity_to_value_eq by auto. cbn [bind].
  rewrite sqrt_price_mul_token_eq by auto. cbn [bind].
  pose proof (L19_fits L HL). pose proof (px_fits p x Hp Hx).
  assert (HB : (M256 - 1) * E19 < M384) by reflexivity.
  rewrite checked_sub_ok by lia. cbn [bind ok_or].
  rewrite sqrt_price_mul_liquidity_up_eq by auto. cbn [bind].
  pose proof (nom_fits p L Hp HL) as HN. pose proof (nx_nom_bounds p L Hp HL) as HNB.
  unfold checked_big_div_values_up.
  assert (HC : 100000000000000000000000000000 * (M256 - 1) * SQRT_PRICE_ONE < M448 - M384) by reflexivity.
  assert (HNM : nx_nom p L < M448 - M384).
  { unfold nx_nom. change E24 with SQRT_PRICE_ONE in *. unfold SQRT_PRICE_ONE in *. nia. }
  rewrite checked_mul_ok by (change (cdiv (p * L) LIQUIDITY_ONE * SQRT_PRICE_ONE) with (nx_nom p L); unfold M384, M448 in *; lia).
  change (cdiv (p * L) LIQUIDITY_ONE * SQRT_PRICE_ONE) with (nx_nom p L).
  cbn [bind ok_or].
  apply u256_M in Hx. apply u256_M in HL.
  rewrite checked_sub_ok by lia. cbn [bind ok_or].
  rewrite checked_add_ok by lia. cbn [bind ok_or].
  rewrite checked_div_ok by lia. cbn [bind ok_or].
  rewrite cdiv_eq_div by lia. fold (nx_out p L x).
  assert (HLE : nx_out p L x <= t).
  { apply cdiv_le; [lia|]. assert (E24 <= p * t) by (unfold wide, E24 in *; nia). lia. }
  assert (HGE : p <= nx_out p L x).
  { apply cdiv_ge; [lia|]. assert (0 <= p * (p * x)) by (unfold wide in *; nia). lia. }
  rewrite checked_cast_ok; [auto|]. unfold wide, M128 in *. lia.
Qed.

(** Price after adding y (exact-in, y to x), when y is not enough to reach t. *)
Lemma y_quot_eq y L : 0 < L -> y * E24 * SQRT_PRICE_ONE / (L * E19) = y * E29 / L.
Proof.
  intros. replace (y * E24 * SQRT_PRICE_ONE) with (y * E29 * E19) by (unfold E24, SQRT_PRICE_ONE, E29, E19; lia).
  apply Z.div_mul_cancel_r; unfold E19; lia.
Qed.
Lemma y_cquot_eq y L : 0 < L -> cdiv (y * E24 * SQRT_PRICE_ONE) (L * E19) = cdiv (y * E29) L.
Proof.
  intros. replace (y * E24 * SQRT_PRICE_ONE) with (y * E29 * E19) by (unfold E24, SQRT_PRICE_ONE, E29, E19; lia).
  apply cdiv_unique; [unfold E19; lia|]. pose proof (cdiv_bounds (y * E29) L). unfold E19. nia.
Qed.

Lemma y_value_eq y : u256 y ->
  token_to_sqrt_price_value y = Ok (y * E24) /\ y * E24 * SQRT_PRICE_ONE < M448 - M384.
Proof.
  intros Hy%u256_M. unfold token_to_sqrt_price_value. change 1000000000000000000000000 with E24.
  assert ((M256 - 1) * E24 < M384) by reflexivity.
  assert ((M256 - 1) * E24 * SQRT_PRICE_ONE < M448 - M384) by reflexivity.
  rewrite checked_mul_ok by (unfold E24 in *; lia). split; [reflexivity|]. unfold E24, SQRT_PRICE_ONE in *. lia.
Qed.

Lemma next_y_add_eq p L y t : wide p -> u256 L -> 0 < L -> u256 y ->
  p <= t -> wide t -> y < cdiv ((t - p) * L) E29 ->
  get_next_sqrt_price_y_down p L y true = Ok (ny_in p L y) /\ p <= ny_in p L y < t.
Proof.
  intros Hp HL HL0 Hy Hpt Ht Hlt. unfold get_next_sqrt_price_y_down.
  destruct (y_value_eq y Hy) as [-> HB]. cbn [bind].
  rewrite liquidity_to_value_eq by auto. cbn [bind].
  apply u256_M in Hy. apply u256_M in HL.
  assert (HR : p <= ny_in p L y < t).
  { unfold ny_in. pose proof (cdiv_bounds ((t - p) * L) E29 eq_refl).
    pose proof (div_nonneg (y * E29) L HL0 ltac:(unfold E29; lia)).
    assert (y * E29 / L < t - p); [|lia].
    apply div_lt_upper; [lia|]. unfold E29 in *. lia. }
  unfold ny_in in *.
  unfold checked_big_div_values.
  rewrite checked_mul_ok by (unfold M384, M448 in *; lia). cbn [bind ok_or].
  rewrite checked_div_ok by (unfold E19; lia). cbn [bind ok_or].
  rewrite y_quot_eq by auto. 
  rewrite checked_cast_ok by (unfold wide, M128 in *; lia). cbn [bind ok_or].
  unfold dec_checked_add. rewrite checked_add_ok by (unfold wide, M128 in *; lia). auto.
Qed.

(** Price after removing y (exact-out, x to y). *)
Lemma next_y_sub_eq p L y t : wide p -> u256 L -> 0 < L -> u256 y ->
  t <= p -> wide t -> y < (p - t) * L / E29 ->
  get_next_sqrt_price_y_down p L y false = Ok (ny_out p L y) /\ t <= ny_out p L y <= p.
Proof.
  intros Hp HL HL0 Hy Hpt Ht Hlt. unfold get_next_sqrt_price_y_down.
  destruct (y_value_eq y Hy) as [-> HB]. cbn [bind].
  rewrite liquidity_to_value_eq by auto. cbn [bind].
  pose proof (L19_fits L HL). assert ((M256 - 1) * E19 < M384) by reflexivity.
  apply u256_M in Hy. apply u256_M in HL.
  assert (HR : t <= ny_out p L y <= p).
  { unfold ny_out. pose proof (div_bounds ((p - t) * L) E29 eq_refl).
    pose proof (cdiv_nonneg (y * E29) L HL0 ltac:(unfold E29; lia)).
    assert (cdiv (y * E29) L <= p - t); [|lia].
    apply cdiv_le; [lia|]. unfold E29 in *. lia. }
  unfold ny_out in *.
  unfold checked_big_div_values_up.
  assert (0 < L * E19) by (unfold E19; lia).
  rewrite checked_mul_ok by (unfold M384, M448 in *; lia). cbn [bind ok_or].
  rewrite checked_sub_ok by lia. cbn [bind ok_or].
  rewrite checked_add_ok by lia. cbn [bind ok_or].
  rewrite checked_div_ok by lia. cbn [bind ok_or].
  rewrite cdiv_eq_div by lia.
  rewrite y_cquot_eq by auto. 
  rewrite checked_cast_ok by (unfold wide, M128 in *; lia). cbn [bind ok_or].
  unfold dec_checked_sub. rewrite checked_sub_ok by (unfold wide, M128 in *; lia). auto.
Qed.
