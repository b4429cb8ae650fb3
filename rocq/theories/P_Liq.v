(** Closed forms and bounds of the liquidity helpers (LiquidityM.v). *)
From Verif Require Import Base Decimal SqrtPriceM ClammM LiquidityM Arith SpecMath P_Clamm P_Delta P_TickPrice.
From Coq Require Import ZArith Lia Bool.
Open Scope Z_scope.

(** Division rounded as asked. *)
Definition rdiv (up : bool) (n d : Z) : Z := if up then cdiv n d else n / d.

Lemma rdiv_bounds up n d : 0 < d ->
  d * (rdiv up n d - (if up then 1 else 0)) <= n /\ n < d * (rdiv up n d + (if up then 0 else 1)) + (if up then 1 else 0).
Proof.
  intros Hd. pose proof (cdiv_bounds n d Hd). pose proof (div_bounds n d Hd). unfold rdiv. destruct up; lia.
Qed.

Lemma expect_inv {A} (o : option A) v : expect o = Ok v -> o = Some v.
Proof. destruct o; cbn; congruence. Qed.

Lemma bind_Ok' {A B} (r : res A) (k : A -> res B) v : bind r k = Ok v -> exists a, r = Ok a /\ k a = Ok v.
Proof. destruct r; cbn; try discriminate. intros H. eauto. Qed.

Ltac step H x E := apply bind_Ok' in H as (x & E & H).

Lemma checked_add_inv m a b v : checked_add m a b = Some v -> v = a + b /\ a + b < m.
Proof. unfold checked_add. destruct (Z.ltb_spec (a + b) m); intros [= <-]. auto. Qed.
Lemma checked_sub_inv a b v : checked_sub a b = Some v -> v = a - b /\ b <= a.
Proof. unfold checked_sub. destruct (Z.leb_spec b a); intros [= <-]. auto. Qed.
Lemma checked_mul_inv m a b v : checked_mul m a b = Some v -> v = a * b /\ a * b < m.
Proof. unfold checked_mul. destruct (Z.ltb_spec (a * b) m); intros [= <-]. auto. Qed.
Lemma checked_div_inv a b v : checked_div a b = Some v -> v = a / b /\ b <> 0.
Proof. unfold checked_div. destruct (Z.eqb_spec b 0); intros [= <-]. auto. Qed.
Lemma checked_cast_inv m a v : checked_cast m a = Some v -> v = a /\ a < m.
Proof. unfold checked_cast. destruct (Z.ltb_spec a m); intros [= <-]. auto. Qed.

Ltac inv_checked :=
  repeat match goal with
  | H : expect _ = Ok _ |- _ => apply expect_inv in H
  | H : checked_add _ _ _ = Some _ |- _ => apply checked_add_inv in H as [-> H]
  | H : checked_sub _ _ = Some _ |- _ => apply checked_sub_inv in H as [-> H]
  | H : checked_mul _ _ _ = Some _ |- _ => apply checked_mul_inv in H as [-> H]
  | H : checked_div _ _ = Some _ |- _ => apply checked_div_inv in H as [-> H]
  | H : checked_cast _ _ = Some _ |- _ => apply checked_cast_inv in H as [-> H]
  end.

Lemma cdiv_plus n d : (n + d - 1) / d = cdiv n d.
Proof. unfold cdiv. f_equal. lia. Qed.

Lemma calculate_y_inv diff L up y :
  calculate_y diff L up = Ok y -> y = rdiv up (diff * (L / LIQUIDITY_ONE)) SQRT_PRICE_ONE.
Proof.
  unfold calculate_y. intros H. step H sh E1. step H m E2. inv_checked. destruct up.
  - step H a E3. step H b E4. inv_checked. unfold rdiv. rewrite <- cdiv_plus. reflexivity.
  - inv_checked. reflexivity.
Qed.

Lemma calculate_x_inv nom den L up x :
  calculate_x nom den L up = Ok x ->
  x = rdiv up (L * nom / SQRT_PRICE_ONE * SQRT_PRICE_ONE / den) LIQUIDITY_ONE.
Proof.
  unfold calculate_x, big_mul, big_div. intros H. step H m E1. step E1 a F1. step E1 b F2.
  step H c E2. step E2 d F3. step E2 g F4. inv_checked. destruct up.
  - step H q E3. step H r E4. inv_checked. unfold rdiv. rewrite <- cdiv_plus. reflexivity.
  - inv_checked. reflexivity.
Qed.

Lemma price_product_eq a b : wide a -> wide b -> price_product a b = Ok (dx_den a b).
Proof.
  intros Ha Hb. unfold price_product, big_mul, big_div.
  assert (P : 0 <= a * b <= 100000000000000000000000000000 * 100000000000000000000000000000)
    by (unfold wide in *; apply mul_bound; lia).
  assert (Q : 0 <= dx_den a b <= 10000000000000000000000000000000000).
  { unfold dx_den. split; [apply div_nonneg; [reflexivity|lia]|]. apply div_le_upper; [reflexivity|].
    unfold SQRT_PRICE_ONE. lia. }
  rewrite checked_mul_ok by (eapply Z.le_lt_trans; [apply P|reflexivity]). cbn [expect bind].
  rewrite checked_div_ok by discriminate. cbn [expect bind]. fold (dx_den a b).
  rewrite checked_cast_ok by (eapply Z.le_lt_trans; [apply Q|reflexivity]). cbn [expect bind].
  rewrite checked_mul_ok.
  2:{ eapply Z.le_lt_trans; [apply Z.mul_le_mono_nonneg_r; [discriminate|apply Q]|reflexivity]. }
  cbn [expect bind]. rewrite checked_div_ok by discriminate. cbn [expect bind].
  rewrite Z.div_mul by discriminate.
  rewrite checked_cast_ok by (eapply Z.le_lt_trans; [apply Q|reflexivity]). reflexivity.
Qed.

Lemma liquidity_quotient_eq x f d : u256 x -> 0 <= f < M128 -> 0 < d ->
  liquidity_quotient x f d =
    (let q := x * f * LIQUIDITY_ONE / d in if q <? M256 then Ok q else Err ETrack).
Proof.
  intros Hx%u256_M Hf Hd. unfold liquidity_quotient.
  assert (P : 0 <= x * f <= (M256 - 1) * (M128 - 1)) by (apply mul_bound; lia).
  rewrite checked_mul_ok by (eapply Z.le_lt_trans; [apply P|reflexivity]). cbn [expect bind].
  rewrite checked_mul_ok.
  2:{ eapply Z.le_lt_trans; [apply Z.mul_le_mono_nonneg_r; [discriminate|apply P]|reflexivity]. }
  cbn [expect bind]. rewrite checked_div_ok by lia. cbn [expect bind]. unfold checked_cast.
  cbv zeta. destruct (_ <? M256); reflexivity.
Qed.

Lemma liquidity_quotient_zero x f : u256 x -> 0 <= f < M128 -> liquidity_quotient x f 0 = Panic.
Proof.
  intros Hx%u256_M Hf. unfold liquidity_quotient.
  assert (P : 0 <= x * f <= (M256 - 1) * (M128 - 1)) by (apply mul_bound; lia).
  rewrite checked_mul_ok by (eapply Z.le_lt_trans; [apply P|reflexivity]). cbn [expect bind].
  rewrite checked_mul_ok.
  2:{ eapply Z.le_lt_trans; [apply Z.mul_le_mono_nonneg_r; [discriminate|apply P]|reflexivity]. }
  reflexivity.
Qed.

Lemma dx_den_M128 a b : wide a -> wide b -> 0 <= dx_den a b < M128.
Proof.
  intros Ha Hb. split.
  - pose proof (dx_den_pos a b Ha Hb). lia.
  - unfold dx_den. apply div_lt_upper; [reflexivity|].
    apply Z.le_lt_trans with (100000000000000000000000000000 * 100000000000000000000000000000); [|reflexivity].
    unfold wide in *. apply mul_bound; lia.
Qed.

(** ** The liquidity bought by an amount *)

(** From x: the contract's charge (rounded up) for the returned liquidity is at most x. *)
Lemma by_x_charge x a b L : 0 <= x -> wide a -> wide b -> a < b ->
  L = x * dx_den a b * LIQUIDITY_ONE / (b - a) -> cdiv (dx_nom a b L) (dx_den a b) <= x.
Proof.
  intros Hx Ha Hb Hab ->. pose proof (dx_den_pos a b Ha Hb) as Hd.
  apply cdiv_le; [lia|]. unfold dx_nom.
  pose proof (div_bounds (x * dx_den a b * LIQUIDITY_ONE) (b - a) ltac:(lia)) as B.
  set (q := x * dx_den a b * LIQUIDITY_ONE / (b - a)) in *.
  apply div_le_upper; [reflexivity|]. replace (Z.abs (a - b)) with (b - a) by lia. lia.
Qed.

Lemma by_x_largest x a b : 0 <= x -> price_in_range a -> price_in_range b -> a < b ->
  x * x_den a b * (2 * 10 ^ 14)
    < x_num a b (x * dx_den a b * LIQUIDITY_ONE / (b - a) + 1) * (2 * 10 ^ 14 + 1).
Proof.
  intros Hx Ha Hb Hab. unfold x_den, x_num.
  pose proof (div_bounds (x * dx_den a b * LIQUIDITY_ONE) (b - a) ltac:(lia)) as B.
  set (q := x * dx_den a b * LIQUIDITY_ONE / (b - a)) in *.
  replace (Z.abs (a - b)) with (b - a) by lia.
  pose proof (div_bounds (a * b) SQRT_PRICE_ONE ltac:(reflexivity)) as D. fold (dx_den a b) in D.
  assert (N : 2 * 10 ^ 14 <= dx_den a b).
  { unfold dx_den. apply div_le_lower; [reflexivity|]. unfold price_in_range in *.
    apply Z.le_trans with (15258932000000000000 * 15258932000000000000); [vm_compute; discriminate|].
    clear - Ha Hb. apply Z.mul_le_mono_nonneg; lia. }
  set (n := dx_den a b) in *. set (c := 2 * 10 ^ 14) in *.
  change SQRT_PRICE_ONE with (10 ^ 24) in *. change LIQUIDITY_ONE with (10 ^ 5) in *.
  set (d := b - a) in *. set (P := a * b) in *.
  assert (S1 : x * n * 10 ^ 5 < (q + 1) * d) by lia.
  set (B' := (q + 1) * d * 10 ^ 19). set (A := x * P).
  assert (S2 : x * n * 10 ^ 24 < B').
  { unfold B'. replace (x * n * 10 ^ 24) with (x * n * 10 ^ 5 * 10 ^ 19) by ring.
    apply Z.mul_lt_mono_pos_r; [reflexivity|exact S1]. }
  assert (S3 : A <= x * ((n + 1) * 10 ^ 24)) by (unfold A; apply Z.mul_le_mono_nonneg_l; lia).
  assert (S4 : A * n <= (x * n * 10 ^ 24) * (n + 1)).
  { replace (x * n * 10 ^ 24 * (n + 1)) with (x * ((n + 1) * 10 ^ 24) * n) by ring.
    apply Z.mul_le_mono_nonneg_r; lia. }
  assert (S5 : A * n < B' * (n + 1)).
  { eapply Z.le_lt_trans; [exact S4|]. apply Z.mul_lt_mono_pos_r; lia. }
  assert (B0 : 0 < B'). { eapply Z.le_lt_trans; [|exact S2]. apply Z.mul_nonneg_nonneg; [|discriminate]. apply Z.mul_nonneg_nonneg; lia. }
  destruct (Z_le_gt_dec A B') as [Hle|Hgt].
  - assert (A * c <= B' * c) by (apply Z.mul_le_mono_nonneg_r; [discriminate|lia]). lia.
  - assert (E : (A - B') * n < B') by lia.
    assert ((A - B') * c <= (A - B') * n) by (apply Z.mul_le_mono_nonneg_l; lia). lia.
Qed.

Lemma by_y_charge y a b L : 0 <= y -> a < b ->
  L = y * SQRT_PRICE_ONE * LIQUIDITY_ONE / (b - a) -> cdiv (Z.abs (a - b) * L) E29 <= y.
Proof.
  intros Hy Hab ->. pose proof (div_bounds (y * SQRT_PRICE_ONE * LIQUIDITY_ONE) (b - a) ltac:(lia)) as B.
  set (q := y * SQRT_PRICE_ONE * LIQUIDITY_ONE / (b - a)) in *.
  apply cdiv_le; [reflexivity|]. rewrite E29_split. replace (Z.abs (a - b)) with (b - a) by lia. lia.
Qed.

Lemma by_y_largest y a b : 0 <= y -> a < b ->
  y * y_den < y_num a b (y * SQRT_PRICE_ONE * LIQUIDITY_ONE / (b - a) + 1).
Proof.
  intros Hy Hab. pose proof (div_bounds (y * SQRT_PRICE_ONE * LIQUIDITY_ONE) (b - a) ltac:(lia)) as B.
  set (q := y * SQRT_PRICE_ONE * LIQUIDITY_ONE / (b - a)) in *.
  rewrite y_den_E29, E29_split. unfold y_num. replace (Z.abs (a - b)) with (b - a) by lia. lia.
Qed.

(** ** The estimate of the other token *)

Lemma calculate_y_estimate up d L : 0 <= d -> 0 <= L ->
  let est := rdiv up (d * (L / LIQUIDITY_ONE)) SQRT_PRICE_ONE in
  let cost := cdiv (d * L) E29 in
  est <= cost /\ (cost - est - (if up then 1 else 2)) * SQRT_PRICE_ONE < d.
Proof.
  intros Hd HL. cbv zeta. pose proof (div_bounds L LIQUIDITY_ONE ltac:(reflexivity)) as BL.
  set (F := L / LIQUIDITY_ONE) in *.
  pose proof (cdiv_bounds (d * L) E29 ltac:(reflexivity)) as BC. set (c := cdiv (d * L) E29) in *.
  assert (M1 : LIQUIDITY_ONE * (d * F) <= d * L) by nia.
  assert (M2 : d * L <= LIQUIDITY_ONE * (d * F) + LIQUIDITY_ONE * d) by nia.
  rewrite E29_split in BC. change LIQUIDITY_ONE with 100000 in *.
  assert (SP : 0 < SQRT_PRICE_ONE) by reflexivity. set (one := SQRT_PRICE_ONE) in *.
  pose proof (cdiv_bounds (d * F) one SP) as B1. pose proof (div_bounds (d * F) one SP) as B2.
  unfold rdiv. destruct up.
  - split.
    + apply cdiv_le; [lia|]. nia.
    + set (e := cdiv (d * F) one) in *. nia.
  - split.
    + apply div_le_upper; [lia|]. nia.
    + set (e := d * F / one) in *. nia.
Qed.

Lemma calculate_x_estimate up d n L : 0 <= d -> 0 <= L -> 100000 < n ->
  let est := rdiv up (L * d / SQRT_PRICE_ONE * SQRT_PRICE_ONE / n) LIQUIDITY_ONE in
  let cost := cdiv (d * L / LIQUIDITY_ONE) n in
  est <= cost /\ (cost - est - (if up then 2 else 3)) * n < 10000000000000000000.
Proof.
  intros Hd HL Hn. cbv zeta. rewrite (Z.mul_comm L d). set (P := d * L). assert (HP : 0 <= P) by (unfold P; nia).
  pose proof (div_bounds P LIQUIDITY_ONE ltac:(reflexivity)) as BL. set (N := P / LIQUIDITY_ONE) in *.
  pose proof (cdiv_bounds N n ltac:(lia)) as BC. set (c := cdiv N n) in *.
  pose proof (div_bounds P SQRT_PRICE_ONE ltac:(reflexivity)) as BP. set (Q := P / SQRT_PRICE_ONE) in *.
  pose proof (div_bounds (Q * SQRT_PRICE_ONE) n ltac:(lia)) as BM. set (m := Q * SQRT_PRICE_ONE / n) in *.
  assert (SP : SQRT_PRICE_ONE = 100000 * 10000000000000000000) by reflexivity.
  change LIQUIDITY_ONE with 100000 in *.
  assert (Hm : m <= 100000 * c).
  { assert (n * m <= P) by lia. assert (P < 100000 * (n * c) + 100000) by lia.
    assert (n * (m - 100000 * c) < n * 1) by lia. nia. }
  pose proof (cdiv_bounds m 100000 ltac:(lia)) as B1. pose proof (div_bounds m 100000 ltac:(lia)) as B2.
  assert (LO : 100000 * (n * (c - 1)) < n * m + n + SQRT_PRICE_ONE) by lia.
  unfold rdiv. destruct up.
  - split; [apply cdiv_le; lia|]. set (e := cdiv m 100000) in *.
    assert (n * m <= n * (100000 * e)) by (apply Z.mul_le_mono_nonneg_l; lia). nia.
  - split; [apply div_le_upper; lia|]. set (e := m / 100000) in *.
    assert (n * m <= n * (100000 * e + 100000)) by (apply Z.mul_le_mono_nonneg_l; lia). nia.
Qed.

(** ** Inversion of the two entry points *)

Lemma by_x_inv x lo up p ru L est :
  u256 x -> valid_tick lo -> valid_tick up -> lo < up -> price_in_range p ->
  get_liquidity_by_x x lo up p ru = Ok (L, est) ->
  let a := Z.max (price lo) p in let b := price up in
  a < b /\ L = x * dx_den a b * LIQUIDITY_ONE / (b - a) /\ u256 L /\
  est = (if p <? price lo then 0 else rdiv ru ((p - price lo) * (L / LIQUIDITY_ONE)) SQRT_PRICE_ONE).
Proof.
  intros Hx Vl Vu Hlu Hp H. cbv zeta. unfold get_liquidity_by_x in H. step H u E1.
  rewrite !calculate_sqrt_price_valid in H by auto. cbn [bind] in H.
  pose proof (price_lt _ _ Vl Vu Hlu) as PL.
  pose proof (range_wide _ (price_range _ Vl)) as W1. pose proof (range_wide _ (price_range _ Vu)) as W2.
  pose proof (range_wide _ Hp) as W3. unfold get_liquidity_by_x_sqrt_price in H.
  destruct (Z.ltb_spec (price up) p) as [G1|G1]; [discriminate|].
  destruct (Z.ltb_spec p (price lo)) as [G2|G2].
  - rewrite price_product_eq in H by auto. cbn [bind] in H. unfold dec_sub in H.
    rewrite checked_sub_ok in H by lia. cbn [expect bind] in H. step H l E2. injection H as -> <-.
    rewrite Z.max_l by lia. split; [lia|].
    rewrite liquidity_quotient_eq in E2 by (auto using dx_den_M128; lia). cbv zeta in E2.
    destruct (Z.ltb_spec (x * dx_den (price lo) (price up) * LIQUIDITY_ONE / (price up - price lo)) M256) as [G3|G3]; [|discriminate].
    injection E2 as <-. split; [reflexivity|]. split; [|reflexivity]. apply u256_I. split; [|exact G3].
    apply div_nonneg; [lia|]. apply u256_M in Hx. pose proof (dx_den_M128 _ _ W1 W2).
    apply Z.mul_nonneg_nonneg; [|discriminate]. apply Z.mul_nonneg_nonneg; lia.
  - rewrite price_product_eq in H by auto. cbn [bind] in H. unfold dec_sub in H.
    rewrite checked_sub_ok in H by lia. cbn [expect bind] in H. rewrite Z.max_r by lia.
    destruct (Z.eq_dec (price up - p) 0) as [G0|G0].
    { rewrite G0, liquidity_quotient_zero in H by (auto using dx_den_M128). discriminate. }
    split; [lia|]. step H l E2.
    rewrite liquidity_quotient_eq in E2 by (auto using dx_den_M128; lia). cbv zeta in E2.
    destruct (Z.ltb_spec (x * dx_den p (price up) * LIQUIDITY_ONE / (price up - p)) M256) as [G3|G3]; [|discriminate].
    injection E2 as <-. rewrite checked_sub_ok in H by lia. cbn [expect bind] in H. step H y E4. injection H as <- <-.
    apply calculate_y_inv in E4. split; [reflexivity|]. split; [|exact E4]. apply u256_I. split; [|exact G3].
    apply div_nonneg; [lia|]. apply u256_M in Hx. pose proof (dx_den_M128 _ _ W3 W2).
    apply Z.mul_nonneg_nonneg; [|discriminate]. apply Z.mul_nonneg_nonneg; lia.
Qed.

Lemma by_y_inv y lo up p ru L est :
  u256 y -> valid_tick lo -> valid_tick up -> lo < up -> price_in_range p ->
  get_liquidity_by_y y lo up p ru = Ok (L, est) ->
  let a := price lo in let b := Z.min (price up) p in
  a < b /\ L = y * SQRT_PRICE_ONE * LIQUIDITY_ONE / (b - a) /\ u256 L /\
  est = (if price up <=? p then 0
         else rdiv ru (L * (price up - p) / SQRT_PRICE_ONE * SQRT_PRICE_ONE / dx_den p (price up)) LIQUIDITY_ONE).
Proof.
  intros Hx Vl Vu Hlu Hp H. cbv zeta. unfold get_liquidity_by_y in H. step H u E1.
  rewrite !calculate_sqrt_price_valid in H by auto. cbn [bind] in H.
  pose proof (price_lt _ _ Vl Vu Hlu) as PL.
  pose proof (range_wide _ (price_range _ Vl)) as W1. pose proof (range_wide _ (price_range _ Vu)) as W2.
  pose proof (range_wide _ Hp) as W3. unfold get_liquidity_by_y_sqrt_price in H.
  assert (R1 : 0 <= SQRT_PRICE_ONE < M128) by (split; [discriminate|reflexivity]).
  assert (NN : forall d, 0 < d -> 0 <= y * SQRT_PRICE_ONE * LIQUIDITY_ONE / d).
  { intros d Hd. apply div_nonneg; [lia|]. apply u256_M in Hx.
    apply Z.mul_nonneg_nonneg; [|discriminate]. apply Z.mul_nonneg_nonneg; lia. }
  destruct (Z.ltb_spec p (price lo)) as [G1|G1]; [discriminate|].
  destruct (Z.leb_spec (price up) p) as [G2|G2].
  - unfold dec_sub in H. rewrite checked_sub_ok in H by lia. cbn [expect bind] in H. step H l E2. injection H as -> <-.
    rewrite Z.min_l by lia. split; [lia|].
    rewrite liquidity_quotient_eq in E2 by (auto; lia). cbv zeta in E2.
    destruct (Z.ltb_spec (y * SQRT_PRICE_ONE * LIQUIDITY_ONE / (price up - price lo)) M256) as [G3|G3]; [|discriminate].
    injection E2 as <-. split; [reflexivity|]. split; [|reflexivity]. apply u256_I. split; [|exact G3]. apply NN. lia.
  - unfold dec_sub in H. rewrite checked_sub_ok in H by lia. cbn [expect bind] in H. rewrite Z.min_r by lia.
    destruct (Z.eq_dec (p - price lo) 0) as [G0|G0].
    { rewrite G0, liquidity_quotient_zero in H by auto. discriminate. }
    split; [lia|]. step H l E2.
    rewrite liquidity_quotient_eq in E2 by (auto; lia). cbv zeta in E2.
    destruct (Z.ltb_spec (y * SQRT_PRICE_ONE * LIQUIDITY_ONE / (p - price lo)) M256) as [G3|G3]; [|discriminate].
    injection E2 as <-. rewrite price_product_eq in H by auto. cbn [bind] in H.
    rewrite checked_sub_ok in H by lia. cbn [expect bind] in H. step H x E4. injection H as <- <-.
    apply calculate_x_inv in E4. split; [reflexivity|]. split; [|exact E4]. apply u256_I. split; [|exact G3]. apply NN. lia.
Qed.

(** ** Outcomes *)

Lemma calculate_y_total d L up : 0 <= d -> 0 <= L ->
  (exists y, calculate_y d L up = Ok y) \/
  (calculate_y d L up = Panic /\ M256 - SQRT_PRICE_ONE <= d * (L / LIQUIDITY_ONE)).
Proof.
  intros Hd HL. unfold calculate_y. rewrite checked_div_ok by discriminate. cbn [expect bind].
  set (F := L / LIQUIDITY_ONE). unfold checked_mul. destruct (Z.ltb_spec (d * F) M256) as [G|G]; cbn [expect bind].
  2:{ right. split; [reflexivity|]. change SQRT_PRICE_ONE with 1000000000000000000000000. lia. }
  destruct up.
  - unfold checked_add. destruct (Z.ltb_spec (d * F + SQRT_PRICE_ONE) M256) as [G2|G2]; cbn [expect bind].
    + left. assert (0 <= d * F) by (apply Z.mul_nonneg_nonneg; [auto|apply div_nonneg; [reflexivity|auto]]).
      rewrite checked_sub_ok by (change SQRT_PRICE_ONE with 1000000000000000000000000; lia). cbn [expect bind].
      rewrite checked_div_ok by discriminate. cbn. eauto.
    + right. split; [reflexivity|lia].
  - left. rewrite checked_div_ok by discriminate. cbn. eauto.
Qed.

Lemma calculate_x_total nom den L up : 0 <= nom -> 0 < den -> 0 <= L -> L * nom < M512 ->
  (exists x, calculate_x nom den L up = Ok x) \/
  (calculate_x nom den L up = Panic /\ (M256 - LIQUIDITY_ONE) * Z.min SQRT_PRICE_ONE den <= L * nom).
Proof.
  intros Hn Hd HL HM. unfold calculate_x, big_mul, big_div. assert (P : 0 <= L * nom) by (apply Z.mul_nonneg_nonneg; auto).
  rewrite checked_mul_ok by auto. cbn [expect bind]. rewrite checked_div_ok by discriminate. cbn [expect bind].
  pose proof (div_bounds (L * nom) SQRT_PRICE_ONE ltac:(reflexivity)) as B. set (m := L * nom / SQRT_PRICE_ONE) in *.
  assert (Hm : 0 <= m) by (apply div_nonneg; [reflexivity|auto]).
  assert (SP : 0 < SQRT_PRICE_ONE) by reflexivity. set (one := SQRT_PRICE_ONE) in *.
  assert (LP : 0 < LIQUIDITY_ONE < M256) by (split; reflexivity).
  pose proof (Z.le_min_l one den) as ML. pose proof (Z.le_min_r one den) as MR.
  assert (M0 : 0 < Z.min one den) by lia. set (mn := Z.min one den) in *.
  unfold checked_cast. destruct (Z.ltb_spec m M256) as [G|G]; cbn [expect bind].
  2:{ right. split; [reflexivity|].
      apply Z.le_trans with (one * m); [|lia]. rewrite Z.mul_comm. apply Z.mul_le_mono_nonneg; lia. }
  rewrite checked_mul_ok.
  2:{ apply Z.lt_trans with (M256 * one); [apply Z.mul_lt_mono_pos_r; auto|reflexivity]. }
  cbn [expect bind]. rewrite checked_div_ok by lia. cbn [expect bind].
  pose proof (div_bounds (m * one) den Hd) as B2. set (q := m * one / den) in *.
  assert (Hq : 0 <= q) by (apply div_nonneg; [lia|nia]).
  assert (X : M256 - LIQUIDITY_ONE <= q -> (M256 - LIQUIDITY_ONE) * mn <= L * nom).
  { intros Hx. apply Z.le_trans with (den * q); [|lia]. rewrite Z.mul_comm. apply Z.mul_le_mono_nonneg; lia. }
  destruct (Z.ltb_spec q M256) as [G2|G2]; cbn [expect bind].
  2:{ right. split; [reflexivity|]. apply X. lia. }
  destruct up.
  - unfold checked_add. destruct (Z.ltb_spec (q + LIQUIDITY_ONE) M256) as [G3|G3]; cbn [expect bind].
    + left. rewrite checked_sub_ok by lia. cbn [expect bind]. rewrite checked_div_ok by lia. cbn. eauto.
    + right. split; [reflexivity|]. apply X. lia.
  - left. rewrite checked_div_ok by lia. cbn. eauto.
Qed.

Lemma quotient_big q n d : 0 < d -> q = n / d -> M256 <= q -> M256 * d <= n.
Proof. intros Hd -> H. pose proof (div_bounds n d Hd). nia. Qed.

Lemma by_x_total x lo up p ru :
  u256 x -> valid_tick lo -> valid_tick up -> lo < up -> price_in_range p ->
  let pl := price lo in let pu := price up in let a := Z.max pl p in
  (pu < p -> get_liquidity_by_x x lo up p ru = Err ETrack) /\
  (p = pu -> get_liquidity_by_x x lo up p ru = Panic) /\
  (p < pu ->
     (exists L est, get_liquidity_by_x x lo up p ru = Ok (L, est)) \/
     (get_liquidity_by_x x lo up p ru = Err ETrack /\ M256 * (pu - a) <= x * dx_den a pu * LIQUIDITY_ONE) \/
     (get_liquidity_by_x x lo up p ru = Panic /\
      M256 - SQRT_PRICE_ONE <= (p - pl) * (x * dx_den a pu * LIQUIDITY_ONE / (pu - a) / LIQUIDITY_ONE))).
Proof.
  intros Hx Vl Vu Hlu Hp. cbv zeta. unfold get_liquidity_by_x.
  assert (G0 : ((lo <? - MAX_TICK) || (MAX_TICK <? up)) = false).
  { unfold valid_tick in *. change MAX_TICK with 221818 in *. apply orb_false_iff. split; apply Z.ltb_ge; lia. }
  rewrite G0. cbn [fail_if bind].
  rewrite !calculate_sqrt_price_valid by auto. cbn [bind].
  pose proof (price_lt _ _ Vl Vu Hlu) as PL.
  pose proof (range_wide _ (price_range _ Vl)) as W1. pose proof (range_wide _ (price_range _ Vu)) as W2.
  pose proof (range_wide _ Hp) as W3. unfold get_liquidity_by_x_sqrt_price, dec_sub.
  split; [|split].
  - intros G. destruct (Z.ltb_spec (price up) p); [reflexivity|lia].
  - intros ->. rewrite Z.ltb_irrefl. destruct (Z.ltb_spec (price up) (price lo)); [lia|].
    rewrite price_product_eq by auto. cbn [bind]. rewrite checked_sub_ok by lia. cbn [expect bind].
    rewrite Z.sub_diag, liquidity_quotient_zero by (auto using dx_den_M128). reflexivity.
  - intros G. destruct (Z.ltb_spec (price up) p); [lia|]. destruct (Z.ltb_spec p (price lo)) as [G2|G2].
    + rewrite Z.max_l by lia. rewrite price_product_eq by auto. cbn [bind].
      rewrite checked_sub_ok by lia. cbn [expect bind].
      rewrite liquidity_quotient_eq by (auto using dx_den_M128; lia). cbv zeta.
      destruct (Z.ltb_spec (x * dx_den (price lo) (price up) * LIQUIDITY_ONE / (price up - price lo)) M256) as [G3|G3]; cbn [bind].
      * left. eauto.
      * right; left. split; [reflexivity|]. eapply quotient_big; [|reflexivity|exact G3]. lia.
    + rewrite Z.max_r by lia. rewrite price_product_eq by auto. cbn [bind].
      rewrite checked_sub_ok by lia. cbn [expect bind].
      rewrite liquidity_quotient_eq by (auto using dx_den_M128; lia). cbv zeta.
      pose proof (dx_den_M128 _ _ W3 W2). apply u256_M in Hx as Hx'.
      set (n := x * dx_den p (price up) * LIQUIDITY_ONE).
      assert (Hn : 0 <= n) by (unfold n; apply Z.mul_nonneg_nonneg; [apply Z.mul_nonneg_nonneg; lia|discriminate]).
      destruct (Z.ltb_spec (n / (price up - p)) M256) as [G3|G3]; cbn [bind].
      * rewrite checked_sub_ok by lia. cbn [expect bind].
        destruct (calculate_y_total (p - price lo) (n / (price up - p)) ru ltac:(lia) ltac:(apply div_nonneg; lia)) as [[y ->]|[-> E]]; cbn [bind].
        -- left. eauto.
        -- right; right. auto.
      * right; left. split; [reflexivity|]. eapply quotient_big; [|reflexivity|exact G3]. lia.
Qed.

Lemma by_y_total y lo up p ru :
  u256 y -> valid_tick lo -> valid_tick up -> lo < up -> price_in_range p ->
  let pl := price lo in let pu := price up in let b := Z.min pu p in
  (p < pl -> get_liquidity_by_y y lo up p ru = Err ETrack) /\
  (p = pl -> get_liquidity_by_y y lo up p ru = Panic) /\
  (pl < p ->
     (exists L est, get_liquidity_by_y y lo up p ru = Ok (L, est)) \/
     (get_liquidity_by_y y lo up p ru = Err ETrack /\ M256 * (b - pl) <= y * SQRT_PRICE_ONE * LIQUIDITY_ONE) \/
     (get_liquidity_by_y y lo up p ru = Panic /\
      (M256 - LIQUIDITY_ONE) * Z.min SQRT_PRICE_ONE (dx_den p pu)
        <= y * SQRT_PRICE_ONE * LIQUIDITY_ONE / (b - pl) * (pu - p))).
Proof.
  intros Hx Vl Vu Hlu Hp. cbv zeta. unfold get_liquidity_by_y.
  assert (G0 : ((lo <? - MAX_TICK) || (MAX_TICK <? up)) = false).
  { unfold valid_tick in *. change MAX_TICK with 221818 in *. apply orb_false_iff. split; apply Z.ltb_ge; lia. }
  rewrite G0. cbn [fail_if bind].
  rewrite !calculate_sqrt_price_valid by auto. cbn [bind].
  pose proof (price_lt _ _ Vl Vu Hlu) as PL.
  pose proof (range_wide _ (price_range _ Vl)) as W1. pose proof (range_wide _ (price_range _ Vu)) as W2.
  pose proof (range_wide _ Hp) as W3. unfold get_liquidity_by_y_sqrt_price, dec_sub.
  assert (R1 : 0 <= SQRT_PRICE_ONE < M128) by (split; [discriminate|reflexivity]).
  apply u256_M in Hx as Hx'. set (n := y * SQRT_PRICE_ONE * LIQUIDITY_ONE).
  assert (Hn : 0 <= n) by (unfold n; apply Z.mul_nonneg_nonneg; [apply Z.mul_nonneg_nonneg; lia|discriminate]).
  split; [|split].
  - intros G. destruct (Z.ltb_spec p (price lo)); [reflexivity|lia].
  - intros ->. rewrite Z.ltb_irrefl. destruct (Z.leb_spec (price up) (price lo)); [lia|].
    rewrite checked_sub_ok by lia. cbn [expect bind].
    rewrite Z.sub_diag, liquidity_quotient_zero by auto. reflexivity.
  - intros G. destruct (Z.ltb_spec p (price lo)); [lia|]. destruct (Z.leb_spec (price up) p) as [G2|G2].
    + rewrite Z.min_l by lia. rewrite checked_sub_ok by lia. cbn [expect bind].
      rewrite liquidity_quotient_eq by (auto; lia). cbv zeta. fold n.
      destruct (Z.ltb_spec (n / (price up - price lo)) M256) as [G3|G3]; cbn [bind].
      * left. eauto.
      * right; left. split; [reflexivity|]. eapply quotient_big; [|reflexivity|exact G3]. lia.
    + rewrite Z.min_r by lia. rewrite checked_sub_ok by lia. cbn [expect bind].
      rewrite liquidity_quotient_eq by (auto; lia). cbv zeta. fold n.
      destruct (Z.ltb_spec (n / (p - price lo)) M256) as [G3|G3]; cbn [bind].
      * rewrite price_product_eq by auto. cbn [bind]. rewrite checked_sub_ok by lia. cbn [expect bind].
        pose proof (dx_den_pos _ _ W3 W2).
        assert (L0 : 0 <= n / (p - price lo)) by (apply div_nonneg; lia).
        destruct (calculate_x_total (price up - p) (dx_den p (price up)) (n / (p - price lo)) ru) as [[x ->]|[-> E]]; cbn [bind]; try lia.
        -- apply Z.le_lt_trans with ((M256 - 1) * (M128 - 1)); [|reflexivity]. unfold wide in *. 
           assert (100000000000000000000000000000 < M128) by reflexivity. apply mul_bound; lia.
        -- left. eauto.
        -- right; right. auto.
      * right; left. split; [reflexivity|]. eapply quotient_big; [|reflexivity|exact G3]. lia.
Qed.
