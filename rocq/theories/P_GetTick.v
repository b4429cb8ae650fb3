(** The tick of a price is computed exactly (C02). *)
From Verif Require Import Base Decimal SqrtPriceM LogM Arith SpecMath P_Clamm P_TickPrice P_LogR.
From Coq Require Import ZArith Lia Bool List Reals Lra.
Import ListNotations.
Open Scope Z_scope.

Local Notation ONE := 1000000000000 (only parsing).
Local Notation E24 := 1000000000000000000000000 (only parsing).
#[local] Opaque mag dig.

Lemma align_floor t s : 1 <= s -> align_tick_to_spacing t s = Ok (s * (t / s)).
Proof.
  intros Hs. unfold align_tick_to_spacing.
  destruct (Z.eqb_spec s 0); [lia|]. pose proof (Z.div_mod t s ltac:(lia)).
  destruct (Z.ltb_spec 0 t).
  - rewrite Z.rem_mod_nonneg by lia. f_equal. lia.
  - f_equal. lia.
Qed.

(** The tick whose price interval contains a given price. *)
Lemma tick_exists p : price_in_range p ->
  exists T, valid_tick T /\ price T <= p /\ (T < 221818 -> p < price (T + 1)).
Proof.
  intros [Hp1 Hp2].
  assert (forall n : nat, Z.of_nat n <= 443636 -> exists T, -221818 <= T <= -221818 + Z.of_nat n /\ price T <= p /\
    (T < -221818 + Z.of_nat n -> p < price (T + 1))) as H.
  { induction n as [|n IH]; intros Hn.
    - exists (-221818). rewrite price_min. lia.
    - destruct IH as (T & H1 & H2 & H3); [lia|].
      destruct (Z.lt_ge_cases T (-221818 + Z.of_nat n)) as [Hl|Hl].
      + exists T. split; [lia|]. split; auto.
      + destruct (Z.le_gt_cases (price (T + 1)) p).
        * exists (T + 1). split; [lia|]. split; auto. lia.
        * exists T. split; [lia|]. split; auto. }
  remember 443636 as K eqn:EK. destruct (H (Z.to_nat K)) as (T & H1 & H2 & H3); [rewrite Z2Nat.id; lia|].
  rewrite Z2Nat.id in H1, H3 by lia. subst K.
  exists T. unfold valid_tick. split; [lia|]. split; auto.
Qed.

Lemma lz_add a k : 0 < a -> 0 <= k -> (lz (a + k) <= lz a + IZR k / IZR a)%R.
Proof.
  intros Ha Hk. unfold lz. assert (Hr : (0 < IZR a)%R) by (apply IZR_lt; auto).
  assert (Hkr : (0 <= IZR k)%R) by (apply IZR_le; auto).
  replace (IZR (a + k)) with (IZR a * (1 + IZR k / IZR a))%R by (rewrite plus_IZR; field; lra).
  assert (0 <= IZR k / IZR a)%R by (apply Rmult_le_pos; [auto|apply Rlt_le, Rinv_0_lt_compat; auto]).
  rewrite ln_mult by lra. pose proof (ln_1p (IZR k / IZR a)). lra.
Qed.

Lemma lz_E24 : lz E24 = (2 * lz ONE)%R.
Proof. change E24 with (ONE * ONE). rewrite lz_mult by lia. lra. Qed.
Lemma lz2_half : (1 / 2 <= lz 2)%R.
Proof. unfold lz. pose proof ln_lt_2. lra. Qed.
Lemma lz_2_48 : (lz (2 ^ 48) - lz (2 ^ 32) = 16 * lz 2)%R.
Proof.
  assert (E : forall k, 0 < k -> lz (2 * k) = (lz 2 + lz k)%R) by (intros; apply lz_mult; lia).
  assert (E16 : lz 65536 = (16 * lz 2)%R).
  { change 65536 with (2 * (2 * (2 * (2 * (2 * (2 * (2 * (2 * (2 * (2 * (2 * (2 * (2 * (2 * (2 * 2))))))))))))))).
    rewrite !E by lia. lra. }
  change (2 ^ 48) with (65536 * 2 ^ 32). rewrite lz_mult by lia. lra.
Qed.

(** Nonnegative side. *)
Lemma tick_pos p N : E24 <= p <= 65535383934512647000000000000 -> 0 <= N ->
  log2_iterative_approximation_x32 (sqrt_price_to_x32 p) = (true, N * 2 ^ 17) ->
  (IZR N * lz 2 <= IZR (2 ^ 15) * (lz (sqrt_price_to_x32 p) - lz (2 ^ 32)) <= (IZR N + 1) * lz 2 + / 10000)%R ->
  let a := N * 2 ^ 17 / 309801 in
  0 <= a <= 221818 /\ price a <= p /\ (a + 2 <= 221818 -> p < price (a + 2)).
Proof.
  intros Hp HN _ HL a.
  assert (HX : 2 ^ 32 <= sqrt_price_to_x32 p < 2 ^ 48).
  { unfold sqrt_price_to_x32. change LOG2_ONE with (2 ^ 32). change SQRT_PRICE_ONE with E24.
    split; [apply div_le_lower; lia|apply div_lt_upper; lia]. }
  assert (HXL : (lz (sqrt_price_to_x32 p) - lz (2 ^ 32) <= lz p - lz E24 <= lz (sqrt_price_to_x32 p) - lz (2 ^ 32) + / 1000000000)%R).
  { pose proof (lz_div (p * 2 ^ 32) E24 1000000000 ltac:(lia) ltac:(lia)) as H.
    change (p * 2 ^ 32 / E24) with (sqrt_price_to_x32 p) in H.
    specialize (H ltac:(lia)). rewrite lz_mult in H by lia. lra. }
  pose proof (lz_lt (sqrt_price_to_x32 p) (2 ^ 48) ltac:(lia) ltac:(lia)) as HX48.
  pose proof lz_2_48 as L48. pose proof lz2_half as L2. pose proof lz_E24 as LE.
  set (lX := lz (sqrt_price_to_x32 p)) in *. set (l32 := lz (2 ^ 32)) in *.
  change (2 ^ 15) with 32768 in HL.
  assert (HNB : N <= 524288).
  { apply le_IZR. apply Rmult_le_reg_r with (lz 2); [lra|]. lra. }
  pose proof (div_bounds (N * 2 ^ 17) 309801 eq_refl) as HB. fold a in HB.
  change (2 ^ 17) with 131072 in HB.
  assert (Ha0 : 0 <= a) by lia. assert (Ha1 : a <= 221819) by lia.
  destruct lam_bounds as [LB1 LB2]. change (2 ^ 32) with 4294967296 in LB1, LB2.
  assert (R1 : (309801 * IZR a <= 131072 * IZR N)%R) by (rewrite <- !mult_IZR; apply IZR_le; lia).
  assert (R2 : (131072 * IZR N <= 309801 * IZR a + 309800)%R) by (rewrite <- !mult_IZR, <- plus_IZR; apply IZR_le; lia).
  assert (R0 : (0 <= IZR a <= 221819)%R) by (split; apply IZR_le; lia).
  assert (HA : mag a * ONE <= p).
  { pose proof (mul_factors_mag a) as [_ M1].
    apply lz_le_inv; [lia|lia|]. rewrite lz_mult by lia.
    pose proof (mag_lz a ltac:(lia)) as [M2 _].
    assert (Q1 : (4294967296 * lam * IZR a <= 309801 * lz 2 * IZR a)%R) by (apply Rmult_le_compat_r; lra).
    assert (Q2 : (309801 * IZR a * lz 2 <= 131072 * IZR N * lz 2)%R) by (apply Rmult_le_compat_r; lra).
    lra. }
  assert (HV : a <= 221818).
  { destruct (Z.le_gt_cases a 221818); auto. exfalso.
    pose proof (mag_lt 221818 a ltac:(lia) ltac:(lia)) as HM. rewrite mag_max in HM. lia. }
  split; [lia|]. split.
  - unfold price. destruct (Z.leb_spec 0 a); [auto|lia].
  - intros Ha2. unfold price. destruct (Z.leb_spec 0 (a + 2)); [|lia].
    pose proof (mul_factors_mag (a + 2)) as [_ M1].
    apply lz_lt_inv; [lia|lia|]. rewrite lz_mult by lia.
    pose proof (mag_lz (a + 2) ltac:(lia)) as [_ M2]. rewrite plus_IZR in M2.
    assert (R0' : (IZR a <= 221818)%R) by (apply IZR_le; lia).
    assert (Q1 : (3098009 / 10 * lz 2 * (IZR a + 2) <= 4294967296 * lam * (IZR a + 2))%R) by (apply Rmult_le_compat_r; lra).
    assert (Q2 : (131072 * IZR N * lz 2 <= (309801 * IZR a + 309800) * lz 2)%R) by (apply Rmult_le_compat_r; lra).
    assert (Q3 : (IZR a * lz 2 <= 221818 * lz 2)%R) by (apply Rmult_le_compat_r; lra).
    lra.
Qed.

(** Negative side. *)
Lemma tick_neg p N : 15258932000000000000 <= p < E24 -> 0 <= N ->
  (IZR N * lz 2 <= IZR (2 ^ 15) * (lz (2 ^ 64 / (sqrt_price_to_x32 p + 1)) - lz (2 ^ 32)) <= (IZR N + 1) * lz 2 + / 10000)%R ->
  let a := (N * 2 ^ 17 + 300000) / 309801 in
  0 <= a <= 221818 /\ (a + 1 <= 221818 -> price (- (a + 1)) <= p) /\ (1 <= a -> p < price (- a + 1)).
Proof.
  intros Hp HN HL a.
  set (x := sqrt_price_to_x32 p) in *.
  assert (HxB : E24 * x <= p * 2 ^ 32 < E24 * (x + 1)).
  { pose proof (div_bounds (p * 2 ^ 32) E24 eq_refl) as H. change (p * 2 ^ 32 / E24) with x in H. lia. }
  assert (Hx : 65535 <= x < 2 ^ 32) by lia. clearbody x.
  assert (HX : 2 ^ 32 <= 2 ^ 64 / (x + 1) <= 2 ^ 48).
  { split; [apply div_le_lower; lia|apply div_le_upper; lia]. }
  pose proof (lz_div (2 ^ 64) (x + 1) 1000000000 ltac:(lia) ltac:(lia) ltac:(lia)) as HXL.
  pose proof (lz_le _ (2 ^ 48) ltac:(apply Z.lt_le_trans with (2 ^ 32); [reflexivity|exact (proj1 HX)]) (proj2 HX)) as HX48.
  set (lX := lz (2 ^ 64 / (x + 1))) in *.
  pose proof lz_2_48 as L48. pose proof lz2_half as L2. pose proof lz_E24 as LE.
  assert (L64 : lz (2 ^ 64) = (2 * lz (2 ^ 32))%R).
  { change (2 ^ 64) with (2 ^ 32 * 2 ^ 32). rewrite lz_mult by lia. lra. }
  assert (X1 : (lz p + lz (2 ^ 32) <= lz E24 + lz (x + 1))%R).
  { rewrite <- !lz_mult by lia. apply lz_le; lia. }
  assert (X2 : (lz E24 + lz x <= lz p + lz (2 ^ 32))%R).
  { rewrite <- !lz_mult by lia. apply lz_le; lia. }
  pose proof (lz_succ x ltac:(lia)) as X3.
  assert (X4 : (/ IZR x <= / 65535)%R).
  { apply Rinv_le_contravar; [lra|]. apply IZR_le. lia. }
  set (l32 := lz (2 ^ 32)) in *. change (2 ^ 15) with 32768 in HL.
  assert (HNB : N <= 524288).
  { apply le_IZR. apply Rmult_le_reg_r with (lz 2); [lra|]. lra. }
  pose proof (div_bounds (N * 2 ^ 17 + 300000) 309801 eq_refl) as HB. fold a in HB.
  change (2 ^ 17) with 131072 in HB.
  assert (Ha0 : 0 <= a) by lia. assert (Ha1 : a <= 221821) by lia.
  destruct lam_bounds as [LB1 LB2]. change (2 ^ 32) with 4294967296 in LB1, LB2.
  assert (R1 : (309801 * IZR a <= 131072 * IZR N + 300000)%R) by (rewrite <- !mult_IZR, <- plus_IZR; apply IZR_le; lia).
  assert (R2 : (131072 * IZR N + 300000 <= 309801 * IZR a + 309800)%R) by (rewrite <- !mult_IZR, <- !plus_IZR; apply IZR_le; lia).
  assert (R0 : (0 <= IZR a <= 221821)%R) by (split; apply IZR_le; lia).
  assert (P1 : a + 1 <= 221818 -> price (- (a + 1)) <= p).
  { intros Ha2. unfold price. destruct (Z.leb_spec 0 (- (a + 1))); [lia|]. rewrite Z.opp_involutive.
    pose proof (mul_factors_mag (a + 1)) as [_ M1].
    pose proof (mag_lz (a + 1) ltac:(lia)) as [_ M2]. rewrite plus_IZR in M2.
    assert (R0' : (IZR a <= 221817)%R) by (apply IZR_le; lia).
    assert (HC : E24 * ONE <= p * mag (a + 1)).
    { apply lz_le_inv; [lia|lia|]. rewrite !lz_mult by lia.
      assert (Q1 : (3098009 / 10 * lz 2 * (IZR a + 1) <= 4294967296 * lam * (IZR a + 1))%R) by (apply Rmult_le_compat_r; lra).
      assert (Q2 : ((131072 * IZR N + 300000) * lz 2 <= (309801 * IZR a + 309800) * lz 2)%R) by (apply Rmult_le_compat_r; lra).
      assert (Q3 : (IZR a * lz 2 <= 221817 * lz 2)%R) by (apply Rmult_le_compat_r; lra).
      lra. }
    pose proof (div_bounds (ONE * ONE) (mag (a + 1)) ltac:(lia)) as HD.
    set (q := ONE * ONE / mag (a + 1)) in *. clearbody q.
    set (m := mag (a + 1)) in *. clearbody m.
    apply Z.mul_le_mono_pos_l with m; lia. }
  assert (P2 : 1 <= a -> p < price (- a + 1)).
  { intros Ha2. destruct (Z.eq_dec a 1) as [->|Hn1].
    { change (price (- (1) + 1)) with (mag 0 * ONE). rewrite mag_0. lia. }
    unfold price. destruct (Z.leb_spec 0 (- a + 1)); [lia|].
    replace (- (- a + 1)) with (a - 1) by lia.
    pose proof (mul_factors_mag (a - 1)) as [_ M1].
    pose proof (mag_lz (a - 1) ltac:(lia)) as [M2 _]. rewrite minus_IZR in M2.
    assert (R0' : (2 <= IZR a)%R) by (apply IZR_le; lia).
    assert (HC : (p + ONE) * mag (a - 1) < E24 * ONE).
    { apply lz_lt_inv; [lia|lia|]. rewrite !lz_mult by lia.
      pose proof (lz_add p ONE ltac:(lia) ltac:(lia)) as LA.
      assert (LQ : (IZR ONE / IZR p <= 7 / 100000000)%R).
      { assert (/ IZR p <= / 15258932000000000000)%R.
        { apply Rinv_le_contravar; [lra|]. apply IZR_le; lia. }
        unfold Rdiv at 1. lra. }
      assert (Q1 : (4294967296 * lam * (IZR a - 1) <= 309801 * lz 2 * (IZR a - 1))%R) by (apply Rmult_le_compat_r; lra).
      assert (Q2 : (309801 * IZR a * lz 2 <= (131072 * IZR N + 300000) * lz 2)%R) by (apply Rmult_le_compat_r; lra).
      lra. }
    pose proof (div_bounds (ONE * ONE) (mag (a - 1)) ltac:(lia)) as HD.
    set (q := ONE * ONE / mag (a - 1)) in *. clearbody q.
    set (m := mag (a - 1)) in *. clearbody m.
    apply Z.mul_lt_mono_pos_l with m; lia. }
  split; [|split; auto]. split; auto.
  destruct (Z.le_gt_cases a 221818) as [|Hgt]; auto. exfalso. specialize (P2 ltac:(lia)).
  revert P2. unfold price. destruct (Z.leb_spec 0 (- a + 1)); [lia|].
  replace (- (- a + 1)) with (a - 1) by lia.
  assert (HM : 65535383934512647 <= mag (a - 1)).
  { rewrite <- mag_max. destruct (Z.eq_dec (a - 1) 221818) as [->|]; [lia|]. apply Z.lt_le_incl, mag_lt; lia. }
  assert (ONE * ONE / mag (a - 1) <= 15258932); [|lia].
  apply Z.lt_succ_r. apply div_lt_upper; lia.
Qed.

Theorem get_tick_spec p s : price_in_range p -> 1 <= s <= 100 ->
  exists T, valid_tick T /\ price T <= p /\ (T < 221818 -> p < price (T + 1)) /\
            get_tick_at_sqrt_price p s = Ok (s * (T / s)).
Proof.
  intros Hp Hs. destruct (tick_exists p Hp) as (T & HT & HT1 & HT2). exists T. split; [auto|]. split; [auto|]. split; [auto|].
  destruct Hp as [Hp1 Hp2]. unfold get_tick_at_sqrt_price.
  assert (HG : (MAX_SQRT_PRICE <? p) || (p <? MIN_SQRT_PRICE) = false).
  { unfold MAX_SQRT_PRICE, MIN_SQRT_PRICE. apply orb_false_iff. split; apply Z.ltb_ge; lia. }
  rewrite HG.
  assert (Hlast : (if 1 <? s then align_tick_to_spacing (s * (T / s)) s else Ok (s * (T / s))) = Ok (s * (T / s))).
  { destruct (Z.ltb_spec 1 s); auto. rewrite align_floor by lia.
    rewrite (Z.mul_comm s (T / s)), Z.div_mul by lia. f_equal. lia. }
  unfold valid_tick in HT.
  destruct (Z.lt_ge_cases p E24) as [Hn|Hn].
  - (* below one *)
    pose proof (div_bounds (p * 2 ^ 32) E24 eq_refl) as HxB. change (p * 2 ^ 32 / E24) with (sqrt_price_to_x32 p) in HxB.
    pose proof (tick_neg p) as TN.
    remember (sqrt_price_to_x32 p) as x eqn:Ex. clear Ex.
    assert (HX : 2 ^ 32 <= 2 ^ 64 / (x + 1) < 2 ^ 60).
    { split; [apply div_le_lower; lia|apply div_lt_upper; lia]. }
    destruct (log2_x32_lz _ HX) as (N & HN & HE & HL).
    destruct (TN N ltac:(lia) HN HL) as (HA & HA1 & HA2). clear TN.
    assert (HE' : log2_iterative_approximation_x32 x = (false, N * 2 ^ 17)).
    { revert HE. unfold log2_iterative_approximation_x32.
      destruct (Z.ltb_spec x LOG2_ONE); [|unfold LOG2_ONE in *; lia]. cbn [negb].
      change LOG2_DOUBLE_ONE with (2 ^ 64).
      destruct (Z.ltb_spec (2 ^ 64 / (x + 1)) LOG2_ONE); [unfold LOG2_ONE in *; lia|]. cbn [negb].
      destruct (Z.shiftr (2 ^ 64 / (x + 1)) (log2_floor_x32 (Z.shiftr (2 ^ 64 / (x + 1)) 32)) =? LOG2_ONE); congruence. }
    rewrite HE'. cbv beta iota zeta.
    change LOG2_NEGATIVE_MAX_LOSE with 300000. change LOG2_SQRT_10001 with 309801.
    set (a := (N * 2 ^ 17 + 300000) / 309801) in *. clearbody a.
    rewrite !align_floor by lia. cbn [bind].
    assert (HTa : T = - a \/ T = - a - 1).
    { destruct (Z.le_gt_cases T (- a)) as [G1|G1]; [destruct (Z.le_gt_cases (- a - 1) T) as [G2|G2]|]; [lia| |]; exfalso.
      - specialize (HA1 ltac:(lia)). specialize (HT2 ltac:(lia)).
        pose proof (price_le (T + 1) (- (a + 1)) ltac:(unfold valid_tick; lia) ltac:(unfold valid_tick; lia) ltac:(lia)). lia.
      - destruct (Z.le_gt_cases 1 a) as [G3|G3].
        + specialize (HA2 G3).
          pose proof (price_le (- a + 1) T ltac:(unfold valid_tick; lia) ltac:(unfold valid_tick; lia) ltac:(lia)). lia.
        + pose proof (price_le 0 T ltac:(unfold valid_tick; lia) ltac:(unfold valid_tick; lia) ltac:(lia)) as HH.
          change (price 0) with (mag 0 * ONE) in HH. rewrite mag_0 in HH. lia. }
    destruct (Z.eqb_spec (s * ((- a - 1) / s)) (s * (- a / s))) as [Eq|Neq].
    + destruct HTa as [->| ->]; congruence.
    + rewrite calculate_sqrt_price_valid by (unfold valid_tick; lia). cbn [bind].
      destruct (Z.leb_spec (price (- a)) p) as [G|G].
      * assert (T = - a) as <-; [|exact Hlast].
        destruct HTa as [|HTa]; auto. exfalso. specialize (HT2 ltac:(lia)).
        replace (T + 1) with (- a) in HT2 by lia. lia.
      * assert (T = - a - 1) as <-; [|exact Hlast].
        destruct HTa as [HTa|]; auto. exfalso. subst T. lia.
  - (* at least one *)
    assert (HX : 2 ^ 32 <= sqrt_price_to_x32 p < 2 ^ 60).
    { unfold sqrt_price_to_x32. change LOG2_ONE with (2 ^ 32). change SQRT_PRICE_ONE with E24.
      split; [apply div_le_lower; lia|apply div_lt_upper; lia]. }
    destruct (log2_x32_lz _ HX) as (N & HN & HE & HL).
    destruct (tick_pos p N ltac:(lia) HN HE HL) as (HA & HA1 & HA2).
    assert (HMAX : N * 2 ^ 17 / 309801 = 221818 -> T < 221818).
    { intros HN1. destruct (Z.lt_ge_cases T 221818); auto. exfalso.
      assert (T = 221818) by lia. subst T. rewrite price_max in HT1.
      assert (p = 65535383934512647000000000000) by lia. subst p.
      assert (HC : snd (log2_iterative_approximation_x32 (sqrt_price_to_x32 65535383934512647000000000000)) / 309801 = 221817)
        by (vm_compute; reflexivity).
      rewrite HE in HC. cbn [snd] in HC. lia. }
    rewrite HE. cbv beta iota zeta. change LOG2_SQRT_10001 with 309801.
    set (a := N * 2 ^ 17 / 309801) in *. clearbody a.
    rewrite !align_floor by lia. cbn [bind].
    assert (HTa : T = a \/ T = a + 1).
    { destruct (Z.le_gt_cases a T) as [G1|G1]; [destruct (Z.le_gt_cases T (a + 1)) as [G2|G2]|]; [lia| |]; exfalso.
      - specialize (HA2 ltac:(lia)).
        pose proof (price_le (a + 2) T ltac:(unfold valid_tick; lia) ltac:(unfold valid_tick; lia) ltac:(lia)). lia.
      - specialize (HT2 ltac:(lia)).
        pose proof (price_le (T + 1) a ltac:(unfold valid_tick; lia) ltac:(unfold valid_tick; lia) ltac:(lia)). lia. }
    assert (HV : a + 1 <= 221818).
    { destruct (Z.eq_dec a 221818) as [E|E]; [|lia]. specialize (HMAX E). lia. }
    destruct (Z.eqb_spec (s * ((a + 1) / s)) (s * (a / s))) as [Eq|Neq].
    + destruct HTa as [->| ->]; congruence.
    + rewrite calculate_sqrt_price_valid by (unfold valid_tick; lia). cbn [bind].
      destruct (Z.leb_spec (price (a + 1)) p) as [G|G].
      * assert (T = a + 1) as <-; [|exact Hlast].
        destruct HTa as [HTa|]; auto. exfalso. subst T. specialize (HT2 ltac:(lia)). lia.
      * assert (T = a) as <-; [|exact Hlast].
        destruct HTa as [|HTa]; auto. exfalso. subst T. lia.
Qed.
