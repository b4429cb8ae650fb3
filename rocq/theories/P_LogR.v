(** Binary logarithm by repeated squaring: error analysis (C02). *)
From Verif Require Import Base Decimal SqrtPriceM LogM Arith SpecMath P_Clamm P_TickPrice.
From Coq Require Import ZArith Lia Bool List Reals Lra.
Import ListNotations.
Open Scope Z_scope.

(** Natural logarithm of a positive integer. *)
Definition lz (z : Z) : R := ln (IZR z).

Lemma lz_mult a b : 0 < a -> 0 < b -> lz (a * b) = (lz a + lz b)%R.
Proof. intros. unfold lz. rewrite mult_IZR. apply ln_mult; apply IZR_lt; auto. Qed.
Lemma lz_lt a b : 0 < a -> a < b -> (lz a < lz b)%R.
Proof. intros. unfold lz. apply ln_increasing; apply IZR_lt; auto. Qed.
Lemma lz_le a b : 0 < a -> a <= b -> (lz a <= lz b)%R.
Proof. intros. destruct (Z.eq_dec a b) as [->|]; [lra|]. apply Rlt_le, lz_lt; lia. Qed.
Lemma lz_lt_inv a b : 0 < a -> 0 < b -> (lz a < lz b)%R -> a < b.
Proof. intros. destruct (Z.lt_ge_cases a b); auto. pose proof (lz_le b a ltac:(auto) ltac:(auto)). lra. Qed.
Lemma lz_le_inv a b : 0 < a -> 0 < b -> (lz a <= lz b)%R -> a <= b.
Proof. intros. destruct (Z.le_gt_cases a b); auto. pose proof (lz_lt b a ltac:(auto) ltac:(lia)). lra. Qed.
Lemma lz_1 : lz 1 = 0%R.
Proof. unfold lz. apply ln_1. Qed.

Lemma ln_1p x : (0 <= x)%R -> (ln (1 + x) <= x)%R.
Proof.
  intros [H| <-]; [|rewrite Rplus_0_r, ln_1; lra].
  apply Rlt_le. rewrite <- (ln_exp x) at 2. apply ln_increasing; [lra|]. apply exp_ineq1. lra.
Qed.

Lemma lz_succ a : 0 < a -> (lz (a + 1) <= lz a + / IZR a)%R.
Proof.
  intros Ha. unfold lz. assert (Hr : (0 < IZR a)%R) by (apply IZR_lt; auto).
  replace (IZR (a + 1)) with (IZR a * (1 + / IZR a))%R by (rewrite plus_IZR; field; lra).
  pose proof (Rinv_0_lt_compat _ Hr). rewrite ln_mult by lra.
  pose proof (ln_1p (/ IZR a)). lra.
Qed.

(** A quotient [q = n/d >= m] loses at most 1/m in logarithm. *)
Lemma lz_div n d m : 0 < d -> 0 < m -> m <= n / d ->
  (lz (n / d) <= lz n - lz d <= lz (n / d) + / IZR m)%R.
Proof.
  intros Hd Hm Hq. pose proof (div_bounds n d Hd) as HB. set (q := n / d) in *. clearbody q.
  assert (Hn : 0 < n) by nia. split.
  - pose proof (lz_le (d * q) n ltac:(nia) ltac:(lia)) as H. rewrite lz_mult in H by lia. lra.
  - pose proof (lz_le n (d * (q + 1)) ltac:(nia) ltac:(lia)) as H. rewrite lz_mult in H by lia.
    pose proof (lz_succ q ltac:(lia)).
    assert (/ IZR q <= / IZR m)%R; [|lra].
    apply Rinv_le_contravar; [apply IZR_lt; auto|apply IZR_le; auto].
Qed.

(** ** Digit extraction at scale W *)
Fixpoint dig (W : Z) (m : nat) (y : Z) : Z :=
  match m with
  | O => 0
  | S m' =>
      let y' := y * y / W in
      if 2 * W <=? y' then 2 ^ Z.of_nat m' + dig W m' (y' / 2) else dig W m' y'
  end.

Lemma pow2_pos n : 0 < 2 ^ Z.of_nat n.
Proof. apply Z.pow_pos_nonneg; lia. Qed.

Lemma dig_spec W m : forall y, 0 < W -> W <= y < 2 * W ->
  0 <= dig W m y < 2 ^ Z.of_nat m /\
  (IZR (dig W m y) * lz 2 <= IZR (2 ^ Z.of_nat m) * (lz y - lz W) <
   (IZR (dig W m y) + 1) * lz 2 + (IZR (2 ^ Z.of_nat m) - 1) * (2 / IZR W))%R.
Proof.
  induction m as [|m IH]; intros y HW Hy.
  - cbn [dig]. change (2 ^ Z.of_nat 0) with 1. split; [lia|].
    pose proof (lz_le W y HW ltac:(lia)). pose proof (lz_lt y (2 * W) ltac:(lia) ltac:(lia)) as H2.
    rewrite lz_mult in H2 by lia. lra.
  - cbn [dig]. rewrite Nat2Z.inj_succ, Z.pow_succ_r by lia. rewrite mult_IZR.
    set (y' := y * y / W).
    assert (Hy' : W <= y' < 4 * W).
    { unfold y'. split; [apply div_le_lower; nia|apply div_lt_upper; nia]. }
    pose proof (lz_div (y * y) W W HW HW (proj1 Hy')) as HL. fold y' in HL.
    rewrite lz_mult in HL by lia.
    assert (HWr : (0 < IZR W)%R) by (apply IZR_lt; auto).
    assert (HP : (1 <= IZR (2 ^ Z.of_nat m))%R) by (pose proof (pow2_pos m); apply IZR_le; lia).
    assert (HI : (0 < / IZR W)%R) by (apply Rinv_0_lt_compat; auto).
    pose proof (pow2_pos m) as HPz.
    set (P := IZR (2 ^ Z.of_nat m)) in *.
    destruct (Z.leb_spec (2 * W) y').
    + assert (Hy2 : W <= y' / 2 < 2 * W).
      { split; [apply div_le_lower; lia|apply div_lt_upper; lia]. }
      destruct (IH (y' / 2) HW Hy2) as (H1 & H2 & H3). fold P in H2, H3.
      pose proof (lz_div y' 2 W ltac:(lia) HW (proj1 Hy2)) as HL2.
      split; [lia|]. rewrite plus_IZR. fold P. set (d := IZR (dig W m (y' / 2))) in *.
      unfold Rdiv in *. nra.
    + destruct (IH y' HW ltac:(lia)) as (H1 & H2 & H3). fold P in H2, H3.
      split; [lia|]. set (d := IZR (dig W m y')) in *. unfold Rdiv in *. nra.
Qed.

(** ** The model's loop *)
Lemma lor_disjoint k j : 0 <= k -> 0 <= j -> Z.lor (k * 2 ^ (j + 1)) (2 ^ j) = k * 2 ^ (j + 1) + 2 ^ j.
Proof.
  intros Hk Hj. symmetry. apply Z.add_nocarry_lxor || idtac.
  rewrite <- Z.lxor_lor.
  - apply Z.add_nocarry_lxor. apply Z.bits_inj'. intros n Hn. rewrite Z.land_spec, Z.bits_0.
    rewrite Z.pow2_bits_eqb by auto. destruct (Z.eqb_spec j n) as [->|]; [|apply andb_false_r].
    rewrite Z.mul_pow2_bits_low by lia. reflexivity.
  - apply Z.bits_inj'. intros n Hn. rewrite Z.land_spec, Z.bits_0.
    rewrite Z.pow2_bits_eqb by auto. destruct (Z.eqb_spec j n) as [->|]; [|apply andb_false_r].
    rewrite Z.mul_pow2_bits_low by lia. reflexivity.
Qed.

Lemma log2_loop_dig m : forall n y k, (m < n)%nat -> 0 <= k ->
  log2_loop n y (k * 2 ^ (16 + Z.of_nat m + 1)) (2 ^ (16 + Z.of_nat m)) =
  k * 2 ^ (16 + Z.of_nat m + 1) + 2 ^ 17 * dig LOG2_ONE m y.
Proof.
  induction m as [|m IH]; intros n y k Hn Hk.
  - destruct n as [|n]; [lia|]. cbn [log2_loop dig]. change (2 ^ (16 + Z.of_nat 0)) with LOG2_ACCURACY.
    rewrite Z.ltb_irrefl. lia.
  - destruct n as [|n]; [lia|]. cbn [log2_loop dig].
    assert (E1 : 16 + Z.of_nat (S m) = 16 + Z.of_nat m + 1) by lia.
    assert (Hacc : LOG2_ACCURACY <? 2 ^ (16 + Z.of_nat (S m)) = true).
    { apply Z.ltb_lt. rewrite E1, Z.pow_add_r, Z.pow_add_r by lia. pose proof (pow2_pos m).
      change (2 ^ 16) with 65536. change (2 ^ 1) with 2. unfold LOG2_ACCURACY. lia. }
    rewrite Hacc.
    assert (Hsh : Z.shiftr (2 ^ (16 + Z.of_nat (S m))) 1 = 2 ^ (16 + Z.of_nat m)).
    { rewrite Z.shiftr_div_pow2 by lia. rewrite E1, Z.pow_add_r by lia. apply Z.div_mul. lia. }
    rewrite Hsh, E1. change LOG2_TWO with (2 * LOG2_ONE).
    destruct (Z.leb_spec (2 * LOG2_ONE) (y * y / LOG2_ONE)).
    + rewrite lor_disjoint by lia.
      replace (k * 2 ^ (16 + Z.of_nat m + 1 + 1) + 2 ^ (16 + Z.of_nat m + 1))
        with ((2 * k + 1) * 2 ^ (16 + Z.of_nat m + 1))
        by (rewrite (Z.pow_add_r 2 (16 + Z.of_nat m + 1) 1) by lia; ring).
      rewrite IH by lia. rewrite Z.shiftr_div_pow2 by lia. change (2 ^ 1) with 2.
      replace (2 ^ (16 + Z.of_nat m + 1 + 1)) with (2 * 2 ^ (16 + Z.of_nat m + 1))
        by (rewrite (Z.pow_add_r 2 (16 + Z.of_nat m + 1) 1) by lia; ring).
      replace (2 ^ (16 + Z.of_nat m + 1)) with (2 ^ 17 * 2 ^ Z.of_nat m)
        by (rewrite <- Z.pow_add_r by lia; f_equal; lia).
      ring.
    + replace (k * 2 ^ (16 + Z.of_nat m + 1 + 1)) with ((2 * k) * 2 ^ (16 + Z.of_nat m + 1))
        by (rewrite (Z.pow_add_r 2 (16 + Z.of_nat m + 1) 1) by lia; ring).
      rewrite IH by lia. reflexivity.
Qed.

Lemma log2_shift x k : 0 <= k -> 2 ^ k <= x -> Z.log2 x = k + Z.log2 (Z.shiftr x k) /\ 1 <= Z.shiftr x k.
Proof.
  intros Hk Hx. pose proof (Z.pow_pos_nonneg 2 k).
  assert (1 <= Z.shiftr x k).
  { rewrite Z.shiftr_div_pow2 by auto. apply div_le_lower; lia. }
  split; auto. rewrite Z.log2_shiftr by lia.
  pose proof (Z.log2_le_mono (2 ^ k) x Hx). rewrite Z.log2_pow2 in H1 by auto. lia.
Qed.

Lemma shiftr_lt x a b : 0 <= a -> 0 <= b -> 0 <= x < 2 ^ (a + b) -> 0 <= Z.shiftr x a < 2 ^ b.
Proof.
  intros. rewrite Z.shiftr_div_pow2 by auto. rewrite Z.pow_add_r in * by auto.
  pose proof (Z.pow_pos_nonneg 2 a). split; [apply div_nonneg; lia|apply div_lt_upper; lia].
Qed.

Lemma log2_floor_x32_eq x : 1 <= x < 2 ^ 64 -> log2_floor_x32 x = Z.log2 x.
Proof.
  intros Hx. unfold log2_floor_x32.
  assert (forall x msb k, 1 <= x < 2 ^ (k + k) -> 0 < k -> msb + Z.log2 x =
    (if 2 ^ k <=? x then msb + k else msb) + Z.log2 (if 2 ^ k <=? x then Z.shiftr x k else x) /\
    1 <= (if 2 ^ k <=? x then Z.shiftr x k else x) < 2 ^ k) as ST.
  { clear. intros x msb k Hx Hk. destruct (Z.leb_spec (2 ^ k) x).
    - destruct (log2_shift x k ltac:(lia) H). pose proof (shiftr_lt x k k). lia.
    - lia. }
  destruct (ST x 0 32 Hx ltac:(lia)) as [E1 R1].
  destruct (2 ^ 32 <=? x); (match goal with |- context [2 ^ 16 <=? ?z] =>
    destruct (ST z 0 16 ltac:(assumption) ltac:(lia)) as [E2 R2]; destruct (2 ^ 16 <=? z) end);
  (match goal with |- context [2 ^ 8 <=? ?z] =>
    destruct (ST z 0 8 ltac:(assumption) ltac:(lia)) as [E3 R3]; destruct (2 ^ 8 <=? z) end);
  (match goal with |- context [2 ^ 4 <=? ?z] =>
    destruct (ST z 0 4 ltac:(assumption) ltac:(lia)) as [E4 R4]; destruct (2 ^ 4 <=? z) end);
  (match goal with |- context [2 ^ 2 <=? ?z] =>
    destruct (ST z 0 2 ltac:(assumption) ltac:(lia)) as [E5 R5]; destruct (2 ^ 2 <=? z) end);
  (match goal with |- context [2 ^ 1 <=? ?z] =>
    destruct (ST z 0 1 ltac:(assumption) ltac:(lia)) as [E6 R6]; destruct (2 ^ 1 <=? z) end);
  match type of R6 with 1 <= ?z < _ => assert (E7 : Z.log2 z = 0) by (replace z with 1 by lia; reflexivity) end;
  cbn [Z.lor Pos.lor]; lia.
Qed.

(** ** Tick prices against powers of sqrt(1.0001) *)
Local Notation ONE := 1000000000000 (only parsing).

(** [lam] is ln (sqrt 1.0001). *)
Definition lam : R := ((lz 10001 - lz 10000) / 2)%R.
Definition SC : Z := 10 ^ 40.

(** [f] is below exp e by a relative 3e-9 at most. *)
Definition near1 (f : Z) (e : R) : Prop :=
  ONE <= f /\ (lz f - lz ONE <= e <= lz f - lz ONE + 3 / 1000000000)%R.

Fixpoint chk (fs : list Z) (dl du : Z) : bool :=
  match fs with
  | [] => true
  | f :: fs' => (ONE <=? f) && (f * SC <=? dl * ONE) && (du * (ONE * 1000000000) <=? f * (1000000003 * SC))
                && chk fs' (dl * dl / SC) (du * du / SC + 1)
  end.

Fixpoint appr (fs : list Z) (e : R) : Prop :=
  match fs with
  | [] => True
  | f :: fs' => near1 f e /\ appr fs' (2 * e)
  end.

Lemma near1_intro f dl du e : 0 < dl -> 0 < du -> ONE <= f -> f * SC <= dl * ONE ->
  du * (ONE * 1000000000) <= f * (1000000003 * SC) ->
  (lz dl - lz SC <= e <= lz du - lz SC)%R -> near1 f e.
Proof.
  intros Hl Hu H0 H1 H2 He. assert (HS : 0 < SC) by reflexivity. split; [auto|].
  pose proof (lz_le (f * SC) (dl * ONE) ltac:(lia) H1) as L1.
  pose proof (lz_le (du * (ONE * 1000000000)) (f * (1000000003 * SC)) ltac:(lia) H2) as L2.
  rewrite !lz_mult in L1 by lia. rewrite (lz_mult du), (lz_mult f), (lz_mult ONE), (lz_mult 1000000003) in L2 by lia.
  assert (L3 : (lz 1000000003 <= lz 1000000000 + 3 / 1000000000)%R).
  { unfold lz. replace 1000000003%R with (1000000000 * (1 + 3 / 1000000000))%R by lra.
    rewrite ln_mult by lra. pose proof (ln_1p (3 / 1000000000)). lra. }
  lra.
Qed.

Lemma chk_appr fs : forall dl du e, chk fs dl du = true -> SC <= dl -> SC <= du ->
  (lz dl - lz SC <= e <= lz du - lz SC)%R -> appr fs e.
Proof.
  induction fs as [|f fs IH]; intros dl du e HC Hl Hu He; cbn [appr]; auto.
  cbn [chk] in HC. rewrite !andb_true_iff in HC. destruct HC as (((H0 & H1) & H2) & H3).
  apply Z.leb_le in H0, H1, H2. assert (HS : 0 < SC) by reflexivity.
  split; [apply (near1_intro f dl du e); auto; lia|].
  assert (Hdl : SC <= dl * dl / SC) by (apply div_le_lower; nia).
  assert (Hdu : SC <= du * du / SC) by (apply div_le_lower; nia).
  refine (IH _ _ _ H3 Hdl _ _); [lia|].
  pose proof (lz_div (dl * dl) SC SC HS HS Hdl) as L1. rewrite lz_mult in L1 by lia.
  pose proof (div_bounds (du * du) SC HS) as HB.
  pose proof (lz_le (du * du) (SC * (du * du / SC + 1)) ltac:(nia) ltac:(lia)) as L2.
  rewrite !lz_mult in L2 by lia. lra.
Qed.

Lemma appr_factors : appr price_factors lam.
Proof.
  unfold price_factors. cbn [appr]. split.
  - set (a := 10000499987500624960940234169937986972154). set (b := 10000499987500624960940234169937986972155).
    apply (near1_intro _ a b); [reflexivity|reflexivity|vm_compute; discriminate|vm_compute; discriminate|vm_compute; discriminate|].
    pose proof (lz_le (a * a * 10000) (SC * SC * 10001) ltac:(reflexivity) ltac:(vm_compute; discriminate)) as L1.
    pose proof (lz_le (SC * SC * 10001) (b * b * 10000) ltac:(reflexivity) ltac:(vm_compute; discriminate)) as L2.
    rewrite !lz_mult in L1, L2 by reflexivity. unfold lam. lra.
  - match goal with |- near1 ?f ?e /\ ?A => change (appr (tl price_factors) e) end.
    refine (chk_appr (tl price_factors) (10001 * 10 ^ 36) (10001 * 10 ^ 36) _ _ _ _ _).
    + vm_compute. reflexivity.
    + vm_compute. discriminate.
    + vm_compute. discriminate.
    + assert (E : lz SC = (lz 10000 + lz (10 ^ 36))%R) by (rewrite <- lz_mult by reflexivity; f_equal).
      rewrite lz_mult by reflexivity. rewrite E. unfold lam. lra.
Qed.

Lemma prod_lz fs : forall F t acc e, good F fs = true -> ONE <= acc <= F -> appr fs e ->
  0 <= t < 2 ^ Z.of_nat (length fs) ->
  (lz (prod fs t acc) <= lz acc + IZR t * e <= lz (prod fs t acc) + INR (length fs) * (4 / 1000000000))%R.
Proof.
  induction fs as [|f fs IH]; intros F t acc e HG Hacc HA Ht; cbn [prod].
  - cbn in Ht. replace t with 0 by lia. cbn [length INR]. lra.
  - cbn [good] in HG. rewrite !andb_true_iff in HG. destruct HG as (((H1 & H2) & H3) & H4).
    apply Z.leb_le in H1. destruct HA as ((A0 & A1) & A2).
    assert (Hlen : 2 ^ Z.of_nat (length (f :: fs)) = 2 * 2 ^ Z.of_nat (length fs)).
    { cbn [length]. rewrite Nat2Z.inj_succ, Z.pow_succ_r by lia. auto. }
    assert (INR (length (f :: fs)) = INR (length fs) + 1)%R as HI by (cbn [length]; apply S_INR). rewrite HI.
    pose proof (Z.div2_odd t) as D.
    assert (Ht' : 0 <= Z.div2 t < 2 ^ Z.of_nat (length fs)) by (destruct (Z.odd t); cbn [Z.b2z] in D; lia).
    pose proof (step_ge acc f ltac:(lia) ltac:(lia)) as S1. pose proof (step_ge F f ltac:(lia) ltac:(lia)) as S2.
    pose proof (step_mono acc F f ltac:(lia) ltac:(lia)) as S3.
    assert (DR : IZR t = (2 * IZR (Z.div2 t) + IZR (Z.b2z (Z.odd t)))%R)
      by (rewrite <- mult_IZR, <- plus_IZR; f_equal; auto).
    destruct (Z.odd t); cbn [Z.b2z] in D, DR; rewrite DR.
    + pose proof (IH (F * f / ONE) (Z.div2 t) (acc * f / ONE) (2 * e)%R H4 ltac:(lia) A2 Ht') as L.
      pose proof (lz_div (acc * f) ONE ONE ltac:(lia) ltac:(lia) ltac:(lia)) as LD.
      rewrite lz_mult in LD by lia. lra.
    + pose proof (IH (F * f / ONE) (Z.div2 t) acc (2 * e)%R H4 ltac:(lia) A2 Ht') as L.
      lra.
Qed.

Lemma mag_lz a : 0 <= a < 262144 ->
  (lz (mag a) <= lz ONE + IZR a * lam <= lz (mag a) + 72 / 1000000000)%R.
Proof.
  intros Ha. unfold mag.
  pose proof (prod_lz price_factors ONE a ONE lam good_factors ltac:(lia) appr_factors Ha) as H.
  assert (INR (length price_factors) = 18)%R as E by (cbn [length price_factors]; rewrite INR_IZR_INZ; reflexivity).
  rewrite E in H. set (m := prod price_factors a ONE) in *. clearbody m. lra.
Qed.

(** 2^32 * lam / ln 2 lies between 309800.9 and 309801. *)
Lemma lam_bounds : (IZR (2 ^ 32) * lam <= 309801 * lz 2 /\ 3098009 / 10 * lz 2 <= IZR (2 ^ 32) * lam)%R.
Proof.
  pose proof (dig_spec SC 48 (10001 * 10 ^ 36) ltac:(reflexivity) ltac:(split; [vm_compute; discriminate|reflexivity])) as [_ [H1 H2]].
  replace (dig SC 48 (10001 * 10 ^ 36)) with 40606225026 in H1, H2 by (vm_compute; reflexivity).
  change (2 ^ Z.of_nat 48) with (2 ^ 48) in *.
  assert (E : lz SC = (lz 10000 + lz (10 ^ 36))%R) by (rewrite <- lz_mult by reflexivity; f_equal).
  rewrite lz_mult in H1, H2 by reflexivity. rewrite E in H1, H2.
  assert (Hl : (lz 10001 + lz (10 ^ 36) - (lz 10000 + lz (10 ^ 36)) = 2 * lam)%R) by (unfold lam; lra).
  rewrite Hl in H1, H2.
  assert (L2 : (1 / 2 <= lz 2)%R).
  { unfold lz. pose proof ln_lt_2. lra. }
  assert (HS : (0 <= 2 / IZR SC <= / 1000000000000000000000)%R).
  { assert (0 < IZR SC)%R by (apply IZR_lt; reflexivity).
    assert (/ IZR SC <= / (2 * 1000000000000000000000))%R.
    { apply Rinv_le_contravar; [lra|]. rewrite <- mult_IZR. apply IZR_le. vm_compute. discriminate. }
    pose proof (Rinv_0_lt_compat _ H). unfold Rdiv. lra. }
  change (2 ^ 48) with 281474976710656 in *. change (2 ^ 32) with 4294967296.
  set (u := (2 / IZR SC)%R) in *. clearbody u. set (l2 := lz 2) in *. clearbody l2. generalize dependent lam. intros l H1 H2 _. lra.
Qed.

(** ** The approximation as a whole *)
Lemma log2_loop_15 y f : 0 <= f ->
  log2_loop 32 y (f * 2 ^ 32) LOG2_HALF = (f * 32768 + dig LOG2_ONE 15 y) * 2 ^ 17.
Proof.
  intros Hf. pose proof (log2_loop_dig 15 32 y f ltac:(lia) Hf) as HE.
  assert (E1 : 16 + Z.of_nat 15 + 1 = 32) by reflexivity. assert (E2 : 16 + Z.of_nat 15 = 31) by reflexivity.
  assert (E3 : LOG2_HALF = 2 ^ 31) by reflexivity. assert (E4 : 2 ^ 32 = 32768 * 2 ^ 17) by reflexivity.
  rewrite E1, E2 in HE. rewrite E3, HE, E4. generalize (dig LOG2_ONE 15 y). clear. intros r. ring.
Qed.

Lemma log2_x32_lz X : 2 ^ 32 <= X < 2 ^ 60 ->
  exists N, 0 <= N /\ log2_iterative_approximation_x32 X = (true, N * 2 ^ 17) /\
  (IZR N * lz 2 <= IZR (2 ^ 15) * (lz X - lz (2 ^ 32)) <= (IZR N + 1) * lz 2 + / 10000)%R.
Proof.
  intros HX. unfold log2_iterative_approximation_x32.
  assert (EW : LOG2_ONE = 2 ^ 32) by reflexivity. rewrite EW.
  destruct (Z.ltb_spec X (2 ^ 32)); [lia|]. cbn [negb].
  assert (Hs : 1 <= Z.shiftr X 32 < 2 ^ 28).
  { rewrite Z.shiftr_div_pow2 by lia. split; [apply div_le_lower; lia|apply div_lt_upper; lia]. }
  rewrite log2_floor_x32_eq by lia.
  pose proof (Z.log2_spec (Z.shiftr X 32) ltac:(lia)) as HL. pose proof (Z.log2_nonneg (Z.shiftr X 32)) as Hf0.
  assert (Hf : Z.log2 (Z.shiftr X 32) < 28) by (apply Z.log2_lt_pow2; lia).
  set (f := Z.log2 (Z.shiftr X 32)) in *. clearbody f.
  rewrite Z.shiftr_div_pow2 in HL by lia. rewrite Z.shiftl_mul_pow2 by lia.
  rewrite (Z.shiftr_div_pow2 X f) by lia.
  pose proof (Z.pow_pos_nonneg 2 f ltac:(lia) Hf0) as Hp.
  rewrite Z.pow_succ_r in HL by lia. pose proof (div_bounds X (2 ^ 32) eq_refl) as HB.
  assert (Hy : 2 ^ 32 <= X / 2 ^ f < 2 * 2 ^ 32).
  { split; [apply div_le_lower; nia|apply div_lt_upper; nia]. }
  set (y := X / 2 ^ f) in *.
  pose proof (lz_div X (2 ^ f) (2 ^ 32) Hp eq_refl (proj1 Hy)) as HD. fold y in HD.
  assert (Elz : forall n : nat, lz (2 ^ Z.of_nat n) = (INR n * lz 2)%R).
  { induction n as [|n IHn]; [cbn; rewrite lz_1; lra|].
    rewrite Nat2Z.inj_succ, Z.pow_succ_r, lz_mult, IHn, S_INR by (try apply pow2_pos; lia). lra. }
  specialize (Elz (Z.to_nat f)). rewrite Z2Nat.id, INR_IZR_INZ, Z2Nat.id in Elz by lia. rewrite Elz in HD.
  assert (HI : (/ IZR (2 ^ 32) <= / 1000000000)%R).
  { apply Rinv_le_contravar; [lra|]. apply IZR_le. vm_compute. discriminate. }
  assert (L2 : (1 / 2 <= lz 2)%R) by (unfold lz; pose proof ln_lt_2; lra).
  change (2 ^ 15) with 32768.
  destruct (Z.eqb_spec y (2 ^ 32)) as [Ey|Ey].
  - exists (f * 32768). split; [lia|]. split; [f_equal; change (2 ^ 32) with (32768 * 2 ^ 17); ring|].
    rewrite mult_IZR. rewrite Ey in HD. split; [lra|]. lra.
  - pose proof (dig_spec (2 ^ 32) 15 y eq_refl Hy) as [HR HS].
    rewrite log2_loop_15, EW by auto. set (r := dig (2 ^ 32) 15 y) in *. clearbody r.
    exists (f * 32768 + r). split; [lia|]. split; [reflexivity|].
    change (2 ^ Z.of_nat 15) with 32768 in HS. rewrite plus_IZR, mult_IZR. unfold Rdiv in HS.
    set (w := (/ IZR (2 ^ 32))%R) in *. lra.
Qed.

