(** Tick prices: totality, bounds, strict monotonicity (C01). *)
From Verif Require Import Base Decimal SqrtPriceM Arith SpecMath P_Clamm.
From Coq Require Import ZArith Lia Bool List.
Import ListNotations.
Open Scope Z_scope.

Local Notation ONE := 1000000000000 (only parsing).

(** The product without overflow checks. *)
Fixpoint prod (fs : list Z) (t acc : Z) : Z :=
  match fs with
  | [] => acc
  | f :: fs' => prod fs' (Z.div2 t) (if Z.odd t then acc * f / ONE else acc)
  end.

(** The largest value reachable before each factor. *)
Fixpoint full (fs : list Z) (acc : Z) : Z :=
  match fs with [] => acc | f :: fs' => full fs' (acc * f / ONE) end.

Definition gap (a b : Z) : Prop := a * 1000045 + 20001000000 <= b * 1000000.
Definition gapb (a b : Z) : bool := a * 1000045 + 20001000000 <=? b * 1000000.

Fixpoint good (F : Z) (fs : list Z) : bool :=
  match fs with
  | [] => true
  | f :: fs' => (1000049998750 <=? f) && (F * f <? M128) && gapb F f && good (F * f / ONE) fs'
  end.

Lemma good_factors : good ONE price_factors = true.
Proof. vm_compute. reflexivity. Qed.

Lemma step_mono a b f : 0 <= f -> a <= b -> a * f / ONE <= b * f / ONE.
Proof. intros. apply Z.div_le_mono; [lia|nia]. Qed.

Lemma step_ge a f : ONE <= f -> 0 <= a -> a <= a * f / ONE.
Proof. intros. apply div_le_lower; [lia|nia]. Qed.

Lemma mul_factors_prod fs : forall F t acc, good F fs = true -> ONE <= acc <= F ->
  mul_factors fs t acc = Ok (prod fs t acc) /\ ONE <= prod fs t acc <= full fs F.
Proof.
  induction fs as [|f fs IH]; intros F t acc HG Hacc; cbn [mul_factors prod full]; [auto|].
  cbn [good] in HG. rewrite !andb_true_iff in HG. destruct HG as (((H1 & H2) & H3) & H4).
  apply Z.leb_le in H1. apply Z.ltb_lt in H2.
  destruct (Z.odd t).
  - unfold dec_mul. rewrite checked_mul_ok by nia. cbn [bind expect].
    rewrite checked_div_ok by (unfold FIXED_POINT_ONE; lia). cbn [bind expect].
    change FIXED_POINT_ONE with ONE. apply IH; auto.
    pose proof (step_ge acc f ltac:(lia) ltac:(lia)). pose proof (step_mono acc F f ltac:(lia) ltac:(lia)). lia.
  - cbn [bind]. apply IH; auto. pose proof (step_ge F f ltac:(lia) ltac:(lia)). lia.
Qed.

Lemma gap_step a b f : 1000049998750 <= f -> 0 <= a -> gap a b -> gap (a * f / ONE) (b * f / ONE).
Proof.
  unfold gap. intros Hf Ha H.
  pose proof (div_bounds (a * f) ONE eq_refl). pose proof (div_bounds (b * f) ONE eq_refl).
  assert ((a * 1000045 + 20001000000) * f <= b * 1000000 * f) by nia. lia.
Qed.

Lemma prod_gap fs : forall F t1 t2 a1 a2, good F fs = true ->
  ONE <= a1 <= F -> ONE <= a2 <= F -> 0 <= t1 -> 0 <= t2 < 2 ^ Z.of_nat (length fs) ->
  (t1 < t2 \/ (t1 = t2 /\ gap a1 a2)) -> gap (prod fs t1 a1) (prod fs t2 a2).
Proof.
  induction fs as [|f fs IH]; intros F t1 t2 a1 a2 HG H1 H2 Ht1 Ht2 HH; cbn [prod].
  - cbn in Ht2. destruct HH as [|[_ ?]]; [lia|auto].
  - cbn [good] in HG. rewrite !andb_true_iff in HG. destruct HG as (((Hf & Hm) & Hg) & HG').
    apply Z.leb_le in Hf. apply Z.ltb_lt in Hm. apply Z.leb_le in Hg.
    assert (Hlen : 2 ^ Z.of_nat (length (f :: fs)) = 2 * 2 ^ Z.of_nat (length fs)).
    { cbn [length]. rewrite Nat2Z.inj_succ, Z.pow_succ_r by lia. auto. }
    pose proof (Z.div2_odd t1) as D1. pose proof (Z.div2_odd t2) as D2.
    pose proof (step_ge a1 f ltac:(lia) ltac:(lia)). pose proof (step_ge a2 f ltac:(lia) ltac:(lia)).
    pose proof (step_ge F f ltac:(lia) ltac:(lia)).
    pose proof (step_mono a1 F f ltac:(lia) ltac:(lia)). pose proof (step_mono a2 F f ltac:(lia) ltac:(lia)).
    apply (IH (F * f / ONE)); auto.
    + destruct (Z.odd t1); lia.
    + destruct (Z.odd t2); lia.
    + destruct (Z.odd t1); cbn [Z.b2z] in *; lia.
    + destruct (Z.odd t2); cbn [Z.b2z] in *; lia.
    + destruct HH as [Hlt|[-> Hgap]].
      * destruct (Z.lt_trichotomy (Z.div2 t1) (Z.div2 t2)) as [|[E|]]; [auto| |destruct (Z.odd t1), (Z.odd t2); cbn [Z.b2z] in *; lia].
        right. split; auto. destruct (Z.odd t1), (Z.odd t2); cbn [Z.b2z] in *; try lia.
        unfold gap in *. pose proof (step_mono ONE a2 f ltac:(lia) ltac:(lia)) as HS.
        rewrite (Z.mul_comm ONE f), Z.div_mul in HS by lia. lia.
      * right. split; auto. destruct (Z.odd t2); auto. apply gap_step; auto; lia.
Qed.

(** The magnitude of a tick, in FixedPoint units. *)
Definition mag (a : Z) : Z := prod price_factors a ONE.

Lemma mul_factors_mag t : mul_factors price_factors t FIXED_POINT_ONE = Ok (mag t) /\ ONE <= mag t <= full price_factors ONE.
Proof. unfold mag. apply mul_factors_prod; [apply good_factors|lia]. Qed.

Lemma mag_gap a b : 0 <= a < b -> b < 262144 -> gap (mag a) (mag b).
Proof.
  intros Hab Hb. unfold mag.
  refine (prod_gap price_factors ONE a b ONE ONE good_factors _ _ _ _ _); try lia.
  change (2 ^ Z.of_nat (length price_factors)) with 262144. lia.
Qed.

Lemma mag_lt a b : 0 <= a < b -> b < 262144 -> mag a < mag b.
Proof.
  intros. pose proof (mag_gap a b ltac:(auto) ltac:(auto)). pose proof (mul_factors_mag a). pose proof (mul_factors_mag b).
  unfold gap in *. lia.
Qed.

Lemma mag_0 : mag 0 = ONE. Proof. reflexivity. Qed.
Lemma mag_max : mag 221818 = 65535383934512647. Proof. vm_compute. reflexivity. Qed.

Lemma mag_bounds a : 0 <= a <= 221818 -> ONE <= mag a <= 65535383934512647.
Proof.
  intros. pose proof (mul_factors_mag a). split; [lia|].
  destruct (Z.eq_dec a 221818) as [->|]; [rewrite mag_max; lia|].
  rewrite <- mag_max. apply Z.lt_le_incl, mag_lt; lia.
Qed.

(** Price of a tick as a total function (equal to the code's result on valid ticks). *)
Definition price (t : Z) : Z :=
  if 0 <=? t then mag t * ONE else (ONE * ONE / mag (- t)) * ONE.

Definition valid_tick (t : Z) : Prop := -221818 <= t <= 221818.

Lemma calculate_sqrt_price_valid t : valid_tick t -> calculate_sqrt_price t = Ok (price t).
Proof.
  unfold valid_tick. intros Ht. unfold calculate_sqrt_price, i32_abs, i32_min.
  destruct (Z.eqb_spec t (-2147483648)); [lia|].
  unfold MAX_TICK. destruct (Z.ltb_spec 221818 (Z.abs t)); [lia|].
  destruct (mul_factors_mag (Z.abs t)) as [-> _]. cbn [bind].
  pose proof (mag_bounds (Z.abs t) ltac:(lia)) as HB. unfold price.
  destruct (Z.leb_spec 0 t).
  - rewrite Z.abs_eq in * by lia. rewrite checked_mul_ok by (unfold M128; lia). reflexivity.
  - rewrite Z.abs_neq in * by lia. unfold dec_checked_div.
    rewrite checked_mul_ok by (unfold M128, FIXED_POINT_ONE; lia). cbn [bind ok_or].
    rewrite checked_div_ok by lia. cbn [bind ok_or]. change FIXED_POINT_ONE with ONE.
    assert (ONE * ONE / mag (- t) <= ONE) by (apply div_le_upper; lia).
    rewrite checked_mul_ok by (unfold M128; lia). reflexivity.
Qed.

Lemma calculate_sqrt_price_invalid t : is_i32 t -> ~ valid_tick t -> t <> i32_min ->
  calculate_sqrt_price t = Err ETrack.
Proof.
  unfold valid_tick, is_i32. intros. unfold calculate_sqrt_price, i32_abs.
  destruct (Z.eqb_spec t i32_min); [lia|].
  unfold MAX_TICK. destruct (Z.ltb_spec 221818 (Z.abs t)); [auto|lia].
Qed.

Lemma calculate_sqrt_price_Ok t p : calculate_sqrt_price t = Ok p -> t <> i32_min -> valid_tick t /\ p = price t.
Proof.
  intros H Hn.
  assert (HV : valid_tick t).
  { unfold calculate_sqrt_price, i32_abs in H.
    destruct (Z.eqb_spec t i32_min); [lia|].
    destruct (Z.ltb_spec MAX_TICK (Z.abs t)); [discriminate|]. unfold MAX_TICK, valid_tick in *. lia. }
  split; auto. rewrite calculate_sqrt_price_valid in H by auto. congruence.
Qed.

Lemma inv_lt m1 m2 : ONE <= m1 -> m2 <= 65535383934512647 -> gap m1 m2 -> ONE * ONE / m2 < ONE * ONE / m1.
Proof.
  unfold gap. intros H1 H2 HG.
  pose proof (div_bounds (ONE * ONE) m2 ltac:(lia)). pose proof (div_bounds (ONE * ONE) m1 ltac:(lia)).
  set (q2 := ONE * ONE / m2) in *. set (q1 := ONE * ONE / m1) in *. clearbody q1 q2.
  assert (Hq : 15000000 <= q2).
  { destruct (Z.le_gt_cases 15000000 q2); auto. exfalso.
    assert (m2 * (q2 + 1) <= 65535383934512647 * 15000000) by (apply Z.le_trans with (m2 * 15000000); [apply Z.mul_le_mono_nonneg_l|]; lia).
    lia. }
  assert (Hp : (m1 * 1000045 + 20001000000) * q2 <= m2 * 1000000 * q2) by (apply Z.mul_le_mono_nonneg_r; lia).
  assert (Hm : m1 * 15000000 <= m1 * q2) by (apply Z.mul_le_mono_nonneg_l; lia).
  assert (Hf : m1 * (q2 + 1) <= m2 * q2) by lia.
  destruct (Z.lt_ge_cases q2 q1) as [|Hge]; auto. exfalso.
  assert (m1 * q1 <= m1 * q2) by (apply Z.mul_le_mono_nonneg_l; lia). lia.
Qed.

Lemma price_lt a b : valid_tick a -> valid_tick b -> a < b -> price a < price b.
Proof.
  unfold valid_tick. intros Ha Hb Hab. unfold price.
  destruct (Z.leb_spec 0 a); destruct (Z.leb_spec 0 b); try lia.
  - pose proof (mag_lt a b ltac:(lia) ltac:(lia)). lia.
  - pose proof (mag_gap 0 (- a) ltac:(lia) ltac:(lia)) as HG. rewrite mag_0 in HG.
    pose proof (mag_bounds (- a) ltac:(lia)). pose proof (mag_bounds b ltac:(lia)).
    assert (ONE * ONE / mag (- a) < ONE); [|lia].
    apply div_lt_upper; [lia|]. unfold gap in HG. lia.
  - pose proof (mag_gap (- b) (- a) ltac:(lia) ltac:(lia)) as HG.
    pose proof (mag_bounds (- a) ltac:(lia)). pose proof (mag_bounds (- b) ltac:(lia)).
    pose proof (inv_lt (mag (- b)) (mag (- a)) ltac:(lia) ltac:(lia) HG). lia.
Qed.

Lemma price_min : price (-221818) = 15258932000000000000. Proof. vm_compute. reflexivity. Qed.
Lemma price_max : price 221818 = 65535383934512647000000000000. Proof. vm_compute. reflexivity. Qed.

Lemma price_le a b : valid_tick a -> valid_tick b -> a <= b -> price a <= price b.
Proof.
  intros. destruct (Z.eq_dec a b) as [->|]; [lia|]. apply Z.lt_le_incl, price_lt; auto; lia.
Qed.

Lemma price_lt_iff a b : valid_tick a -> valid_tick b -> price a < price b <-> a < b.
Proof.
  intros Ha Hb. split; intros H; [|apply price_lt; auto].
  destruct (Z.lt_ge_cases a b) as [|Hge]; auto. pose proof (price_le b a Hb Ha Hge). lia.
Qed.
Lemma price_le_iff a b : valid_tick a -> valid_tick b -> price a <= price b <-> a <= b.
Proof.
  intros Ha Hb. pose proof (price_lt_iff b a Hb Ha). lia.
Qed.
Lemma price_inj a b : valid_tick a -> valid_tick b -> price a = price b -> a = b.
Proof.
  intros Ha Hb H. pose proof (price_lt_iff b a Hb Ha). pose proof (price_lt_iff a b Ha Hb). lia.
Qed.

Lemma price_range t : valid_tick t -> price_in_range (price t).
Proof.
  intros Ht. unfold price_in_range. rewrite <- price_min, <- price_max. unfold valid_tick in *.
  split; apply price_le; unfold valid_tick; lia.
Qed.
