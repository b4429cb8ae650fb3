(** Consequences of the closed form of compute_swap_step (C06 - C09). *)
From Verif Require Import Base Decimal SqrtPriceM ClammM Arith SpecMath P_Clamm P_Delta P_Next P_Step.
From Coq Require Import ZArith Lia Bool.
Open Scope Z_scope.

(** Cost of the price move bought by x: at most x plus its rounding. *)
Lemma nx_in_cost p L x : wide p -> u256 L -> 0 < L -> 0 < x -> wide (nx_in p L x) ->
  nx_in p L x <= p ->
  Xup L (nx_in p L x) p <= x + cdiv x (dx_den (nx_in p L x) p).
Proof.
  intros Hp HL HL0 Hx Hn Hnp.
  pose proof (nx_nom_bounds p L Hp HL) as HN.
  assert (Hden : 0 < L * E19 + p * x) by (unfold wide, E19 in *; nia).
  pose proof (cdiv_bounds (nx_nom p L) (L * E19 + p * x) Hden) as H1.
  fold (nx_in p L x) in H1. set (n := nx_in p L x) in *. clearbody n.
  assert (H2 : p * L * E19 <= n * (L * E19 + p * x)) by lia. clear H1 HN.
  assert (H3 : (p - n) * (L * E19 + p * x) <= p * p * x) by lia.
  assert (H4 : (p - n) * (L * E19) <= x * (n * p)).
  { assert (H5 : L * E19 * ((p - n) * (L * E19 + p * x)) <= L * E19 * (p * p * x)).
    { apply Z.mul_le_mono_nonneg_l; [unfold E19; lia|auto]. }
    assert (H6 : p * x * (p * L * E19) <= p * x * (n * (L * E19 + p * x))).
    { apply Z.mul_le_mono_nonneg_l; [unfold wide in *; nia|auto]. }
    apply Z.mul_le_mono_pos_r with (L * E19 + p * x); [auto|]. lia. }
  pose proof (dx_den_pos n p Hn Hp) as HD.
  unfold Xup. apply cdiv_le; [lia|].
  pose proof (cdiv_bounds x (dx_den n p) ltac:(lia)) as H5. set (c := cdiv x _) in *. clearbody c.
  assert (H6 : dx_nom n p L <= x * (dx_den n p + 1)); [|lia].
  assert (HB : SQRT_PRICE_ONE * dx_den n p <= n * p < SQRT_PRICE_ONE * dx_den n p + SQRT_PRICE_ONE)
    by (unfold dx_den; apply div_bounds; reflexivity).
  unfold dx_nom. replace (Z.abs (n - p)) with (p - n) by lia.
  pose proof (div_bounds ((p - n) * L) LIQUIDITY_ONE eq_refl) as H7.
  set (q := _ / LIQUIDITY_ONE) in *. set (d := dx_den n p) in *. clearbody q d.
  assert (H8 : x * (n * p) <= x * (SQRT_PRICE_ONE * (d + 1))) by (apply Z.mul_le_mono_nonneg_l; lia).
  unfold SQRT_PRICE_ONE, LIQUIDITY_ONE, E19 in *. lia.
Qed.

Lemma Xup_self L p : wide p -> Xup L p p = 0.
Proof.
  intros. unfold Xup. pose proof (dx_den_pos p p H H).
  unfold dx_nom. rewrite Z.sub_diag. cbn. unfold cdiv. apply Z.div_small. lia.
Qed.

(** Cost of the y move. *)
Lemma ny_in_cost p L y : u256 L -> 0 < L -> 0 <= y -> Yup L p (ny_in p L y) <= y.
Proof.
  intros HL HL0 Hy. unfold ny_in.
  pose proof (div_bounds (y * E29) L HL0). pose proof (div_nonneg (y * E29) L HL0 ltac:(unfold E29; lia)).
  rewrite Yup_le by lia. apply cdiv_le; [reflexivity|]. lia.
Qed.

Section Step.
  Context (p t L amount : Z) (bi : bool) (fee : Z).
  Context (Hp : price_in_range p) (Ht : price_in_range t) (HL : u256 L)
          (Ha : u256 amount) (Hf : 0 <= fee <= E12).

  Local Notation n := (step_next p t L amount bi fee).

  (** Input cost of an exact-in step that stops short. *)
  Lemma step_cost : 0 < L -> bi = true -> n <> t ->
    step_in p t L n <= after_fee amount fee + (if t <=? p then cdiv (after_fee amount fee) 100000000000000 else 0).
  Proof.
    intros HL0 Hbi Hnt.
    pose proof (range_wide p Hp) as Hpw. pose proof (range_wide t Ht) as Htw.
    destruct (step_next_wide p t L amount bi fee Hp Ht HL HL0 Ha Hf) as (Hnw & Hn1 & Hn2 & _).
    destruct (after_fee_eq amount fee Ha Hf) as (_ & HA & _).
    assert (HAu : u256 (after_fee amount fee)) by (apply u256_M in Ha; apply u256_I; lia).
    rewrite Hbi in *. unfold step_in, step_next in *. destruct (Z.leb_spec t p).
    - destruct (Z.leb_spec (Xup L t p) (after_fee amount fee)); [lia|].
      destruct (Z.eqb_spec (after_fee amount fee) 0) as [->|]; [rewrite Xup_self by auto; reflexivity|].
      eapply Z.le_trans; [apply nx_in_cost; auto; lia|].
      apply Z.add_le_mono_l. pose proof (dx_den_pos _ _ Hnw Hpw).
      apply cdiv_le; [lia|]. pose proof (cdiv_bounds (after_fee amount fee) 100000000000000 eq_refl).
      pose proof (cdiv_nonneg (after_fee amount fee) 100000000000000 eq_refl ltac:(lia)). nia.
    - destruct (Z.leb_spec (Yup L p t) (after_fee amount fee)); [lia|].
      pose proof (ny_in_cost p L (after_fee amount fee) HL HL0). lia.
  Qed.

  (** With a non-zero fee the step always succeeds. *)
  Lemma step_total : 0 < fee \/ bi = false \/ p < t ->
    exists r, compute_swap_step p t L amount bi fee = Ok r.
  Proof.
    intros Hfee. destruct (Z.eq_dec L 0) as [->|HL0].
    { unfold compute_swap_step. cbn. eauto. }
    assert (0 < L) by (apply u256_M in HL; lia).
    rewrite compute_swap_step_eq by auto. cbv zeta.
    destruct (bi && negb (n =? t)) eqn:E; [|eauto]. apply andb_prop in E as [Eb En].
    apply negb_true_iff, Z.eqb_neq in En.
    destruct (after_fee_eq amount fee Ha Hf) as (_ & HA & HF).
    assert (step_in p t L n <= amount).
    { eapply Z.le_trans; [apply step_cost; auto|].
      destruct (Z.leb_spec t p); [|lia].
      assert (1 <= fee) by (destruct Hfee as [|[|]]; [lia|congruence|lia]).
      assert (cdiv (after_fee amount fee) 100000000000000 <= fee_up amount fee); [|lia].
      apply cdiv_le; [reflexivity|]. unfold fee_up.
      pose proof (cdiv_bounds (amount * fee) E12 eq_refl). unfold E12 in *. nia. }
    destruct (Z.leb_spec (step_in p t L n) amount); [eauto|lia].
  Qed.

  Context (r : swap_result) (Hr : compute_swap_step p t L amount bi fee = Ok r).

  (** The result, field by field (also covers L = 0). *)
  Lemma step_fields :
    (L = 0 /\ sr_next_sqrt_price r = t /\ sr_amount_in r = 0 /\ sr_amount_out r = 0 /\ sr_fee_amount r = 0) \/
    (0 < L /\ sr_next_sqrt_price r = n /\ sr_amount_in r = step_in p t L n /\
     sr_amount_out r = (if bi then step_out p t L n else Z.min amount (step_out p t L n)) /\
     sr_fee_amount r = (if bi && negb (n =? t) then amount - step_in p t L n else fee_up (step_in p t L n) fee) /\
     (bi = true -> n <> t -> step_in p t L n <= amount)).
  Proof.
    destruct (Z.eq_dec L 0) as [->|HL0].
    { left. unfold compute_swap_step in Hr. cbn in Hr. inv_res. cbn. auto. }
    right. assert (H0 : 0 < L) by (apply u256_M in HL; lia). split; auto.
    rewrite compute_swap_step_eq in Hr by auto. cbv zeta in Hr.
    destruct (bi && negb (n =? t)) eqn:E.
    - destruct (Z.leb_spec (step_in p t L n) amount); [|discriminate].
      inv_res. cbn. repeat split; auto.
    - inv_res. cbn. repeat split; auto. intros Hb H. rewrite Hb in E at 1. destruct (Z.eqb_spec n t); cbn in E; congruence.
  Qed.

  (** C06 *)
  Lemma step_price_y_to_x : p < t -> p <= sr_next_sqrt_price r <= t.
  Proof.
    intros. destruct step_fields as [(? & -> & _)|(HL0 & -> & _)]; [lia|].
    apply (step_next_wide p t L amount bi fee); auto.
  Qed.
  Lemma step_price_x_to_y : t <= p -> sr_next_sqrt_price r <= p.
  Proof.
    intros. destruct step_fields as [(? & -> & _)|(HL0 & -> & _)]; [lia|].
    apply (step_next_wide p t L amount bi fee); auto.
  Qed.
  Lemma step_price_exact_out : t <= p -> bi = false -> t <= sr_next_sqrt_price r.
  Proof.
    intros. destruct step_fields as [(? & -> & _)|(HL0 & -> & _)]; [lia|].
    apply (step_next_wide p t L amount bi fee); auto.
  Qed.
  Lemma step_price_overshoot : t <= p -> (t - sr_next_sqrt_price r) * p < 10 ^ 24.
  Proof.
    intros Htp. destruct step_fields as [(? & -> & _)|(HL0 & -> & _)]; [lia|].
    destruct (Bool.bool_dec bi false) as [Eb|Eb].
    { pose proof (step_next_wide p t L amount bi fee Hp Ht HL HL0 Ha Hf) as (_ & _ & _ & H).
      specialize (H Htp Eb). unfold price_in_range in *. nia. }
    apply not_false_is_true in Eb. rewrite Eb. unfold step_next. destruct (Z.leb_spec t p); [|lia].
    destruct (Z.leb_spec (Xup L t p) (after_fee amount fee)); [lia|].
    destruct (after_fee_eq amount fee Ha Hf) as (_ & HA & HF).
    assert (HAu : u256 (after_fee amount fee)) by (apply u256_M in Ha; apply u256_I; lia).
    destruct (Z.eqb_spec (after_fee amount fee) 0); [unfold price_in_range in *; nia|].
    pose proof (nx_in_gap p t L (after_fee amount fee) (range_wide p Hp) (range_wide t Ht) Htp HL HL0 HAu ltac:(lia) ltac:(lia)) as HG.
    set (x := after_fee amount fee) in *. set (k := t - nx_in p L x) in *. clearbody x k.
    change (10 ^ 24) with E24.
    destruct (Z.le_gt_cases k 0); [unfold E24, price_in_range in *; nia|].
    assert (k * (p * x) <= k * (L * E19 + p * x)) by (apply Z.mul_le_mono_nonneg_l; unfold E19; lia).
    apply Z.mul_lt_mono_pos_r with x; lia.
  Qed.
  Lemma step_price_not_past : t <= p -> 10 ^ 24 * (p - t + 1) <= p * p -> t <= sr_next_sqrt_price r.
  Proof.
    intros Htp Hc. destruct (Bool.bool_dec bi false) as [Eb|Eb]; [apply step_price_exact_out; auto|].
    apply not_false_is_true in Eb.
    destruct step_fields as [(? & -> & _)|(HL0 & -> & _)]; [lia|].
    rewrite Eb. unfold step_next. destruct (Z.leb_spec t p); [|lia].
    destruct (Z.leb_spec (Xup L t p) (after_fee amount fee)); [lia|].
    destruct (after_fee_eq amount fee Ha Hf) as (_ & HA & HF).
    assert (HAu : u256 (after_fee amount fee)) by (apply u256_M in Ha; apply u256_I; lia).
    destruct (Z.eqb_spec (after_fee amount fee) 0); [lia|].
    apply nx_in_ge_target; auto using range_wide; lia.
  Qed.

  (** C07 *)
  Lemma step_exact_out_amount : bi = false -> 0 <= sr_amount_out r <= amount.
  Proof.
    intros Hb. destruct step_fields as [(? & _ & _ & -> & _)|(HL0 & _ & _ & -> & _)].
    - apply u256_M in Ha; lia.
    - pose proof (step_next_wide p t L amount bi fee Hp Ht HL HL0 Ha Hf) as (Hw & _).
      assert (u256 (step_out p t L n)).
      { unfold step_out. destruct (t <=? p); [apply Ydn_u256|apply Xdn_u256]; auto using range_wide. }
      apply u256_M in H. apply u256_M in Ha. rewrite Hb in *. lia.
  Qed.

  Lemma step_exact_in_amount : bi = true ->
    sr_amount_in r + sr_fee_amount r <= amount \/
    (t <= p /\ sr_next_sqrt_price r = t /\ after_fee amount fee < sr_amount_in r).
  Proof.
    intros Hb. destruct (after_fee_eq amount fee Ha Hf) as (_ & HA & HF).
    assert (HAu : u256 (after_fee amount fee)) by (apply u256_M in Ha; apply u256_I; lia).
    destruct step_fields as [(? & _ & -> & _ & ->)|(HL0 & -> & -> & _ & -> & HI)].
    - left. apply u256_M in Ha; lia.
    - replace (bi && negb (n =? t)) with (negb (n =? t)) by (rewrite Hb; auto).
      destruct (Z.eqb_spec n t) as [E|E]; cbn [negb]; [|left; lia].
      destruct (Z.le_gt_cases (step_in p t L n) (after_fee amount fee)) as [Hle|Hgt].
      + left. assert (fee_up (step_in p t L n) fee <= fee_up amount fee); [|lia].
        apply cdiv_mono; [reflexivity|]. nia.
      + right. destruct (Z.le_gt_cases t p) as [|Htp]; [auto|exfalso].
        unfold step_in, step_next in *. rewrite Hb in *.
        destruct (Z.leb_spec t p); [lia|].
        destruct (Z.leb_spec (Yup L p t) (after_fee amount fee)); [lia|].
        destruct (next_y_add_eq p L (after_fee amount fee) t) as [_ HN]; auto using range_wide; try lia.
        rewrite <- Yup_le by lia. lia.
  Qed.

  Lemma step_exact_in_short : bi = true -> L <> 0 -> sr_next_sqrt_price r <> t ->
    sr_amount_in r + sr_fee_amount r = amount.
  Proof.
    intros Hb HL0. destruct step_fields as [(? & _)|(_ & -> & -> & _ & -> & HI)]; [lia|].
    intros E. replace (bi && negb (n =? t)) with (negb (n =? t)) by (rewrite Hb; auto).
    destruct (Z.eqb_spec n t); [congruence|cbn [negb]; lia].
  Qed.

  (** An exact-out step that stops short delivers the whole amount of y, and of
      x up to rounding. *)
  Lemma step_exact_out_short_y : bi = false -> L <> 0 -> t <= p -> sr_next_sqrt_price r <> t ->
    sr_amount_out r = amount.
  Proof.
    intros Hb HL0 Htp. destruct step_fields as [(? & _)|(H0 & -> & _ & -> & _)]; [lia|].
    intros E. assert (amount <= step_out p t L n); [|rewrite Hb in *; lia].
    unfold step_out, step_next in *. rewrite Hb in *. destruct (Z.leb_spec t p); [|lia].
    destruct (Z.leb_spec (Ydn L t p) amount); [lia|].
    destruct (next_y_sub_eq p L amount t) as [_ HN]; auto using range_wide.
    { rewrite <- Ydn_le by lia. lia. }
    rewrite Ydn_le by lia. apply div_le_lower; [reflexivity|].
    unfold ny_out in *. pose proof (cdiv_bounds (amount * E29) L H0). lia.
  Qed.

  (** C08: pricing in favour of the pool, on the exact amounts of SpecMath. *)
  Lemma step_in_y : p < t -> y_num p (sr_next_sqrt_price r) L <= sr_amount_in r * y_den.
  Proof.
    intros Hpt. unfold y_num. rewrite y_den_E29. destruct step_fields as [(-> & -> & -> & _)|(H0 & -> & -> & _)]; [lia|].
    unfold step_in. destruct (Z.leb_spec t p); [lia|]. unfold Yup.
    pose proof (cdiv_bounds (Z.abs (p - n) * L) E29 eq_refl). lia.
  Qed.
  Lemma step_out_y : t <= p -> sr_amount_out r * y_den <= y_num p (sr_next_sqrt_price r) L.
  Proof.
    intros Hpt. unfold y_num. rewrite y_den_E29. destruct step_fields as [(-> & -> & _ & -> & _)|(H0 & -> & _ & -> & _)]; [lia|].
    unfold step_out. destruct (Z.leb_spec t p); [|lia]. 
    pose proof (div_bounds (Z.abs (n - p) * L) E29 eq_refl). fold (Ydn L n p) in H1.
    replace (Z.abs (p - n)) with (Z.abs (n - p)) by lia. destruct bi; unfold E29 in *; lia.
  Qed.
  Lemma step_out_x : p < t -> sr_amount_out r * x_den p (sr_next_sqrt_price r) <= x_num p (sr_next_sqrt_price r) L.
  Proof.
    intros Hpt. destruct step_fields as [(-> & -> & _ & -> & _)|(H0 & -> & _ & -> & _)]; [unfold x_num; lia|].
    pose proof (step_next_wide p t L amount bi fee Hp Ht HL H0 Ha Hf) as (Hw & _).
    unfold step_out. destruct (Z.leb_spec t p); [lia|].
    destruct (delta_x_down_bounds p n L (Xdn L p n)) as (H1 & H2 & _); auto using range_u128, wide_u128.
    { apply get_delta_x_down_eq; auto using range_wide. }
    destruct bi; [auto|]. eapply Z.le_trans; [|apply H2]. apply Z.mul_le_mono_nonneg_r; [|lia].
    unfold x_den, price_in_range, wide in *. nia.
  Qed.
  Lemma step_in_x : t <= p ->
    let ex := x_num p (sr_next_sqrt_price r) L in
    let d := x_den p (sr_next_sqrt_price r) in
    ex * (d / 10 ^ 24) < (sr_amount_in r * (d / 10 ^ 24) + 1) * d /\
    ((L * (p - sr_next_sqrt_price r)) mod 10 ^ 5 = 0 -> ex <= sr_amount_in r * d).
  Proof.
    intros Hpt. cbv zeta.
    destruct step_fields as [(-> & -> & -> & _)|(H0 & -> & -> & _)].
    { unfold x_num, x_den, price_in_range in *. split; [|intros; nia]. rewrite !Z.mul_0_l. nia. }
    pose proof (step_next_wide p t L amount bi fee Hp Ht HL H0 Ha Hf) as (Hw & Hle & _).
    specialize (Hle Hpt).
    unfold step_in. destruct (Z.leb_spec t p); [|lia]. rewrite Xup_comm.
    destruct (delta_x_up_bounds p n L (Xup L p n)) as (H1 & H2 & H3 & _); auto using range_u128, wide_u128.
    { apply get_delta_x_up_eq; auto using range_wide. }
    split; auto. rewrite Z.abs_eq in H3 by lia. auto.
  Qed.

  (** C09 *)
  Lemma step_fee_reached : sr_next_sqrt_price r = t \/ bi = false ->
    is_ceil (sr_fee_amount r) (sr_amount_in r * fee) (10 ^ 12).
  Proof.
    intros H. destruct step_fields as [(-> & _ & -> & _ & ->)|(H0 & E1 & -> & _ & -> & _)]; [split; lia|].
    rewrite E1 in H.
    assert (E : bi && negb (n =? t) = false).
    { destruct H as [->| ->]; [rewrite Z.eqb_refl; apply andb_false_r|auto]. }
    rewrite E. unfold fee_up, is_ceil. change (10 ^ 12) with E12.
    pose proof (cdiv_bounds (step_in p t L n * fee) E12 eq_refl). lia.
  Qed.

  (** The fee kept by an exact-in step stopping short is at least the full fee on
      the amount, less the rounding of the input (x only). *)
  Lemma step_fee_short : bi = true -> L <> 0 -> sr_next_sqrt_price r <> t ->
    amount * fee <= (sr_fee_amount r + (if t <=? p then amount / 10 ^ 14 + 1 else 0)) * 10 ^ 12.
  Proof.
    intros Hb HL0. destruct step_fields as [(? & _)|(H0 & -> & _ & _ & -> & HI)]; [lia|]. intros E.
    replace (bi && negb (n =? t)) with (negb (n =? t)) by (rewrite Hb; auto).
    destruct (Z.eqb_spec n t); [congruence|]. cbn [negb].
    pose proof (step_cost H0 Hb E) as HC.
    destruct (after_fee_eq amount fee Ha Hf) as (_ & HA & HF).
    assert (amount * fee <= fee_up amount fee * E12).
    { unfold fee_up. pose proof (cdiv_bounds (amount * fee) E12 eq_refl). lia. }
    change (10 ^ 12) with E12. change (10 ^ 14) with 100000000000000.
    destruct (Z.leb_spec t p); [|unfold E12 in *; lia].
    assert (cdiv (after_fee amount fee) 100000000000000 <= amount / 100000000000000 + 1).
    { apply cdiv_le; [reflexivity|]. pose proof (div_bounds amount 100000000000000 eq_refl). lia. }
    unfold E12 in *. lia.
  Qed.
End Step.
