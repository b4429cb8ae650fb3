(** Closed form of compute_swap_step and its consequences. *)
From Verif Require Import Base Decimal SqrtPriceM ClammM Arith SpecMath P_Clamm P_Delta P_Next.
From Coq Require Import ZArith Lia Bool.
Open Scope Z_scope.

Definition E12 : Z := 1000000000000.

(** The four rounded amounts. *)
Definition Xup (L a b : Z) : Z := cdiv (dx_nom a b L) (dx_den a b).
Definition Xdn (L a b : Z) : Z := dx_nom a b L / dx_den_up a b.
Definition Yup (L a b : Z) : Z := cdiv (Z.abs (a - b) * L) E29.
Definition Ydn (L a b : Z) : Z := Z.abs (a - b) * L / E29.

Definition after_fee (amount fee : Z) : Z := amount * (E12 - fee) / E12.
Definition fee_up (a fee : Z) : Z := cdiv (a * fee) E12.

Definition step_next (p t L amount : Z) (by_in : bool) (fee : Z) : Z :=
  if by_in then
    let A := after_fee amount fee in
    if t <=? p then
      if Xup L t p <=? A then t else if A =? 0 then p else nx_in p L A
    else
      if Yup L p t <=? A then t else ny_in p L A
  else
    if t <=? p then
      if Ydn L t p <=? amount then t else ny_out p L amount
    else
      if Xdn L p t <=? amount then t else if amount =? 0 then p else nx_out p L amount.

Definition step_in (p t L n : Z) : Z := if t <=? p then Xup L n p else Yup L p n.
Definition step_out (p t L n : Z) : Z := if t <=? p then Ydn L n p else Xdn L p n.

Lemma after_fee_eq amount fee : u256 amount -> 0 <= fee <= E12 ->
  token_big_mul_percentage amount (E12 - fee) = Ok (after_fee amount fee) /\
  0 <= after_fee amount fee <= amount /\
  amount - after_fee amount fee = fee_up amount fee.
Proof.
  intros Ha%u256_M Hf. unfold token_big_mul_percentage, big_mul.
  assert (HB : amount * (E12 - fee) <= (M256 - 1) * E12) by (unfold E12 in *; nia).
  assert ((M256 - 1) * E12 < M512) by reflexivity.
  rewrite checked_mul_ok by lia. cbn [bind expect].
  change PERCENTAGE_ONE with E12.
  rewrite checked_div_ok by (unfold E12; lia). cbn [bind expect]. fold (after_fee amount fee).
  assert (HA : 0 <= after_fee amount fee <= amount).
  { unfold after_fee. pose proof (div_bounds (amount * (E12 - fee)) E12 eq_refl).
    split; [apply div_nonneg; [reflexivity|nia]|]. unfold E12 in *. nia. }
  rewrite checked_cast_ok by lia. split; [auto|]. split; [auto|].
  unfold after_fee, fee_up. symmetry. apply cdiv_unique; [reflexivity|].
  pose proof (div_bounds (amount * (E12 - fee)) E12 eq_refl). unfold E12 in *. lia.
Qed.

Lemma fee_up_bounds a fee : 0 <= a -> 0 <= fee <= E12 -> 0 <= fee_up a fee <= a.
Proof.
  intros Ha Hf. unfold fee_up. split.
  - apply cdiv_nonneg; [reflexivity|nia].
  - apply cdiv_le; [reflexivity|]. unfold E12 in *. nia.
Qed.

Lemma fee_up_eq a fee : u256 a -> 0 <= fee <= E12 ->
  token_big_mul_up_percentage a fee = Ok (fee_up a fee).
Proof.
  intros Ha%u256_M Hf. unfold token_big_mul_up_percentage, big_mul_up.
  assert (HB : a * fee <= (M256 - 1) * E12) by (unfold E12 in *; nia).
  assert ((M256 - 1) * E12 < M512 - E12) by reflexivity.
  rewrite checked_mul_ok by (unfold E12 in *; lia). cbn [bind expect].
  change PERCENTAGE_ONE with E12.
  rewrite checked_add_ok by lia. cbn [bind expect].
  rewrite checked_div_ok by (unfold E12; lia). cbn [bind expect].
  rewrite cdiv_eq_div by reflexivity. fold (fee_up a fee).
  pose proof (fee_up_bounds a fee ltac:(lia) Hf).
  rewrite checked_cast_ok by lia. reflexivity.
Qed.

(** ** Bounds of the exact-in x-to-y price *)
Lemma nx_in_gap p t L x : wide p -> wide t -> t <= p -> u256 L -> 0 < L -> u256 x -> 0 < x ->
  x < Xup L t p ->
  (t - nx_in p L x) * (L * E19 + p * x) < x * E24.
Proof.
  intros Hp Ht Htp HL HL0 Hx Hx0 Hlt. unfold Xup in Hlt.
  pose proof (nx_nom_bounds p L Hp HL) as HN.
  pose proof (dx_den_pos t p Ht Hp) as HD.
  apply u256_M in HL. apply u256_M in Hx.
  assert (Hden : 0 < L * E19 + p * x) by (unfold wide, E19 in *; nia).
  pose proof (cdiv_bounds (nx_nom p L) (L * E19 + p * x) Hden) as H1. fold (nx_in p L x) in H1.
  set (p' := nx_in p L x) in *. clearbody p'.
  pose proof (cdiv_bounds (dx_nom t p L) (dx_den t p) ltac:(lia)) as H2.
  set (C := cdiv (dx_nom t p L) (dx_den t p)) in *. clearbody C.
  assert (H3 : x * dx_den t p < dx_nom t p L) by nia.
  unfold dx_nom, dx_den in *. rewrite Z.abs_neq in * by lia.
  pose proof (div_bounds (- (t - p) * L) LIQUIDITY_ONE eq_refl) as H4.
  pose proof (div_bounds (t * p) SQRT_PRICE_ONE eq_refl) as H5.
  set (n := _ / LIQUIDITY_ONE) in *. set (d := t * p / SQRT_PRICE_ONE) in *. clearbody n d.
  unfold LIQUIDITY_ONE, SQRT_PRICE_ONE, E19, E24 in *. nia.
Qed.

Lemma nx_in_wide p t L x : price_in_range p -> price_in_range t -> t <= p -> u256 L -> 0 < L -> u256 x -> 0 < x ->
  x < Xup L t p -> wide (nx_in p L x) /\ nx_in p L x <= p.
Proof.
  intros Hp Ht Htp HL HL0 Hx Hx0 Hlt.
  pose proof (nx_in_gap p t L x (range_wide p Hp) (range_wide t Ht) Htp HL HL0 Hx Hx0 Hlt) as HG.
  destruct (next_x_add_eq p L x (range_wide p Hp) HL HL0 Hx) as [_ HLE].
  destruct (Z.eqb_spec x 0); [lia|]. split; [|auto].
  apply u256_M in HL. apply u256_M in Hx. unfold price_in_range, wide in *.
  split; [|lia].
  set (p' := nx_in p L x) in *. clearbody p'.
  destruct (Z.lt_ge_cases (t - p') 100000) as [|HH]; [lia|exfalso].
  assert (H1 : 100000 * (L * E19 + p * x) <= (t - p') * (L * E19 + p * x)).
  { apply Z.mul_le_mono_nonneg_r; [unfold E19; nia|lia]. }
  assert (H2 : 15258932000000000000 * x <= p * x) by (apply Z.mul_le_mono_nonneg_r; lia).
  unfold E19, E24 in *. lia.
Qed.

(** The step does not pass its target when the price is large enough. *)
Lemma nx_in_ge_target p t L x : wide p -> wide t -> t <= p -> u256 L -> 0 < L -> u256 x -> 0 < x ->
  x < Xup L t p -> 10 ^ 24 * (p - t + 1) <= p * p -> t <= nx_in p L x.
Proof.
  intros Hp Ht Htp HL HL0 Hx Hx0 Hlt Hc.
  pose proof (nx_in_gap p t L x Hp Ht Htp HL HL0 Hx Hx0 Hlt) as HG.
  change (10 ^ 24) with E24 in Hc.
  assert (HX : x * E24 <= L * E19 + p * x).
  { unfold Xup in Hlt. pose proof (dx_den_pos t p Ht Hp) as HD.
    pose proof (cdiv_bounds (dx_nom t p L) (dx_den t p) ltac:(lia)) as H2.
    apply u256_M in HL. apply u256_M in Hx.
    set (C := cdiv (dx_nom t p L) (dx_den t p)) in *. clearbody C.
    assert (H3 : x * dx_den t p < dx_nom t p L) by nia.
    clear HG H2 Hlt.
    unfold dx_nom, dx_den in *. rewrite Z.abs_neq in * by lia.
    pose proof (div_bounds (- (t - p) * L) LIQUIDITY_ONE eq_refl) as H4.
    pose proof (div_bounds (t * p) SQRT_PRICE_ONE eq_refl) as H5.
    set (n := _ / LIQUIDITY_ONE) in *. set (d := t * p / SQRT_PRICE_ONE) in *. clearbody n d.
    set (K := p - t) in *. 
    assert (H6 : x * (t * p - E24) <= K * L * E19).
    { unfold LIQUIDITY_ONE, SQRT_PRICE_ONE, E19, E24, K in *. nia. }
    destruct (Z.le_gt_cases E24 p) as [Hge|Hlt]; [unfold E19 in *; nia|].
    (* (E24 - p) * K <= t * p - E24 *)
    assert (H7 : (E24 - p) * K <= t * p - E24) by (unfold K in *; nia).
    destruct (Z.eq_dec K 0) as [HK|HK].
    - rewrite HK in *. assert (t = p) by (unfold K in *; lia). subst t. unfold wide, E24, E19 in *. nia.
    - assert (0 < K) by (unfold K in *; lia).
      assert (x * ((E24 - p) * K) <= K * (L * E19)) by (unfold E19 in *; nia).
      assert (x * (E24 - p) <= L * E19) by nia. lia. }
  apply u256_M in HL. apply u256_M in Hx.
  destruct (Z.le_gt_cases t (nx_in p L x)) as [|HH]; [auto|exfalso].
  assert (H1 : 1 * (L * E19 + p * x) <= (t - nx_in p L x) * (L * E19 + p * x)).
  { apply Z.mul_le_mono_nonneg_r; [unfold E19, wide in *; nia|lia]. }
  lia.
Qed.

(** ** Commutation and sign of the amounts *)
Lemma dx_nom_comm a b L : dx_nom a b L = dx_nom b a L.
Proof. unfold dx_nom. replace (Z.abs (a - b)) with (Z.abs (b - a)) by lia. auto. Qed.
Lemma dx_den_comm a b : dx_den a b = dx_den b a.
Proof. unfold dx_den. rewrite Z.mul_comm. auto. Qed.
Lemma dx_den_up_comm a b : dx_den_up a b = dx_den_up b a.
Proof. unfold dx_den_up. rewrite Z.mul_comm. auto. Qed.
Lemma Xup_comm L a b : Xup L a b = Xup L b a.
Proof. unfold Xup. rewrite dx_nom_comm, dx_den_comm. auto. Qed.
Lemma Xdn_comm L a b : Xdn L a b = Xdn L b a.
Proof. unfold Xdn. rewrite dx_nom_comm, dx_den_up_comm. auto. Qed.
Lemma Yup_comm L a b : Yup L a b = Yup L b a.
Proof. unfold Yup. replace (Z.abs (a - b)) with (Z.abs (b - a)) by lia. auto. Qed.
Lemma Ydn_comm L a b : Ydn L a b = Ydn L b a.
Proof. unfold Ydn. replace (Z.abs (a - b)) with (Z.abs (b - a)) by lia. auto. Qed.

Lemma Xup_u256 L a b : wide a -> wide b -> u256 L -> u256 (Xup L a b).
Proof.
  intros Ha Hb HL. unfold Xup. pose proof (dx_den_pos a b Ha Hb).
  pose proof (dx_quot_bound a b L _ Ha Hb HL (Z.le_refl _)).
  apply u256_M in HL. apply u256_I. split.
  - apply cdiv_nonneg; [lia|]. apply dx_nom_nonneg. lia.
  - eapply Z.le_lt_trans; [|apply HL]. apply cdiv_le; [lia|lia].
Qed.
Lemma Xdn_u256 L a b : wide a -> wide b -> u256 L -> u256 (Xdn L a b).
Proof.
  intros Ha Hb HL. unfold Xdn. pose proof (dx_den_up_pos a b Ha Hb).
  pose proof (dx_quot_bound a b L _ Ha Hb HL (div_le_cdiv _ SQRT_PRICE_ONE eq_refl)).
  apply u256_M in HL. apply u256_I. split.
  - apply div_nonneg; [lia|]. apply dx_nom_nonneg. lia.
  - eapply Z.le_lt_trans; [|apply HL]. apply div_le_upper; [lia|]. unfold dx_den_up. lia.
Qed.
Lemma Yup_u256 L a b : wide a -> wide b -> u256 L -> u256 (Yup L a b).
Proof.
  intros Ha Hb HL. apply u256_I. split.
  - apply cdiv_nonneg; [reflexivity|]. apply u256_M in HL. nia.
  - apply dy_fits; auto.
Qed.
Lemma Ydn_u256 L a b : wide a -> wide b -> u256 L -> u256 (Ydn L a b).
Proof.
  intros Ha Hb HL. apply u256_I. split.
  - apply div_nonneg; [reflexivity|]. apply u256_M in HL. nia.
  - eapply Z.le_lt_trans; [apply div_le_cdiv; reflexivity|]. apply dy_fits; auto.
Qed.

Lemma Yup_le L p t : p <= t -> Yup L p t = cdiv ((t - p) * L) E29.
Proof. intros. unfold Yup. replace (Z.abs (p - t)) with (t - p) by lia. auto. Qed.
Lemma Ydn_le L p t : t <= p -> Ydn L t p = (p - t) * L / E29.
Proof. intros. unfold Ydn. replace (Z.abs (t - p)) with (p - t) by lia. auto. Qed.

(** ** Where the step goes *)
Lemma step_next_wide p t L amount bi fee :
  price_in_range p -> price_in_range t -> u256 L -> 0 < L -> u256 amount -> 0 <= fee <= E12 ->
  let n := step_next p t L amount bi fee in
  wide n /\ (t <= p -> n <= p) /\ (p < t -> p <= n <= t) /\ (t <= p -> bi = false -> t <= n).
Proof.
  intros Hp Ht HL HL0 Ha Hf. cbv zeta.
  pose proof (range_wide p Hp) as Hpw. pose proof (range_wide t Ht) as Htw.
  destruct (after_fee_eq amount fee Ha Hf) as (_ & HA & _).
  assert (HAu : u256 (after_fee amount fee)) by (apply u256_M in Ha; apply u256_I; lia).
  unfold step_next. destruct bi; destruct (Z.leb_spec t p).
  - destruct (Z.leb_spec (Xup L t p) (after_fee amount fee)); [repeat split; try apply Htw; lia|].
    destruct (Z.eqb_spec (after_fee amount fee) 0); [repeat split; try apply Hpw; try lia; discriminate|].
    destruct (nx_in_wide p t L (after_fee amount fee)); auto; try lia.
    split; [assumption|]. split; [lia|]. split; [lia|]. discriminate.
  - destruct (Z.leb_spec (Yup L p t) (after_fee amount fee)); [repeat split; try apply Htw; lia|].
    destruct (next_y_add_eq p L (after_fee amount fee) t) as [_ HN]; auto; try lia.
    { rewrite <- Yup_le by lia. lia. }
    unfold wide in *. repeat split; lia.
  - destruct (Z.leb_spec (Ydn L t p) amount); [repeat split; try apply Htw; lia|].
    destruct (next_y_sub_eq p L amount t) as [_ HN]; auto; try lia.
    { rewrite <- Ydn_le by lia. lia. }
    unfold wide in *. repeat split; lia.
  - destruct (Z.leb_spec (Xdn L p t) amount); [repeat split; try apply Htw; lia|].
    destruct (next_x_sub_eq p L amount t) as (_ & HN & _); auto; try lia.
    unfold wide in *. repeat split; lia.
Qed.

(** The closed form. *)
Lemma compute_swap_step_eq p t L amount bi fee :
  price_in_range p -> price_in_range t -> u256 L -> 0 < L -> u256 amount -> 0 <= fee <= E12 ->
  let n := step_next p t L amount bi fee in
  let i := step_in p t L n in
  let o := if bi then step_out p t L n else Z.min amount (step_out p t L n) in
  compute_swap_step p t L amount bi fee =
    if bi && negb (n =? t)
    then (if i <=? amount then Ok (mkSwapResult n i o (amount - i)) else Panic)
    else Ok (mkSwapResult n i o (fee_up i fee)).
Proof.
  intros Hp Ht HL HL0 Ha Hf. cbv zeta.
  pose proof (range_wide p Hp) as Hpw. pose proof (range_wide t Ht) as Htw.
  destruct (step_next_wide p t L amount bi fee Hp Ht HL HL0 Ha Hf) as (Hnw & _).
  destruct (after_fee_eq amount fee Ha Hf) as (HAe & HA & _).
  assert (HAu : u256 (after_fee amount fee)) by (apply u256_M in Ha; apply u256_I; lia).
  unfold compute_swap_step. destruct (Z.eqb_spec L 0) as [|_]; [lia|].
  set (n := step_next p t L amount bi fee) in *.
  assert (Hfee : u256 (step_in p t L n)).
  { unfold step_in. destruct (t <=? p); [apply Xup_u256 | apply Yup_u256]; auto. }
  unfold step_in, step_out in *. destruct (Z.leb_spec t p) as [Htp|Htp].
  - (* x to y *)
    destruct bi.
    + unfold dec_sub. rewrite checked_sub_ok by (unfold PERCENTAGE_ONE, E12 in *; lia). cbn [bind expect].
      change PERCENTAGE_ONE with E12. rewrite HAe. cbn [bind].
      rewrite get_delta_x_up_eq by auto. cbn [bind]. fold (Xup L t p).
      assert (HN : (if Xup L t p <=? after_fee amount fee then Ok t
                    else get_next_sqrt_price_from_input p L (after_fee amount fee) true) = Ok n).
      { unfold n, step_next. destruct (Z.leb_spec t p); [|lia].
        destruct (Z.leb_spec (Xup L t p) (after_fee amount fee)); [auto|].
        unfold get_next_sqrt_price_from_input. apply next_x_add_eq; auto. }
      rewrite HN. cbn [bind negb orb andb]. rewrite orb_true_r, orb_false_r. 
      rewrite get_delta_y_down_ok by auto. fold (Ydn L n p). rewrite (Z.eqb_sym t n).
      destruct (Z.eqb_spec n t) as [E|E]; cbn [negb].
      * cbn [bind]. rewrite fee_up_eq by (auto using Xup_u256). cbn [bind]. rewrite E. reflexivity.
      * rewrite get_delta_x_up_eq by auto. cbn [bind]. fold (Xup L n p).
        unfold checked_sub. destruct (_ <=? amount); reflexivity.
    + rewrite get_delta_y_down_ok by auto. cbn [bind]. fold (Ydn L t p).
      assert (HN : (if Ydn L t p <=? amount then Ok t
                    else get_next_sqrt_price_from_output p L amount true) = Ok n).
      { unfold n, step_next. destruct (Z.leb_spec t p); [|lia].
        destruct (Z.leb_spec (Ydn L t p) amount); [auto|].
        unfold get_next_sqrt_price_from_output. apply (next_y_sub_eq p L amount t); auto.
        rewrite <- Ydn_le by lia. lia. }
      rewrite HN. cbn [bind negb orb andb]. rewrite orb_true_r, orb_false_r.
      rewrite get_delta_x_up_eq by auto. cbn [bind]. fold (Xup L n p).
      rewrite (Z.eqb_sym t n).
      assert (HO : (if negb (n =? t) then get_delta_y n p L false else Ok (Ydn L t p)) = Ok (Ydn L n p)).
      { destruct (Z.eqb_spec n t) as [->|]; auto. cbn [negb]. apply get_delta_y_down_ok; auto. }
      rewrite HO. cbn [bind]. rewrite fee_up_eq by auto. cbn [bind]. do 2 f_equal.
      destruct (Z.ltb_spec amount (Ydn L n p)); lia.
  - destruct bi.
    + unfold dec_sub. rewrite checked_sub_ok by (unfold PERCENTAGE_ONE, E12 in *; lia). cbn [bind expect].
      change PERCENTAGE_ONE with E12. rewrite HAe. cbn [bind].
      rewrite get_delta_y_up_ok by auto. cbn [bind]. fold (Yup L p t).
      assert (HN : (if Yup L p t <=? after_fee amount fee then Ok t
                    else get_next_sqrt_price_from_input p L (after_fee amount fee) false) = Ok n).
      { unfold n, step_next. destruct (Z.leb_spec t p); [lia|].
        destruct (Z.leb_spec (Yup L p t) (after_fee amount fee)); [auto|].
        unfold get_next_sqrt_price_from_input. apply (next_y_add_eq p L _ t); auto; try lia.
        rewrite <- Yup_le by lia. lia. }
      rewrite HN. cbn [bind negb orb andb]. rewrite orb_true_r, orb_false_r. 
      rewrite get_delta_x_down_eq by auto. fold (Xdn L p n). rewrite (Z.eqb_sym t n).
      destruct (Z.eqb_spec n t) as [E|E]; cbn [negb].
      * cbn [bind]. rewrite fee_up_eq by (auto using Yup_u256). cbn [bind]. rewrite E. reflexivity.
      * rewrite get_delta_y_up_ok by auto. cbn [bind]. fold (Yup L p n).
        unfold checked_sub. destruct (_ <=? amount); reflexivity.
    + rewrite get_delta_x_down_eq by auto. cbn [bind]. fold (Xdn L p t).
      assert (HN : (if Xdn L p t <=? amount then Ok t
                    else get_next_sqrt_price_from_output p L amount false) = Ok n).
      { unfold n, step_next. destruct (Z.leb_spec t p); [lia|].
        destruct (Z.leb_spec (Xdn L p t) amount); [auto|].
        unfold get_next_sqrt_price_from_output. apply (next_x_sub_eq p L amount t); auto; lia. }
      rewrite HN. cbn [bind negb orb andb]. rewrite orb_true_r, orb_false_r.
      rewrite get_delta_y_up_ok by auto. cbn [bind]. fold (Yup L p n).
      rewrite (Z.eqb_sym t n).
      assert (HO : (if negb (n =? t) then get_delta_x p n L false else Ok (Xdn L p t)) = Ok (Xdn L p n)).
      { destruct (Z.eqb_spec n t) as [->|]; auto. cbn [negb]. apply get_delta_x_down_eq; auto. }
      rewrite HO. cbn [bind]. rewrite fee_up_eq by auto. cbn [bind]. do 2 f_equal.
      destruct (Z.ltb_spec amount (Xdn L p n)); lia.
Qed.
