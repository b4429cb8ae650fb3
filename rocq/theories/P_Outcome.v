(** What a swap can end with: the calls inside an iteration that cannot fail. *)
From Verif Require Import Base Decimal SqrtPriceM LogM ClammM FeeGrowthM Types TickmapM StorageM
  CollectionsM StateM ServiceM Arith SpecMath SpecFees SpecSum SpecState SpecHistory SpecLoop SpecPath SpecOutcome P_Clamm P_Delta P_Next P_Step
  P_StepProps P_TickPrice P_GetTick P_Tickmap P_Closer
  P_Fees P_Balance P_Effects P_Positions P_History P_Loop P_Check P_State P_Iter P_Inv P_InvPos P_InvSwap P_Swap P_SwapLoop P_InvHist P_Term P_Active P_Path.
From stdpp Require Import gmap list.
From Coq Require Import ZArith Lia Bool.
Open Scope Z_scope.

Lemma dec_add_ok M a b : a + b < M -> dec_add M a b = Ok (a + b).
Proof. intros H. unfold dec_add, checked_add. destruct (Z.ltb_spec (a + b) M); [reflexivity|lia]. Qed.
Lemma dec_sub_ok a b : b <= a -> dec_sub a b = Ok (a - b).
Proof. intros H. unfold dec_sub. rewrite checked_sub_ok by auto. reflexivity. Qed.

(** ** Size of the amounts of a step *)

Lemma Xup_le_L L a b : wide a -> wide b -> u256 L -> Xup L a b <= L.
Proof.
  intros Ha Hb HL. unfold Xup. pose proof (dx_den_pos a b Ha Hb).
  apply cdiv_le; [lia|]. pose proof (dx_quot_bound a b L _ Ha Hb HL (Z.le_refl _)). lia.
Qed.
Lemma Yup_le_L L a b : wide a -> wide b -> u256 L -> Yup L a b <= L.
Proof.
  intros Ha Hb HL. unfold Yup. pose proof (range_absdiff a b Ha Hb) as H. apply u256_M in HL.
  apply cdiv_le; [reflexivity|]. change E29 with 100000000000000000000000000000. nia.
Qed.

Section Size.
  Context (p t L amount : Z) (bi : bool) (fee : Z).
  Context (Hp : price_in_range p) (Ht : price_in_range t) (HL : u256 L)
          (Ha : u256 amount) (Hf : 0 <= fee <= 990000000000).
  Context (r : swap_result) (Hr : compute_swap_step p t L amount bi fee = Ok r).

  Lemma Hf12 : 0 <= fee <= E12.
  Proof using Hf. unfold E12. lia. Qed.

  Lemma after_fee_large : amount <= 100 * after_fee amount fee + 100.
  Proof using Ha Hf.
    unfold after_fee. pose proof (div_bounds (amount * (E12 - fee)) E12 eq_refl) as H.
    apply u256_M in Ha. unfold E12 in *. nia.
  Qed.

  Lemma step_in_le : sr_amount_in r <= L.
  Proof using Hp Ht HL Ha Hf Hr.
    pose proof Hf12 as Hf'.
    destruct (step_fields p t L amount bi fee Hp Ht HL Ha Hf' r Hr) as [(E0 & _ & -> & _)|(H0 & _ & -> & _)]; [apply u256_M in HL; lia|].
    pose proof (step_next_wide p t L amount bi fee Hp Ht HL H0 Ha Hf') as (Hw & _).
    unfold step_in. destruct (t <=? p); [apply Xup_le_L|apply Yup_le_L]; auto using range_wide.
  Qed.

  Lemma step_fee_le : 0 <= sr_fee_amount r <= 100 * L + 100.
  Proof using Hp Ht HL Ha Hf Hr.
    pose proof Hf12 as Hf'. pose proof step_in_le as HI. pose proof after_fee_large as HA.
    destruct (step_amounts _ _ _ _ _ _ _ Hp Ht HL Ha Hf' Hr) as (U1 & _ & U3 & _).
    apply u256_M in U1, U3. split; [lia|].
    destruct (step_fields p t L amount bi fee Hp Ht HL Ha Hf' r Hr) as [(E0 & _ & _ & _ & ->)|(H0 & _ & E2 & _ & E4 & _)].
    - apply u256_M in HL; lia.
    - rewrite E4. destruct (bi && negb (step_next p t L amount bi fee =? t)) eqn:E.
      + rewrite <- E2. apply andb_prop in E as [Eb En]. apply negb_true_iff, Z.eqb_neq in En.
        assert (after_fee amount fee < L); [|lia].
        unfold step_next in En. rewrite Eb in En. destruct (Z.leb_spec t p).
        * pose proof (Xup_le_L L t p (range_wide t Ht) (range_wide p Hp) HL).
          destruct (Z.leb_spec (Xup L t p) (after_fee amount fee)); [congruence|lia].
        * pose proof (Yup_le_L L p t (range_wide p Hp) (range_wide t Ht) HL).
          destruct (Z.leb_spec (Yup L p t) (after_fee amount fee)); [congruence|lia].
      + rewrite <- E2. pose proof (fee_up_bounds (sr_amount_in r) fee ltac:(lia) Hf'). lia.
  Qed.

  Lemma step_fee_le_in : bi = false -> sr_fee_amount r <= sr_amount_in r.
  Proof using Hp Ht HL Ha Hf Hr.
    intros Hb. pose proof Hf12 as Hf'. destruct (step_amounts _ _ _ _ _ _ _ Hp Ht HL Ha Hf' Hr) as (U1 & _ & U3 & _).
    apply u256_M in U1.
    destruct (step_fields p t L amount bi fee Hp Ht HL Ha Hf' r Hr) as [(E0 & _ & -> & _ & ->)|(H0 & _ & E2 & _ & -> & _)]; [lia|].
    rewrite Hb. cbn [andb]. rewrite <- Hb, <- E2. apply fee_up_bounds; [lia|exact Hf'].
  Qed.
End Size.

(** What reaching the target exactly may cost in excess. *)
Lemma step_overspend p t L amount fee r : price_in_range p -> price_in_range t -> u256 L -> u256 amount -> 0 <= fee <= E12 ->
  compute_swap_step p t L amount true fee = Ok r -> sr_next_sqrt_price r = t -> t <= p -> after_fee amount fee < sr_amount_in r ->
  sr_amount_in r + sr_fee_amount r <= amount + 2 * (amount / 10 ^ 14) + 3.
Proof.
  intros Hp Ht HL Ha Hf Hr Hn Htp Hov.
  destruct (after_fee_eq amount fee Ha Hf) as (_ & HA & HF). pose proof (u256_M _ Ha) as Ham.
  destruct (step_fields p t L amount true fee Hp Ht HL Ha Hf r Hr) as [(E0 & _ & E2 & _ & E4)|(H0 & E1 & E2 & _ & E4 & _)].
  { pose proof (div_nonneg amount (10 ^ 14) eq_refl ltac:(lia)). lia. }
  rewrite E1 in Hn. rewrite Hn in E4. rewrite Z.eqb_refl in E4. cbn [negb andb] in E4. rewrite <- Hn in E4 at 2.
  rewrite E2 in Hov. rewrite E4, E2. clear E2 E4.
  destruct (step_next_wide p t L amount true fee Hp Ht HL H0 Ha Hf) as (Hnw & Hn1 & Hn2 & _).
  assert (HAu : u256 (after_fee amount fee)) by (apply u256_I; lia).
  assert (HC : step_in p t L (step_next p t L amount true fee) <= after_fee amount fee + cdiv (after_fee amount fee) 100000000000000).
  { pose proof (range_wide p Hp) as Hpw. unfold step_in in *. unfold step_next in *. destruct (Z.leb_spec t p); [|lia].
    destruct (Z.leb_spec (Xup L t p) (after_fee amount fee)); [lia|].
    destruct (Z.eqb_spec (after_fee amount fee) 0) as [->|]; [rewrite Xup_self by auto; reflexivity|].
    eapply Z.le_trans; [apply nx_in_cost; auto; lia|].
    apply Z.add_le_mono_l. pose proof (dx_den_pos _ _ Hnw Hpw).
    apply cdiv_le; [lia|]. pose proof (cdiv_bounds (after_fee amount fee) 100000000000000 eq_refl).
    pose proof (cdiv_nonneg (after_fee amount fee) 100000000000000 eq_refl ltac:(lia)). nia. }
  rewrite Hn in *. set (x := step_in p t L t) in *. clearbody x. set (A := after_fee amount fee) in *. clearbody A.
  pose proof (cdiv_bounds A 100000000000000 eq_refl) as HB. set (c := cdiv A 100000000000000) in *. clearbody c.
  change (10 ^ 14) with 100000000000000. pose proof (div_bounds amount 100000000000000 eq_refl) as HD. set (q := amount / 100000000000000) in *. clearbody q.
  assert (HQ : c <= q + 1) by lia.
  destruct (Z.le_gt_cases x amount) as [Hxa|Hxa].
  - unfold fee_up in *. pose proof (cdiv_bounds (x * fee) E12 eq_refl) as B1. pose proof (cdiv_bounds (amount * fee) E12 eq_refl) as B2.
    set (u := cdiv (x * fee) E12) in *. set (v := cdiv (amount * fee) E12) in *. clearbody u v. 
    assert (HU : u <= v) by (assert (x * fee <= amount * fee) by (apply Z.mul_le_mono_nonneg_r; lia); unfold E12 in *; lia).
    lia.
  - unfold fee_up in *. pose proof (cdiv_bounds (x * fee) E12 eq_refl) as B1. pose proof (cdiv_bounds (amount * fee) E12 eq_refl) as B2.
    set (u := cdiv (x * fee) E12) in *. set (v := cdiv (amount * fee) E12) in *. clearbody u v.
    (* x <= A + c, so x*fee <= amount*fee + c*fee *)
    assert (HX : x * fee <= amount * fee + (c - v) * fee) by (replace (amount * fee + (c - v) * fee) with ((amount - v + c) * fee) by ring; apply Z.mul_le_mono_nonneg_r; lia).
    assert (HV : v < c) by lia.
    assert (HY : (c - v) * fee <= (c - v) * E12) by (apply Z.mul_le_mono_nonneg_l; lia).
    assert (u <= c + 1) by (unfold E12 in *; lia).
    unfold E12 in *; lia.
Qed.

(** ** Booking a fee *)

Lemma from_fee_total L f : u256 L -> 0 < L -> u256 f -> f <= 100 * L + 200 -> exists g, from_fee L f = Ok g.
Proof.
  intros HL%u256_M HL0 Hf%u256_M Hb. unfold from_fee.
  assert (H1 : f * FEE_GROWTH_ONE <= (M256 - 1) * FEE_GROWTH_ONE) by (unfold FEE_GROWTH_ONE; lia).
  assert ((M256 - 1) * FEE_GROWTH_ONE * LIQUIDITY_ONE < M384) by reflexivity.
  rewrite checked_mul_ok by (unfold FEE_GROWTH_ONE, LIQUIDITY_ONE in *; lia). cbn [ok_or bind].
  rewrite checked_mul_ok by (unfold FEE_GROWTH_ONE, LIQUIDITY_ONE in *; lia). cbn [ok_or bind].
  rewrite checked_div_ok by lia. cbn [ok_or bind].
  rewrite checked_cast_ok; [eauto|]. apply div_lt_upper; [lia|].
  unfold FEE_GROWTH_ONE, LIQUIDITY_ONE, M128. lia.
Qed.

Lemma add_fee_total k p f d pf : pool_ok k p -> u256 f -> 0 <= pf <= E12 -> (p_liquidity p = 0 \/ f <= 100 * p_liquidity p + 200) ->
  prot d p + f < M256 -> exists p', pool_add_fee p f d pf = Ok p' /\ prot d p' <= prot d p + f /\ prot d p <= prot d p'.
Proof.
  intros PO Hf Hpf Hb Hroom. pose proof (po_liq _ _ PO) as HL. unfold pool_add_fee.
  rewrite fee_up_eq by auto. cbn [bind]. pose proof (u256_M _ Hf) as Hf'.
  pose proof (fee_up_bounds f pf ltac:(lia) Hpf) as HF. rewrite dec_sub_ok by lia. cbn [bind].
  destruct ((f - fee_up f pf =? 0) && (fee_up f pf =? 0) || (p_liquidity p =? 0)) eqn:E.
  - exists p. split; [reflexivity|]. lia.
  - apply orb_false_iff in E as [_ E]. apply Z.eqb_neq in E. destruct Hb as [Hb|Hb]; [lia|].
    destruct (from_fee_total (p_liquidity p) (f - fee_up f pf)) as [g Hg].
    { exact HL. } { apply u256_M in HL. lia. } { apply u256_I. lia. } { lia. }
    rewrite Hg. cbn [bind]. unfold prot in *.
    destruct d; rewrite dec_add_ok by lia; cbn [bind]; eexists; (split; [reflexivity|]);
      cbn [set_fees_x set_fees_y p_fee_protocol_token_x p_fee_protocol_token_y]; lia.
Qed.

(** ** Is the rest enough to move the price *)

Definition isOk {A} (r : res A) : Prop := exists a, r = Ok a.

Lemma next_y_add_total p L y : wide p -> u256 L -> 0 < L -> u256 y ->
  (get_next_sqrt_price_y_down p L y true = Ok (ny_in p L y)) \/
  (~ isOk (get_next_sqrt_price_y_down p L y true) /\ get_next_sqrt_price_y_down p L y true <> Loop /\ 2 ^ 128 <= ny_in p L y).
Proof.
  intros Hp HL HL0 Hy. unfold get_next_sqrt_price_y_down.
  destruct (y_value_eq y Hy) as [-> HB]. cbn [bind].
  rewrite liquidity_to_value_eq by auto. cbn [bind].
  apply u256_M in Hy. apply u256_M in HL.
  pose proof (div_nonneg (y * E29) L HL0 ltac:(unfold E29; lia)) as HN.
  unfold checked_big_div_values.
  rewrite checked_mul_ok by (unfold M384, M448 in *; lia). cbn [bind ok_or].
  rewrite checked_div_ok by (unfold E19; lia). cbn [bind ok_or].
  rewrite y_quot_eq by auto. unfold ny_in, dec_checked_add, checked_cast, checked_add.
  change (2 ^ 128) with M128. unfold wide in Hp.
  destruct (Z.ltb_spec (y * E29 / L) M128); cbn [ok_or bind].
  - destruct (Z.ltb_spec (p + y * E29 / L) M128); cbn [ok_or]; [left; reflexivity|].
    right. split; [intros [? ?]; discriminate|]. split; [discriminate|lia].
  - right. split; [intros [? ?]; discriminate|]. split; [discriminate|lia].
Qed.

Lemma next_y_sub_total p L y : wide p -> u256 L -> 0 < L -> u256 y ->
  isOk (get_next_sqrt_price_y_down p L y false) \/
  (get_next_sqrt_price_y_down p L y false <> Loop /\ p * L < y * E29).
Proof.
  intros Hp HL HL0 Hy. unfold get_next_sqrt_price_y_down.
  destruct (y_value_eq y Hy) as [-> HB]. cbn [bind].
  rewrite liquidity_to_value_eq by auto. cbn [bind].
  pose proof (L19_fits L HL). assert ((M256 - 1) * E19 < M384) by reflexivity.
  apply u256_M in Hy. apply u256_M in HL.
  unfold checked_big_div_values_up.
  assert (0 < L * E19) by (unfold E19; lia).
  rewrite checked_mul_ok by (unfold M384, M448 in *; lia). cbn [bind ok_or].
  rewrite checked_sub_ok by lia. cbn [bind ok_or].
  rewrite checked_add_ok by lia. cbn [bind ok_or].
  rewrite checked_div_ok by lia. cbn [bind ok_or].
  rewrite cdiv_eq_div by lia. rewrite y_cquot_eq by auto.
  pose proof (cdiv_bounds (y * E29) L HL0) as HC. set (c := cdiv (y * E29) L) in *. clearbody c.
  unfold dec_checked_sub, checked_cast, checked_sub. unfold wide in Hp.
  destruct (Z.ltb_spec c M128); cbn [ok_or bind].
  - destruct (Z.leb_spec c p); cbn [ok_or]; [left; eexists; reflexivity|].
    right. split; [discriminate|]. nia.
  - right. split; [discriminate|]. unfold M128 in *. nia.
Qed.

Lemma next_x_sub_total p L x : wide p -> u256 L -> 0 < L -> u256 x ->
  isOk (get_next_sqrt_price_x_up p L x false) \/
  (get_next_sqrt_price_x_up p L x false <> Loop /\ (2 ^ 128 - 1) * (L * E19 - p * x) < p * L * E19 + E24).
Proof.
  intros Hp HL HL0 Hx. unfold get_next_sqrt_price_x_up.
  destruct (Z.eqb_spec x 0) as [->|Hx0]; [left; eexists; reflexivity|].
  rewrite liquidity_to_value_eq by auto. cbn [bind].
  rewrite sqrt_price_mul_token_eq by auto. cbn [bind].
  pose proof (L19_fits L HL). pose proof (px_fits p x Hp Hx).
  assert (HB : (M256 - 1) * E19 < M384) by reflexivity.
  pose proof (nom_fits p L Hp HL) as HN. pose proof (nx_nom_bounds p L Hp HL) as HNB.
  assert (HPL : 0 <= p * L * E19) by (apply u256_M in HL; unfold wide, E19 in *; apply Z.mul_nonneg_nonneg; [apply Z.mul_nonneg_nonneg|]; lia).
  destruct (Z.le_gt_cases (L * E19) (p * x)) as [Hle|Hgt].
  { right. split.
    - unfold checked_sub. destruct (Z.leb_spec (p * x) (L * E19)); cbn [ok_or bind]; [|discriminate].
      rewrite sqrt_price_mul_liquidity_up_eq by auto. cbn [bind]. apply bind_noloop; [apply ok_or_noloop|intros ? _].
      repeat (apply bind_noloop; [apply ok_or_noloop|intros ? _]). apply ok_or_noloop.
    - unfold E24. nia. }
  rewrite checked_sub_ok by lia. cbn [bind ok_or].
  rewrite sqrt_price_mul_liquidity_up_eq by auto. cbn [bind].
  unfold checked_big_div_values_up.
  assert (HC : 100000000000000000000000000000 * (M256 - 1) * SQRT_PRICE_ONE < M448 - M384) by reflexivity.
  assert (HNM : nx_nom p L < M448 - M384).
  { unfold nx_nom. change E24 with SQRT_PRICE_ONE in *. unfold SQRT_PRICE_ONE in *. nia. }
  rewrite checked_mul_ok by (change (cdiv (p * L) LIQUIDITY_ONE * SQRT_PRICE_ONE) with (nx_nom p L); unfold M384, M448 in *; lia).
  change (cdiv (p * L) LIQUIDITY_ONE * SQRT_PRICE_ONE) with (nx_nom p L).
  cbn [bind ok_or].
  apply u256_M in Hx. apply u256_M in HL.
  rewrite checked_sub_ok by lia. cbn [bind ok_or].
  rewrite checked_add_ok by lia. cbn [bind ok_or].
  rewrite checked_div_ok by lia. cbn [bind ok_or].
  rewrite cdiv_eq_div by lia.
  pose proof (cdiv_bounds (nx_nom p L) (L * E19 - p * x) ltac:(lia)) as HD. set (c := cdiv (nx_nom p L) (L * E19 - p * x)) in *. clearbody c.
  unfold checked_cast. destruct (Z.ltb_spec c M128); cbn [ok_or]; [left; eexists; reflexivity|].
  right. split; [discriminate|]. change (2 ^ 128) with M128. set (D := L * E19 - p * x) in *. clearbody D.
  assert ((M128 - 1) * D <= (c - 1) * D) by (apply Z.mul_le_mono_nonneg_r; lia). lia.
Qed.

(** The check can only fail because there is no such price; an exact-in rest
    from x to y that is not enough is small. *)
Lemma is_enough_total rem q L fee bi d : wide q -> u256 L -> u256 rem -> 0 <= fee <= E12 ->
  match is_enough_amount_to_change_price rem q L fee bi d with
  | Ok en => en = false -> bi = true -> d = true -> fee <= 990000000000 -> rem <= 100 * L + 200
  | Loop => False
  | _ => L <> 0 /\ unpriced d bi fee q L rem
  end.
Proof.
  intros Hq HL Hr Hf. unfold is_enough_amount_to_change_price.
  destruct (Z.eqb_spec L 0) as [->|HL0]; [congruence|].
  assert (H0 : 0 < L) by (apply u256_M in HL; lia).
  unfold unpriced. change (10 ^ 12) with E12. change (10 ^ 29) with E29. change (10 ^ 19) with E19. change (10 ^ 24) with E24.
  destruct bi.
  - rewrite dec_sub_ok by (change PERCENTAGE_ONE with E12; lia). cbn [bind]. change PERCENTAGE_ONE with E12.
    destruct (after_fee_eq rem fee Hr Hf) as (-> & HA & HF). cbn [bind].
    assert (HAu : u256 (after_fee rem fee)) by (apply u256_M in Hr; apply u256_I; lia).
    unfold get_next_sqrt_price_from_input. destruct d.
    + destruct (next_x_add_eq q L (after_fee rem fee) Hq HL H0 HAu) as [-> _]. cbn [bind].
      intros En _ _ Hf9. apply negb_false_iff, Z.eqb_eq in En.
      pose proof (after_fee_large rem fee Hr ltac:(lia)) as HAF. apply u256_M in HL.
      destruct (Z.eqb_spec (after_fee rem fee) 0) as [E0|N0]; [lia|].
      assert (after_fee rem fee <= L); [|lia].
      set (x := after_fee rem fee) in *. clearbody x.
      assert (HLu : u256 L) by (apply u256_I; lia).
      pose proof (nx_nom_bounds q L Hq HLu) as HNB.
      assert (HD : 0 < L * E19 + q * x) by (unfold wide, E19 in *; nia).
      pose proof (cdiv_bounds (nx_nom q L) (L * E19 + q * x) HD) as HC. fold (nx_in q L x) in HC. rewrite <- En in HC.
      destruct (Z.le_gt_cases x L) as [|Hlt]; [auto|exfalso].
      assert (HK : (q - 1) * (L * E19 + q * x) < q * L * E19 + E24) by lia.
      assert (H1 : (q - 1) * q * x < L * E19 + E24) by lia.
      assert (H2 : 9 * E19 * E19 <= (q - 1) * q * 10) by (unfold wide, E19 in *; nia).
      assert (H3 : 9 * E19 * E19 * x <= (q - 1) * q * 10 * x) by (apply Z.mul_le_mono_nonneg_r; lia).
      unfold E19, E24 in *. lia.
    + destruct (next_y_add_total q L (after_fee rem fee) Hq HL H0 HAu) as [->|(Hn & HLp & HB)].
      { cbn [bind]. discriminate. }
      destruct (get_next_sqrt_price_y_down q L (after_fee rem fee) true) as [v| | |]; cbn [bind]; try tauto.
      exfalso. apply Hn. exists v. reflexivity.
  - unfold get_next_sqrt_price_from_output. destruct d.
    + destruct (next_y_sub_total q L rem Hq HL H0 Hr) as [[v ->]|[Hn HB]]; [cbn [bind]; discriminate|].
      destruct (get_next_sqrt_price_y_down q L rem false); cbn [bind]; try tauto. discriminate.
    + destruct (next_x_sub_total q L rem Hq HL H0 Hr) as [[v ->]|[Hn HB]]; [cbn [bind]; discriminate|].
      destruct (get_next_sqrt_price_x_up q L rem false); cbn [bind]; try tauto. discriminate.
Qed.

(** ** One iteration *)

Lemma tick_cross_total t p ts : p_start_timestamp p <= ts -> 0 <= t_liquidity_change t -> 0 <= cross_liquidity t p < M256 ->
  exists x, tick_cross t p ts = Ok x.
Proof.
  intros Hts Hc HL. unfold tick_cross. rewrite checked_sub_ok by auto. cbn [ok_or bind].
  cbn [set_last_timestamp p_current_tick_index p_liquidity]. unfold cross_liquidity, t_net in HL.
  unfold dec_checked_add, dec_checked_sub.
  destruct (t_index t <=? p_current_tick_index p), (t_sign t); cbn [xorb];
    first [rewrite checked_add_ok by lia|rewrite checked_sub_ok by lia]; cbn [ok_or bind]; eauto.
Qed.

Lemma add_fee_frame p f d pf p' : u256 f -> 0 <= pf -> u256 (p_liquidity p) -> pool_add_fee p f d pf = Ok p' ->
  prot d p' <= prot d p + f /\ p_start_timestamp p' = p_start_timestamp p /\ p_liquidity p' = p_liquidity p /\ p_sqrt_price p' = p_sqrt_price p.
Proof.
  intros Hf Hpf HL H. destruct (pool_add_fee_spec p f d pf p' Hf Hpf HL H) as (part & rest & E & H1 & H2 & _ & [[-> _]|(g & _ & -> & _)]).
  - apply u256_M in Hf. repeat split; auto. lia.
  - unfold prot. destruct d; cbn [set_fees_x set_fees_y p_fee_protocol_token_x p_fee_protocol_token_y p_start_timestamp p_liquidity p_sqrt_price];
      repeat split; auto; lia.
Qed.


Section Live.
  Context (s : state) (I : Inv s) (GB : gross_bound s) (ts : Z) (k : pool_key) (d bi : bool) (a lim tl : Z) (p0 : pool).
  Context (Hp0 : s_pools s !! k = Some p0) (Ha : u256 a).
  Context (Hact : active_at s k (p_current_tick_index p0) = p_liquidity p0).
  Context (Htl : (if d then get_min_tick (pk_spacing k) else get_max_tick (pk_spacing k)) = Ok tl).
  Context (Hrate : pk_fee k <= 990000000000) (Hpos : bi = true -> 0 < pk_fee k).
  Context (Hpf : s_protocol_fee s <= E12) (Hts : p_start_timestamp p0 <= ts).
  Context (Hliq : bi = false -> pool_total s k <= 2 ^ 128).
  Context (Hroom : prot d p0 + (if bi then a else 2 ^ 230) < M256).

  Local Notation LT := (pool_total s k).
  Local Notation P0 := (p_sqrt_price p0).
  Local Notation m0 := (meas d bi (loop_start a p0)).

  Lemma active_nonneg c : 0 <= active_at s k c.
  Proof using I.
    apply msum_nonneg. intros [b m] q Hq. unfold active_of. pose proof (pos_nonneg _ _ _ _ I Hq).
    destruct (_ && _); lia.
  Qed.

  Lemma LT_fits : 0 <= LT < M256.
  Proof using I GB Hp0.
    pose proof (gross_total s k p0 I GB Hp0) as H. change (2 ^ 256) with M256 in H.
    pose proof (active_nonneg 0). pose proof (pool_active_le s k 0 I). lia.
  Qed.

  Definition out_bound (o q : Z) : Prop :=
    dirP d (o * E29 <= LT * (P0 - q)) (o * (P0 * q) <= LT * E19 * (q - P0)).

  Record jinv (l : swap_loop_state) : Prop := {
    j_amount : if bi then l_in l + l_remaining l = a else l_out l + l_remaining l = a;
    j_fee : l_fee l <= l_in l;
    j_prot : prot d (l_pool l) <= prot d p0 + l_in l;
    j_start : p_start_timestamp (l_pool l) = p_start_timestamp p0;
    j_price : dirP d (p_sqrt_price (l_pool l) <= P0) (P0 <= p_sqrt_price (l_pool l));
    j_out : out_bound (l_out l) (p_sqrt_price (l_pool l));
    j_in : bi = false -> l_remaining l <> 0 -> l_in l <= (2 * LT + 2) * (m0 - meas d bi l);
    j_segs : exists segs, pinv s k d bi p0 l segs /\
      Z.of_nat (length segs) <= (if l_remaining l =? 0 then iteration_bound d bi else m0 - meas d bi l);
    j_limit : dirP d (if bi then lim < p_sqrt_price (l_pool l) + 65536 else lim <= p_sqrt_price (l_pool l))
                     (p_sqrt_price (l_pool l) <= lim);
  }.

  Lemma out_bound_fits o q : price_in_range q -> dirP d (q <= P0) (P0 <= q) -> out_bound o q -> o < M256.
  Proof using I GB Hp0.
    clear Htl Hroom. intros Hq Hd H. pose proof LT_fits as HL. pose proof (po_range _ _ (I_pool _ I _ _ Hp0)) as HP.
    unfold price_in_range, MIN_SQRT_PRICE, MAX_SQRT_PRICE in *. unfold out_bound in H. destruct d; cbn [dirP] in *.
    - assert (LT * (P0 - q) <= LT * E29) by (apply Z.mul_le_mono_nonneg_l; unfold E29; lia).
      destruct (Z.lt_ge_cases o M256); [auto|exfalso]. unfold E29 in *. lia.
    - destruct (Z.lt_ge_cases o M256) as [|Hge]; [auto|exfalso].
      assert (H1 : LT * E19 * (q - P0) <= LT * E19 * q) by (apply Z.mul_le_mono_nonneg_l; unfold E19; lia).
      assert (H2 : M256 * (P0 * q) <= o * (P0 * q)) by (apply Z.mul_le_mono_nonneg_r; [apply Z.mul_nonneg_nonneg; lia|lia]).
      assert (H3 : M256 * (E19 * q) <= M256 * (P0 * q)).
      { apply Z.mul_le_mono_nonneg_l; [unfold M256; lia|]. apply Z.mul_le_mono_nonneg_r; unfold E19; lia. }
      assert (H4 : LT * E19 * q < M256 * (E19 * q)).
      { rewrite <- Z.mul_assoc. apply Z.mul_lt_mono_pos_r; [|lia]. unfold E19. lia. }
      lia.
  Qed.

  Lemma out_bound_step o p n L v : price_in_range p -> price_in_range n -> 0 <= v -> 0 <= L <= LT ->
    dirP d (n <= p <= P0) (P0 <= p <= n) ->
    (if d then v * y_den <= y_num p n L else v * x_den p n <= x_num p n L) ->
    out_bound o p -> out_bound (o + v) n.
  Proof using I GB Hp0.
    clear Htl Hroom. intros Hp Hn Hv HL Hd Hs H. pose proof LT_fits as HLT. pose proof (po_range _ _ (I_pool _ I _ _ Hp0)) as HP.
    unfold price_in_range, MIN_SQRT_PRICE, MAX_SQRT_PRICE in *. unfold out_bound in *. destruct d; cbn [dirP] in *.
    - unfold y_num, y_den in Hs. change (10 ^ 29) with E29 in Hs. rewrite Z.abs_eq in Hs by lia.
      assert (L * (p - n) <= LT * (p - n)) by (apply Z.mul_le_mono_nonneg_r; lia). lia.
    - unfold x_num, x_den in Hs. change (10 ^ 19) with E19 in Hs. replace (Z.abs (p - n)) with (n - p) in Hs by lia.
      assert (Hs' : v * (p * n) <= LT * E19 * (n - p)).
      { eapply Z.le_trans; [exact Hs|]. replace (L * (n - p) * E19) with (L * (E19 * (n - p))) by ring.
        rewrite <- Z.mul_assoc. apply Z.mul_le_mono_nonneg_r; [unfold E19; lia|lia]. }
      apply (Z.mul_le_mono_pos_r _ _ p ltac:(lia)).
      assert (A1 : o * (P0 * p) * n <= LT * E19 * (p - P0) * n) by (apply Z.mul_le_mono_nonneg_r; lia).
      assert (A2 : v * (p * n) * P0 <= LT * E19 * (n - p) * P0) by (apply Z.mul_le_mono_nonneg_r; lia).
      replace ((o + v) * (P0 * n) * p) with (o * (P0 * p) * n + v * (p * n) * P0) by ring.
      replace (LT * E19 * (n - P0) * p) with (LT * E19 * (p - P0) * n + LT * E19 * (n - p) * P0) by ring. lia.
  Qed.

  (** The price is at the end of the range. *)
  Definition at_end (q : Z) : Prop :=
    dirP d (q <= price (mint (pk_spacing k) + pk_spacing k)) (price (maxt (pk_spacing k)) <= q).

  Inductive iout (l : swap_loop_state) : res swap_loop_state -> Prop :=
  | io_ok l' : iout l (Ok l')
  | io_price l' target r p1 : istep s k d bi lim l l' target r p1 -> sr_next_sqrt_price r = lim ->
      l_remaining l - (if bi then sr_amount_in r + sr_fee_amount r else sr_amount_out r) <> 0 ->
      iout l (Err PriceLimitReached)
  | io_end : at_end (p_sqrt_price (l_pool l)) -> iout l (Err TickLimitReached)
  | io_end2 l' target r p1 : istep s k d bi lim l l' target r p1 -> at_end (sr_next_sqrt_price r) -> iout l (Err TickLimitReached)
  | io_over target r : d = true -> bi = true -> price_in_range target -> target <= p_sqrt_price (l_pool l) ->
      compute_swap_step (p_sqrt_price (l_pool l)) target (p_liquidity (l_pool l)) (l_remaining l) true (pk_fee k) = Ok r ->
      l_remaining l < sr_amount_in r + sr_fee_amount r <= l_remaining l + 2 * (l_remaining l / 10 ^ 14) + 3 -> iout l Panic
  | io_low target r : d = true -> bi = true -> price_in_range target -> target <= p_sqrt_price (l_pool l) ->
      compute_swap_step (p_sqrt_price (l_pool l)) target (p_liquidity (l_pool l)) (l_remaining l) true (pk_fee k) = Ok r ->
      sr_next_sqrt_price r < 15258932000000000000 -> iout l Panic
  | io_stuck l' target r p1 : istep s k d bi lim l l' target r p1 -> p_liquidity (l_pool l) <> 0 ->
      unpriced d bi (pk_fee k) (sr_next_sqrt_price r) (p_liquidity (l_pool l))
        (l_remaining l - (if bi then sr_amount_in r + sr_fee_amount r else sr_amount_out r)) -> iout l Panic.

  Definition stepped (l : swap_loop_state) (r : swap_result) (p1 : pool) : swap_loop_state :=
    mkLoop (set_sqrt_price (sr_next_sqrt_price r) p1)
      (l_remaining l - (if bi then sr_amount_in r + sr_fee_amount r else sr_amount_out r))
      (l_in l + (sr_amount_in r + sr_fee_amount r)) (l_out l + sr_amount_out r) (l_fee l + sr_fee_amount r) (l_ticks l).

  (** The ticks on the way are beyond the target. *)
  Lemma closer_clear l target lt : Inv (mid s k l) -> dirP d (lim < p_sqrt_price (l_pool l)) (p_sqrt_price (l_pool l) < lim) ->
    get_closer_limit (s_bitmap s) lim d (p_current_tick_index (l_pool l)) (pk_spacing k) k = Ok (target, lt) ->
    forall v, is_Some (s_ticks s !! (k, v)) ->
      dirP d (v <= p_current_tick_index (l_pool l) -> price v <= target) (p_current_tick_index (l_pool l) < v -> target <= price v).
  Proof using I.
    clear Htl Hroom. intros I' Hlim E1.
    destruct (closer_facts (mid s k l) k (l_pool l) d lim target lt I' (mid_pool s k l) Hlim E1) as (T1 & T2 & T3).
    assert (TK : forall v, is_Some (s_ticks s !! (k, v)) -> okt (pk_spacing k) v).
    { intros v [t Ht]. apply (to_okt _ _ _ _ (proj2 (I_tick _ I _ _ _ Ht))). }
    assert (TN : forall v, s_ticks (mid s k l) !! (k, v) = None -> ~ is_Some (s_ticks s !! (k, v))).
    { intros v Hv Hx. apply (mid_ticks s k l v I I') in Hx. rewrite Hv in Hx. destruct Hx; discriminate. }
    set (c := p_current_tick_index (l_pool l)) in *. set (sp := pk_spacing k) in *.
    intros v Hv. pose proof (okt_valid _ _ (TK v Hv)) as Hvv. destruct d; cbn [dirP] in *; intros Hvc; (destruct lt as [[i b]|]; [destruct T3 as (T3 & T4 & T5 & _ & _ & T6 & _); rewrite T3|destruct T3 as (T3 & j & T4 & T5 & T6); rewrite T3]).
    - apply price_le; [exact Hvv|apply (okt_valid sp); auto|]. destruct (Z.le_gt_cases v i); [auto|].
      exfalso. apply (TN v); [apply T6; lia|auto].
    - transitivity (price j); [|lia]. apply price_le; [exact Hvv|apply (okt_valid sp); auto|]. destruct (Z.le_gt_cases v j); [auto|].
      exfalso. apply (TN v); [apply T6; lia|auto].
    - apply price_le; [apply (okt_valid sp); auto|exact Hvv|]. destruct (Z.le_gt_cases i v); [auto|].
      exfalso. apply (TN v); [apply T6; lia|auto].
    - transitivity (price j); [lia|]. apply price_le; [apply (okt_valid sp); auto|exact Hvv|]. destruct (Z.le_gt_cases j v); [auto|].
      exfalso. apply (TN v); [apply T6; lia|auto].
  Qed.

  Lemma closer_end l : Inv (mid s k l) ->
    match get_closer_limit (s_bitmap s) lim d (p_current_tick_index (l_pool l)) (pk_spacing k) k with
    | Ok _ => True | Err e => e = TickLimitReached /\ at_end (p_sqrt_price (l_pool l)) | _ => False end.
  Proof using.
    clear Htl Hroom. intros I'. pose proof (I_pool _ I' _ _ (mid_pool s k l)) as PO. pose proof (pool_spacing _ _ PO) as Hs.
    pose proof (po_tick _ _ PO) as Ho. set (c := p_current_tick_index (l_pool l)) in *. set (sp := pk_spacing k) in *.
    pose proof (proj1 (okt_bounds sp c ltac:(lia)) Ho) as [HB _].
    unfold at_end. fold sp. destruct d; cbn [dirP].
    - pose proof (get_closer_limit_down (s_bitmap s) k sp lim c (I_wf _ I') ltac:(lia) Ho) as HC.
      destruct HC as [| |Hn Hc| |]; auto. split; [reflexivity|]. unfold lo_lim in Hc.
      assert (Ec : c = mint sp) by lia.
      destruct (Z.le_gt_cases (c + sp) 221818) as [Hle|Hgt].
      + rewrite <- Ec. apply (po_up _ _ PO). destruct Ho as [Ho _]. unfold valid_tick. fold c sp. lia.
      + exfalso. unfold mint, MX in Ec. pose proof (div_nonneg 221818 sp ltac:(lia) ltac:(lia)). nia.
    - pose proof (get_closer_limit_up (s_bitmap s) k sp lim c (I_wf _ I') ltac:(lia) Ho) as HC.
      destruct HC as [| |Hn Hc| |]; auto. split; [reflexivity|]. unfold hi_lim in Hc.
      assert (Ec : c = maxt sp) by lia. rewrite <- Ec. apply (po_lo _ _ PO).
  Qed.

  Lemma min_valid : okt (pk_spacing k) (mint (pk_spacing k) + pk_spacing k) /\ 1 <= pk_spacing k <= 100.
  Proof using I Hp0.
    pose proof (pool_spacing _ _ (I_pool _ I _ _ Hp0)) as Hs. split; [|exact Hs]. set (sp := pk_spacing k) in *. clearbody sp.
    unfold mint, MX. pose proof (div_bounds 221818 sp ltac:(lia)). split; [unfold valid_tick; nia|].
    exists (1 - 221818 / sp). ring.
  Qed.

  (** The tick below a price at which the swap ends is at the end. *)
  Lemma tick_end n c : get_tick_at_sqrt_price n (pk_spacing k) = Ok c -> dirP d (c <= tl) (tl <= c) -> at_end n.
  Proof using I Hp0 Htl.
    intros Hc Hd. destruct min_valid as [Hm Hs].
    assert (Etl : tl = if d then mint (pk_spacing k) else maxt (pk_spacing k)) by (apply tick_limits; [lia|exact Htl]).
    clear Htl Hroom.
    destruct (get_tick_aligned n _ c Hs Hc) as (G1 & G2 & G3 & G4 & G5 & G6 & G7).
    unfold at_end. destruct d; cbn [dirP] in *; subst tl.
    - destruct (Z.le_gt_cases n (price (mint (pk_spacing k) + pk_spacing k))) as [|Hgt]; [auto|exfalso].
      specialize (G6 _ Hm ltac:(lia)). lia.
    - destruct (Z.le_gt_cases (price (maxt (pk_spacing k))) n) as [|Hgt]; [auto|exfalso].
      specialize (G7 _ (okt_maxt (pk_spacing k) (proj1 Hs)) Hgt). lia.
  Qed.

  Lemma tick_end2 i c : okt (pk_spacing k) i -> dirP d (i - pk_spacing k <= c) (c = i) -> dirP d (c <= tl) (tl <= c) -> at_end (price i).
  Proof using I Hp0 Htl.
    intros Ho Hc Hd. destruct min_valid as [Hm Hs].
    assert (Etl : tl = if d then mint (pk_spacing k) else maxt (pk_spacing k)) by (apply tick_limits; [lia|exact Htl]).
    clear Htl Hroom.
    unfold at_end. pose proof (okt_valid _ _ Ho). pose proof (okt_valid _ _ Hm). pose proof (okt_valid _ _ (okt_maxt (pk_spacing k) (proj1 Hs))).
    destruct d; cbn [dirP] in *; subst tl; apply price_le; auto; lia.
  Qed.

  Lemma liquidity_le l : linv s k d bi lim p0 l -> l_remaining l <> 0 ->
    active_at s k (cur l) = p_liquidity (l_pool l) /\ 0 <= p_liquidity (l_pool l) <= LT.
  Proof using I Hact.
    intros V Hnz. pose proof (v_liq _ _ _ _ _ _ _ V (linv_exact _ _ _ _ _ _ l V Hnz) Hact) as HLA.
    split; [exact HLA|]. rewrite <- HLA. split; [apply active_nonneg|apply pool_active_le; exact I].
  Qed.

  Lemma step_ready l target lt : linv s k d bi lim p0 l -> jinv l -> l_remaining l <> 0 ->
    get_closer_limit (s_bitmap s) lim d (p_current_tick_index (l_pool l)) (pk_spacing k) k = Ok (target, lt) ->
    exists r, compute_swap_step (p_sqrt_price (l_pool l)) target (p_liquidity (l_pool l)) (l_remaining l) bi (pk_fee k) = Ok r /\
    ((d = true /\ bi = true /\ price_in_range target /\ target <= p_sqrt_price (l_pool l) /\
      sr_next_sqrt_price r < 15258932000000000000) \/
     (d = true /\ bi = true /\ price_in_range target /\ target <= p_sqrt_price (l_pool l) /\
      l_remaining l < sr_amount_in r + sr_fee_amount r <= l_remaining l + 2 * (l_remaining l / 10 ^ 14) + 3) \/
     (sr_amount_in r + sr_fee_amount r < M256 /\
      0 <= l_remaining l - (if bi then sr_amount_in r + sr_fee_amount r else sr_amount_out r) /\
      exists p1, pool_add_fee (l_pool l) (sr_fee_amount r) d (s_protocol_fee s) = Ok p1 /\
        istep s k d bi lim l (stepped l r p1) target r p1 /\ pool_ok k p1 /\
        p_liquidity p1 = p_liquidity (l_pool l) /\ p_current_tick_index p1 = p_current_tick_index (l_pool l) /\
        p_start_timestamp p1 = p_start_timestamp p0 /\
        prot d p1 + (if bi then l_remaining l - (sr_amount_in r + sr_fee_amount r) else 0) < M256 /\
        l_in l + (sr_amount_in r + sr_fee_amount r) + (if bi then l_remaining l - (sr_amount_in r + sr_fee_amount r) else 0) < M256)).
  Proof using I GB Hp0 Ha Hact Hrate Hpos Hpf Hliq Hroom.
    clear Htl. intros V J Hnz E1. destruct (linv_ready _ _ _ _ _ _ l V Hnz) as [I' Hrem Hlim _].
    pose proof (I_pool _ I' _ _ (mid_pool s k l)) as PO. pose proof (pool_spacing _ _ PO) as Hs.
    pose proof (po_tier _ _ PO) as [_ Hf0]. fold (pk_fee k) in Hf0.
    assert (Hfee : 0 <= pk_fee k <= E12) by (unfold pk_fee in *; change (10 ^ 12) with E12 in Hf0; lia).
    assert (Hfee9 : 0 <= pk_fee k <= 990000000000) by lia.
    pose proof (closer_clear l target lt I' Hlim E1) as CLR.
    destruct (closer_facts (mid s k l) k (l_pool l) d lim target lt I' (mid_pool s k l) Hlim E1) as (T1 & T2 & _).
    destruct (liquidity_le l V Hnz) as [HLA HLL]. pose proof LT_fits as HLT.
    pose proof (po_range _ _ PO) as HR. pose proof (po_liq _ _ PO) as HL.
    set (p := p_sqrt_price (l_pool l)) in *. set (L := p_liquidity (l_pool l)) in *. set (am := l_remaining l) in *.
    assert (HT : exists r, compute_swap_step p target L am bi (pk_fee k) = Ok r).
    { apply step_total; auto. destruct bi; [left; auto|right; left; reflexivity]. }
    destruct HT as [r E2]. exists r. split; [exact E2|].
    destruct (step_amounts _ _ _ _ _ _ _ HR T1 HL Hrem Hfee E2) as (U1 & U2 & U3 & U4).
    pose proof (step_in_le _ _ _ _ _ _ HR T1 HL Hrem Hfee9 r E2) as B1.
    pose proof (step_fee_le _ _ _ _ _ _ HR T1 HL Hrem Hfee9 r E2) as B2.
    pose proof (step_fee_le_in _ _ _ _ _ _ HR T1 HL Hrem Hfee9 r E2) as B3.
    pose proof (u256_M _ U1) as M1. pose proof (u256_M _ U2) as M2. pose proof (u256_M _ U3) as M3.
    pose proof (u256_M _ Hrem) as Mr. pose proof (u256_M _ Ha) as Ma.
    pose proof (u256_M _ (v_in _ _ _ _ _ _ _ V)) as Mi.
    pose proof (u256_M _ (v_fee _ _ _ _ _ _ _ V)) as Mfe.
    set (n := sr_next_sqrt_price r) in *.
    assert (HD : dirP d (n <= p) (p <= n <= target)).
    { destruct d; cbn [dirP] in *.
      - apply (step_price_x_to_y _ _ _ _ _ _ HR T1 HL Hrem Hfee r E2). lia.
      - destruct (Z.eq_dec p target) as [Eq|Ne].
        + rewrite <- Eq in E2. destruct (step_same_price _ _ _ _ _ _ HR HL Hrem Hfee E2) as (EE & _). fold n in EE. lia.
        + apply (step_price_y_to_x _ _ _ _ _ _ HR T1 HL Hrem Hfee r E2). lia. }
    assert (HN : price_in_range n \/ (d = true /\ bi = true /\ target <= p /\ n < 15258932000000000000)).
    { unfold price_in_range in *. destruct d; cbn [dirP] in *; [|left; lia].
      destruct (Z.le_gt_cases 15258932000000000000 n) as [|Hlt]; [left; lia|right]. split; [reflexivity|].
      destruct bi.
      - split; [reflexivity|]. split; lia.
      - pose proof (step_price_exact_out _ _ _ _ _ _ HR T1 HL Hrem Hfee r E2 ltac:(lia) eq_refl) as SO. fold n in SO. lia. }
    destruct HN as [HN|(? & ? & ? & ?)]; [right|left; auto 6].
    (* what is charged *)
    assert (CH : (d = true /\ bi = true /\ target <= p /\ am < sr_amount_in r + sr_fee_amount r <= am + 2 * (am / 10 ^ 14) + 3) \/
                 (sr_amount_in r + sr_fee_amount r < M256 /\
                  0 <= am - (if bi then sr_amount_in r + sr_fee_amount r else sr_amount_out r))).
    { destruct bi eqn:Eb.
      - destruct (step_exact_in_amount _ _ _ _ _ _ HR T1 HL Hrem Hfee r E2 eq_refl) as [Hle|(Htp & Hn & Hov)]; [right; lia|].
        destruct (Z.le_gt_cases (sr_amount_in r + sr_fee_amount r) am); [right; lia|].
        pose proof (step_overspend _ _ _ _ _ _ HR T1 HL Hrem Hfee E2 Hn Htp Hov) as OS.
        destruct d eqn:Ed; cbn [dirP] in *.
        + left. split; [reflexivity|]. split; [reflexivity|]. split; [lia|]. lia.
        + exfalso. assert (Eq : p = target) by lia. rewrite <- Eq in E2.
          destruct (step_same_price _ _ _ _ _ _ HR HL Hrem Hfee E2) as (_ & Z1 & _ & Z3). lia.
      - right. specialize (B3 eq_refl). assert (sr_amount_in r <= 2 ^ 128) by (specialize (Hliq eq_refl); lia).
        split; [change M256 with (2 ^ 256); lia|].
        destruct (step_fields p target L am false (pk_fee k) HR T1 HL Hrem Hfee r E2) as [(_ & _ & _ & Z3 & _)|(_ & _ & _ & Z3 & _)]; lia. }
    destruct CH as [(? & ? & ? & ?)|[Hsum Hrem1]]; [left; auto 6|right]. split; [exact Hsum|]. split; [exact Hrem1|].
    assert (HIN : l_in l + (sr_amount_in r + sr_fee_amount r) + (if bi then am - (sr_amount_in r + sr_fee_amount r) else 0) <= (if bi then a else 2 ^ 230)).
    { pose proof (j_amount l J) as JA. pose proof (j_in l J) as JI. destruct bi eqn:Eb; [lia|].
      specialize (B3 eq_refl). specialize (JI eq_refl Hnz). specialize (Hliq eq_refl).
      pose proof (meas_bound k d false l PO) as MB. pose proof (meas_bound k d false (loop_start a p0) (I_pool _ I _ _ Hp0)) as MB0.
      assert (iteration_bound d false <= 2 ^ 96) by (unfold iteration_bound; destruct d; cbn [orb]; lia).
      set (m := meas d false (loop_start a p0) - meas d false l) in *.
      assert ((2 * LT + 2) * m <= (2 * 2 ^ 128 + 2) * 2 ^ 96).
      { transitivity ((2 * LT + 2) * 2 ^ 96); [apply Z.mul_le_mono_nonneg_l; lia|apply Z.mul_le_mono_nonneg_r; lia]. }
      lia. }
    assert (HAM : (if bi then a else 2 ^ 230) < M256) by (destruct bi; [lia|reflexivity]).
    pose proof (j_prot l J) as JP. pose proof (j_fee l J) as JF.
    assert (Hx : 0 <= (if bi then am - (sr_amount_in r + sr_fee_amount r) else 0)) by (destruct bi; lia).
    destruct (add_fee_total k (l_pool l) (sr_fee_amount r) d (s_protocol_fee s) PO U3) as (p1 & E5 & P1 & P2).
    { pose proof (u128_M _ (I_fee _ I)). lia. }
    { right. fold L. lia. }
    { lia. }
    exists p1. split; [exact E5|].
    destruct (pool_add_fee_ok k _ _ d (s_protocol_fee s) p1 PO U3 (proj1 (u128_M _ (I_fee _ I))) E5) as (PO1 & F1 & F2 & F3 & F4).
    assert (Hdp : dirP d (target <= p) (p <= target)) by (destruct d; cbn [dirP] in *; lia).
    pose proof (seg_out_le p target L am bi (pk_fee k) d HR T1 HL Hrem Hfee Hdp r E2 HN 0 U2) as [S1 S2].
    cbn [seg g_out g_from g_to g_liquidity] in S1, S2. fold n in S2.
    pose proof (j_price l J) as JPR. fold p in JPR.
    assert (HOUT : l_out l + sr_amount_out r < M256).
    { apply (out_bound_fits _ n HN); [destruct d; cbn [dirP] in *; lia|].
      apply (out_bound_step _ p n L _ HR HN); [exact S1|exact HLL|destruct d; cbn [dirP] in *; lia|exact S2|apply (j_out l J)]. }
    split; [constructor; auto; cbn [stepped l_fee l_out l_in]; auto; try lia|].
    split; [exact PO1|]. split; [exact F1|]. split; [exact F3|]. split; [rewrite F4; apply (j_start l J)|]. split; [|lia].
    lia.
  Qed.

  Lemma cross_fits l i t p2 : linv s k d bi lim p0 l -> l_remaining l <> 0 -> s_ticks s !! (k, i) = Some t ->
    p_liquidity p2 = p_liquidity (l_pool l) -> p_current_tick_index p2 = p_current_tick_index (l_pool l) ->
    dirP d (i <= p_current_tick_index (l_pool l)) (p_current_tick_index (l_pool l) < i) ->
    (forall v, dirP d (i < v <= p_current_tick_index (l_pool l)) (p_current_tick_index (l_pool l) < v < i) -> ~ is_Some (s_ticks s !! (k, v))) ->
    0 <= cross_liquidity t p2 < M256 /\ 0 <= t_liquidity_change t /\ t_index t = i.
  Proof using I GB Hp0 Hact.
    intros V Hnz Ht E1 E2 Hi Hcl. destruct (liquidity_le l V Hnz) as [HLA _]. unfold cur in HLA.
    destruct (I_tick _ I _ _ _ Ht) as [_ TO]. pose proof LT_fits as HLT. destruct min_valid as [_ Hs].
    split; [|split; [pose proof (u256_M _ (to_change _ _ _ _ TO)); lia|apply TO]].
    assert (TK : forall v, is_Some (s_ticks s !! (k, v)) -> okt (pk_spacing k) v).
    { intros v [tv Hv]. apply (to_okt _ _ _ _ (proj2 (I_tick _ I _ _ _ Hv))). }
    assert (X : exists c', cross_liquidity t p2 = active_at s k c').
    { unfold cross_liquidity. rewrite (to_index _ _ _ _ TO), (to_net _ _ _ _ TO), E1, E2, <- HLA.
      set (c := p_current_tick_index (l_pool l)) in *. clear Htl Hroom V HLA. destruct d; cbn [dirP] in *.
      - rewrite (proj2 (Z.leb_le i c)) by lia. exists (i - pk_spacing k).
        rewrite (active_cross s k (i - pk_spacing k) c i I); [lia|lia|].
        intros v Hv. unfold passed. split; [|lia]. intros [Hx|Hx]; [lia|].
        destruct (Z.le_gt_cases v i) as [Hle|Hgt]; [|exfalso; apply (Hcl v); [lia|auto]].
        apply (okt_between (pk_spacing k)); [lia|apply (to_okt _ _ _ _ TO)|auto|lia].
      - rewrite (proj2 (Z.leb_gt i c)) by lia. exists i. symmetry. apply active_cross; [exact I|lia|].
        intros v Hv. unfold passed. split; [|lia]. intros [Hx|Hx]; [lia|].
        destruct (Z.eq_dec v i); [auto|exfalso; apply (Hcl v); [lia|auto]]. }
    destruct X as [c' ->]. pose proof (active_nonneg c'). pose proof (pool_active_le s k c' I). lia.
  Qed.

  (** A price below the minimum has no tick. *)
  Lemma low_panic l target lt r : linv s k d bi lim p0 l -> l_remaining l <> 0 -> d = true -> bi = true ->
    get_closer_limit (s_bitmap s) lim d (p_current_tick_index (l_pool l)) (pk_spacing k) k = Ok (target, lt) ->
    price_in_range target -> target <= p_sqrt_price (l_pool l) ->
    compute_swap_step (p_sqrt_price (l_pool l)) target (p_liquidity (l_pool l)) (l_remaining l) bi (pk_fee k) = Ok r ->
    sr_next_sqrt_price r < 15258932000000000000 ->
    swap_iteration s k d bi lim tl ts l = Panic.
  Proof using I.
    intros V Hnz Hd Hb E1 T1 T2 E2 HO. pose proof (v_inv _ _ _ _ _ _ _ V) as I'.
    pose proof (I_pool _ I' _ _ (mid_pool s k l)) as PO.
    assert (Hfee : 0 <= pk_fee k <= E12).
    { pose proof (po_tier _ _ PO) as [_ Hf0]. unfold pk_fee in *. change (10 ^ 12) with E12 in Hf0. lia. }
    assert (Hn : sr_next_sqrt_price r <> target) by (unfold price_in_range in T1; lia).
    destruct (step_amounts _ _ _ _ _ _ _ (po_range _ _ PO) T1 (po_liq _ _ PO) (v_rem _ _ _ _ _ _ _ V) Hfee E2) as (_ & _ & _ & U4).
    assert (HL0 : p_liquidity (l_pool l) <> 0) by (intros Z0; apply Hn, U4, Z0).
    pose proof (step_exact_in_short _ _ _ _ _ _ (po_range _ _ PO) T1 (po_liq _ _ PO) (v_rem _ _ _ _ _ _ _ V) Hfee r E2 Hb HL0 Hn) as ES.
    destruct (linv_ready _ _ _ _ _ _ l V Hnz) as [_ _ Hlim _].
    destruct (closer_facts (mid s k l) k (l_pool l) d lim target lt I' (mid_pool s k l) Hlim E1) as (_ & _ & T3).
    unfold swap_iteration. cbv zeta. rewrite E1. cbn [bind]. rewrite E2. cbn [unwrap bind].
    unfold dec_add at 1. destruct (checked_add M256 (sr_amount_in r) (sr_fee_amount r)) as [v|] eqn:EA; [|reflexivity].
    apply checked_add_Some in EA as [-> _]. cbn [expect bind]. rewrite ES, Hb. rewrite dec_sub_ok by lia. cbn [bind].
    rewrite Z.sub_diag. destruct (unwrap (pool_add_fee (l_pool l) (sr_fee_amount r) d (s_protocol_fee s))) as [p1|e| |] eqn:EP; cbn [bind].
    2: { exfalso. destruct (pool_add_fee _ _ _ _); discriminate. }
    2: reflexivity.
    2: { exfalso. pose proof (pool_add_fee_noloop (l_pool l) (sr_fee_amount r) d (s_protocol_fee s)). destruct (pool_add_fee _ _ _ _); discriminate || contradiction. }
    unfold dec_add at 1. destruct (checked_add M256 (l_fee l) _); [cbn [expect bind]|reflexivity].
    unfold dec_add at 1. destruct (checked_add M256 (l_in l) _); [cbn [expect bind]|reflexivity].
    unfold dec_add at 1. destruct (checked_add M256 (l_out l) _); [cbn [expect bind]|reflexivity].
    rewrite andb_false_r. cbn [fail_if bind].
    assert (GP : forall (A : Type) (f : Z -> res A), (let* c := unwrap (get_tick_at_sqrt_price (sr_next_sqrt_price r) (ft_tick_spacing (pk_fee_tier k))) in f c) = Panic).
    { intros A f. pose proof (get_tick_at_noloop (sr_next_sqrt_price r) (ft_tick_spacing (pk_fee_tier k))) as NL.
      destruct (get_tick_at_sqrt_price _ _) as [c|e| |] eqn:EG; cbn [unwrap bind]; try reflexivity; [|contradiction].
      apply get_tick_Ok_range in EG. unfold price_in_range in EG. lia. }
    assert (TT : exists tk, match lt with Some (ti, true) => let* t := ticks_get s k ti in Ok (TickInitialized t) | Some (ti, false) => Ok (TickUninitialized ti) | None => Ok NoTick end = Ok tk).
    { destruct lt as [[i [|]]|]; [|eauto|eauto]. destruct T3 as (_ & _ & _ & T6 & _).
      specialize (T6 eq_refl). apply (mid_ticks s k l i I I') in T6 as [t Ht]. unfold ticks_get. rewrite Ht. cbn [ok_or bind]. eauto. }
    destruct TT as [tk ->]. cbn [bind]. unfold pool_update_tick.
    replace (target =? sr_next_sqrt_price r) with false by (symmetry; apply Z.eqb_neq; auto). cbn [negb]. rewrite orb_true_r.
    rewrite GP. reflexivity.
  Qed.

  Lemma progress l : linv s k d bi lim p0 l -> jinv l -> l_remaining l <> 0 ->
    iout l (swap_iteration s k d bi lim tl ts l).
  Proof using I GB Hp0 Ha Hact Htl Hrate Hpos Hpf Hts Hliq Hroom.
    intros V J Hnz. pose proof (v_inv _ _ _ _ _ _ _ V) as I'.
    pose proof (I_pool _ I' _ _ (mid_pool s k l)) as PO. destruct min_valid as [_ Hs].
    pose proof (closer_end l I') as CE.
    destruct (get_closer_limit (s_bitmap s) lim d (p_current_tick_index (l_pool l)) (pk_spacing k) k) as [[target lt]|e| |] eqn:E1;
      [|destruct CE as [-> CE]; unfold swap_iteration; cbv zeta; rewrite E1; apply io_end; exact CE|contradiction|contradiction].
    clear CE. destruct (step_ready l target lt V J Hnz E1) as (r & E2 & H).
    destruct H as [(Hd & Hb & T1 & T2 & HO)|[(Hd & Hb & T1 & T2 & HO)|(Hsum & Hrem1 & p1 & E5 & S & PO1 & F1 & F3 & F4 & HP & HI)]].
    { rewrite (low_panic l target lt r V Hnz Hd Hb E1 T1 T2 E2 HO). rewrite Hb in E2. exact (io_low l target r Hd Hb T1 T2 E2 HO). }
    all: unfold swap_iteration; cbv zeta; rewrite E1; cbn [bind]; rewrite E2; cbn [unwrap bind].
    { rewrite Hb in E2 |- *. unfold dec_add, checked_add.
      destruct (Z.ltb_spec (sr_amount_in r + sr_fee_amount r) M256); cbn [expect bind ok_or];
        [unfold dec_sub, checked_sub; destruct (Z.leb_spec (sr_amount_in r + sr_fee_amount r) (l_remaining l)); [lia|]|];
        cbn [expect bind ok_or]; apply (io_over l target r); auto. }
    rewrite (dec_add_ok M256 (sr_amount_in r)) by exact Hsum. cbn [bind].
    set (rem1 := l_remaining l - (if bi then sr_amount_in r + sr_fee_amount r else sr_amount_out r)) in *.
    assert (ER : (if bi then dec_sub (l_remaining l) (sr_amount_in r + sr_fee_amount r) else dec_sub (l_remaining l) (sr_amount_out r)) = Ok rem1).
    { unfold rem1 in *. destruct bi; apply dec_sub_ok; lia. }
    rewrite ER. cbn [bind]. rewrite E5. cbn [unwrap bind].
    pose proof (is_l_fee_fits _ _ _ _ _ _ _ _ _ _ S) as Ff. cbn [stepped l_fee] in Ff.
    pose proof (is_l_out_fits _ _ _ _ _ _ _ _ _ _ S) as Fo. cbn [stepped l_out] in Fo.
    pose proof (is_l_in_fits _ _ _ _ _ _ _ _ _ _ S) as Fi. cbn [stepped l_in] in Fi.
    rewrite (dec_add_ok M256 (l_fee l)) by exact Ff. cbn [bind].
    rewrite (dec_add_ok M256 (l_in l)) by exact Fi. cbn [bind].
    rewrite (dec_add_ok M256 (l_out l)) by exact Fo. cbn [bind].
    set (n := sr_next_sqrt_price r) in *. set (p2 := set_sqrt_price n p1) in *.
    change (p_sqrt_price p2) with n.
    destruct ((n =? lim) && negb (rem1 =? 0)) eqn:EL; cbn [fail_if bind].
    { apply andb_true_iff in EL as [El1 El2]. apply Z.eqb_eq in El1. apply negb_true_iff, Z.eqb_neq in El2.
      exact (io_price l (stepped l r p1) target r p1 S El1 El2). }
    destruct (linv_ready _ _ _ _ _ _ l V Hnz) as [_ _ Hlim _].
    destruct (closer_facts (mid s k l) k (l_pool l) d lim target lt I' (mid_pool s k l) Hlim E1) as (T1 & T2 & T3).
    pose proof (is_next _ _ _ _ _ _ _ _ _ _ S) as HN. fold n in HN.
    (* the end of an iteration whose current tick is c *)
    assert (FIN : forall c x, (dirP d (c <= tl) (tl <= c) -> at_end n) ->
      iout l (let* _ := fail_if (if d then c <=? tl else tl <=? c) TickLimitReached in Ok x)).
    { intros c x HE. destruct (if d then c <=? tl else tl <=? c) eqn:EF; cbn [fail_if bind]; [|apply io_ok].
      apply (io_end2 l (stepped l r p1) target r p1 S). apply HE. clear - EF. destruct d; cbn [dirP]; lia. }
    unfold pool_update_tick. change (ft_tick_spacing (pk_fee_tier k)) with (pk_spacing k). change (ft_fee (pk_fee_tier k)) with (pk_fee k). fold n.
    assert (GT : exists c, get_tick_at_sqrt_price n (pk_spacing k) = Ok c).
    { destruct (get_tick_spec n (pk_spacing k) HN Hs) as (T & _ & _ & _ & ET). eauto. }
    destruct GT as [cn GT].
    pose proof (is_enough_total rem1 n (p_liquidity (l_pool l)) (pk_fee k) bi d (range_wide n HN) (po_liq _ _ PO)) as EN.
    assert (Hrem1u : u256 rem1).
    { apply u256_I. split; [exact Hrem1|]. pose proof (u256_M _ (v_rem _ _ _ _ _ _ _ V)).
      pose proof (u256_M _ (is_in _ _ _ _ _ _ _ _ _ _ S)). pose proof (u256_M _ (is_out _ _ _ _ _ _ _ _ _ _ S)).
      pose proof (u256_M _ (is_fee _ _ _ _ _ _ _ _ _ _ S)). unfold rem1. destruct bi; lia. }
    specialize (EN Hrem1u).
    assert (Hfee : 0 <= pk_fee k <= E12).
    { pose proof (po_tier _ _ PO) as [_ Hf0]. unfold pk_fee in *. change (10 ^ 12) with E12 in Hf0. lia. }
    specialize (EN Hfee). change (p_liquidity p2) with (p_liquidity p1). rewrite F1.
    assert (TN : forall v, s_ticks (mid s k l) !! (k, v) = None -> ~ is_Some (s_ticks s !! (k, v))).
    { intros v Hv Hx. apply (mid_ticks s k l v I I') in Hx. rewrite Hv in Hx. destruct Hx; discriminate. }
    destruct lt as [[i b]|].
    - destruct T3 as (T3 & T4 & T5 & T6 & T7 & T8 & _).
      (* the limiting tick *)
      assert (TT : exists tk, (if b then let* t := ticks_get s k i in Ok (TickInitialized t) else Ok (TickUninitialized i)) = Ok tk /\
                   (b = true -> exists t, tk = TickInitialized t /\ s_ticks s !! (k, i) = Some t) /\ (b = false -> tk = TickUninitialized i)).
      { destruct b; [|eexists; split; [reflexivity|split; [discriminate|reflexivity]]].
        specialize (T6 eq_refl). apply (mid_ticks s k l i I I') in T6 as [t Ht].
        unfold ticks_get. rewrite Ht. cbn [ok_or bind]. eexists. split; [reflexivity|]. split; [eauto|discriminate]. }
      destruct TT as (tk & ET & TT1 & TT2).
      assert (ET' : match Some (i, b) with Some (ti, true) => let* t := ticks_get s k ti in Ok (TickInitialized t) | Some (ti, false) => Ok (TickUninitialized ti) | None => Ok NoTick end = Ok tk) by (destruct b; exact ET).
      cbv iota in ET' |- *. rewrite ET'. cbn [bind]. clear ET ET'.
      assert (NT : match tk with NoTick => true | _ => false end = false).
      { destruct b; [destruct (TT1 eq_refl) as (t & -> & _)|rewrite (TT2 eq_refl)]; reflexivity. }
      rewrite NT. cbn [orb]. destruct (Z.eqb_spec target n) as [Etn|Ntn]; cbn [negb].
      2: { rewrite GT. cbn [unwrap bind]. rewrite dec_add_ok by lia. cbn [bind].
           change (p_current_tick_index (set_current_tick_index cn p2)) with cn.
           apply FIN. apply (tick_end n cn GT). }
      destruct (is_enough_amount_to_change_price rem1 n (p_liquidity (l_pool l)) (pk_fee k) bi d) as [en|e| |] eqn:EE.
      2: { cbn [unwrap bind]. apply (io_stuck l (stepped l r p1) target r p1 S); apply EN. }
      2: { cbn [unwrap bind]. apply (io_stuck l (stepped l r p1) target r p1 S); apply EN. }
      2: contradiction.
      cbn [unwrap bind].
      assert (EIN : forall x, (dirP d (i - pk_spacing k <= x) (x = i)) -> dirP d (x <= tl) (tl <= x) -> at_end n).
      { intros x H1 H2. rewrite <- Etn, T3. exact (tick_end2 i x T4 H1 H2). }
      assert (ECUR : dirP d (i - pk_spacing k <= (if d && en then i - pk_spacing k else i)) ((if d && en then i - pk_spacing k else i) = i)).
      { clear - Hs. destruct d, en; cbn [dirP andb]; lia. }
      destruct b.
      + destruct (TT1 eq_refl) as (t & -> & Ht).
        destruct (cross_fits l i t p2 V Hnz Ht F1 F3 T5) as (X1 & X2 & X3).
        { intros v Hv. apply TN, T8. exact Hv. }
        destruct (negb d || en) eqn:EX.
        * destruct (tick_cross_total t p2 ts) as [[t' p3] EC]; [change (p_start_timestamp p2) with (p_start_timestamp p1); lia|exact X2|exact X1|].
          rewrite EC. cbn [unwrap bind]. rewrite dec_add_ok by lia. cbn [bind].
          assert (Ei : t_index t' = i).
          { apply tick_cross_inv in EC as (-> & _); [exact X3|exact X2|apply u256_M; exact (po_liq _ _ PO1)]. }
          rewrite Ei. change (p_current_tick_index (set_current_tick_index (if d && en then i - pk_spacing k else i) p3)) with (if d && en then i - pk_spacing k else i).
          apply FIN. apply EIN. exact ECUR.
        * apply orb_false_iff in EX as [Ed Een]. apply negb_false_iff in Ed.
          destruct (Z.eqb_spec rem1 0) as [Z0|N0]; cbn [negb].
          -- cbn [bind]. rewrite dec_add_ok by lia. cbn [bind]. rewrite X3.
             change (p_current_tick_index (set_current_tick_index (if d && en then i - pk_spacing k else i) p2)) with (if d && en then i - pk_spacing k else i).
             apply FIN. apply EIN. exact ECUR.
          -- destruct bi eqn:Eb.
             ++ assert (PO2 : pool_ok k (set_current_tick_index i p2)).
                { unfold p2. rewrite <- Etn, T3. apply pool_ok_at; auto. }
                destruct (add_fee_total k (set_current_tick_index i p2) rem1 d (s_protocol_fee s) PO2 Hrem1u) as (p3 & EP3 & _).
                { pose proof (u128_M _ (I_fee _ I)). lia. }
                { right. change (p_liquidity (set_current_tick_index i p2)) with (p_liquidity p1). rewrite F1. apply EN; auto. }
                { change (prot d (set_current_tick_index i p2)) with (prot d p1). exact HP. }
                assert (EP4 : exists p4, pool_add_fee p2 rem1 d (s_protocol_fee s) = Ok p4).
                { pose proof (pool_add_fee_cur (p_current_tick_index p2) _ _ _ _ _ EP3) as Q. exists (set_current_tick_index (p_current_tick_index p2) p3).
                  rewrite <- Q. reflexivity. }
                destruct EP4 as [p4 EP4]. rewrite EP4. cbn [unwrap bind].
                rewrite dec_add_ok by exact HI. cbn [bind]. rewrite X3.
                change (p_current_tick_index (set_current_tick_index (if d && en then i - pk_spacing k else i) p4)) with (if d && en then i - pk_spacing k else i).
                apply FIN. apply EIN. exact ECUR.
             ++ cbn [bind]. rewrite dec_add_ok by lia. cbn [bind]. rewrite X3.
                change (p_current_tick_index (set_current_tick_index (if d && en then i - pk_spacing k else i) p2)) with (if d && en then i - pk_spacing k else i).
                apply FIN. apply EIN. exact ECUR.
      + rewrite (TT2 eq_refl). cbn [bind]. rewrite dec_add_ok by lia. cbn [bind].
        change (p_current_tick_index (set_current_tick_index (if d && en then i - pk_spacing k else i) p2)) with (if d && en then i - pk_spacing k else i).
        apply FIN. apply EIN. exact ECUR.
    - cbn [bind orb]. rewrite GT. cbn [unwrap bind]. rewrite dec_add_ok by lia. cbn [bind].
      change (p_current_tick_index (set_current_tick_index cn p2)) with cn.
      apply FIN. apply (tick_end n cn GT).
  Qed.

  (** ** The iterations that succeed *)

  Lemma istep_limit l l' target r p1 : linv s k d bi lim p0 l -> istep s k d bi lim l l' target r p1 ->
    dirP d (if bi then lim < sr_next_sqrt_price r + 65536 else lim <= sr_next_sqrt_price r) (sr_next_sqrt_price r <= lim).
  Proof using.
    clear Htl Hroom Hpos Hliq. intros V S. pose proof (v_inv _ _ _ _ _ _ _ V) as I'.
    pose proof (I_pool _ I' _ _ (mid_pool s k l)) as PO.
    assert (Hfee : 0 <= pk_fee k <= E12).
    { pose proof (po_tier _ _ PO) as [_ Hf0]. unfold pk_fee in *. change (10 ^ 12) with E12 in Hf0. lia. }
    pose proof (is_between _ _ _ _ _ _ _ _ _ _ S) as B. pose proof (is_dir _ _ _ _ _ _ _ _ _ _ S) as D.
    pose proof (is_step _ _ _ _ _ _ _ _ _ _ S) as E2. pose proof (is_target _ _ _ _ _ _ _ _ _ _ S) as T1.
    pose proof (po_range _ _ PO) as HR. destruct d; cbn [dirP] in *; [|lia].
    destruct bi.
    - pose proof (step_price_overshoot _ _ _ _ _ _ HR T1 (po_liq _ _ PO) (v_rem _ _ _ _ _ _ _ V) Hfee r E2 ltac:(lia)) as OV.
      unfold price_in_range in *.
      destruct (Z.lt_ge_cases lim (sr_next_sqrt_price r + 65536)); [auto|exfalso].
      assert (65536 * p_sqrt_price (l_pool l) <= (target - sr_next_sqrt_price r) * p_sqrt_price (l_pool l)) by (apply Z.mul_le_mono_nonneg_r; lia). lia.
    - pose proof (step_price_exact_out _ _ _ _ _ _ HR T1 (po_liq _ _ PO) (v_rem _ _ _ _ _ _ _ V) Hfee r E2 ltac:(lia) eq_refl). lia.
  Qed.

  Lemma meas_step l l' target r p1 : linv s k d bi lim p0 l ->
    istep s k d bi lim l l' target r p1 ->
    iend s k d bi lim ts l l' r (set_sqrt_price (sr_next_sqrt_price r) p1)
      (l_remaining l - (if bi then sr_amount_in r + sr_fee_amount r else sr_amount_out r)) ->
    l_remaining l' <> 0 -> meas d bi l' < meas d bi l.
  Proof using.
    clear Htl Hroom Hpos Hliq. intros V S E Hf'.
    pose proof (is_dir _ _ _ _ _ _ _ _ _ _ S) as HD.
    unfold meas, cur. inversion E as [c' EP ET ER EI NP DIR|c' v EP ET ER EZ|i t Ht Hti Hi Hn Hcl Hst EP ET ER EI NP|i p3 Hd Hbi Hr3 Hfe EP ET ER].
    + rewrite ER in Hf'. specialize (DIR Hf'). rewrite EP. cbn [set_current_tick_index set_sqrt_price p_current_tick_index p_sqrt_price].
      destruct d, bi; cbn [dirP] in *; lia.
    + lia.
    + rewrite EP. cbn [set_current_tick_index set_liquidity set_last_timestamp set_sqrt_price p_current_tick_index p_sqrt_price].
      pose proof (I_pool _ (v_inv _ _ _ _ _ _ _ V) _ _ (mid_pool s k l)) as PO. pose proof (pool_spacing _ _ PO).
      destruct d, bi; cbn [dirP] in *; lia.
    + lia.
  Qed.

  Lemma jinv_start : dirP d (lim < P0) (P0 < lim) -> jinv (loop_start a p0).
  Proof using I Hp0 Ha.
    clear Htl Hroom Hpos Hliq. intros Hl. pose proof (u256_M _ Ha) as Ham. constructor; unfold loop_start; cbn [l_in l_out l_fee l_remaining l_pool].
    - destruct bi; lia.
    - lia.
    - lia.
    - reflexivity.
    - destruct d; cbn [dirP]; lia.
    - unfold out_bound. rewrite !Z.sub_diag. destruct d; cbn [dirP]; lia.
    - intros _ _. fold (loop_start a p0). lia.
    - exists []. split.
      + constructor; cbn; auto; try (rewrite Z.add_0_r); auto.
        symmetry. apply Z.mod_small. pose proof (I_pool _ I _ _ Hp0) as PO.
        unfold grow. destruct d; [apply (po_gx _ _ PO)|apply (po_gy _ _ PO)].
      + cbn [length Z.of_nat]. fold (loop_start a p0). destruct (a =? 0); [unfold iteration_bound; destruct (d || bi)|]; lia.
    - destruct d, bi; cbn [dirP] in *; lia.
  Qed.

  Lemma jinv_step l l' target r p1 : linv s k d bi lim p0 l -> jinv l -> l_remaining l <> 0 ->
    istep s k d bi lim l l' target r p1 ->
    iend s k d bi lim ts l l' r (set_sqrt_price (sr_next_sqrt_price r) p1)
      (l_remaining l - (if bi then sr_amount_in r + sr_fee_amount r else sr_amount_out r)) ->
    pool_ok k p1 -> p_sqrt_price (l_pool l') = sr_next_sqrt_price r -> linv s k d bi lim p0 l' -> jinv l'.
  Proof using I GB Hp0 Hact Hrate.
    clear Htl Hroom Hpos Hliq. intros V J Hnz S E PO1 Hpr V'.
    pose proof (meas_step l l' target r p1 V S E) as HM. pose proof (istep_limit l l' target r p1 V S) as HLM.
    pose proof (v_inv _ _ _ _ _ _ _ V) as I'. pose proof (I_pool _ I' _ _ (mid_pool s k l)) as PO.
    assert (Hfee : 0 <= pk_fee k <= E12).
    { pose proof (po_tier _ _ PO) as [_ Hf0]. unfold pk_fee in *. change (10 ^ 12) with E12 in Hf0. lia. }
    assert (Hfee9 : 0 <= pk_fee k <= 990000000000) by lia.
    destruct (liquidity_le l V Hnz) as [_ HLL]. pose proof LT_fits as HLT.
    pose proof (po_range _ _ PO) as HR. pose proof (po_liq _ _ PO) as HL. pose proof (v_rem _ _ _ _ _ _ _ V) as Hrem.
    pose proof (is_target _ _ _ _ _ _ _ _ _ _ S) as T1. pose proof (is_step _ _ _ _ _ _ _ _ _ _ S) as E2.
    pose proof (is_between _ _ _ _ _ _ _ _ _ _ S) as T2. pose proof (is_dir _ _ _ _ _ _ _ _ _ _ S) as HD.
    pose proof (is_next _ _ _ _ _ _ _ _ _ _ S) as HN.
    pose proof (is_in _ _ _ _ _ _ _ _ _ _ S) as U1. pose proof (is_out _ _ _ _ _ _ _ _ _ _ S) as U2. pose proof (is_fee _ _ _ _ _ _ _ _ _ _ S) as U3.
    pose proof (is_l_fee _ _ _ _ _ _ _ _ _ _ S) as LF. pose proof (is_l_out _ _ _ _ _ _ _ _ _ _ S) as LO.
    pose proof (is_rem _ _ _ _ _ _ _ _ _ _ S) as HR1.
    pose proof (step_in_le _ _ _ _ _ _ HR T1 HL Hrem Hfee9 r E2) as B1.
    pose proof (step_fee_le_in _ _ _ _ _ _ HR T1 HL Hrem Hfee9 r E2) as B3.
    pose proof (u256_M _ U1) as M1. pose proof (u256_M _ U2) as M2. pose proof (u256_M _ U3) as M3. pose proof (u256_M _ Hrem) as Mr.
    pose proof (proj1 (u128_M _ (I_fee _ I))) as Hpf0.
    destruct (add_fee_frame _ _ _ _ _ U3 Hpf0 HL (is_add_fee _ _ _ _ _ _ _ _ _ _ S)) as (A1 & A2 & A3 & A4).
    set (rem1 := l_remaining l - (if bi then sr_amount_in r + sr_fee_amount r else sr_amount_out r)) in *.
    (* the four ends *)
    assert (K : l_in l' = l_in l + (sr_amount_in r + sr_fee_amount r) + (if bi then rem1 - l_remaining l' else 0) /\
                l_remaining l' <= rem1 /\ (bi = false -> l_remaining l' = rem1) /\
                prot d (l_pool l') <= prot d p1 + (rem1 - l_remaining l') /\
                p_start_timestamp (l_pool l') = p_start_timestamp p1).
    { inversion E as [c' EP ET ER EI NP DIR|c' v EP ET ER EZ EI|i t Ht Hti Hi Hn Hcl Hst EP ET ER EI NP|i p3 Hd Hbi Hr3 Hfe EP ET ER EI].
      - rewrite EP, ER, EI. split; [destruct bi; lia|]. split; [lia|]. split; [auto|]. split; [unfold prot; cbn; destruct d; lia|reflexivity].
      - rewrite EP, ER, EI, EZ. split; [destruct bi; lia|]. split; [lia|]. split; [auto|]. split; [unfold prot; cbn; destruct d; lia|reflexivity].
      - rewrite EP, ER, EI. split; [destruct bi; lia|]. split; [lia|]. split; [auto|]. split; [unfold prot; cbn; destruct d; lia|reflexivity].
      - rewrite EP, ER, EI. assert (Ur : u256 rem1) by (apply u256_I; unfold rem1 in *; rewrite Hbi in *; lia).
        destruct (add_fee_frame (set_sqrt_price (sr_next_sqrt_price r) p1) _ _ _ _ Ur Hpf0 (po_liq _ _ PO1) Hfe) as (C1 & C2 & _).
        split; [rewrite Hbi; lia|]. split; [lia|]. split; [congruence|]. rewrite Z.sub_0_r.
        split; [|exact C2]. exact C1. }
    destruct K as (K1 & K2 & K3 & K4 & K5).
    pose proof (j_amount l J) as JA. pose proof (j_fee l J) as JF. pose proof (j_prot l J) as JP. pose proof (j_start l J) as JS.
    pose proof (j_price l J) as JPR. pose proof (j_out l J) as JO. pose proof (j_in l J) as JI.
    pose proof (u256_M _ (v_rem _ _ _ _ _ _ _ V')) as Mr'.
    assert (Hdp : dirP d (target <= p_sqrt_price (l_pool l)) (p_sqrt_price (l_pool l) <= target)) by (clear - T2; destruct d; cbn [dirP] in *; lia).
    assert (BI : bi = true -> rem1 = l_remaining l - (sr_amount_in r + sr_fee_amount r)) by (intros Hb; unfold rem1; rewrite Hb; reflexivity).
    constructor.
    - unfold rem1 in *. destruct bi; [lia|]. rewrite K3 by reflexivity. lia.
    - destruct bi; lia.
    - assert (rem1 - l_remaining l' <= (if bi then rem1 - l_remaining l' else 0)) by (destruct bi; [lia|rewrite K3 by reflexivity; lia]).
      rewrite K1. lia.
    - congruence.
    - rewrite Hpr. clear - JPR HD. destruct d; cbn [dirP] in *; lia.
    - rewrite Hpr, LO.
      pose proof (seg_out_le _ _ _ _ _ _ d HR T1 HL Hrem Hfee Hdp r E2 HN 0 U2) as [S1 S2].
      cbn [seg g_out g_from g_to g_liquidity] in S1, S2.
      apply (out_bound_step _ (p_sqrt_price (l_pool l)) _ (p_liquidity (l_pool l))); auto.
      clear - JPR HD. destruct d; cbn [dirP] in *; lia.
    - intros Hb Hr'. specialize (HM Hr'). specialize (JI Hb Hnz). specialize (B3 Hb). rewrite Hb in K1, HM, JI |- *.
      assert ((2 * LT + 2) * 1 <= (2 * LT + 2) * (meas d false l - meas d false l')) by (apply Z.mul_le_mono_nonneg_l; lia).
      lia.
    - destruct (j_segs l J) as (segs & Q & HC). destruct (Z.eqb_spec (l_remaining l) 0) as [|_]; [contradiction|].
      destruct (walk_step s I ts k d bi lim p0 Hp0 Hact l l' target r p1 segs V Hnz Q S E PO1 Hpr V') as (x0 & Q' & _).
      set (g := seg _ _ _ x0) in Q'.
      exists (segs ++ [g]). split; [exact Q'|]. rewrite app_length. cbn [length]. rewrite Nat2Z.inj_add. change (Z.of_nat 1) with 1.
      pose proof (meas_bound k d bi l PO) as MB. pose proof (meas_bound k d bi (loop_start a p0) (I_pool _ I _ _ Hp0)) as MB0.
      destruct (Z.eqb_spec (l_remaining l') 0); [lia|]. specialize (HM n). lia.
    - rewrite Hpr. exact HLM.
  Qed.

  (** ** The walk so far, as the specification states it *)

  Lemma bound_count n : n <= iteration_bound d bi -> d || bi = true -> n <= 443637.
  Proof using. clear. unfold iteration_bound. intros H E. rewrite E in H. lia. Qed.

  Lemma reach_now l : linv s k d bi lim p0 l -> jinv l ->
    exists segs, reaches s k d bi p0 lim (p_sqrt_price (l_pool l)) (l_in l) (l_out l) segs /\
      (l_remaining l <> 0 -> Forall (whole d (pk_fee k)) segs) /\ left_of bi a (l_in l) (l_out l) = l_remaining l.
  Proof using I Hp0.
    clear Htl Hroom Hpos Hliq. intros V J. destruct (j_segs l J) as (segs & Q & HC). exists segs. split; [|split].
    - constructor; try apply Q.
      + pose proof (j_limit l J) as HL. destruct d; exact HL.
      + apply bound_count. pose proof (I_pool _ (v_inv _ _ _ _ _ _ _ V) _ _ (mid_pool s k l)) as PO.
        pose proof (meas_bound k d bi l PO) as MB. pose proof (meas_bound k d bi (loop_start a p0) (I_pool _ I _ _ Hp0)) as MB0.
        destruct (l_remaining l =? 0); lia.
    - apply (pi_more _ _ _ _ _ _ _ Q).
    - pose proof (j_amount l J) as JA. unfold left_of. destruct bi; lia.
  Qed.

  Lemma reach_step l l' target r p1 : linv s k d bi lim p0 l -> jinv l -> l_remaining l <> 0 ->
    istep s k d bi lim l l' target r p1 ->
    exists segs used paid, reaches s k d bi p0 lim (sr_next_sqrt_price r) used paid segs /\
      (l_remaining l - (if bi then sr_amount_in r + sr_fee_amount r else sr_amount_out r) <> 0 -> Forall (whole d (pk_fee k)) segs) /\
      left_of bi a used paid = l_remaining l - (if bi then sr_amount_in r + sr_fee_amount r else sr_amount_out r) /\
      exists g, last segs = Some g /\ g_liquidity g = p_liquidity (l_pool l).
  Proof using I Hp0 Hact.
    clear Htl Hroom Hpos Hliq. intros V J Hnz S. destruct (j_segs l J) as (segs & Q & HC).
    pose proof (istep_limit l l' target r p1 V S) as HLM.
    destruct (istep_segment s I k d bi lim p0 Hp0 Hact l l' target r p1 V Hnz S) as [OC WH].
    destruct (Z.eqb_spec (l_remaining l) 0) as [|_]; [contradiction|].
    set (g := seg (p_sqrt_price (l_pool l)) (p_liquidity (l_pool l)) r 0) in *.
    exists (segs ++ [g]), (l_in l + (sr_amount_in r + sr_fee_amount r)), (l_out l + sr_amount_out r). split; [|split; [|split]].
    - constructor.
      + apply (connected_snoc _ _ (p_sqrt_price (l_pool l)) g); [apply Q|reflexivity].
      + apply Forall_app. split; [apply Q|]. constructor; [apply OC; lia|constructor].
      + rewrite removelast_last. apply (pi_more _ _ _ _ _ _ _ Q Hnz).
      + rewrite sumZ_snoc, (pi_in _ _ _ _ _ _ _ Q). unfold g. cbn [seg g_in g_fee g_left]. lia.
      + rewrite sumZ_snoc, (pi_out _ _ _ _ _ _ _ Q). reflexivity.
      + destruct d; exact HLM.
      + apply bound_count. rewrite app_length. cbn [length]. rewrite Nat2Z.inj_add. change (Z.of_nat 1) with 1.
        pose proof (I_pool _ (v_inv _ _ _ _ _ _ _ V) _ _ (mid_pool s k l)) as PO.
        pose proof (meas_bound k d bi l PO) as MB. pose proof (meas_bound k d bi (loop_start a p0) (I_pool _ I _ _ Hp0)) as MB0. lia.
    - intros H. apply Forall_app. split; [apply (pi_more _ _ _ _ _ _ _ Q Hnz)|]. constructor; [apply WH; exact H|constructor].
    - pose proof (j_amount l J) as JA. unfold left_of. destruct bi; lia.
    - exists g. split; [apply last_snoc|reflexivity].
  Qed.

  Lemma at_end_past q : at_end q -> past_end d (pk_spacing k) q.
  Proof using I Hp0 Htl.
    destruct min_valid as [Hm Hs].
    assert (Etl : tl = if d then mint (pk_spacing k) else maxt (pk_spacing k)) by (apply tick_limits; [lia|exact Htl]).
    clear Hroom. unfold at_end, past_end. destruct d; cbn [dirP]; intros H; exists tl; (split; [exact Htl|]); rewrite Etl.
    - rewrite tick_price_valid by (apply okt_valid in Hm; exact Hm). exact H.
    - rewrite tick_price_valid by (apply (okt_valid (pk_spacing k)), okt_maxt; lia). exact H.
  Qed.

  Lemma unpriced_left q L rem : price_in_range q -> 0 < L -> 0 <= rem -> unpriced d bi (pk_fee k) q L rem -> 0 < rem.
  Proof using.
    clear Htl Hroom Hpos Hliq. intros Hq HL Hr H. destruct (Z.eq_dec rem 0) as [->|]; [exfalso|lia].
    unfold price_in_range in Hq. unfold unpriced in H. destruct bi; [|destruct d].
    - destruct H as [_ H]. change (0 * (10 ^ 12 - pk_fee k) / 10 ^ 12 * 10 ^ 29) with 0 in H. rewrite Z.div_0_l, Z.add_0_r in H by lia. lia.
    - pose proof (Z.mul_nonneg_nonneg q L ltac:(lia) ltac:(lia)). lia.
    - rewrite Z.mul_0_r, Z.sub_0_r in H.
      assert (E : (2 ^ 128 - 1 - q) * 10 ^ 24 <= (2 ^ 128 - 1 - q) * (L * 10 ^ 24)) by (apply Z.mul_le_mono_nonneg_l; lia).
      nia.
  Qed.

  (** An iteration that does not succeed has its explanation. *)
  Lemma fail_explained {A} l r (f : swap_loop_state -> res A) : linv s k d bi lim p0 l -> jinv l -> l_remaining l <> 0 ->
    iout l r -> (forall l', r <> Ok l') -> explained s k d bi p0 a lim (bind r f).
  Proof using I Hp0 Hact Htl.
    intros V J Hnz H NO. pose proof (u256_M _ (v_rem _ _ _ _ _ _ _ V)) as Mr.
    pose proof (I_pool _ (v_inv _ _ _ _ _ _ _ V) _ _ (mid_pool s k l)) as PO.
    inversion H as [l' E|l' target r1 p1 S En Hn E|He E|l' target r1 p1 S He E|target r1 Ed Eb Ht Htp Hc Ho E|target r1 Ed Eb Ht Htp Hc Ho E|l' target r1 p1 S HL HU E]; clear H; subst r; cbn [bind explained].
    - destruct (NO l' eq_refl).
    - destruct (reach_step l l' target r1 p1 V J Hnz S) as (segs & used & paid & R & W & Lf & _).
      exists segs, used, paid. split; [rewrite En in R; exact R|]. split; [apply W; exact Hn|].
      pose proof (is_rem _ _ _ _ _ _ _ _ _ _ S) as HR. rewrite Lf. lia.
    - destruct (reach_now l V J) as (segs & R & W & Lf). exists segs, (p_sqrt_price (l_pool l)), (l_in l), (l_out l).
      split; [exact R|]. split; [lia|]. apply at_end_past. exact He.
    - destruct (reach_step l l' target r1 p1 V J Hnz S) as (segs & used & paid & R & W & Lf & _).
      exists segs, (sr_next_sqrt_price r1), used, paid. split; [exact R|].
      pose proof (is_rem _ _ _ _ _ _ _ _ _ _ S) as HR. split; [lia|]. apply at_end_past. exact He.
    - destruct (reach_now l V J) as (segs & R & W & Lf). exists segs, (p_sqrt_price (l_pool l)), (l_in l), (l_out l).
      split; [exact R|]. split; [apply W; exact Hnz|]. split; [lia|]. left. split; [exact Ed|]. split; [exact Eb|].
      rewrite Lf. exists target, (p_liquidity (l_pool l)), r1.
      split; [apply (near_curve s I k d bi lim p0 Hp0 Hact l V Hnz)|]. split; [exact Ht|]. split; [exact Htp|]. split; [exact Hc|]. left. exact Ho.
    - destruct (reach_now l V J) as (segs & R & W & Lf). exists segs, (p_sqrt_price (l_pool l)), (l_in l), (l_out l).
      split; [exact R|]. split; [apply W; exact Hnz|]. split; [lia|]. left. split; [exact Ed|]. split; [exact Eb|].
      rewrite Lf. exists target, (p_liquidity (l_pool l)), r1.
      split; [apply (near_curve s I k d bi lim p0 Hp0 Hact l V Hnz)|]. split; [exact Ht|]. split; [exact Htp|]. split; [exact Hc|]. right. exact Ho.
    - destruct (reach_step l l' target r1 p1 V J Hnz S) as (segs & used & paid & R & W & Lf & g & Lg & EL).
      pose proof (is_rem _ _ _ _ _ _ _ _ _ _ S) as HR. pose proof (u256_M _ (po_liq _ _ PO)) as ML.
      assert (HLp : 0 < p_liquidity (l_pool l)) by lia.
      pose proof (unpriced_left _ _ _ (is_next _ _ _ _ _ _ _ _ _ _ S) HLp HR HU) as Hr.
      exists segs, (sr_next_sqrt_price r1), used, paid. split; [exact R|]. split; [apply W; lia|]. split; [lia|]. right.
      exists g. split; [exact Lg|]. rewrite EL, Lf. split; [exact HL|exact HU].
  Qed.

  Lemma loop_outcome j l r : takes (fun l => l_remaining l =? 0) (swap_iteration s k d bi lim tl ts) j l r ->
    linv s k d bi lim p0 l -> jinv l ->
    (exists l', r = Ok l' /\ linv s k d bi lim p0 l' /\ jinv l' /\ l_remaining l' = 0) \/
    (exists l', linv s k d bi lim p0 l' /\ jinv l' /\ l_remaining l' <> 0 /\ iout l' r /\ forall x, r <> Ok x).
  Proof using I GB Hp0 Ha Hact Htl Hrate Hpos Hpf Hts Hliq Hroom.
    intros T. induction T as [l Hf|l r Hf Hb NO|n l l' r Hf Hb T IH]; intros V J.
    - left. exists l. apply Z.eqb_eq in Hf. auto.
    - right. exists l. apply Z.eqb_neq in Hf. split; [exact V|]. split; [exact J|]. split; [exact Hf|].
      split; [|exact NO]. rewrite <- Hb. apply progress; auto.
    - apply Z.eqb_neq in Hf.
      destruct (iteration_facts s k d bi lim tl ts p0 l l' I Hp0 (linv_ready s k d bi lim p0 l V Hf) Hf Htl Hb)
        as (target & r1 & p1 & S & E & PO1 & PO' & Hpr & Hl).
      assert (V' : linv s k d bi lim p0 l') by (eapply linv_step; eauto).
      apply IH; [exact V'|]. apply (jinv_step l l' target r1 p1); auto.
  Qed.
End Live.

Lemma swap_outcome s ts k d bi a lim p0 : Inv s -> gross_bound s -> s_pools s !! k = Some p0 -> u256 a ->
  active_at s k (p_current_tick_index p0) = p_liquidity p0 -> pk_fee k <= 990000000000 -> (bi = true -> 0 < pk_fee k) ->
  s_protocol_fee s <= E12 -> p_start_timestamp p0 <= ts -> (bi = false -> pool_total s k <= 2 ^ 128) ->
  prot d p0 + (if bi then a else 2 ^ 230) < M256 ->
  explained s k d bi p0 a lim (calculate_swap s ts k d a bi lim).
Proof.
  intros I GB Hp0 Ha Hact Hrate Hpos Hpf Hts Hliq Hroom.
  assert (Hg : pools_get s k = Ok p0) by (apply pools_get_Ok; exact Hp0).
  unfold calculate_swap. destruct (Z.eqb_spec a 0) as [->|Ha0]; [cbn; reflexivity|].
  cbn [fail_if bind]. rewrite Hg. cbn [bind].
  set (b := if d then _ else _). destruct b eqn:Eb; unfold b in Eb; clear b; cbn [fail_if bind].
  { unfold explained. destruct d; apply orb_true_iff in Eb as [Eb|Eb]; unfold MIN_SQRT_PRICE, MAX_SQRT_PRICE in Eb; lia. }
  assert (Hlim : dirP d (lim < p_sqrt_price p0) (p_sqrt_price p0 < lim)).
  { destruct d; apply orb_false_iff in Eb as [? _]; cbn; lia. }
  assert (Htl : exists tl, (if d then get_min_tick (pk_spacing k) else get_max_tick (pk_spacing k)) = Ok tl).
  { pose proof (pool_spacing _ _ (I_pool _ I _ _ Hp0)). unfold get_min_tick, get_max_tick, i32_div.
    destruct d; destruct (Z.eqb_spec (pk_spacing k) 0); try lia; cbn; eauto. }
  destruct Htl as [tl Htl]. rewrite Htl. cbn [bind].
  destruct (swap_takes s k d bi lim tl ts a p0 I Hp0 Ha Htl Hlim) as (j & r & T & Hj & _).
  pose proof T as T'. apply while_takes in T; [|assert (iteration_bound d bi < 2 ^ 100) by (unfold iteration_bound; destruct (d || bi); lia); lia].
  unfold loop_start in T. rewrite T.
  destruct (loop_outcome s I GB ts k d bi a lim tl p0 Hp0 Ha Hact Htl Hrate Hpos Hpf Hts Hliq Hroom j _ r T'
      (linv_start s k d bi lim a p0 I Hp0 Ha Hlim) (jinv_start s I k d bi a lim p0 Hp0 Ha Hlim)) as [(l & -> & V & J & R0)|(l & V & J & Hnz & O & NO)].
  - cbn [bind]. destruct (Z.eqb_spec (l_out l) 0) as [E0|_]; cbn [fail_if bind]; [|exact Logic.I].
    destruct (reach_now s I k d bi a lim p0 Hp0 l V J) as (segs & R & _ & Lf). rewrite R0, E0 in *. unfold left_of in Lf.
    cbn [explained]. destruct bi; [|lia]. split; [reflexivity|]. exists segs, (p_sqrt_price (l_pool l)).
    replace a with (l_in l) by lia. exact R.
  - apply (fail_explained s I k d bi a lim tl p0 Hp0 Hact Htl l r); auto.
Qed.
