(** A successful swap is a walk along the curve. *)
From Verif Require Import Base Decimal SqrtPriceM LogM ClammM FeeGrowthM Types TickmapM StorageM
  CollectionsM StateM ServiceM Arith SpecMath SpecFees SpecSum SpecState SpecHistory SpecPath P_Clamm P_Delta P_Next P_Step
  P_StepProps P_TickPrice P_GetTick P_Tickmap P_Closer
  P_Fees P_Balance P_Effects P_Positions P_History P_Loop P_Check P_State P_Iter P_Inv P_InvPos P_InvSwap P_Swap P_SwapLoop.
From stdpp Require Import gmap list.
From Coq Require Import ZArith Lia Bool.
Open Scope Z_scope.

Lemma tick_price_valid i : valid_tick i -> tick_price i = price i.
Proof. intros H. unfold tick_price. rewrite calculate_sqrt_price_valid by auto. reflexivity. Qed.

(** The curve between the neighbouring initialized ticks. *)
Lemma curve_active s k c q : Inv s -> 
  (forall v, is_Some (s_ticks s !! (k, v)) -> valid_tick v /\ (price v <= q <-> v <= c)) -> curve s k q = active_at s k c.
Proof.
  intros I H. apply msum_ext. intros [a n] pos Hp. unfold active_of.
  destruct (bool_decide_reflect (pos_pool_key pos = k)) as [E|]; [|reflexivity]. cbn [andb].
  destruct (pos_bounds_init s a n pos I Hp) as [H1 H2]. rewrite E in *.
  destruct (H _ H1) as [V1 I1], (H _ H2) as [V2 I2]. rewrite !tick_price_valid by auto.
  destruct (Z.leb_spec (price (pos_lower pos)) q), (Z.leb_spec (pos_lower pos) c),
    (Z.ltb_spec q (price (pos_upper pos))), (Z.ltb_spec c (pos_upper pos)); cbn [andb]; try reflexivity; lia.
Qed.

Lemma connected_snoc a l b g : connected a l b -> g_from g = b -> connected a (l ++ [g]) (g_to g).
Proof. revert a. induction l as [|h l IH]; intros a; cbn; [intros <- ->; auto|]. intros [H1 H2] H. auto. Qed.
Lemma sumZ_snoc {A} (f : A -> Z) l x : sumZ f (l ++ [x]) = sumZ f l + f x.
Proof. induction l as [|y l IH]; cbn [sumZ app]; lia. Qed.

Lemma protocol_part_ceil pf f v : is_ceil v (f * pf) (10 ^ 12) -> v = protocol_part pf f.
Proof.
  unfold is_ceil, protocol_part. intros [H1 H2]. apply (Z.div_unique _ _ _ (f * pf + (10 ^ 12 - 1) - 10 ^ 12 * v)); lia.
Qed.
Lemma protocol_part_0 pf : protocol_part pf 0 = 0.
Proof. reflexivity. Qed.
Lemma growth_of_0 pf L : growth_of pf L 0 = 0.
Proof. unfold growth_of. rewrite protocol_part_0. destruct L; reflexivity. Qed.

(** The fee fields touched by a fee. *)
Definition prot (d : bool) (p : pool) : Z := if d then p_fee_protocol_token_x p else p_fee_protocol_token_y p.
Definition grow (d : bool) (p : pool) : Z := if d then p_fee_growth_global_x p else p_fee_growth_global_y p.
Definition other (d : bool) (p : pool) : Z * Z :=
  if d then (p_fee_protocol_token_y p, p_fee_growth_global_y p) else (p_fee_protocol_token_x p, p_fee_growth_global_x p).

Lemma add_fee_books k p f d pf p' : pool_ok k p -> u256 f -> 0 <= pf -> (p_liquidity p = 0 -> f = 0) ->
  pool_add_fee p f d pf = Ok p' ->
  prot d p' = prot d p + protocol_part pf f /\ grow d p' = (grow d p + growth_of pf (p_liquidity p) f) mod 2 ^ 128 /\
  other d p' = other d p.
Proof.
  intros PO Hf Hpf HL0 H. pose proof (po_liq _ _ PO) as HL.
  destruct (pool_add_fee_spec p f d pf p' Hf Hpf HL H) as (part & rest & E & Hp0 & Hr0 & HC & [[-> H0]|(g & Hg & -> & _)]).
  - assert (f = 0) as -> by tauto. rewrite growth_of_0, protocol_part_0, !Z.add_0_r.
    split; [auto|]. split; [|auto]. rewrite Z.mod_small; [auto|].
    unfold grow. destruct d; [apply (po_gx _ _ PO)|apply (po_gy _ _ PO)].
  - apply protocol_part_ceil in HC. assert (Hr : u256 rest) by (unfold u256 in *; lia).
    apply from_fee_inv in Hg as (HLp & Eg & Ug); [|exact HL|exact Hr].
    assert (EG : g = growth_of pf (p_liquidity p) f).
    { rewrite Eg. unfold growth_of. rewrite <- HC. change E33 with (10 ^ 33). f_equal. f_equal. lia. }
    rewrite <- HC, <- EG. clear EG Eg H. destruct d; cbn [prot grow other set_fees_x set_fees_y p_fee_protocol_token_x
      p_fee_protocol_token_y p_fee_growth_global_x p_fee_growth_global_y].
    + split; [reflexivity|]. split; [|reflexivity]. apply unchecked_add_wrap; [apply (po_gx _ _ PO)|exact Ug].
    + split; [reflexivity|]. split; [|reflexivity]. apply unchecked_add_wrap; [apply (po_gy _ _ PO)|exact Ug].
Qed.

(** One step of the pricing engine, without the curve. *)
Section Priced.
  Context (p t L amount : Z) (bi : bool) (fee : Z) (d : bool).
  Context (Hp : price_in_range p) (Ht : price_in_range t) (HL : u256 L)
          (Ha : u256 amount) (Hf : 0 <= fee <= E12) (Hd : dirP d (t <= p) (p <= t)).
  Context (r : swap_result) (Hr : compute_swap_step p t L amount bi fee = Ok r).
  Context (Hnext : price_in_range (sr_next_sqrt_price r)).

  Definition seg (x : Z) : segment :=
    mkSegment p (sr_next_sqrt_price r) L (sr_amount_in r) (sr_amount_out r) (sr_fee_amount r) x.

  Lemma x_up_self : x_rounded_up 0 p p L.
  Proof using Hp.
    clear - Hp. unfold x_rounded_up, x_num, x_den. rewrite Z.sub_diag. cbn [Z.abs]. rewrite !Z.mul_0_r, !Z.mul_0_l.
    unfold price_in_range in Hp. split; [lia|]. split; [nia|]. split; [lia|nia].
  Qed.
  Lemma x_dn_self : x_rounded_down 0 p p L.
  Proof using Hp. clear - Hp. unfold x_rounded_down, x_num, x_den, price_in_range in *. rewrite Z.sub_diag. cbn [Z.abs]. split; [lia|]. split; nia. Qed.

  (** At one price everything is 0. *)
  Lemma same_fields : p = t -> sr_next_sqrt_price r = p /\ sr_amount_in r = 0 /\ sr_amount_out r = 0 /\ sr_fee_amount r = 0.
  Proof using Hp HL Ha Hf Hr.
    intros E. pose proof Hr as Hr'. rewrite <- E in Hr'. exact (step_same_price p L amount bi fee r Hp HL Ha Hf Hr').
  Qed.

  Lemma seg_in x : if d then x_rounded_up (g_in (seg x)) (g_from (seg x)) (g_to (seg x)) (g_liquidity (seg x))
          else is_ceil (g_in (seg x)) (y_num (g_from (seg x)) (g_to (seg x)) (g_liquidity (seg x))) y_den.
  Proof using Hp Ht HL Ha Hf Hd Hr Hnext.
    cbn [seg g_in g_from g_to g_liquidity].
    destruct (Z.eq_dec p t) as [E|NE].
    { destruct (same_fields E) as (-> & -> & _). destruct d; [apply x_up_self|]. unfold is_ceil, y_num, y_den. rewrite Z.sub_diag. cbn [Z.abs]. lia. }
    destruct (step_fields p t L amount bi fee Hp Ht HL Ha Hf r Hr) as [(E0 & E1 & E2 & E3 & E4)|(H0 & E1 & E2 & E3 & E4 & _)].
    - rewrite E0, E2. unfold x_rounded_up, is_ceil, x_num, y_num, y_den, x_den. rewrite !Z.mul_0_l.
      unfold price_in_range in *. destruct d; [|lia]. split; [lia|]. split; [nia|]. split; [lia|nia].
    - rewrite E1 in Hnext. rewrite E1, E2. unfold step_in. set (n := step_next p t L amount bi fee) in *.
      destruct d; cbn [dirP] in Hd.
      + destruct (Z.leb_spec t p); [|lia]. rewrite Xup_comm. unfold x_rounded_up.
        apply (delta_x_up_bounds p n L (Xup L p n)); auto using range_u128. apply get_delta_x_up_eq; auto using range_wide.
      + destruct (Z.leb_spec t p); [lia|]. unfold Yup, is_ceil, y_num. rewrite y_den_E29. clearbody n.
        pose proof (cdiv_bounds (Z.abs (p - n) * L) E29 eq_refl). unfold E29 in *; lia.
  Qed.

  Lemma seg_full x : bi = true \/ sr_amount_out r = step_out p t L (sr_next_sqrt_price r) \/ L = 0 -> full_output d (seg x).
  Proof using Hp Ht HL Ha Hf Hd Hr Hnext.
    intros HF. unfold full_output. cbn [seg g_out g_from g_to g_liquidity].
    destruct (Z.eq_dec p t) as [E|NE].
    { destruct (same_fields E) as (-> & _ & -> & _). destruct d; [|apply x_dn_self]. unfold is_floor, y_num, y_den. rewrite Z.sub_diag. cbn [Z.abs]. lia. }
    destruct (step_fields p t L amount bi fee Hp Ht HL Ha Hf r Hr) as [(E0 & E1 & E2 & E3 & E4)|(H0 & E1 & E2 & E3 & E4 & _)].
    - rewrite E0, E3. unfold x_rounded_down, is_floor, x_num, y_num, y_den, x_den. rewrite !Z.mul_0_l.
      unfold price_in_range in *. destruct d; [lia|]. split; [lia|]. split; [lia|nia].
    - rewrite E1 in Hnext, HF.
      assert (EO : sr_amount_out r = step_out p t L (step_next p t L amount bi fee)).
      { destruct HF as [->|[HF| ->]]; [exact E3|exact HF|lia]. }
      rewrite E1, EO. clear E3 EO HF. unfold step_out. set (n := step_next p t L amount bi fee) in *.
      destruct d; cbn [dirP] in Hd.
      + destruct (Z.leb_spec t p); [|lia]. unfold Ydn, is_floor, y_num. rewrite y_den_E29. clearbody n.
        pose proof (div_bounds (Z.abs (n - p) * L) E29 eq_refl). replace (Z.abs (p - n)) with (Z.abs (n - p)) by lia. unfold E29 in *; lia.
      + destruct (Z.leb_spec t p); [lia|]. unfold x_rounded_down.
        apply (delta_x_down_bounds p n L (Xdn L p n)); auto using range_u128. apply get_delta_x_down_eq; auto using range_wide.
  Qed.

  Lemma seg_out_le x : u256 (sr_amount_out r) -> 0 <= g_out (seg x) /\
           if d then g_out (seg x) * y_den <= y_num (g_from (seg x)) (g_to (seg x)) (g_liquidity (seg x))
           else g_out (seg x) * x_den (g_from (seg x)) (g_to (seg x)) <= x_num (g_from (seg x)) (g_to (seg x)) (g_liquidity (seg x)).
  Proof using Hp Ht HL Ha Hf Hd Hr Hnext.
    intros Ho. cbn [seg g_out g_from g_to g_liquidity]. split; [unfold u256 in Ho; lia|].
    destruct (Z.eq_dec p t) as [E|NE].
    { destruct (same_fields E) as (-> & _ & -> & _). unfold y_num, x_num. rewrite Z.sub_diag. cbn [Z.abs]. destruct d; lia. }
    destruct d; cbn [dirP] in Hd.
    - apply (step_out_y p t L amount bi fee Hp Ht HL Ha Hf r Hr); auto.
    - apply (step_out_x p t L amount bi fee Hp Ht HL Ha Hf r Hr); lia.
  Qed.

  (** Exact out: unless the whole remaining amount is paid, all the output of the segment is. *)
  Lemma seg_capped : bi = false -> amount - sr_amount_out r <> 0 -> sr_amount_out r = step_out p t L (sr_next_sqrt_price r) \/ L = 0.
  Proof using Hp Ht HL Ha Hf Hr.
    intros Hb Hn. destruct (step_fields p t L amount bi fee Hp Ht HL Ha Hf r Hr) as [(E0 & _)|(H0 & E1 & _ & E3 & _)]; [auto|].
    left. rewrite E1, E3. rewrite E3 in Hn. destruct bi; [discriminate|]. lia.
  Qed.

  (** Exact in: what a step that stops short takes as a fee beyond the rate. *)
  Lemma seg_little : bi = true -> 0 < L -> sr_next_sqrt_price r <> t ->
    too_little d (less_fee fee amount - sr_amount_in r) (sr_next_sqrt_price r) L.
  Proof using Hp Ht HL Ha Hf Hd Hr Hnext.
    intros Hb H0 NE. pose proof same_fields as SF. pose proof (seg_in 0) as SI. cbn [seg g_in g_from g_to g_liquidity] in SI.
    destruct (step_fields p t L amount bi fee Hp Ht HL Ha Hf r Hr) as [(E0 & _)|(_ & E1 & E2 & _)]; [lia|].
    change (less_fee fee amount) with (after_fee amount fee). destruct (after_fee_eq amount fee Ha Hf) as (_ & HA & _).
    rewrite <- E1 in E2. set (v := sr_amount_in r) in *. set (n := sr_next_sqrt_price r) in *.
    unfold step_next in E1. unfold step_in in E2. rewrite Hb in E1. cbv zeta in E1.
    set (A := after_fee amount fee) in *. clearbody A v n.
    unfold too_little. destruct d; cbn [dirP] in Hd.
    - destruct (Z.leb_spec t p) as [_|]; [|lia].
      destruct (Z.leb_spec (Xup L t p) A); [congruence|]. destruct (Z.eqb_spec A 0) as [EA|NA].
      + rewrite E1, Xup_self in E2 by auto using range_wide. rewrite EA, E2. unfold E19 in *. apply u256_M in HL. nia.
      + assert (HX : 0 <= v) by apply SI. destruct SI as (_ & SI & _). clear E2. unfold x_num, x_den in SI.
        pose proof (nx_nom_bounds p L (range_wide p Hp) HL) as HN.
        unfold price_in_range in Hp, Hnext.
        assert (Hden : 0 < L * E19 + p * A) by (unfold E19; nia).
        assert (Hn : nx_in p L A <= p).
        { unfold nx_in. apply cdiv_le; [exact Hden|]. 
          destruct (next_x_add_eq p L A (range_wide p ltac:(unfold price_in_range; lia)) HL H0 (u256_I A ltac:(apply u256_M in Ha; lia))) as [_ HLE].
          destruct (Z.eqb_spec A 0); [lia|]. unfold nx_in in HLE. pose proof (cdiv_bounds (nx_nom p L) _ Hden). nia. }
        pose proof (cdiv_bounds (nx_nom p L) (L * E19 + p * A) Hden) as [H1 _]. fold (nx_in p L A) in H1. rewrite <- E1 in H1, Hn.
        set (D := L * 10 ^ 19). change (L * E19) with D in *. change (p * L * E19) with (p * L * 10 ^ 19) in HN.
        replace (p * L * 10 ^ 19) with (p * D) in HN by (unfold D; ring).
        replace (L * Z.abs (p - n) * 10 ^ 19) with (D * (p - n)) in SI by (unfold D; rewrite Z.abs_eq by lia; ring).
        change (10 ^ 24) with E24 in *. set (q := p * n / E24) in *.
        assert (HQ : E24 * q <= p * n < E24 * q + E24) by (apply div_bounds; reflexivity).
        assert (HQ1 : 1 <= q). { unfold E24 in *. nia. }
        assert (HD : D * (p - n) - v * (p * n) < 2 * E24).
        { apply Z.mul_lt_mono_pos_r with q; [lia|]. unfold E24 in *. nia. }
        assert (HP : (n - 1) * (p * A) < D * (p - n + 1) + E24) by lia.
        apply Z.mul_le_mono_pos_l with p; [lia|].
        assert (G1 : n * ((n - 1) * (p * A)) <= n * (D * (p - n + 1) + E24)) by (apply Z.mul_le_mono_nonneg_l; lia).
        assert (G2 : (n - 1) * (D * (p - n) - v * (p * n)) <= (n - 1) * (2 * E24)) by (apply Z.mul_le_mono_nonneg_l; lia).
        assert (G3 : n * E24 <= p * E24) by (apply Z.mul_le_mono_nonneg_r; [unfold E24|]; lia).
        replace (p * ((A - v) * (n * (n - 1)))) with (n * ((n - 1) * (p * A)) - (n - 1) * (v * (p * n))) by ring. 
        replace (p * (D + 3 * E24)) with (D * p + 3 * (p * E24)) by ring.
        assert (G4 : n * (D * (p - n + 1)) - (n - 1) * (D * (p - n)) = D * p) by ring. unfold E24 in *. lia.
    - destruct (Z.leb_spec t p) as [Htp|_].
      { destruct (SF ltac:(lia)) as (E & _). lia. }
      destruct (Z.leb_spec (Yup L p t) A); [congruence|]. rewrite E1 in E2. rewrite E2. unfold Yup, ny_in.
      replace (Z.abs (p - (p + A * E29 / L))) with (A * E29 / L).
      2:{ pose proof (div_nonneg (A * E29) L H0 ltac:(unfold E29; lia)). lia. }
      pose proof (div_bounds (A * E29) L H0) as H1. set (e := A * E29 / L) in *.
      pose proof (cdiv_bounds (e * L) E29 eq_refl) as H2. change (10 ^ 29) with E29. lia.
  Qed.

  (** The fee. *)
  Lemma seg_fee x : u256 (sr_fee_amount r) -> 0 <= g_fee (seg x) /\
    (exact_fee fee (seg x) \/
     (g_in (seg x) + g_fee (seg x)) * fee <=
       (g_fee (seg x) + (if d then (g_in (seg x) + g_fee (seg x)) / 10 ^ 14 + 1 else 0)) * 10 ^ 12 /\
     too_little d (less_fee fee (g_in (seg x) + g_fee (seg x)) - g_in (seg x)) (g_to (seg x)) (g_liquidity (seg x))).
  Proof using Hp Ht HL Ha Hf Hd Hr Hnext.
    intros Hu. pose proof same_fields as SF. pose proof seg_little as SL. cbn [seg g_fee g_in g_to g_liquidity]. split; [unfold u256 in Hu; lia|]. unfold exact_fee. cbn [seg g_fee g_in].
    destruct (Z.eq_dec (sr_next_sqrt_price r) t) as [E|NE].
    { left. apply (step_fee_reached p t L amount bi fee Hp Ht HL Ha Hf r Hr). auto. }
    destruct bi eqn:Eb; [|left; apply (step_fee_reached p t L amount false fee Hp Ht HL Ha Hf r Hr); auto].
    destruct (Z.eq_dec L 0) as [E0|N0].
    { destruct (step_fields p t L amount true fee Hp Ht HL Ha Hf r Hr) as [(_ & E1 & _)|(H0 & _)]; [contradiction|lia]. }
    right. pose proof (step_exact_in_short p t L amount true fee Hp Ht HL Ha Hf r Hr eq_refl N0 NE) as ES.
    pose proof (step_fee_short p t L amount true fee Hp Ht HL Ha Hf r Hr eq_refl N0 NE) as EF.
    rewrite ES. split; [|apply SL; auto; apply u256_M in HL; lia].
    destruct d; cbn [dirP] in Hd; destruct (Z.leb_spec t p); try lia.
  Qed.

  Lemma seg_fee_exact x : sr_next_sqrt_price r = t \/ bi = false -> exact_fee fee (seg x).
  Proof using Hp Ht HL Ha Hf Hr.
    intros H. unfold exact_fee. cbn [seg g_fee g_in]. apply (step_fee_reached p t L amount bi fee Hp Ht HL Ha Hf r Hr); auto.
  Qed.

  (** Exact in: a step that leaves something reached its target. *)
  Lemma seg_reached : bi = true -> amount - (sr_amount_in r + sr_fee_amount r) <> 0 -> sr_next_sqrt_price r = t.
  Proof using Hp Ht HL Ha Hf Hr.
    intros Hb Hn. destruct (Z.eq_dec (sr_next_sqrt_price r) t) as [|NE]; [auto|exfalso].
    destruct (Z.eq_dec L 0) as [E0|N0].
    { destruct (step_fields p t L amount bi fee Hp Ht HL Ha Hf r Hr) as [(_ & E1 & _)|(H0 & _)]; [contradiction|lia]. }
    pose proof (step_exact_in_short p t L amount bi fee Hp Ht HL Ha Hf r Hr Hb N0 NE). lia.
  Qed.

  Lemma seg_no_fee : L = 0 -> sr_fee_amount r = 0.
  Proof using Hp Ht HL Ha Hf Hr.
    intros E. destruct (step_fields p t L amount bi fee Hp Ht HL Ha Hf r Hr) as [(_ & _ & _ & _ & E4)|(H0 & _)]; [auto|lia].
  Qed.
End Priced.

(** What is too little to move the price, says the check in the loop. *)
Lemma left_little rem n L fee : price_in_range n -> u256 L -> L <> 0 -> u256 rem -> 0 <= fee <= E12 ->
  is_enough_amount_to_change_price rem n L fee true true = Ok false -> too_little true (less_fee fee rem) n L.
Proof.
  intros Hn HL HL0 Hr Hf H. unfold is_enough_amount_to_change_price in H. destruct (Z.eqb_spec L 0); [lia|].
  unfold dec_sub in H. rewrite checked_sub_ok in H by (unfold PERCENTAGE_ONE, E12 in *; lia). cbn [bind expect] in H.
  destruct (after_fee_eq rem fee Hr Hf) as (EA & HA & _). change PERCENTAGE_ONE with E12 in H. rewrite EA in H. cbn [bind] in H.
  unfold get_next_sqrt_price_from_input in H. assert (H0 : 0 < L) by (apply u256_M in HL; lia).
  assert (UA : u256 (after_fee rem fee)) by (apply u256_I; apply u256_M in Hr; lia).
  destruct (next_x_add_eq n L (after_fee rem fee) (range_wide n Hn) HL H0 UA) as [EN _]. rewrite EN in H. cbn [bind] in H. clear EN EA.
  injection H as H. apply negb_false_iff, Z.eqb_eq in H.
  change (less_fee fee rem) with (after_fee rem fee). set (A := after_fee rem fee) in *. clearbody A. unfold too_little.
  destruct (Z.eqb_spec A 0) as [EA|NA]; [rewrite EA; unfold price_in_range in Hn; lia|].
  pose proof (nx_nom_bounds n L (range_wide n Hn) HL) as HN. unfold price_in_range in Hn.
  assert (Hden : 0 < L * E19 + n * A) by (unfold E19; nia).
  pose proof (cdiv_bounds (nx_nom n L) (L * E19 + n * A) Hden) as [H1 _]. fold (nx_in n L A) in H1. rewrite <- H in H1.
  change (10 ^ 19) with E19. change (10 ^ 24) with E24.
  replace ((n - 1) * (L * E19 + n * A)) with (n * L * E19 - L * E19 + A * (n * (n - 1))) in H1 by ring. unfold E24 in *. lia.
Qed.

(** ** The walk *)
Section Walk.
  Context (s : state) (I : Inv s) (ts : Z) (k : pool_key) (d bi : bool) (a lim : Z) (p0 : pool).
  Context (Hp0 : s_pools s !! k = Some p0) (Ha : u256 a).
  Context (Hact : active_at s k (p_current_tick_index p0) = p_liquidity p0).

  Record pinv (l : swap_loop_state) (segs : list segment) : Prop := {
    pi_connected : connected (p_sqrt_price p0) segs (p_sqrt_price (l_pool l));
    pi_segments : Forall (on_curve s k d bi (pk_fee k)) segs;
    pi_whole : Forall (whole d (pk_fee k)) (removelast segs);
    pi_more : l_remaining l <> 0 -> Forall (whole d (pk_fee k)) segs;
    pi_in : l_in l = sumZ (fun g => g_in g + g_fee g + g_left g) segs;
    pi_out : l_out l = sumZ g_out segs;
    pi_fee : l_fee l = sumZ g_fee segs;
    pi_prot : prot d (l_pool l) = prot d p0 +
      sumZ (fun g => protocol_part (s_protocol_fee s) (g_fee g) + protocol_part (s_protocol_fee s) (g_left g)) segs;
    pi_grow : grow d (l_pool l) = (grow d p0 +
      sumZ (fun g => growth_of (s_protocol_fee s) (g_liquidity g) (g_fee g) +
                     growth_of (s_protocol_fee s) (g_liquidity g) (g_left g)) segs) mod 2 ^ 128;
    pi_other : other d (l_pool l) = other d p0;
  }.

  (** The liquidity in use is that of the curve at the price, or just below it. *)
  Lemma near_curve l : linv s k d bi lim p0 l -> l_remaining l <> 0 ->
    p_liquidity (l_pool l) = curve s k (p_sqrt_price (l_pool l)) \/ p_liquidity (l_pool l) = curve s k (p_sqrt_price (l_pool l) - 1).
  Proof using I Hp0 Hact.
    intros V Hnz. pose proof (I_pool _ (v_inv _ _ _ _ _ _ _ V) _ _ (mid_pool s k l)) as PO.
    pose proof (v_liq _ _ _ _ _ _ _ V (linv_exact _ _ _ _ _ _ l V Hnz) Hact) as HLA. unfold cur in HLA.
    pose proof (po_tick _ _ PO) as Hc. pose proof (pool_spacing _ _ PO) as Hsp. pose proof (okt_valid _ _ Hc) as Hvc.
    pose proof (po_lo _ _ PO) as Plo. pose proof (po_up _ _ PO) as Pup. pose proof (po_max _ _ PO) as Pmax.
    set (c := p_current_tick_index (l_pool l)) in *. set (p := p_sqrt_price (l_pool l)) in *. set (sp := pk_spacing k) in *.
    assert (TK : forall v, is_Some (s_ticks s !! (k, v)) -> okt sp v).
    { intros v [tv Hv]. apply (to_okt _ _ _ _ (proj2 (I_tick _ I _ _ _ Hv))). }
    rewrite <- HLA.
    assert (X : forall q, price c <= q -> (valid_tick (c + sp) -> q < price (c + sp)) -> active_at s k c = curve s k q).
    { intros q H1 H2. symmetry. apply curve_active; [exact I|]. intros v Hv. pose proof (TK v Hv) as Ho. pose proof (okt_valid _ _ Ho) as Hvv.
      split; [exact Hvv|]. destruct (Z.le_gt_cases v c) as [Hle|Hgt].
      - split; [auto|]. intros _. transitivity (price c); [apply price_le; auto|exact H1].
      - split; [|lia]. intros Hx. exfalso. pose proof (okt_step sp c v (proj1 Hsp) Hc Ho Hgt) as Hst.
        assert (Hvs : valid_tick (c + sp)) by (unfold valid_tick in *; lia). specialize (H2 Hvs).
        pose proof (price_le _ _ Hvs Hvv Hst). lia. }
    destruct (Z.le_gt_cases (c + sp) 221818) as [Hle|Hgt].
    - assert (Hvs : valid_tick (c + sp)) by (unfold valid_tick in *; lia). specialize (Pup Hvs).
      pose proof (price_lt c (c + sp) Hvc Hvs ltac:(lia)).
      destruct (Z.eq_dec p (price (c + sp))); [right|left]; apply X; intros; lia.
    - left. apply X; [exact Plo|]. unfold valid_tick. lia.
  Qed.

  (** The segment of a step. *)
  Lemma istep_segment l l' target r p1 : linv s k d bi lim p0 l -> l_remaining l <> 0 ->
    istep s k d bi lim l l' target r p1 ->
    (forall x, 0 <= x -> (x <> 0 -> d = true /\ bi = true /\ p_liquidity (l_pool l) <> 0 /\
          too_little true (less_fee (pk_fee k) x) (sr_next_sqrt_price r) (p_liquidity (l_pool l))) ->
       on_curve s k d bi (pk_fee k) (seg (p_sqrt_price (l_pool l)) (p_liquidity (l_pool l)) r x)) /\
    (l_remaining l - (if bi then sr_amount_in r + sr_fee_amount r else sr_amount_out r) <> 0 ->
       whole d (pk_fee k) (seg (p_sqrt_price (l_pool l)) (p_liquidity (l_pool l)) r 0)).
  Proof using I Hp0 Hact.
    intros V Hnz S.
    pose proof (I_pool _ (v_inv _ _ _ _ _ _ _ V) _ _ (mid_pool s k l)) as PO.
    pose proof (po_tier _ _ PO) as TO. 
    assert (Hrate : 0 <= pk_fee k <= E12) by (unfold pk_fee; destruct TO as [H1 H2]; unfold E12; lia).
    set (p := p_sqrt_price (l_pool l)). set (L := p_liquidity (l_pool l)). set (c := p_current_tick_index (l_pool l)).
    set (am := l_remaining l) in *.
    pose proof (po_range _ _ PO) as Hp. pose proof (po_liq _ _ PO) as HL. fold p in Hp. fold L in HL.
    pose proof (is_target _ _ _ _ _ _ _ _ _ _ S) as Ht. pose proof (v_rem _ _ _ _ _ _ _ V) as Hu. fold am in Hu.
    pose proof (is_step _ _ _ _ _ _ _ _ _ _ S) as Hr. fold p L am in Hr.
    pose proof (is_next _ _ _ _ _ _ _ _ _ _ S) as Hn. pose proof (is_fee _ _ _ _ _ _ _ _ _ _ S) as Hfe.
    pose proof (is_out _ _ _ _ _ _ _ _ _ _ S) as Hou.
    assert (Hd : dirP d (target <= p) (p <= target)).
    { pose proof (is_between _ _ _ _ _ _ _ _ _ _ S) as B. fold p in B. destruct d; cbn [dirP] in *; lia. }
    pose proof (linv_exact _ _ _ _ _ _ l V Hnz) as EX.
    pose proof (v_liq _ _ _ _ _ _ _ V EX Hact) as HLA. unfold cur in HLA. fold c L in HLA.
    set (rem := am - (if bi then sr_amount_in r + sr_fee_amount r else sr_amount_out r)) in *.
    pose proof (is_rem _ _ _ _ _ _ _ _ _ _ S) as Hrem. fold am rem in Hrem.
    assert (OC : forall x, 0 <= x -> (x <> 0 -> d = true /\ bi = true /\ L <> 0 /\ too_little true (less_fee (pk_fee k) x) (sr_next_sqrt_price r) L) -> on_curve s k d bi (pk_fee k) (seg p L r x)).
    { intros x Hx Hxz. constructor.
      - cbn [seg g_from g_to]. pose proof (is_dir _ _ _ _ _ _ _ _ _ _ S) as D. fold p in D. destruct d; cbn [dirP] in D; lia.
      - cbn [seg g_from g_to g_liquidity]. intros q Hq Hal. rewrite <- HLA. symmetry. apply curve_active; [exact I|].
        intros v Hv. pose proof (is_clear _ _ _ _ _ _ _ _ _ _ S v Hv) as CL. fold c in CL.
        assert (Ho : okt (pk_spacing k) v) by (destruct Hv as [tv Hv]; destruct (I_tick _ I _ _ _ Hv) as [_ O]; apply O).
        pose proof (okt_valid _ _ Ho) as Hvv. split; [exact Hvv|].
        pose proof (po_tick _ _ PO) as Hc. fold c in Hc. pose proof (pool_spacing _ _ PO) as Hsp.
        pose proof (po_lo _ _ PO) as Plo. pose proof (po_up _ _ PO) as Pup. fold c p in Plo, Pup.
        assert (Hle : v <= c -> price v <= price c) by (intros; apply price_le; auto using (okt_valid (pk_spacing k))).
        assert (Hgt : c < v -> p <= price v).
        { intros Hcv. pose proof (okt_step _ _ _ (proj1 Hsp) Hc Ho Hcv) as Hst.
          assert (Hvc : valid_tick (c + pk_spacing k)) by (destruct Hc as [Hc _], Hsp; unfold valid_tick in *; lia).
          specialize (Pup Hvc). transitivity (price (c + pk_spacing k)); [exact Pup|]. apply price_le; auto. }
        pose proof (is_dir _ _ _ _ _ _ _ _ _ _ S) as D. fold p in D.
        destruct d; cbn [dirP] in *.
        + assert (Hqt : target <= q).
          { destruct bi eqn:Eb.
            - specialize (Hal eq_refl eq_refl).
              pose proof (step_price_overshoot p target L am true (pk_fee k) Hp Ht HL Hu Hrate r Hr Hd) as OV.
              destruct (Z.le_gt_cases target q); [auto|exfalso].
              assert ((q - sr_next_sqrt_price r) * p <= (target - sr_next_sqrt_price r) * p); [|lia].
              apply Z.mul_le_mono_nonneg_r; [unfold price_in_range in Hp|]; lia.
            - pose proof (step_price_exact_out p target L am false (pk_fee k) Hp Ht HL Hu Hrate r Hr Hd eq_refl). lia. }
          split; [intros; destruct (Z.le_gt_cases v c); [auto|]; specialize (Hgt ltac:(lia)); lia|].
          intros Hvc. specialize (CL Hvc). lia.
        + split; [intros; destruct (Z.le_gt_cases v c); [auto|]; specialize (CL ltac:(lia)); lia|].
          intros Hvc. specialize (Hle Hvc). lia.
      - cbn [seg g_from g_liquidity]. unfold L, p. apply (near_curve l V Hnz).
      - apply (seg_in p target L am bi (pk_fee k) d); auto.
      - apply (seg_out_le p target L am bi (pk_fee k) d); auto.
      - apply (seg_fee p target L am bi (pk_fee k) d); auto.
      - cbn [seg g_left g_to g_liquidity]. auto.
      - destruct bi eqn:Eb.
        + apply (seg_full p target L am true (pk_fee k) d); auto.
        + apply (seg_fee_exact p target L am false (pk_fee k)); auto. }
    assert (WH : rem <> 0 -> whole d (pk_fee k) (seg p L r 0)).
    { intros Hr0. unfold rem in Hr0. destruct bi eqn:Eb.
      - pose proof (seg_reached p target L am true (pk_fee k) Hp Ht HL Hu Hrate r Hr eq_refl Hr0) as RE.
        split; [apply (seg_fee_exact p target L am true (pk_fee k)); auto|]. split; [|reflexivity].
        apply (seg_full p target L am true (pk_fee k) d); auto.
      - split; [apply (seg_fee_exact p target L am false (pk_fee k)); auto|]. split; [|reflexivity].
        apply (seg_full p target L am false (pk_fee k) d); auto.
        right. apply (seg_capped p target L am false (pk_fee k)); auto. }
    split; [exact OC|exact WH].
  Qed.

  Lemma walk_step l l' target r p1 segs : linv s k d bi lim p0 l -> l_remaining l <> 0 -> pinv l segs ->
    istep s k d bi lim l l' target r p1 ->
    iend s k d bi lim ts l l' r (set_sqrt_price (sr_next_sqrt_price r) p1)
      (l_remaining l - (if bi then sr_amount_in r + sr_fee_amount r else sr_amount_out r)) ->
    pool_ok k p1 -> p_sqrt_price (l_pool l') = sr_next_sqrt_price r -> linv s k d bi lim p0 l' ->
    exists x, pinv l' (segs ++ [seg (p_sqrt_price (l_pool l)) (p_liquidity (l_pool l)) r x]) /\
      (x = 0 \/ exists i, okt (pk_spacing k) i /\ i <= p_current_tick_index (l_pool l) /\ sr_next_sqrt_price r = price i /\
         forall v, is_Some (s_ticks s !! (k, v)) -> ~ passed (p_current_tick_index (l_pool l)) i v).
  Proof using I Hp0 Hact.
    intros V Hnz Q S E PO1 Hpr V'.
    pose proof (I_pool _ (v_inv _ _ _ _ _ _ _ V) _ _ (mid_pool s k l)) as PO.
    pose proof (po_tier _ _ PO) as TO. 
    assert (Hrate : 0 <= pk_fee k <= E12) by (unfold pk_fee; destruct TO as [H1 H2]; unfold E12; lia).
    set (p := p_sqrt_price (l_pool l)). set (L := p_liquidity (l_pool l)). set (c := p_current_tick_index (l_pool l)).
    set (am := l_remaining l) in *.
    pose proof (po_range _ _ PO) as Hp. pose proof (po_liq _ _ PO) as HL. fold p in Hp. fold L in HL.
    pose proof (is_target _ _ _ _ _ _ _ _ _ _ S) as Ht. pose proof (v_rem _ _ _ _ _ _ _ V) as Hu. fold am in Hu.
    pose proof (is_step _ _ _ _ _ _ _ _ _ _ S) as Hr. fold p L am in Hr.
    pose proof (is_next _ _ _ _ _ _ _ _ _ _ S) as Hn. pose proof (is_fee _ _ _ _ _ _ _ _ _ _ S) as Hfe.
    pose proof (is_out _ _ _ _ _ _ _ _ _ _ S) as Hou.
    assert (Hd : dirP d (target <= p) (p <= target)).
    { pose proof (is_between _ _ _ _ _ _ _ _ _ _ S) as B. fold p in B. destruct d; cbn [dirP] in *; lia. }
    pose proof (u128_M _ (I_fee _ I)) as Hpf.
    destruct (add_fee_books k _ _ _ _ _ PO Hfe (proj1 Hpf)
      (seg_no_fee p target L am bi (pk_fee k) Hp Ht HL Hu Hrate r Hr) (is_add_fee _ _ _ _ _ _ _ _ _ _ S)) as (B1 & B2 & B3).
    destruct (pool_add_fee_ok k _ _ _ _ _ PO Hfe (proj1 Hpf) (is_add_fee _ _ _ _ _ _ _ _ _ _ S)) as (_ & F1 & _).
    pose proof (linv_exact _ _ _ _ _ _ l V Hnz) as EX.
    pose proof (v_liq _ _ _ _ _ _ _ V EX Hact) as HLA. unfold cur in HLA. fold c L in HLA.
    set (rem := am - (if bi then sr_amount_in r + sr_fee_amount r else sr_amount_out r)) in *.
    pose proof (is_rem _ _ _ _ _ _ _ _ _ _ S) as Hrem. fold am rem in Hrem.
    destruct (istep_segment l l' target r p1 V Hnz S) as [OC WH]. fold p L in OC, WH. fold am in WH. fold rem in WH.
    assert (CN : forall x, connected (p_sqrt_price p0) (segs ++ [seg p L r x]) (p_sqrt_price (l_pool l'))).
    { intros x. rewrite Hpr. apply (connected_snoc _ _ p (seg p L r x)); [apply Q|reflexivity]. }
    assert (MORE : Forall (whole d (pk_fee k)) segs) by (apply (pi_more _ _ Q); auto).
    assert (SG : forall x, on_curve s k d bi (pk_fee k) (seg p L r x) -> Forall (on_curve s k d bi (pk_fee k)) (segs ++ [seg p L r x])).
    { intros x H. apply Forall_app. split; [apply Q|]. constructor; [exact H|constructor]. }
    assert (WW : forall x, Forall (whole d (pk_fee k)) (removelast (segs ++ [seg p L r x]))) by (intros x; rewrite removelast_last; exact MORE).
    pose proof (is_l_out _ _ _ _ _ _ _ _ _ _ S) as LO. pose proof (is_l_fee _ _ _ _ _ _ _ _ _ _ S) as LF.
    assert (COMMON : forall p', l_ticks l' = l_ticks l' -> prot d (l_pool l') = prot d p1 -> grow d (l_pool l') = grow d p1 -> other d (l_pool l') = other d p1 ->
      l_in l' = l_in l + (sr_amount_in r + sr_fee_amount r) -> (l_remaining l' <> 0 -> rem <> 0) -> p' = p1 -> pinv l' (segs ++ [seg p L r 0])).
    { intros p' _ G1 G2 G3 EI ER _. constructor; auto.
      - apply SG, OC; lia.
      - intros Hr'. apply Forall_app. split; [exact MORE|]. constructor; [|constructor]. auto.
      - rewrite sumZ_snoc, EI, (pi_in _ _ Q). cbn [seg g_in g_fee g_left]. lia.
      - rewrite sumZ_snoc, LO, (pi_out _ _ Q). reflexivity.
      - rewrite sumZ_snoc, LF, (pi_fee _ _ Q). reflexivity.
      - rewrite sumZ_snoc, G1, B1, (pi_prot _ _ Q). cbn [seg g_fee g_left]. rewrite protocol_part_0. lia.
      - rewrite sumZ_snoc, G2, B2, (pi_grow _ _ Q). cbn [seg g_fee g_left g_liquidity]. rewrite growth_of_0, Z.add_0_r.
        rewrite Zplus_mod_idemp_l. f_equal. fold L. lia.
      - rewrite G3, B3. apply Q. }
    destruct E as [c' E1 E2 E3 E4 E5 E6|c' v E1 E2 E3 E3' E4 E5 E6 E7 E8|i t E1 E2 E3 E4 E5 E6 E7 E8 E9 E10 E11|i p3 E1 E1' E2 E3 E4 E5 E6 E7 E8 E9 E10 E11 E12'].
    - exists 0. split; [|auto]. apply (COMMON p1); auto; try (rewrite E1; destruct d; reflexivity). all: rewrite E3; auto.
    - exists 0. split; [|auto]. apply (COMMON p1); auto; try (rewrite E1; destruct d; reflexivity). all: rewrite E3; lia.
    - exists 0. split; [|auto]. apply (COMMON p1); auto; try (rewrite E7; destruct d; reflexivity). all: rewrite E9; auto.
    - exists rem.
      assert (Hrm : u256 rem) by (unfold u256 in *; unfold rem in *; rewrite E1' in *; pose proof (is_in _ _ _ _ _ _ _ _ _ _ S) as Hi; unfold u256 in *; lia).
      assert (OX : p_liquidity (set_sqrt_price (sr_next_sqrt_price r) p1) = L) by exact F1.
      assert (Hoi : okt (pk_spacing k) i).
      { pose proof (po_tick _ _ (I_pool _ (v_inv _ _ _ _ _ _ _ V') _ _ (mid_pool s k l'))) as X. rewrite E4 in X. exact X. }
      assert (PO2 : pool_ok k (set_current_tick_index i (set_sqrt_price (sr_next_sqrt_price r) p1)))
        by (rewrite E9; apply (pool_ok_at k p1 i PO1 Hoi)).
      assert (Hfe' : pool_add_fee (set_current_tick_index i (set_sqrt_price (sr_next_sqrt_price r) p1)) rem d (s_protocol_fee s) = Ok (set_current_tick_index i p3))
        by (apply pool_add_fee_cur; exact E3).
      destruct (add_fee_books k _ _ _ _ _ PO2 Hrm (proj1 Hpf) (fun H => False_ind _ (E11 H)) Hfe') as (C1 & C2 & C3).
      split; [|right; exists i; auto]. constructor; auto.
      + apply SG, OC; [lia|]. intros _. split; [exact E1|]. split; [exact E1'|]. rewrite OX in E11, E12'. split; [exact E11|]. apply left_little; auto.
      + rewrite E6. lia.
      + rewrite sumZ_snoc, E7, (pi_in _ _ Q). cbn [seg g_in g_fee g_left]. lia.
      + rewrite sumZ_snoc, LO, (pi_out _ _ Q). reflexivity.
      + rewrite sumZ_snoc, LF, (pi_fee _ _ Q). reflexivity.
      + rewrite sumZ_snoc, E4, C1. replace (prot d (set_current_tick_index i (set_sqrt_price (sr_next_sqrt_price r) p1))) with (prot d p1) by reflexivity.
        rewrite B1, (pi_prot _ _ Q). cbn [seg g_fee g_left]. lia.
      + rewrite sumZ_snoc, E4, C2. replace (grow d (set_current_tick_index i (set_sqrt_price (sr_next_sqrt_price r) p1))) with (grow d p1) by reflexivity.
        rewrite B2, (pi_grow _ _ Q). cbn [seg g_fee g_left g_liquidity set_current_tick_index p_liquidity]. rewrite OX. fold L.
        rewrite !Zplus_mod_idemp_l, <- Z.add_assoc. rewrite Zplus_mod_idemp_l. f_equal. lia.
      + rewrite E4, C3. replace (other d (set_current_tick_index i (set_sqrt_price (sr_next_sqrt_price r) p1))) with (other d p1) by reflexivity.
        rewrite B3. apply Q.
  Qed.

  Lemma walk_swap out : calculate_swap s ts k d a bi lim = Ok out ->
    exists segs, walk s k d bi p0 (cs_pool out) (cs_amount_in out) (cs_amount_out out) (cs_fee out) segs.
  Proof using I Hp0 Ha Hact.
    intros H. eapply (swap_induction s k d bi lim ts a p0 I Hp0 Ha (fun l => exists segs, pinv l segs)) in H as (l & V & R0 & [segs Q] & _ & _ & ->).
    - exists segs. cbn [cs_pool cs_amount_in cs_amount_out cs_fee]. destruct Q. constructor; auto.
    - intros _. exists []. unfold loop_start. constructor; cbn; auto; try (rewrite Z.add_0_r); auto.
      symmetry. apply Z.mod_small. pose proof (I_pool _ I _ _ Hp0) as PO.
      unfold grow. destruct d; [apply (po_gx _ _ PO)|apply (po_gy _ _ PO)].
    - intros l l' target r p1 V Hr [segs Q] S E PO1 Hpr V'. destruct (walk_step l l' target r p1 segs V Hr Q S E PO1 Hpr V') as (x & Q' & _). eauto.
  Qed.
End Walk.
