(** What the positions of a pool hold, along a swap. *)
From Verif Require Import Base Decimal SqrtPriceM LogM ClammM FeeGrowthM Types TickmapM StorageM
  CollectionsM StateM ServiceM Arith SpecMath SpecFees SpecSum SpecState SpecHistory SpecClean SpecSolv SpecTrade P_Clamm P_Delta P_Next P_Step
  P_StepProps P_TickPrice P_GetTick P_Tickmap P_Closer
  P_Fees P_Balance P_Effects P_Positions P_History P_Loop P_Check P_State P_Iter P_Inv P_InvPos P_PosOps P_InvSwap P_Swap P_SwapLoop P_InvHist P_Active
  P_RSum P_Claims P_Owed P_OwedSwap.
From stdpp Require Import gmap list.
From Coq Require Import ZArith Lia Bool Reals Lra.
Open Scope Z_scope.

(** ** Holdings as a function of the price *)

Lemma clip_mono pl pu p p' : p <= p' -> Z.max pl (Z.min p pu) <= Z.max pl (Z.min p' pu).
Proof. lia. Qed.

(** Between two prices, one token is the other one times the prices. *)
Lemma principal_swap L p p' pl pu : 0 <= L -> 0 < pl -> pl <= pu -> 0 < p -> p <= p' ->
  let X := (principal true L p pl pu - principal true L p' pl pu)%R in
  let Y := (principal false L p' pl pu - principal false L p pl pu)%R in
  (0 <= X /\ 0 <= Y /\ Y * 10 ^ 48 <= X * (IZR p' * IZR p') /\ X * (IZR p * IZR p) <= Y * 10 ^ 48)%R.
Proof.
  intros HL Hpl Hpu Hp Hpp X Y. unfold X, Y, principal. cbv zeta. clear X Y.
  set (q := Z.max pl (Z.min p pu)). set (q' := Z.max pl (Z.min p' pu)).
  assert (Hq : q <= q') by (apply clip_mono; auto).
  assert (Q0 : 0 < q) by lia. assert (Q1 : 0 < q') by lia.
  assert (C : q = q' \/ (q' <= p' /\ p <= q)) by lia.
  replace (IZR L * 10 ^ 19 * (/ IZR q - / IZR pu) - IZR L * 10 ^ 19 * (/ IZR q' - / IZR pu))%R
    with (IZR L * (IZR q' - IZR q) * 10 ^ 19 * / (IZR q * IZR q'))%R.
  2: { apply IZR_pos in Q0, Q1. assert (QU : (0 < IZR pu)%R) by (apply IZR_pos; lia). field. split; [lra|split; lra]. }
  replace (IZR L * (IZR q' - IZR pl) / 10 ^ 29 - IZR L * (IZR q - IZR pl) / 10 ^ 29)%R with (IZR L * (IZR q' - IZR q) / 10 ^ 29)%R by (unfold Rdiv; ring).
  destruct C as [C|[C1 C2]].
  { rewrite C. replace (IZR q' - IZR q')%R with 0%R by ring. rewrite Rmult_0_r. unfold Rdiv. rewrite !Rmult_0_l. lra. }
  apply IZR_le in HL, Hq, C1, C2. apply IZR_pos in Q0, Q1. apply IZR_pos in Hp.
  set (D := (IZR L * (IZR q' - IZR q))%R). assert (HD : (0 <= D)%R) by (unfold D; apply Rmult_le_pos; lra).
  set (a := IZR q) in *. set (b := IZR q') in *. set (u := IZR p) in *. set (v := IZR p') in *. clearbody D a b u v.
  assert (Hab : (0 < a * b)%R) by (apply Rmult_lt_0_compat; lra).
  assert (Hi : (0 < / (a * b))%R) by (apply Rinv_0_lt_compat; lra).
  split; [apply Rmult_le_pos; [|lra]; apply Rmult_le_pos; [lra|]; lra|].
  split; [unfold Rdiv; apply Rmult_le_pos; lra|].
  assert (Hone : (a * b * / (a * b) = 1)%R) by (apply Rinv_r; lra).
  assert (Hv : (a * b <= v * v)%R) by (apply Rmult_le_compat; lra).
  assert (Hu : (u * u <= a * b)%R) by (apply Rmult_le_compat; lra).
  split.
  - replace (D / 10 ^ 29 * 10 ^ 48)%R with (D * 10 ^ 19 * / (a * b) * (a * b))%R.
    + apply Rmult_le_compat_l; [|lra]. apply Rmult_le_pos; [|lra]. apply Rmult_le_pos; [lra|lra].
    + field. lra.
  - replace (D / 10 ^ 29 * 10 ^ 48)%R with (D * 10 ^ 19 * / (a * b) * (a * b))%R.
    + apply Rmult_le_compat_l; [|lra]. apply Rmult_le_pos; [|lra]. apply Rmult_le_pos; [lra|lra].
    + field. lra.
Qed.

Section Holdings.
  Context (s : state) (k : pool_key) (I : Inv s).

  Lemma holdings_swap p p' : 0 < p -> p <= p' ->
    let X := (holdings true s k p - holdings true s k p')%R in
    let Y := (holdings false s k p' - holdings false s k p)%R in
    (0 <= X /\ 0 <= Y /\ Y * 10 ^ 48 <= X * (IZR p' * IZR p') /\ X * (IZR p * IZR p) <= Y * 10 ^ 48)%R.
  Proof using I.
    intros Hp Hpp.
    set (f := fun (x : bool) (q : Z) (_ : actor_id * Z) (pos : position) => if bool_decide (pos_pool_key pos = k)
                     then principal x (pos_liquidity pos) q (tick_price (pos_lower pos)) (tick_price (pos_upper pos))
                     else 0%R).
    assert (F : forall i pos, s_positions s !! i = Some pos ->
      let X := (f true p i pos - f true p' i pos)%R in let Y := (f false p' i pos - f false p i pos)%R in
      (0 <= X /\ 0 <= Y /\ Y * 10 ^ 48 <= X * (IZR p' * IZR p') /\ X * (IZR p * IZR p) <= Y * 10 ^ 48)%R).
    { intros [a m] pos H. unfold f. destruct (bool_decide _); [|cbv zeta; rewrite Rminus_0_r, !Rmult_0_l; lra].
      destruct (pos_ticks s a m pos I H) as (p0 & tl & tu & P & L & U & TL & TU).
      pose proof (so_liq _ _ (I_pos _ I _ _ _ H)) as HL. pose proof (so_lt _ _ (I_pos _ I _ _ _ H)) as Hlt.
      pose proof (okt_valid _ _ (to_okt _ _ _ _ TL)) as VL. pose proof (okt_valid _ _ (to_okt _ _ _ _ TU)) as VU.
      rewrite !tick_price_valid by auto. pose proof (price_lt _ _ VL VU Hlt) as Hpr.
      pose proof (price_range _ VL) as HR. unfold price_in_range in HR. apply principal_swap; lia. }
    unfold holdings. fold (f true p) (f true p') (f false p) (f false p').
    clearbody f. revert F.
    induction (s_positions s) as [|i x m Hi IH] using map_ind; intros F.
    - rewrite !rsum_empty. cbv zeta. rewrite Rminus_0_r, !Rmult_0_l. lra.
    - rewrite !rsum_insert by auto.
      assert (F' : forall j pos, m !! j = Some pos ->
        let X := (f true p j pos - f true p' j pos)%R in let Y := (f false p' j pos - f false p j pos)%R in
        (0 <= X /\ 0 <= Y /\ Y * 10 ^ 48 <= X * (IZR p' * IZR p') /\ X * (IZR p * IZR p) <= Y * 10 ^ 48)%R).
      { intros j pos Hj. apply F. rewrite lookup_insert_ne; [auto|]. intros ->. congruence. }
      specialize (IH F'). specialize (F i x (lookup_insert _ _ _)). clear F'. cbv zeta in *. lra.
  Qed.

  (** No initialized tick lies strictly between the prices [q] and [z], and [c] is
      the tick that separates those below from those above. *)
  Definition clear (c q z : Z) : Prop := forall v, is_Some (s_ticks s !! (k, v)) ->
    (v <= c -> price v <= q /\ price v <= z) /\ (c < v -> q <= price v /\ z <= price v).

  Lemma holdings_move x c q z : clear c q z ->
    holdings x s k z = (holdings x s k q + IZR (active_at s k c) * delta x q z)%R.
  Proof using I.
    intros HC. unfold holdings, active_at. rewrite <- rsum_msum, <- rsum_scale, <- rsum_add. apply rsum_ext. intros [a m] pos H.
    unfold active_of. destruct (bool_decide_reflect (pos_pool_key pos = k)) as [Ek|Nk]; cbn [andb]; [|lra].
    destruct (pos_ticks s a m pos I H) as (p0 & tl & tu & P & L & U & TL & TU). rewrite Ek in *.
    pose proof (so_lt _ _ (I_pos _ I _ _ _ H)) as Hlt.
    pose proof (okt_valid _ _ (to_okt _ _ _ _ TL)) as VL. pose proof (okt_valid _ _ (to_okt _ _ _ _ TU)) as VU.
    rewrite !tick_price_valid by auto.
    destruct (HC (pos_lower pos) ltac:(eauto)) as [A1 A2]. destruct (HC (pos_upper pos) ltac:(eauto)) as [A3 A4].
    pose proof (price_lt _ _ VL VU Hlt) as Hpp. fold (in_range (pos_lower pos) (pos_upper pos) c). unfold in_range.
    destruct (Z.leb_spec (pos_lower pos) c), (Z.ltb_spec c (pos_upper pos)); cbn [andb].
    - apply principal_inside; lia.
    - rewrite Rmult_0_l, Rplus_0_r. apply principal_over; lia.
    - rewrite Rmult_0_l, Rplus_0_r. apply principal_below; lia.
    - lia.
  Qed.
End Holdings.

(** ** The input of a step towards lower prices, sharply *)

Lemma x_above_sharp a b L v : price_in_range a -> price_in_range b -> a <= b ->
  x_num a b L * (x_den a b / 10 ^ 24) < (v * (x_den a b / 10 ^ 24) + 1) * x_den a b ->
  (IZR L * 10 ^ 19 * (/ IZR a - / IZR b) <= IZR v + 2 * 10 ^ 24 / (IZR a * IZR b))%R.
Proof.
  intros Ra Rb Hab H. pose proof (den_large a b Ra Rb) as HD.
  assert (Ha : 0 < a) by (unfold price_in_range in *; lia).
  pose proof (x_den_pos a b Ha ltac:(lia)) as Hd. pose proof (x_exact a b L Ha Hab) as HX.
  assert (HDD : x_den a b <= 2 * 10 ^ 24 * (x_den a b / 10 ^ 24)).
  { pose proof (Z.div_mod (x_den a b) (10 ^ 24) ltac:(lia)). pose proof (Z.mod_pos_bound (x_den a b) (10 ^ 24) ltac:(lia)). nia. }
  assert (Hdab : IZR (x_den a b) = (IZR a * IZR b)%R) by (unfold x_den; apply mult_IZR). rewrite <- Hdab.
  set (D := x_den a b / 10 ^ 24) in *. clearbody D. set (d := x_den a b) in *. clearbody d.
  apply IZR_lt in H. rewrite !mult_IZR, plus_IZR, mult_IZR, HX in H. clear HX.
  set (X := (IZR L * 10 ^ 19 * (/ IZR a - / IZR b))%R) in *.
  replace (X * IZR d * IZR D)%R with (X * IZR D * IZR d)%R in H by ring.
  apply Rmult_lt_reg_r in H; auto. apply IZR_le in HD, HDD. rewrite mult_IZR in HDD.
  change (IZR (2 * 10 ^ 14)) with 200000000000000%R in HD. change (IZR (2 * 10 ^ 24)) with 2000000000000000000000000%R in HDD.
  assert (HX : (X < IZR v + / IZR D)%R).
  { apply (Rmult_lt_reg_r (IZR D)); [lra|]. rewrite Rmult_plus_distr_r, Rinv_l by lra. lra. }
  assert (/ IZR D <= 2 * 10 ^ 24 / IZR d)%R; [|lra].
  apply (Rmult_le_reg_r (IZR D)); [lra|]. rewrite Rinv_l by lra. apply (Rmult_le_reg_r (IZR d)); [lra|].
  replace (2 * 10 ^ 24 / IZR d * IZR D * IZR d)%R with (2 * 10 ^ 24 * IZR D)%R by (field; lra). lra.
Qed.

(** ** Along a swap *)

Section Walk.
  Context (s : state) (k : pool_key) (d bi : bool) (lim ts a : Z) (p0 : pool).
  Context (I : Inv s) (Hp0 : s_pools s !! k = Some p0) (Ha : u256 a)
          (Hact : active_at s k (p_current_tick_index p0) = p_liquidity p0).

  Local Notation linv := (linv s k d bi lim p0).
  Local Notation exact_ticks := (exact_ticks s k p0).
  Local Notation price_of l := (p_sqrt_price (l_pool l)).

  (** An iteration of a clean swap stays between two neighbouring ticks. *)
  Lemma iter_clear l l' target r p1 : linv l -> l_remaining l <> 0 ->
    istep s k d bi lim l l' target r p1 ->
    iend s k d bi lim ts l l' r (set_sqrt_price (sr_next_sqrt_price r) p1)
        (l_remaining l - (if bi then sr_amount_in r + sr_fee_amount r else sr_amount_out r)) ->
    p_sqrt_price (l_pool l') = sr_next_sqrt_price r -> linv l' -> exact_ticks l' ->
    clear s k (cur l) (price_of l) (price_of l').
  Proof using I.
    intros V Hnz S E Hpr V' EX'. pose proof (linv_exact _ _ _ _ _ _ l V Hnz) as EX.
    pose proof (I_pool _ (v_inv _ _ _ _ _ _ _ V) _ _ (mid_pool s k l)) as PO.
    pose proof (I_pool _ (v_inv _ _ _ _ _ _ _ V') _ _ (mid_pool s k l')) as PO'.
    unfold cur. set (p := l_pool l) in *. set (c := p_current_tick_index p) in *.
    assert (TKo : forall v, is_Some (s_ticks s !! (k, v)) -> okt (pk_spacing k) v).
    { intros v [t0 Ht0]. apply (to_okt _ _ _ _ (proj2 (I_tick _ I _ _ _ Ht0))). }
    assert (SAME : forall c', p_current_tick_index (l_pool l') = c' ->
        (forall v, is_Some (s_ticks s !! (k, v)) -> ~ passed c c' v) -> clear s k c (p_sqrt_price p) (price_of l')).
    { intros c' Ec NP v Hv. destruct (pool_side k p v PO (TKo v Hv)) as [A1 A2]. fold c in A1, A2.
      destruct (pool_side k (l_pool l') v PO' (TKo v Hv)) as [A3 A4]. rewrite Ec in A3, A4.
      specialize (NP v Hv). unfold passed in NP. split; intros; (split; [auto|]); [apply A3|apply A4]; lia. }
    inversion E as [c' EP ET ER EI NP DIR|c' v EP ET ER EZ EI Hv Hpv _ NM|i t0 Ht Hti Hi Hn Hcl Hst EP ET ER EI NP|i p3 Hd Hbi Hr3 Hfe EP ET ER EI Hi Hn NP].
    - apply (SAME c'); auto. rewrite EP. reflexivity.
    - exfalso. pose proof (EX' v Hv) as Hv'. unfold done_ticks, cur in Hv'. rewrite ET, EP in Hv'. cbn [set_current_tick_index p_current_tick_index] in Hv'.
      pose proof (EX v Hv) as Hv2. unfold done_ticks, cur in Hv2. fold p in Hv2, Hpv. fold c in Hv2, Hpv. rewrite Hv2 in Hv'. unfold passed in *. lia.
    - assert (Ec : p_current_tick_index (l_pool l') = if d then i - pk_spacing k else i) by (rewrite EP; reflexivity).
      fold p in Hi, NP. fold c in Hi, NP. pose proof (pool_spacing _ _ PO) as Hsp.
      intros v Hv. destruct (pool_side k p v PO (TKo v Hv)) as [A1 A2]. fold c in A1, A2.
      destruct (pool_side k (l_pool l') v PO' (TKo v Hv)) as [A3 A4]. rewrite Ec in A3, A4.
      specialize (NP v Hv). destruct (Z.eq_dec v i) as [->|Hne].
      + rewrite Hpr, Hn. split; intros Hvc; (split; [auto|lia]).
      + unfold passed in NP. split; intros Hvc; (split; [auto|]); [apply A3|apply A4]; destruct d; lia.
    - apply (SAME i); auto. rewrite EP. reflexivity.
  Qed.

  (** The number of steps of a swap towards lower prices. *)
  Lemma iter_moves l l' r p2 rem : linv l -> l_remaining l <> 0 -> iend s k d bi lim ts l l' r p2 rem ->
    d = true -> l_remaining l' <> 0 -> cur l' < cur l.
  Proof using I.
    intros V Hnz E -> Hr. pose proof (I_pool _ (v_inv _ _ _ _ _ _ _ V) _ _ (mid_pool s k l)) as PO. pose proof (pool_spacing _ _ PO) as Hsp.
    unfold cur. inversion E as [c' EP ET ER EI NP DIR|c' v EP ET ER EZ EI Hv Hpv _ NM|i t0 Ht Hti Hi Hn Hcl Hst EP ET ER EI NP|i p3 Hd Hbi Hr3 Hfe EP ET ER EI Hi Hn NP];
      rewrite EP; cbn [set_current_tick_index p_current_tick_index dirP] in *.
    - rewrite ER in Hr. specialize (DIR Hr). lia.
    - lia.
    - lia.
    - lia.
  Qed.

  Lemma iter_in l l' r p2 rem : 0 <= rem -> u256 (sr_fee_amount r) -> iend s k d bi lim ts l l' r p2 rem ->
    l_in l + sr_amount_in r <= l_in l'.
  Proof.
    intros Hr Hf E. apply u256_M in Hf.
    inversion E as [c' EP ET ER EI NP DIR|c' v EP ET ER EZ EI Hv Hpv _ NM|i t0 Ht Hti Hi Hn Hcl Hst EP ET ER EI NP|i p3 Hd Hbi Hr3 Hfe EP ET ER EI Hi Hn NP]; lia.
  Qed.

  (** What a step changes in the holdings. *)
  Lemma iter_holdings l l' target r p1 : linv l -> l_remaining l <> 0 ->
    istep s k d bi lim l l' target r p1 ->
    iend s k d bi lim ts l l' r (set_sqrt_price (sr_next_sqrt_price r) p1)
        (l_remaining l - (if bi then sr_amount_in r + sr_fee_amount r else sr_amount_out r)) ->
    p_sqrt_price (l_pool l') = sr_next_sqrt_price r -> linv l' -> exact_ticks l' ->
    (holdings d s k (price_of l') <= holdings d s k (price_of l) + IZR (sr_amount_in r) + (if d then eps else 0))%R /\
    (holdings (negb d) s k (price_of l') <= holdings (negb d) s k (price_of l) - IZR (sr_amount_out r))%R /\
    (d = true -> holdings true s k (price_of l') <= holdings true s k (price_of l) + IZR (sr_amount_in r)
                   + 2 * 10 ^ 24 / (IZR (price_of l') * IZR (price_of l)))%R.
  Proof using I Hact.
    intros V Hnz S E Hpr V' EX'. pose proof (linv_exact _ _ _ _ _ _ l V Hnz) as EX.
    pose proof (I_pool _ (v_inv _ _ _ _ _ _ _ V) _ _ (mid_pool s k l)) as PO.
    pose proof (iter_clear l l' target r p1 V Hnz S E Hpr V' EX') as CL.
    pose proof (v_liq _ _ _ _ _ _ _ V EX Hact) as HLQ.
    pose proof (po_tier _ _ PO) as [_ Hft].
    assert (Hfee : 0 <= pk_fee k <= E12) by (unfold pk_fee in *; change (10 ^ 12) with E12 in Hft; lia).
    pose proof (is_dir _ _ _ _ _ _ _ _ _ _ S) as Hdir. pose proof (is_between _ _ _ _ _ _ _ _ _ _ S) as Hbt.
    assert (HN : price_in_range (sr_next_sqrt_price r)) by apply S.
    assert (D1 : dirP d (sr_next_sqrt_price r <= price_of l) (price_of l <= sr_next_sqrt_price r)) by (destruct d; cbn [dirP] in *; lia).
    assert (D2 : dirP d (target <= price_of l) (price_of l <= target)) by (destruct d; cbn [dirP] in *; lia).
    destruct (step_values (price_of l) target (p_liquidity (l_pool l)) (l_remaining l) bi d (pk_fee k) r (po_range _ _ PO) (is_target _ _ _ _ _ _ _ _ _ _ S)
      (po_liq _ _ PO) (v_rem _ _ _ _ _ _ _ V) Hfee (is_step _ _ _ _ _ _ _ _ _ _ S) HN D1 D2) as [SV1 SV2].
    rewrite (holdings_move s k I d _ _ _ CL), (holdings_move s k I (negb d) _ _ _ CL), HLQ, Hpr.
    split; [lra|]. split; [lra|]. intros ->. cbn [dirP] in *.
    rewrite <- Hpr, (holdings_move s k I true _ _ _ CL), HLQ, Hpr.
    destruct (step_in_x (price_of l) target (p_liquidity (l_pool l)) (l_remaining l) bi (pk_fee k) (po_range _ _ PO) (is_target _ _ _ _ _ _ _ _ _ _ S)
      (po_liq _ _ PO) (v_rem _ _ _ _ _ _ _ V) Hfee r (is_step _ _ _ _ _ _ _ _ _ _ S) D2) as [S1 _]. cbv zeta in S1.
    rewrite (x_num_sym (price_of l)), (x_den_sym (price_of l)) in S1.
    pose proof (x_above_sharp _ _ _ _ HN (po_range _ _ PO) D1 S1). unfold delta. lra.
  Qed.

  (** ** A whole clean swap *)

  Lemma swap_holdings r : calculate_swap s ts k d a bi lim = Ok r -> clean_result s k r ->
    (holdings d s k (p_sqrt_price (cs_pool r)) <=
       holdings d s k (p_sqrt_price p0) + IZR (cs_amount_in r) + (if d then 443637 * eps else 0))%R /\
    (holdings (negb d) s k (p_sqrt_price (cs_pool r)) <= holdings (negb d) s k (p_sqrt_price p0) - IZR (cs_amount_out r))%R /\
    dirP d (p_sqrt_price (cs_pool r) <= p_sqrt_price p0) (p_sqrt_price p0 <= p_sqrt_price (cs_pool r)).
  Proof using I Hp0 Ha Hact.
    intros H HC. pose proof eps_pos as He.
    pose (Q := fun l => dirP d (price_of l <= p_sqrt_price p0) (p_sqrt_price p0 <= price_of l) /\
       (exact_ticks l -> exists m, 0 <= m <= 443637 /\
       (d = true -> l_remaining l <> 0 -> m <= p_current_tick_index p0 - cur l) /\
       (holdings d s k (price_of l) <= holdings d s k (p_sqrt_price p0) + IZR (l_in l) + (if d then IZR m * eps else 0))%R /\
       (holdings (negb d) s k (price_of l) <= holdings (negb d) s k (p_sqrt_price p0) - IZR (l_out l))%R)).
    destruct (swap_induction s k d bi lim ts a p0 I Hp0 Ha Q r) as (l & V & _ & HQ & _ & _ & ->); [| |exact H|].
    - intros _. split; [cbn; destruct d; cbn; lia|]. intros _. exists 0. split; [lia|]. split; [unfold cur; cbn; lia|].
      unfold loop_start. cbn [l_in l_out l_pool]. destruct d; split; lra.
    - intros l l' target r0 p1 V Hnz [HD HQ] S E PO1 Hpr V'.
      pose proof (is_dir _ _ _ _ _ _ _ _ _ _ S) as Hdir.
      split; [rewrite Hpr; destruct d; cbn [dirP] in *; lia|]. intros EX'.
      destruct (HQ (linv_exact _ _ _ _ _ _ l V Hnz)) as (m & Hm & Hmd & H1 & H2).
      destruct (iter_holdings l l' target r0 p1 V Hnz S E Hpr V' EX') as (G1 & G2 & _).
      pose proof (iter_in l l' r0 _ _ (is_rem _ _ _ _ _ _ _ _ _ _ S) (is_fee _ _ _ _ _ _ _ _ _ _ S) E) as Hin. apply IZR_le in Hin. rewrite plus_IZR in Hin.
      assert (HO : IZR (l_out l') = (IZR (l_out l) + IZR (sr_amount_out r0))%R) by (rewrite (is_l_out _ _ _ _ _ _ _ _ _ _ S); apply plus_IZR).
      pose proof (I_pool _ (v_inv _ _ _ _ _ _ _ V) _ _ (mid_pool s k l)) as PO.
      pose proof (po_tick _ _ PO) as [Hc1 _]. pose proof (po_tick _ _ (I_pool _ I _ _ Hp0)) as [Hc0 _].
      pose proof (iter_moves l l' _ _ _ V Hnz E) as HM. unfold cur in *.
      exists (if d then m + 1 else m). destruct d.
      + specialize (Hmd eq_refl Hnz). split; [lia|]. split; [intros _ Hr; specialize (HM eq_refl Hr); lia|].
        rewrite plus_IZR. split; lra.
      + split; [lia|]. split; [intros HF; discriminate HF|]. split; lra.
    - assert (EX : exact_ticks l) by (intros v Hv; apply (HC p0 v Hp0 Hv)).
      destruct HQ as [HD HQ]. destruct (HQ EX) as (m & Hm & _ & H1 & H2). cbn [cs_amount_in cs_amount_out cs_pool].
      split; [|split; [exact H2|exact HD]]. eapply Rle_trans; [exact H1|]. apply Rplus_le_compat_l. destruct d; [|lra].
      apply Rmult_le_compat_r; [lra|]. apply IZR_le. lia.
  Qed.

  (** ** Towards lower prices, past a given price

      [z] is a price at or below the first one, from which the holdings of x have
      fallen by at least [b].  A swap that pays at most [b] ends, as far as the
      holdings of y show, hardly below [z]. *)
  Lemma swap_back z b r : d = true -> price_in_range z -> z <= p_sqrt_price p0 ->
    (IZR b <= holdings true s k z - holdings true s k (p_sqrt_price p0))%R ->
    calculate_swap s ts k d a bi lim = Ok r -> clean_result s k r -> cs_amount_in r <= b ->
    (holdings false s k z <= holdings false s k (p_sqrt_price (cs_pool r)) + 443637 * (2 / 10 ^ 24))%R.
  Proof using I Hp0 Ha Hact.
    intros Hd Rz Hz Hb H HC Hin. set (P := p_sqrt_price p0) in *.
    set (X := holdings true s k) in *. set (Y := holdings false s k) in *.
    set (e := (2 * 10 ^ 24)%R).
    pose (Q := fun l => exact_ticks l -> exists m, 0 <= m <= 443637 /\
       (l_remaining l <> 0 -> m <= p_current_tick_index p0 - cur l) /\
       (z <= price_of l -> (X (price_of l) - X P <= IZR (l_in l) + IZR m * (e / (IZR (price_of l) * IZR (price_of l))))%R) /\
       (price_of l < z -> b < l_in l \/ (l_in l = b /\ (Y z - Y (price_of l) <= IZR m * (2 / 10 ^ 24))%R))).
    destruct (swap_induction s k d bi lim ts a p0 I Hp0 Ha Q r) as (l & V & _ & HQ & _ & _ & ->); [| |exact H|].
    - intros _ _. exists 0. split; [lia|]. split; [unfold cur; cbn; lia|].
      unfold loop_start. cbn [l_in l_out l_pool]. split; [intros _; fold P; lra|fold P; lia].
    - intros l l' target r0 p1 V Hnz HQ S E PO1 Hpr V' EX'.
      destruct (HQ (linv_exact _ _ _ _ _ _ l V Hnz)) as (m & Hm & Hmd & HA & HB). clear HQ.
      destruct (iter_holdings l l' target r0 p1 V Hnz S E Hpr V' EX') as (_ & _ & G). specialize (G Hd).
      pose proof (iter_clear l l' target r0 p1 V Hnz S E Hpr V' EX') as CL.
      pose proof (iter_in l l' r0 _ _ (is_rem _ _ _ _ _ _ _ _ _ _ S) (is_fee _ _ _ _ _ _ _ _ _ _ S) E) as Hi.
      pose proof (u256_M _ (is_in _ _ _ _ _ _ _ _ _ _ S)) as Hi0.
      pose proof (is_dir _ _ _ _ _ _ _ _ _ _ S) as Hdir. rewrite <- Hpr in Hdir.
      pose proof (iter_moves l l' _ _ _ V Hnz E Hd) as HM.
      pose proof (I_pool _ (v_inv _ _ _ _ _ _ _ V) _ _ (mid_pool s k l)) as PO.
      pose proof (I_pool _ (v_inv _ _ _ _ _ _ _ V') _ _ (mid_pool s k l')) as PO'.
      pose proof (po_tick _ _ PO) as [Hc1 _]. pose proof (po_tick _ _ (I_pool _ I _ _ Hp0)) as [Hc0 _].
      pose proof (po_range _ _ PO) as Rq. pose proof (po_range _ _ PO') as Rn.
      specialize (Hmd Hnz). unfold cur in Hmd, HM.
      fold X in G. set (q := price_of l) in *. set (n := price_of l') in *.
      assert (Hnq : n <= q) by (rewrite Hd in Hdir; cbn [dirP] in Hdir; exact Hdir). clear Hdir.
      assert (Q0 : (1 <= IZR q)%R) by (apply IZR_le; unfold price_in_range in Rq; lia).
      assert (N0 : (15258932000000000000 <= IZR n)%R) by (apply IZR_le; unfold price_in_range in Rn; lia).
      assert (NQ : (IZR n <= IZR q)%R) by (apply IZR_le; exact Hnq).
      exists (m + 1). split; [lia|]. split; [intros Hr; specialize (HM Hr); unfold cur; lia|].
      assert (E0 : (0 <= e)%R) by (unfold e; lra).
      assert (M0 : (0 <= IZR m)%R) by (apply IZR_le; lia). assert (M1 : (IZR m + 1 <= 443637)%R) by (rewrite <- plus_IZR; apply IZR_le; lia).
      rewrite plus_IZR.
      assert (ERR : forall u v w x : R, (0 < u <= w)%R -> (0 < v <= x)%R -> (e / (w * x) <= e / (u * v))%R).
      { intros u v w x Hu Hv. unfold Rdiv. apply Rmult_le_compat_l; [lra|]. apply Rinv_le_contravar.
        - apply Rmult_lt_0_compat; lra.
        - apply Rmult_le_compat; lra. }
      assert (UP : z <= q -> (X n - X P <= IZR (l_in l') + (IZR m + 1) * (e / (IZR n * IZR q)))%R).
      { intros Hzq. specialize (HA Hzq). apply IZR_le in Hi. rewrite plus_IZR in Hi.
        assert (e / (IZR q * IZR q) <= e / (IZR n * IZR q))%R as HE by (apply ERR; lra).
        apply (Rmult_le_compat_l _ _ _ M0) in HE. unfold e in *. lra. }
      split.
      + intros Hzn. specialize (UP ltac:(lia)). eapply Rle_trans; [exact UP|]. apply Rplus_le_compat_l.
        apply Rmult_le_compat_l; [lra|]. apply ERR; lra.
      + intros Hnz'. destruct (Z.le_gt_cases z q) as [Hzq|Hqz].
        * (* the step that passes [z] *)
          clear HB. specialize (UP Hzq). assert (Z0 : (15258932000000000000 <= IZR z)%R) by (apply IZR_le; unfold price_in_range in Rz; lia).
          assert (ZQ : (IZR z <= IZR q)%R) by (apply IZR_le; exact Hzq).
          assert (CN : clear s k (cur l) z n).
          { intros v Hv. destruct (CL v Hv) as [A1 A2]. split; intros; [specialize (A1 ltac:(auto))|specialize (A2 ltac:(auto))]; lia. }
          pose proof (holdings_move s k I true _ _ _ CN) as MX. pose proof (holdings_move s k I false _ _ _ CN) as MY. fold X in MX. fold Y in MY.
          pose proof (holdings_swap s k I n z ltac:(unfold price_in_range in Rn; lia) ltac:(lia)) as HS. cbv zeta in HS. fold X in HS. fold Y in HS. destruct HS as (HS & _).
          assert (SM : ((IZR m + 1) * (e / (IZR n * IZR q)) < 1)%R).
          { apply Rle_lt_trans with (443637 * (e / (15258932000000000000 * 15258932000000000000)))%R.
            - apply Rmult_le_compat; [lra| |lra|].
              + unfold Rdiv. apply Rmult_le_pos; [lra|]. left. apply Rinv_0_lt_compat. apply Rmult_lt_0_compat; lra.
              + apply ERR; lra.
            - unfold e. lra. }
          assert (HL : b <= l_in l'). { apply Z.lt_succ_r, lt_IZR. unfold Z.succ. rewrite plus_IZR. lra. }
          destruct (Z.eq_dec (l_in l') b) as [Eb|]; [|left; lia]. right. split; [exact Eb|]. rewrite Eb in UP.
          assert (HX : (X n - X z <= (IZR m + 1) * (e / (IZR n * IZR z)))%R).
          { assert (e / (IZR n * IZR q) <= e / (IZR n * IZR z))%R as HE by (apply ERR; lra).
            apply (Rmult_le_compat_l (IZR m + 1)) in HE; lra. }
          assert (EY : (Y z - Y n = (X n - X z) * (IZR n * IZR z) / 10 ^ 48)%R).
          { rewrite MX, MY. unfold delta. field. lra. }
          rewrite EY. apply (Rmult_le_compat_r (IZR n * IZR z)) in HX; [|left; apply Rmult_lt_0_compat; lra].
          replace ((IZR m + 1) * (e / (IZR n * IZR z)) * (IZR n * IZR z))%R with ((IZR m + 1) * e)%R in HX by (field; lra).
          unfold e in HX. lra.
        * destruct (HB Hqz) as [HB'|[Eb HY]]; [left; lia|]. clear HB HA UP.
          destruct (Z.eq_dec (l_in l') b) as [Eb'|]; [|left; lia]. right. split; [exact Eb'|].
          assert (Z1 : sr_amount_in r0 = 0) by lia. rewrite Z1, Rplus_0_r in G.
          pose proof (holdings_move s k I true _ _ _ CL) as MX. pose proof (holdings_move s k I false _ _ _ CL) as MY. fold X in MX. fold Y in MY. fold q n in MX, MY.
          assert (EY : (Y q - Y n = (X n - X q) * (IZR n * IZR q) / 10 ^ 48)%R).
          { rewrite MX, MY. unfold delta. field. lra. }
          assert (HX : (X n - X q <= e / (IZR n * IZR q))%R) by (unfold e; lra).
          apply (Rmult_le_compat_r (IZR n * IZR q)) in HX; [|left; apply Rmult_lt_0_compat; lra].
          replace (e / (IZR n * IZR q) * (IZR n * IZR q))%R with e in HX by (field; lra).
          unfold e in HX. lra.
    - assert (EX : exact_ticks l) by (intros v Hv; apply (HC p0 v Hp0 Hv)).
      destruct (HQ EX) as (m & Hm & _ & HA & HB). cbn [cs_amount_in cs_amount_out cs_pool] in *. unfold Y.
      assert (M1 : (0 <= IZR m <= 443637)%R) by (split; apply IZR_le; lia).
      destruct (Z.le_gt_cases z (price_of l)) as [Hzq|Hqz].
      + pose proof (holdings_swap s k I z (price_of l) ltac:(unfold price_in_range in Rz; lia) Hzq) as HS. cbv zeta in HS. lra.
      + destruct (HB Hqz) as [HB'|[_ HY]]; [lia|]. fold Y. lra.
  Qed.
End Walk.

(** ** Calls *)

Record moved (k : pool_key) (s s' : state) (nx ny n : Z) : Prop := {
  mv_n : 0 <= n;
  mv_pool : is_Some (s_pools s !! k) -> is_Some (s_pools s' !! k);
  mv_same : forall x q, holdings x s' k q = holdings x s k q;
  mv_x : is_Some (s_pools s !! k) -> (holdings true s k (pool_price s' k) <= holdings true s k (pool_price s k) + IZR nx + IZR n * (443637 * eps))%R;
  mv_y : is_Some (s_pools s !! k) -> (holdings false s k (pool_price s' k) <= holdings false s k (pool_price s k) + IZR ny)%R;
}.

Lemma moved_still k s s' : (is_Some (s_pools s !! k) -> is_Some (s_pools s' !! k)) -> (is_Some (s_pools s !! k) -> pool_price s' k = pool_price s k) ->
  (forall x q, holdings x s' k q = holdings x s k q) -> moved k s s' 0 0 0.
Proof. intros H1 H2 H3. constructor; auto; [lia| |]; intros H; rewrite (H2 H); lra. Qed.
Lemma moved_refl k s : moved k s s 0 0 0.
Proof. apply moved_still; auto. Qed.
Lemma moved_weaken k s s' nx ny n n' : n <= n' -> moved k s s' nx ny n -> moved k s s' nx ny n'.
Proof.
  intros Hn [H0 H1 H2 H3 H4]. constructor; auto; [lia|]. intros H. specialize (H3 H). pose proof eps_pos. apply IZR_le in Hn.
  assert (IZR n * (443637 * eps) <= IZR n' * (443637 * eps))%R by (apply Rmult_le_compat_r; lra). lra.
Qed.
Lemma moved_trans k s s1 s2 nx ny n nx' ny' n' : moved k s s1 nx ny n -> moved k s1 s2 nx' ny' n' -> moved k s s2 (nx + nx') (ny + ny') (n + n').
Proof.
  intros [A0 A1 A2 A3 A4] [B0 B1 B2 B3 B4]. constructor.
  - lia.
  - auto.
  - intros. rewrite B2. apply A2.
  - intros H. specialize (B3 (A1 H)). rewrite !A2 in B3. rewrite !plus_IZR. specialize (A3 H). lra.
  - intros H. specialize (B4 (A1 H)). rewrite !A2 in B4. rewrite !plus_IZR. specialize (A4 H). lra.
Qed.

Lemma holdings_positions s s' k : s_positions s' = s_positions s -> forall x q, holdings x s' k q = holdings x s k q.
Proof. intros E x q. unfold holdings. rewrite E. reflexivity. Qed.

Lemma moved_swap e s k' d a bi lim s' r k : Inv s -> active_ok s -> u256 a -> swap e s k' d a bi lim = Ok (s', r) -> clean_result s k' r ->
  moved k s s' (swap_pays true k k' d r) (swap_pays false k k' d r) 1.
Proof.
  intros I A Ha H HC. apply swap_inv in H as (B & H & -> & _). destruct (calculate_swap_pool _ _ _ _ _ _ _ _ H) as [p0 Hp0].
  unfold swap_pays. destruct (bool_decide_reflect (k' = k)) as [->|Hk].
  - destruct (swap_holdings s k d bi lim (e_timestamp e) a p0 I Hp0 Ha (A _ _ Hp0) r H HC) as (H1 & H2 & _).
    constructor; [lia| | | |].
    + intros _. cbn [set_balances set_pools s_pools]. rewrite lookup_insert. eauto.
    + apply holdings_positions. reflexivity.
    + intros _. unfold pool_price. cbn [set_balances set_pools s_pools]. rewrite lookup_insert, Hp0. pose proof eps_pos.
      destruct d; cbn [Bool.eqb negb] in *; rewrite ?opp_IZR; lra.
    + intros _. unfold pool_price. cbn [set_balances set_pools s_pools]. rewrite lookup_insert, Hp0.
      destruct d; cbn [Bool.eqb negb] in *; rewrite ?opp_IZR; lra.
  - apply (moved_weaken _ _ _ _ _ 0); [lia|]. apply moved_still.
    + cbn [set_balances set_pools s_pools]. rewrite lookup_insert_ne by auto. auto.
    + unfold pool_price. cbn [set_balances set_pools s_pools]. rewrite lookup_insert_ne by auto. auto.
    + apply holdings_positions. reflexivity.
Qed.

Lemma moved_route e hops k : forall s a s' out, Inv s -> active_ok s -> u256 a -> route_swap e s a hops = Ok (s', out) -> clean_route e s a hops ->
  moved k s s' (route_pays true k e s a hops) (route_pays false k e s a hops) (Z.of_nat (length hops)).
Proof.
  induction hops as [|h hops IH]; cbn [route_swap clean_route route_pays length]; intros s a s' out I A Ha H HC.
  - injection H as <- _. apply moved_refl.
  - apply bind_Ok in H as ([s1 r] & E & H). destruct (HC _ _ E) as [C1 C2].
    destruct (Inv_swap _ _ _ _ _ _ _ _ _ I Ha E) as (I1 & _ & Hr). rewrite E.
    pose proof (active_swap e s _ _ a true _ s1 r I Ha E C1 A) as A1.
    replace (Z.of_nat (S (length hops))) with (1 + Z.of_nat (length hops)) by lia.
    eapply moved_trans; [exact (moved_swap _ _ _ _ _ _ _ _ _ k I A Ha E C1)|]. eapply IH; eauto.
Qed.

Lemma moved_op e s o s' k : Inv s -> active_ok s -> op_wf o -> clean s (Call e o) -> trading (Call e o) -> run_op e s o = Ok s' ->
  moved k s s' (trader_pays true k s (Call e o)) (trader_pays false k s (Call e o)) (swaps_of (Call e o)).
Proof.
  intros I A W HC HT HO.
  assert (SET : forall p p' k' (B : _) st, s_pools s !! k' = Some p -> p_sqrt_price p' = p_sqrt_price p ->
     st = set_balances B (set_pools (<[k' := p']> (s_pools s)) s) \/ st = set_pools (<[k' := p']> (s_pools s)) s -> moved k s st 0 0 0).
  { intros p p' k' B st Hp Hpr Est. assert (E1 : s_pools st = <[k' := p']> (s_pools s)) by (destruct Est as [-> | ->]; reflexivity).
    assert (E2 : s_positions st = s_positions s) by (destruct Est as [-> | ->]; reflexivity).
    apply moved_still; [| |apply holdings_positions; auto]; unfold pool_price; rewrite E1.
    - intros Hs. destruct (decide (k' = k)) as [->|]; [rewrite lookup_insert; eauto|rewrite lookup_insert_ne by auto; exact Hs].
    - intros _. destruct (decide (k' = k)) as [->|]; [rewrite lookup_insert, Hp; auto|rewrite lookup_insert_ne; auto]. }
  assert (SAME : forall st, s_pools st = s_pools s -> s_positions st = s_positions s -> moved k s st 0 0 0).
  { intros st E1 E2. apply moved_still; [| |apply holdings_positions; auto]; unfold pool_price; rewrite E1; auto. }
  destruct o; cbn [run_op trading] in *; try contradiction; apply drop_result_Ok in HO as [v H]; cbn [op_wf clean trader_pays swaps_of] in *.
  - apply change_protocol_fee_inv in H as [_ ->]. apply SAME; reflexivity.
  - apply add_fee_tier_inv in H as (_ & _ & _ & _ & _ & ->). apply SAME; reflexivity.
  - apply remove_fee_tier_inv in H as (_ & l & _ & ->). apply SAME; reflexivity.
  - apply create_pool_inv in H as (k' & p & HF & HT' & HK & HN & _ & HC0 & ->).
    apply moved_still; [| |apply holdings_positions; reflexivity].
    + intros Hk. cbn [set_pool_keys set_pools s_pools]. rewrite lookup_insert_ne; [auto|]. intros ->. rewrite HN in Hk. destruct Hk as [? Hk]. discriminate Hk.
    + intros Hk. unfold pool_price. cbn [set_pool_keys set_pools s_pools]. rewrite lookup_insert_ne; [auto|].
      intros ->. rewrite HN in Hk. destruct Hk as [? Hk]. discriminate Hk.
  - apply change_fee_receiver_inv in H as (_ & p & Hp & ->). eapply (SET p _ _ (s_balances s)); [exact Hp| |right; reflexivity]. reflexivity.
  - pose proof (fun x q => transfer_rsum (fun pos => if bool_decide (pos_pool_key pos = k)
                     then principal x (pos_liquidity pos) q (tick_price (pos_lower pos)) (tick_price (pos_upper pos))
                     else 0%R) e s index receiver s' v (I_dense _ I) H) as HR.
    apply transfer_position_inv in H as (pos & lp & s1 & _ & _ & E1 & E2). assert (EP : s_pools s' = s_pools s) by (subst s' s1; reflexivity).
    apply moved_still; [| |exact HR]; unfold pool_price; rewrite EP; auto.
  - rewrite H. eapply moved_swap; [exact I|exact A|apply W|exact H|exact (HC _ _ H)].
  - rewrite H. apply swap_route_inv in H. eapply moved_route; eauto. apply W.
  - destruct v as [x y]. apply claim_summary in H as (pos & p & tl & tu & mx & C); [|auto].
    apply moved_still.
    + rewrite (cl_pools _ _ _ _ _ _ _ _ _ _ _ C). intros Hs. destruct (decide (pos_pool_key pos = k)) as [->|]; [rewrite lookup_insert; eauto|rewrite lookup_insert_ne by auto; exact Hs].
    + unfold pool_price. rewrite (cl_pools _ _ _ _ _ _ _ _ _ _ _ C). intros _.
      pose proof (cl_pool _ _ _ _ _ _ _ _ _ _ _ C) as HP. destruct (decide (pos_pool_key pos = k)) as [<-|]; [rewrite lookup_insert, HP; reflexivity|rewrite lookup_insert_ne; auto].
    + intros b q. unfold holdings. rewrite (cl_positions _ _ _ _ _ _ _ _ _ _ _ C), (rsum_update _ _ _ pos) by apply C.
      cbn [pos_pool_key pos_liquidity pos_lower pos_upper]. lra.
  - apply withdraw_protocol_fee_inv in H as (p & B & Hp & _ & -> & _). eapply (SET p); [exact Hp| |left; reflexivity]. reflexivity.
  - apply deposit_vara_inv in H as (_ & [B ->] & _). apply SAME; reflexivity.
  - apply withdraw_vara_inv in H as ([B ->] & _). apply SAME; reflexivity.
Qed.
