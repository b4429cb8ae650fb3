(** What the pools owe, before and after a swap. *)
From Verif Require Import Base Decimal SqrtPriceM LogM ClammM FeeGrowthM Types TickmapM StorageM
  CollectionsM StateM ServiceM Arith SpecMath SpecFees SpecSum SpecState SpecHistory SpecClean SpecSolv P_Clamm P_Delta P_Next P_Step
  P_StepProps P_TickPrice P_GetTick P_Tickmap P_Closer
  P_Fees P_Balance P_Effects P_Positions P_History P_Loop P_Check P_State P_Iter P_Inv P_InvPos P_PosOps P_InvSwap P_Swap P_SwapLoop P_InvHist P_Active
  P_RSum P_Claims P_Owed.
From stdpp Require Import gmap list.
From Coq Require Import ZArith Lia Bool Reals Lra.
Open Scope Z_scope.

(** ** Moving the price of a pool between two ticks *)

Section Move.
  Context (s s' : state) (k : pool_key) (p p' : pool) (g : bool -> Z).
  Context (I : Inv s) (I' : Inv s') (Hp : s_pools s !! k = Some p) (Hps : s_pools s' = <[k := p']> (s_pools s))
          (Hpos : s_positions s' = s_positions s)
          (Htk : forall k' i, k' <> k -> s_ticks s' !! (k', i) = s_ticks s !! (k', i))
          (Hg : forall x, 0 <= g x).
  Local Notation c := (p_current_tick_index p).
  Local Notation q := (p_sqrt_price p).
  Local Notation n := (p_sqrt_price p').
  Context (Hside : forall v, is_Some (s_ticks s !! (k, v)) ->
             (v <= c -> price v <= q /\ price v <= n) /\ (c < v -> q <= price v /\ n <= price v)).
  Context (Hbelow : forall x v, is_Some (s_ticks s !! (k, v)) ->
             below x s' k v = if v <=? c then below x s k v else wrap (below x s k v + g x)).

  Lemma uncollected_move x a m pos : s_positions s !! (a, m) = Some pos -> pos_pool_key pos = k ->
    uncollected x s' pos <= uncollected x s pos + (if in_range (pos_lower pos) (pos_upper pos) c then g x else 0).
  Proof using I Hbelow Hg.
    intros H Ek. destruct (pos_bounds_init s a m pos I H) as [H1 H2]. rewrite Ek in *.
    pose proof (so_lt _ _ (I_pos _ I _ _ _ H)) as Hlt. pose proof (Hg x) as Hgx.
    unfold uncollected. rewrite Ek, (Hbelow x _ H1), (Hbelow x _ H2). unfold in_range.
    set (bu := below x s k (pos_upper pos)). set (bl := below x s k (pos_lower pos)). set (sn := seen_growth x pos).
    destruct (Z.leb_spec (pos_lower pos) c), (Z.ltb_spec c (pos_upper pos)), (Z.leb_spec (pos_upper pos) c); cbn [andb]; try lia.
    - replace (wrap (wrap (bu + g x) - bl - sn)) with (wrap (wrap (bu - bl - sn) + g x)).
      + pose proof (wrap_u128 (bu - bl - sn)) as HU. apply u128_M in HU. unfold wrap at 1. apply Z.mod_le; lia.
      + rewrite wrap_add_l. replace (wrap (bu + g x) - bl - sn) with (wrap (bu + g x) - (bl + sn)) by lia. rewrite wrap_sub_l.
        f_equal. lia.
    - replace (wrap (bu + g x) - wrap (bl + g x) - sn) with (wrap (bu + g x) - (wrap (bl + g x) + sn)) by lia.
      rewrite wrap_sub_l. replace (bu + g x - (wrap (bl + g x) + sn)) with (bu + g x - sn - wrap (bl + g x)) by lia.
      rewrite wrap_sub_r. replace (bu + g x - sn - (bl + g x)) with (bu - bl - sn) by lia. lia.
  Qed.

  Lemma claim_move x a m pos : s_positions s !! (a, m) = Some pos ->
    (claim x s' pos <= claim x s pos + IZR (active_of k c pos) * (delta x q n + IZR (g x) / 10 ^ 33))%R.
  Proof using I Hp Hps Htk Hg Hside Hbelow.
    intros H. destruct (pos_ticks s a m pos I H) as (p0 & tl & tu & P & L & U & TL & TU).
    unfold active_of. destruct (bool_decide_reflect (pos_pool_key pos = k)) as [Ek|Nk]; cbn [andb].
    2: { rewrite Rmult_0_l, Rplus_0_r. apply Req_le.
         apply (claim_frame s s' pos p0 p0 tl tu tl tu); auto.
         - rewrite Hps, lookup_insert_ne by congruence. auto.
         - rewrite Htk by auto. auto.
         - rewrite Htk by auto. auto. }
    pose proof (uncollected_move x a m pos H Ek) as HU.
    rewrite Ek in *. assert (p0 = p) by congruence. subst p0.
    pose proof (so_liq _ _ (I_pos _ I _ _ _ H)) as HL. pose proof (so_lt _ _ (I_pos _ I _ _ _ H)) as Hlt.
    pose proof (okt_valid _ _ (to_okt _ _ _ _ TL)) as VL. pose proof (okt_valid _ _ (to_okt _ _ _ _ TU)) as VU.
    assert (P' : s_pools s' !! pos_pool_key pos = Some p') by (rewrite Hps, Ek; apply lookup_insert).
    assert (P0 : s_pools s !! pos_pool_key pos = Some p) by (rewrite Ek; auto).
    rewrite (claim_eq x s pos p P0), (claim_eq x s' pos p' P'), !tick_price_valid by auto.
    destruct (Hside (pos_lower pos) ltac:(eauto)) as [A1 A2]. destruct (Hside (pos_upper pos) ltac:(eauto)) as [A3 A4].
    pose proof (price_lt _ _ VL VU Hlt) as Hpp. fold (in_range (pos_lower pos) (pos_upper pos) c).
    assert (HP : principal x (pos_liquidity pos) n (price (pos_lower pos)) (price (pos_upper pos)) =
      (principal x (pos_liquidity pos) q (price (pos_lower pos)) (price (pos_upper pos))
       + IZR (if in_range (pos_lower pos) (pos_upper pos) c then pos_liquidity pos else 0) * delta x q n)%R).
    { unfold in_range. destruct (Z.leb_spec (pos_lower pos) c), (Z.ltb_spec c (pos_upper pos)); cbn [andb].
      - apply principal_inside; lia.
      - rewrite Rmult_0_l, Rplus_0_r. apply principal_over; lia.
      - rewrite Rmult_0_l, Rplus_0_r. apply principal_below; lia.
      - lia. }
    rewrite HP. clear HP. apply IZR_le in HU. rewrite plus_IZR in HU.
    assert (HL' : (0 <= IZR (pos_liquidity pos))%R) by (apply IZR_le; lia).
    assert (E : (IZR (if in_range (pos_lower pos) (pos_upper pos) c then pos_liquidity pos else 0) * (IZR (g x) / 10 ^ 33) =
      IZR (pos_liquidity pos) * IZR (if in_range (pos_lower pos) (pos_upper pos) c then g x else 0) / 10 ^ 33)%R).
    { destruct (in_range _ _ _); [unfold Rdiv; ring|unfold Rdiv; rewrite Rmult_0_r; lra]. }
    rewrite Rmult_plus_distr_l, E. clear E.
    apply (Rmult_le_compat_l _ _ _ HL') in HU.
    assert (HU' : (IZR (pos_liquidity pos) * IZR (uncollected x s' pos) / 10 ^ 33 <=
      IZR (pos_liquidity pos) * (IZR (uncollected x s pos) + IZR (if in_range (pos_lower pos) (pos_upper pos) c then g x else 0)) / 10 ^ 33)%R).
    { unfold Rdiv. apply Rmult_le_compat_r; [lra|]. exact HU. }
    lra.
  Qed.

  Lemma owed_move t :
    (owed s' t <= owed s t + cin t k (IZR (active_at s k c) * (delta true q n + IZR (g true) / 10 ^ 33)
                                        + IZR (p_fee_protocol_token_x p' - p_fee_protocol_token_x p))
                                     (IZR (active_at s k c) * (delta false q n + IZR (g false) / 10 ^ 33)
                                        + IZR (p_fee_protocol_token_y p' - p_fee_protocol_token_y p)))%R.
  Proof using I Hp Hps Hpos Htk Hg Hside Hbelow.
    unfold owed. rewrite Hps, (protocol_update t s k p p' Hp), Hpos.
    set (D := fun x => (delta x q n + IZR (g x) / 10 ^ 33)%R).
    assert (S : (rsum (fun _ pos => claim_in t s' pos) (s_positions s) <=
      rsum (fun _ pos => claim_in t s pos) (s_positions s) + IZR (active_at s k c) * cin t k (D true) (D false))%R).
    { unfold active_at. rewrite <- rsum_msum, <- rsum_scale, <- rsum_add. apply rsum_le. intros [a m] pos H.
      pose proof (claim_move true a m pos H) as C1. pose proof (claim_move false a m pos H) as C2. fold (D true) in C1. fold (D false) in C2.
      rewrite !claim_in_cin. pose proof (cin_le t (pos_pool_key pos) _ _ _ _ C1 C2) as C3. rewrite cin_add in C3.
      eapply Rle_trans; [exact C3|]. apply Rplus_le_compat_l. unfold active_of.
      destruct (bool_decide_reflect (pos_pool_key pos = k)) as [Ek|Nk]; cbn [andb].
      - rewrite Ek. unfold cin. destruct (token_of true k =? t), (token_of false k =? t); lra.
      - unfold cin. destruct (_ =? t), (_ =? t), (_ =? t), (_ =? t); lra. }
    fold (D true) (D false). rewrite cin_add.
    assert (E1 : cin t k (IZR (active_at s k c) * D true) (IZR (active_at s k c) * D false) = (IZR (active_at s k c) * cin t k (D true) (D false))%R).
    { unfold cin. destruct (_ =? t), (_ =? t); lra. }
    assert (E2 : cin t k (IZR (p_fee_protocol_token_x p' - p_fee_protocol_token_x p)) (IZR (p_fee_protocol_token_y p' - p_fee_protocol_token_y p)) =
      IZR (protocol_in t k p' - protocol_in t k p)).
    { unfold cin, protocol_in, protocol_fee. rewrite !minus_IZR, !plus_IZR. destruct (_ =? t), (_ =? t); lra. }
    rewrite E1, E2, plus_IZR, !minus_IZR. lra.
  Qed.
End Move.

(** ** Booking a fee *)

Definition growth_in (d : bool) (g : Z) (x : bool) : Z := if Bool.eqb x d then g else 0.

Lemma add_fee_growth p amount d pf p' : u256 amount -> 0 <= pf -> u256 (p_liquidity p) ->
  u128 (p_fee_growth_global_x p) -> u128 (p_fee_growth_global_y p) ->
  pool_add_fee p amount d pf = Ok p' ->
  exists g part, 0 <= g /\ 0 <= part /\ p_liquidity p * g + E33 * part <= E33 * amount /\
    (forall x, global_growth x p' = wrap (global_growth x p + growth_in d g x)) /\
    p_fee_protocol_token_x p' = p_fee_protocol_token_x p + growth_in d part true /\
    p_fee_protocol_token_y p' = p_fee_protocol_token_y p + growth_in d part false /\
    p_liquidity p' = p_liquidity p.
Proof.
  intros Ha Hpf HL Gx Gy H.
  destruct (pool_add_fee_spec _ _ _ _ _ Ha Hpf HL H) as (part & rest & E1 & E2 & E3 & _ & [[-> _]|(g & Eg & -> & _)]).
  - exists 0, 0. apply u256_M in Ha. split; [lia|]. split; [lia|]. split; [unfold E33; lia|].
    unfold growth_in, global_growth. split; [|split; [|split]].
    + intros x. destruct (Bool.eqb x d); rewrite Z.add_0_r; destruct x; rewrite wrap_id; auto.
    + destruct (Bool.eqb _ _); lia.
    + destruct (Bool.eqb _ _); lia.
    + reflexivity.
  - exists g, part. assert (Ur : u256 rest) by (apply u256_M in Ha; apply u256_I; lia).
    pose proof (from_fee_le _ _ _ HL Ur Eg) as HF. apply from_fee_inv in Eg as (_ & _ & Hg); auto. pose proof (u128_M _ Hg).
    split; [lia|]. split; [auto|]. split; [lia|].
    unfold growth_in, global_growth. split; [|split; [|split]].
    + intros x. destruct d, x; cbn [Bool.eqb set_fees_x set_fees_y p_fee_growth_global_x p_fee_growth_global_y];
        rewrite ?unchecked_add_wrap by auto; rewrite ?Z.add_0_r; auto; rewrite wrap_id; auto.
    + destruct d; cbn; lia.
    + destruct d; cbn; lia.
    + destruct d; reflexivity.
Qed.

(** ** One step of the pricing engine *)

Definition flow (d : bool) (t : Z) (k : pool_key) (a b : R) : R := if d then cin t k a (- b) else cin t k (- b) a.

Lemma flow_add d t k a b a' b' : (flow d t k (a + a') (b + b') = flow d t k a b + flow d t k a' b')%R.
Proof. unfold flow. destruct d; rewrite <- cin_add; f_equal; lra. Qed.

Lemma IZR_mono a b : a <= b -> (IZR a <= IZR b)%R. Proof. apply IZR_le. Qed.

Lemma step_values p target L a (bi d : bool) fee r : price_in_range p -> price_in_range target -> u256 L -> u256 a -> 0 <= fee <= E12 ->
  compute_swap_step p target L a bi fee = Ok r -> price_in_range (sr_next_sqrt_price r) ->
  dirP d (sr_next_sqrt_price r <= p) (p <= sr_next_sqrt_price r) -> dirP d (target <= p) (p <= target) ->
  (IZR L * delta d p (sr_next_sqrt_price r) <= IZR (sr_amount_in r) + (if d then eps else 0))%R /\
  (IZR L * delta (negb d) p (sr_next_sqrt_price r) <= - IZR (sr_amount_out r))%R.
Proof.
  intros Hp Ht HL Ha Hf E Hn Hd Hdt. pose proof eps_pos. set (n := sr_next_sqrt_price r) in *.
  assert (P0 : 0 < p) by (unfold price_in_range in Hp; lia). assert (N0 : 0 < n) by (unfold price_in_range in Hn; lia).
  destruct d; cbn [dirP negb] in *; unfold delta.
  - split.
    + destruct (step_in_x p target L a bi fee Hp Ht HL Ha Hf r E Hdt) as [S _]. cbv zeta in S. fold n in S.
      rewrite (x_num_sym p n), (x_den_sym p n) in S. pose proof (x_above n p L (sr_amount_in r) Hn Hp Hd S). lra.
    + pose proof (step_out_y p target L a bi fee Hp Ht HL Ha Hf r E Hdt) as S. fold n in S. rewrite y_num_sym in S.
      pose proof (y_below n p L _ Hd S). lra.
  - destruct (Z.eq_dec p target) as [Eq|Ne].
    + rewrite <- Eq in E. destruct (step_same_price _ _ _ _ _ _ Hp HL Ha Hf E) as (E1 & E2 & E3 & _). fold n in E1. rewrite E1, E2, E3.
      split; lra.
    + split.
      * pose proof (step_in_y p target L a bi fee Hp Ht HL Ha Hf r E ltac:(lia)) as S. fold n in S.
        pose proof (y_above p n L _ Hd S). lra.
      * pose proof (step_out_x p target L a bi fee Hp Ht HL Ha Hf r E ltac:(lia)) as S. fold n in S.
        pose proof (x_below p n L _ P0 Hd S). lra.
Qed.

Lemma fee_value L g part amount : L * g + E33 * part <= E33 * amount ->
  (IZR L * (IZR g / 10 ^ 33) + IZR part <= IZR amount)%R.
Proof.
  intros H. apply IZR_le in H. rewrite plus_IZR, !mult_IZR in H. unfold E33 in H.
  assert (IZR L * (IZR g / 10 ^ 33) = IZR L * IZR g / 10 ^ 33)%R as -> by (unfold Rdiv; ring).
  apply (Rmult_le_reg_r (10 ^ 33)); [lra|]. rewrite Rmult_plus_distr_r. unfold Rdiv. rewrite Rmult_assoc, Rinv_l by lra. lra.
Qed.

(** ** An iteration *)

Section Iter.
  Context (s : state) (k : pool_key) (d bi : bool) (lim ts a : Z) (p0 : pool).
  Context (I : Inv s) (Hp0 : s_pools s !! k = Some p0) (Ha : u256 a)
          (Hact : active_at s k (p_current_tick_index p0) = p_liquidity p0).

  Local Notation linv := (linv s k d bi lim p0).
  Local Notation exact_ticks := (exact_ticks s k p0).

  Lemma owed_iteration l l' target r p1 t : linv l -> l_remaining l <> 0 ->
    istep s k d bi lim l l' target r p1 ->
    iend s k d bi lim ts l l' r (set_sqrt_price (sr_next_sqrt_price r) p1)
        (l_remaining l - (if bi then sr_amount_in r + sr_fee_amount r else sr_amount_out r)) ->
    pool_ok k p1 -> p_sqrt_price (l_pool l') = sr_next_sqrt_price r -> linv l' -> exact_ticks l' ->
    (owed (mid s k l') t <= owed (mid s k l) t + flow d t k (IZR (l_in l' - l_in l) + (if d then eps else 0)) (IZR (l_out l' - l_out l)))%R.
  Proof using I Hact.
    intros V Hnz S E PO1 Hpr V' EX'. pose proof (linv_exact _ _ _ _ _ _ l V Hnz) as EX.
    pose proof (I_pool _ (v_inv _ _ _ _ _ _ _ V) _ _ (mid_pool s k l)) as PO.
    pose proof (I_pool _ (v_inv _ _ _ _ _ _ _ V') _ _ (mid_pool s k l')) as PO'.
    pose proof (v_liq _ _ _ _ _ _ _ V EX Hact) as HLQ. unfold cur in HLQ.
    pose proof (proj1 (u128_M _ (I_fee _ I))) as Hpf.
    pose proof (po_tier _ _ PO) as [_ Hft].
    assert (Hfee : 0 <= pk_fee k <= E12) by (unfold pk_fee in *; change (10 ^ 12) with E12 in Hft; lia).
    set (p := l_pool l) in *. set (c := p_current_tick_index p) in *. set (n := sr_next_sqrt_price r) in *.
    destruct (add_fee_growth p (sr_fee_amount r) d (s_protocol_fee s) p1 (is_fee _ _ _ _ _ _ _ _ _ _ S) Hpf (po_liq _ _ PO)
      (po_gx _ _ PO) (po_gy _ _ PO) (is_add_fee _ _ _ _ _ _ _ _ _ _ S)) as (g & part & Hg0 & Hpt0 & HgL & HG & HFx & HFy & HL1).
    pose proof (pool_add_fee_ok k _ _ _ _ _ PO (is_fee _ _ _ _ _ _ _ _ _ _ S) Hpf (is_add_fee _ _ _ _ _ _ _ _ _ _ S)) as (_ & _ & F2 & F3 & _).
    set (rem1 := l_remaining l - (if bi then sr_amount_in r + sr_fee_amount r else sr_amount_out r)) in *.
    assert (U3 : u256 rem1).
    { apply u256_I. pose proof (is_rem _ _ _ _ _ _ _ _ _ _ S) as Hr0. fold rem1 in Hr0. pose proof (u256_M _ (v_rem _ _ _ _ _ _ _ V)).
      pose proof (u256_M _ (is_in _ _ _ _ _ _ _ _ _ _ S)). pose proof (u256_M _ (is_out _ _ _ _ _ _ _ _ _ _ S)).
      pose proof (u256_M _ (is_fee _ _ _ _ _ _ _ _ _ _ S)). unfold rem1 in *. destruct bi; lia. }
    assert (TKo : forall v, is_Some (s_ticks s !! (k, v)) -> okt (pk_spacing k) v).
    { intros v [t0 Ht0]. apply (to_okt _ _ _ _ (proj2 (I_tick _ I _ _ _ Ht0))). }
    assert (MT : forall v, is_Some (s_ticks (mid s k l) !! (k, v)) <-> is_Some (s_ticks s !! (k, v))).
    { intros v. apply mid_ticks; [exact I|apply V]. }
    (* fees, the final pool and the growth below the ticks, in each case *)
    assert (FACTS : exists G PT, 0 <= G /\ 0 <= PT /\
       p_liquidity p * G + E33 * PT <= E33 * (l_in l' - l_in l - sr_amount_in r) /\
       p_fee_protocol_token_x (l_pool l') = p_fee_protocol_token_x p + growth_in d PT true /\
       p_fee_protocol_token_y (l_pool l') = p_fee_protocol_token_y p + growth_in d PT false /\
       (forall v, is_Some (s_ticks s !! (k, v)) ->
          (v <= c -> price v <= p_sqrt_price p /\ price v <= n) /\ (c < v -> p_sqrt_price p <= price v /\ n <= price v)) /\
       (forall x v, is_Some (s_ticks s !! (k, v)) ->
          below x (mid s k l') k v = if v <=? c then below x (mid s k l) k v else wrap (below x (mid s k l) k v + growth_in d G x))).
    { assert (SAME : forall c', p_current_tick_index (l_pool l') = c' ->
        (forall v, is_Some (s_ticks s !! (k, v)) -> ~ passed c c' v) ->
        forall v, is_Some (s_ticks s !! (k, v)) ->
          (v <= c -> price v <= p_sqrt_price p /\ price v <= n) /\ (c < v -> p_sqrt_price p <= price v /\ n <= price v)).
      { intros c' Ec NP v Hv. destruct (pool_side k p v PO (TKo v Hv)) as [A1 A2]. fold c in A1, A2.
        destruct (pool_side k (l_pool l') v PO' (TKo v Hv)) as [A3 A4]. rewrite Ec, Hpr in A3, A4.
        specialize (NP v Hv). unfold passed in NP. split; intros; (split; [auto|]); [apply A3|apply A4]; lia. }
      assert (BELOW : forall c' G, p_current_tick_index (l_pool l') = c' -> l_ticks l' = l_ticks l ->
        (forall v, is_Some (s_ticks s !! (k, v)) -> ~ passed c c' v) ->
        (forall x, global_growth x (l_pool l') = wrap (global_growth x p + growth_in d G x)) ->
        forall x v, is_Some (s_ticks s !! (k, v)) ->
          below x (mid s k l') k v = if v <=? c then below x (mid s k l) k v else wrap (below x (mid s k l) k v + growth_in d G x)).
      { intros c' G Ec ET NP HGG x v Hv. apply MT in Hv as [t0 Ht0]. pose proof Ht0 as Ht1.
        assert (Ht1' : s_ticks (mid s k l') !! (k, v) = Some t0).
        { cbn [mid set_pools set_ticks s_ticks] in *. rewrite ET. exact Ht0. }
        rewrite (below_eq x _ k v _ t0 (mid_pool s k l') Ht1'), (below_eq x _ k v _ t0 (mid_pool s k l) Ht0).
        fold p. fold c. rewrite Ec, HGG. specialize (NP v (proj1 (MT v) (ex_intro _ _ Ht0))). unfold passed in NP. unfold growth_below.
        destruct (Z.leb_spec v c), (Z.leb_spec v c'); try lia; try reflexivity.
        rewrite wrap_add_l, wrap_sub_l. f_equal. lia. }
      inversion E as [c' EP ET ER EI NP DIR|c' v EP ET ER EZ EI Hv Hpv _ NM|i t0 Ht Hti Hi Hn Hcl Hst EP ET ER EI NP|i p3 Hd Hbi Hr3 Hfe EP ET ER EI Hi Hn NP].
      - exists g, part. split; [auto|]. split; [auto|]. split; [lia|]. split; [rewrite EP; exact HFx|]. split; [rewrite EP; exact HFy|].
        split; [apply (SAME c'); auto; rewrite EP; reflexivity|]. apply (BELOW c' g); auto; rewrite EP; auto.
      - exfalso. pose proof (EX' v Hv) as Hv'. unfold done_ticks, cur in Hv'. rewrite ET, EP in Hv'. cbn [set_current_tick_index p_current_tick_index] in Hv'.
        pose proof (EX v Hv) as Hv2. unfold done_ticks, cur in Hv2. fold p in Hv2, Hpv. fold c in Hv2, Hpv. rewrite Hv2 in Hv'. unfold passed in *. lia.
      - exists g, part. split; [auto|]. split; [auto|]. split; [lia|]. split; [rewrite EP; exact HFx|]. split; [rewrite EP; exact HFy|].
        assert (Ec : p_current_tick_index (l_pool l') = if d then i - pk_spacing k else i) by (rewrite EP; reflexivity).
        fold p in Hi, NP. fold c in Hi, NP. pose proof (pool_spacing _ _ PO) as Hsp.
        assert (Nin : i ∉ map t_index (l_ticks l)).
        { intros Hin. apply (r_side _ _ _ _ _ (linv_ready _ _ _ _ _ _ l V Hnz)) in Hin. fold p in Hin. fold c in Hin. destruct d; cbn [dirP] in *; lia. }
        split.
        + intros v Hv. destruct (pool_side k p v PO (TKo v Hv)) as [A1 A2]. fold c in A1, A2.
          destruct (pool_side k (l_pool l') v PO' (TKo v Hv)) as [A3 A4]. rewrite Ec, Hpr in A3, A4.
          specialize (NP v Hv). destruct (Z.eq_dec v i) as [->|Hne].
          * fold n in Hn. rewrite Hn. split; intros Hvc; (split; [auto|lia]).
          * unfold passed in NP. split; intros Hvc; (split; [auto|]); [apply A3|apply A4]; destruct d; lia.
        + intros x v Hv. specialize (NP v Hv). destruct (Z.eq_dec v i) as [->|Hne].
          * assert (Htm : s_ticks (mid s k l) !! (k, i) = Some t0).
            { cbn [mid set_pools set_ticks s_ticks]. rewrite put_ticks_ne by (intros _; exact Nin). exact Ht. }
            assert (Htm' : s_ticks (mid s k l') !! (k, i) = Some (crossed t0 (set_sqrt_price n p1) ts)).
            { cbn [mid set_pools set_ticks s_ticks]. rewrite ET, put_ticks_app. cbn [crossed t_index]. rewrite Hti. apply lookup_insert. }
            destruct (I_tick _ I _ _ _ Ht) as [_ TO].
            rewrite (below_eq x _ k i _ _ (mid_pool s k l') Htm'), (below_eq x _ k i _ t0 (mid_pool s k l) Htm).
            fold p. fold c. rewrite Ec. unfold growth_below.
            assert (EO : outside_growth x (crossed t0 (set_sqrt_price n p1) ts) = wrap (wrap (global_growth x p + growth_in d g x) - outside_growth x t0)).
            { rewrite <- HG. pose proof PO1 as [_ _ _ _ _ _ _ _ Gx Gy _ _]. unfold outside_growth, crossed, global_growth.
              cbn [t_fee_growth_outside_x t_fee_growth_outside_y set_sqrt_price p_fee_growth_global_x p_fee_growth_global_y].
              destruct x; apply unchecked_sub_wrap; first [apply TO|auto]. }
            assert (EG : global_growth x (l_pool l') = wrap (global_growth x p + growth_in d g x)).
            { rewrite <- HG, EP. reflexivity. }
            rewrite EO, EG. destruct d; cbn [dirP] in Hi.
            -- destruct (Z.leb_spec i (i - pk_spacing k)); [lia|]. destruct (Z.leb_spec i c); [|lia].
               rewrite wrap_sub_r. replace (wrap (global_growth x p + growth_in true g x) - (wrap (global_growth x p + growth_in true g x) - outside_growth x t0))
                 with (outside_growth x t0) by lia. apply wrap_id. destruct x; apply TO.
            -- destruct (Z.leb_spec i i); [|lia]. destruct (Z.leb_spec i c); [lia|].
               rewrite wrap_add_l, wrap_sub_l. f_equal. lia.
          * apply MT in Hv as [t1 Ht1].
            assert (Ht1' : s_ticks (mid s k l') !! (k, v) = Some t1).
            { cbn [mid set_pools set_ticks s_ticks] in *. rewrite ET, put_ticks_app. cbn [crossed t_index]. rewrite Hti.
              rewrite lookup_insert_ne by congruence. exact Ht1. }
            rewrite (below_eq x _ k v _ t1 (mid_pool s k l') Ht1'), (below_eq x _ k v _ t1 (mid_pool s k l) Ht1).
            fold p. fold c. rewrite Ec. unfold growth_below.
            assert (EG : global_growth x (l_pool l') = wrap (global_growth x p + growth_in d g x)).
            { rewrite <- HG, EP. reflexivity. }
            rewrite EG. unfold passed in NP.
            destruct (Z.leb_spec v c), (Z.leb_spec v (if d then i - pk_spacing k else i)); try (exfalso; destruct d; lia); try reflexivity.
            rewrite wrap_add_l, wrap_sub_l. f_equal. lia.
      - pose proof PO1 as [_ _ L1 _ _ _ _ _ Gx Gy _ _].
        destruct (add_fee_growth (set_sqrt_price n p1) rem1 d (s_protocol_fee s) p3 U3 Hpf L1 Gx Gy Hfe)
          as (g2 & part2 & Hg2 & Hpt2 & HgL2 & HG2 & HFx2 & HFy2 & HL2).
        cbn [set_sqrt_price p_liquidity p_fee_protocol_token_x p_fee_protocol_token_y] in HgL2, HFx2, HFy2, HL2. rewrite HL1 in HgL2.
        exists (g + g2), (part + part2). split; [lia|]. split; [lia|]. split; [rewrite EI; lia|].
        assert (ED : forall u v x, growth_in d (u + v) x = growth_in d u x + growth_in d v x) by (intros; unfold growth_in; destruct (Bool.eqb _ _); lia).
        rewrite !ED.
        split; [rewrite EP; cbn [set_current_tick_index p_fee_protocol_token_x]; lia|]. split; [rewrite EP; cbn [set_current_tick_index p_fee_protocol_token_y]; lia|].
        split; [apply (SAME i); auto; rewrite EP; reflexivity|]. apply (BELOW i (g + g2)); auto; [rewrite EP; reflexivity|].
        intros x. rewrite EP, ED. change (global_growth x (set_current_tick_index i p3)) with (global_growth x p3). rewrite HG2.
        change (global_growth x (set_sqrt_price n p1)) with (global_growth x p1). rewrite HG, wrap_add_l. f_equal. lia. }
    destruct FACTS as (G & PT & HG0 & HPT & HGL & HPx & HPy & SIDE & BEL).
    pose proof (owed_move (mid s k l) (mid s k l') k p (l_pool l') (growth_in d G) (v_inv _ _ _ _ _ _ _ V) (mid_pool s k l)) as OM.
    rewrite Hpr in OM. fold n in OM. fold c in OM.
    specialize (OM ltac:(cbn [mid set_pools set_ticks s_pools]; rewrite insert_insert; reflexivity) eq_refl).
    specialize (OM ltac:(intros k' j Hk; cbn [mid set_pools set_ticks s_ticks]; rewrite !put_ticks_ne by (intros; congruence); reflexivity)).
    specialize (OM ltac:(intros x; unfold growth_in; destruct (Bool.eqb _ _); lia)).
    specialize (OM ltac:(intros v Hv; apply SIDE, MT, Hv)).
    specialize (OM ltac:(intros x v Hv; apply BEL, MT, Hv) t).
    eapply Rle_trans; [exact OM|]. apply Rplus_le_compat_l.
    change (active_at (mid s k l) k c) with (active_at s k c). rewrite HLQ, HPx, HPy.
    assert (HN : price_in_range n) by apply S.
    pose proof (is_dir _ _ _ _ _ _ _ _ _ _ S) as Hdir. fold p n in Hdir.
    pose proof (is_between _ _ _ _ _ _ _ _ _ _ S) as Hbt. fold p in Hbt.
    destruct (step_values (p_sqrt_price p) target (p_liquidity p) (l_remaining l) bi d (pk_fee k) r (po_range _ _ PO) (is_target _ _ _ _ _ _ _ _ _ _ S)
      (po_liq _ _ PO) (v_rem _ _ _ _ _ _ _ V) Hfee (is_step _ _ _ _ _ _ _ _ _ _ S) HN) as [SV1 SV2].
    { fold n. destruct d; cbn [dirP] in *; lia. }
    { destruct d; cbn [dirP] in *; lia. }
    fold n in SV1, SV2. apply fee_value in HGL. rewrite (minus_IZR (l_in l' - l_in l)) in HGL.
    assert (EO : l_out l' - l_out l = sr_amount_out r) by (rewrite (is_l_out _ _ _ _ _ _ _ _ _ _ S); lia). rewrite EO.
    unfold flow. rewrite !minus_IZR, !plus_IZR. rewrite minus_IZR in HGL.
    unfold growth_in. destruct d; cbn [Bool.eqb negb] in *; apply cin_le; lra.
  Qed.

  (** ** A whole swap *)

  Lemma owed_loop t r : calculate_swap s ts k d a bi lim = Ok r -> clean_result s k r ->
    (owed (swapped s k r) t <= owed s t + flow d t k (IZR (cs_amount_in r)) (IZR (cs_amount_out r)) + 443637 * eps)%R.
  Proof using I Hp0 Ha Hact.
    intros H HC. pose proof eps_pos as He.
    pose (Q := fun l => exact_ticks l -> exists m, 0 <= m <= 443637 /\
       dirP d (l_remaining l <> 0 -> m <= p_current_tick_index p0 - cur l) (m = 0) /\
       (owed (mid s k l) t <= owed s t + flow d t k (IZR (l_in l)) (IZR (l_out l)) + IZR m * eps)%R).
    destruct (swap_induction s k d bi lim ts a p0 I Hp0 Ha Q r) as (l & V & _ & HQ & _ & _ & ->); [| |exact H|].
    - intros _ _. exists 0. split; [lia|]. split; [unfold cur; cbn; destruct d; cbn; lia|].
      unfold loop_start. cbn [l_in l_out].
      assert (E : owed (mid s k (mkLoop p0 a 0 0 0 [])) t = owed s t).
      { apply owed_same; [|reflexivity|reflexivity]. cbn [mid set_pools set_ticks s_pools l_pool]. apply insert_id. exact Hp0. }
      rewrite E. unfold flow, cin. destruct d, (_ =? t), (_ =? t); lra.
    - intros l l' target r0 p1 V Hnz HQ S E PO1 Hpr V' EX'.
      destruct (HQ (linv_exact _ _ _ _ _ _ l V Hnz)) as (m & Hm & Hdir & HO).
      pose proof (owed_iteration l l' target r0 p1 t V Hnz S E PO1 Hpr V' EX') as OI.
      pose proof (I_pool _ (v_inv _ _ _ _ _ _ _ V) _ _ (mid_pool s k l)) as PO.
      pose proof (po_tick _ _ PO) as [Hc1 _]. pose proof (po_tick _ _ (I_pool _ I _ _ Hp0)) as [Hc0 _].
      pose proof (po_tokens _ _ PO) as Htok. pose proof (pool_spacing _ _ PO) as Hsp.
      exists (if d then m + 1 else m).
      assert (HD : dirP d (l_remaining l' <> 0 -> cur l' < cur l) True).
      { destruct d; [|exact Logic.I]. cbn [dirP]. unfold cur. intros Hr.
        inversion E as [c' EP ET ER EI NP DIR|c' v EP ET ER EZ EI Hv Hpv _ NM|i t0 Ht Hti Hi Hn Hcl Hst EP ET ER EI NP|i p3 Hd Hbi Hr3 Hfe EP ET ER EI Hi Hn NP];
          rewrite EP; cbn [set_current_tick_index p_current_tick_index dirP] in *.
        - rewrite ER in Hr. specialize (DIR Hr). lia.
        - lia.
        - lia.
        - lia. }
      unfold cur in *.
      split; [destruct d; cbn [dirP] in *; [specialize (Hdir Hnz)|]; lia|].
      split; [destruct d; cbn [dirP] in *; [intros Hr; specialize (Hdir Hnz); specialize (HD Hr); lia|exact Hdir]|].
      eapply Rle_trans; [exact OI|]. eapply Rle_trans; [apply Rplus_le_compat_r, HO|].
      rewrite !minus_IZR. clear - He Htok.
      assert (EF : flow d t k (IZR (l_in l')) (IZR (l_out l')) =
        (flow d t k (IZR (l_in l)) (IZR (l_out l)) + flow d t k (IZR (l_in l') - IZR (l_in l)) (IZR (l_out l') - IZR (l_out l)))%R).
      { rewrite <- flow_add. f_equal; lra. }
      assert (EE : (flow d t k (IZR (l_in l') - IZR (l_in l) + (if d then eps else 0)) (IZR (l_out l') - IZR (l_out l)) <=
        flow d t k (IZR (l_in l') - IZR (l_in l)) (IZR (l_out l') - IZR (l_out l)) + (if d then eps else 0))%R).
      { unfold flow. destruct d.
        - unfold cin, token_of. destruct (Z.eqb_spec (pk_token_x k) t), (Z.eqb_spec (pk_token_y k) t); try lra; try (exfalso; lia).
        - rewrite Rplus_0_r. lra. }
      rewrite EF. destruct d; [rewrite plus_IZR|]; lra.
    - assert (EX : exact_ticks l) by (intros v Hv; apply (HC p0 v Hp0 Hv)).
      destruct (HQ EX) as (m & Hm & _ & HO). cbn [cs_amount_in cs_amount_out].
      change (swapped s k _) with (mid s k l). pose proof (IZR_le _ _ (proj2 Hm)) as Hm'.
      assert (IZR m * eps <= 443637 * eps)%R by (apply Rmult_le_compat_r; lra). lra.
  Qed.
End Iter.

Lemma owed_swap e s k d a bi lim s' r t : Inv s -> u256 a -> active_ok s ->
  swap e s k d a bi lim = Ok (s', r) -> clean_result s k r ->
  (owed s' t <= owed s t + IZR (bal_total s t - bal_total s' t) + 443637 * eps)%R.
Proof.
  intros I Ha A H HC. apply swap_inv in H as (B & H & Es' & _ & HT & _).
  destruct (calculate_swap_pool _ _ _ _ _ _ _ _ H) as [p0 Hp0].
  pose proof (owed_loop s k d bi lim (e_timestamp e) a p0 I Hp0 Ha (A _ _ Hp0) t r H HC) as HO.
  assert (EO : owed s' t = owed (swapped s k r) t) by (subst s'; apply owed_same; reflexivity).
  rewrite EO. enough (IZR (bal_total s t - bal_total s' t) = flow d t k (IZR (cs_amount_in r)) (IZR (cs_amount_out r))) as -> by exact HO.
  rewrite (HT t). unfold flow, cin, on, token_of. rewrite !(Z.eqb_sym t).
  destruct d, (pk_token_x k =? t), (pk_token_y k =? t); rewrite ?minus_IZR, ?plus_IZR, ?opp_IZR; try lra.
Qed.
