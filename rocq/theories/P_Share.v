(** How a swap raises the uncollected growth of the positions. *)
From Verif Require Import Base Decimal SqrtPriceM LogM ClammM FeeGrowthM Types TickmapM StorageM
  CollectionsM StateM ServiceM Arith SpecMath SpecFees SpecSum SpecState SpecHistory SpecClean SpecSolv SpecPath SpecShare
  P_Clamm P_Delta P_Next P_Step P_StepProps P_TickPrice P_GetTick P_Tickmap P_Closer
  P_Fees P_Balance P_Effects P_Positions P_History P_Loop P_Check P_State P_Iter P_Inv P_InvPos P_PosOps P_InvSwap P_Swap P_SwapLoop P_InvHist P_Path P_Active P_Claims P_Owed P_OwedSwap.
From stdpp Require Import gmap list.
From Coq Require Import ZArith Lia Bool.
Open Scope Z_scope.

(** A step that leaves the growth below the ticks at or below [c] and raises that
    below the others. *)
Lemma uncollected_step s s' k c g x a m pos : Inv s ->
  (forall v, is_Some (s_ticks s !! (k, v)) -> below x s' k v = if v <=? c then below x s k v else wrap (below x s k v + g)) ->
  s_positions s !! (a, m) = Some pos -> pos_pool_key pos = k ->
  uncollected x s' pos = wrap (uncollected x s pos + (if in_range (pos_lower pos) (pos_upper pos) c then g else 0)).
Proof.
  intros I Hb H Ek. destruct (pos_bounds_init s a m pos I H) as [H1 H2]. rewrite Ek in *.
  pose proof (so_lt _ _ (I_pos _ I _ _ _ H)) as Hlt.
  unfold uncollected. rewrite Ek, (Hb _ H1), (Hb _ H2). unfold in_range.
  set (bu := below x s k (pos_upper pos)). set (bl := below x s k (pos_lower pos)). set (sn := seen_growth x pos).
  rewrite wrap_add_l.
  destruct (Z.leb_spec (pos_lower pos) c), (Z.ltb_spec c (pos_upper pos)), (Z.leb_spec (pos_upper pos) c); cbn [andb]; try lia.
  - replace (wrap (bu + g) - bl - sn) with (wrap (bu + g) - (bl + sn)) by lia. rewrite wrap_sub_l. f_equal. lia.
  - f_equal. lia.
  - replace (wrap (bu + g) - wrap (bl + g) - sn) with (wrap (bu + g) - (wrap (bl + g) + sn)) by lia.
    rewrite wrap_sub_l. replace (bu + g - (wrap (bl + g) + sn)) with (bu + g - sn - wrap (bl + g)) by lia.
    rewrite wrap_sub_r. f_equal. lia.
Qed.

Section Iter.
  Context (s : state) (k : pool_key) (d bi : bool) (lim ts a : Z) (p0 : pool).
  Context (I : Inv s) (Hp0 : s_pools s !! k = Some p0) (Ha : u256 a)
          (Hact : active_at s k (p_current_tick_index p0) = p_liquidity p0).

  Local Notation linv := (linv s k d bi lim p0).
  Local Notation exact_ticks := (exact_ticks s k p0).

  (** The growth below the ticks after an iteration. *)
  Lemma below_iteration l l' target r p1 (G : bool -> Z) : linv l -> l_remaining l <> 0 ->
    istep s k d bi lim l l' target r p1 ->
    iend s k d bi lim ts l l' r (set_sqrt_price (sr_next_sqrt_price r) p1)
        (l_remaining l - (if bi then sr_amount_in r + sr_fee_amount r else sr_amount_out r)) ->
    pool_ok k p1 -> linv l' -> exact_ticks l' ->
    (forall x, global_growth x (l_pool l') = wrap (global_growth x (l_pool l) + G x)) ->
    forall x v, is_Some (s_ticks s !! (k, v)) ->
      below x (mid s k l') k v = if v <=? cur l then below x (mid s k l) k v else wrap (below x (mid s k l) k v + G x).
  Proof using I Hact.
    intros V Hnz S E PO1 V' EX' HGG. pose proof (linv_exact _ _ _ _ _ _ l V Hnz) as EX.
    pose proof (I_pool _ (v_inv _ _ _ _ _ _ _ V) _ _ (mid_pool s k l)) as PO.
    unfold cur. set (p := l_pool l) in *. set (c := p_current_tick_index p) in *. set (n := sr_next_sqrt_price r) in *.
    set (rem1 := l_remaining l - (if bi then sr_amount_in r + sr_fee_amount r else sr_amount_out r)) in *.
    assert (MT : forall v, is_Some (s_ticks (mid s k l) !! (k, v)) <-> is_Some (s_ticks s !! (k, v))).
    { intros v. apply mid_ticks; [exact I|apply V]. }
    assert (BELOW : forall c', p_current_tick_index (l_pool l') = c' -> l_ticks l' = l_ticks l ->
        (forall v, is_Some (s_ticks s !! (k, v)) -> ~ passed c c' v) ->
        forall x v, is_Some (s_ticks s !! (k, v)) ->
          below x (mid s k l') k v = if v <=? c then below x (mid s k l) k v else wrap (below x (mid s k l) k v + G x)).
    { intros c' Ec ET NP x v Hv. apply MT in Hv as [t0 Ht0]. pose proof Ht0 as Ht1.
      assert (Ht1' : s_ticks (mid s k l') !! (k, v) = Some t0).
      { cbn [mid set_pools set_ticks s_ticks] in *. rewrite ET. exact Ht0. }
      rewrite (below_eq x _ k v _ t0 (mid_pool s k l') Ht1'), (below_eq x _ k v _ t0 (mid_pool s k l) Ht0).
      fold p. fold c. rewrite Ec, HGG. specialize (NP v (proj1 (MT v) (ex_intro _ _ Ht0))). unfold passed in NP. unfold growth_below.
      destruct (Z.leb_spec v c), (Z.leb_spec v c'); try lia; try reflexivity.
      rewrite wrap_add_l, wrap_sub_l. f_equal. lia. }
    inversion E as [c' EP ET ER EI NP DIR|c' v EP ET ER EZ EI Hv Hpv _ NM|i t0 Ht Hti Hi Hn Hcl Hst EP ET ER EI NP|i p3 Hd Hbi Hr3 Hfe EP ET ER EI Hi Hn NP].
    - apply (BELOW c'); auto. rewrite EP. reflexivity.
    - exfalso. pose proof (EX' v Hv) as Hv'. unfold done_ticks, cur in Hv'. rewrite ET, EP in Hv'. cbn [set_current_tick_index p_current_tick_index] in Hv'.
      pose proof (EX v Hv) as Hv2. unfold done_ticks, cur in Hv2. fold p in Hv2, Hpv. fold c in Hv2, Hpv. rewrite Hv2 in Hv'. unfold passed in *. lia.
    - assert (Ec : p_current_tick_index (l_pool l') = if d then i - pk_spacing k else i) by (rewrite EP; reflexivity).
      fold p in Hi, NP. fold c in Hi, NP. pose proof (pool_spacing _ _ PO) as Hsp.
      assert (Nin : i ∉ map t_index (l_ticks l)).
      { intros Hin. apply (r_side _ _ _ _ _ (linv_ready _ _ _ _ _ _ l V Hnz)) in Hin. fold p in Hin. fold c in Hin. destruct d; cbn [dirP] in *; lia. }
      intros x v Hv. specialize (NP v Hv). destruct (Z.eq_dec v i) as [->|Hne].
      + assert (Htm : s_ticks (mid s k l) !! (k, i) = Some t0).
        { cbn [mid set_pools set_ticks s_ticks]. rewrite put_ticks_ne by (intros _; exact Nin). exact Ht. }
        assert (Htm' : s_ticks (mid s k l') !! (k, i) = Some (crossed t0 (set_sqrt_price n p1) ts)).
        { cbn [mid set_pools set_ticks s_ticks]. rewrite ET, put_ticks_app. cbn [crossed t_index]. rewrite Hti. apply lookup_insert. }
        destruct (I_tick _ I _ _ _ Ht) as [_ TO].
        rewrite (below_eq x _ k i _ _ (mid_pool s k l') Htm'), (below_eq x _ k i _ t0 (mid_pool s k l) Htm).
        fold p. fold c. rewrite Ec. unfold growth_below.
        assert (EO : outside_growth x (crossed t0 (set_sqrt_price n p1) ts) = wrap (wrap (global_growth x p + G x) - outside_growth x t0)).
        { rewrite <- HGG. rewrite EP. pose proof PO1 as [_ _ _ _ _ _ _ _ Gx Gy _ _]. unfold outside_growth, crossed, global_growth.
          cbn [t_fee_growth_outside_x t_fee_growth_outside_y set_sqrt_price p_fee_growth_global_x p_fee_growth_global_y
            set_current_tick_index set_liquidity set_last_timestamp].
          destruct x; apply unchecked_sub_wrap; first [apply TO|auto]. }
        rewrite EO, HGG. fold p. destruct d; cbn [dirP] in Hi.
        * destruct (Z.leb_spec i (i - pk_spacing k)); [lia|]. destruct (Z.leb_spec i c); [|lia].
          rewrite wrap_sub_r. replace (wrap (global_growth x p + G x) - (wrap (global_growth x p + G x) - outside_growth x t0))
            with (outside_growth x t0) by lia. apply wrap_id. destruct x; apply TO.
        * destruct (Z.leb_spec i i); [|lia]. destruct (Z.leb_spec i c); [lia|].
          rewrite wrap_add_l, wrap_sub_l. f_equal. lia.
      + apply MT in Hv as [t1 Ht1].
        assert (Ht1' : s_ticks (mid s k l') !! (k, v) = Some t1).
        { cbn [mid set_pools set_ticks s_ticks] in *. rewrite ET, put_ticks_app. cbn [crossed t_index]. rewrite Hti.
          rewrite lookup_insert_ne by congruence. exact Ht1. }
        rewrite (below_eq x _ k v _ t1 (mid_pool s k l') Ht1'), (below_eq x _ k v _ t1 (mid_pool s k l) Ht1).
        fold p. fold c. rewrite Ec. unfold growth_below. rewrite HGG. fold p. unfold passed in NP.
        destruct (Z.leb_spec v c), (Z.leb_spec v (if d then i - pk_spacing k else i)); try (exfalso; destruct d; lia); try reflexivity.
        rewrite wrap_add_l, wrap_sub_l. f_equal. lia.
    - apply (BELOW i); auto. rewrite EP. reflexivity.
  Qed.

  (** Where the bounds of a position lie when a segment starts. *)
  Lemma side_start l l' target r p1 v : linv l -> l_remaining l <> 0 -> istep s k d bi lim l l' target r p1 ->
    is_Some (s_ticks s !! (k, v)) -> target <> p_sqrt_price (l_pool l) ->
    (v <= cur l <-> if d then price v < p_sqrt_price (l_pool l) else price v <= p_sqrt_price (l_pool l)).
  Proof using I Hact.
    intros V Hnz S Hv Hne. pose proof (I_pool _ (v_inv _ _ _ _ _ _ _ V) _ _ (mid_pool s k l)) as PO.
    assert (Ho : okt (pk_spacing k) v).
    { destruct Hv as [t0 Ht0]. apply (to_okt _ _ _ _ (proj2 (I_tick _ I _ _ _ Ht0))). }
    destruct (pool_side k (l_pool l) v PO Ho) as [A1 A2]. unfold cur.
    pose proof (is_clear _ _ _ _ _ _ _ _ _ _ S v Hv) as CL. pose proof (is_between _ _ _ _ _ _ _ _ _ _ S) as B.
    set (c := p_current_tick_index (l_pool l)) in *. set (q := p_sqrt_price (l_pool l)) in *.
    destruct d; cbn [dirP] in *; destruct (Z.le_gt_cases v c) as [H|H].
    - specialize (A1 H). specialize (CL H). lia.
    - specialize (A2 H). lia.
    - specialize (A1 H). lia.
    - specialize (A2 H). specialize (CL H). lia.
  Qed.

  Definition shares (l : swap_loop_state) (segs : list segment) : Prop :=
    exact_ticks l -> forall x b m pos, s_positions s !! (b, m) = Some pos -> pos_pool_key pos = k ->
      uncollected x (mid s k l) pos = wrap (uncollected x s pos + if Bool.eqb x d then earned (s_protocol_fee s) d pos segs else 0).

  Lemma share_step l l' target r p1 segs : linv l -> l_remaining l <> 0 -> pinv s k d bi p0 l segs -> shares l segs ->
    istep s k d bi lim l l' target r p1 ->
    iend s k d bi lim ts l l' r (set_sqrt_price (sr_next_sqrt_price r) p1)
      (l_remaining l - (if bi then sr_amount_in r + sr_fee_amount r else sr_amount_out r)) ->
    pool_ok k p1 -> p_sqrt_price (l_pool l') = sr_next_sqrt_price r -> linv l' ->
    exists g, pinv s k d bi p0 l' (segs ++ [g]) /\ backed s k d g /\ shares l' (segs ++ [g]).
  Proof using I Hp0 Hact.
    intros V Hnz Q SH S E PO1 Hpr V'.
    destruct (walk_step s I ts k d bi lim p0 Hp0 Hact l l' target r p1 segs V Hnz Q S E PO1 Hpr V') as (x0 & Q' & LF).
    set (g := seg (p_sqrt_price (l_pool l)) (p_liquidity (l_pool l)) r x0) in *. exists g. split; [exact Q'|].
    pose proof (linv_exact _ _ _ _ _ _ l V Hnz) as EX.
    pose proof (I_pool _ (v_inv _ _ _ _ _ _ _ V) _ _ (mid_pool s k l)) as PO.
    pose proof (po_tier _ _ PO) as TO.
    assert (Hrate : 0 <= pk_fee k <= E12) by (unfold pk_fee; destruct TO as [H1 H2]; unfold E12; lia).
    assert (TV : forall v, is_Some (s_ticks s !! (k, v)) -> tick_price v = price v).
    { intros v [t0 Ht0]. apply tick_price_valid, (okt_valid (pk_spacing k)), (to_okt _ _ _ _ (proj2 (I_tick _ I _ _ _ Ht0))). }
    assert (WB : g_fee g <> 0 -> forall b m pos, s_positions s !! (b, m) = Some pos -> pos_pool_key pos = k ->
      works d pos g = in_range (pos_lower pos) (pos_upper pos) (cur l)).
    { intros Hf b m pos Hpos Ek. destruct (pos_bounds_init s b m pos I Hpos) as [B1 B2]. rewrite Ek in B1, B2.
      destruct (Z.eq_dec target (p_sqrt_price (l_pool l))) as [Et|Nt].
      - exfalso. apply Hf.
        destruct (same_fields (p_sqrt_price (l_pool l)) target (p_liquidity (l_pool l)) (l_remaining l) bi (pk_fee k)
          (po_range _ _ PO) (po_liq _ _ PO) (v_rem _ _ _ _ _ _ _ V) Hrate r (is_step _ _ _ _ _ _ _ _ _ _ S) (eq_sym Et)) as (_ & _ & _ & F0).
        exact F0.
      - pose proof (side_start l l' target r p1 _ V Hnz S B1 Nt) as S1. pose proof (side_start l l' target r p1 _ V Hnz S B2 Nt) as S2.
        unfold works, in_range. rewrite !TV by auto. cbn [g seg g_from].
        set (q := p_sqrt_price (l_pool l)) in *. clearbody q. clear - S1 S2. destruct d.
        + destruct (Z.ltb_spec (price (pos_lower pos)) q), (Z.leb_spec q (price (pos_upper pos))), (Z.leb_spec (pos_lower pos) (cur l)),
            (Z.ltb_spec (cur l) (pos_upper pos)); cbn [andb]; try reflexivity; exfalso; lia.
        + destruct (Z.leb_spec (price (pos_lower pos)) q), (Z.ltb_spec q (price (pos_upper pos))), (Z.leb_spec (pos_lower pos) (cur l)),
            (Z.ltb_spec (cur l) (pos_upper pos)); cbn [andb]; try reflexivity; exfalso; lia. }
    assert (HB : g_left g <> 0 -> forall b m pos, s_positions s !! (b, m) = Some pos -> pos_pool_key pos = k ->
      holds_end pos g = in_range (pos_lower pos) (pos_upper pos) (cur l)).
    { intros Hx b m pos Hpos Ek. destruct (pos_bounds_init s b m pos I Hpos) as [B1 B2]. rewrite Ek in B1, B2.
      destruct LF as [L0|(i & Oi & Hi & Hn & NP)]; [contradiction|].
      unfold holds_end, in_range. rewrite !TV by auto. cbn [g seg g_to]. rewrite Hn.
      assert (ST : forall v, is_Some (s_ticks s !! (k, v)) -> (v <= cur l <-> price v <= price i)).
      { intros v Hv. specialize (NP v Hv). unfold passed in NP. fold (cur l) in NP, Hi.
        assert (Vi : valid_tick i) by (apply (okt_valid (pk_spacing k)), Oi).
        assert (Vv : valid_tick v).
        { destruct Hv as [t0 Ht0]. apply (okt_valid (pk_spacing k)), (to_okt _ _ _ _ (proj2 (I_tick _ I _ _ _ Ht0))). }
        destruct (Z.le_gt_cases v i) as [Hle|Hgt].
        - pose proof (price_le v i Vv Vi Hle). lia.
        - pose proof (price_lt i v Vi Vv Hgt). lia. }
      pose proof (ST _ B1) as S1. pose proof (ST _ B2) as S2. clear - S1 S2.
      destruct (Z.leb_spec (price (pos_lower pos)) (price i)), (Z.ltb_spec (price i) (price (pos_upper pos))), (Z.leb_spec (pos_lower pos) (cur l)),
          (Z.ltb_spec (cur l) (pos_upper pos)); cbn [andb]; try reflexivity; exfalso; lia. }
    pose proof (v_liq _ _ _ _ _ _ _ V EX Hact) as HLA.
    assert (AM : forall P, (forall b m pos, s_positions s !! (b, m) = Some pos -> pos_pool_key pos = k ->
      P pos = in_range (pos_lower pos) (pos_upper pos) (cur l)) -> g_liquidity g = among s k P).
    { intros P HP. cbn [g seg g_liquidity]. rewrite <- HLA. unfold active_at, among. apply msum_ext.
      intros [b m] pos Hpos. unfold active_of. destruct (bool_decide_reflect (pos_pool_key pos = k)) as [Ek|]; [|reflexivity]. cbn [andb].
      rewrite (HP b m pos Hpos Ek). unfold in_range. destruct (pos_lower pos <=? cur l); reflexivity. }
    split; [split; intros Hz; apply AM; [exact (WB Hz)|exact (HB Hz)]|].
    intros EX' x b m pos Hpos Ek.
    specialize (SH EX x b m pos Hpos Ek).
    set (G1 := growth_of (s_protocol_fee s) (g_liquidity g) (g_fee g)).
    set (G2 := growth_of (s_protocol_fee s) (g_liquidity g) (g_left g)).
    assert (HG : forall x, global_growth x (l_pool l') = wrap (global_growth x (l_pool l) + growth_in d (G1 + G2) x)).
    { intros x1. pose proof (pi_grow _ _ _ _ _ _ _ Q) as P1. pose proof (pi_grow _ _ _ _ _ _ _ Q') as P2.
      pose proof (pi_other _ _ _ _ _ _ _ Q) as P3. pose proof (pi_other _ _ _ _ _ _ _ Q') as P4.
      rewrite sumZ_snoc in P2. fold G1 G2 in P2. rewrite Z.add_assoc in P2.
      rewrite <- Zplus_mod_idemp_l, <- P1 in P2. rewrite <- P3 in P4. clear P1 P3.
      pose proof (po_gx _ _ PO) as Ux. pose proof (po_gy _ _ PO) as Uy. clearbody G1 G2 g. clear - P2 P4 Ux Uy.
      unfold grow in P2. unfold other in P4. unfold growth_in, global_growth.
      destruct d, x1; cbn [Bool.eqb]; try exact P2; injection P4 as _ P4; rewrite P4, Z.add_0_r, wrap_id; auto. }
    assert (MT : forall v, is_Some (s_ticks (mid s k l) !! (k, v)) <-> is_Some (s_ticks s !! (k, v))).
    { intros v. apply mid_ticks; [exact I|apply V]. }
    rewrite (uncollected_step (mid s k l) (mid s k l') k (cur l) (growth_in d (G1 + G2) x) x b m pos (v_inv _ _ _ _ _ _ _ V)); auto.
    2: { intros v Hv. apply (below_iteration l l' target r p1 (growth_in d (G1 + G2)) V Hnz S E PO1 V' EX' HG x v). apply MT, Hv. }
    rewrite SH, wrap_add_l. f_equal. unfold growth_in. destruct (Bool.eqb x d); [|destruct (in_range _ _ _); lia].
    unfold earned. rewrite sumZ_snoc. fold G1 G2. rewrite <- Z.add_assoc. f_equal. f_equal.
    assert (W : (if works d pos g then G1 else 0) = if in_range (pos_lower pos) (pos_upper pos) (cur l) then G1 else 0).
    { destruct (Z.eq_dec (g_fee g) 0) as [F0|NF]; [|rewrite (WB NF b m pos Hpos Ek); reflexivity].
      unfold G1. rewrite F0, growth_of_0. destruct (works _ _ _), (in_range _ _ _); reflexivity. }
    assert (H : (if holds_end pos g then G2 else 0) = if in_range (pos_lower pos) (pos_upper pos) (cur l) then G2 else 0).
    { destruct (Z.eq_dec (g_left g) 0) as [F0|NF]; [|rewrite (HB NF b m pos Hpos Ek); reflexivity].
      unfold G2. rewrite F0, growth_of_0. destruct (holds_end _ _), (in_range _ _ _); reflexivity. }
    rewrite W, H. destruct (in_range _ _ _); lia.
  Qed.

  Lemma share_swap r : calculate_swap s ts k d a bi lim = Ok r -> clean_result s k r ->
    exists segs, walk s k d bi p0 (cs_pool r) (cs_amount_in r) (cs_amount_out r) (cs_fee r) segs /\ Forall (backed s k d) segs /\
      forall x b m pos, s_positions s !! (b, m) = Some pos -> pos_pool_key pos = k ->
        uncollected x (swapped s k r) pos = wrap (uncollected x s pos + if Bool.eqb x d then earned (s_protocol_fee s) d pos segs else 0).
  Proof using I Hp0 Ha Hact.
    intros H HC. eapply (swap_induction s k d bi lim ts a p0 I Hp0 Ha (fun l => exists segs, pinv s k d bi p0 l segs /\ Forall (backed s k d) segs /\ shares l segs))
      in H as (l & V & R0 & (segs & Q & FB & SH) & _ & _ & ->).
    - exists segs. cbn [cs_pool cs_amount_in cs_amount_out cs_fee]. split; [destruct Q; constructor; auto|]. split; [exact FB|].
      change (swapped s k _) with (mid s k l). apply SH. intros v Hv. apply (HC p0 v Hp0 Hv).
    - intros _. exists []. split; [|split; [constructor|]].
      + unfold loop_start. constructor; cbn; auto; try (rewrite Z.add_0_r); auto.
        symmetry. apply Z.mod_small. pose proof (I_pool _ I _ _ Hp0) as PO.
        unfold grow. destruct d; [apply (po_gx _ _ PO)|apply (po_gy _ _ PO)].
      + intros _ x b m pos Hpos Ek.
        assert (E : uncollected x (mid s k (loop_start a p0)) pos = uncollected x s pos).
        { assert (EP : s_pools (mid s k (loop_start a p0)) = s_pools s) by (cbn [mid set_pools set_ticks s_pools loop_start l_pool]; apply insert_id; exact Hp0).
          assert (ET : s_ticks (mid s k (loop_start a p0)) = s_ticks s) by reflexivity.
          unfold uncollected, below. rewrite EP, ET. reflexivity. }
        rewrite E. cbn [earned sumZ]. replace (if Bool.eqb x d then 0 else 0) with 0 by (destruct (Bool.eqb x d); reflexivity).
        rewrite Z.add_0_r, wrap_id; [reflexivity|apply wrap_u128].
    - intros l l' target r0 p1 V Hr (segs & Q & FB & SH) S E PO1 Hpr V'.
      destruct (share_step l l' target r0 p1 segs V Hr Q SH S E PO1 Hpr V') as (g & Q' & B' & SH').
      exists (segs ++ [g]). split; [exact Q'|]. split; [|exact SH']. apply Forall_app. split; [exact FB|constructor; [exact B'|constructor]].
  Qed.
End Iter.

(** ** Everything but swaps *)

Definition calm (s s' : state) (k : pool_key) : Prop :=
  (forall p, s_pools s !! k = Some p -> exists p', s_pools s' !! k = Some p' /\
     p_current_tick_index p' = p_current_tick_index p /\
     p_fee_growth_global_x p' = p_fee_growth_global_x p /\ p_fee_growth_global_y p' = p_fee_growth_global_y p) /\
  (forall i t t', s_ticks s !! (k, i) = Some t -> s_ticks s' !! (k, i) = Some t' ->
     t_fee_growth_outside_x t' = t_fee_growth_outside_x t /\ t_fee_growth_outside_y t' = t_fee_growth_outside_y t).

Lemma calm_same s s' k : s_pools s' = s_pools s -> s_ticks s' = s_ticks s -> calm s s' k.
Proof.
  intros E1 E2. split; [intros p Hp; exists p; rewrite E1; auto|]. intros i t t' H H'. rewrite E2 in H'.
  assert (t' = t) as -> by congruence. auto.
Qed.

Lemma calm_pool s s' k k0 p p' : s_pools s !! k0 = Some p -> s_pools s' = <[k0 := p']> (s_pools s) ->
  p_current_tick_index p' = p_current_tick_index p ->
  p_fee_growth_global_x p' = p_fee_growth_global_x p -> p_fee_growth_global_y p' = p_fee_growth_global_y p ->
  forall q, s_pools s !! k = Some q -> exists q', s_pools s' !! k = Some q' /\
     p_current_tick_index q' = p_current_tick_index q /\
     p_fee_growth_global_x q' = p_fee_growth_global_x q /\ p_fee_growth_global_y q' = p_fee_growth_global_y q.
Proof.
  intros Hp E E1 E2 E3 q Hq. rewrite E. destruct (decide (k0 = k)) as [->|Hne].
  - assert (q = p) as -> by congruence. exists p'. rewrite lookup_insert. auto.
  - exists q. rewrite lookup_insert_ne by auto. auto.
Qed.

Lemma calm_uncollected s s' a n a' n' pos : Inv s -> Inv s' -> calm s s' (pos_pool_key pos) ->
  s_positions s !! (a, n) = Some pos -> s_positions s' !! (a', n') = Some pos ->
  forall x, uncollected x s' pos = uncollected x s pos.
Proof.
  intros I I' [C1 C2] H H' x.
  destruct (pos_ticks s a n pos I H) as (p & tl & tu & P & L & U & _). destruct (pos_ticks s' a' n' pos I' H') as (p1 & tl' & tu' & P1 & L1 & U1 & _).
  destruct (C1 _ P) as (p' & P' & E2 & E3 & E4). assert (p1 = p') by congruence. subst p1.
  destruct (C2 _ _ _ L L1) as [O1 O2]. destruct (C2 _ _ _ U U1) as [O3 O4]. unfold uncollected.
  rewrite (below_eq x s _ _ p tl P L), (below_eq x s _ _ p tu P U), (below_eq x s' _ _ p' tl' P' L1), (below_eq x s' _ _ p' tu' P' U1).
  unfold global_growth, outside_growth. rewrite E2, E3, E4, O1, O2, O3, O4. reflexivity.
Qed.

Lemma calm_op s e o s' k : Inv s -> op_wf o -> run_op e s o = Ok s' ->
  match o with OpSwap _ _ _ _ _ | OpSwapRoute _ _ _ _ => False | _ => True end ->
  calm s s' k.
Proof.
  intros I W HO HN.
  destruct o; cbn [run_op] in HO; apply drop_result_Ok in HO as [v H]; cbn [op_wf] in W; try contradiction.
  - apply change_protocol_fee_inv in H as [_ ->]. apply calm_same; reflexivity.
  - apply add_fee_tier_inv in H as (_ & _ & _ & _ & _ & ->). apply calm_same; reflexivity.
  - apply remove_fee_tier_inv in H as (_ & l & _ & ->). apply calm_same; reflexivity.
  - apply create_pool_inv in H as (k1 & p & HF & HT & HK & HN1 & _ & HC0 & ->).
    split; [|cbn [set_pool_keys set_pools s_ticks]; intros i t t' A B; assert (t' = t) as -> by congruence; auto].
    intros q Hq. exists q. cbn [set_pool_keys set_pools s_pools]. rewrite lookup_insert_ne by congruence. auto.
  - apply change_fee_receiver_inv in H as (_ & p & Hp & ->).
    split; [|cbn [set_pools s_ticks]; intros i t t' A B; assert (t' = t) as -> by congruence; auto].
    eapply calm_pool; eauto; reflexivity.
  - apply create_summary in H as (p & x & y & mx & C); [|auto|apply W].
    split; [eapply calm_pool; [apply C|apply C|reflexivity..]|].
    destruct (cr_ticks _ _ _ _ _ _ _ _ _ _ _ _ _ _ C) as (tl & tu & ET & T1 & T2 & T3 & T4).
    intros i t t' H0 H1. rewrite ET in H1. apply lookup_insert_Some in H1 as [[Eq <-]|[_ H1]].
    + injection Eq as E1 E2. rewrite T3, T4. unfold old_x, old_y. rewrite E1, E2, H0. auto.
    + apply lookup_insert_Some in H1 as [[Eq <-]|[_ H1]].
      * injection Eq as E1 E2. rewrite T1, T2. unfold old_x, old_y. rewrite E1, E2, H0. auto.
      * assert (t' = t) as -> by congruence. auto.
  - destruct v as [x y]. apply remove_summary in H as (pos & p & tl & tu & dx & dy & ox & oy & C); [|auto].
    split; [eapply calm_pool; [apply C|apply C|reflexivity..]|].
    intros i t t' H0 H1. destruct (rm_ticks _ _ _ _ _ _ _ _ _ _ _ _ _ _ C _ _ _ H1) as (t0 & L0 & A1 & A2).
    assert (t0 = t) as -> by congruence. auto.
  - apply transfer_position_inv in H as (pos & lp & s1 & _ & _ & E1 & E2). apply calm_same; subst s' s1; reflexivity.
  - destruct v as [x y]. apply claim_summary in H as (pos & p & tl & tu & mx & C); [|auto].
    split; [eapply calm_pool; [apply C|apply C|reflexivity..]|].
    destruct (cl_ticks _ _ _ _ _ _ _ _ _ _ _ C) as (tl' & tu' & ET & T1 & T2 & T3 & T4).
    pose proof (cl_tl _ _ _ _ _ _ _ _ _ _ _ C) as HL. pose proof (cl_tu _ _ _ _ _ _ _ _ _ _ _ C) as HU.
    intros i t t' H0 H1. rewrite ET in H1. apply lookup_insert_Some in H1 as [[Eq <-]|[_ H1]].
    + rewrite Eq in HL. assert (tl = t) by congruence. subst. auto.
    + apply lookup_insert_Some in H1 as [[Eq <-]|[_ H1]].
      * rewrite Eq in HU. assert (tu = t) by congruence. subst. auto.
      * assert (t' = t) as -> by congruence. auto.
  - apply withdraw_protocol_fee_inv in H as (p & B & Hp & _ & -> & _ & HT).
    split; [|cbn [set_balances set_pools s_ticks]; intros i t t' H0 H1; assert (t' = t) as -> by congruence; auto].
    eapply calm_pool; eauto; reflexivity.
  - apply deposit_vara_inv in H as (_ & [B ->] & _). apply calm_same; reflexivity.
  - apply withdraw_vara_inv in H as ([B ->] & _). apply calm_same; reflexivity.
Qed.

(** Fees that are due, as a claim pays them. *)
Lemma due_fee (x : bool) s pos p tl tu v : Inv s -> pos_ok s pos -> s_pools s !! pos_pool_key pos = Some p ->
  s_ticks s !! (pos_pool_key pos, pos_lower pos) = Some tl -> s_ticks s !! (pos_pool_key pos, pos_upper pos) = Some tu ->
  to_fee (unchecked_sub (if x then inside_x p tl tu else inside_y p tl tu) (seen_growth x pos)) (pos_liquidity pos) = Ok v ->
  v = pos_liquidity pos * uncollected x s pos / 10 ^ 33.
Proof.
  intros I SO P L U H. destruct (uncollected_inside x s pos p tl tu I SO P L U) as [E Hu]. rewrite <- E in H.
  apply to_fee_inv in H as [-> _]; [|auto|apply u256_I; pose proof (so_liq _ _ SO); lia]. change E33 with (10 ^ 33). f_equal. lia.
Qed.

(** After a claim and right after opening nothing is due. *)
Lemma claimed_zero e s s' i x y pos p tl tu mx : Inv s -> Inv s' -> claimed e s s' i x y pos p tl tu mx ->
  exists pos', s_positions s' !! (e_caller e, i) = Some pos' /\ pos_pool_key pos' = pos_pool_key pos /\
    pos_lower pos' = pos_lower pos /\ pos_upper pos' = pos_upper pos /\ pos_liquidity pos' = pos_liquidity pos /\
    forall b, uncollected b s' pos' = 0.
Proof.
  intros I I' C. pose proof (cl_pool _ _ _ _ _ _ _ _ _ _ _ C) as Hp. pose proof (cl_pos _ _ _ _ _ _ _ _ _ _ _ C) as Hpos.
  pose proof (cl_tl _ _ _ _ _ _ _ _ _ _ _ C) as HL. pose proof (cl_tu _ _ _ _ _ _ _ _ _ _ _ C) as HU.
  destruct (cl_ticks _ _ _ _ _ _ _ _ _ _ _ C) as (tl' & tu' & ET & T1 & T2 & T3 & T4).
  pose proof (I_pos _ I _ _ _ Hpos) as SO. pose proof (so_lt _ _ SO) as Hlt. pose proof (I_pool _ I _ _ Hp) as PO.
  destruct (I_tick _ I _ _ _ HL) as [_ TL]. destruct (I_tick _ I _ _ _ HU) as [_ TU].
  set (k := pos_pool_key pos) in *.
  set (pos' := mkPosition k (pos_liquidity pos) (pos_lower pos) (pos_upper pos) (inside_x p tl tu) (inside_y p tl tu) (pos_last_block_number pos) 0 0).
  exists pos'. split; [rewrite (cl_positions _ _ _ _ _ _ _ _ _ _ _ C); apply lookup_insert|]. do 4 (split; [reflexivity|]).
  assert (Hp' : s_pools s' !! k = Some (set_last_timestamp (e_timestamp e) p)) by (rewrite (cl_pools _ _ _ _ _ _ _ _ _ _ _ C); apply lookup_insert).
  apply (new_uncollected k (set_last_timestamp (e_timestamp e) p) s' pos' (pos_lower pos) (pos_upper pos) (pos_liquidity pos)
      (fun j => if j =? pos_lower pos then t_fee_growth_outside_x tl else t_fee_growth_outside_x tu)
      (fun j => if j =? pos_lower pos then t_fee_growth_outside_y tl else t_fee_growth_outside_y tu) tl' tu' (pos_last_block_number pos)); auto.
  - rewrite ET. apply lookup_insert.
  - rewrite ET, lookup_insert_ne by (intros [= Hx]; lia). apply lookup_insert.
  - apply (I_pool _ I' _ _ Hp').
  - rewrite Z.eqb_refl. auto.
  - rewrite Z.eqb_refl. auto.
  - destruct (Z.eqb_spec (pos_upper pos) (pos_lower pos)); [lia|]. auto.
  - destruct (Z.eqb_spec (pos_upper pos) (pos_lower pos)); [lia|]. auto.
  - intros j. destruct (j =? _); [apply TL|apply TU].
  - intros j. destruct (j =? _); [apply TL|apply TU].
  - unfold pos', inside_x, inside_y. rewrite (to_index _ _ _ _ TL), (to_index _ _ _ _ TU).
    rewrite Z.eqb_refl. destruct (Z.eqb_spec (pos_upper pos) (pos_lower pos)); [lia|]. reflexivity.
Qed.

Lemma created_zero e s s' k lo up L sl su pos p x y mx : Inv s -> Inv s' -> created e s s' k lo up L sl su pos p x y mx ->
  forall b, uncollected b s' pos = 0.
Proof.
  intros I I' C. pose proof (cr_pool _ _ _ _ _ _ _ _ _ _ _ _ _ _ C) as Hp. pose proof (I_pool _ I _ _ Hp) as PO.
  destruct (cr_ticks _ _ _ _ _ _ _ _ _ _ _ _ _ _ C) as (tl & tu & ET & T1 & T2 & T3 & T4).
  pose proof (cr_lt _ _ _ _ _ _ _ _ _ _ _ _ _ _ C) as Hlt.
  assert (ELO : (k, up) <> (k, lo)) by (intros [= Hx]; lia).
  pose proof (cr_pos _ _ _ _ _ _ _ _ _ _ _ _ _ _ C) as EP.
  assert (Hp' : s_pools s' !! k = Some (with_liq p lo up L (e_timestamp e))).
  { rewrite (cr_pools _ _ _ _ _ _ _ _ _ _ _ _ _ _ C), lookup_insert. reflexivity. }
  assert (OX : forall i, u128 (old_x s k p i) /\ u128 (old_y s k p i)).
  { intros i. unfold old_x, old_y. destruct (s_ticks s !! (k, i)) as [t0|] eqn:E0.
    - destruct (I_tick _ I _ _ _ E0) as [_ TO]. split; apply TO.
    - assert (u128 0) by (unfold u128; lia). destruct (i <=? _); split; first [apply PO|auto]. }
  apply (new_uncollected k (with_liq p lo up L (e_timestamp e)) s' pos lo up L (old_x s k p) (old_y s k p) tl tu (e_block e)); auto.
  - rewrite ET, lookup_insert_ne by auto. apply lookup_insert.
  - rewrite ET. apply lookup_insert.
  - apply (I_pool _ I' _ _ Hp').
  - apply OX.
  - apply OX.
Qed.
