(** A whole swap on a state that satisfies the structural invariant. *)
From Verif Require Import Base Decimal SqrtPriceM LogM ClammM FeeGrowthM Types TickmapM StorageM
  CollectionsM StateM ServiceM Arith SpecMath SpecFees SpecSum SpecState SpecHistory P_Clamm P_Delta P_Next P_Step
  P_StepProps P_TickPrice P_GetTick P_Tickmap P_Closer
  P_Fees P_Balance P_Effects P_Positions P_History P_Loop P_Check P_State P_Iter P_Inv P_InvPos P_InvSwap P_Swap.
From stdpp Require Import gmap list.
From Coq Require Import ZArith Lia Bool.
Open Scope Z_scope.

(** ** Active liquidity between two ticks *)

Lemma pos_bounds_init s a n pos : Inv s -> s_positions s !! (a, n) = Some pos ->
  is_Some (s_ticks s !! (pos_pool_key pos, pos_lower pos)) /\ is_Some (s_ticks s !! (pos_pool_key pos, pos_upper pos)).
Proof. intros I H. destruct (pos_ticks s a n pos I H) as (p & tl & tu & _ & H1 & H2 & _). eauto. Qed.

Lemma active_same s k c c' : Inv s ->
  (forall v, is_Some (s_ticks s !! (k, v)) -> ~ passed c c' v) -> active_at s k c' = active_at s k c.
Proof.
  intros I H. apply msum_ext. intros [a n] pos Hp. unfold active_of.
  destruct (bool_decide_reflect (pos_pool_key pos = k)) as [E|]; [|reflexivity]. cbn [andb].
  destruct (pos_bounds_init s a n pos I Hp) as [H1 H2]. rewrite E in *. apply H in H1, H2. unfold passed in *.
  destruct (Z.leb_spec (pos_lower pos) c), (Z.ltb_spec c (pos_upper pos)),
    (Z.leb_spec (pos_lower pos) c'), (Z.ltb_spec c' (pos_upper pos)); cbn [andb]; try reflexivity; lia.
Qed.

Lemma active_cross s k c c' i : Inv s -> c < c' ->
  (forall v, is_Some (s_ticks s !! (k, v)) -> (passed c c' v <-> v = i)) ->
  active_at s k c' = active_at s k c + net_at s k i.
Proof.
  intros I Hc H. unfold active_at, net_at. rewrite <- msum_add. apply msum_ext. intros [a n] pos Hp. unfold active_of, net_of.
  destruct (bool_decide_reflect (pos_pool_key pos = k)) as [E|]; [|reflexivity]. cbn [andb].
  destruct (pos_bounds_init s a n pos I Hp) as [H1 H2]. rewrite E in *. apply H in H1, H2. unfold passed in *.
  pose proof (so_lt _ _ (I_pos _ I _ _ _ Hp)).
  destruct (Z.leb_spec (pos_lower pos) c), (Z.ltb_spec c (pos_upper pos)),
    (Z.leb_spec (pos_lower pos) c'), (Z.ltb_spec c' (pos_upper pos)),
    (Z.eqb_spec (pos_lower pos) i), (Z.eqb_spec (pos_upper pos) i); cbn [andb]; lia.
Qed.

Lemma set_ticks_id s : set_ticks (s_ticks s) s = s.
Proof. destruct s; reflexivity. Qed.

Section Swap.
  Context (s : state) (k : pool_key) (d bi : bool) (lim ts a : Z) (p0 : pool).
  Context (I : Inv s) (Hp0 : s_pools s !! k = Some p0) (Ha : u256 a).

  Definition inits (v : Z) : Prop := is_Some (s_ticks s !! (k, v)).
  Definition cur (l : swap_loop_state) : Z := p_current_tick_index (l_pool l).
  Definition done_ticks (l : swap_loop_state) : list Z := map t_index (l_ticks l).

  (** Exactly the initialized ticks between the initial and the current tick have been crossed. *)
  Definition exact_ticks (l : swap_loop_state) : Prop :=
    forall v, inits v -> (v ∈ done_ticks l <-> passed (p_current_tick_index p0) (cur l) v).

  (** The initialized tick that an unclean swap misses. *)
  Definition near_miss (v n : Z) : Prop :=
    dirP d (bi = true /\ n <= price v /\ (price v - n) * price v < 10 ^ 24) (n = lim /\ price v = lim).

  Record linv (l : swap_loop_state) : Prop := {
    v_inv : Inv (mid s k l);
    v_rem : u256 (l_remaining l);
    v_in : u256 (l_in l);
    v_out : u256 (l_out l);
    v_fee : u256 (l_fee l);
    v_lim : l_remaining l <> 0 -> dirP d (lim < p_sqrt_price (l_pool l)) (p_sqrt_price (l_pool l) < lim);
    v_dir : l_remaining l <> 0 -> dirP d (cur l <= p_current_tick_index p0) (p_current_tick_index p0 <= cur l);
    v_sub : forall v, v ∈ done_ticks l -> inits v;
    v_exact : exact_ticks l \/ (l_remaining l = 0 /\ exists v, inits v /\ ~ (v ∈ done_ticks l <-> passed (p_current_tick_index p0) (cur l) v) /\
                near_miss v (p_sqrt_price (l_pool l)));
    v_liq : exact_ticks l -> active_at s k (p_current_tick_index p0) = p_liquidity p0 ->
            active_at s k (cur l) = p_liquidity (l_pool l);
  }.

  Lemma linv_exact l : linv l -> l_remaining l <> 0 -> exact_ticks l.
  Proof using. intros V H. destruct (v_exact _ V) as [|[? _]]; [auto|contradiction]. Qed.

  Lemma linv_ready l : linv l -> l_remaining l <> 0 -> ready s k d lim l.
  Proof using.
    intros V H. pose proof (linv_exact l V H) as E. constructor; try apply V; auto.
    intros i Hi. pose proof (v_sub _ V i Hi) as Hx. apply E in Hi; [|auto]. pose proof (v_dir _ V H). unfold passed, cur in *.
    destruct d; cbn [dirP] in *; lia.
  Qed.

  Definition loop_start : swap_loop_state := mkLoop p0 a 0 0 0 [].

  Lemma linv_start : dirP d (lim < p_sqrt_price p0) (p_sqrt_price p0 < lim) -> linv loop_start.
  Proof using I Hp0 Ha.
    intros Hlim. unfold loop_start. constructor; unfold cur, done_ticks; cbn [l_pool l_ticks l_remaining l_in l_out l_fee map].
    - unfold mid. cbn [l_pool l_ticks put_ticks]. rewrite set_ticks_id. apply Inv_set_pool; [exact I|apply (I_pool _ I _ _ Hp0)].
    - auto.
    - apply u256_I. unfold M256. lia.
    - apply u256_I. unfold M256. lia.
    - apply u256_I. unfold M256. lia.
    - auto.
    - intros _. destruct d; cbn; lia.
    - intros v Hv. apply elem_of_nil in Hv. contradiction.
    - left. intros v _. unfold done_ticks, cur. cbn. split; [intros Hv; apply elem_of_nil in Hv; contradiction|].
      unfold passed. lia.
    - auto.
  Qed.

  Lemma mid_set_pool l l' : Inv (mid s k l) -> l_ticks l' = l_ticks l -> pool_ok k (l_pool l') -> Inv (mid s k l').
  Proof using. intros I' E PO. rewrite (mid_stay s k l l' E). apply Inv_set_pool; auto. Qed.

  Lemma linv_step l l' target r p1 : linv l -> l_remaining l <> 0 ->
    istep s k d bi lim l l' target r p1 ->
    iend s k d bi lim ts l l' r (set_sqrt_price (sr_next_sqrt_price r) p1)
        (l_remaining l - (if bi then sr_amount_in r + sr_fee_amount r else sr_amount_out r)) ->
    pool_ok k p1 -> pool_ok k (l_pool l') -> p_sqrt_price (l_pool l') = sr_next_sqrt_price r ->
    (l_remaining l' <> 0 -> dirP d (lim < sr_next_sqrt_price r) (sr_next_sqrt_price r < lim)) ->
    linv l'.
  Proof using I Hp0.
    intros V Hnz S E PO1 PO' Hpr Hlim'.
    pose proof (linv_exact l V Hnz) as EX. pose proof (v_dir _ V Hnz) as DR.
    pose proof (linv_ready l V Hnz) as RD.
    pose proof (I_pool _ (v_inv _ V) _ _ (mid_pool s k l)) as PO.
    destruct (pool_add_fee_ok k _ _ _ _ _ PO (is_fee _ _ _ _ _ _ _ _ _ _ S)
                (proj1 (u128_M _ (I_fee _ I))) (is_add_fee _ _ _ _ _ _ _ _ _ _ S)) as (_ & F1 & F2 & F3 & F4).
    set (rem1 := l_remaining l - (if bi then sr_amount_in r + sr_fee_amount r else sr_amount_out r)) in *.
    pose proof (u256_M _ (v_rem _ V)) as Hrm. pose proof (u256_M _ (v_in _ V)) as Him.
    pose proof (u256_M _ (v_out _ V)) as Hom. pose proof (u256_M _ (v_fee _ V)) as Hfm.
    pose proof (u256_M _ (is_in _ _ _ _ _ _ _ _ _ _ S)). pose proof (u256_M _ (is_out _ _ _ _ _ _ _ _ _ _ S)).
    pose proof (u256_M _ (is_fee _ _ _ _ _ _ _ _ _ _ S)).
    pose proof (is_rem _ _ _ _ _ _ _ _ _ _ S) as Hr0. fold rem1 in Hr0.
    assert (Hr1 : rem1 < M256) by (unfold rem1; destruct bi; lia).
    pose proof (is_l_out _ _ _ _ _ _ _ _ _ _ S). pose proof (is_l_fee _ _ _ _ _ _ _ _ _ _ S).
    pose proof (is_l_out_fits _ _ _ _ _ _ _ _ _ _ S). pose proof (is_l_fee_fits _ _ _ _ _ _ _ _ _ _ S).
    pose proof (is_l_in_fits _ _ _ _ _ _ _ _ _ _ S).
    assert (Uo : u256 (l_out l')) by (apply u256_I; lia). assert (Uf : u256 (l_fee l')) by (apply u256_I; lia).
    assert (Hl : l_remaining l' <> 0 -> dirP d (lim < p_sqrt_price (l_pool l')) (p_sqrt_price (l_pool l') < lim)) by (rewrite Hpr; auto).
    unfold exact_ticks, cur in EX, DR. set (c0 := p_current_tick_index p0) in *. set (c := p_current_tick_index (l_pool l)) in *.
    inversion E as [c' EP ET ER EI NP DIR|c' v EP ET ER EZ EI Hv Hpv _ NM|i t Ht Hti Hi Hn Hcl Hst EP ET ER EI NP|i p3 Hd Hbi Hr3 Hfe EP ET ER EI Hi Hn NP].
    - fold c in NP, DIR.
      assert (EX' : forall v, inits v -> (v ∈ done_ticks l' <-> passed c0 (cur l') v)).
      { intros v Hv. unfold done_ticks, cur. rewrite ET, EP. cbn [set_current_tick_index p_current_tick_index].
        fold (done_ticks l). rewrite (EX v Hv). specialize (NP v Hv). unfold passed in *. lia. }
      constructor; auto.
      + apply (mid_set_pool l); auto. apply V.
      + apply u256_I; lia.
      + apply u256_I; lia.
      + intros Hr. rewrite ER in Hr. specialize (DIR Hr). unfold cur. rewrite EP. cbn [set_current_tick_index p_current_tick_index].
        destruct d; cbn [dirP] in *; lia.
      + intros v. unfold done_ticks. rewrite ET. apply (v_sub _ V).
      + intros _ Hact. unfold cur. rewrite EP. cbn [set_current_tick_index set_sqrt_price p_current_tick_index p_liquidity].
        rewrite F1, (active_same s k c c' I NP). apply (v_liq _ V EX Hact).
    - fold c in Hpv.
      assert (MM : ~ (v ∈ done_ticks l' <-> passed c0 (cur l') v)).
      { unfold done_ticks, cur. rewrite ET, EP. cbn [set_current_tick_index p_current_tick_index].
        fold (done_ticks l). rewrite (EX v Hv). unfold passed in *. lia. }
      constructor; auto.
      + apply (mid_set_pool l); auto. apply V.
      + apply u256_I; lia.
      + apply u256_I; lia.
      + intros Hr. lia.
      + intros w. unfold done_ticks. rewrite ET. apply (v_sub _ V).
      + right. split; [lia|]. exists v. unfold near_miss. rewrite Hpr. auto.
      + intros EX'. exfalso. apply MM. apply EX'. auto.
    - fold c in NP, Hi.
      assert (Hiv : inits i) by (unfold inits; rewrite Ht; eauto).
      assert (Nin : i ∉ done_ticks l).
      { intros Hin. apply (r_side _ _ _ _ _ RD) in Hin. fold c in Hin. destruct d; cbn [dirP] in *; lia. }
      assert (EX' : forall v, inits v -> (v ∈ done_ticks l' <-> passed c0 (cur l') v)).
      { intros v Hv. unfold done_ticks, cur. rewrite ET, EP. cbn [set_current_tick_index p_current_tick_index].
        rewrite map_app, elem_of_app. cbn [map crossed t_index]. rewrite elem_of_list_singleton.
        fold (done_ticks l). rewrite (EX v Hv), Hti. specialize (NP v Hv).
        destruct (Z.eq_dec v i) as [->|Hne].
        - pose proof (proj2 NP eq_refl) as NPi. unfold passed in *.
          split; [intros _|auto]. destruct d; cbn [dirP] in *; lia.
        - unfold passed in *. lia. }
      pose proof (pool_spacing _ _ PO) as Hsp.
      constructor; auto.
      + rewrite (mid_cross s k l l' _ ET).
        assert (Ht' : s_ticks (mid s k l) !! (k, i) = Some t).
        { cbn [mid set_pools set_ticks s_ticks]. rewrite put_ticks_ne by (intros _; exact Nin). exact Ht. }
        destruct (I_tick _ I _ _ _ Ht) as [_ TO].
        cbn [crossed t_index]. rewrite Hti.
        pose proof PO1 as [_ _ _ _ _ _ _ _ Gx Gy _ _].
        pose proof (Inv_set_tick (mid s k l) k i t (crossed t (set_sqrt_price (sr_next_sqrt_price r) p1) ts) (v_inv _ V) Ht'
          eq_refl eq_refl eq_refl eq_refl eq_refl
          (unchecked_sub_u128 _ _ Gx (to_ox _ _ _ _ TO)) (unchecked_sub_u128 _ _ Gy (to_oy _ _ _ _ TO))) as IX.
        exact (Inv_set_pool _ k (l_pool l') IX PO').
      + apply u256_I; lia.
      + apply u256_I; lia.
      + intros Hr. unfold cur. rewrite EP. cbn [set_current_tick_index p_current_tick_index].
        destruct d; cbn [dirP] in *; lia.
      + intros v. unfold done_ticks. rewrite ET, map_app, elem_of_app. cbn [map crossed t_index]. rewrite elem_of_list_singleton, Hti.
        intros [Hv| ->]; [apply (v_sub _ V); auto|auto].
      + intros _ Hact. pose proof (v_liq _ V EX Hact) as HL. unfold cur in *. fold c in HL.
        rewrite EP. cbn [set_current_tick_index set_liquidity set_last_timestamp set_sqrt_price p_current_tick_index p_liquidity].
        unfold cross_liquidity. cbn [set_sqrt_price p_current_tick_index p_liquidity]. rewrite F1, F3, Hti. fold c.
        destruct (I_tick _ I _ _ _ Ht) as [_ TO]. rewrite (to_net _ _ _ _ TO).
        destruct d; cbn [dirP] in *.
        * rewrite (proj2 (Z.leb_le i c)) by lia.
          rewrite <- HL, (active_cross s k (i - pk_spacing k) c i I); [lia|lia|].
          intros v Hv. specialize (NP v Hv). unfold passed in *. lia.
        * rewrite (proj2 (Z.leb_gt i c)) by lia. rewrite <- HL. apply active_cross; auto.
    - fold c in NP.
      assert (U3 : u256 rem1) by (apply u256_I; lia).
      assert (F5 : p_liquidity p3 = p_liquidity p1).
      { destruct (pool_add_fee_spec (set_sqrt_price (sr_next_sqrt_price r) p1) _ _ _ _ U3 (proj1 (u128_M _ (I_fee _ I)))
          (po_liq _ _ PO1) Hfe) as (? & ? & _ & _ & _ & _ & [[-> _]|(g & _ & -> & _)]); [reflexivity|].
        destruct d; reflexivity. }
      assert (EX' : forall v, inits v -> (v ∈ done_ticks l' <-> passed c0 (cur l') v)).
      { intros v Hv. unfold done_ticks, cur. rewrite ET, EP. cbn [set_current_tick_index p_current_tick_index].
        fold (done_ticks l). rewrite (EX v Hv). specialize (NP v Hv). unfold passed in *. lia. }
      constructor; auto.
      + apply (mid_set_pool l); auto. apply V.
      + apply u256_I; lia.
      + apply u256_I; lia.
      + intros Hr. lia.
      + intros v. unfold done_ticks. rewrite ET. apply (v_sub _ V).
      + intros _ Hact. unfold cur. rewrite EP. cbn [set_current_tick_index p_current_tick_index p_liquidity].
        rewrite F5, F1, (active_same s k c i I NP). apply (v_liq _ V EX Hact).
  Qed.

  (** Induction over the iterations of a successful swap. *)
  Lemma swap_induction (Q : swap_loop_state -> Prop) out :
    (dirP d (lim < p_sqrt_price p0) (p_sqrt_price p0 < lim) -> Q loop_start) ->
    (forall l l' target r p1, linv l -> l_remaining l <> 0 -> Q l ->
       istep s k d bi lim l l' target r p1 ->
       iend s k d bi lim ts l l' r (set_sqrt_price (sr_next_sqrt_price r) p1)
        (l_remaining l - (if bi then sr_amount_in r + sr_fee_amount r else sr_amount_out r)) ->
       pool_ok k p1 -> p_sqrt_price (l_pool l') = sr_next_sqrt_price r -> linv l' -> Q l') ->
    calculate_swap s ts k d a bi lim = Ok out ->
    exists l, linv l /\ l_remaining l = 0 /\ Q l /\ a <> 0 /\ l_out l <> 0 /\
      out = mkSwapOut (l_in l) (l_out l) (p_sqrt_price p0) (p_sqrt_price (l_pool l)) (l_fee l) (l_pool l) (l_ticks l).
  Proof using I Hp0 Ha.
    intros Q0 QS H. apply calculate_swap_inv in H as (p & tl & l & H1 & H2 & H3 & H4 & H5 & H6 & H7).
    rewrite Hp0 in H2. injection H2 as <-.
    assert (Hlim : dirP d (lim < p_sqrt_price p0) (p_sqrt_price p0 < lim)) by (destruct d; cbn; lia).
    pose proof (while_loop_inv (fun l => l_remaining l =? 0) (swap_iteration s k d bi lim tl ts) (fun l => linv l /\ Q l)) as W.
    destruct (W) with (s := loop_start) (s' := l) as [[V HQ] Hf]; [|split; [apply linv_start; auto|auto]|exact H5|].
    - intros l1 l2 [V1 Q1] Hf Hb. apply Z.eqb_neq in Hf.
      destruct (iteration_facts s k d bi lim tl ts p0 l1 l2 I Hp0 (linv_ready l1 V1 Hf) Hf H4 Hb)
        as (target & r & p1 & S & E & PO1 & PO' & Hpr & Hl).
      pose proof (linv_step l1 l2 target r p1 V1 Hf S E PO1 PO' Hpr Hl) as V2. eauto 10.
    - apply Z.eqb_eq in Hf. exists l. auto 10.
  Qed.
End Swap.
