(** A swap does not depend on its limit, as long as it ends before it. *)
From Verif Require Import Base Decimal SqrtPriceM LogM ClammM FeeGrowthM Types TickmapM StorageM
  CollectionsM StateM ServiceM Arith SpecMath SpecFees SpecSum SpecState SpecHistory P_Clamm P_Delta P_Next P_Step
  P_StepProps P_TickPrice P_GetTick P_Tickmap P_Closer
  P_Fees P_Balance P_Effects P_Positions P_History P_Loop P_Check P_State P_Iter P_Inv P_InvPos P_InvSwap P_Swap P_SwapLoop P_InvHist.
From stdpp Require Import gmap list.
From Coq Require Import ZArith Lia Bool.
Open Scope Z_scope.

(** ** Two loops *)

Section Sim.
  Context {S : Type} (finished : S -> bool) (body0 body1 : S -> res S) (P C : S -> Prop).
  Hypothesis step : forall l l', P l -> finished l = false -> body0 l = Ok l' ->
    P l' /\ (C l' -> C l /\ body1 l = Ok l').
  Lemma iterate_sim : forall n l, P l ->
    match iterate finished body0 n l with
    | Cont l' => P l' /\ (C l' -> C l /\ iterate finished body1 n l = Cont l')
    | Stop (Ok l') => P l' /\ (C l' -> C l /\ iterate finished body1 n l = Stop (Ok l'))
    | _ => True
    end.
  Proof using step.
    induction n as [|n IH]; intros l Hl; cbn [iterate].
    - unfold loop_once. destruct (finished l) eqn:Ef; [auto|].
      destruct (body0 l) as [l'| | |] eqn:E; auto. destruct (step l l' Hl Ef E) as [H1 H2]. split; [auto|].
      intros HC. destruct (H2 HC) as [H3 H4]. rewrite H4. auto.
    - specialize (IH l Hl) as H1. destruct (iterate finished body0 n l) as [l1|[l1| | |]]; auto.
      + destruct H1 as [P1 C1]. specialize (IH l1 P1) as H2. destruct (iterate finished body0 n l1) as [l2|[l2| | |]]; auto.
        * destruct H2 as [P2 C2]. split; [auto|]. intros HC. destruct (C2 HC) as [C3 E3]. destruct (C1 C3) as [C4 E4].
          split; [auto|]. rewrite E4. exact E3.
        * destruct H2 as [P2 C2]. split; [auto|]. intros HC. destruct (C2 HC) as [C3 E3]. destruct (C1 C3) as [C4 E4].
          split; [auto|]. rewrite E4. exact E3.
      + destruct H1 as [P1 C1]. split; [auto|]. intros HC. destruct (C1 HC) as [C4 E4]. split; [auto|]. rewrite E4. reflexivity.
  Qed.
  Lemma iterate_sim_ok n l l' : P l -> C l' ->
    match iterate finished body0 n l with Stop r => r | Cont _ => Loop end = Ok l' ->
    C l /\ match iterate finished body1 n l with Stop r => r | Cont _ => Loop end = Ok l'.
  Proof using step.
    intros Hl HC E. pose proof (iterate_sim n l Hl) as H.
    destruct (iterate finished body0 n l) as [l1|r]; [discriminate|]. subst r. destruct H as [_ H]. destruct (H HC) as [HC0 ->]. auto.
  Qed.
  Lemma while_sim l l' : P l -> while_loop finished body0 l = Ok l' -> C l' -> C l /\ while_loop finished body1 l = Ok l'.
  Proof using step. intros Hl. unfold while_loop. generalize 100%nat. intros n E HC. exact (iterate_sim_ok n l l' Hl HC E). Qed.
End Sim.

(** ** The step *)

Lemma Xup_anti L t t' p : wide p -> wide t -> wide t' -> t' <= t <= p -> u256 L -> Xup L t p <= Xup L t' p.
Proof.
  intros Hp Ht Ht' Hle HL. unfold Xup.
  pose proof (dx_den_pos t p Ht Hp) as D1. pose proof (dx_den_pos t' p Ht' Hp) as D2.
  assert (N : dx_nom t p L <= dx_nom t' p L).
  { unfold dx_nom. apply Z.div_le_mono; [reflexivity|]. apply u256_M in HL. apply Z.mul_le_mono_nonneg_r; lia. }
  assert (D : dx_den t' p <= dx_den t p).
  { unfold dx_den. apply Z.div_le_mono; [reflexivity|]. unfold wide in *. apply Z.mul_le_mono_nonneg_r; lia. }
  pose proof (cdiv_bounds (dx_nom t' p L) (dx_den t' p) ltac:(lia)) as B.
  assert (0 <= dx_nom t' p L) by (apply dx_nom_nonneg; apply u256_M in HL; lia).
  pose proof (cdiv_nonneg (dx_nom t' p L) (dx_den t' p) ltac:(lia) ltac:(lia)).
  apply cdiv_le; [lia|]. set (C := cdiv _ _) in *. clearbody C.
  assert (dx_den t' p * C <= dx_den t p * C) by (apply Z.mul_le_mono_nonneg_r; lia). lia.
Qed.

(** An amount that suffices to reach a target does not stop far before it. *)
Lemma nx_in_margin p t L x : wide p -> wide t -> t <= p -> u256 L -> 0 < L -> u256 x -> Xup L t p <= x ->
  nx_in p L x <= t + 200001.
Proof.
  intros Hp Ht Htp HL HL0 Hx Hle. unfold Xup in Hle.
  pose proof (nx_nom_bounds p L Hp HL) as HN. pose proof (dx_den_pos t p Ht Hp) as HD.
  apply u256_M in HL. apply u256_M in Hx.
  assert (Hden : 0 < L * E19 + p * x) by (unfold wide, E19 in *; nia).
  unfold nx_in. apply cdiv_le; [exact Hden|].
  pose proof (cdiv_bounds (dx_nom t p L) (dx_den t p) ltac:(lia)) as H2.
  set (C := cdiv (dx_nom t p L) (dx_den t p)) in *. clearbody C.
  assert (H3 : dx_nom t p L <= x * dx_den t p).
  { assert (dx_den t p * C <= dx_den t p * x) by (apply Z.mul_le_mono_nonneg_l; lia). lia. }
  clear H2 Hle C.
  unfold dx_nom, dx_den in *. rewrite Z.abs_neq in * by lia.
  pose proof (div_bounds (- (t - p) * L) LIQUIDITY_ONE eq_refl) as H4.
  pose proof (div_bounds (t * p) SQRT_PRICE_ONE eq_refl) as H5.
  set (n := _ / LIQUIDITY_ONE) in *. set (d := t * p / SQRT_PRICE_ONE) in *. clearbody n d.
  assert (H6 : (p - t) * L * E19 - E24 <= x * (t * p)).
  { assert (H9 : x * (d * SQRT_PRICE_ONE) <= x * (t * p)) by (apply Z.mul_le_mono_nonneg_l; lia).
    replace (- (t - p)) with (p - t) in * by ring. set (w := (p - t) * L) in *. set (v := x * d) in *.
    replace (x * (d * SQRT_PRICE_ONE)) with (v * SQRT_PRICE_ONE) in H9 by (unfold v; ring).
    unfold LIQUIDITY_ONE, SQRT_PRICE_ONE, E19, E24 in *. lia. }
  assert (H7 : E24 * 2 <= 200001 * (L * E19 + p * x)).
  { assert (0 <= p * x) by (unfold wide in *; apply Z.mul_nonneg_nonneg; lia). unfold E24, E19. lia. }
  assert (H8 : (L * E19 + p * x) * (t + 200001) = (t * L * E19 + x * (t * p)) + 200001 * (L * E19 + p * x)) by ring.
  rewrite H8. assert (p * L * E19 = (p - t) * L * E19 + t * L * E19) by ring. lia.
Qed.
Lemma Xup_margin p t L : wide p -> wide t -> t + 200002 < p -> 0 < L -> u256 L -> 0 < Xup L t p.
Proof.
  intros Hp Ht Hm HL0 HL. unfold Xup. pose proof (dx_den_pos t p Ht Hp) as HD.
  assert (1 <= dx_nom t p L).
  { unfold dx_nom. apply Z.div_le_lower_bound; [reflexivity|]. unfold LIQUIDITY_ONE.
    assert (1 * 200002 <= L * Z.abs (t - p)) by (apply Z.mul_le_mono_nonneg; lia). lia. }
  pose proof (cdiv_bounds (dx_nom t p L) (dx_den t p) ltac:(lia)) as B. set (C := cdiv _ _) in *. clearbody C.
  destruct (Z.le_gt_cases C 0); [|auto]. assert (dx_den t p * C <= 0) by (apply Z.mul_nonneg_nonpos; lia). lia.
Qed.

(** The step with another target that is not reached. *)
Lemma step_other_target p t t' L amount fee r :
  price_in_range p -> price_in_range t -> price_in_range t' -> u256 L -> u256 amount -> 0 <= fee <= E12 ->
  0 < L -> (t <=? p) = (t' <=? p) ->
  compute_swap_step p t L amount true fee = Ok r -> sr_next_sqrt_price r <> t ->
  (if t <=? p then t' < sr_next_sqrt_price r /\ (t' + 200002 < sr_next_sqrt_price r \/ t' <= t) else sr_next_sqrt_price r < t') ->
  compute_swap_step p t' L amount true fee = Ok r /\ sr_next_sqrt_price r <> t'.
Proof.
  intros Hp Ht Ht' HL Ha Hf HL0 Hdir E Hne Hm.
  pose proof (range_wide p Hp) as Hpw. pose proof (range_wide t Ht) as Htw. pose proof (range_wide t' Ht') as Htw'.
  rewrite (compute_swap_step_eq p t L amount true fee Hp Ht HL HL0 Ha Hf) in E.
  rewrite (compute_swap_step_eq p t' L amount true fee Hp Ht' HL HL0 Ha Hf). cbv zeta in *. cbn [andb] in *.
  destruct (after_fee_eq amount fee Ha Hf) as (_ & HA & _).
  assert (HAu : u256 (after_fee amount fee)) by (apply u256_M in Ha; apply u256_I; lia).
  set (n := step_next p t L amount true fee) in *.
  assert (En : sr_next_sqrt_price r = n).
  { destruct (negb (n =? t)); [destruct (_ <=? amount)|]; try discriminate; injection E as <-; reflexivity. }
  rewrite En in *. destruct (Z.eqb_spec n t) as [|_]; [contradiction|]. cbn [negb] in E.
  assert (EN : step_next p t' L amount true fee = n /\ n <> t').
  { unfold n, step_next in *. cbv zeta in *. rewrite <- Hdir. destruct (Z.leb_spec t p) as [Htp|Htp].
    - symmetry in Hdir. apply Z.leb_le in Hdir.
      destruct (Z.leb_spec (Xup L t p) (after_fee amount fee)) as [|Hx]; [contradiction|].
      assert (HX : after_fee amount fee < Xup L t' p).
      { destruct Hm as [_ [Hm|Hm]].
        - destruct (Z.lt_ge_cases (after_fee amount fee) (Xup L t' p)) as [|Hge]; [auto|exfalso].
          destruct (Z.eqb_spec (after_fee amount fee) 0) as [E0|E0].
          + pose proof (Xup_margin p t' L Hpw Htw' ltac:(lia) HL0 HL). lia.
          + pose proof (nx_in_margin p t' L _ Hpw Htw' Hdir HL HL0 HAu Hge). lia.
        - pose proof (Xup_anti L t t' p Hpw Htw Htw' ltac:(lia) HL). lia. }
      destruct (Z.leb_spec (Xup L t' p) (after_fee amount fee)); [lia|]. split; [reflexivity|].
      lia.
    - symmetry in Hdir. apply Z.leb_gt in Hdir.
      destruct (Z.leb_spec (Yup L p t) (after_fee amount fee)) as [|Hy]; [contradiction|].
      assert (HY : after_fee amount fee < Yup L p t').
      { rewrite Yup_le by lia. unfold ny_in in Hm. set (A := after_fee amount fee) in *.
        pose proof (div_bounds (A * E29) L HL0) as B. set (q := A * E29 / L) in *.
        assert (A * E29 < (t' - p) * L).
        { assert (L * (q + 1) <= L * (t' - p)) by (apply Z.mul_le_mono_nonneg_l; lia). lia. }
        pose proof (cdiv_bounds ((t' - p) * L) E29 eq_refl) as B2. set (c := cdiv _ _) in *. clearbody c.
        apply (Z.mul_lt_mono_pos_l E29); [reflexivity|]. lia. }
      destruct (Z.leb_spec (Yup L p t') (after_fee amount fee)); [lia|]. split; [reflexivity|lia]. }
  destruct EN as [-> EN]. split; [|exact EN]. destruct (Z.eqb_spec n t'); [contradiction|]. cbn [negb].
  unfold step_in, step_out in *. rewrite <- Hdir. exact E.
Qed.

(** ** The target *)

Lemma closer_any_limit b lim d c sp k x : get_closer_limit b lim d c sp k = Ok x ->
  exists T lt, forall lim', get_closer_limit b lim' d c sp k =
    if (d && (lim' <? T)) || (negb d && (T <? lim')) then Ok (T, Some lt) else Ok (lim', None).
Proof.
  unfold get_closer_limit. intros H. apply bind_Ok in H as (cl & E & H).
  assert (Hcl : (if d then prev_initialized b c sp k else next_initialized b c sp k) = Ok cl) by (destruct d; exact E).
  destruct cl as [i|].
  - apply bind_Ok in H as (T & ET & H). exists T, (i, true). intros lim'. rewrite Hcl. cbn [bind]. rewrite ET. reflexivity.
  - apply bind_Ok in H as (i & Ei & H). apply bind_Ok in H as (T & ET & H). apply bind_Ok in H as (u & Eu & H).
    exists T, (i, false). intros lim'. rewrite Hcl. cbn [bind]. rewrite Ei. cbn [bind]. rewrite ET. cbn [bind]. rewrite Eu. reflexivity.
Qed.

Lemma update_tick_stay p r t tk rem bi d ts pf ft p' tk' x : sr_next_sqrt_price r <> t ->
  pool_update_tick p r t tk rem bi d ts pf ft = Ok (p', tk', x) ->
  forall t1 tk1, (sr_next_sqrt_price r <> t1 \/ tk1 = NoTick) ->
  pool_update_tick p r t1 tk1 rem bi d ts pf ft = Ok (p', tk1, x) /\ snd x = false.
Proof.
  intros Hn H t1 tk1 Hx. unfold pool_update_tick in *.
  assert (B : (match tk with NoTick => true | _ => false end) || negb (t =? sr_next_sqrt_price r) = true).
  { apply orb_true_iff. right. apply negb_true_iff, Z.eqb_neq. auto. }
  rewrite B in H. apply bind_Ok in H as (c & E & H). injection H as <- <- <-.
  assert (B1 : (match tk1 with NoTick => true | _ => false end) || negb (t1 =? sr_next_sqrt_price r) = true).
  { apply orb_true_iff. destruct Hx as [Hx| ->]; [|auto]. right. apply negb_true_iff, Z.eqb_neq. auto. }
  rewrite B1, E. auto.
Qed.

Lemma add_fee_price p a d pf p' : pool_add_fee p a d pf = Ok p' -> p_sqrt_price p' = p_sqrt_price p.
Proof.
  unfold pool_add_fee. intros H.
  repeat (match type of H with bind _ _ = Ok _ => apply bind_Ok in H as (? & _ & H) | (if ?c then _ else _) = Ok _ => destruct c end);
    injection H as <-; reflexivity.
Qed.
Lemma iteration_price s k d bi lim tl ts l l' t lt r : swap_iteration s k d bi lim tl ts l = Ok l' ->
  get_closer_limit (s_bitmap s) lim d (p_current_tick_index (l_pool l)) (pk_spacing k) k = Ok (t, lt) ->
  compute_swap_step (p_sqrt_price (l_pool l)) t (p_liquidity (l_pool l)) (l_remaining l) bi (pk_fee k) = Ok r ->
  p_sqrt_price (l_pool l') = sr_next_sqrt_price r.
Proof.
  intros H E1 E2. apply swap_iteration_inv in H as (t' & lt' & r' & p1 & E1' & E2' & _ & H). cbv zeta in H.
  rewrite E1 in E1'. injection E1' as <- <-. rewrite E2 in E2'. injection E2' as <-.
  destruct H as (_ & E5 & _ & _ & _ & _ & _ & _ & _ & H).
  destruct H as [(_ & (c & _ & ->) & _)|(_ & i & b & en & _ & _ & [(_ & -> & _)|(_ & tk & _ & [(_ & t' & p3 & Ec & -> & _)|(_ & _ & p3 & -> & Hp3)])])]; try reflexivity.
  - cbn [set_current_tick_index p_sqrt_price]. unfold tick_cross in Ec.
    apply bind_Ok in Ec as (v & _ & Ec).
    destruct (xorb _ _); apply bind_Ok in Ec as (l0 & _ & Ec); injection Ec as _ <-; reflexivity.
  - cbn [set_current_tick_index p_sqrt_price]. destruct Hp3 as [(_ & _ & Ef & _)|(_ & -> & _)]; [|reflexivity].
    apply add_fee_price in Ef. exact Ef.
Qed.

Section Limit.
  Context (s : state) (k : pool_key) (d : bool) (lim lim' ts tl : Z) (p0 : pool).
  Context (I : Inv s) (Hp0 : s_pools s !! k = Some p0).
  Context (Htl : (if d then get_min_tick (pk_spacing k) else get_max_tick (pk_spacing k)) = Ok tl).

  Definition before (l : swap_loop_state) : Prop :=
    dirP d (lim < p_sqrt_price (l_pool l) /\ lim' + 200002 < p_sqrt_price (l_pool l))
           (p_sqrt_price (l_pool l) < lim /\ p_sqrt_price (l_pool l) < lim').

  Lemma iteration_limit l l' : linv s k d true lim p0 l -> l_remaining l <> 0 ->
    swap_iteration s k d true lim tl ts l = Ok l' ->
    linv s k d true lim p0 l' /\ (before l' -> before l /\ swap_iteration s k d true lim' tl ts l = Ok l').
  Proof using I Hp0 Htl.
    intros V Hnz H.
    destruct (iteration_facts s k d true lim tl ts p0 l l' I Hp0 (linv_ready _ _ _ _ _ _ l V Hnz) Hnz Htl H)
      as (target & r0 & p10 & S & E & PO1 & PO' & Hpr0 & Hl).
    split; [exact (linv_step s k d true lim ts p0 I Hp0 l l' target r0 p10 V Hnz S E PO1 PO' Hpr0 Hl)|].
    intros B'. pose proof (is_dir _ _ _ _ _ _ _ _ _ _ S) as D. rewrite <- Hpr0 in D.
    assert (D1 : dirP d (p_sqrt_price (l_pool l') <= p_sqrt_price (l_pool l)) (p_sqrt_price (l_pool l) <= p_sqrt_price (l_pool l')))
      by (destruct d; cbn [dirP] in *; lia). clear D. rename D1 into D.
    assert (B : before l). { unfold before in *. destruct d; cbn [dirP] in *; lia. }
    split; [exact B|]. unfold before in B.
    pose proof (v_inv _ _ _ _ _ _ _ V) as I'. pose proof (I_pool _ I' _ _ (mid_pool s k l)) as PO.
    pose proof (po_range _ _ PO) as HR. pose proof (po_liq _ _ PO) as HL. pose proof (v_rem _ _ _ _ _ _ _ V) as Hrem.
    assert (Hfee : 0 <= pk_fee k <= E12).
    { pose proof (po_tier _ _ PO) as [_ Hf0]. unfold pk_fee in *. change (10 ^ 12) with E12 in Hf0. lia. }
    clear S E PO1 PO' Hl Hpr0 target r0 p10. pose proof H as H0.
    unfold swap_iteration in H |- *. cbv zeta in H |- *.
    apply bind_Ok in H as ([t lt] & E1 & H). apply bind_Ok in H as (r & E2 & H). pose proof E2 as E2'. apply unwrap_inv in E2'.
    pose proof (iteration_price _ _ _ _ _ _ _ _ _ _ _ _ H0 E1 E2') as Hpr. clear H0.
    unfold before in B'. rewrite Hpr in B', D. set (n := sr_next_sqrt_price r) in *.
    destruct (closer_any_limit _ _ _ _ _ _ _ E1) as (T & lt0 & HC).
    assert (Hlim : dirP d (lim < p_sqrt_price (l_pool l)) (p_sqrt_price (l_pool l) < lim)) by (destruct d; cbn [dirP] in *; lia).
    assert (Hlim' : dirP d (lim' < p_sqrt_price (l_pool l)) (p_sqrt_price (l_pool l) < lim')) by (destruct d; cbn [dirP] in *; lia).
    destruct (closer_facts (mid s k l) k (l_pool l) d lim t lt I' (mid_pool s k l) Hlim E1) as (T1 & T2 & T3).
    pose proof (HC lim') as E1'. pose proof E1 as E1b. rewrite HC in E1b.
    set (b := (d && (lim <? T)) || (negb d && (T <? lim))) in *.
    set (b' := (d && (lim' <? T)) || (negb d && (T <? lim'))) in *.
    apply bind_Ok in H as (ipf & E3 & H). apply bind_Ok in H as (rem & E4 & H). apply bind_Ok in H as (p1 & E5 & H).
    apply bind_Ok in H as (ef & E6 & H). apply bind_Ok in H as (ti & E7 & H). apply bind_Ok in H as (tot & E8 & H).
    apply bind_Ok in H as (u & E9 & H). apply bind_Ok in H as (tu & E10 & H).
    apply bind_Ok in H as ([[p3 tk3] [[aa rr] hc]] & E11 & H). apply bind_Ok in H as (ti2 & E12 & H).
    apply bind_Ok in H as (u2 & E13 & H). injection H as <-.
    cbn [set_sqrt_price p_sqrt_price] in *. fold n in E9, Hpr.
    assert (F9 : fail_if ((n =? lim') && negb (rem =? 0)) PriceLimitReached = Ok tt).
    { destruct (Z.eqb_spec n lim'); [destruct d; cbn [dirP] in *; lia|reflexivity]. }
    (* the same target *)
    destruct (b && b') eqn:Ebb.
    { apply andb_true_iff in Ebb as [Eb Eb']. rewrite Eb in E1b. rewrite Eb' in E1'. injection E1b as <- <-.
      rewrite E1'. cbn [bind]. rewrite E2. cbn [bind]. rewrite E3. cbn [bind]. rewrite E4. cbn [bind]. rewrite E5. cbn [bind].
      rewrite E6. cbn [bind]. rewrite E7. cbn [bind]. rewrite E8. cbn [bind]. cbn [set_sqrt_price p_sqrt_price]. fold n. rewrite F9. cbn [bind].
      rewrite E10. cbn [bind]. rewrite E11. cbn [bind]. rewrite E12. cbn [bind]. rewrite E13. reflexivity. }
    (* the target is not reached *)
    assert (Hnt : n <> t).
    { intros En. rewrite En in B'. destruct b eqn:Eb.
      - injection E1b as <- <-. cbn [andb] in Ebb. unfold b', b in *. destruct d; cbn [negb andb orb dirP] in *.
        + rewrite orb_false_r in Ebb. apply Z.ltb_ge in Ebb. lia.
        + apply Z.ltb_ge in Ebb. lia.
      - injection E1b as <- <-. destruct d; cbn [dirP] in *; lia. }
    assert (HL0 : 0 < p_liquidity (l_pool l)).
    { apply u256_M in HL. destruct (Z.eq_dec (p_liquidity (l_pool l)) 0) as [E0|]; [|lia]. exfalso. apply Hnt.
      unfold compute_swap_step in E2'. rewrite E0 in E2'. cbn [Z.eqb] in E2'. injection E2' as E2'. unfold n. rewrite <- E2'. reflexivity. }
    set (t' := if b' then T else lim') in *. set (lt' := if b' then Some lt0 else None) in *.
    assert (E1c : get_closer_limit (s_bitmap s) lim' d (p_current_tick_index (l_pool l)) (pk_spacing k) k = Ok (t', lt')).
    { rewrite E1'. unfold t', lt'. destruct b'; reflexivity. }
    destruct (closer_facts (mid s k l) k (l_pool l) d lim' t' lt' I' (mid_pool s k l) Hlim' E1c) as (T1' & T2' & T3').
    assert (Hcmp : (t <=? p_sqrt_price (l_pool l)) = (t' <=? p_sqrt_price (l_pool l)) /\
      (if t <=? p_sqrt_price (l_pool l) then t' < n /\ (t' + 200002 < n \/ t' <= t) else n < t')).
    { destruct d; cbn [dirP] in *.
      - destruct (Z.leb_spec t (p_sqrt_price (l_pool l))); [|lia]. destruct (Z.leb_spec t' (p_sqrt_price (l_pool l))); [|lia].
        split; [reflexivity|]. cbn [negb andb] in b, b'. unfold t'. destruct b' eqn:Eb'; [|lia].
        rewrite andb_true_r in Ebb. rewrite Ebb in E1b. injection E1b as <- _. unfold b in Ebb. rewrite orb_false_r in Ebb.
        apply Z.ltb_ge in Ebb. lia.
      - assert (n < t).
        { assert (n <= t); [|lia]. destruct (Z.eq_dec (p_sqrt_price (l_pool l)) t) as [Eq|Ne].
          + rewrite <- Eq in E2'. destruct (step_same_price _ _ _ _ _ _ HR HL Hrem Hfee E2') as (EE & _). fold n in EE. lia.
          + apply (step_price_y_to_x _ _ _ _ _ _ HR T1 HL Hrem Hfee r E2'). lia. }
        assert (n < t'). { unfold t'. destruct b' eqn:Eb'; [|lia]. rewrite andb_true_r in Ebb. rewrite Ebb in E1b. injection E1b as <- _.
          unfold b in Ebb. cbn [negb andb orb] in Ebb. apply Z.ltb_ge in Ebb. lia. }
        destruct (Z.leb_spec t (p_sqrt_price (l_pool l))); [lia|]. destruct (Z.leb_spec t' (p_sqrt_price (l_pool l))); [lia|]. auto. }
    destruct Hcmp as [Hc1 Hc2].
    destruct (step_other_target _ t t' _ _ _ r HR T1 T1' HL Hrem Hfee HL0 Hc1 E2' Hnt Hc2) as [ES' Hnt'].
    destruct (update_tick_stay _ _ _ _ _ _ _ _ _ _ _ _ _ Hnt E11) with (t1 := t') (tk1 :=
      match lt' with Some (i, true) => match s_ticks s !! (k, i) with Some tk => TickInitialized tk | None => NoTick end
                   | Some (i, false) => TickUninitialized i | None => NoTick end) as [EU EH]; [left; exact Hnt'|].
    cbn [snd] in EH. subst hc.
    rewrite E1c. cbn [bind]. rewrite ES'. cbn [unwrap bind]. rewrite E3. cbn [bind]. rewrite E4. cbn [bind]. rewrite E5. cbn [bind].
    rewrite E6. cbn [bind]. rewrite E7. cbn [bind]. rewrite E8. cbn [bind]. cbn [set_sqrt_price p_sqrt_price]. fold n. rewrite F9. cbn [bind].
    assert (ET : match lt' with
      | Some (tick_index, true) => let* t := ticks_get s k tick_index in Ok (TickInitialized t)
      | Some (tick_index, false) => Ok (TickUninitialized tick_index) | None => Ok NoTick end
      = Ok (match lt' with Some (i, true) => match s_ticks s !! (k, i) with Some tk => TickInitialized tk | None => NoTick end
                   | Some (i, false) => TickUninitialized i | None => NoTick end)).
    { destruct lt' as [[i []]|]; try reflexivity. destruct T3' as (_ & _ & _ & T3' & _). specialize (T3' eq_refl).
      apply (mid_ticks s k l i I I') in T3'. destruct T3' as [tk Htk]. rewrite Htk. rewrite (proj2 (ticks_get_Ok s k i tk) Htk). reflexivity. }
    rewrite ET. cbn [bind]. rewrite EU. cbn [bind]. rewrite E12. cbn [bind]. rewrite E13. cbn [bind].
    f_equal. f_equal. destruct lt' as [[i []]|]; [destruct (s_ticks s !! (k, i))|..]; destruct tk3; reflexivity.
  Qed.
End Limit.

Lemma calculate_swap_limit s ts k d a lim lim' p0 out : Inv s -> s_pools s !! k = Some p0 -> u256 a ->
  calculate_swap s ts k d a true lim = Ok out ->
  dirP d (lim < cs_target_sqrt_price out /\ lim' + 200002 < cs_target_sqrt_price out)
         (cs_target_sqrt_price out < lim /\ cs_target_sqrt_price out < lim') ->
  calculate_swap s ts k d a true lim' = Ok out.
Proof.
  intros I Hp0 Ha H HB. pose proof H as H0. unfold calculate_swap in H |- *.
  apply bind_Ok in H as (u1 & E1 & H). apply bind_Ok in H as (p & E2 & H). apply bind_Ok in H as (u2 & E3 & H).
  apply bind_Ok in H as (tl & E4 & H). apply bind_Ok in H as (l & E5 & H). apply bind_Ok in H as (u3 & E6 & H). injection H as <-.
  cbn [cs_target_sqrt_price] in HB. pose proof E2 as E2'. apply pools_get_Ok in E2'. rewrite Hp0 in E2'. injection E2' as <-.
  apply fail_if_Ok in E3.
  assert (Hlim : dirP d (lim < p_sqrt_price p0) (p_sqrt_price p0 < lim)).
  { destruct d; cbn [dirP]; apply orb_false_iff in E3 as [E3 _]; apply Z.leb_gt in E3; lia. }
  pose proof (po_range _ _ (I_pool _ I _ _ Hp0)) as HR.
  set (P := fun l => linv s k d true lim p0 l).
  assert (ST : forall l l', P l -> (l_remaining l =? 0) = false -> swap_iteration s k d true lim tl ts l = Ok l' ->
    P l' /\ (before d lim lim' l' -> before d lim lim' l /\ swap_iteration s k d true lim' tl ts l = Ok l')).
  { intros l1 l2 V Hf Hb. apply Z.eqb_neq in Hf. exact (iteration_limit s k d lim lim' ts tl p0 I Hp0 E4 l1 l2 V Hf Hb). }
  assert (P0 : P (mkLoop p0 a 0 0 0 [])) by exact (linv_start s k d true lim a p0 I Hp0 Ha Hlim).
  assert (HBl : before d lim lim' l) by exact HB.
  destruct (while_sim _ _ _ P (before d lim lim') ST _ _ P0 E5 HBl) as [HB0 E5'].
  rewrite E1. cbn [bind]. rewrite E2. cbn [bind].
  assert (E3' : fail_if (if d then (p_sqrt_price p0 <=? lim') || (MAX_SQRT_PRICE <? lim')
                         else (lim' <=? p_sqrt_price p0) || (lim' <? MIN_SQRT_PRICE)) WrongLimit = Ok tt).
  { unfold before in HB0. cbn [l_pool] in HB0. unfold MAX_SQRT_PRICE, MIN_SQRT_PRICE, price_in_range in *.
    destruct d; cbn [dirP] in HB0; match goal with |- fail_if ?b _ = _ => replace b with false end; try reflexivity; symmetry; apply orb_false_iff; lia. }
  rewrite E3'. cbn [bind]. rewrite E4. cbn [bind]. rewrite E5'. cbn [bind]. rewrite E6. reflexivity.
Qed.

(** ** A swap whose limit is the last price of the tick spacing ends before it *)

(** An iteration that ends at the limit leaves the pool at the tick of the limit. *)
Lemma iteration_at_limit s k d bi lim tl ts l l' p0 : Inv s -> s_pools s !! k = Some p0 ->
  linv s k d bi lim p0 l -> l_remaining l <> 0 ->
  swap_iteration s k d bi lim tl ts l = Ok l' -> p_sqrt_price (l_pool l') = lim ->
  get_tick_at_sqrt_price lim (pk_spacing k) = Ok (p_current_tick_index (l_pool l')).
Proof.
  intros I Hp0 V Hnz H HE. pose proof (v_inv _ _ _ _ _ _ _ V) as I'. pose proof (v_lim _ _ _ _ _ _ _ V Hnz) as Hlim. pose proof H as H0.
  unfold swap_iteration in H. cbv zeta in H.
  apply bind_Ok in H as ([t lt] & E1 & H). apply bind_Ok in H as (r & E2 & H). pose proof E2 as E2'. apply unwrap_inv in E2'.
  pose proof (iteration_price _ _ _ _ _ _ _ _ _ _ _ _ H0 E1 E2') as Hpr. clear H0.
  destruct (closer_facts (mid s k l) k (l_pool l) d lim t lt I' (mid_pool s k l) Hlim E1) as (T1 & T2 & T3).
  apply bind_Ok in H as (ipf & E3 & H). apply bind_Ok in H as (rem & E4 & H). apply bind_Ok in H as (p1 & E5 & H).
  apply bind_Ok in H as (ef & E6 & H). apply bind_Ok in H as (ti & E7 & H). apply bind_Ok in H as (tot & E8 & H).
  apply bind_Ok in H as (u & E9 & H). apply bind_Ok in H as (tu & E10 & H).
  apply bind_Ok in H as ([[p3 tk3] [[aa rr] hc]] & E11 & H). apply bind_Ok in H as (ti2 & E12 & H).
  apply bind_Ok in H as (u2 & E13 & H). injection H as <-. cbn [l_pool] in *.
  unfold pool_update_tick in E11. cbv zeta in E11.
  assert (B : (match tu with NoTick => true | _ => false end) || negb (t =? sr_next_sqrt_price r) = true).
  { destruct lt as [[i b]|].
    - destruct T3 as (_ & _ & _ & _ & _ & _ & T3 & _). apply orb_true_iff. right. apply negb_true_iff, Z.eqb_neq. congruence.
    - injection E10 as <-. reflexivity. }
  rewrite B in E11. apply bind_Ok in E11 as (c & E & E11). injection E11 as <- _ _ _ _. apply unwrap_inv in E.
  cbn [set_current_tick_index p_current_tick_index]. rewrite <- HE, Hpr. exact E.
Qed.

Lemma max_tick_facts sp : 1 <= sp <= 100 ->
  exists M, get_max_tick sp = Ok M /\ get_min_tick sp = Ok (- M) /\ valid_tick M /\ valid_tick (- M) /\ (sp | M) /\ 221818 < M + sp /\
    get_max_sqrt_price sp = Ok (price M) /\ get_min_sqrt_price sp = Ok (price (- M)).
Proof.
  intros Hs. exists (sp * (221818 / sp)). pose proof (Z.div_mod 221818 sp ltac:(lia)) as D. pose proof (Z.mod_pos_bound 221818 sp ltac:(lia)) as B.
  assert (E1 : get_max_tick sp = Ok (sp * (221818 / sp))).
  { unfold get_max_tick, i32_div. destruct (Z.eqb_spec sp 0); [lia|]. cbn [bind]. unfold MAX_TICK. rewrite Z.quot_div_nonneg by lia. f_equal. lia. }
  assert (E2 : get_min_tick sp = Ok (- (sp * (221818 / sp)))).
  { unfold get_min_tick, i32_div. destruct (Z.eqb_spec sp 0); [lia|]. cbn [bind]. unfold MIN_TICK. change (-221818) with (- (221818)).
    rewrite Z.quot_opp_l by lia. rewrite Z.quot_div_nonneg by lia. f_equal. lia. }
  assert (V1 : valid_tick (sp * (221818 / sp))) by (unfold valid_tick; lia).
  assert (V2 : valid_tick (- (sp * (221818 / sp)))) by (unfold valid_tick; lia).
  split; [exact E1|]. split; [exact E2|]. split; [exact V1|]. split; [exact V2|]. split; [exists (221818 / sp); lia|]. split; [lia|].
  unfold get_max_sqrt_price, get_min_sqrt_price. rewrite E1, E2. cbn [bind]. rewrite !calculate_sqrt_price_valid by auto. auto.
Qed.

Lemma calculate_swap_inside s ts k (d : bool) a bi lim p0 out : Inv s -> s_pools s !! k = Some p0 -> u256 a ->
  (if d then get_min_sqrt_price (pk_spacing k) else get_max_sqrt_price (pk_spacing k)) = Ok lim ->
  calculate_swap s ts k d a bi lim = Ok out ->
  dirP d (lim < cs_target_sqrt_price out) (cs_target_sqrt_price out < lim).
Proof.
  intros I Hp0 Ha EL H. pose proof (I_pool _ I _ _ Hp0) as PO0. pose proof (pool_spacing _ _ PO0) as Hsp.
  destruct (max_tick_facts _ Hsp) as (M & M1 & M2 & M3 & M4 & M5 & M6 & M7 & M8).
  apply calculate_swap_inv in H as (p & tl & l & H1 & H2 & H3 & H4 & H5 & H6 & ->). cbn [cs_target_sqrt_price].
  rewrite Hp0 in H2. injection H2 as <-.
  assert (Hlim : dirP d (lim < p_sqrt_price p0) (p_sqrt_price p0 < lim)) by (destruct d; cbn; lia).
  pose proof (while_loop_inv (fun l : swap_loop_state => l_remaining l =? 0) (swap_iteration s k d bi lim tl ts)
    (fun l => linv s k d bi lim p0 l /\ dirP d (lim < p_sqrt_price (l_pool l)) (p_sqrt_price (l_pool l) < lim))) as W.
  destruct (W) with (s := mkLoop p0 a 0 0 0 []) (s' := l) as [[_ HQ] _]; [|split; [exact (linv_start s k d bi lim a p0 I Hp0 Ha Hlim)|exact Hlim]|exact H5|exact HQ].
  intros l1 l2 [V1 Q1] Hf Hb. apply Z.eqb_neq in Hf.
  destruct (iteration_facts s k d bi lim tl ts p0 l1 l2 I Hp0 (linv_ready _ _ _ _ _ _ l1 V1 Hf) Hf H4 Hb)
    as (target & r & p1 & S & E & PO1 & PO' & Hpr & Hl).
  pose proof (linv_step s k d bi lim ts p0 I Hp0 l1 l2 target r p1 V1 Hf S E PO1 PO' Hpr Hl) as V2. split; [exact V2|].
  pose proof (I_pool _ (v_inv _ _ _ _ _ _ _ V2) _ _ (mid_pool s k l2)) as PO.
  pose proof (okt_valid _ _ (po_tick _ _ PO)) as VC.
  assert (HR : dirP d (tl < p_current_tick_index (l_pool l2)) (p_current_tick_index (l_pool l2) < tl)).
  { clear - Hb. unfold swap_iteration in Hb. cbv zeta in Hb.
    apply bind_Ok in Hb as ([t lt] & _ & H). do 8 (apply bind_Ok in H as (? & _ & H)). apply bind_Ok in H as (? & _ & H).
    apply bind_Ok in H as ([[p3 tk3] [[aa rr] hc]] & _ & H). apply bind_Ok in H as (ti2 & _ & H).
    apply bind_Ok in H as (u2 & E13 & H). injection H as <-. cbn [l_pool]. apply fail_if_Ok in E13.
    destruct d; cbn [dirP]; apply Z.leb_gt in E13; lia. }
  destruct d; cbn [dirP] in *.
  - rewrite M8 in EL. injection EL as <-. rewrite M2 in H4. injection H4 as <-.
    pose proof (po_lo _ _ PO). pose proof (price_lt _ _ M4 VC HR). lia.
  - rewrite M7 in EL. injection EL as <-. rewrite M1 in H4. injection H4 as <-.
    pose proof (is_dir _ _ _ _ _ _ _ _ _ _ S) as D. pose proof (is_between _ _ _ _ _ _ _ _ _ _ S) as B. cbn [dirP] in D, B. rewrite <- Hpr in D.
    destruct (Z.eq_dec (p_sqrt_price (l_pool l2)) (price M)) as [EE|]; [|lia]. exfalso.
    pose proof (iteration_at_limit _ _ _ _ _ _ _ _ _ _ I Hp0 V1 Hf Hb EE) as G.
    destruct (get_tick_spec (price M) (pk_spacing k) (price_range _ M3) Hsp) as (T & T1 & T2 & T3 & T4). rewrite T4 in G. injection G as G.
    assert (T = M).
    { pose proof (proj1 (price_le_iff T M T1 M3) T2) as T5. destruct (Z.eq_dec T M); [auto|]. unfold valid_tick in *. specialize (T3 ltac:(lia)).
      pose proof (proj1 (price_lt_iff M (T + 1) ltac:(unfold valid_tick; lia) ltac:(unfold valid_tick; lia)) T3). lia. }
    subst T. destruct M5 as [q ->]. rewrite Z.div_mul in G by lia. lia.
Qed.
