(** C68: trading against one pool never gains. *)
From Verif Require Import Base Decimal SqrtPriceM LogM ClammM FeeGrowthM Types TickmapM StorageM
  CollectionsM StateM ServiceM Arith SpecMath SpecFees SpecSum SpecState SpecHistory SpecClean SpecSolv SpecTrade
  P_Fees P_Balance P_Effects P_Positions P_History P_Check P_Inv P_InvSwap P_Swap P_InvHist P_Active P_RSum P_Claims P_Solv P_Trade Cases CasesClean.
From stdpp Require Import gmap list.
From Coq Require Import ZArith Lia Bool Reals Lra.
Open Scope Z_scope.

(** A clean swap, after any history without unclean swaps, takes the price of the
    pool to where the open positions hold at most as much more of the token paid in
    as was paid (up to the rounding of C04) and at least as much less of the other
    one as was paid out.  Holdings of the first token fall with the price, those of
    the second one rise with it. *)
Theorem C68_swap_pays_the_positions evs s e k d a bi lim s' r :
  history regular evs s -> u256 a -> swap e s k d a bi lim = Ok (s', r) -> clean_result s k r ->
  (holdings d s' k (pool_price s' k) - holdings d s k (pool_price s k)
     <= IZR (cs_amount_in r) + (if d then 443637 / (2 * 10 ^ 14) else 0))%R /\
  (holdings (negb d) s' k (pool_price s' k) - holdings (negb d) s k (pool_price s k) <= - IZR (cs_amount_out r))%R /\
  (if d then pool_price s' k <= pool_price s k else pool_price s k <= pool_price s' k).
Proof.
  intros H Ha HS HC. destruct (active_history _ _ H) as (I & _ & A). apply swap_inv in HS as (B & HS & -> & _).
  destruct (calculate_swap_pool _ _ _ _ _ _ _ _ HS) as [p0 Hp0].
  destruct (swap_holdings s k d bi lim (e_timestamp e) a p0 I Hp0 Ha (A _ _ Hp0) r HS HC) as (H1 & H2 & H3).
  unfold pool_price. cbn [set_balances set_pools s_pools]. rewrite lookup_insert, Hp0.
  unfold holdings in *. cbn [set_balances set_pools set_ticks s_positions]. split; [|split].
  - unfold eps in H1. unfold Rdiv. destruct d; lra.
  - lra.
  - destruct d; cbn [dirP] in H3; exact H3.
Qed.

Theorem C68_holdings_order evs s k p p' : history regular evs s -> 0 < p -> p <= p' ->
  (holdings true s k p' <= holdings true s k p)%R /\ (holdings false s k p <= holdings false s k p')%R.
Proof.
  intros H Hp Hpp. destruct (active_history _ _ H) as (I & _ & _). pose proof (holdings_swap s k I p p' Hp Hpp) as HS. cbv zeta in HS. lra.
Qed.

(** There and back: whoever swaps in one direction and then swaps in the opposite
    direction in the same pool, paying at most what they got, gets back at most what
    they paid. *)
Theorem C68_round_trip evs s e k d a bi lim s1 r1 e' a' bi' lim' s2 r2 :
  history regular evs s -> u256 a -> u256 a' ->
  swap e s k d a bi lim = Ok (s1, r1) -> clean_result s k r1 ->
  swap e' s1 k (negb d) a' bi' lim' = Ok (s2, r2) -> clean_result s1 k r2 ->
  cs_amount_in r2 <= cs_amount_out r1 ->
  cs_amount_out r2 <= cs_amount_in r1.
Proof.
  intros H Ha Ha' HS1 HC1 HS2 HC2 Hle. destruct (active_history _ _ H) as (I & _ & A).
  destruct (Inv_swap _ _ _ _ _ _ _ _ _ I Ha HS1) as (I1 & _ & _). pose proof (active_swap _ _ _ _ _ _ _ _ _ I Ha HS1 HC1 A) as A1.
  apply swap_inv in HS1 as (B & HS1 & Es1 & _). apply swap_inv in HS2 as (B' & HS2 & Es2 & _).
  destruct (calculate_swap_pool _ _ _ _ _ _ _ _ HS1) as [p0 Hp0].
  assert (Hp1 : s_pools s1 !! k = Some (cs_pool r1)) by (rewrite Es1; cbn [set_balances set_pools s_pools]; apply lookup_insert).
  destruct (swap_holdings s k d bi lim (e_timestamp e) a p0 I Hp0 Ha (A _ _ Hp0) r1 HS1 HC1) as (H1 & H2 & H3).
  destruct (swap_holdings s1 k (negb d) bi' lim' (e_timestamp e') a' (cs_pool r1) I1 Hp1 Ha' (A1 _ _ Hp1) r2 HS2 HC2) as (G1 & G2 & G3).
  assert (ES : forall x q, holdings x s1 k q = holdings x s k q) by (apply holdings_positions; rewrite Es1; reflexivity).
  pose proof (po_range _ _ (I_pool _ I _ _ Hp0)) as R0. pose proof (po_range _ _ (I_pool _ I1 _ _ Hp1)) as R1.
  assert (R2 : price_in_range (p_sqrt_price (cs_pool r2))).
  { destruct (Inv_calculate_swap _ _ _ _ _ _ _ _ I1 Ha' HS2) as (I2 & _). refine (po_range k _ (I_pool _ I2 k _ _)). unfold swapped. cbn [set_pools s_pools]. apply lookup_insert. }
  set (P0 := p_sqrt_price p0) in *. set (P1 := p_sqrt_price (cs_pool r1)) in *. set (P2 := p_sqrt_price (cs_pool r2)) in *.
  unfold price_in_range in R0, R1, R2.
  apply IZR_le in Hle. apply Z.lt_succ_r, lt_IZR. unfold Z.succ. rewrite plus_IZR.
  destruct d; cbn [negb dirP] in *; rewrite !ES in *.
  - (* x -> y -> x *)
    assert (SM : (443637 * eps < 1)%R) by (unfold eps; lra).
    assert (HX : (holdings true s k P0 <= holdings true s k P2)%R).
    { destruct (Z.le_gt_cases P2 P0) as [HL|HG].
      - pose proof (holdings_swap s k I P2 P0 ltac:(lia) HL) as HS. cbv zeta in HS. lra.
      - pose proof (holdings_swap s k I P0 P2 ltac:(lia) ltac:(lia)) as HS. cbv zeta in HS. destruct HS as (S1 & S2 & _ & S4).
        assert (P0R : (0 < IZR P0 * IZR P0)%R) by (apply Rmult_lt_0_compat; apply IZR_lt; lia).
        set (X := (holdings true s k P0 - holdings true s k P2)%R) in *. assert (X <= 0)%R; [|unfold X in *; lra].
        apply (Rmult_le_reg_r (IZR P0 * IZR P0)); [exact P0R|]. lra. }
    lra.
  - (* y -> x -> y *)
    assert (HB : (IZR (cs_amount_out r1) <= holdings true s1 k P0 - holdings true s1 k P1)%R) by (rewrite !ES; lra).
    pose proof (swap_back s1 k true bi' lim' (e_timestamp e') a' (cs_pool r1) I1 Hp1 Ha' (A1 _ _ Hp1) P0 (cs_amount_out r1) r2 eq_refl
      ltac:(unfold price_in_range; lia) H3 HB HS2 HC2 ltac:(apply le_IZR; lra)) as HY.
    fold P2 in HY. rewrite !ES in HY. lra.
Qed.

(** Any sequence of calls in which nobody opens or closes a position - swaps and
    routes in any directions, by any number of traders - after which those who
    traded in the pool have, together, gained some of its first token, has cost
    them some of the second one. *)
Section Sequence.
  Context (evs0 : list event) (s : state) (H0 : history regular evs0 s).
  Context (k : pool_key) (p : pool) (Hp : pools_get s k = Ok p).

  Lemma trading_moved evs s' : trace regular s evs s' -> Forall trading evs ->
    history regular (evs0 ++ evs) s' /\
    moved k s s' (traders_pay true k s evs) (traders_pay false k s evs) (swaps_in evs).
  Proof using H0.
    intros HT HF. induction HT as [|evs s' ev HT IH HW HG].
    - rewrite app_nil_r. split; [exact H0|]. apply moved_refl.
    - apply Forall_app in HF as [HF1 HF2]. inversion HF2 as [|? ? HF3 _]; subst. destruct (IH HF1) as [HH HM].
      split; [rewrite app_assoc; constructor; auto|].
      assert (TP : forall x, traders_pay x k s (evs ++ [ev]) = traders_pay x k s evs + trader_pays x k s' ev).
      { intros x. rewrite (trace_run _ _ _ _ HT). clear. revert s. induction evs as [|e evs IH]; intros s; cbn [app traders_pay fold_left]; [lia|].
        rewrite IH. lia. }
      assert (SI : swaps_in (evs ++ [ev]) = swaps_in evs + swaps_of ev).
      { clear. induction evs as [|e evs IH]; cbn [app swaps_in]; [lia|]. rewrite IH. lia. }
      rewrite !TP, SI. destruct (active_history _ _ HH) as (I & _ & A).
      eapply moved_trans; [exact HM|]. destruct HG as [HR HC]. destruct ev as [e o|u t a|u t a|m].
      + cbn [exec_event]. unfold exec_op. destruct (run_op e s' o) as [s1| | |] eqn:E.
        * apply moved_op; auto. apply HW.
        * assert (Z1 : forall x, trader_pays x k s' (Call e o) = 0).
          { intros x. destruct o; try reflexivity; cbn [run_op trader_pays] in *.
            - destruct (swap _ _ _ _ _ _ _) as [[]| | |]; try reflexivity. discriminate E.
            - destruct (swap_route _ _ _ _ _ _) as [[]| | |]; try reflexivity. discriminate E. }
          rewrite !Z1. apply (moved_weaken _ _ _ _ _ 0); [destruct o; cbn; lia|apply moved_refl].
        * assert (Z1 : forall x, trader_pays x k s' (Call e o) = 0).
          { intros x. destruct o; try reflexivity; cbn [run_op trader_pays] in *.
            - destruct (swap _ _ _ _ _ _ _) as [[]| | |]; try reflexivity. discriminate E.
            - destruct (swap_route _ _ _ _ _ _) as [[]| | |]; try reflexivity. discriminate E. }
          rewrite !Z1. apply (moved_weaken _ _ _ _ _ 0); [destruct o; cbn; lia|apply moved_refl].
        * assert (Z1 : forall x, trader_pays x k s' (Call e o) = 0).
          { intros x. destruct o; try reflexivity; cbn [run_op trader_pays] in *.
            - destruct (swap _ _ _ _ _ _ _) as [[]| | |]; try reflexivity. discriminate E.
            - destruct (swap_route _ _ _ _ _ _) as [[]| | |]; try reflexivity. discriminate E. }
          rewrite !Z1. apply (moved_weaken _ _ _ _ _ 0); [destruct o; cbn; lia|apply moved_refl].
      + cbn [exec_event trader_pays swaps_of]. destruct (increase_token_balance s' t u a) as [s1| | |] eqn:E; try apply moved_refl.
        apply increase_spec in E as ([B ->] & _). apply moved_still; auto.
      + cbn [exec_event trader_pays swaps_of]. destruct (decrease_token_balance s' t u a) as [[s1 v]| | |] eqn:E; try apply moved_refl.
        apply decrease_spec in E as ([B ->] & _). apply moved_still; auto.
      + cbn [exec_event trader_pays swaps_of]. apply moved_still; auto.
  Qed.

  Lemma sequence_facts evs s' : trace regular s evs s' -> Forall trading evs ->
    let P := pool_price s k in let P' := pool_price s' k in
    0 <= swaps_in evs /\ 0 < P /\ 0 < P' /\ Inv s /\
    (holdings true s k P' <= holdings true s k P + IZR (traders_pay true k s evs) + IZR (swaps_in evs) * (443637 * eps))%R /\
    (holdings false s k P' <= holdings false s k P + IZR (traders_pay false k s evs))%R.
  Proof using H0 Hp.
    intros HT HF. destruct (trading_moved evs s' HT HF) as [HH [M0 M1 M2 M3 M4]].
    destruct (active_history _ _ H0) as (I & _ & _). destruct (active_history _ _ HH) as (I' & _ & _).
    apply pools_get_Ok in Hp as Hk. destruct (M1 (ex_intro _ _ Hk)) as [p' Hk']. cbv zeta.
    specialize (M3 (ex_intro _ _ Hk)). specialize (M4 (ex_intro _ _ Hk)).
    pose proof (po_range _ _ (I_pool _ I _ _ Hk)) as R0. pose proof (po_range _ _ (I_pool _ I' _ _ Hk')) as R1. unfold price_in_range in *.
    unfold pool_price in *. rewrite Hk, Hk' in *. split; [exact M0|]. split; [lia|]. split; [lia|]. auto.
  Qed.

  Theorem C68_gaining_x_costs_y evs s' : trace regular s evs s' -> Forall trading evs -> swaps_in evs <= 4 * 10 ^ 8 ->
    traders_pay true k s evs < 0 -> 0 < traders_pay false k s evs.
  Proof using H0 Hp.
    intros HT HF HN HX. destruct (sequence_facts evs s' HT HF) as (N0 & P0 & P1 & I & MX & MY).
    set (P := pool_price s k) in *. set (P' := pool_price s' k) in *. clearbody P P'.
    assert (HXr : (IZR (traders_pay true k s evs) <= -1)%R) by (apply IZR_le; lia).
    assert (SM : (IZR (swaps_in evs) * (443637 * eps) < 1)%R).
    { apply IZR_le in HN. change (IZR (4 * 10 ^ 8)) with 400000000%R in HN. unfold eps.
      apply Rle_lt_trans with (400000000 * (443637 * / (2 * 10 ^ 14)))%R; [apply Rmult_le_compat_r; lra|lra]. }
    apply lt_IZR. destruct (Z.le_gt_cases P' P) as [HL|HG].
    - pose proof (holdings_swap s k I P' P P1 HL) as HS. cbv zeta in HS. lra.
    - pose proof (holdings_swap s k I P P' P0 ltac:(lia)) as HS. cbv zeta in HS. destruct HS as (S1 & S2 & _ & S4).
      assert (PR : (0 < IZR P * IZR P)%R) by (apply Rmult_lt_0_compat; apply IZR_lt; lia).
      assert (0 < (holdings true s k P - holdings true s k P') * (IZR P * IZR P))%R by (apply Rmult_lt_0_compat; lra).
      lra.
  Qed.

  (** Likewise for a gain in the second token: it costs some of the first one as long
      as the price of the first token in the second, P^2 at the beginning, is at
      most about 4.5 * 10^8 over the number of swaps. *)
  Theorem C68_gaining_y_costs_x evs s' : trace regular s evs s' -> Forall trading evs ->
    swaps_in evs * 443637 * pool_price s k ^ 2 < 2 * 10 ^ 14 * (10 ^ 24) ^ 2 ->
    traders_pay false k s evs < 0 -> 0 < traders_pay true k s evs.
  Proof using H0 Hp.
    intros HT HF HN HY. destruct (sequence_facts evs s' HT HF) as (N0 & P0 & P1 & I & MX & MY).
    set (P := pool_price s k) in *. set (P' := pool_price s' k) in *. clearbody P P'.
    assert (HYr : (IZR (traders_pay false k s evs) <= -1)%R) by (apply IZR_le; lia).
    assert (SM : (IZR (swaps_in evs) * (443637 * eps) * (IZR P * IZR P) < 10 ^ 48)%R).
    { rewrite Z.pow_2_r in HN. apply IZR_lt in HN. rewrite !mult_IZR in HN.
      change (IZR (10 ^ 14)) with 100000000000000%R in HN.
      change (IZR ((10 ^ 24) ^ 2)) with 1000000000000000000000000000000000000000000000000%R in HN.
      replace (IZR (swaps_in evs) * (443637 * eps) * (IZR P * IZR P))%R with (IZR (swaps_in evs) * 443637 * (IZR P * IZR P) * eps)%R by ring.
      unfold eps. apply (Rmult_lt_reg_r (2 * 10 ^ 14)); [lra|]. rewrite Rmult_assoc, Rinv_l by lra. lra. }
    apply lt_IZR. destruct (Z.le_gt_cases P P') as [HL|HG].
    - pose proof (holdings_swap s k I P P' P0 HL) as HS. cbv zeta in HS. lra.
    - pose proof (holdings_swap s k I P' P P1 ltac:(lia)) as HS. cbv zeta in HS. destruct HS as (S1 & S2 & S3 & _).
      assert (PR : (0 < IZR P * IZR P)%R) by (apply Rmult_lt_0_compat; apply IZR_lt; lia).
      apply Rnot_le_lt. intros HC.
      assert (HX : ((holdings true s k P' - holdings true s k P) * (IZR P * IZR P) <= IZR (swaps_in evs) * (443637 * eps) * (IZR P * IZR P))%R).
      { apply Rmult_le_compat_r; lra. }
      lra.
  Qed.
End Sequence.

(** ** Cases *)

(** Carol's swaps in [s_traded] and back. *)
Definition there_and_back (s : state) (d : bool) (a : Z) : option (Z * Z * Z * Z) :=
  match swap (by_ carol) s pool1 d a true (if d then 15258932000000000000 else any_price) with
  | Ok (s1, r1) =>
      match swap (by_ carol) s1 pool1 (negb d) (cs_amount_out r1) true (if d then any_price else 15258932000000000000) with
      | Ok (_, r2) =>
          if clean_resultb s pool1 r1 && clean_resultb s1 pool1 r2
          then Some (cs_amount_in r1, cs_amount_out r1, cs_amount_in r2, cs_amount_out r2) else None
      | _ => None
      end
  | _ => None
  end.
Example C68_case :
  history regular evs_traded s_traded /\
  there_and_back s_traded false 2000 = Some (2000, 1979, 1979, 1955) /\
  there_and_back s_traded true 1500 = Some (1500, 1478, 1478, 1464).
Proof. split; [exact s_traded_regular|]. crunch. Qed.

(** A longer sequence, with a collected fee and a transferred position in between. *)
Definition trades : list event := [
  Call (by_ carol) (OpSwap pool1 false 2000 true any_price);
  Call (by_ alice) (OpClaimFee 0);
  Call (by_ bob) (OpSwap pool1 true 1500 false 15258932000000000000);
  Call (by_ bob) (OpTransferPosition 0 carol);
  Call (by_ carol) (OpSwapRoute 700 690 10000000000 [mkHop pool1 true]) ].
Lemma run_trace_from adm fee evs0 evs : u128 fee -> Forall event_wf (evs0 ++ evs) -> Z.of_nat (length (evs0 ++ evs)) < 2 ^ 32 - 1 ->
  clean_run (run_events adm fee evs0) evs = true -> trace regular (run_events adm fee evs0) evs (run_events adm fee (evs0 ++ evs)).
Proof.
  intros Hf. induction evs as [|ev evs IH] using rev_ind; intros HW HL HC.
  - rewrite app_nil_r. constructor.
  - apply clean_run_app in HC as [C1 C2]. rewrite app_assoc in HW, HL |- *. rewrite app_length in HL. cbn [length] in HL.
    apply Forall_app in HW as [W1 W2]. inversion W2; subst.
    pose proof (run_events_history adm fee _ Hf W1) as HR. apply history_room in HR as [_ HR]; [|lia].
    assert (E : run_events adm fee (evs0 ++ evs) = fold_left exec_event evs (run_events adm fee evs0)) by (unfold run_events; rewrite fold_left_app; reflexivity).
    assert (E' : run_events adm fee ((evs0 ++ evs) ++ [ev]) = exec_event (run_events adm fee (evs0 ++ evs)) ev) by (unfold run_events; rewrite (fold_left_app _ _ [ev]); reflexivity).
    rewrite E'. constructor; [apply IH; auto; lia|auto|].
    split; [intros a; specialize (HR a); lia|]. apply cleanb_spec. rewrite E. exact C2.
Qed.

Example C68_case_sequence :
  history regular evs_traded s_traded /\ is_Ok (pools_get s_traded pool1) = true /\
  trace regular s_traded trades (run_events admin 10000000000 (evs_traded ++ trades)) /\ Forall trading trades /\ swaps_in trades = 3 /\
  pool_price s_traded pool1 = 999211189370072007762822 /\
  traders_pay true pool1 s_traded trades = 239 /\ traders_pay false pool1 s_traded trades = -191.
Proof.
  split; [exact s_traded_regular|]. split; [vm_compute; reflexivity|]. split; [|split; [|crunch]].
  - apply run_trace_from; [unfold u128; lia| |reflexivity|vm_compute; reflexivity].
    unfold evs_traded, setup, positions3, swaps, trades. wf_events.
  - unfold trades. repeat constructor.
Qed.

(** Without the condition that the swaps are clean, anyone can take the tokens of the
    others: carol buys all of the first token up to the upper end of alice's range,
    with that price as the limit.  The swap stops at the tick without crossing it
    (C23), selling back crosses it, which doubles the liquidity that the pool
    believes in, and the 63207 bought for 173541 are sold for 249845. *)
Definition evs_range : list event := setup ++ [
  Call (by_ alice) (OpCreatePosition pool1 (-10) 20000 10000000000 0 any_price) ].
Definition price_20000 : Z := 2718145925979000000000000.
Theorem C68_round_trip_refuted :
  exists evs s s1 r1 s2 r2, history regular evs s /\
    swap (by_ carol) s pool1 false 63207 false price_20000 = Ok (s1, r1) /\
    swap (by_ carol) s1 pool1 true (cs_amount_out r1) true 15258932000000000000 = Ok (s2, r2) /\
    cs_amount_in r1 = 173541 /\ cs_amount_out r1 = 63207 /\ cs_amount_in r2 = 63207 /\ cs_amount_out r2 = 249845.
Proof.
  exists evs_range, (run_events admin 10000000000 evs_range).
  destruct (swap (by_ carol) (run_events admin 10000000000 evs_range) pool1 false 63207 false price_20000) as [[s1 r1]| | |] eqn:E1;
    [|exfalso; assert (X : is_Ok (swap (by_ carol) (run_events admin 10000000000 evs_range) pool1 false 63207 false price_20000) = true) by (vm_compute; reflexivity);
      rewrite E1 in X; discriminate X..].
  destruct (swap (by_ carol) s1 pool1 true (cs_amount_out r1) true 15258932000000000000) as [[s2 r2]| | |] eqn:E2;
    [|exfalso; assert (X : is_Ok (let* (s1, r1) := swap (by_ carol) (run_events admin 10000000000 evs_range) pool1 false 63207 false price_20000 in
                              swap (by_ carol) s1 pool1 true (cs_amount_out r1) true 15258932000000000000) = true) by (vm_compute; reflexivity);
      rewrite E1 in X; cbn [bind] in X; rewrite E2 in X; discriminate X..].
  exists s1, r1, s2, r2.
  assert (X : match swap (by_ carol) (run_events admin 10000000000 evs_range) pool1 false 63207 false price_20000 with
    | Ok (s1, r1) => match swap (by_ carol) s1 pool1 true (cs_amount_out r1) true 15258932000000000000 with
                     | Ok (_, r2) => (cs_amount_in r1, cs_amount_out r1, cs_amount_in r2, cs_amount_out r2) | _ => (0, 0, 0, 0) end
    | _ => (0, 0, 0, 0) end = (173541, 63207, 63207, 249845)) by (vm_compute; reflexivity).
  rewrite E1, E2 in X. injection X as X1 X2 X3 X4.
  split; [|split; [reflexivity|split; [exact E2|auto]]].
  apply run_regular; [unfold u128; lia| |reflexivity|vm_compute; reflexivity]. unfold evs_range, setup. wf_events.
Qed.

(** ** Assumptions *)
Print Assumptions C68_swap_pays_the_positions.
Print Assumptions C68_holdings_order.
Print Assumptions C68_round_trip.
Print Assumptions C68_gaining_x_costs_y.
Print Assumptions C68_gaining_y_costs_x.
Print Assumptions C68_round_trip_refuted.
