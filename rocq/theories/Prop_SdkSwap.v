(** Property C55: the SDK's [quote] followed by [swapWithSlippage]; and property C29 for
    quotes and swaps in different blocks. *)
From Verif Require Import Base Decimal SqrtPriceM LogM ClammM FeeGrowthM Types TickmapM StorageM
  CollectionsM StateM ServiceM SdkUtilM Arith SpecMath SpecSum SpecState SpecHistory
  P_Clamm P_Delta P_TickPrice P_Balance P_Effects P_History P_Tickmap P_Check P_State P_Inv P_InvPos P_InvSwap P_Swap P_SwapLoop P_InvHist
  P_Live P_Loop P_Timeless P_Limit Prop_Swap Prop_SdkUtil Cases CasesClean.
From stdpp Require Import gmap list.
From Coq Require Import ZArith Lia Bool.
Open Scope Z_scope.

(** ** C29: the time does not matter *)

(** Two ticks that differ at most in the seconds counted. *)
Definition same_but_seconds (t t' : tick) : Prop :=
  t_index t' = t_index t /\ t_sign t' = t_sign t /\ t_liquidity_change t' = t_liquidity_change t /\
  t_liquidity_gross t' = t_liquidity_gross t /\ t_sqrt_price t' = t_sqrt_price t /\
  t_fee_growth_outside_x t' = t_fee_growth_outside_x t /\ t_fee_growth_outside_y t' = t_fee_growth_outside_y t.

(** The pool exists at the two times. *)
Definition after_creation (s : state) (k : pool_key) (e : env) : Prop :=
  forall p, pools_get s k = Ok p -> p_start_timestamp p <= e_timestamp e.

Lemma tsim_same t t' : tsim t t' -> same_but_seconds t t'.
Proof. intros [v ->]. repeat split. Qed.

Lemma two_times s k d a bi lim e e' : after_creation s k e -> after_creation s k e' ->
  rsim csim (calculate_swap s (e_timestamp e) k d a bi lim) (calculate_swap s (e_timestamp e') k d a bi lim).
Proof. intros H H'. apply calculate_swap_time. intros p Hp. apply pools_get_Ok in Hp. auto. Qed.

(** A quote in another block, by anyone, of the same state: the same amounts, the same
    price, the same ticks up to their seconds; and if it fails, the same failure. *)
Theorem C29_quote_any_time e e' s k d a bi lim : after_creation s k e -> after_creation s k e' ->
  (forall Q, quote e s k d a bi lim = Ok Q ->
     exists Q', quote e' s k d a bi lim = Ok Q' /\ q_amount_in Q' = q_amount_in Q /\ q_amount_out Q' = q_amount_out Q /\
       q_target_sqrt_price Q' = q_target_sqrt_price Q /\ Forall2 same_but_seconds (q_ticks Q) (q_ticks Q')) /\
  (forall err, quote e s k d a bi lim = Err err -> quote e' s k d a bi lim = Err err) /\
  (quote e s k d a bi lim = Panic -> quote e' s k d a bi lim = Panic).
Proof.
  intros H H'. pose proof (two_times s k d a bi lim e e' H H') as R. unfold quote.
  destruct (calculate_swap s (e_timestamp e) k d a bi lim) as [r| | |], (calculate_swap s (e_timestamp e') k d a bi lim) as [r'| | |];
    cbn in R |- *; try contradiction; (split; [|split]); try (intros; discriminate); auto; try (intros; congruence).
  intros Q [= <-]. destruct R as (R1 & R2 & _ & _ & _ & R6 & R7). eexists. split; [reflexivity|]. cbn.
  split; [auto|]. split; [auto|]. split; [destruct R6 as [v ->]; reflexivity|]. eapply Forall2_impl; [exact R7|]. apply tsim_same.
Qed.

(** A swap made in a later block than the quote, in the same state, does what the quote says. *)
Theorem C29_swap_any_time evs s e q k d a bi lim Q :
  history room evs s -> u256 a -> after_creation s k q -> after_creation s k e ->
  quote q s k d a bi lim = Ok Q ->
  q_amount_in Q <= bal s (e_caller e) (if d then pk_token_x k else pk_token_y k) ->
  bal s (e_caller e) (if d then pk_token_y k else pk_token_x k) + q_amount_out Q < 2 ^ 256 ->
  exists s' r, swap e s k d a bi lim = Ok (s', r) /\ cs_amount_in r = q_amount_in Q /\
    cs_amount_out r = q_amount_out Q /\ p_sqrt_price (cs_pool r) = q_target_sqrt_price Q /\
    Forall2 same_but_seconds (q_ticks Q) (cs_ticks r).
Proof.
  intros H Ha A1 A2 HQ Hi Ho. destruct (C29_quote_any_time q e s k d a bi lim A1 A2) as [T _].
  destruct (T Q HQ) as (Q' & HQ' & T1 & T2 & T3 & T4).
  destruct (C29_quoted_swap_succeeds evs s e e k d a bi lim Q' H Ha eq_refl HQ') as (s' & r & E & E1 & E2 & E3 & E4); [lia|lia|].
  exists s', r. split; [exact E|]. rewrite E1, E2, E3, E4. auto.
Qed.

(** ** C55: quote, then swap with slippage *)

Lemma swap_price_range evs s e k d a bi lim s' r : history room evs s -> u256 a ->
  swap e s k d a bi lim = Ok (s', r) -> price_in_range (p_sqrt_price (cs_pool r)) /\ pools_get s' k = Ok (cs_pool r).
Proof.
  intros H Ha E. split.
  - apply room_Inv' in H as I. apply swap_inv in E as (B & Hc & _). destruct (calculate_swap_pool _ _ _ _ _ _ _ _ Hc) as [p0 Hp0].
    destruct (swap_induction s k d bi lim (e_timestamp e) a p0 I Hp0 Ha (fun _ => True) r) as (l & V & _ & _ & _ & _ & ->); auto.
    cbn [cs_pool]. apply (po_range _ _ (I_pool _ (v_inv _ _ _ _ _ _ _ V) _ _ (mid_pool s k l))).
  - apply (C29_swap_does_what_quote_says e e) in E as [_ E]; auto.
Qed.

Lemma sdk_limit_up p tol : price_in_range p -> 0 <= tol <= 10 ^ 12 ->
  exists lim, sdk_swap_limit false p tol = Ok lim /\ p < lim /\ (lim - 1) * (lim - 1) * 10 ^ 12 <= p * p * (10 ^ 12 + tol).
Proof.
  intros R Ht. destruct (C46_slippage_up p tol R Ht) as (r & E & B & _ & U & _).
  assert (R2 : r < 100 * p).
  { unfold price_in_range in R. destruct (Z.lt_ge_cases r (100 * p)) as [|G]; [auto|exfalso].
    assert ((100 * p) * (100 * p) <= r * r) by (apply Z.mul_le_mono_nonneg; lia).
    assert (p * p * (10 ^ 12 + tol) <= p * p * (2 * 10 ^ 12)) by (apply Z.mul_le_mono_nonneg_l; lia). nia. }
  exists (r + 1). unfold sdk_swap_limit. cbn [negb]. rewrite E. cbn [bind]. split.
  { apply encode_Ok. unfold price_in_range in R. lia. }
  split; [lia|]. replace (r + 1 - 1) with r by lia. exact U.
Qed.

Lemma sdk_limit_down p tol : price_in_range p -> 0 <= tol < 10 ^ 12 ->
  exists lim, sdk_swap_limit true p tol = Ok lim /\ 0 <= lim < p /\ (0 < tol -> lim + 200002 < p) /\
    (p * p - 10 ^ 24) * (10 ^ 12 - tol) < (lim + 2) * (lim + 2) * 10 ^ 12.
Proof.
  intros R Ht. destruct (C46_slippage_down p tol R ltac:(lia)) as (r & E & B & _ & U & D).
  assert (R1 : 1 <= r).
  { unfold price_in_range in R. assert (r <> 0); [|lia]. intros ->.
    assert (15258932000000000000 * 15258932000000000000 <= p * p) by (apply Z.mul_le_mono_nonneg; lia).
    assert ((p * p - 10 ^ 24) * 1 <= (p * p - 10 ^ 24) * (10 ^ 12 - tol)) by (apply Z.mul_le_mono_nonneg_l; lia). lia. }
  exists (r - 1). unfold sdk_swap_limit. cbn [negb]. rewrite E. cbn [bind]. split.
  { apply encode_Ok. unfold price_in_range in R. lia. }
  split; [lia|]. split.
  - intros H0. unfold price_in_range in R. destruct (Z.lt_ge_cases (r - 1 + 200002) p) as [|G]; [auto|exfalso].
    assert ((p - 200001) * (p - 200001) <= r * r) by (apply Z.mul_le_mono_nonneg; lia).
    assert (p * p * (10 ^ 12 - tol) <= p * p * (10 ^ 12 - 1)) by (apply Z.mul_le_mono_nonneg_l; lia). nia.
  - replace (r - 1 + 2) with (r + 1) by lia. exact D.
Qed.

(** As long as the pool has not changed since the quote, a swap of an exact input with
    the quoted price and a positive tolerance pays what was quoted.  Towards higher
    prices a tolerance of zero is enough. *)
Theorem C55_quote_then_swap evs s q e k (d : bool) a tol Q :
  history room evs s -> u256 a -> after_creation s k q -> after_creation s k e ->
  sdk_quote q s k d a true = Ok Q ->
  (if d then 0 < tol < 10 ^ 12 else 0 <= tol <= 10 ^ 12) ->
  q_amount_in Q <= bal s (e_caller e) (if d then pk_token_x k else pk_token_y k) ->
  bal s (e_caller e) (if d then pk_token_y k else pk_token_x k) + q_amount_out Q < 2 ^ 256 ->
  exists s' r, sdk_swap_with_slippage e s k d a true (q_target_sqrt_price Q) tol = Ok (s', r) /\
    cs_amount_in r = a /\ q_amount_in Q = a /\ cs_amount_out r = q_amount_out Q /\
    p_sqrt_price (cs_pool r) = q_target_sqrt_price Q.
Proof.
  intros H Ha A1 A2 HQ Ht Hi Ho. apply room_Inv' in H as I. unfold sdk_quote in HQ. apply bind_Ok in HQ as (lim & EL & HQ).
  destruct (C29_swap_any_time evs s e q k d a true lim Q H Ha A1 A2 HQ Hi Ho) as (s' & r & E & E1 & E2 & E3 & _).
  pose proof E as E0. apply swap_inv in E0 as (B & Hc & _).
  destruct (calculate_swap_pool _ _ _ _ _ _ _ _ Hc) as [p0 Hp0].
  pose proof (calculate_swap_inside s _ k d a true lim p0 r I Hp0 Ha EL Hc) as HB.
  assert (EP : cs_target_sqrt_price r = p_sqrt_price (cs_pool r)).
  { apply calculate_swap_inv in Hc as (p & tl & l & _ & _ & _ & _ & _ & _ & ->). reflexivity. }
  assert (R : price_in_range (q_target_sqrt_price Q)).
  { rewrite <- E3. exact (proj1 (swap_price_range _ _ _ _ _ _ _ _ _ _ H Ha E)). }
  assert (EA : cs_amount_in r = a).
  { assert (0 <= lim).
    { destruct (max_tick_facts _ (pool_spacing _ _ (I_pool _ I _ _ Hp0))) as (M & _ & _ & M3 & M4 & _ & _ & M7 & M8).
      destruct d; [rewrite M8 in EL; injection EL as <-; pose proof (price_range _ M4) as X|rewrite M7 in EL; injection EL as <-; pose proof (price_range _ M3) as X];
        unfold price_in_range in X; lia. }
    destruct (C28_exact_in_charges_amount evs s e k d a lim s' r H Ha) as [X _]; auto. }
  exists s', r. split; [|split; [auto|split; [lia|auto]]]. unfold sdk_swap_with_slippage.
  assert (HL : exists lim', sdk_swap_limit d (q_target_sqrt_price Q) tol = Ok lim' /\
    dirP d (lim' + 200002 < q_target_sqrt_price Q) (q_target_sqrt_price Q < lim')).
  { destruct d; cbn [dirP].
    - destruct (sdk_limit_down _ tol R ltac:(lia)) as (lim' & X & _ & Y & _). exists lim'. split; [auto|apply Y; lia].
    - destruct (sdk_limit_up _ tol R ltac:(lia)) as (lim' & X & Y & _). eauto. }
  destruct HL as (lim' & -> & HL). cbn [bind].
  assert (Hc' : calculate_swap s (e_timestamp e) k d a true lim' = Ok r).
  { apply (calculate_swap_limit s _ k d a lim lim' p0 r I Hp0 Ha Hc). rewrite EP, E3 in *. destruct d; cbn [dirP] in *; lia. }
  unfold swap in E |- *. rewrite Hc' . rewrite Hc in E. exact E.
Qed.

(** Whatever happened to the pool in the meantime, a swap with slippage that goes
    through ends at a price within the tolerance of the estimated one: towards higher
    prices at most two units of the 24-decimal price above it; towards lower prices two
    units below it, and with an exact input [o] units more, where [o] is less than
    10^24 divided by the price. *)
Theorem C55_within_tolerance evs s e k (d : bool) a bi est tol s' r p' :
  history room evs s -> u256 a -> price_in_range est -> 0 <= tol <= 10 ^ 12 ->
  sdk_swap_with_slippage e s k d a bi est tol = Ok (s', r) -> pools_get s' k = Ok p' ->
  if d then exists o, (p_sqrt_price p' + o) * o < 10 ^ 24 /\ 0 <= o /\ (bi = false -> o = 0) /\
         (est * est - 10 ^ 24) * (10 ^ 12 - tol) < (p_sqrt_price p' + o + 2) * (p_sqrt_price p' + o + 2) * 10 ^ 12
  else (p_sqrt_price p' - 1) * (p_sqrt_price p' - 1) * 10 ^ 12 <= est * est * (10 ^ 12 + tol).
Proof.
  intros H Ha R Ht E Hp'. unfold sdk_swap_with_slippage in E. apply bind_Ok in E as (lim & EL & E).
  assert (Hp : exists p, pools_get s k = Ok p).
  { pose proof E as E0. apply swap_inv in E0 as (B & Hc & _). destruct (calculate_swap_pool _ _ _ _ _ _ _ _ Hc) as [p Hp].
    exists p. apply pools_get_Ok. auto. }
  destruct Hp as [p Hp]. destruct (swap_price_range _ _ _ _ _ _ _ _ _ _ H Ha E) as [R' HX]. rewrite Hp' in HX. injection HX as HX. rewrite <- HX in R'.
  unfold price_in_range in R'. set (n := p_sqrt_price p') in *. destruct d.
  - destruct (Z.eq_dec tol (10 ^ 12)) as [->|Hne].
    { exfalso. destruct (C46_slippage_down est (10 ^ 12) R ltac:(lia)) as (x & X & B & _ & U & _).
      assert (x = 0) by (destruct (Z.eq_dec x 0); [auto|exfalso; assert (1 <= x * x) by nia; lia]). subst x.
      unfold sdk_swap_limit in EL. cbn [negb] in EL. rewrite X in EL. discriminate EL. }
    destruct (sdk_limit_down est tol R ltac:(lia)) as (lim' & X & B & _ & D). rewrite X in EL. injection EL as ->.
    destruct bi.
    + destruct (C28_price_limit_exact_in_down evs s e k a lim s' r p p' H Ha ltac:(lia) E Hp Hp') as [_ L]. fold n in L.
      exists (Z.max 0 (lim - n)). destruct (Z.le_gt_cases lim n).
      * rewrite Z.max_l by lia. split; [lia|]. split; [lia|]. split; [auto|].
        assert ((lim + 2) * (lim + 2) <= (n + 0 + 2) * (n + 0 + 2)) by (apply Z.mul_le_mono_nonneg; lia). lia.
      * rewrite Z.max_r by lia. replace (n + (lim - n)) with lim by lia. split; [lia|]. split; [lia|]. split; [discriminate|exact D].
    + pose proof (C28_price_limit_respected evs s e k true a false lim s' r p p' H Ha ltac:(lia) E Hp Hp' (or_intror eq_refl)) as L.
      cbn in L. fold n in L. exists 0. split; [lia|]. split; [lia|]. split; [auto|].
      assert ((lim + 2) * (lim + 2) <= (n + 0 + 2) * (n + 0 + 2)) by (apply Z.mul_le_mono_nonneg; lia). lia.
  - destruct (sdk_limit_up est tol R Ht) as (lim' & X & B & U). rewrite X in EL. injection EL as ->. unfold price_in_range in R.
    pose proof (C28_price_limit_respected evs s e k false a bi lim s' r p p' H Ha ltac:(lia) E Hp Hp' (or_introl eq_refl)) as L.
    cbn in L. fold n in L. assert ((n - 1) * (n - 1) <= (lim - 1) * (lim - 1)) by (apply Z.mul_le_mono_nonneg; lia). lia.
Qed.

(** *** What it does not do *)

(** Towards lower prices a tolerance of 100% can never be sent: the limit would be negative. *)
Theorem C55_full_tolerance_refuted e s k a bi est : price_in_range est ->
  sdk_swap_with_slippage e s k true a bi est (10 ^ 12) = Err ETrack.
Proof.
  intros R. destruct (C46_slippage_down est (10 ^ 12) R ltac:(lia)) as (x & X & B & _ & U & _).
  assert (x = 0) by (destruct (Z.eq_dec x 0); [auto|exfalso; assert (1 <= x * x) by nia; lia]). subst x.
  unfold sdk_swap_with_slippage, sdk_swap_limit. cbn [negb]. rewrite X. reflexivity.
Qed.

Definition tier_thin : fee_tier := mkFeeTier 400000000000 100.
Definition pool_thin : pool_key := mkPoolKey tokA tokB tier_thin.
Definition evs_thin (tick price L : Z) (trade : list event) : list event := [
  Call (by_ admin) (OpAddFeeTier tier_thin);
  Call (by_ bob) (OpCreatePool tokB tokA tier_thin price tick);
  Credit alice tokA 100000000000000000000; Credit alice tokB 100000000000000000000;
  Credit carol tokA 100000000000000000000; Credit carol tokB 100000000000000000000;
  Call (by_ alice) (OpCreatePosition pool_thin (-20000) 20000 L 0 any_price) ] ++ trade.
Definition evs_strict : list event :=
  evs_thin (-13800) 501593372693000000000000 99017 [Call (by_ carol) (OpSwap pool_thin false 4 true any_price)].
Definition s_strict : state := run_events admin 10000000000 evs_strict.
Lemma s_strict_room : history room evs_strict s_strict.
Proof. apply history_room; [|reflexivity]. apply run_events_history; [unfold u128; lia|]. unfold evs_strict, evs_thin. wf_events. Qed.

Definition quoted (r : res quote_result) : option (Z * Z * Z) :=
  match r with Ok Q => Some (q_amount_in Q, q_amount_out Q, q_target_sqrt_price Q) | _ => None end.
Lemma quoted_inv r x : quoted r = Some x -> exists Q, r = Ok Q /\ x = (q_amount_in Q, q_amount_out Q, q_target_sqrt_price Q).
Proof. destruct r as [Q| | |]; try discriminate. intros [= <-]. eauto. Qed.
Definition paid (r : res (state * calculate_swap_result)) : option (Z * Z) :=
  match r with Ok (_, r) => Some (cs_amount_in r, cs_amount_out r) | _ => None end.

(** Towards lower prices a tolerance of zero can fail in the state of the quote. *)
Theorem C55_zero_tolerance_refuted : exists evs s e k a Q, history room evs s /\
  sdk_quote e s k true a true = Ok Q /\
  q_amount_in Q <= bal s (e_caller e) (pk_token_x k) /\
  sdk_swap_with_slippage e s k true a true (q_target_sqrt_price Q) 0 = Err PriceLimitReached.
Proof.
  exists evs_strict, s_strict, (by_ carol), pool_thin, 3.
  destruct (quoted_inv (sdk_quote (by_ carol) s_strict pool_thin true 3 true) (3, 1, 639275327784564707747890)) as (Q & E & EQ); [vm_compute; reflexivity|].
  injection EQ as E1 E2 E3. exists Q. split; [apply s_strict_room|]. split; [exact E|]. rewrite <- E1, <- E3.
  split; [vm_compute; discriminate|vm_compute; reflexivity].
Qed.

Definition evs_out : list event := evs_thin 0 1000000000000000000000000 5000000 [].
Definition s_out : state := run_events admin 10000000000 evs_out.
Lemma s_out_room : history room evs_out s_out.
Proof. apply history_room; [|reflexivity]. apply run_events_history; [unfold u128; lia|]. unfold evs_out, evs_thin. wf_events. Qed.

(** With an exact output the swap may charge more than was quoted in the same state (here 10
    instead of 9): it goes on to the limit when that does not pay one unit more. *)
Theorem C55_exact_out_refuted : exists evs s e k a tol Q s' r, history room evs s /\ 0 < tol < 10 ^ 12 /\
  sdk_quote e s k true a false = Ok Q /\
  sdk_swap_with_slippage e s k true a false (q_target_sqrt_price Q) tol = Ok (s', r) /\
  q_amount_in Q < cs_amount_in r.
Proof.
  exists evs_out, s_out, (by_ carol), pool_thin, 5, 30000000000.
  destruct (quoted_inv (sdk_quote (by_ carol) s_out pool_thin true 5 false) (9, 5, 900000000000000000000000)) as (Q & E & EQ); [vm_compute; reflexivity|].
  injection EQ as E1 E2 E3.
  assert (EP : paid (sdk_swap_with_slippage (by_ carol) s_out pool_thin true 5 false (q_target_sqrt_price Q) 30000000000) = Some (10, 5))
    by (rewrite <- E3; vm_compute; reflexivity).
  destruct (sdk_swap_with_slippage (by_ carol) s_out pool_thin true 5 false (q_target_sqrt_price Q) 30000000000) as [[s' r]| | |] eqn:ES; [|discriminate EP..].
  injection EP as EI _. exists Q, s', r. split; [apply s_out_room|]. split; [lia|]. split; [exact E|]. split; [exact ES|]. lia.
Qed.

(** 1% tolerance; the swap made 1000 seconds after the quote; and one after another trader
    has moved the price. *)
Example C55_case :
  history room evs_open s_open /\ history room evs_traded s_traded /\
  quoted (sdk_quote (by_ bob) s_open pool1 true 3000 true) = Some (3000, 2965, 999177909711820159421355) /\
  paid (sdk_swap_with_slippage (mkEnv carol 2000 7 0 1000000000000 99) s_open pool1 true 3000 true 999177909711820159421355 10000000000) = Some (3000, 2965) /\
  quoted (sdk_quote (by_ bob) s_open pool1 false 150 true) = Some (150, 147, 1000037000000000000000000) /\
  paid (sdk_swap_with_slippage (by_ carol) s_open pool1 false 150 true 1000037000000000000000000 0) = Some (150, 147) /\
  is_Ok (sdk_swap_with_slippage (by_ carol) s_traded pool1 true 100 true 1000000000000000000000000 10000000000) = true /\
  is_Ok (sdk_swap_with_slippage (by_ carol) s_traded pool1 true 100 true 1000000000000000000000000 1000000) = false /\
  match pools_get s_open pool1 with Ok p => p_start_timestamp p | _ => -1 end = 1000.
Proof. split; [apply s_open_room|]. split; [apply s_traded_room|]. crunch. Qed.

(** ** Assumptions *)
Print Assumptions C29_quote_any_time.
Print Assumptions C29_swap_any_time.
Print Assumptions C55_quote_then_swap.
Print Assumptions C55_within_tolerance.
Print Assumptions C55_full_tolerance_refuted.
Print Assumptions C55_zero_tolerance_refuted.
Print Assumptions C55_exact_out_refuted.
