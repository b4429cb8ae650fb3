(** C82: the widest range of a tick spacing.

    [history], [room] and [regular] are defined in SpecHistory.v and SpecClean.v. *)
From Verif Require Import Base Decimal SqrtPriceM LogM ClammM FeeGrowthM Types TickmapM StorageM
  CollectionsM StateM ServiceM SpecMath SpecFees SpecState SpecHistory SpecClean P_PosOps P_TickPrice P_Tickmap P_Effects P_History P_Inv
  P_InvHist P_Active P_Payout Cases CasesClean.
From stdpp Require Import gmap list.
From Coq Require Import ZArith Lia Bool.
Open Scope Z_scope.

Local Lemma room_Inv evs s : history room evs s -> Inv s.
Proof. apply Inv_history. auto. Qed.

Lemma multiple_near sp M t : 1 <= sp -> (sp | M) -> 221818 < M + sp -> (sp | t) -> -221818 <= t <= 221818 -> - M <= t <= M.
Proof.
  intros S [m ->] B [n ->] H. assert (n < m + 1) by (apply (Z.mul_lt_mono_pos_r sp); lia).
  assert (- n < m + 1) by (apply (Z.mul_lt_mono_pos_r sp); lia).
  assert (n * sp <= m * sp) by (apply Z.mul_le_mono_nonneg_r; lia). assert (- n * sp <= m * sp) by (apply Z.mul_le_mono_nonneg_r; lia). lia.
Qed.

Lemma range_ticks sp : 1 <= sp -> exists M, get_max_tick sp = Ok M /\ get_min_tick sp = Ok (- M) /\ (sp | M) /\ 0 <= M <= 221818 /\ 221818 < M + sp.
Proof.
  intros Hs. exists (sp * (221818 / sp)). pose proof (Z.div_mod 221818 sp ltac:(lia)) as D. pose proof (Z.mod_pos_bound 221818 sp ltac:(lia)) as B.
  pose proof (Z.div_pos 221818 sp ltac:(lia) ltac:(lia)) as P. split.
  { unfold get_max_tick, i32_div. destruct (Z.eqb_spec sp 0); [lia|]. cbn [bind]. unfold MAX_TICK. rewrite Z.quot_div_nonneg by lia. f_equal. lia. }
  split.
  { unfold get_min_tick, i32_div. destruct (Z.eqb_spec sp 0); [lia|]. cbn [bind]. unfold MIN_TICK. change (-221818) with (- (221818)).
    rewrite Z.quot_opp_l by lia. rewrite Z.quot_div_nonneg by lia. f_equal. lia. }
  split; [exists (221818 / sp); lia|]. split; [|lia]. split; [apply Z.mul_nonneg_nonneg; lia|lia].
Qed.

(** For every tick spacing that can be given (a 16-bit number other than zero), the highest
    tick is the largest multiple of the spacing within the ends of the price scale and the
    lowest is its opposite; no spacing at all makes the calls trap. *)
Theorem C82_ticks sp : 0 <= sp < 2 ^ 16 ->
  (sp <> 0 -> exists M, get_max_tick sp = Ok M /\ get_min_tick sp = Ok (- M) /\ (sp | M) /\ 0 <= M <= 221818 /\
     forall t, (sp | t) -> -221818 <= t <= 221818 -> - M <= t <= M) /\
  (sp = 0 -> get_max_tick sp = Panic /\ get_min_tick sp = Panic).
Proof.
  intros H. split; [|intros ->; split; reflexivity]. intros N. destruct (range_ticks sp ltac:(lia)) as (M & E1 & E2 & E3 & E4 & E5).
  exists M. do 4 (split; [assumption|]). intros t D V. apply (multiple_near sp); auto; lia.
Qed.

(** The highest and lowest price of a spacing are the prices of these two ticks, and every
    tick that can be used with the spacing has a price between them. *)
Theorem C82_prices sp : 1 <= sp < 2 ^ 16 ->
  exists M hi lo, get_max_tick sp = Ok M /\ get_min_tick sp = Ok (- M) /\
    get_max_sqrt_price sp = Ok hi /\ calculate_sqrt_price M = Ok hi /\
    get_min_sqrt_price sp = Ok lo /\ calculate_sqrt_price (- M) = Ok lo /\
    (forall t p, (sp | t) -> -221818 <= t <= 221818 -> calculate_sqrt_price t = Ok p -> lo <= p <= hi).
Proof.
  intros H. destruct (range_ticks sp ltac:(lia)) as (M & E1 & E2 & E3 & E4 & E5). exists M, (price M), (price (- M)).
  assert (V1 : valid_tick M) by (unfold valid_tick; lia). assert (V2 : valid_tick (- M)) by (unfold valid_tick; lia).
  unfold get_max_sqrt_price, get_min_sqrt_price. rewrite E1, E2. cbn [bind]. rewrite !calculate_sqrt_price_valid by assumption.
  do 6 (split; [reflexivity|]). intros t p D V P. pose proof (multiple_near sp M t ltac:(lia) E3 E5 D V) as R.
  rewrite calculate_sqrt_price_valid in P by exact V. injection P as <-. split; apply price_le; auto; lia.
Qed.

(** No pool ever leaves the range: its price is between the two and its tick too, and the
    tick is the highest only at the highest price. *)
Theorem C82_pools_stay_inside evs s k p : history room evs s -> get_pool s (pk_token_x k) (pk_token_y k) (pk_fee_tier k) = Ok p ->
  exists M hi lo, get_max_tick (ft_tick_spacing (pk_fee_tier k)) = Ok M /\ get_min_tick (ft_tick_spacing (pk_fee_tier k)) = Ok (- M) /\
    get_max_sqrt_price (ft_tick_spacing (pk_fee_tier k)) = Ok hi /\ get_min_sqrt_price (ft_tick_spacing (pk_fee_tier k)) = Ok lo /\
    lo <= p_sqrt_price p <= hi /\ - M <= p_current_tick_index p <= M /\
    (p_current_tick_index p = M -> p_sqrt_price p = hi).
Proof.
  intros HH HP. apply room_Inv in HH as I. assert (HK : exists k', s_pools s !! k' = Some p /\ pk_fee_tier k' = pk_fee_tier k).
  { unfold get_pool in HP. apply bind_Ok in HP as (k' & E & HP). apply pools_get_Ok in HP. exists k'. split; [exact HP|].
    unfold pool_key_new in E. destruct (_ =? _); [discriminate E|]. destruct (_ <? _); injection E as <-; reflexivity. }
  destruct HK as (k' & HK & EK). pose proof (I_pool _ I _ _ HK) as O. pose proof (pool_spacing _ _ O) as Hs. unfold pk_spacing in Hs. 
  destruct (po_tick _ _ O) as [V D]. pose proof (po_lo _ _ O) as L. pose proof (po_up _ _ O) as U. pose proof (po_max _ _ O) as X.
  unfold pk_spacing in *. rewrite EK in *. set (sp := ft_tick_spacing (pk_fee_tier k)) in *. set (c := p_current_tick_index p) in *.
  destruct (range_ticks sp ltac:(lia)) as (M & E1 & E2 & E3 & E4 & E5). exists M, (price M), (price (- M)).
  assert (V1 : valid_tick M) by (unfold valid_tick; lia). assert (V2 : valid_tick (- M)) by (unfold valid_tick; lia).
  unfold get_max_sqrt_price, get_min_sqrt_price. rewrite E1, E2. cbn [bind]. rewrite !calculate_sqrt_price_valid by assumption.
  do 4 (split; [reflexivity|]). pose proof (multiple_near sp M c ltac:(lia) E3 E5 D V) as R.
  assert (T : c = M -> p_sqrt_price p = price M).
  { intros E. rewrite <- E. apply X. unfold valid_tick. rewrite E. lia. }
  split; [|split; [exact R|exact T]]. split.
  - eapply Z.le_trans; [|exact L]. apply price_le; [auto|exact V|lia].
  - destruct (Z.eq_dec c M) as [E|E]; [rewrite (T E); lia|]. assert (S : c + sp <= M).
    { destruct E3 as [m Em], D as [n En]. subst M. rewrite En in *. clear - R E Hs.
      assert (n < m) by (apply (Z.mul_lt_mono_pos_r sp); lia). assert ((n + 1) * sp <= m * sp) by (apply Z.mul_le_mono_nonneg_r; lia). lia. }
    eapply Z.le_trans; [apply U; unfold valid_tick; lia|]. apply price_le; auto. unfold valid_tick; lia.
Qed.

(** Hence a position over the whole range is in use at every price but the highest: the
    pool trades with at least its liquidity. *)
Theorem C82_whole_range_in_use evs s u i pos p : history regular evs s -> get_position s u i = Ok pos ->
  get_min_tick (ft_tick_spacing (pk_fee_tier (pos_pool_key pos))) = Ok (pos_lower pos) ->
  get_max_tick (ft_tick_spacing (pk_fee_tier (pos_pool_key pos))) = Ok (pos_upper pos) ->
  get_pool s (pk_token_x (pos_pool_key pos)) (pk_token_y (pos_pool_key pos)) (pk_fee_tier (pos_pool_key pos)) = Ok p ->
  get_max_sqrt_price (ft_tick_spacing (pk_fee_tier (pos_pool_key pos))) <> Ok (p_sqrt_price p) ->
  pos_liquidity pos <= p_liquidity p.
Proof.
  intros HH HP HL HU HG HM. assert (HR : history room evs s) by (apply (history_weaken regular room); [intros ? ? [? _]; assumption|exact HH]).
  destruct (active_history evs s HH) as (I & _ & A). destruct (C82_pools_stay_inside evs s _ p HR HG) as (M & hi & lo & E1 & E2 & E3 & E4 & E5 & E6 & E7).
  rewrite E1 in HU. rewrite E2 in HL. injection HU as HU. injection HL as HL. rewrite E3 in HM.
  unfold get_position, positions_get in HP. destruct (s_positions s !! (u, i)) as [pos'|] eqn:EP; [|discriminate HP]. injection HP as ->.
  destruct (so_pool _ _ (I_pos _ I _ _ _ EP)) as [q HQ]. pose proof (po_tokens _ _ (I_pool _ I _ _ HQ)) as HT.
  assert (p = q) as <-.
  { unfold get_pool, pool_key_new in HG. rewrite (proj2 (Z.eqb_neq _ _)), (proj2 (Z.ltb_lt _ _)) in HG by lia. cbn [bind] in HG.
    apply pools_get_Ok in HG. destruct (pos_pool_key pos) as [x y f]. cbn in HG, HQ. congruence. }
  apply (active_ge s u i pos p I A EP HQ). unfold in_range. apply andb_true_intro. split; [apply Z.leb_le; lia|]. apply Z.ltb_lt.
  assert (p_current_tick_index p <> M) by (intros E; apply HM; rewrite (E7 E); reflexivity). lia.
Qed.

(** At the highest price it is not: a pool opened there, with a position over the whole
    range, has no liquidity. *)
Definition evs_top : list event := [
  Call (by_ admin) (OpAddFeeTier tier1);
  Call (by_ bob) (OpCreatePool tokA tokB tier1 65509176333123237000000000000 221810);
  Credit alice tokA 1000000; Credit alice tokB 100000000000000;
  Call (by_ alice) (OpCreatePosition pool1 (-221810) 221810 100000000 0 any_price) ].
Definition s_top : state := run_events admin 10000000000 evs_top.
Theorem C82_whole_range_in_use_refuted : exists evs s u i pos p, history regular evs s /\ get_position s u i = Ok pos /\
  get_min_tick (ft_tick_spacing (pk_fee_tier (pos_pool_key pos))) = Ok (pos_lower pos) /\
  get_max_tick (ft_tick_spacing (pk_fee_tier (pos_pool_key pos))) = Ok (pos_upper pos) /\
  get_pool s (pk_token_x (pos_pool_key pos)) (pk_token_y (pos_pool_key pos)) (pk_fee_tier (pos_pool_key pos)) = Ok p /\
  0 < pos_liquidity pos /\ p_liquidity p = 0.
Proof.
  exists evs_top, s_top, alice, 0. eexists. eexists. split.
  - apply run_regular; [unfold u128; lia| |reflexivity|vm_compute; reflexivity].
    unfold evs_top. wf_events.
  - do 5 (split; [vm_compute; reflexivity|]). vm_compute. reflexivity.
Qed.

(** Alice provides liquidity over the whole range and Bob in a narrow one; Carol's trade
    leaves Bob's range, after which the pool has Alice's liquidity and no other. *)
Definition evs_whole : list event := [
  Call (by_ admin) (OpAddFeeTier tier1);
  Call (by_ bob) (OpCreatePool tokA tokB tier1 1000000000000000000000000 0);
  Credit alice tokA 1000000; Credit alice tokB 1000000;
  Credit bob tokA 1000000; Credit bob tokB 1000000; Credit carol tokA 1000000;
  Call (by_ alice) (OpCreatePosition pool1 (-221810) 221810 10000000000 0 any_price);
  Call (by_ bob) (OpCreatePosition pool1 (-10) 10 30000000000 0 any_price);
  Call (by_ carol) (OpSwap pool1 true 3000 true 15258932000000000000) ].
Definition s_whole : state := run_events admin 10000000000 evs_whole.
Definition seen (s : state) : option (Z * Z * Z * bool) :=
  match get_position s alice 0, get_pool s tokA tokB tier1 with
  | Ok pos, Ok p => Some (pos_lower pos, pos_upper pos, p_liquidity p, p_current_tick_index p <? -10)
  | _, _ => None
  end.
Example C82_case :
  history regular evs_whole s_whole /\ get_max_tick 10 = Ok 221810 /\ get_min_tick 10 = Ok (-221810) /\
  get_max_sqrt_price 10 = Ok 65509176333123237000000000000 /\
  seen s_whole = Some (-221810, 221810, 10000000000, true).
Proof.
  split.
  - apply run_regular; [unfold u128; lia| |reflexivity|vm_compute; reflexivity]. unfold evs_whole. wf_events.
  - do 3 (split; [vm_compute; reflexivity|]). vm_compute. reflexivity.
Qed.

(** ** Assumptions *)
Print Assumptions C82_ticks.
Print Assumptions C82_prices.
Print Assumptions C82_pools_stay_inside.
Print Assumptions C82_whole_range_in_use.
Print Assumptions C82_whole_range_in_use_refuted.
