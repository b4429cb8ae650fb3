(** Property C42: the off-chain simulation of swaps that the SDK offers.

    [sdk_view d s k p m ticks] (SpecSdk.v): the snapshot (pool, tickmap, ticks)
    shows the pool [k] of the contract truthfully.  [reports r' r]: the simulation
    result [r'] carries the amounts, the fee, the prices and the crossed ticks of
    the swap result [r] and raises no flag. *)
From Verif Require Import Base Decimal SqrtPriceM LogM ClammM FeeGrowthM Types TickmapM StorageM
  CollectionsM StateM ServiceM SdkM SdkFetchM Arith SpecMath SpecHistory SpecState SpecLoop SpecClean SpecSdk
  P_Effects P_History P_Loop P_State P_Inv P_InvHist P_Term P_Sdk P_SdkView Prop_Swap Cases CasesClean.
From stdpp Require Import gmap list.
From Coq Require Import ZArith Lia Bool.
Open Scope Z_scope.

(** ** The snapshot *)

(** What the SDK fetches with [getPool], [getTickmap] and [getAllLiquidityTicks],
    with or without [filterTickmap] and [filterTicks], is a truthful snapshot. *)
Theorem C42_snapshot_is_true evs s k p d filtered : history room evs s -> pools_get s k = Ok p ->
  exists m ticks, sdk_snapshot s k d filtered = Ok (p, m, ticks) /\ sdk_view d s k p m ticks.
Proof. intros H Hp. apply snapshot_view; [eapply room_Inv'; eauto|exact Hp]. Qed.

(** ** Agreement *)

(** The simulation of a swap that the contract carries out reports that swap,
    or says that it gave up after too many steps. *)
Theorem C42_simulation_matches_swap evs s e k d a bi lim s' r p m ticks : history room evs s -> u256 a ->
  sdk_view d s k p m ticks -> swap e s k d a bi lim = Ok (s', r) ->
  exists r', simulate_invariant_swap m (pk_fee_tier k) p ticks d a bi lim = Ok r' /\
    (reports r' r \/
     sim_max_swap_steps_reached r' = true /\ sim_global_insufficient_liquidity r' = false /\ sim_state_outdated r' = false).
Proof.
  intros H Ha V Hs. apply room_Inv' in H as I. apply swap_inv in Hs as (B & Hs & _).
  pose proof (simulate_cases s k p m ticks d bi lim (e_timestamp e) a V I Ha) as C. rewrite Hs in C. exact C.
Qed.

(** It gives up exactly on the swaps that need more than 142 steps, where a step
    ends at a tick, at the end of the search range or with the amount used up. *)
Theorem C42_step_limit evs s e k (d : bool) a bi lim s' r p m ticks tl n l : history room evs s -> u256 a ->
  sdk_view d s k p m ticks -> swap e s k d a bi lim = Ok (s', r) ->
  (if d then get_min_tick (pk_spacing k) else get_max_tick (pk_spacing k)) = Ok tl ->
  takes (fun l => l_remaining l =? 0) (swap_iteration s k d bi lim tl (e_timestamp e)) n (mkLoop p a 0 0 0 []) (Ok l) ->
  exists r', simulate_invariant_swap m (pk_fee_tier k) p ticks d a bi lim = Ok r' /\
    (Z.of_nat n <= 142 -> reports r' r) /\
    (142 < Z.of_nat n -> sim_max_swap_steps_reached r' = true).
Proof.
  intros H Ha V Hs Htl T. apply room_Inv' in H as I. apply swap_inv in Hs as (B & Hs & _).
  apply calculate_swap_inv in Hs as (p' & tl' & l' & Hz & Hp & HL & Htl' & W & Ho & ->).
  pose proof (view_pool s k p m ticks d V) as Hp2. rewrite Hp in Hp2. injection Hp2 as ->.
  rewrite Htl in Htl'. injection Htl' as <-.
  assert (HD : if d then lim < p_sqrt_price p else p_sqrt_price p < lim) by (destruct d; apply HL).
  destruct (swap_takes s k d bi lim tl (e_timestamp e) a p I Hp Ha Htl) as (j & x & T2 & Hj & _); [destruct d; exact HD|].
  assert (Hj2 : Z.of_nat j < 2 ^ 100)
    by (assert (iteration_bound d bi < 2 ^ 100) by (unfold iteration_bound; destruct (d || bi); lia); lia).
  destruct (takes_det _ _ _ _ _ T _ _ T2) as [-> <-].
  pose proof (while_takes _ _ _ _ _ T Hj2) as W2. rewrite W in W2. injection W2 as ->.
  destruct (simulate_ok s k p m ticks d bi lim (e_timestamp e) a V I Ha tl j l Hz HL Htl T Hj2) as (r' & E & A & B').
  exists r'. split; [exact E|]. split; [exact A|]. intros Hn. apply B'. exact Hn.
Qed.

(** The same for the contract's own quotes, on the fetched snapshot. *)
Theorem C42_simulation_matches_quote evs s e k d a bi lim q filtered : history room evs s -> u256 a ->
  quote e s k d a bi lim = Ok q ->
  exists r', sdk_simulate s k d a bi lim filtered = Ok r' /\
    (sim_max_swap_steps_reached r' = false ->
     sim_amount_in r' = q_amount_in q /\ sim_amount_out r' = q_amount_out q /\
     sim_target_sqrt_price r' = q_target_sqrt_price q /\
     sim_crossed_ticks r' = map liquidity_tick_of (q_ticks q) /\
     sim_global_insufficient_liquidity r' = false /\ sim_state_outdated r' = false).
Proof.
  intros H Ha Hq. unfold quote in Hq. apply bind_Ok in Hq as (r & Hc & Hq). injection Hq as <-.
  pose proof Hc as Hc2. apply calculate_swap_inv in Hc2 as (p & tl & l & _ & Hp & _ & _ & _ & _ & Er).
  destruct (C42_snapshot_is_true evs s k p d filtered H) as (m & ticks & Es & V); [apply pools_get_Ok; exact Hp|].
  unfold sdk_simulate. rewrite Es. cbn [bind]. apply room_Inv' in H as I.
  pose proof (simulate_cases s k p m ticks d bi lim (e_timestamp e) a V I Ha) as C. rewrite Hc in C.
  destruct C as (r' & -> & [R|R]); exists r'; (split; [reflexivity|]); intros HM.
  - cbn. rewrite (rp_in _ _ R), (rp_out _ _ R), (rp_target _ _ R), (rp_crossed _ _ R), (rp_sufficient _ _ R), (rp_current _ _ R), Er.
    cbn. auto 6.
  - destruct R. congruence.
Qed.

(** ** Refusals *)

(** When the contract refuses a swap, the simulation refuses it too, raises a flag
    or reports that nothing comes out. *)
Theorem C42_simulation_warns evs s e k d a bi lim err p m ticks : history room evs s -> u256 a ->
  sdk_view d s k p m ticks -> quote e s k d a bi lim = Err err ->
  let sim := simulate_invariant_swap m (pk_fee_tier k) p ticks d a bi lim in
  (err = AmountIsZero \/ err = WrongLimit) /\ (exists e', sim = Err e') \/
  (err = PriceLimitReached \/ err = TickLimitReached) /\
    (exists r', sim = Ok r' /\ (sim_global_insufficient_liquidity r' = true \/ sim_max_swap_steps_reached r' = true)) \/
  err = NoGainSwap /\
    (exists r', sim = Ok r' /\ (sim_amount_out r' = 0 \/ sim_max_swap_steps_reached r' = true)).
Proof.
  intros H Ha V Hq. apply room_Inv' in H as I.
  pose proof (simulate_cases s k p m ticks d bi lim (e_timestamp e) a V I Ha) as C. unfold quote in Hq.
  destruct (calculate_swap s (e_timestamp e) k d a bi lim) as [r|e'| |]; cbn [bind] in Hq; try discriminate.
  injection Hq as ->. exact C.
Qed.

(** A simulation without flags and with a positive output is what the contract
    quotes, unless the contract panics. *)
Theorem C42_clean_simulation evs s e k d a bi lim p m ticks r' : history room evs s -> u256 a ->
  sdk_view d s k p m ticks -> simulate_invariant_swap m (pk_fee_tier k) p ticks d a bi lim = Ok r' ->
  sim_global_insufficient_liquidity r' = false -> sim_max_swap_steps_reached r' = false -> sim_amount_out r' <> 0 ->
  quote e s k d a bi lim = Panic \/
  exists q, quote e s k d a bi lim = Ok q /\ q_amount_in q = sim_amount_in r' /\ q_amount_out q = sim_amount_out r' /\
    q_target_sqrt_price q = sim_target_sqrt_price r' /\ map liquidity_tick_of (q_ticks q) = sim_crossed_ticks r'.
Proof.
  intros H Ha V Hsim F1 F2 F3. apply room_Inv' in H as I.
  pose proof (simulate_cases s k p m ticks d bi lim (e_timestamp e) a V I Ha) as C. unfold quote.
  pose proof (calculate_swap_noloop s (e_timestamp e) k d a bi lim I Ha) as NL.
  rewrite Hsim in C.
  destruct (calculate_swap s (e_timestamp e) k d a bi lim) as [r|e'| |] eqn:Hc; cbn [bind]; [right|right|left; reflexivity|congruence].
  - destruct C as (r2 & [= <-] & [R|R]); [|destruct R; congruence].
    eexists. split; [reflexivity|]. cbn. apply calculate_swap_inv in Hc as (p' & tl & l & _ & _ & _ & _ & _ & _ & Er).
    rewrite (rp_in _ _ R), (rp_out _ _ R), (rp_target _ _ R), (rp_crossed _ _ R), Er. auto.
  - exfalso. destruct C as [(_ & e2 & C)|[(_ & r2 & C & C2)|(_ & r2 & C & C2)]]; [discriminate| |];
      injection C as <-; destruct C2; congruence.
Qed.

(** The exception is real: the SDK clamps prices where the contract gives up, and
    so promises an exact output that the contract cannot deliver (C40). *)
Definition sim_facts (r : res simulate_swap_result) : option (Z * Z * bool * bool * bool) :=
  match r with
  | Ok r' => Some (sim_amount_in r', sim_amount_out r', sim_global_insufficient_liquidity r',
                   sim_max_swap_steps_reached r', sim_state_outdated r')
  | _ => None
  end.
Lemma sim_facts_inv r i o x y z : sim_facts r = Some (i, o, x, y, z) ->
  exists r', r = Ok r' /\ sim_amount_in r' = i /\ sim_amount_out r' = o /\ sim_global_insufficient_liquidity r' = x /\
    sim_max_swap_steps_reached r' = y /\ sim_state_outdated r' = z.
Proof. destruct r as [r'| | |]; cbn; intros [=]. exists r'. auto 6. Qed.

Lemma sim_of_state evs s k d a bi lim fl i o x y z : history room evs s ->
  sim_facts (sdk_simulate s k d a bi lim fl) = Some (i, o, x, y, z) ->
  exists p m ticks r', sdk_view d s k p m ticks /\
    simulate_invariant_swap m (pk_fee_tier k) p ticks d a bi lim = Ok r' /\
    sim_amount_in r' = i /\ sim_amount_out r' = o /\ sim_global_insufficient_liquidity r' = x /\
    sim_max_swap_steps_reached r' = y /\ sim_state_outdated r' = z.
Proof.
  intros H E. apply sim_facts_inv in E as (r' & E & F).
  unfold sdk_simulate in E. destruct (pools_get s k) as [p| | |] eqn:Ep.
  2-4: unfold sdk_snapshot in E; rewrite Ep in E; discriminate.
  destruct (C42_snapshot_is_true _ _ k p d fl H Ep) as (m & ticks & Es & V). rewrite Es in E. cbn [bind] in E.
  exists p, m, ticks, r'. auto.
Qed.

Lemma thin_regular : history regular thin_events s_thin.
Proof. apply run_regular; [unfold u128; lia| |reflexivity|vm_compute; reflexivity]. unfold thin_events, setup. wf_events. Qed.
Lemma thin_room : history room thin_events s_thin.
Proof. eapply history_weaken; [|exact thin_regular]. intros ? ? [? _]; auto. Qed.

Theorem C42_clean_simulation_refuted : exists evs s e k p m ticks r',
  history regular evs s /\ sdk_view true s k p m ticks /\
  simulate_invariant_swap m (pk_fee_tier k) p ticks true 100000000 false MIN_SQRT_PRICE = Ok r' /\
  sim_global_insufficient_liquidity r' = false /\ sim_max_swap_steps_reached r' = false /\ sim_state_outdated r' = false /\
  sim_amount_out r' = 100000000 /\
  quote e s k true 100000000 false MIN_SQRT_PRICE = Panic.
Proof.
  assert (E : sim_facts (sdk_simulate s_thin pool1 true 100000000 false MIN_SQRT_PRICE true) = Some (101111162, 100000000, false, false, false))
    by (vm_compute; reflexivity).
  assert (Q : quote (by_ carol) s_thin pool1 true 100000000 false MIN_SQRT_PRICE = Panic) by (vm_compute; reflexivity).
  destruct (sim_of_state _ _ _ _ _ _ _ _ _ _ _ _ _ thin_room E) as (p & m & ticks & r' & V & E2 & _ & Eo & Ei & Em & Eu).
  exists thin_events, s_thin, (by_ carol), pool1, p, m, ticks, r'. split; [exact thin_regular|]. auto 10.
Qed.

(** ** Termination *)

(** Whatever snapshot it is given, the simulation ends after at most 143 steps. *)
Theorem C42_simulation_terminates m ft p ticks d a bi lim tl :
  simulate_invariant_swap m ft p ticks d a bi lim <> Loop /\
  exists n r, takes (fun q => (m_remaining q =? 0) || sim_stopped q) (sim_iteration m ft ticks d bi lim tl) n
                (mkSim p a 0 0 0 [] 0 false false false) r /\ Z.of_nat n <= 143.
Proof.
  split; [apply simulate_noloop|]. destruct (sim_takes m ft ticks d bi lim tl p a) as (j & r & T & Hj & _).
  exists j, r. split; [exact T|exact Hj].
Qed.

(** ** The filter of the ticks *)

(** It keeps every tick that the swap can reach, adds none, and looks at no more than
    the first 284 ticks: those behind are all kept. *)
Theorem C42_filter ticks i (d : bool) :
  (forall lt, In lt ticks -> (if d then lt_index lt <= i else i <= lt_index lt) -> In lt (sdk_filter_ticks ticks i d)) /\
  (forall lt, In lt (sdk_filter_ticks ticks i d) -> In lt ticks) /\
  exists front, sdk_filter_ticks ticks i d = front ++ drop 284 ticks.
Proof.
  split; [intros; now apply filter_ticks_keep|]. split; [intros lt; apply filter_ticks_In|].
  unfold sdk_filter_ticks. change 284%nat with (2 * Z.to_nat MAX_SWAP_STEPS)%nat.
  generalize (Z.to_nat MAX_SWAP_STEPS). intros n. revert ticks. induction n as [|n IH]; intros ticks.
  - exists []. reflexivity.
  - replace (2 * S n)%nat with (S (S (2 * n))) by lia. destruct ticks as [|t ticks]; cbn [sdk_filter_ticks_from]; [now exists []|].
    destruct (if d then _ else _).
    + destruct ticks as [|t' ticks]; [now exists []|]. destruct (IH ticks) as [front ->]. now exists (t' :: front).
    + destruct (IH ticks) as [front ->]. cbn [drop].
      destruct (drop (2 * n) ticks) as [|u rest] eqn:E.
      * exists (t :: front ++ []). replace (drop (S (2 * n)) ticks) with (@nil liquidity_tick); [now rewrite !app_nil_r|].
        symmetry. apply drop_ge. apply (f_equal length) in E. rewrite drop_length in E. cbn in E. lia.
      * exists (t :: front ++ [u]). replace (drop (S (2 * n)) ticks) with rest; [now rewrite <- app_comm_cons, <- app_assoc|].
        replace (S (2 * n)) with (2 * n + 1)%nat by lia. rewrite <- drop_drop, E. reflexivity.
Qed.

(** It does not remove every tick that the swap cannot reach: of two neighbours the
    second is overlooked. *)
Theorem C42_filter_complete_refuted : exists ticks i lt,
  length ticks = 2%nat /\ In lt (sdk_filter_ticks ticks i true) /\ i < lt_index lt.
Proof.
  exists [mkLiquidityTick 10 1 true; mkLiquidityTick 20 1 true], 0, (mkLiquidityTick 20 1 true).
  split; [reflexivity|]. split; [left; reflexivity|reflexivity].
Qed.

(** ** Cases *)

(** A swap through a tick, simulated on the filtered and on the whole snapshot; the
    same towards higher prices; a swap that exceeds the liquidity. *)
Example C42_case : history room evs_open s_open /\
  sim_facts (sdk_simulate s_open pool1 true 3000 true MIN_SQRT_PRICE true) = Some (3000, 2965, false, false, false) /\
  sim_facts (sdk_simulate s_open pool1 true 3000 true MIN_SQRT_PRICE false) = Some (3000, 2965, false, false, false) /\
  match quote (by_ carol) s_open pool1 true 3000 true MIN_SQRT_PRICE with
  | Ok q => Some (q_amount_in q, q_amount_out q, length (q_ticks q)) | _ => None end = Some (3000, 2965, 1%nat) /\
  match sdk_simulate s_open pool1 false 1000 false MAX_SQRT_PRICE true, quote (by_ carol) s_open pool1 false 1000 false MAX_SQRT_PRICE with
  | Ok r, Ok q => (sim_amount_in r =? q_amount_in q) && (sim_amount_out r =? 1000) && (sim_target_sqrt_price r =? q_target_sqrt_price q)
  | _, _ => false end = true /\
  sim_facts (sdk_simulate s_open pool1 true 300000 true MIN_SQRT_PRICE true) = Some (4553, 4495, true, false, false).
Proof. split; [apply s_open_room|]. repeat match goal with |- _ /\ _ => split end; vm_compute; reflexivity. Qed.

(** A swap that needs more than 142 steps. *)
Definition pool_wide : pool_key := mkPoolKey tokA tokB tier2.
Definition evs_wide : list event := setup ++ [
  Call (by_ bob) (OpCreatePool tokB tokA tier2 1000000000000000000000000 0);
  Credit alice tokA 100000000; Credit alice tokB 100000000; Credit carol tokA 100000000;
  Call (by_ alice) (OpCreatePosition pool_wide (-221818) 221818 100000000000 0 any_price) ].
Definition s_wide : state := run_events admin 10000000000 evs_wide.
Lemma s_wide_room : history room evs_wide s_wide.
Proof.
  apply history_room; [|reflexivity]. apply run_events_history; [unfold u128; lia|]. unfold evs_wide, setup. wf_events.
Qed.
Example C42_step_limit_case : history room evs_wide s_wide /\
  match quote (by_ carol) s_wide pool_wide true 10000000 true MIN_SQRT_PRICE with
  | Ok q => Some (q_amount_in q, q_amount_out q) | _ => None end = Some (10000000, 908745) /\
  sim_facts (sdk_simulate s_wide pool_wide true 10000000 true MIN_SQRT_PRICE true) = Some (5296220, 840695, false, true, false).
Proof. split; [exact s_wide_room|]. repeat match goal with |- _ /\ _ => split end; vm_compute; reflexivity. Qed.

(** The chunk and the bit at which the SDK looks for a tick: the multiples of the
    spacing within the price range are numbered through, from the lowest one; every
    other tick is refused.  The way back leads to the tick again. *)
Theorem C42_position_of_tick sp t : 1 <= sp <= 100 -> i32 t ->
  let lowest := - (221818 - 221818 mod sp) in
  (forall c b, sdk_tick_index_to_position t sp = Ok (c, b) <->
     (-221818 <= t <= 221818 /\ (sp | t) /\ 0 <= c /\ 0 <= b < 64 /\ t = lowest + (64 * c + b) * sp)) /\
  (forall c b, sdk_tick_index_to_position t sp = Ok (c, b) -> sdk_position_to_tick c b sp = Ok t) /\
  (sdk_tick_index_to_position t sp = Err ETrack \/ exists c b, sdk_tick_index_to_position t sp = Ok (c, b)).
Proof.
  intros Hs Ht lowest.
  pose proof (Z.div_mod 221818 sp ltac:(lia)) as DM. pose proof (Z.mod_pos_bound 221818 sp ltac:(lia)) as MB.
  assert (KEY : forall c b, sdk_tick_index_to_position t sp = Ok (c, b) <->
     (-221818 <= t <= 221818 /\ (sp | t) /\ 0 <= c /\ 0 <= b < 64 /\ t = lowest + (64 * c + b) * sp)).
  { intros c b. unfold sdk_tick_index_to_position. change MAX_TICK with 221818. change CHUNK_SIZE with 64.
    destruct ((- (221818) <=? t) && (t <=? 221818)) eqn:ER; cbn [negb fail_if bind].
    2: { split; [intros E; discriminate E|]. intros (R & _). apply andb_false_iff in ER. lia. }
    apply andb_true_iff in ER as [R1 R2]. apply Z.leb_le in R1, R2.
    destruct (Z.eqb_spec sp 0) as [|_]; [lia|]. cbn [fail_if bind].
    destruct (Z.eqb_spec (Z.rem t sp) 0) as [ED|ED]; cbn [negb fail_if bind].
    2: { split; [intros E; discriminate E|]. intros (_ & D & _). apply Z.rem_divide in D; [contradiction|lia]. }
    apply Z.rem_divide in ED; [|lia]. destruct ED as [n ->].
    rewrite (Z.quot_div_nonneg (n * sp + 221818)) by lia.
    assert (EN : (n * sp + 221818) / sp = n + 221818 / sp) by (rewrite Z.add_comm, Z.div_add by lia; lia).
    assert (HN : 0 <= n + 221818 / sp) by (rewrite <- EN; apply Z.div_pos; lia).
    rewrite EN, Z.quot_div_nonneg, Z.rem_mod_nonneg by lia. set (N := n + 221818 / sp) in *.
    pose proof (Z.div_mod N 64 ltac:(lia)) as DN. pose proof (Z.mod_pos_bound N 64 ltac:(lia)) as BN.
    pose proof (Z.div_pos N 64 HN ltac:(lia)) as PN.
    assert (EL : n * sp = lowest + N * sp) by (unfold lowest, N; nia).
    split.
    - intros [= <- <-]. split; [lia|]. split; [exists n; reflexivity|]. split; [exact PN|]. split; [exact BN|]. rewrite EL. nia.
    - intros (_ & _ & Hc & Hb & E). assert (EE : N = 64 * c + b) by nia.
      assert (N / 64 = c /\ N mod 64 = b) as [-> ->]; [|reflexivity].
      split; [symmetry; apply (Z.div_unique_pos N 64 c b); lia|symmetry; apply (Z.mod_unique_pos N 64 c b); lia]. }
  split; [exact KEY|]. split.
  - intros c b E. apply KEY in E as (R & D & Hc & Hb & E).
    rewrite P_SdkView.position_to_tick_ok; auto.
    + f_equal. unfold P_Tickmap.ticki. change P_Tickmap.MX with 221818. unfold lowest in E. nia.
    + change P_Tickmap.MX with 221818. split; [exact Hc|]. apply Z.div_le_lower_bound; [lia|].
      destruct D as [n ->]. assert (n <= 221818 / sp) by (apply Z.div_le_lower_bound; lia). unfold lowest in E. nia.
  - unfold sdk_tick_index_to_position. destruct (negb _); cbn [fail_if bind]; auto. destruct (sp =? 0); cbn [fail_if bind]; auto.
    destruct (negb _); cbn [fail_if bind]; eauto.
Qed.
Example C42_position_of_tick_case : sdk_tick_index_to_position (-20) 10 = Ok (346, 35) /\ sdk_tick_index_to_position 25 10 = Err ETrack.
Proof. split; vm_compute; reflexivity. Qed.

(** ** Assumptions *)
Print Assumptions C42_snapshot_is_true.
Print Assumptions C42_simulation_matches_swap.
Print Assumptions C42_step_limit.
Print Assumptions C42_simulation_matches_quote.
Print Assumptions C42_simulation_warns.
Print Assumptions C42_clean_simulation.
Print Assumptions C42_clean_simulation_refuted.
Print Assumptions C42_simulation_terminates.
Print Assumptions C42_filter.
Print Assumptions C42_filter_complete_refuted.
Print Assumptions C42_position_of_tick.
