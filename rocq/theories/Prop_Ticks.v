(** Properties C22, C23, C24, C38, C41: ticks, active liquidity and the price of a pool.

    [gross_at], [net_at], [active_at], [pool_total] (SpecState.v) are sums over
    all the open positions.  [history room evs s]: [s] is reached by [evs] and no
    owner ever held 2^32-1 positions.  [regular] (SpecClean.v) adds that every
    swap crossed exactly the initialized ticks its current tick passed. *)
From Verif Require Import Base Decimal SqrtPriceM LogM ClammM FeeGrowthM Types TickmapM StorageM
  CollectionsM StateM ServiceM Arith SpecMath SpecFees SpecSum SpecState SpecHistory SpecClean P_Clamm P_TickPrice P_Tickmap
  P_Fees P_Balance P_Effects P_Positions P_History P_Loop P_Check P_State P_Iter P_Inv P_InvPos P_PosOps P_InvSwap P_Swap
  P_SwapLoop P_InvHist P_Tight P_Active Cases CasesClean.
From stdpp Require Import gmap list.
From Coq Require Import ZArith Lia Bool.
Open Scope Z_scope.

Lemma room_Inv evs s : history room evs s -> Inv s.
Proof. intros H. eapply Inv_history; [|exact H]. auto. Qed.

(** ** C22 *)

Theorem C22_tick_stored_iff_boundary evs s k i : history room evs s ->
  ((exists t, get_tick s k i = Ok t) <->
   exists owner n pos, get_position s owner n = Ok pos /\ pos_pool_key pos = k /\
     (pos_lower pos = i \/ pos_upper pos = i)).
Proof.
  intros H. apply room_Inv in H as I. split.
  - intros [t Ht]. apply ticks_get_Ok in Ht.
    assert (G : 0 < gross_at s k i) by (apply (I_exists _ I); eauto).
    destruct (msum_pos_ex (gross_of k i) (s_positions s)) as ([a n] & pos & Hpos & Hg); [exact G|].
    exists a, n, pos. split; [apply positions_get_Ok; auto|]. unfold gross_of in Hg.
    destruct (bool_decide_reflect (pos_pool_key pos = k)) as [Ek|]; [|cbn in Hg; lia]. split; [auto|].
    destruct (Z.eqb_spec (pos_lower pos) i), (Z.eqb_spec (pos_upper pos) i); cbn in Hg; auto; lia.
  - intros (a & n & pos & Hpos & Ek & Hi). apply positions_get_Ok in Hpos.
    pose proof (gross_at_ge s k i a n pos I Hpos Ek Hi). pose proof (pos_nonneg _ _ _ _ I Hpos).
    destruct (proj2 (I_exists _ I k i)) as [t Ht]; [lia|]. exists t. apply ticks_get_Ok. exact Ht.
Qed.

Theorem C22_bitmap_iff_stored evs s k p i : history room evs s -> pools_get s k = Ok p ->
  (exists b, is_tick_initialized s k i = Ok b) ->
  (is_tick_initialized s k i = Ok true <-> exists t, get_tick s k i = Ok t).
Proof.
  intros H Hp Hb. apply room_Inv in H as I. apply pools_get_Ok in Hp.
  pose proof (pool_spacing _ _ (I_pool _ I _ _ Hp)) as Hs.
  destruct Hb as [b Hb]. unfold is_tick_initialized in *.
  assert (Ho : okt (pk_spacing k) i).
  { unfold tickmap_get in Hb. apply bind_Ok in Hb as (c & E & _). apply tick_to_position_inv in E; auto. lia. }
  rewrite tickmap_get_ok by (auto; lia). split.
  - intros [= Hm]. destruct (proj1 (Inv_init s k p i I Hp)) as [t Ht]; [split; auto|].
    exists t. apply ticks_get_Ok. exact Ht.
  - intros [t Ht]. apply ticks_get_Ok in Ht. f_equal. apply (I_bit2 _ I). eauto.
Qed.

(** Every tick of the grid can be asked for. *)
Theorem C22_bitmap_total evs s k p i : history room evs s -> pools_get s k = Ok p ->
  -221818 <= i <= 221818 -> (pk_spacing k | i) -> exists b, is_tick_initialized s k i = Ok b.
Proof.
  intros H Hp Hi Hd. apply room_Inv in H as I. apply pools_get_Ok in Hp.
  pose proof (pool_spacing _ _ (I_pool _ I _ _ Hp)) as Hs. unfold is_tick_initialized.
  rewrite tickmap_get_ok; [eauto|lia|split; auto].
Qed.

Theorem C22_tick_liquidity evs s k i t : history room evs s -> get_tick s k i = Ok t ->
  t_index t = i /\ t_liquidity_gross t = gross_at s k i /\
  (if t_sign t then t_liquidity_change t else - t_liquidity_change t) = net_at s k i.
Proof.
  intros H Ht. apply room_Inv in H as I. apply ticks_get_Ok in Ht.
  destruct (I_tick _ I _ _ _ Ht) as [_ TO]. split; [apply TO|]. split; [apply TO|]. exact (to_net _ _ _ _ TO).
Qed.

Theorem C22_tick_price_and_range evs s k i t : history room evs s -> get_tick s k i = Ok t ->
  -221818 <= i <= 221818 /\ (pk_spacing k | i) /\ calculate_sqrt_price i = Ok (t_sqrt_price t) /\
  exists p, pools_get s k = Ok p.
Proof.
  intros H Ht. apply room_Inv in H as I. apply ticks_get_Ok in Ht.
  destruct (I_tick _ I _ _ _ Ht) as [[p Hp] TO]. destruct (to_okt _ _ _ _ TO) as [H1 H2].
  split; [auto|]. split; [auto|]. split; [|exists p; apply pools_get_Ok; auto].
  rewrite (to_price _ _ _ _ TO). apply calculate_sqrt_price_valid. unfold valid_tick. lia.
Qed.

(** After the trades of [Cases], tick -10 bounds two positions, the other ticks one;
    the bits agree. *)
Example C22_case :
  history room evs_traded s_traded /\
  map (fun i => match get_tick s_traded pool1 i with
                | Ok t => Some (t_liquidity_gross t, t_sign t, t_liquidity_change t) | _ => None end) [-30; -20; -10; 0; 10; 30]
  = [Some (200000000000, true, 200000000000); Some (100000000000, true, 100000000000);
     Some (500000000000, true, 100000000000); None;
     Some (300000000000, false, 300000000000); Some (100000000000, false, 100000000000)] /\
  map (is_tick_initialized s_traded pool1) [-30; -20; -10; 0; 10; 30]
  = [Ok true; Ok true; Ok true; Ok false; Ok true; Ok true] /\
  gross_at s_traded pool1 (-10) = 500000000000 /\ net_at s_traded pool1 (-10) = 100000000000 /\
  is_Ok (pools_get s_traded pool1) = true.
Proof. split; [apply s_traded_room|]. crunch. Qed.

(** ** C23 *)

Theorem C23_active_liquidity_guarded evs s k p : history regular evs s -> pools_get s k = Ok p ->
  p_liquidity p = active_at s k (p_current_tick_index p).
Proof.
  intros H Hp. apply pools_get_Ok in Hp. destruct (active_history evs s H) as (_ & _ & A). symmetry. apply A. auto.
Qed.

(** When a swap is clean. *)
Theorem C23_careful_swaps_are_clean evs s e k d a bi lim s' r :
  history room evs s -> u256 a -> swap e s k d a bi lim = Ok (s', r) ->
  careful s k d bi lim (p_sqrt_price (cs_pool r)) -> clean_result s k r.
Proof.
  intros H Ha Hs HC. apply room_Inv in H as I. apply swap_inv in Hs as (B & Hs & _).
  destruct (clean_or_miss s _ k d a bi lim r I Ha Hs) as [|(v & [t Hv] & NM)]; [auto|exfalso].
  specialize (HC v t Hv). destruct (I_tick _ I _ _ _ Hv) as [_ TO]. rewrite (to_price _ _ _ _ TO) in HC.
  unfold near_miss in NM. destruct d; cbn [dirP] in NM.
  - destruct NM as (Hb & H1 & H2). specialize (HC Hb H1). lia.
  - destruct NM as [_ ?]. contradiction.
Qed.

Theorem C23_exact_out_x_to_y_is_clean evs s e k a lim s' r :
  history room evs s -> u256 a -> swap e s k true a false lim = Ok (s', r) -> clean_result s k r.
Proof. intros H Ha Hs. eapply C23_careful_swaps_are_clean; eauto. intros i t _ [=]. Qed.

(** One clean swap, whatever happened before, keeps an exact pool exact. *)
Theorem C23_clean_swap_preserves evs s e k d a bi lim s' r p p' :
  history room evs s -> u256 a -> swap e s k d a bi lim = Ok (s', r) -> clean_result s k r ->
  pools_get s k = Ok p -> pools_get s' k = Ok p' ->
  p_liquidity p = active_at s k (p_current_tick_index p) ->
  p_liquidity p' = active_at s' k (p_current_tick_index p').
Proof.
  intros H Ha Hs HC Hp Hp' HA. apply room_Inv in H as I. apply swap_inv in Hs as (B & Hs & -> & _).
  apply pools_get_Ok in Hp, Hp'.
  destruct (swap_induction s k d bi lim (e_timestamp e) a p I Hp Ha (fun _ => True) r) as (l & V & _ & _ & _ & _ & ->); auto.
  cbn [set_balances set_pools set_ticks s_pools cs_pool] in Hp'. rewrite lookup_insert in Hp'. injection Hp' as <-.
  symmetry. apply (v_liq _ _ _ _ _ _ _ V); [|symmetry; exact HA]. intros v Hv. apply (HC p v Hp Hv).
Qed.

(** The history of [Cases] (a swap that crosses a tick downwards, then one upwards)
    is regular; the hypotheses of the other theorems hold for its first swap. *)
Example C23_case :
  history regular evs_traded s_traded /\
  active_at s_traded pool1 (-20) = 300000000000 /\
  match get_pool s_traded tokA tokB tier1 with
  | Ok p => Some (p_liquidity p, p_current_tick_index p) | _ => None end = Some (300000000000, -20) /\
  match swap (by_ carol) s_open pool1 true 3000 true 15258932000000000000 with
  | Ok (_, r) => Some (map t_index (cs_ticks r), p_current_tick_index (cs_pool r)) | _ => None end
  = Some ([-10], -20) /\
  is_Ok (swap (by_ carol) s_open pool1 true 100 false 15258932000000000000) = true.
Proof. split; [apply s_traded_regular|]. crunch. Qed.

(** *** Three ways in which the code breaks it *)

(** (1) A swap towards higher prices that stops on a limit equal to the price of
    an initialized tick: the current tick becomes that tick, its liquidity is not added. *)
Definition limit_events : list event := setup ++ [
  Call (by_ alice) (OpCreatePosition pool1 (-10) 10 300000000000 0 any_price);
  Call (by_ bob) (OpCreatePosition pool1 10 30 100000000000 0 any_price);
  Call (by_ carol) (OpSwap pool1 false 1517 true 1000500100010000000000000) ].
Definition s_limit : state := run_events admin 10000000000 limit_events.

Definition active_view (s : state) : option (Z * Z * Z) :=
  match get_pool s tokA tokB tier1 with
  | Ok p => Some (p_current_tick_index p, p_liquidity p, active_at s pool1 (p_current_tick_index p))
  | _ => None
  end.

Lemma view_pool s c L A : active_view s = Some (c, L, A) ->
  exists p, pools_get s pool1 = Ok p /\ p_current_tick_index p = c /\ p_liquidity p = L /\ active_at s pool1 c = A.
Proof.
  unfold active_view, get_pool. intros H.
  assert (E : pool_key_new tokA tokB tier1 = Ok pool1) by reflexivity. rewrite E in H. cbn [bind] in H.
  destruct (pools_get s pool1) as [p| | |]; try discriminate. injection H as <- <- <-. exists p. auto.
Qed.

Theorem C23_active_liquidity_refuted :
  exists evs s k p, history room evs s /\ pools_get s k = Ok p /\
    p_liquidity p <> active_at s k (p_current_tick_index p).
Proof.
  exists limit_events, s_limit, pool1.
  destruct (view_pool s_limit 10 300000000000 100000000000) as (p & H1 & H2 & H3 & H4); [vm_compute; reflexivity|].
  exists p. split; [|split; [exact H1|rewrite H2, H3, H4; discriminate]].
  apply history_room; [|reflexivity]. apply run_events_history; [unfold u128; lia|].
  unfold limit_events, setup. wf_events.
Qed.

Definition rich (n : Z) : list event :=
  [Credit alice tokA n; Credit alice tokB n; Credit bob tokA n; Credit bob tokB n; Credit carol tokA n; Credit carol tokB n].

(** (2) An exact-in swap towards lower prices at a low price: the price overshoots
    the tick (C06) and the tick is not crossed. *)
Definition overshoot_events : list event := [
  Call (by_ admin) (OpAddFeeTier tier1);
  Call (by_ bob) (OpCreatePool tokB tokA tier1 16569455000000000000 (-220170))] ++ rich 100000000000000000000 ++ [
  Call (by_ alice) (OpCreatePosition pool1 (-220220) (-220160) 10000000000000000000 0 any_price);
  Call (by_ bob) (OpCreatePosition pool1 (-220300) (-220220) 3000000000000000000 0 any_price);
  Call (by_ carol) (OpSwap pool1 true 12335938239524096 true 15258932000000000000);
  Call (by_ carol) (OpSwap pool1 true 2922833092679144 true 15258932000000000000) ].
Definition s_overshoot : state := run_events admin 10000000000 overshoot_events.

Theorem C23_overshoot_refuted :
  exists evs s k p, history room evs s /\ pools_get s k = Ok p /\
    p_liquidity p = 10000000000000000000 /\ active_at s k (p_current_tick_index p) = 3000000000000000000.
Proof.
  exists overshoot_events, s_overshoot, pool1.
  destruct (view_pool s_overshoot (-220230) 10000000000000000000 3000000000000000000) as (p & H1 & H2 & H3 & H4); [vm_compute; reflexivity|].
  exists p. split; [|split; [exact H1|rewrite H2, H3, H4; auto]].
  apply history_room; [|reflexivity]. apply run_events_history; [unfold u128; lia|].
  unfold overshoot_events, rich. wf_events.
Qed.

(** (3) An exact-in swap towards lower prices crosses a tick into a range with much
    more liquidity, where the rest of the input no longer moves the price: the
    current tick is put back on the tick that has been crossed. *)
Definition put_back_events : list event := [
  Call (by_ admin) (OpAddFeeTier tier1);
  Call (by_ bob) (OpCreatePool tokB tokA tier1 1000000000000000000000000 0)] ++ rich 1000000000000000000000000000000 ++ [
  Call (by_ alice) (OpCreatePosition pool1 0 10 100000000000000 0 any_price);
  Call (by_ bob) (OpCreatePosition pool1 (-10) 0 10000000000000000000000000000000 0 any_price);
  Call (by_ carol) (OpSwap pool1 false 1000 true any_price);
  Call (by_ carol) (OpSwap pool1 true 1002 true 15258932000000000000) ].
Definition s_put_back : state := run_events admin 10000000000 put_back_events.

Theorem C23_put_back_refuted :
  exists evs s k p, history room evs s /\ pools_get s k = Ok p /\
    p_liquidity p = 10000000000000000000000000000000 /\ active_at s k (p_current_tick_index p) = 100000000000000.
Proof.
  exists put_back_events, s_put_back, pool1.
  destruct (view_pool s_put_back 0 10000000000000000000000000000000 100000000000000) as (p & H1 & H2 & H3 & H4); [vm_compute; reflexivity|].
  exists p. split; [|split; [exact H1|rewrite H2, H3, H4; auto]].
  apply history_room; [|reflexivity]. apply run_events_history; [unfold u128; lia|].
  unfold put_back_events, rich. wf_events.
Qed.

(** ** C24 *)

Theorem C24_price_and_tick_agree evs s k p : history room evs s -> pools_get s k = Ok p ->
  let c := p_current_tick_index p in let sp := pk_spacing k in
  -221818 <= c <= 221818 /\ (sp | c) /\ price_in_range (p_sqrt_price p) /\
  exists pc, calculate_sqrt_price c = Ok pc /\ pc <= p_sqrt_price p /\
    (c + sp <= 221818 -> exists pn, calculate_sqrt_price (c + sp) = Ok pn /\ p_sqrt_price p < pn) /\
    (221818 < c + sp -> p_sqrt_price p = pc).
Proof.
  intros H Hp. destruct (tight_history room evs s ltac:(auto) H) as [I T]. apply pools_get_Ok in Hp.
  pose proof (I_pool _ I _ _ Hp) as PO. specialize (T _ _ Hp).
  pose proof (pool_spacing _ _ PO) as Hs. cbv zeta. destruct (po_tick _ _ PO) as [H1 H2].
  split; [auto|]. split; [auto|]. split; [apply PO|]. exists (price (p_current_tick_index p)).
  assert (V1 : valid_tick (p_current_tick_index p)) by (unfold valid_tick; lia).
  split; [apply calculate_sqrt_price_valid; auto|]. split; [apply PO|]. split.
  - intros H3. assert (V2 : valid_tick (p_current_tick_index p + pk_spacing k)) by (unfold valid_tick; lia).
    exists (price (p_current_tick_index p + pk_spacing k)). split; [apply calculate_sqrt_price_valid; auto|]. apply T. auto.
  - intros H3. apply PO. unfold valid_tick. lia.
Qed.

Example C24_case :
  history room evs_traded s_traded /\
  match pools_get s_traded pool1 with
  | Ok p => Some (p_current_tick_index p, p_sqrt_price p) | _ => None end = Some (-20, 999211189370072007762822) /\
  calculate_sqrt_price (-20) = Ok 999000549780000000000000 /\ calculate_sqrt_price (-10) = Ok 999500149965000000000000.
Proof. split; [apply s_traded_room|]. crunch. Qed.

(** ** C38 *)

Theorem C38_gross_liquidity_bounded evs s k i t : history room evs s -> get_tick s k i = Ok t ->
  0 < t_liquidity_gross t < (2 ^ 256 - 1) / (443637 / pk_spacing k).
Proof.
  intros H Ht. apply ticks_get_Ok in Ht.
  destruct (gross_bound_history room evs s ltac:(auto) H) as [I GB].
  destruct (I_tick _ I _ _ _ Ht) as [[p Hp] TO]. rewrite (to_gross _ _ _ _ TO).
  split; [apply (I_exists _ I); eauto|]. apply GB. congruence.
Qed.

Theorem C38_pool_liquidity_fits evs s k p : history room evs s -> pools_get s k = Ok p ->
  0 <= pool_total s k <= 2 ^ 256 - 1.
Proof.
  intros H Hp. apply pools_get_Ok in Hp.
  destruct (gross_bound_history room evs s ltac:(auto) H) as [I GB].
  pose proof (gross_total s k p I GB Hp). split; [|lia]. apply msum_nonneg. intros [a n] pos Hpos.
  unfold pool_of. pose proof (pos_nonneg _ _ _ _ I Hpos). destruct (bool_decide _); lia.
Qed.

(** At every tick the liquidity of the positions in range fits, so crossing a tick
    or adding a position that is admitted never overflows the pool's liquidity. *)
Theorem C38_active_liquidity_fits evs s k p c : history room evs s -> pools_get s k = Ok p ->
  0 <= active_at s k c <= 2 ^ 256 - 1.
Proof.
  intros H Hp. pose proof (C38_pool_liquidity_fits evs s k p H Hp) as HT. apply room_Inv in H as I.
  pose proof (pool_active_le s k c I). split; [|lia]. apply msum_nonneg. intros [a n] pos Hpos.
  unfold active_of. pose proof (pos_nonneg _ _ _ _ I Hpos). destruct (_ && _); lia.
Qed.

Example C38_case :
  history room evs_traded s_traded /\ is_Ok (get_tick s_traded pool1 (-10)) = true /\
  pool_total s_traded pool1 = 600000000000 /\ is_Ok (pools_get s_traded pool1) = true.
Proof. split; [apply s_traded_room|]. crunch. Qed.

(** ** C41 *)

Theorem C41_create_position_guards evs s e k lo up L sl su s' pos p :
  history room evs s -> u256 L -> create_position e s k lo up L sl su = Ok (s', pos) ->
  pools_get s k = Ok p ->
  sl <= p_sqrt_price p <= su /\ 0 < L /\ lo < up /\
  -221818 <= lo /\ up <= 221818 /\ (pk_spacing k | lo) /\ (pk_spacing k | up) /\
  pos_pool_key pos = k /\ pos_lower pos = lo /\ pos_upper pos = up /\ pos_liquidity pos = L.
Proof.
  intros H HL HC Hp. apply room_Inv in H as I. apply pools_get_Ok in Hp.
  apply create_summary in HC as (q & x & y & mx & C); auto.
  pose proof (cr_pool _ _ _ _ _ _ _ _ _ _ _ _ _ _ C) as Hq. rewrite Hp in Hq. injection Hq as <-.
  destruct (cr_lo _ _ _ _ _ _ _ _ _ _ _ _ _ _ C) as [L1 L2]. destruct (cr_up _ _ _ _ _ _ _ _ _ _ _ _ _ _ C) as [U1 U2].
  pose proof (cr_liq _ _ _ _ _ _ _ _ _ _ _ _ _ _ C).
  split; [apply C|]. split; [lia|]. split; [apply C|]. split; [lia|]. split; [lia|]. split; [auto|]. split; [auto|].
  rewrite (cr_pos _ _ _ _ _ _ _ _ _ _ _ _ _ _ C). auto.
Qed.

(** The pool exists whenever the call succeeds. *)
Theorem C41_create_position_needs_pool e s k lo up L sl su s' pos :
  create_position e s k lo up L sl su = Ok (s', pos) -> exists p, pools_get s k = Ok p.
Proof.
  intros H. apply create_position_inv in H as (p & tl0 & al & tu0 & au & p' & tl & tu & x & y & b1 & _ & _ & Hp & _).
  exists p. apply pools_get_Ok. exact Hp.
Qed.

(** Accepted with limits around the price; refused when the price is outside them. *)
Example C41_case :
  history room evs_traded s_traded /\
  is_Ok (create_position (by_ alice) s_traded pool1 (-50) 50 1000000 999000000000000000000000 1000000000000000000000000) = true /\
  is_Ok (create_position (by_ alice) s_traded pool1 (-50) 50 1000000 999300000000000000000000 1000000000000000000000000) = false /\
  is_Ok (create_position (by_ alice) s_traded pool1 (-50) 50 1000000 999000000000000000000000 999100000000000000000000) = false.
Proof. split; [apply s_traded_room|]. crunch. Qed.

(** ** Assumptions *)
Print Assumptions C22_tick_stored_iff_boundary.
Print Assumptions C22_bitmap_iff_stored.
Print Assumptions C22_bitmap_total.
Print Assumptions C22_tick_liquidity.
Print Assumptions C22_tick_price_and_range.
Print Assumptions C23_active_liquidity_guarded.
Print Assumptions C23_careful_swaps_are_clean.
Print Assumptions C23_exact_out_x_to_y_is_clean.
Print Assumptions C23_clean_swap_preserves.
Print Assumptions C23_active_liquidity_refuted.
Print Assumptions C23_overshoot_refuted.
Print Assumptions C23_put_back_refuted.
Print Assumptions C24_price_and_tick_agree.
Print Assumptions C38_gross_liquidity_bounded.
Print Assumptions C38_pool_liquidity_fits.
Print Assumptions C38_active_liquidity_fits.
Print Assumptions C41_create_position_guards.
Print Assumptions C41_create_position_needs_pool.
