(** C54: the emitted events tell the history. *)
From Verif Require Import Base Decimal SqrtPriceM LogM ClammM FeeGrowthM Types TickmapM StorageM
  CollectionsM StateM ServiceM Arith SpecMath SpecFees SpecSum SpecState SpecHistory SpecClean EventM SpecLog P_Clamm P_TickPrice P_Tickmap
  P_Fees P_Balance P_Effects P_Positions P_History P_Loop P_Check P_State P_Iter P_Inv P_InvPos P_PosOps P_InvSwap P_Swap
  P_SwapLoop P_InvHist P_Tight P_Active P_Quote P_Log Cases CasesClean Prop_State Prop_Ticks.
From stdpp Require Import gmap list.
From Coq Require Import ZArith Lia Bool Permutation Sorted.
Open Scope Z_scope.

(** ** What each call reports *)

Theorem C54_created evs s e k lo up L sl su s' pos :
  history room evs s -> u256 L -> create_position e s k lo up L sl su = Ok (s', pos) ->
  exists p, pools_get s k = Ok p /\
    emits e s (OpCreatePosition k lo up L sl su) =
      [PositionCreatedEvent (e_timestamp e) (e_caller e) k L lo up (p_sqrt_price p)].
Proof.
  intros H HL HC. apply room_Inv in H as I. destruct (create_summary _ _ _ _ _ _ _ _ _ _ I HL HC) as (p & dx & dy & mx & C).
  exists p. split; [apply pools_get_Ok; apply C|]. cbn [emits]. rewrite HC. unfold create_position_events, pools_get.
  rewrite (cr_pools _ _ _ _ _ _ _ _ _ _ _ _ _ _ C), lookup_insert. cbn [ok_or].
  rewrite (cr_pos _ _ _ _ _ _ _ _ _ _ _ _ _ _ C). reflexivity.
Qed.

Theorem C54_removed evs s e i s' xy :
  history room evs s -> remove_position e s i = Ok (s', xy) ->
  exists pos p, get_position s (e_caller e) i = Ok pos /\ pools_get s (pos_pool_key pos) = Ok p /\
    emits e s (OpRemovePosition i) =
      [PositionRemovedEvent (e_timestamp e) (e_caller e) (pos_pool_key pos) (pos_liquidity pos) (pos_lower pos) (pos_upper pos)
         (p_sqrt_price p)].
Proof.
  intros H HC. apply room_Inv in H as I. destruct xy as [x y].
  destruct (remove_summary _ _ _ _ _ _ I HC) as (pos & p & tl & tu & a & b & c & d & C).
  exists pos, p. unfold get_position. cbn [emits]. rewrite HC.
  unfold remove_position_events, positions_get, ticks_get, pools_get.
  rewrite (rm_pos _ _ _ _ _ _ _ _ _ _ _ _ _ _ C). cbn [ok_or].
  pose proof (rm_tl _ _ _ _ _ _ _ _ _ _ _ _ _ _ C) as Tl. pose proof (rm_tu _ _ _ _ _ _ _ _ _ _ _ _ _ _ C) as Tu.
  rewrite Tl, Tu, (rm_pools _ _ _ _ _ _ _ _ _ _ _ _ _ _ C), lookup_insert. cbn [ok_or].
  rewrite (rm_pool _ _ _ _ _ _ _ _ _ _ _ _ _ _ C).
  destruct (I_tick _ I _ _ _ Tl) as [_ Ol]. destruct (I_tick _ I _ _ _ Tu) as [_ Ou].
  rewrite (to_index _ _ _ _ Ol), (to_index _ _ _ _ Ou). auto.
Qed.

(** A swap reports itself once, with the payments it makes. *)
Theorem C54_swap evs s e k d a b lim s' r :
  history room evs s -> u256 a -> swap e s k d a b lim = Ok (s', r) ->
  let log := emits e s (OpSwap k d a b lim) in
  reports s (e_timestamp e) (e_caller e) log /\ swaps_told log = [(k, d)] /\ moves s s' (e_caller e) (payments log).
Proof.
  intros H Ha HS. apply room_Inv in H as I. cbv zeta. cbn [emits]. rewrite HS. split; [|split].
  - rewrite <- (app_nil_r (swap_events e k d r)). eapply swap_reports; eauto. constructor.
  - unfold swap_events. destruct (bool_decide _); reflexivity.
  - rewrite swap_payments. apply swap_inv in HS as (B & _ & _ & D & _). apply ledger_moves2. exact D.
Qed.

Lemma sum_on_app t l l' : sum_on t (l ++ l') = sum_on t l + sum_on t l'.
Proof. induction l as [|[t' v] l IH]; cbn [sum_on app]; [reflexivity|]. rewrite IH. lia. Qed.
Lemma moves_trans s s1 s2 c l l' : moves s s1 c l -> moves s1 s2 c l' -> moves s s2 c (l ++ l').
Proof. intros H1 H2 u t. rewrite H2, H1, sum_on_app. destruct (u =? c); lia. Qed.

(** A route reports one swap per hop. *)
Theorem C54_route evs s e a x sl hops s' out :
  history room evs s -> u256 a -> swap_route e s a x sl hops = Ok (s', out) ->
  let log := emits e s (OpSwapRoute a x sl hops) in
  reports s (e_timestamp e) (e_caller e) log /\ swaps_told log = map (fun h => (h_pool_key h, h_x_to_y h)) hops /\
  moves s s' (e_caller e) (payments log).
Proof.
  intros H Ha HS. apply room_Inv in H as I. cbv zeta. cbn [emits]. rewrite HS. apply swap_route_inv in HS.
  destruct (route_reports _ _ _ _ _ _ I Ha HS) as [R T]. split; [exact R|]. split; [exact T|].
  clear H I Ha R T. revert s a HS. induction hops as [|h hops IH]; cbn [route_swap route_events]; intros s a HS.
  - injection HS as -> _. apply moves_none. reflexivity.
  - apply bind_Ok in HS as ([s1 r] & E & HS). rewrite E, payments_app. eapply moves_trans; [|eapply IH; exact HS].
    rewrite swap_payments. apply swap_inv in E as (B & _ & _ & D & _). apply ledger_moves2. exact D.
Qed.

(** A call that fails, and a call of any other kind, reports nothing. *)
Theorem C54_silent e s o :
  (forall s', run_op e s o <> Ok s') \/
  match o with OpCreatePosition _ _ _ _ _ _ | OpRemovePosition _ | OpSwap _ _ _ _ _ | OpSwapRoute _ _ _ _ => False | _ => True end ->
  emits e s o = [].
Proof. intros [H|H]; [apply emits_failed; auto|destruct o; try destruct H; reflexivity]. Qed.

(** ** What an observer of all the events knows *)

(** The open positions: those of the starting point plus the created ones are the
    present ones plus the removed ones. *)
Theorem C54_positions evs0 s0 evs s log :
  history room evs0 s0 -> run_log room s0 evs s log ->
  open_shapes s ++ removed_shapes log ≡ₚ open_shapes s0 ++ created_shapes log.
Proof. intros H R. apply cnt_perm. intros x. rewrite !cnt_app. eapply log_shapes; eauto. Qed.

(** The price of every pool: the reported moves are connected and end at the present price. *)
Theorem C54_prices evs0 s0 evs s log k p :
  history room evs0 s0 -> run_log room s0 evs s log -> pools_get s0 k = Ok p ->
  exists p', pools_get s k = Ok p' /\ chained (p_sqrt_price p) (price_moves k log) (p_sqrt_price p').
Proof.
  intros H R Hp. apply pools_get_Ok in Hp. destruct (log_prices _ _ _ _ _ H R _ _ Hp) as (p' & Hp' & C).
  exists p'. split; [apply pools_get_Ok; auto|auto].
Qed.

Lemma liquidity_at_app k c l l' : liquidity_at k c (l ++ l') = liquidity_at k c l + liquidity_at k c l'.
Proof. induction l as [|[[[k' L] lo] up] l IH]; cbn; [reflexivity|]. unfold liquidity_at in *. rewrite IH. lia. Qed.
Lemma liquidity_at_perm k c l l' : l ≡ₚ l' -> liquidity_at k c l = liquidity_at k c l'.
Proof.
  induction 1 as [|[[[k' L] lo] up] l l' P IH|[[[k' L] lo] up] [[[k2 L2] lo2] up2] l|l l1 l2 P1 IH1 P2 IH2]; cbn; auto.
  - unfold liquidity_at in *. rewrite IH. reflexivity.
  - lia.
  - congruence.
Qed.
Lemma liquidity_open s k c : liquidity_at k c (open_shapes s) = active_at s k c.
Proof.
  unfold open_shapes, active_at, msum, map_fold. cbn. induction (map_to_list (s_positions s)) as [|[i p] l IH]; [reflexivity|].
  cbn [map snd foldr]. cbn. unfold liquidity_at in IH. rewrite IH. unfold active_of. rewrite andb_assoc. reflexivity.
Qed.

(** The active liquidity of a pool, in the histories of C23: the created liquidity
    minus the removed liquidity whose range contains the current tick. *)
Theorem C54_active_liquidity_guarded admin0 fee evs s log k p :
  u128 fee -> run_log regular (init_state admin0 fee) evs s log -> pools_get s k = Ok p ->
  let c := p_current_tick_index p in
  p_liquidity p = liquidity_at k c (created_shapes log) - liquidity_at k c (removed_shapes log).
Proof.
  intros Hf R Hp. cbv zeta.
  assert (H0 : history regular [] (init_state admin0 fee)) by (constructor; auto).
  pose proof (run_log_history _ _ _ _ _ _ H0 R) as H. rewrite (C23_active_liquidity_guarded _ _ _ _ H Hp).
  assert (R' : run_log room (init_state admin0 fee) evs s log).
  { clear - R. induction R; constructor; auto. apply H0. }
  assert (H0' : history room [] (init_state admin0 fee)) by (constructor; auto).
  pose proof (C54_positions _ _ _ _ _ H0' R') as P. apply (liquidity_at_perm k (p_current_tick_index p)) in P.
  rewrite !liquidity_at_app, !liquidity_open in P.
  replace (active_at (init_state admin0 fee) k (p_current_tick_index p)) with 0 in P by reflexivity. lia.
Qed.

(** ** What an observer does not know *)

Fixpoint log_run (s : state) (evs : list event) : list emitted :=
  match evs with [] => [] | ev :: t => event_log s ev ++ log_run (exec_event s ev) t end.
Lemma log_run_app evs ev : forall s, log_run s (evs ++ [ev]) = log_run s evs ++ event_log (fold_left exec_event evs s) ev.
Proof.
  induction evs as [|x evs IH]; cbn [app log_run fold_left]; intros s; [apply app_nil_r|].
  rewrite IH, app_assoc. reflexivity.
Qed.
Lemma run_log_regular admin0 fee evs : u128 fee -> Forall event_wf evs -> Z.of_nat (length evs) < 2 ^ 32 - 1 ->
  clean_run (init_state admin0 fee) evs = true ->
  run_log regular (init_state admin0 fee) evs (run_events admin0 fee evs) (log_run (init_state admin0 fee) evs).
Proof.
  intros Hf. induction evs as [|ev evs IH] using rev_ind; intros HW HL HC; [constructor|].
  apply clean_run_app in HC as [C1 C2]. rewrite app_length in HL. cbn [length] in HL.
  apply Forall_app in HW as [W1 W2]. inversion W2; subst.
  pose proof (run_events_history admin0 fee evs Hf W1) as HR. apply history_room in HR as [_ HR]; [|lia].
  rewrite log_run_app. unfold run_events in *. rewrite fold_left_app. cbn [fold_left]. constructor; [apply IH; auto; lia|auto|].
  split; [|apply cleanb_spec; auto]. intros a. specialize (HR a). lia.
Qed.

Lemma regular_room (s0 : state) evs s log : run_log regular s0 evs s log -> run_log room s0 evs s log.
Proof. induction 1 as [|evs s log ev R IH W g]; constructor; auto. apply g. Qed.

(** Alice and Bob hold positions; Alice closes one of hers; Bob gives his to Alice
    and fails to close it. *)
Definition evs_told : list event := evs_traded ++ [
  Call (by_ alice) (OpRemovePosition 0); Call (by_ bob) (OpTransferPosition 0 alice); Call (by_ bob) (OpRemovePosition 0) ].
Definition s_told : state := run_events admin 10000000000 evs_told.
Lemma told_run : run_log regular (init_state admin 10000000000) evs_told s_told (log_run (init_state admin 10000000000) evs_told).
Proof.
  apply run_log_regular; [unfold u128; lia| |reflexivity|vm_compute; reflexivity].
  unfold evs_told, evs_traded, setup, positions3, swaps. wf_events.
Qed.

Example C54_case :
  exists log, run_log regular (init_state admin 10000000000) evs_told s_told log /\
    created_shapes log = [(pool1, 100000000000, -20, 30); (pool1, 300000000000, -10, 10); (pool1, 200000000000, -30, -10)] /\
    removed_shapes log = [(pool1, 100000000000, -20, 30)] /\
    price_moves pool1 log = [(1000000000000000000000000, 999177909711820159421355); (999177909711820159421355, 999211189370072007762822)] /\
    omap (fun ev => match ev with CrossTickEvent _ who _ idx => Some (who, idx) | _ => None end) log = [(carol, [-10])] /\
    payments log = [(tokA, -3000); (tokB, 2965); (tokB, -101); (tokA, 100)] /\
    liquidity_at pool1 (-20) (created_shapes log) - liquidity_at pool1 (-20) (removed_shapes log) = 200000000000 /\
    length (open_shapes s_told) = 2%nat.
Proof. eexists. split; [apply told_run|]. crunch. Qed.

(** Transfers are silent: the same events belong to different owners. *)
Theorem C54_owners_refuted :
  exists s0 evs1 evs2 s1 s2 log owner,
    history regular [] s0 /\ run_log regular s0 evs1 s1 log /\ run_log regular s0 evs2 s2 log /\
    get_user_position_amount s1 owner = 1 /\ get_user_position_amount s2 owner = 0.
Proof.
  exists (init_state admin 10000000000), evs_traded, (evs_traded ++ [Call (by_ bob) (OpTransferPosition 0 alice)]),
    s_traded, (run_events admin 10000000000 (evs_traded ++ [Call (by_ bob) (OpTransferPosition 0 alice)])),
    (log_run (init_state admin 10000000000) evs_traded), bob.
  split; [constructor; unfold u128; lia|]. split.
  { apply run_log_regular; [unfold u128; lia| |reflexivity|vm_compute; reflexivity]. unfold evs_traded, setup, positions3, swaps. wf_events. }
  split.
  { replace (log_run (init_state admin 10000000000) evs_traded)
      with (log_run (init_state admin 10000000000) (evs_traded ++ [Call (by_ bob) (OpTransferPosition 0 alice)]))
      by (rewrite log_run_app; apply app_nil_r).
    apply run_log_regular; [unfold u128; lia| |reflexivity|vm_compute; reflexivity]. unfold evs_traded, setup, positions3, swaps. wf_events. }
  split; vm_compute; reflexivity.
Qed.

(** The reported fee is not always the fee taken: with a protocol fee of 100% the
    protocol receives the whole fee, and here it receives more than is reported. *)
Definition s_all_fees : state := run_events admin 1000000000000 evs_open.
Definition taken (s : state) (a : Z) : option Z :=
  match pools_get s pool1, swap (by_ carol) s pool1 true a true 15258932000000000000 with
  | Ok p, Ok (_, r) => Some (p_fee_protocol_token_x (cs_pool r) - p_fee_protocol_token_x p)
  | _, _ => None
  end.
Lemma taken_spec s a v : taken s a = Some v ->
  exists s' r p, pools_get s pool1 = Ok p /\ swap (by_ carol) s pool1 true a true 15258932000000000000 = Ok (s', r) /\
    p_fee_protocol_token_x (cs_pool r) - p_fee_protocol_token_x p = v.
Proof.
  unfold taken. destruct (pools_get s pool1) as [p| | |]; try discriminate.
  destruct (swap _ _ _ _ _ _ _) as [[s' r]| | |]; try discriminate. intros [= <-]. eauto 6.
Qed.
Theorem C54_fee_refuted :
  exists evs s who a lim s' r p,
    history room evs s /\ get_protocol_fee s = 10 ^ 12 /\ pools_get s pool1 = Ok p /\ swap (by_ who) s pool1 true a true lim = Ok (s', r) /\
    emits (by_ who) s (OpSwap pool1 true a true lim)
      = [SwapEvent (e_timestamp (by_ who)) who pool1 2023 1999 21 1000000000000000000000000 999500149965000000000000 true] /\
    p_fee_protocol_token_x (cs_pool r) - p_fee_protocol_token_x p = 22.
Proof.
  destruct (taken_spec s_all_fees 2023 22) as (s' & r & p & H1 & H2 & H3); [vm_compute; reflexivity|].
  exists evs_open, s_all_fees, carol, 2023, 15258932000000000000, s', r, p. split.
  { apply history_room; [|reflexivity]. apply run_events_history; [unfold u128; lia|]. unfold evs_open, setup, positions3. wf_events. }
  split; [vm_compute; reflexivity|]. split; [exact H1|]. split; [exact H2|]. split; [vm_compute; reflexivity|exact H3].
Qed.

(** ** Assumptions *)
Print Assumptions C54_created.
Print Assumptions C54_removed.
Print Assumptions C54_swap.
Print Assumptions C54_route.
Print Assumptions C54_silent.
Print Assumptions C54_positions.
Print Assumptions C54_prices.
Print Assumptions C54_active_liquidity_guarded.
Print Assumptions C54_owners_refuted.
Print Assumptions C54_fee_refuted.
