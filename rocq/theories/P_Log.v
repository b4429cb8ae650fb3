(** The event log: proofs. *)
From Verif Require Import Base Decimal SqrtPriceM LogM ClammM FeeGrowthM Types TickmapM StorageM
  CollectionsM StateM ServiceM Arith SpecMath SpecFees SpecSum SpecState SpecHistory SpecClean EventM SpecLog P_Clamm P_TickPrice P_Tickmap
  P_Fees P_Balance P_Effects P_Positions P_History P_Loop P_Check P_State P_Iter P_Inv P_InvPos P_PosOps P_InvSwap P_Swap
  P_SwapLoop P_InvHist P_Tight P_Active P_Quote.
From stdpp Require Import gmap list.
From Coq Require Import ZArith Lia Bool Permutation Sorted.
Open Scope Z_scope.

Global Instance shape_dec : EqDecision shape := _.

Definition here (x : shape) (p : position) : Z := if decide (shape_of p = x) then 1 else 0.

Section Count.
  Definition cnt (l : list shape) (x : shape) : Z := Z.of_nat (count_occ (fun a b => decide (a = b)) l x).

  Lemma cnt_app l l' x : cnt (l ++ l') x = cnt l x + cnt l' x.
  Proof. unfold cnt. rewrite count_occ_app. lia. Qed.
  Lemma cnt_one y x : cnt [y] x = if decide (y = x) then 1 else 0.
  Proof. unfold cnt. cbn. destruct (decide (y = x)); reflexivity. Qed.
  Lemma cnt_perm l l' : (forall x, cnt l x = cnt l' x) -> l ≡ₚ l'.
  Proof. intros H. apply (Permutation_count_occ (fun a b => decide (a = b))). intros x. specialize (H x). unfold cnt in H. lia. Qed.
  Lemma cnt_cons y l x : cnt (y :: l) x = (if decide (y = x) then 1 else 0) + cnt l x.
  Proof. rewrite <- cnt_one, <- cnt_app. reflexivity. Qed.

  Lemma cnt_open s x : cnt (open_shapes s) x = msum (here x) (s_positions s).
  Proof.
    unfold open_shapes, msum, map_fold. cbn. induction (map_to_list (s_positions s)) as [|[i p] l IH]; [reflexivity|].
    cbn [map snd]. rewrite cnt_cons, IH. reflexivity.
  Qed.
End Count.

Lemma swap_events_shapes e k d r : created_shapes (swap_events e k d r) = [] /\ removed_shapes (swap_events e k d r) = [].
Proof. unfold swap_events. destruct (bool_decide _); split; reflexivity. Qed.

Lemma created_app l l' : created_shapes (l ++ l') = created_shapes l ++ created_shapes l'.
Proof. apply omap_app. Qed.
Lemma removed_app l l' : removed_shapes (l ++ l') = removed_shapes l ++ removed_shapes l'.
Proof. apply omap_app. Qed.
Lemma moves_app k l l' : price_moves k (l ++ l') = price_moves k l ++ price_moves k l'.
Proof. apply omap_app. Qed.

Lemma route_events_shapes e hops : forall s a, created_shapes (route_events e s a hops) = [] /\ removed_shapes (route_events e s a hops) = [].
Proof.
  induction hops as [|h hops IH]; intros s a; cbn [route_events]; [split; reflexivity|].
  destruct (swap _ _ _ _ _ _ _) as [[s' r]| | |]; [|split; reflexivity..].
  rewrite created_app, removed_app. destruct (swap_events_shapes e (h_pool_key h) (h_x_to_y h) r) as [-> ->].
  apply IH.
Qed.

Lemma here_shape x p q : shape_of p = shape_of q -> here x p = here x q.
Proof. unfold here. intros ->. reflexivity. Qed.

(** A call that does not create or remove positions reports none. *)
Lemma keeps_positions_log e s o : keeps_positions o = true -> created_shapes (emits e s o) = [] /\ removed_shapes (emits e s o) = [].
Proof.
  intros H. destruct o; try discriminate H; cbn [emits]; try (split; reflexivity).
  - destruct (swap _ _ _ _ _ _ _) as [[s' r]| | |]; [apply swap_events_shapes|split; reflexivity..].
  - destruct (swap_route _ _ _ _ _ _); [apply route_events_shapes|split; reflexivity..].
Qed.

Lemma log_shapes_op e s o s' x : Inv s -> op_wf o -> run_op e s o = Ok s' ->
  cnt (open_shapes s') x + cnt (removed_shapes (emits e s o)) x = cnt (open_shapes s) x + cnt (created_shapes (emits e s o)) x.
Proof.
  intros I W H. rewrite !cnt_open.
  destruct (keeps_positions o) eqn:EK.
  { destruct (keeps_positions_spec _ _ _ _ EK H) as [-> _]. destruct (keeps_positions_log e s o EK) as [-> ->]. lia. }
  destruct o; try discriminate EK; cbn [run_op] in H; apply drop_result_Ok in H as [r H]; cbn [emits op_wf] in *.
  - rewrite H. destruct W as (_ & _ & HL & _). destruct (create_summary _ _ _ _ _ _ _ _ _ _ I HL H) as (p & dx & dy & mx & C).
    unfold create_position_events, pools_get. rewrite (cr_pools _ _ _ _ _ _ _ _ _ _ _ _ _ _ C), lookup_insert. cbn [ok_or].
    cbn [created_shapes removed_shapes omap list_omap]. rewrite cnt_one.
    rewrite (cr_positions _ _ _ _ _ _ _ _ _ _ _ _ _ _ C), msum_insert by apply (cr_fresh _ _ _ _ _ _ _ _ _ _ _ _ _ _ C).
    change (cnt [] x) with 0. unfold here. rewrite (cr_pos _ _ _ _ _ _ _ _ _ _ _ _ _ _ C). unfold shape_of. cbn [pos_pool_key pos_liquidity pos_lower pos_upper].
    destruct (decide _); lia.
  - rewrite H. destruct r as [dx dy]. destruct (remove_summary _ _ _ _ _ _ I H) as (pos & p & tl & tu & a & b & c & d & C).
    unfold remove_position_events, positions_get, ticks_get, pools_get.
    rewrite (rm_pos _ _ _ _ _ _ _ _ _ _ _ _ _ _ C). cbn [ok_or].
    pose proof (rm_tl _ _ _ _ _ _ _ _ _ _ _ _ _ _ C) as Tl. pose proof (rm_tu _ _ _ _ _ _ _ _ _ _ _ _ _ _ C) as Tu.
    rewrite Tl, Tu, (rm_pools _ _ _ _ _ _ _ _ _ _ _ _ _ _ C), lookup_insert. cbn [ok_or].
    cbn [created_shapes removed_shapes omap list_omap]. rewrite cnt_one. change (cnt [] x) with 0.
    destruct (I_tick _ I _ _ _ Tl) as [_ Ol]. destruct (I_tick _ I _ _ _ Tu) as [_ Ou].
    rewrite (to_index _ _ _ _ Ol), (to_index _ _ _ _ Ou).
    rewrite (rm_msum _ _ _ _ _ _ _ _ _ _ _ _ _ _ C). unfold here, shape_of. destruct (decide _); lia.
  - cbn [created_shapes removed_shapes omap list_omap]. rewrite (transfer_msum _ _ _ _ _ _ _ (I_dense _ I) H). lia.
  - destruct r as [dx dy]. destruct (claim_summary _ _ _ _ _ _ I H) as (pos & p & tl & tu & mx & C).
    cbn [created_shapes removed_shapes omap list_omap].
    rewrite (cl_positions _ _ _ _ _ _ _ _ _ _ _ C), (msum_update _ _ _ _ _ (cl_pos _ _ _ _ _ _ _ _ _ _ _ C)).
    unfold here, shape_of. cbn [pos_pool_key pos_liquidity pos_lower pos_upper]. lia.
Qed.

Lemma emits_failed e s o : (forall s', run_op e s o <> Ok s') -> emits e s o = [].
Proof.
  intros H. destruct o; cbn [emits run_op] in *; try reflexivity.
  - destruct (create_position _ _ _ _ _ _ _ _) as [[s' v]| | |]; [exfalso; apply (H s'); reflexivity|reflexivity..].
  - destruct (remove_position _ _ _) as [[s' v]| | |]; [exfalso; apply (H s'); reflexivity|reflexivity..].
  - destruct (swap _ _ _ _ _ _ _) as [[s' v]| | |]; [exfalso; apply (H s'); reflexivity|reflexivity..].
  - destruct (swap_route _ _ _ _ _ _) as [[s' v]| | |]; [exfalso; apply (H s'); reflexivity|reflexivity..].
Qed.

Lemma exec_op_cases e s o : run_op e s o = Ok (exec_op e s o) \/ (exec_op e s o = s /\ emits e s o = []).
Proof.
  unfold exec_op. destruct (run_op e s o) eqn:E; auto; right; (split; [reflexivity|apply emits_failed; rewrite E; discriminate]).
Qed.

(** A run of events from a state of a history is the rest of a longer history. *)
Lemma run_log_history (G : state -> event -> Prop) evs0 s0 evs s log : history G evs0 s0 -> run_log G s0 evs s log -> history G (evs0 ++ evs) s.
Proof.
  intros H R. induction R as [|evs s log ev R IH W g]; [rewrite app_nil_r; auto|].
  rewrite app_assoc. constructor; auto.
Qed.

Lemma history_run_log (G : state -> event -> Prop) evs s : history G evs s ->
  exists adm fee log, u128 fee /\ run_log G (init_state adm fee) evs s log.
Proof.
  induction 1 as [adm fee Hf|evs s ev H (adm & fee & log & Hf & IH) W g].
  - exists adm, fee, []. split; [auto|constructor].
  - exists adm, fee, (log ++ event_log s ev). split; [auto|]. constructor; auto.
Qed.

Lemma log_shapes evs0 s0 evs s log x : history room evs0 s0 -> run_log room s0 evs s log ->
  cnt (open_shapes s) x + cnt (removed_shapes log) x = cnt (open_shapes s0) x + cnt (created_shapes log) x.
Proof.
  intros H R. induction R as [|evs s log ev R IH W g]; [reflexivity|].
  pose proof (run_log_history _ _ _ _ _ _ H R) as H'. apply (Inv_history room) in H' as I; [|auto].
  rewrite removed_app, created_app, !cnt_app.
  destruct ev as [e o|u t a|u t a|m]; cbn [exec_event event_log event_wf] in *.
  - destruct (exec_op_cases e s o) as [E|[-> ->]].
    + pose proof (log_shapes_op e s o _ x I (proj2 W) E). lia.
    + cbn [created_shapes removed_shapes omap list_omap]. change (cnt [] x) with 0. lia.
  - cbn [created_shapes removed_shapes omap list_omap]. change (cnt [] x) with 0.
    rewrite (cnt_open (match _ with Ok s' => s' | _ => s end)). rewrite cnt_open in IH.
    destruct (increase_token_balance s t u a) eqn:E; try lia.
    apply increase_spec in E as ((B & ->) & _). cbn [set_balances s_positions]. lia.
  - cbn [created_shapes removed_shapes omap list_omap]. change (cnt [] x) with 0.
    rewrite (cnt_open (match _ with Ok s' => _ | _ => s end)). rewrite cnt_open in IH.
    destruct (decrease_token_balance s t u a) as [[s1 v]| | |] eqn:E; try lia.
    apply decrease_spec in E as ((B & ->) & _). cbn [set_balances s_positions]. lia.
  - cbn [created_shapes removed_shapes omap list_omap]. change (cnt [] x) with 0.
    rewrite cnt_open in *. cbn [set_awaiting s_positions]. lia.
Qed.

(** ** Prices *)

Lemma chained_app a l1 b l2 c : chained a l1 b -> chained b l2 c -> chained a (l1 ++ l2) c.
Proof.
  revert a. induction l1 as [|[x y] l1 IH]; intros a; cbn [chained app]; [intros ->; auto|].
  intros [-> H1] H2. eauto.
Qed.

Definition told (s s' : state) (log : list emitted) : Prop :=
  forall k p, s_pools s !! k = Some p -> exists p', s_pools s' !! k = Some p' /\ chained (p_sqrt_price p) (price_moves k log) (p_sqrt_price p').

Lemma told_trans s s1 s2 l1 l2 : told s s1 l1 -> told s1 s2 l2 -> told s s2 (l1 ++ l2).
Proof.
  intros H1 H2 k p Hp. destruct (H1 _ _ Hp) as (p1 & Hp1 & C1). destruct (H2 _ _ Hp1) as (p2 & Hp2 & C2).
  exists p2. split; [auto|]. rewrite moves_app. eapply chained_app; eauto.
Qed.
Lemma told_same s s' log : s_pools s' = s_pools s -> (forall k, price_moves k log = []) -> told s s' log.
Proof. intros E L k p Hp. rewrite E, L. exists p. split; [auto|reflexivity]. Qed.
Lemma told_quiet s s' log : (forall k, price_moves k log = []) ->
  (forall k p, s_pools s !! k = Some p -> exists p', s_pools s' !! k = Some p' /\ p_sqrt_price p' = p_sqrt_price p) -> told s s' log.
Proof. intros L E k p Hp. destruct (E _ _ Hp) as (p' & H & Hq). rewrite L. exists p'. split; [auto|]. cbn. auto. Qed.

Lemma swap_told e s k d a b lim s' r : swap e s k d a b lim = Ok (s', r) -> told s s' (swap_events e k d r).
Proof.
  intros H k' p' Hp'. apply swap_inv in H as (B & HC & -> & _).
  apply calculate_swap_inv in HC as (p & tl & l & _ & Hp & _ & _ & _ & _ & ->).
  cbn [set_balances set_pools set_ticks s_pools]. unfold swap_events.
  cbn [cs_pool cs_ticks cs_amount_in cs_amount_out cs_fee cs_start_sqrt_price cs_target_sqrt_price].
  rewrite moves_app.
  replace (price_moves k' (if bool_decide (map t_index (l_ticks l) = []) then [] else [CrossTickEvent (e_timestamp e) (e_caller e) k (map t_index (l_ticks l))])) with (@nil (Z * Z))
    by (destruct (bool_decide _); reflexivity).
  cbn [app price_moves omap list_omap].
  destruct (decide (k = k')) as [<-|Hk].
  - rewrite Hp in Hp'. injection Hp' as <-. rewrite lookup_insert, bool_decide_eq_true_2 by auto. eexists. split; [reflexivity|]. cbn. auto.
  - rewrite lookup_insert_ne, bool_decide_eq_false_2 by auto. eexists. split; [exact Hp'|]. reflexivity.
Qed.

Lemma route_told e hops : forall s a s' out, route_swap e s a hops = Ok (s', out) -> told s s' (route_events e s a hops).
Proof.
  induction hops as [|h hops IH]; cbn [route_swap route_events]; intros s a s' out H.
  - injection H as -> _. apply told_same; auto.
  - apply bind_Ok in H as ([s1 r] & E & H). rewrite E. eapply told_trans; [eapply swap_told; eauto|]. eapply IH. exact H.
Qed.

Lemma upd_price (m : gmap pool_key pool) (k k' : pool_key) (p p1 p' : pool) : m !! k = Some p -> m !! k' = Some p' -> p_sqrt_price p1 = p_sqrt_price p ->
  exists q, <[k := p1]> m !! k' = Some q /\ p_sqrt_price q = p_sqrt_price p'.
Proof.
  intros H1 H2 E. destruct (decide (k = k')) as [<-|Hk].
  - rewrite lookup_insert. rewrite H1 in H2. injection H2 as <-. eauto.
  - rewrite lookup_insert_ne by auto. eauto.
Qed.

Lemma told_op e s o s' : Inv s -> op_wf o -> run_op e s o = Ok s' -> told s s' (emits e s o).
Proof.
  intros I W H. destruct o; cbn [run_op] in H; apply drop_result_Ok in H as [r H]; cbn [emits op_wf] in *.
  - apply change_protocol_fee_inv in H as (_ & ->). apply told_same; reflexivity.
  - apply add_fee_tier_inv in H as (_ & _ & _ & _ & _ & ->). apply told_same; reflexivity.
  - apply remove_fee_tier_inv in H as (_ & l & _ & ->). apply told_same; reflexivity.
  - apply create_pool_inv in H as (k & p & _ & _ & _ & Hn & _ & _ & ->). apply told_quiet; [reflexivity|].
    intros k' p' Hp'. cbn [set_pool_keys set_pools s_pools]. rewrite lookup_insert_ne by congruence. eauto.
  - apply change_fee_receiver_inv in H as (_ & p & Hp & ->). apply told_quiet; [reflexivity|]. intros k' p' Hp'.
    cbn [set_pools s_pools]. eapply upd_price; eauto.
  - rewrite H. destruct W as (_ & _ & HL & _). destruct (create_summary _ _ _ _ _ _ _ _ _ _ I HL H) as (p & dx & dy & mx & C).
    apply told_quiet.
    { intros. unfold create_position_events. destruct (pools_get s' k); reflexivity. }
    intros k' p' Hp'. rewrite (cr_pools _ _ _ _ _ _ _ _ _ _ _ _ _ _ C). eapply upd_price; [apply C|eauto|reflexivity].
  - rewrite H. destruct r as [dx dy]. destruct (remove_summary _ _ _ _ _ _ I H) as (pos & p & tl & tu & a & b & c & d & C).
    apply told_quiet.
    { intros. unfold remove_position_events. destruct (positions_get _ _ _); [|reflexivity..].
      destruct (ticks_get _ _ _); [|reflexivity..]. destruct (ticks_get _ _ _); [|reflexivity..].
      destruct (pools_get _ _); reflexivity. }
    intros k' p' Hp'. rewrite (rm_pools _ _ _ _ _ _ _ _ _ _ _ _ _ _ C). eapply upd_price; [apply C|eauto|reflexivity].
  - apply transfer_position_inv in H as (pos & lp & s1 & _ & _ & -> & ->). apply told_same; reflexivity.
  - rewrite H. eapply swap_told; eauto.
  - rewrite H. apply swap_route_inv in H. eapply route_told; eauto.
  - destruct r as [dx dy]. destruct (claim_summary _ _ _ _ _ _ I H) as (pos & p & tl & tu & mx & C).
    apply told_quiet; [reflexivity|].
    intros k' p' Hp'. rewrite (cl_pools _ _ _ _ _ _ _ _ _ _ _ C). eapply upd_price; [apply C|eauto|reflexivity].
  - apply withdraw_protocol_fee_inv in H as (p & B & Hp & _ & -> & _). apply told_quiet; [reflexivity|].
    intros k' p' Hp'. cbn [set_balances set_pools s_pools]. eapply upd_price; [exact Hp|eauto|reflexivity].
  - apply deposit_vara_inv in H as (_ & (B & ->) & _). apply told_same; reflexivity.
  - apply withdraw_vara_inv in H as ((B & ->) & _). apply told_same; reflexivity.
Qed.

Lemma log_prices evs0 s0 evs s log : history room evs0 s0 -> run_log room s0 evs s log -> told s0 s log.
Proof.
  intros H R. induction R as [|evs s log ev R IH W g]; [apply told_same; reflexivity|].
  pose proof (run_log_history _ _ _ _ _ _ H R) as H'. apply (Inv_history room) in H' as I; [|auto].
  eapply told_trans; [exact IH|].
  destruct ev as [e o|u t a|u t a|m]; cbn [exec_event event_log event_wf] in *.
  - destruct (exec_op_cases e s o) as [E|[-> ->]].
    + apply told_op; [exact I|apply W|exact E].
    + apply told_same; reflexivity.
  - destruct (increase_token_balance s t u a) eqn:E; try (apply told_same; reflexivity).
    apply increase_spec in E as ((B & ->) & _). apply told_same; reflexivity.
  - destruct (decrease_token_balance s t u a) as [[s1 v]| | |] eqn:E; try (apply told_same; reflexivity).
    apply decrease_spec in E as ((B & ->) & _). apply told_same; reflexivity.
  - apply told_same; reflexivity.
Qed.

(** ** Payments *)

Lemma payments_app l l' : payments (l ++ l') = payments l ++ payments l'.
Proof. apply flat_map_app. Qed.
Lemma swap_payments e k d r : payments (swap_events e k d r) =
  [(if d then pk_token_x k else pk_token_y k, - cs_amount_in r); (if d then pk_token_y k else pk_token_x k, cs_amount_out r)].
Proof. unfold swap_events. destruct (bool_decide _), d; reflexivity. Qed.

(** ** What a swap reports *)

Section Report.
  Context (s : state) (I : Inv s) (ts : Z) (k : pool_key) (d : bool) (a : Z) (bi : bool) (lim : Z) (p0 : pool)
    (Hp0 : s_pools s !! k = Some p0) (Ha : u256 a).

  Definition far (i j : Z) : Prop := if d then j < i else i < j.

  Record rinv (l : swap_loop_state) : Prop := {
    ri_fee : 0 <= l_fee l <= l_in l;
    ri_dir : if d then p_sqrt_price (l_pool l) <= p_sqrt_price p0 else p_sqrt_price p0 <= p_sqrt_price (l_pool l);
    ri_sorted : StronglySorted far (map t_index (l_ticks l));
    ri_in : forall i, In i (map t_index (l_ticks l)) -> exists t, s_ticks s !! (k, i) = Some t /\
      if d then p_sqrt_price (l_pool l) <= t_sqrt_price t <= p_sqrt_price p0 else p_sqrt_price p0 <= t_sqrt_price t <= p_sqrt_price (l_pool l);
  }.

  Lemma sorted_snoc l i : StronglySorted far l -> (forall j, In j l -> far j i) -> StronglySorted far (l ++ [i]).
  Proof using.
    induction 1 as [|j l S IH F]; intros H; cbn [app]; [repeat constructor|].
    constructor; [apply IH; intros; apply H; right; auto|].
    apply Forall_app. split; [exact F|]. repeat constructor. apply H. left. auto.
  Qed.

  Lemma report_out out : calculate_swap s ts k d a bi lim = Ok out ->
    0 <= cs_fee out <= cs_amount_in out /\ 0 < cs_amount_out out /\
    (if d then cs_target_sqrt_price out <= cs_start_sqrt_price out else cs_start_sqrt_price out <= cs_target_sqrt_price out) /\
    crossed_in_order s k (cs_start_sqrt_price out) (cs_target_sqrt_price out) d (map t_index (cs_ticks out)).
  Proof using I Hp0 Ha.
    intros H. eapply (swap_induction s k d bi lim ts a p0 I Hp0 Ha rinv) in H as (l & V & R0 & Q & Hane & Hout & ->).
    - cbn [cs_fee cs_amount_in cs_amount_out cs_start_sqrt_price cs_target_sqrt_price cs_ticks].
      split; [apply Q|]. split; [pose proof (v_out _ _ _ _ _ _ _ V); unfold u256 in *; lia|]. split; [apply Q|].
      split; [apply Q|]. intros i Hi. destruct (ri_in _ Q i Hi) as (t & Ht & Hb). exists t. split; [|exact Hb].
      unfold get_tick, ticks_get. rewrite Ht. reflexivity.
    - intros _. constructor; cbn; [lia|destruct d; lia|constructor|intros i []].
    - intros l l' target r p1 V Hr Q S E PO Hpr V'.
      assert (Hdir : if d then p_sqrt_price (l_pool l') <= p_sqrt_price (l_pool l) else p_sqrt_price (l_pool l) <= p_sqrt_price (l_pool l')).
      { rewrite Hpr. pose proof (is_dir _ _ _ _ _ _ _ _ _ _ S) as D. destruct d; cbn [dirP] in D; lia. }
      pose proof (is_in _ _ _ _ _ _ _ _ _ _ S) as U1. pose proof (is_fee _ _ _ _ _ _ _ _ _ _ S) as U2. unfold u256 in U1, U2.
      assert (Hold : forall i, In i (map t_index (l_ticks l)) -> exists t, s_ticks s !! (k, i) = Some t /\
        if d then p_sqrt_price (l_pool l') <= t_sqrt_price t <= p_sqrt_price p0 else p_sqrt_price p0 <= t_sqrt_price t <= p_sqrt_price (l_pool l')).
      { intros i Hi. destruct (ri_in _ Q i Hi) as (t & Ht & Hb). exists t. split; [auto|]. destruct d; lia. }
      assert (Hd : if d then p_sqrt_price (l_pool l') <= p_sqrt_price p0 else p_sqrt_price p0 <= p_sqrt_price (l_pool l')).
      { pose proof (ri_dir _ Q). destruct d; lia. }
      pose proof (ri_fee _ Q) as F. pose proof (is_l_fee _ _ _ _ _ _ _ _ _ _ S) as LF.
      destruct E as [c E1 E2 E3 E4 E5 E6|c v E1 E2 E3 E3' E4 E5 E6 E7 E8|i t E1 E2 E3 E4 E5 E6 E7 E8 E9 E10 E11|i p3 E1 E1' E2 E3 E4 E5 E6 E7 E8 E9 E10].
      + constructor; [lia|exact Hd|rewrite E2; apply Q|rewrite E2; exact Hold].
      + constructor; [lia|exact Hd|rewrite E2; apply Q|rewrite E2; exact Hold].
      + clear E5. assert (Hti : t_index (crossed t (set_sqrt_price (sr_next_sqrt_price r) p1) ts) = i) by (rewrite <- E2; reflexivity).
        constructor; [lia|exact Hd| |]; rewrite E8, map_app; cbn [map]; rewrite Hti.
        * apply sorted_snoc; [apply Q|]. intros j Hj. apply elem_of_list_In in Hj.
          pose proof (linv_exact _ _ _ _ _ _ l V Hr) as X. destruct (ri_in _ Q j) as (tj & Htj & _); [apply elem_of_list_In; auto|].
          apply X in Hj; [|eexists; eauto]. pose proof (v_dir _ _ _ _ _ _ _ V Hr) as VD.
          unfold passed, far, cur in *. destruct d; cbn [dirP] in *; lia.
        * intros j Hj. apply in_app_iff in Hj as [Hj|[<-|[]]]; [auto|]. exists t. split; [exact E1|].
          destruct (I_tick _ I _ _ _ E1) as [_ O]. rewrite (to_price _ _ _ _ O). rewrite Hpr in *. rewrite E4 in *.
          pose proof (ri_dir _ Q). destruct d; lia.
      + pose proof (is_rem _ _ _ _ _ _ _ _ _ _ S). constructor; [lia|exact Hd|rewrite E5; apply Q|rewrite E5; exact Hold].
  Qed.
End Report.

Lemma swap_reports e s k d a b lim s' r rest : Inv s -> u256 a -> swap e s k d a b lim = Ok (s', r) ->
  reports s (e_timestamp e) (e_caller e) rest -> reports s (e_timestamp e) (e_caller e) (swap_events e k d r ++ rest).
Proof.
  intros I Ha H R. apply swap_inv in H as (B & HC & _). destruct (calculate_swap_pool _ _ _ _ _ _ _ _ HC) as [p0 Hp0].
  destruct (report_out s I _ k d a b lim p0 Hp0 Ha r HC) as (H1 & H2 & H3 & H4).
  unfold swap_events. rewrite <- app_assoc. cbn [app]. constructor; auto.
Qed.

(** A swap creates no tick and moves none. *)
Lemma swap_old_ticks e s k d a b lim s' r k' i t : Inv s -> u256 a -> swap e s k d a b lim = Ok (s', r) ->
  get_tick s' k' i = Ok t -> exists t0, get_tick s k' i = Ok t0 /\ t_sqrt_price t0 = t_sqrt_price t.
Proof.
  intros I Ha H Ht. pose proof (Inv_swap _ _ _ _ _ _ _ _ _ I Ha H) as (I' & _).
  unfold get_tick, ticks_get in *. destruct (s_ticks s' !! (k', i)) as [t'|] eqn:E'; [|discriminate]. injection Ht as ->.
  assert (X : exists t0, s_ticks s !! (k', i) = Some t0).
  { apply swap_inv in H as (B & HC & -> & _). destruct (calculate_swap_pool _ _ _ _ _ _ _ _ HC) as [p0 Hp0].
    destruct (report_out s I _ k d a b lim p0 Hp0 Ha r HC) as (_ & _ & _ & _ & H4).
    cbn [set_balances set_pools set_ticks s_ticks] in E'.
    destruct (decide (k' = k /\ i ∈ map t_index (cs_ticks r))) as [[-> Hi]|Hi].
    - apply elem_of_list_In, H4 in Hi as (t0 & Ht0 & _). unfold get_tick, ticks_get in Ht0.
      destruct (s_ticks s !! (k, i)) as [t1|]; [eauto|discriminate].
    - rewrite put_ticks_ne in E' by tauto. eauto. }
  destruct X as [t0 X]. exists t0. rewrite X. split; [reflexivity|].
  destruct (I_tick _ I _ _ _ X) as [_ O]. destruct (I_tick _ I' _ _ _ E') as [_ O'].
  rewrite (to_price _ _ _ _ O), (to_price _ _ _ _ O'). reflexivity.
Qed.

Lemma reports_back s1 s now who log :
  (forall k i t, get_tick s1 k i = Ok t -> exists t0, get_tick s k i = Ok t0 /\ t_sqrt_price t0 = t_sqrt_price t) ->
  reports s1 now who log -> reports s now who log.
Proof.
  intros H. induction 1 as [|k i o f st tg d idx rest H1 H2 H3 [H4 H5] R IH]; constructor; auto.
  split; [auto|]. intros j Hj. destruct (H5 j Hj) as (t & Ht & Hb). destruct (H _ _ _ Ht) as (t0 & Ht0 & E). exists t0.
  rewrite E. auto.
Qed.

Lemma route_reports e hops : forall s a s' out, Inv s -> u256 a -> route_swap e s a hops = Ok (s', out) ->
  reports s (e_timestamp e) (e_caller e) (route_events e s a hops) /\
  swaps_told (route_events e s a hops) = map (fun h => (h_pool_key h, h_x_to_y h)) hops.
Proof.
  induction hops as [|h hops IH]; cbn [route_swap route_events]; intros s a s' out I Ha H; [split; [constructor|reflexivity]|].
  apply bind_Ok in H as ([s1 r] & E & H). rewrite E.
  pose proof (Inv_swap _ _ _ _ _ _ _ _ _ I Ha E) as (I1 & _ & Hr).
  destruct (IH _ _ _ _ I1 Hr H) as [R T]. split.
  - eapply swap_reports; [exact I|exact Ha|exact E|]. eapply reports_back; [|exact R]. intros. eapply swap_old_ticks; [exact I|exact Ha|exact E|eauto].
  - unfold swaps_told in *. rewrite omap_app, T. unfold swap_events. destruct (bool_decide _); reflexivity.
Qed.
