(** C71: opening and closing a position leaves no trace for anybody else. *)
From Verif Require Import Base Decimal SqrtPriceM LogM ClammM FeeGrowthM Types TickmapM StorageM
  CollectionsM StateM ServiceM SpecMath SpecState SpecHistory SpecIndep SpecTrace P_Clamm P_Effects P_Inv P_InvHist P_Indep P_Trace P_OpenClose
  P_History Cases.
From stdpp Require Import gmap list.
From Coq Require Import ZArith Lia Bool.
Open Scope Z_scope.

Local Lemma room_Inv evs s : history room evs s -> Inv s.
Proof. apply Inv_history. auto. Qed.

Local Lemma sim_intro evs s u s' : history room evs s -> same_but_for u s s' -> sim true u s s'.
Proof.
  intros H [S1 S2 S3 S4 S5 S6 S7 S8 S9]. apply room_Inv in H as I. destruct S1 as (A1 & A2 & A3).
  constructor; auto.
  - intros k. specialize (S4 k). destruct (s_pools s !! k) as [p|] eqn:Ep, (s_pools s' !! k); cbn in *; auto.
    apply psame_spec. split; [exact S4|]. apply u256_M. apply (I_pool _ I _ _ Ep).
  - intros [k i]. specialize (S5 k i). destruct (s_ticks s !! (k, i)) as [t|] eqn:Et, (s_ticks s' !! (k, i)); cbn in *; auto.
    apply tsame_spec. split; [exact S5|]. apply (I_tick _ I _ _ _ Et).
  - intros [v i] _. specialize (S7 v i). unfold get_position, positions_get in S7.
    destruct (s_positions s !! (v, i)) as [q|] eqn:Eq, (s_positions s' !! (v, i)) as [q'|]; cbn in *; try discriminate S7; auto.
    injection S7 as <-. split; [reflexivity|]. pose proof (so_liq _ _ (I_pos _ I _ _ _ Eq)). unfold posok. lia.
Qed.

(** Opening a position and closing it again restores the exchange, except for the
    balances of the user who does it (C61 says how little that user loses). *)
Theorem C71_no_trace evs s e e' k lo up L sl su s1 pos s2 x y :
  history room evs s -> event_wf (Call e (OpCreatePosition k lo up L sl su)) ->
  room s (Call e (OpCreatePosition k lo up L sl su)) ->
  create_position e s k lo up L sl su = Ok (s1, pos) ->
  e_caller e' = e_caller e -> remove_position e' s1 (get_user_position_amount s (e_caller e)) = Ok (s2, (x, y)) ->
  same_but_for (e_caller e) s s2.
Proof.
  intros H W R E EC E'. apply sim_same_but_for.
  assert (H' : history room (evs ++ [Call e (OpCreatePosition k lo up L sl su)]) s1).
  { replace s1 with (exec_event s (Call e (OpCreatePosition k lo up L sl su))).
    - constructor; auto.
    - cbn [exec_event]. unfold exec_op. cbn [run_op]. rewrite E. reflexivity. }
  apply room_Inv in H, H'. assert (HL : u256 L) by apply W.
  exact (open_close e e' s k lo up L sl su s1 pos s2 x y H H' HL (R (e_caller e)) E EC E').
Qed.

(** Everybody else gets the same answers from then on, whatever they do. *)
Theorem C71_nobody_notices evs s u s' later : history room evs s -> same_but_for u s s' ->
  Forall event_wf later -> Forall (not_by u) later ->
  Forall2 same_answer (answers s later) (answers s' later) /\ same_but_for u (run s later) (run s' later).
Proof.
  intros H S W N. destruct (run_sim true u later W N s s' (sim_intro _ _ _ _ H S)) as [A B]. split; [exact A|].
  now apply sim_same_but_for.
Qed.

(** Both together: the calls of the others get the same answers with and without
    the position that came and went. *)
Theorem C71_come_and_gone evs s e e' k lo up L sl su s1 pos s2 x y later :
  history room evs s -> event_wf (Call e (OpCreatePosition k lo up L sl su)) ->
  room s (Call e (OpCreatePosition k lo up L sl su)) ->
  create_position e s k lo up L sl su = Ok (s1, pos) ->
  e_caller e' = e_caller e -> remove_position e' s1 (get_user_position_amount s (e_caller e)) = Ok (s2, (x, y)) ->
  Forall event_wf later -> Forall (not_by (e_caller e)) later ->
  Forall2 same_answer (answers s later) (answers s2 later).
Proof.
  intros H W R E EC E' WL NL. apply (C71_nobody_notices evs s (e_caller e) s2 later H); auto.
  exact (C71_no_trace _ _ _ _ _ _ _ _ _ _ _ _ _ _ _ H W R E EC E').
Qed.

(** Quotations and queries give the same answers. *)
Theorem C71_queries evs s u s' : history room evs s -> same_but_for u s s' ->
  (forall e k d a b lim, like same_quote (quote e s k d a b lim) (quote e s' k d a b lim)) /\
  (forall e a hops, quote_route e s a hops = quote_route e s' a hops) /\
  (forall k i, is_tick_initialized s k i = is_tick_initialized s' k i) /\
  (forall k, get_liquidity_ticks_amount s k = get_liquidity_ticks_amount s' k) /\
  (forall v, get_all_positions s v = get_all_positions s' v).
Proof.
  intros H S. pose proof (sim_intro _ _ _ _ H S) as M.
  split; [|split; [|split; [|split]]].
  - intros e k d a b lim. unfold quote. pose proof (calculate_swap_sim true u s s' (e_timestamp e) k d a b lim M) as R.
    destruct (calculate_swap s _ _ _ _ _ _) as [r| | |], (calculate_swap s' _ _ _ _ _ _) as [r'| | |]; cbn in R |- *; auto.
    apply csame_swap in R as (E1 & E2 & E3 & E4 & E5 & P & F). unfold same_quote. cbn.
    split; [exact E1|]. split; [exact E2|]. split; [apply P|exact F].
  - intros e a hops. unfold quote_route. revert a. induction hops as [|h hops IH]; intros a; cbn [route_quote]; [reflexivity|].
    pose proof (calculate_swap_sim true u s s' (e_timestamp e) (h_pool_key h) (h_x_to_y h) a true (hop_limit (h_x_to_y h)) M) as R.
    destruct (calculate_swap s _ _ _ _ _ _) as [r| | |], (calculate_swap s' _ _ _ _ _ _) as [r'| | |]; cbn in R |- *; try contradiction; try congruence.
    destruct R as (_ & -> & _). apply IH.
  - intros k i. unfold is_tick_initialized, tickmap_get. apply bind_ext. intros [c bit]. now rewrite (sb_bitmap _ _ _ S).
  - intros k. unfold get_liquidity_ticks_amount, liquidity_ticks_count. apply bind_ext. intros m. f_equal.
    induction (range 0 m) as [|c l IH]; cbn [foldr]; [reflexivity|]. rewrite IH. f_equal.
    pose proof (sb_bitmap _ _ _ S k c) as E. unfold chunk_at in E.
    destruct (s_bitmap s !! (c, k)), (s_bitmap s' !! (c, k)); cbn in E; subst; reflexivity.
  - intros v. unfold get_all_positions, positions_get_all. pose proof (sb_amounts _ _ _ S v) as E. unfold get_user_position_amount in E. rewrite E.
    induction (range 0 (positions_get_length s' v)) as [|i l IH]; cbn [mapM_res]; [reflexivity|].
    rewrite (proj1 (positions_lookup true u s s' M (v, i) (or_introl eq_refl))), IH. reflexivity.
Qed.

(** Two traces do stay, in queries that show the storage itself: the sign kept with
    a tick whose liquidity change is zero can flip, and a bitmap chunk that was
    never used is listed afterwards as an empty chunk. *)
Definition s_balanced : state := run_events admin 10000000000 (setup ++ [
  Call (by_ alice) (OpCreatePosition pool1 (-20) 10 100000000000 0 any_price);
  Call (by_ alice) (OpCreatePosition pool1 10 30 100000000000 0 any_price) ]).
Definition opened71 : state := exec_event s_balanced (Call (by_ bob) (OpCreatePosition pool1 10 60000 1000000 0 any_price)).
Definition closed71 : state := exec_event opened71 (Call (by_ bob) (OpRemovePosition 0)).

Theorem C71_storage_shows_refuted :
  exists evs s s1 s2, history room evs s /\
    s1 = exec_event s (Call (by_ bob) (OpCreatePosition pool1 10 60000 1000000 0 any_price)) /\
    s2 = exec_event s1 (Call (by_ bob) (OpRemovePosition (get_user_position_amount s bob))) /\
    get_user_position_amount s1 bob = 1 /\ get_user_position_amount s2 bob = 0 /\
    get_tick s2 pool1 10 <> get_tick s pool1 10 /\ get_tickmap s2 pool1 <> get_tickmap s pool1.
Proof.
  exists (setup ++ [
    Call (by_ alice) (OpCreatePosition pool1 (-20) 10 100000000000 0 any_price);
    Call (by_ alice) (OpCreatePosition pool1 10 30 100000000000 0 any_price) ]), s_balanced, opened71, closed71.
  split; [|split; [reflexivity|split; [reflexivity|]]].
  - apply history_room; [|reflexivity]. apply run_events_history; [unfold u128; lia|]. unfold setup. wf_events.
  - split; [vm_compute; reflexivity|]. split; [vm_compute; reflexivity|]. split; intros E.
    + apply (f_equal (fun r => match r with Ok t => t_sign t | _ => true end)) in E. vm_compute in E. discriminate E.
    + apply (f_equal (fun r => match r with Ok l => length l | _ => 0%nat end)) in E. vm_compute in E. discriminate E.
Qed.

(** A concrete case: Bob opens and closes a position in a pool with a balanced
    tick, and Carol then trades across that tick. *)
Definition later71 : list event := [
  Call (by_ carol) (OpSwap pool1 false 700 true any_price);
  Call (by_ alice) (OpClaimFee 0);
  Call (by_ carol) (OpSwap pool1 true 100 true 15258932000000000000) ].
Example C71_case :
  get_user_position_amount s_balanced bob = 0 /\
  is_Ok (create_position (by_ bob) s_balanced pool1 10 60000 1000000 0 any_price) = true /\
  is_Ok (remove_position (by_ bob) opened71 0) = true /\
  Forall event_wf later71 /\ Forall (not_by bob) later71 /\
  forallb is_Ok (answers s_balanced later71) = true /\ forallb is_Ok (answers closed71 later71) = true.
Proof.
  split; [vm_compute; reflexivity|]. split; [vm_compute; reflexivity|]. split; [vm_compute; reflexivity|].
  split; [unfold later71; wf_events|].
  split; [unfold later71; repeat constructor; intros E; vm_compute in E; discriminate E|].
  split; [vm_compute; reflexivity|]. vm_compute; reflexivity.
Qed.

(** ** Assumptions *)
Print Assumptions C71_no_trace.
Print Assumptions C71_nobody_notices.
Print Assumptions C71_come_and_gone.
Print Assumptions C71_queries.
Print Assumptions C71_storage_shows_refuted.
