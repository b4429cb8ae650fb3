(** C77: time and block numbers do not influence money.

    [timeless], [timeless_event], [timeless_answer], [created_by], [all_dated] and
    [in_order] are defined in SpecClock.v; [answers] and [run] in SpecIndep.v. *)
From Verif Require Import Base Decimal SqrtPriceM LogM ClammM FeeGrowthM Types TickmapM StorageM
  CollectionsM StateM ServiceM SpecMath SpecState SpecHistory SpecIndep SpecClock
  P_Clamm P_Effects P_State P_History P_Indep P_Anon P_Clock Cases.
From stdpp Require Import gmap list.
From Coq Require Import ZArith Lia Bool.
Open Scope Z_scope.

(** Blotting out the clock in a history blots it out in its outcome and changes
    nothing else, if no swap uses a pool created after it. *)
Theorem C77_clock s evs : all_dated s evs ->
  answers (timeless s) (map timeless_event evs) = map timeless_answer (answers s evs) /\
  run (timeless s) (map timeless_event evs) = timeless (run s evs).
Proof. apply run_clk. Qed.

(** That is so whenever the clock never goes back. *)
Theorem C77_in_order admin fee evs now : in_order now evs -> all_dated (init_state admin fee) evs.
Proof. intros O. apply (in_order_dated evs now); [|exact O]. intros k p Hp. cbn in Hp. now rewrite lookup_empty in Hp. Qed.

(** The same calls made at other times get the same answers and leave the same
    balances, the same positions, the same pools and the same ticks. *)
Theorem C77_any_clock admin fee evs evs' now now' :
  map timeless_event evs' = map timeless_event evs -> in_order now evs -> in_order now' evs' ->
  let s := run (init_state admin fee) evs in let s' := run (init_state admin fee) evs' in
  map timeless_answer (answers (init_state admin fee) evs') = map timeless_answer (answers (init_state admin fee) evs) /\
  (forall u, get_user_balances s' u = get_user_balances s u) /\
  (forall u i, timeless_position <$> s_positions s' !! (u, i) = timeless_position <$> s_positions s !! (u, i)) /\
  (forall k, timeless_pool <$> s_pools s' !! k = timeless_pool <$> s_pools s !! k) /\
  (forall k i, timeless_tick <$> s_ticks s' !! (k, i) = timeless_tick <$> s_ticks s !! (k, i)) /\
  s_bitmap s' = s_bitmap s /\ s_awaiting s' = s_awaiting s /\
  get_fee_tiers s' = get_fee_tiers s /\ get_protocol_fee s' = get_protocol_fee s /\
  (forall size offset, get_pool_keys s' size offset = get_pool_keys s size offset).
Proof.
  intros E O O'. destruct (C77_clock _ _ (C77_in_order admin fee _ _ O)) as [A R].
  destruct (C77_clock _ _ (C77_in_order admin fee _ _ O')) as [A' R']. cbv zeta. rewrite <- A, <- A', E. split; [reflexivity|].
  rewrite E, R in R'. clear - R'. set (s := run _ evs) in *. set (s' := run _ evs') in *. clearbody s s'.
  split; [intros u; unfold get_user_balances; now rewrite (f_equal s_balances R' : s_balances s = s_balances s')|].
  split; [intros u i; rewrite <- !lookup_fmap; symmetry; exact (f_equal (fun t => s_positions t !! (u, i)) R')|].
  split; [intros k; rewrite <- !lookup_fmap; symmetry; exact (f_equal (fun t => s_pools t !! k) R')|].
  split; [intros k i; rewrite <- !lookup_fmap; symmetry; exact (f_equal (fun t => s_ticks t !! (k, i)) R')|].
  split; [symmetry; exact (f_equal s_bitmap R')|]. split; [symmetry; exact (f_equal s_awaiting R')|].
  split; [symmetry; exact (f_equal s_fee_tiers R')|]. split; [symmetry; exact (f_equal s_protocol_fee R')|].
  intros size offset. change (get_pool_keys s' size offset) with (get_pool_keys (timeless s') size offset). now rewrite <- R'.
Qed.

(** A quote does not depend on when it is asked for, nor does a route's. *)
Theorem C77_quote s k d a b lim e e' : created_by (e_timestamp e) s k -> created_by (e_timestamp e') s k ->
  timeless_quote (quote e' s k d a b lim) = timeless_quote (quote e s k d a b lim).
Proof.
  assert (X : forall e, created_by (e_timestamp e) s k -> timeless_quote (quote e s k d a b lim) = quote (timeless_env e) (timeless s) k d a b lim).
  { clear. intros e H. apply (calculate_swap_clk s _ k d a b lim) in H as [H _]. unfold quote. cbn [timeless_env e_timestamp]. rewrite H.
    destruct (calculate_swap s _ _ _ _ _ _); reflexivity. }
  intros H H'. now rewrite (X e H), (X e' H').
Qed.
Theorem C77_quote_route s a hops e e' :
  (forall h, h ∈ hops -> created_by (e_timestamp e) s (h_pool_key h) /\ created_by (e_timestamp e') s (h_pool_key h)) ->
  quote_route e' s a hops = quote_route e s a hops.
Proof.
  unfold quote_route. revert a. induction hops as [|h hops IH]; intros a H; cbn [route_quote]; [reflexivity|].
  destruct (H h) as [H1 H2]; [left|]. apply (calculate_swap_clk s _ _ (h_x_to_y h) a true (hop_limit (h_x_to_y h))) in H1 as [H1 _].
  apply (calculate_swap_clk s _ _ (h_x_to_y h) a true (hop_limit (h_x_to_y h))) in H2 as [H2 _]. rewrite H1 in H2.
  specialize (fun a => IH a (fun h' I => H h' (elem_of_list_further _ _ _ I))).
  destruct (calculate_swap s (e_timestamp e) _ _ _ _ _) as [r| | |], (calculate_swap s (e_timestamp e') _ _ _ _ _) as [r'| | |];
    cbn [rmap bind] in *; try discriminate H2; [|injection H2 as <-; reflexivity|reflexivity..].
  assert (A : cs_amount_out r' = cs_amount_out r) by (symmetry; exact (f_equal (fun x => match x with Ok r => cs_amount_out r | _ => 0 end) H2)). now rewrite IH, A.
Qed.

(** Were the clock to go back, a swap that crosses a tick could fail where the same
    swap made later goes through. *)
Definition at_time (t : Z) (ev : event) : event :=
  match ev with Call e o => Call (mkEnv (e_caller e) t (e_block e) (e_value e) (e_gas e) (e_program e)) o | _ => ev end.
Definition evs_back : list event := setup ++ positions3 ++ map (at_time 999) swaps.
Definition goes_through (a : res reply) : bool := match a with Ok _ => true | _ => false end.
Theorem C77_clock_back_refuted :
  map timeless_event evs_back = map timeless_event evs_traded /\
  forallb goes_through (answers (init_state admin 10000000000) evs_traded) = true /\
  forallb goes_through (answers (init_state admin 10000000000) evs_back) = false.
Proof. split; [reflexivity|]. split; vm_compute; reflexivity. Qed.

(** The traded history, with its calls made at one instant and spread over a year. *)
Definition evs_slow : list event :=
  map (at_time 1000) setup ++ map (at_time 2000000) positions3 ++ map (at_time 33000000) swaps.
Example C77_case : map timeless_event evs_slow = map timeless_event evs_traded /\ in_order 1000 evs_traded /\ in_order 1000 evs_slow /\
  answers (init_state admin 10000000000) evs_slow <> answers (init_state admin 10000000000) evs_traded /\
  forallb goes_through (answers (init_state admin 10000000000) evs_slow) = true.
Proof.
  split; [reflexivity|]. split; [cbn; lia|]. split; [cbn; lia|]. split; [|vm_compute; reflexivity].
  intros E. apply (f_equal (fun l => match nth 12 l Panic with Ok (RSwap r) => p_last_timestamp (cs_pool r) | _ => 0 end)) in E.
  revert E. vm_compute. discriminate.
Qed.

(** ** Assumptions *)
Print Assumptions C77_clock.
Print Assumptions C77_in_order.
Print Assumptions C77_any_clock.
Print Assumptions C77_quote.
Print Assumptions C77_quote_route.
Print Assumptions C77_clock_back_refuted.
