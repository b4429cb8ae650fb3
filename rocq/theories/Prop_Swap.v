(** Properties C27-C30 and C40: swaps, quotes and routes.

    [history room evs s]: [s] is reached by [evs] and no owner ever held 2^32-1
    positions.  [bal s u t] is the balance of user [u] in token [t]. *)
From Verif Require Import Base Decimal SqrtPriceM LogM ClammM FeeGrowthM Types TickmapM StorageM
  CollectionsM StateM ServiceM Arith SpecMath SpecFees SpecSum SpecState SpecHistory SpecLoop SpecRoute SpecClean P_Clamm P_TickPrice P_Tickmap
  P_Fees P_Balance P_Effects P_Positions P_History P_Loop P_Check P_State P_Iter P_Inv P_InvPos P_PosOps P_InvSwap P_Swap
  P_SwapLoop P_InvHist P_Term P_Quote Cases CasesClean.
From stdpp Require Import gmap list.
From Coq Require Import ZArith Lia Bool.
Open Scope Z_scope.

Lemma room_Inv' evs s : history room evs s -> Inv s.
Proof. intros H. eapply Inv_history; [|exact H]. auto. Qed.

(** ** C27 *)

(** The loop of every swap that passes the initial checks runs its body at most
    443637 times (2^96 times for an exact output towards higher prices), and ends
    as the model says. *)
Theorem C27_swap_loop_terminates evs s ts k (d : bool) a (bi : bool) lim p tl : history room evs s -> u256 a ->
  pools_get s k = Ok p -> (if d then lim < p_sqrt_price p else p_sqrt_price p < lim) ->
  (if d then get_min_tick (pk_spacing k) else get_max_tick (pk_spacing k)) = Ok tl ->
  exists n r,
    takes (fun l => l_remaining l =? 0) (swap_iteration s k d bi lim tl ts) n (mkLoop p a 0 0 0 []) r /\
    Z.of_nat n <= (if d || bi then 443637 else 2 ^ 96) /\
    while_loop (fun l => l_remaining l =? 0) (swap_iteration s k d bi lim tl ts) (mkLoop p a 0 0 0 []) = r.
Proof.
  intros H Ha Hp Hl Ht. apply room_Inv' in H as I. apply pools_get_Ok in Hp.
  destruct (swap_takes s k d bi lim tl ts a p I Hp Ha Ht) as (j & r & T & Hj & _); [destruct d; exact Hl|].
  exists j, r. split; [exact T|]. split; [exact Hj|]. eapply while_takes; [exact T|].
  assert (iteration_bound d bi < 2 ^ 100) by (unfold iteration_bound; destruct (d || bi); lia). lia.
Qed.

(** [Loop] marks an exhausted iteration budget: no call and no quote produces it. *)
Theorem C27_calls_terminate evs s e o : history room evs s -> op_wf o -> run_op e s o <> Loop.
Proof. intros H W. apply run_op_noloop; auto. eapply room_Inv'; eauto. Qed.

Theorem C27_quotes_terminate evs s e k d a bi lim hops : history room evs s -> u256 a ->
  quote e s k d a bi lim <> Loop /\ quote_route e s a hops <> Loop.
Proof.
  intros H Ha. apply room_Inv' in H as I. split.
  - unfold quote. apply bind_noloop; [apply calculate_swap_noloop; auto|discriminate].
  - apply route_quote_noloop; auto.
Qed.

Example C27_case :
  history room evs_open s_open /\ is_Ok (pools_get s_open pool1) = true /\
  match pools_get s_open pool1 with
  | Ok p => 15258932000000000000 <? p_sqrt_price p | _ => false end = true /\
  get_min_tick (pk_spacing pool1) = Ok (-221810) /\
  match swap (by_ carol) s_open pool1 true 3000 true 15258932000000000000 with
  | Ok (_, r) => Some (length (cs_ticks r), cs_amount_out r) | _ => None end = Some (1%nat, 2965).
Proof. split; [apply s_open_room|]. crunch. Qed.

(** ** C28 *)

Theorem C28_exact_in_charges_amount evs s e k d a lim s' r : history room evs s -> u256 a -> 0 <= lim ->
  swap e s k d a true lim = Ok (s', r) -> cs_amount_in r = a /\ 0 < cs_amount_out r /\ 0 <= cs_fee r <= a.
Proof.
  intros H Ha Hl Hs. apply room_Inv' in H as I. apply swap_inv in Hs as (B & Hs & _).
  destruct (calculate_swap_pool _ _ _ _ _ _ _ _ Hs) as [p0 Hp0].
  destruct (swap_totals _ _ _ _ _ _ _ _ _ I Ha Hl Hp0 Hs) as (H1 & H2 & H3 & _). rewrite H1 in H3. auto.
Qed.

Theorem C28_exact_out_pays_amount evs s e k d a lim s' r : history room evs s -> u256 a -> 0 <= lim ->
  swap e s k d a false lim = Ok (s', r) -> cs_amount_out r = a /\ 0 < a /\ 0 <= cs_fee r <= cs_amount_in r.
Proof.
  intros H Ha Hl Hs. apply room_Inv' in H as I. apply swap_inv in Hs as (B & Hs & _).
  destruct (calculate_swap_pool _ _ _ _ _ _ _ _ Hs) as [p0 Hp0].
  destruct (swap_totals _ _ _ _ _ _ _ _ _ I Ha Hl Hp0 Hs) as (H1 & H2 & H3 & _). rewrite H1 in H2. auto.
Qed.

(** Towards higher prices, and towards lower prices with an exact output, the
    final price lies between the initial price and the limit. *)
Theorem C28_price_limit_respected evs s e k d (a : Z) (bi : bool) lim s' r p p' : history room evs s -> u256 a -> 0 <= lim ->
  swap e s k d a bi lim = Ok (s', r) -> pools_get s k = Ok p -> pools_get s' k = Ok p' ->
  d = false \/ bi = false ->
  if d then lim <= p_sqrt_price p' <= p_sqrt_price p else p_sqrt_price p <= p_sqrt_price p' <= lim.
Proof.
  intros H Ha Hl Hs Hp Hp' Hd. apply room_Inv' in H as I. apply swap_inv in Hs as (B & Hs & -> & _).
  apply pools_get_Ok in Hp, Hp'. cbn [set_balances set_pools s_pools] in Hp'. rewrite lookup_insert in Hp'. injection Hp' as <-.
  destruct (swap_totals _ _ _ _ _ _ _ _ _ I Ha Hl Hp Hs) as (_ & _ & _ & H4). destruct d; cbn [dirP] in H4; [|exact H4].
  destruct Hd as [|Hd]; [discriminate|]. destruct H4 as (H4 & H5 & _). specialize (H5 Hd). lia.
Qed.

(** Towards lower prices with an exact input it can end below the limit, by less
    than 10^24/limit units of the 24-decimal price. *)
Theorem C28_price_limit_exact_in_down evs s e k a lim s' r p p' : history room evs s -> u256 a -> 0 <= lim ->
  swap e s k true a true lim = Ok (s', r) -> pools_get s k = Ok p -> pools_get s' k = Ok p' ->
  p_sqrt_price p' <= p_sqrt_price p /\ (lim - p_sqrt_price p') * lim < 10 ^ 24.
Proof.
  intros H Ha Hl Hs Hp Hp'. apply room_Inv' in H as I. apply swap_inv in Hs as (B & Hs & -> & _).
  apply pools_get_Ok in Hp, Hp'. cbn [set_balances set_pools s_pools] in Hp'. rewrite lookup_insert in Hp'. injection Hp' as <-.
  destruct (swap_totals _ _ _ _ _ _ _ _ _ I Ha Hl Hp Hs) as (_ & _ & _ & H4 & _ & H5). auto.
Qed.

(** In particular the limit is respected whenever it is at least 10^24, the price of tick 0. *)
Theorem C28_price_limit_guarded evs s e k a lim s' r p' : history room evs s -> u256 a -> 10 ^ 24 <= lim ->
  swap e s k true a true lim = Ok (s', r) -> pools_get s' k = Ok p' -> lim <= p_sqrt_price p'.
Proof.
  intros H Ha Hl Hs Hp'. pose proof Hs as Hs'. apply swap_inv in Hs' as (B & Hc & _).
  destruct (calculate_swap_pool _ _ _ _ _ _ _ _ Hc) as [p Hp].
  destruct (C28_price_limit_exact_in_down evs s e k a lim s' r p p' H Ha ltac:(lia) Hs) as [_ H5]; [apply pools_get_Ok; auto|auto|].
  destruct (Z.le_gt_cases lim (p_sqrt_price p')); [auto|]. exfalso. nia.
Qed.

Definition low_price_events : list event := [
  Call (by_ admin) (OpAddFeeTier tier1);
  Call (by_ bob) (OpCreatePool tokB tokA tier1 16569455000000000000 (-220170));
  Credit alice tokA 100000000000000000000; Credit alice tokB 100000000000000000000;
  Credit carol tokA 100000000000000000000; Credit carol tokB 100000000000000000000;
  Call (by_ alice) (OpCreatePosition pool1 (-220220) (-220160) 10000000000000000000 0 any_price);
  Call (by_ carol) (OpSwap pool1 true 12335938239524096 true 15258932000000000000) ].
Definition s_low_price : state := run_events admin 10000000000 low_price_events.
Lemma low_price_room : history room low_price_events s_low_price.
Proof.
  apply history_room; [|reflexivity]. apply run_events_history; [unfold u128; lia|]. unfold low_price_events. wf_events.
Qed.

Definition final_price (r : res (state * calculate_swap_result)) : option Z :=
  match r with Ok (_, r) => Some (p_sqrt_price (cs_pool r)) | _ => None end.

Lemma final_price_inv r x : final_price r = Some x ->
  exists s' q, r = Ok (s', q) /\ p_sqrt_price (cs_pool q) = x.
Proof. destruct r as [[s' q]| | |]; try discriminate. intros [= <-]. eauto. Qed.
Definition final_out (r : res (state * calculate_swap_result)) : option Z :=
  match r with Ok (_, r) => Some (cs_amount_out r) | _ => None end.
Lemma final_out_inv r x : final_out r = Some x -> exists s' q, r = Ok (s', q) /\ cs_amount_out q = x.
Proof. destruct r as [[s' q]| | |]; try discriminate. intros [= <-]. eauto. Qed.
Definition route_out (r : res (state * Z)) : option Z := match r with Ok (_, o) => Some o | _ => None end.
Lemma route_out_inv r x : route_out r = Some x -> exists s', r = Ok (s', x).
Proof. destruct r as [[s' q]| | |]; try discriminate. intros [= <-]. eauto. Qed.

Theorem C28_price_limit_refuted : exists evs s e k a lim s' r p',
  history room evs s /\ u256 a /\ swap e s k true a true lim = Ok (s', r) /\
  pools_get s' k = Ok p' /\ p_sqrt_price p' < lim.
Proof.
  exists low_price_events, s_low_price, (by_ carol), pool1, 2922833092679144, 16528085000000000000.
  assert (E : final_price (swap (by_ carol) s_low_price pool1 true 2922833092679144 true 16528085000000000000)
              = Some 16528084999999999983) by (vm_compute; reflexivity).
  apply final_price_inv in E as (s' & r & Es & E).
  exists s', r, (cs_pool r). split; [apply low_price_room|]. split; [unfold u256; lia|]. split; [exact Es|].
  split; [|rewrite E; reflexivity].
  apply pools_get_Ok. apply swap_inv in Es as (B & _ & -> & _). cbn [set_balances set_pools s_pools]. apply lookup_insert.
Qed.

Example C28_case :
  history room evs_open s_open /\
  match swap (by_ carol) s_open pool1 true 3000 true 15258932000000000000 with
  | Ok (_, r) => Some (cs_amount_in r, cs_amount_out r, cs_fee r) | _ => None end = Some (3000, 2965, 31) /\
  match swap (by_ carol) s_open pool1 false 3000 false any_price with
  | Ok (_, r) => Some (cs_amount_in r, cs_amount_out r, cs_fee r) | _ => None end = None /\
  match swap (by_ carol) s_open pool1 false 150 false any_price with
  | Ok (_, r) => Some (cs_amount_in r, cs_amount_out r, cs_fee r) | _ => None end = Some (153, 150, 2).
Proof. split; [apply s_open_room|]. crunch. Qed.

(** ** C29 *)

(** A swap does what a quote made in the same state and block, by anyone, says. *)
Theorem C29_swap_does_what_quote_says e q s k d a bi lim s' r :
  e_timestamp q = e_timestamp e -> swap e s k d a bi lim = Ok (s', r) ->
  quote q s k d a bi lim
  = Ok (mkQuote (cs_amount_in r) (cs_amount_out r) (p_sqrt_price (cs_pool r)) (cs_ticks r)) /\
  pools_get s' k = Ok (cs_pool r).
Proof.
  intros Ht H. apply swap_inv in H as (B & H & -> & _). unfold quote. rewrite Ht, H. split; [reflexivity|].
  apply pools_get_Ok. cbn [set_balances set_pools s_pools]. apply lookup_insert.
Qed.

(** Conversely a quoted swap goes through when the caller holds the input and the output fits. *)
Theorem C29_quoted_swap_succeeds evs s e q k d a bi lim Q :
  history room evs s -> u256 a -> e_timestamp q = e_timestamp e ->
  quote q s k d a bi lim = Ok Q ->
  q_amount_in Q <= bal s (e_caller e) (if d then pk_token_x k else pk_token_y k) ->
  bal s (e_caller e) (if d then pk_token_y k else pk_token_x k) + q_amount_out Q < 2 ^ 256 ->
  exists s' r, swap e s k d a bi lim = Ok (s', r) /\ cs_amount_in r = q_amount_in Q /\
    cs_amount_out r = q_amount_out Q /\ p_sqrt_price (cs_pool r) = q_target_sqrt_price Q /\ cs_ticks r = q_ticks Q.
Proof.
  intros H Ha Ht HQ Hi Ho. apply room_Inv' in H as I. unfold quote in HQ. apply bind_Ok in HQ as (r & Hr & HQ).
  injection HQ as <-. cbn [q_amount_in q_amount_out q_target_sqrt_price q_ticks] in *. rewrite Ht in Hr.
  destruct (swap_ok e s k d a bi lim r I Ha Hr Hi Ho) as [s' E]. exists s', r. auto.
Qed.

(** A failing quote means a failing swap. *)
Theorem C29_failed_quote_failed_swap e q s k d a bi lim :
  e_timestamp q = e_timestamp e -> (forall Q, quote q s k d a bi lim <> Ok Q) ->
  forall s' r, swap e s k d a bi lim <> Ok (s', r).
Proof. intros Ht H s' r Hs. apply (C29_swap_does_what_quote_says e q) in Hs as [Hs _]; [|auto]. eapply H; eauto. Qed.

Example C29_case :
  history room evs_open s_open /\
  match quote (by_ bob) s_open pool1 true 3000 true 15258932000000000000 with
  | Ok Q => Some (q_amount_in Q, q_amount_out Q, q_target_sqrt_price Q, map t_index (q_ticks Q)) | _ => None end
  = Some (3000, 2965, 999177909711820159421355, [-10]) /\
  is_Ok (swap (by_ carol) s_open pool1 true 3000 true 15258932000000000000) = true /\
  is_Ok (quote (by_ bob) s_open pool1 true 3000000 true 15258932000000000000) = false /\
  bal s_open carol tokA = 1000000 /\ bal s_open carol tokB = 1000000.
Proof. split; [apply s_open_room|]. crunch. Qed.

(** ** C30 *)

Theorem C30_slippage_bound e s a expected slippage hops s' out : 0 <= expected ->
  swap_route e s a expected slippage hops = Ok (s', out) ->
  slippage <= 10 ^ 12 /\ expected * (10 ^ 12 - slippage) <= out * 10 ^ 12.
Proof.
  intros He H. unfold swap_route in H. apply bind_Ok in H as ([s1 o1] & _ & H).
  apply bind_Ok in H as (m & Em & H). apply bind_Ok in H as (u & Eu & H). apply fail_if_Ok in Eu. injection H as -> ->.
  unfold calculate_min_amount_out in Em. apply bind_Ok in Em as (rate & Er & Em).
  unfold dec_sub in Er. apply expect_Ok, checked_sub_Some in Er as [-> Er]. change PERCENTAGE_ONE with (10 ^ 12) in *.
  split; [exact Er|]. unfold token_big_mul_up_percentage, big_mul_up in Em. inv_res. subst.
  change PERCENTAGE_ONE with (10 ^ 12) in *. rewrite cdiv_eq_div in * by reflexivity.
  pose proof (cdiv_bounds (expected * (10 ^ 12 - slippage)) (10 ^ 12) eq_refl). lia.
Qed.

(** Each hop swaps exactly what the previous one paid; nobody else's balance moves. *)
Theorem C30_route_moves evs s e a expected slippage hops s' out : history room evs s -> u256 a ->
  swap_route e s a expected slippage hops = Ok (s', out) ->
  exists amounts, length amounts = S (length hops) /\ hd_error amounts = Some a /\ last amounts = Some out /\
    Forall (fun x => 0 < x) (tl amounts) /\
    forall u t, bal s' u t = bal s u t + (if u =? e_caller e then flow hops amounts t else 0).
Proof. intros H Ha Hs. apply room_Inv' in H as I. apply swap_route_inv in Hs. apply route_flow; auto. Qed.

(** When the tokens chain, the caller pays [a] of the first and receives [out] of the last. *)
Theorem C30_route_net_effect evs s e a expected slippage hops s' out t0 t1 : history room evs s -> u256 a ->
  swap_route e s a expected slippage hops = Ok (s', out) -> chained t0 hops t1 ->
  forall u t, bal s' u t =
    bal s u t + (if u =? e_caller e then (if t =? t1 then out else 0) - (if t =? t0 then a else 0) else 0).
Proof.
  intros H Ha Hs HC u t. destruct (C30_route_moves _ _ _ _ _ _ _ _ _ H Ha Hs) as (am & L1 & L2 & L3 & _ & L5).
  rewrite L5. rewrite (flow_chained hops t0 t1 am a out t HC L1 L2 L3). reflexivity.
Qed.

Theorem C30_quote_route_distinct_pools e q s a expected slippage hops s' out :
  e_timestamp q = e_timestamp e -> NoDup (map h_pool_key hops) ->
  swap_route e s a expected slippage hops = Ok (s', out) -> quote_route q s a hops = Ok out.
Proof.
  intros Ht ND H. apply swap_route_inv in H. unfold quote_route.
  assert (E : forall s a, route_quote q s a hops = route_quote e s a hops).
  { clear - Ht. induction hops as [|h hs IH]; cbn [route_quote]; intros s a; [reflexivity|].
    rewrite Ht. apply bind_ext. intros r. apply IH. }
  rewrite E. eapply route_quote_same; eauto. intros k _. unfold same_pool. auto.
Qed.

(** With a repeated pool the quote, made on the state before the route, is off. *)
Theorem C30_quote_route_refuted : exists evs s e a hops s' out q,
  history room evs s /\ swap_route e s a 0 0 hops = Ok (s', out) /\ quote_route e s a hops = Ok q /\ q <> out.
Proof.
  exists evs_open, s_open, (by_ carol), 300, [mkHop pool1 true; mkHop pool1 false].
  assert (E : route_out (swap_route (by_ carol) s_open 300 0 0 [mkHop pool1 true; mkHop pool1 false]) = Some 293)
    by (vm_compute; reflexivity).
  apply route_out_inv in E as [s' E].
  exists s', 293, 292. split; [apply s_open_room|]. split; [exact E|]. split; [vm_compute; reflexivity|discriminate].
Qed.

(** A route over two pools: A for B in [pool1], B for A in a pool of the other tier. *)
Definition pool2 : pool_key := mkPoolKey tokA tokB tier2.
Definition two_pools : list event := evs_open ++ [
  Call (by_ bob) (OpCreatePool tokB tokA tier2 1000000000000000000000000 0);
  Call (by_ alice) (OpCreatePosition pool2 (-7) 5 500000000000 0 any_price) ].
Definition s_two : state := run_events admin 10000000000 two_pools.
Definition two_hops : list swap_hop := [mkHop pool1 true; mkHop pool2 false].
Lemma two_room : history room two_pools s_two.
Proof.
  apply history_room; [|reflexivity]. apply run_events_history; [unfold u128; lia|].
  unfold two_pools, evs_open, setup, positions3. wf_events.
Qed.

Example C30_case :
  history room two_pools s_two /\ chained tokA two_hops tokA /\ NoDup (map h_pool_key two_hops) /\
  match swap_route (by_ carol) s_two 300 295 10000000000 two_hops with
  | Ok (s', o) => Some (o, bal s' carol tokA - bal s_two carol tokA, bal s' carol tokB - bal s_two carol tokB)
  | _ => None end = Some (294, -6, 0) /\
  quote_route (by_ bob) s_two 300 two_hops = Ok 294 /\
  is_Ok (swap_route (by_ carol) s_two 300 298 10000000000 two_hops) = false.
Proof.
  split; [apply two_room|]. split; [repeat split|]. split.
  { cbn. repeat constructor; set_solver. }
  crunch.
Qed.

(** ** C40 *)

(** A pool with little liquidity at the current price and much more below: an
    exact-in swap buys 197762973 units, but asking for 100000000 of them fails. *)
Definition thin_events : list event := setup ++ [
  Credit alice tokA 100000000000000; Credit alice tokB 100000000000000;
  Credit bob tokA 100000000000000; Credit bob tokB 100000000000000; Credit carol tokA 100000000000000;
  Call (by_ alice) (OpCreatePosition pool1 (-10) 10 1000000000000 0 any_price);
  Call (by_ bob) (OpCreatePosition pool1 (-30) (-10) 100000000000000000 0 any_price)].
Definition s_thin : state := run_events admin 10000000000 thin_events.

Theorem C40_exact_out_refuted : exists evs s e k lim a b s' r,
  history regular evs s /\ u256 a /\ u256 b /\ a < cs_amount_out r /\
  swap e s k true b true lim = Ok (s', r) /\
  swap e s k true a false lim = Panic.
Proof.
  exists thin_events, s_thin, (by_ carol), pool1, 15258932000000000000, 100000000, 200000000.
  assert (E : final_out (swap (by_ carol) s_thin pool1 true 200000000 true 15258932000000000000) = Some 197762973)
    by (vm_compute; reflexivity).
  apply final_out_inv in E as (s' & r & E & Eo).
  exists s', r. split.
  { apply run_regular; [unfold u128; lia| |reflexivity|vm_compute; reflexivity]. unfold thin_events, setup. wf_events. }
  split; [unfold u256; lia|]. split; [unfold u256; lia|]. split; [rewrite Eo; reflexivity|].
  split; [exact E|vm_compute; reflexivity].
Qed.

(** ** Assumptions *)
Print Assumptions C27_swap_loop_terminates.
Print Assumptions C27_calls_terminate.
Print Assumptions C27_quotes_terminate.
Print Assumptions C28_exact_in_charges_amount.
Print Assumptions C28_exact_out_pays_amount.
Print Assumptions C28_price_limit_respected.
Print Assumptions C28_price_limit_exact_in_down.
Print Assumptions C28_price_limit_guarded.
Print Assumptions C28_price_limit_refuted.
Print Assumptions C29_swap_does_what_quote_says.
Print Assumptions C29_quoted_swap_succeeds.
Print Assumptions C29_failed_quote_failed_swap.
Print Assumptions C30_slippage_bound.
Print Assumptions C30_route_moves.
Print Assumptions C30_route_net_effect.
Print Assumptions C30_quote_route_distinct_pools.
Print Assumptions C30_quote_route_refuted.
Print Assumptions C40_exact_out_refuted.
