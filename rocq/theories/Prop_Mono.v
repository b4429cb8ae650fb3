(** Property C79: whoever offers more is paid no less, whoever wants more pays no less.
    Proved for orders that fix an amount of token y: y wanted (x to y, by amount out)
    exactly, y offered (y to x, by amount in) up to one part in 10^14 and one unit.  That
    margin is needed, and for orders that fix an amount of token x the rule fails at low
    prices: see the refutations. *)
From Verif Require Import Base Decimal SqrtPriceM LogM ClammM FeeGrowthM Types TickmapM StorageM
  CollectionsM StateM ServiceM Arith SpecMath SpecSum SpecState SpecHistory
  P_Clamm P_Balance P_Effects P_History P_Loop P_Check P_State P_Inv P_InvPos P_InvHist P_Mono Prop_Ticks Cases.
From stdpp Require Import gmap list.
From Coq Require Import ZArith Lia Bool.
Open Scope Z_scope.

(** Whoever wants more y pays at least as much x, of which at least as much is fee, and
    moves the price at least as far. *)
Theorem C79_more_wanted_costs_more evs s e k a a' lim q q' :
  history room evs s -> u256 a -> u256 a' -> a <= a' ->
  quote e s k true a false lim = Ok q -> quote e s k true a' false lim = Ok q' ->
  q_amount_in q <= q_amount_in q' /\ q_target_sqrt_price q' <= q_target_sqrt_price q.
Proof.
  intros H Ha Ha' Hle Q Q'. apply room_Inv in H as I. unfold quote in Q, Q'.
  apply bind_Ok in Q as (r & C & Q). injection Q as <-. apply bind_Ok in Q' as (r' & C' & Q'). injection Q' as <-.
  pose proof (calculate_swap_two s (e_timestamp e) k false a a' lim r r' I Ha Ha' Hle C C') as (T1 & T2 & _). cbn. auto.
Qed.
(** The same for two swaps that could be made in the same state. *)
Theorem C79_more_wanted_costs_more_swap evs s e k a a' lim s1 s1' r r' :
  history room evs s -> u256 a -> u256 a' -> a <= a' ->
  swap e s k true a false lim = Ok (s1, r) -> swap e s k true a' false lim = Ok (s1', r') ->
  cs_amount_in r <= cs_amount_in r' /\ cs_fee r <= cs_fee r' /\ p_sqrt_price (cs_pool r') <= p_sqrt_price (cs_pool r).
Proof.
  intros H Ha Ha' Hle Q Q'. apply room_Inv in H as I.
  apply swap_inv in Q as (B & C & _). apply swap_inv in Q' as (B' & C' & _).
  pose proof (calculate_swap_two s (e_timestamp e) k false a a' lim r r' I Ha Ha' Hle C C') as (T1 & T2 & T3). auto.
Qed.

(** Whoever offers more y moves the price at least as far, and is paid at least as much x
    up to one part in 10^14 and one unit. *)
Theorem C79_more_offered_yields_more evs s e k a a' lim q q' :
  history room evs s -> u256 a -> u256 a' -> a <= a' ->
  quote e s k false a true lim = Ok q -> quote e s k false a' true lim = Ok q' ->
  q_target_sqrt_price q <= q_target_sqrt_price q' /\
  q_amount_out q <= q_amount_out q' + q_amount_out q / 10 ^ 14 + 1.
Proof.
  intros H Ha Ha' Hle Q Q'. apply room_Inv in H as I. unfold quote in Q, Q'.
  apply bind_Ok in Q as (r & C & Q). injection Q as <-. apply bind_Ok in Q' as (r' & C' & Q'). injection Q' as <-.
  pose proof (calculate_swap_two s (e_timestamp e) k true a a' lim r r' I Ha Ha' Hle C C') as (T1 & T2). cbn [q_target_sqrt_price q_amount_out].
  split; [exact T1|]. assert (cs_amount_out r - cs_amount_out r' - 1 <= cs_amount_out r / 10 ^ 14); [|lia].
  apply div_le_lower; [reflexivity|]. lia.
Qed.
Theorem C79_more_offered_yields_more_swap evs s e k a a' lim s1 s1' r r' :
  history room evs s -> u256 a -> u256 a' -> a <= a' ->
  swap e s k false a true lim = Ok (s1, r) -> swap e s k false a' true lim = Ok (s1', r') ->
  p_sqrt_price (cs_pool r) <= p_sqrt_price (cs_pool r') /\
  cs_amount_out r <= cs_amount_out r' + cs_amount_out r / 10 ^ 14 + 1.
Proof.
  intros H Ha Ha' Hle Q Q'. apply room_Inv in H as I.
  apply swap_inv in Q as (B & C & _). apply swap_inv in Q' as (B' & C' & _).
  pose proof (calculate_swap_two s (e_timestamp e) k true a a' lim r r' I Ha Ha' Hle C C') as (T1 & T2).
  split; [exact T1|]. assert (cs_amount_out r - cs_amount_out r' - 1 <= cs_amount_out r / 10 ^ 14); [|lia].
  apply div_le_lower; [reflexivity|]. lia.
Qed.

(** ** Where the rule fails *)

Definition quoted (r : res quote_result) : option (Z * Z) :=
  match r with Ok q => Some (q_amount_in q, q_amount_out q) | _ => None end.
Lemma quoted_inv r i o : quoted r = Some (i, o) -> exists q, r = Ok q /\ q_amount_in q = i /\ q_amount_out q = o.
Proof. destruct r as [q| | |]; try discriminate. intros [= <- <-]. eauto. Qed.

(** A pool at a price of about 2.7 * 10^-10 with one position. *)
Definition cheap_events (fee liq : Z) : list event := [
  Call (by_ admin) (OpAddFeeTier (mkFeeTier fee 10));
  Call (by_ bob) (OpCreatePool tokB tokA (mkFeeTier fee 10) 16569455000000000000 (-220170));
  Credit alice tokA 1000000000000000000000000000000; Credit alice tokB 1000000000000000000000000000000;
  Call (by_ alice) (OpCreatePosition (mkPoolKey tokA tokB (mkFeeTier fee 10)) (-220670) (-219000) liq 0 any_price) ].
Definition cheap_pool (fee : Z) : pool_key := mkPoolKey tokA tokB (mkFeeTier fee 10).
Definition s_cheap (fee liq : Z) : state := run_events admin 10000000000 (cheap_events fee liq).
Definition carol_buys : list event :=
  [Credit carol tokB 12345678901234567; Call (by_ carol) (OpSwap (cheap_pool 1) false 12345678901234567 true any_price)].
Definition s_bought : state := run_events admin 10000000000 (cheap_events 1 (10 ^ 28) ++ carol_buys).

Ltac cheap_history := apply history_room; [|vm_compute; reflexivity]; apply run_events_history; [unfold u128; lia|];
  unfold cheap_events, carol_buys, app; wf_events.
Lemma cheap_room1 : history room (cheap_events 10000000000 (10 ^ 26)) (s_cheap 10000000000 (10 ^ 26)).
Proof. cheap_history. Qed.
Lemma cheap_room2 : history room (cheap_events 10000000000 (10 ^ 16)) (s_cheap 10000000000 (10 ^ 16)).
Proof. cheap_history. Qed.
Lemma cheap_room3 : history room (cheap_events 1 (10 ^ 28) ++ carol_buys) s_bought.
Proof. cheap_history. Qed.

(** y to x by amount in: one unit of y more, 6344402514 units of x less. *)
Theorem C79_more_offered_yields_more_refuted :
  exists evs s e k a q q', history room evs s /\ quote e s k false a true any_price = Ok q /\
    quote e s k false (a + 1) true any_price = Ok q' /\ q_amount_out q' + 6000000000 < q_amount_out q.
Proof.
  exists (cheap_events 10000000000 (10 ^ 26)), (s_cheap 10000000000 (10 ^ 26)), (by_ carol), (cheap_pool 10000000000), 822649222225688.
  destruct (quoted_inv (quote (by_ carol) (s_cheap 10000000000 (10 ^ 26)) (cheap_pool 10000000000) false 822649222225688 true any_price)
    822649222225688 2827450453979371671691189) as (q & Q1 & Q2 & Q3); [vm_compute; reflexivity|].
  destruct (quoted_inv (quote (by_ carol) (s_cheap 10000000000 (10 ^ 26)) (cheap_pool 10000000000) false (822649222225688 + 1) true any_price)
    822649222225689 2827450453979365327288675) as (q' & Q1' & Q2' & Q3'); [vm_compute; reflexivity|].
  exists q, q'. split; [exact cheap_room1|]. split; [exact Q1|]. split; [exact Q1'|]. rewrite Q3, Q3'. reflexivity.
Qed.

(** x to y by amount in: one unit of x more, less y.  The order for less passes the tick
    without crossing it (C06); the order for more stops at it. *)
Theorem C79_more_x_offered_refuted :
  exists evs s e k a lim q q', history room evs s /\ quote e s k true a true lim = Ok q /\
    quote e s k true (a + 1) true lim = Ok q' /\ q_amount_out q' < q_amount_out q.
Proof.
  exists (cheap_events 1 (10 ^ 28) ++ carol_buys), s_bought, (by_ carol), (cheap_pool 1), 197408989287001454571351438, 15258932000000000000.
  destruct (quoted_inv (quote (by_ carol) s_bought (cheap_pool 1) true 197408989287001454571351438 true 15258932000000000000)
    197408989287001454571351438 53253778901222335) as (q & Q1 & Q2 & Q3); [vm_compute; reflexivity|].
  destruct (quoted_inv (quote (by_ carol) s_bought (cheap_pool 1) true (197408989287001454571351438 + 1) true 15258932000000000000)
    197408989287001454571351439 53253778901222221) as (q' & Q1' & Q2' & Q3'); [vm_compute; reflexivity|].
  exists q, q'. split; [exact cheap_room3|]. split; [exact Q1|]. split; [exact Q1'|]. rewrite Q3, Q3'. reflexivity.
Qed.

(** y to x by amount out: one unit of x more, less y to pay.  The order for less is filled
    in two steps, each rounded against the trader (C07); the order for more in one. *)
Theorem C79_more_x_wanted_refuted :
  exists evs s e k a lim q q', history room evs s /\ quote e s k false a false lim = Ok q /\
    quote e s k false (a + 1) false lim = Ok q' /\ q_amount_in q' < q_amount_in q.
Proof.
  exists (cheap_events 10000000000 (10 ^ 16)), (s_cheap 10000000000 (10 ^ 16)), (by_ carol), (cheap_pool 10000000000), 732608386598, any_price.
  destruct (quoted_inv (quote (by_ carol) (s_cheap 10000000000 (10 ^ 16)) (cheap_pool 10000000000) false 732608386598 false any_price)
    207 732608386598) as (q & Q1 & Q2 & Q3); [vm_compute; reflexivity|].
  destruct (quoted_inv (quote (by_ carol) (s_cheap 10000000000 (10 ^ 16)) (cheap_pool 10000000000) false (732608386598 + 1) false any_price)
    205 732608386599) as (q' & Q1' & Q2' & Q3'); [vm_compute; reflexivity|].
  exists q, q'. split; [exact cheap_room2|]. split; [exact Q1|]. split; [exact Q1'|]. rewrite Q2, Q2'. reflexivity.
Qed.

(** The hypotheses are met by swaps that cross ticks: in the running example y is bought
    and sold in growing amounts. *)
Example C79_case :
  history room evs_traded s_traded /\
  map (fun a => quoted (quote (by_ carol) s_traded pool1 true a false 15258932000000000000)) [1; 50; 150; 300] =
    [Some (3, 1); Some (52, 50); Some (153, 150); Some (305, 300)] /\
  map (fun a => quoted (quote (by_ carol) s_traded pool1 false a true any_price)) [50; 1000; 3000; 5000] =
    [Some (50, 49); Some (1000, 989); Some (3000, 2969); Some (5000, 4948)].
Proof. split; [apply s_traded_room|]. split; vm_compute; reflexivity. Qed.

(** ** Assumptions *)
Print Assumptions C79_more_wanted_costs_more.
Print Assumptions C79_more_wanted_costs_more_swap.
Print Assumptions C79_more_offered_yields_more.
Print Assumptions C79_more_offered_yields_more_swap.
Print Assumptions C79_more_offered_yields_more_refuted.
Print Assumptions C79_more_x_offered_refuted.
Print Assumptions C79_more_x_wanted_refuted.
