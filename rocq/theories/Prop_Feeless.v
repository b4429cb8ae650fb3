(** C80: how fees are divided concerns only those who are paid fees.

    [same_market], [same_trade], [feeless_answer], [feeless_quote] and [ends] are defined in
    SpecFeeless.v; [answers] and [run] in SpecIndep.v. *)
From Verif Require Import Base Decimal SqrtPriceM LogM ClammM FeeGrowthM Types TickmapM StorageM
  CollectionsM StateM ServiceM SpecHistory SpecIndep SpecFeeless P_Effects P_History P_Feeless Cases.
From stdpp Require Import gmap list.
From Coq Require Import ZArith Lia Bool.
Open Scope Z_scope.

(** Two exchanges with the same market, whatever their protocol fees and whatever fees
    were collected before, give the same answers to the same calls, and have the same market
    afterwards, as long as no fees are paid out.  That covers a protocol fee changed differently on the way. *)
Theorem C80_same_market s s' evs evs' : same_market s s' -> Forall2 same_trade evs evs' ->
  Forall ends (answers s evs) -> Forall ends (answers s' evs') ->
  map feeless_answer (answers s' evs') = map feeless_answer (answers s evs) /\
  same_market (run s evs) (run s' evs').
Proof. intros M T. now apply run_sim. Qed.

(** In particular another protocol fee leaves every user the same balances, and every pool
    the same price, tick and liquidity. *)
Theorem C80_protocol_fee s f evs evs' : Forall2 same_trade evs evs' ->
  Forall ends (answers s evs) -> Forall ends (answers (set_protocol_fee f s) evs') ->
  map feeless_answer (answers (set_protocol_fee f s) evs') = map feeless_answer (answers s evs) /\
  (forall u, get_user_balances (run (set_protocol_fee f s) evs') u = get_user_balances (run s evs) u) /\
  (forall k p, get_pool (run s evs) (pk_token_x k) (pk_token_y k) (pk_fee_tier k) = Ok p ->
     exists p', get_pool (run (set_protocol_fee f s) evs') (pk_token_x k) (pk_token_y k) (pk_fee_tier k) = Ok p' /\
       p_sqrt_price p' = p_sqrt_price p /\ p_current_tick_index p' = p_current_tick_index p /\
       p_liquidity p' = p_liquidity p).
Proof.
  intros T E E'. assert (M : same_market s (set_protocol_fee f s)) by (split; reflexivity).
  destruct (C80_same_market _ _ _ _ M T E E') as [A N]. split; [exact A|]. split.
  - intros u. unfold get_user_balances. now rewrite (sm_balances _ _ N).
  - intros k p. unfold get_pool. destruct (pool_key_new _ _ _) as [k'| | |]; cbn [bind]; try discriminate. intros H.
    pose proof (get_pool_sim _ _ k' N) as G. rewrite H in G. destruct (pools_get (run (set_protocol_fee f s) evs') k') as [p'| | |] eqn:E1; cbn in G; try contradiction.
    + exists p'. split; [reflexivity|]. apply psim_inv in G as (-> & -> & -> & _). auto.
    + unfold pools_get in E1. destruct (_ !! _); discriminate.
    + unfold pools_get in E1. destruct (_ !! _); discriminate.
Qed.

(** Likewise if the exchanges are set up with different protocol fees. *)
Theorem C80_from_the_start admin f f' evs evs' : Forall2 same_trade evs evs' ->
  Forall ends (answers (init_state admin f) evs) -> Forall ends (answers (init_state admin f') evs') ->
  map feeless_answer (answers (init_state admin f') evs') = map feeless_answer (answers (init_state admin f) evs) /\
  (forall u, get_user_balances (run (init_state admin f') evs') u = get_user_balances (run (init_state admin f) evs) u) /\
  (forall u i, feeless_position <$> s_positions (run (init_state admin f') evs') !! (u, i) =
               feeless_position <$> s_positions (run (init_state admin f) evs) !! (u, i)).
Proof.
  intros T E E'. assert (M : same_market (init_state admin f) (init_state admin f')) by (split; reflexivity).
  destruct (C80_same_market _ _ _ _ M T E E') as [A N]. split; [exact A|]. split.
  - intros u. unfold get_user_balances. now rewrite (sm_balances _ _ N).
  - intros u i. rewrite <- !lookup_fmap. now rewrite (sm_positions _ _ N).
Qed.

(** Quotes are the same too. *)
Theorem C80_quote e s s' k d a b lim : same_market s s' ->
  match quote e s k d a b lim, quote e s' k d a b lim with
  | Ok q, Ok q' => feeless_quote q' = feeless_quote q
  | Err x, Err x' => x' = x
  | Ok _, Err _ | Err _, Ok _ => False
  | _, _ => True
  end.
Proof.
  intros M. pose proof (quote_sim e s s' k d a b lim M) as Q.
  destruct (quote e s k d a b lim), (quote e s' k d a b lim); cbn in Q; auto.
Qed.
Theorem C80_quote_route e s s' a hops : same_market s s' ->
  ends (quote_route e s a hops) -> ends (quote_route e s' a hops) -> quote_route e s' a hops = quote_route e s a hops.
Proof.
  intros M. pose proof (route_quote_sim e s s' hops M a) as Q. unfold quote_route.
  destruct (route_quote e s a hops), (route_quote e s' a hops); cbn in Q |- *; try contradiction; intros _ _; congruence.
Qed.

(** The condition that no call panics cannot be dropped: under a protocol fee of twice the
    whole, which the administrator may set, the swap panics. *)
Theorem C80_protocol_fee_refuted : exists evs s ev e,
  history room evs s /\ ends (answer s ev) /\
  answer s (Call e (OpChangeProtocolFee 2000000000000)) = Ok (RFee 2000000000000) /\
  answer (exec_event s (Call e (OpChangeProtocolFee 2000000000000))) ev = Panic.
Proof.
  exists evs_traded, s_traded, (Call (by_ carol) (OpSwap pool1 false 1000 true any_price)), (by_ admin).
  split; [apply s_traded_room|]. split; [vm_compute; exact Logic.I|]. split; vm_compute; reflexivity.
Qed.

(** The positions of Cases.v are opened, and two exchanges part: in one the protocol
    keeps its 1%, in the other its share is made 60% and later 0.  Both then see the same
    trades, with ticks crossed and a position opened and given away.  Carol ends with the same balances; the protocol does not. *)
Definition trades (fee1 fee2 : Z) : list event := [
  Call (by_ admin) (OpChangeProtocolFee fee1);
  Call (by_ carol) (OpSwap pool1 true 3000 true 15258932000000000000);
  Call (by_ carol) (OpSwap pool1 false 100 false any_price);
  Credit carol tokB 5000;
  Call (by_ admin) (OpChangeProtocolFee fee2);
  Call (by_ carol) (OpSwapRoute 2000 1900 50000000000 [mkHop pool1 false]);
  Call (by_ bob) (OpSwap pool1 true 5000000 true 15258932000000000000);
  Call (by_ bob) (OpCreatePosition pool1 (-40) 20 50000000000 0 any_price);
  Call (by_ bob) (OpTransferPosition 1 carol);
  Call (by_ bob) (OpCreatePool tokA tokB tier2 1000000000000000000000000 0);
  Call (by_ carol) (OpSwap pool1 true 4000 true 15258932000000000000);
  Debit carol tokA (Some 10) ].
Definition protocol_tokens (s : state) : option (Z * Z) :=
  (fun p => (p_fee_protocol_token_x p, p_fee_protocol_token_y p)) <$> s_pools s !! pool1.
Definition told_of (a : res reply) : option (Z * Z) :=
  match a with Ok (RSwap r) => Some (cs_amount_in r, cs_amount_out r) | Ok (RAmount z) => Some (z, z) | _ => None end.
Example C80_case :
  history room evs_open s_open /\
  Forall2 same_trade (trades 10000000000 10000000000) (trades 600000000000 0) /\
  Forall ends (answers s_open (trades 10000000000 10000000000)) /\
  Forall ends (answers s_open (trades 600000000000 0)) /\
  map told_of (answers s_open (trades 600000000000 0)) =
    [None; Some (3000, 2965); Some (101, 100); None; None; Some (1979, 1979); None;
     None; None; None; Some (4000, 3951); Some (10, 10)] /\
  protocol_tokens (run s_open (trades 10000000000 10000000000)) = Some (5, 3) /\
  protocol_tokens (run s_open (trades 600000000000 0)) = Some (19, 1).
Proof.
  split; [apply s_open_room|]. split; [repeat constructor; cbn; eauto|].
  split; [vm_compute; repeat constructor|]. split; [vm_compute; repeat constructor|]. split; [|split]; vm_compute; reflexivity.
Qed.

(** ** Assumptions *)
Print Assumptions C80_same_market.
Print Assumptions C80_protocol_fee.
Print Assumptions C80_from_the_start.
Print Assumptions C80_quote.
Print Assumptions C80_quote_route.
Print Assumptions C80_protocol_fee_refuted.
