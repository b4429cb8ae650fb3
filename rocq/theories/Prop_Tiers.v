(** C81: a fee tier taken off the list leaves the pools that use it alone.

    [same_but_tiers] and [for_both] are defined in SpecTiers.v; [answers] and [run] in
    SpecIndep.v. *)
From Verif Require Import Base Decimal SqrtPriceM LogM ClammM FeeGrowthM Types TickmapM StorageM
  CollectionsM StateM ServiceM SpecMath SpecState SpecHistory SpecIndep SpecTiers P_Effects P_History P_State P_Tiers Cases Prop_State.
From stdpp Require Import gmap list.
From Coq Require Import ZArith Lia Bool.
Open Scope Z_scope.

(** Exchanges that differ in the fee tiers on offer give the same answers to the same calls
    and go on to differ in nothing else, if no call changes the offer or opens a pool with a
    fee tier that only one of them offers. *)
Theorem C81_any_offer s s' evs : same_but_tiers s s' ->
  Forall (for_both (get_fee_tiers s) (get_fee_tiers s')) evs ->
  answers s' evs = answers s evs /\ same_but_tiers (run s evs) (run s' evs) /\
  get_fee_tiers (run s evs) = get_fee_tiers s /\ get_fee_tiers (run s' evs) = get_fee_tiers s'.
Proof.
  unfold get_fee_tiers. intros S F. apply same_but_off in S. red in S. set (l := s_fee_tiers s') in *. clearbody l. subst s'.
  destruct (run_off l evs s F) as [A R]. split; [exact A|]. rewrite R. split; [split; reflexivity|]. split; [|reflexivity].
  clear A R. revert s F. induction evs as [|ev evs IH]; intros s F; cbn [run]; [reflexivity|]. apply Forall_cons in F as [F0 F].
  pose proof (event_tiers s ev _ _ F0) as E. rewrite <- E in F. rewrite (IH _ F). exact E.
Qed.

(** In particular, the administrator may take a fee tier off the list: all calls go on as
    if it had stayed, other than changes of the list and new pools with that fee tier. *)
Definition no_new_pool (ft : fee_tier) (ev : event) : Prop :=
  match ev with
  | Call _ (OpAddFeeTier _) | Call _ (OpRemoveFeeTier _) => False
  | Call _ (OpCreatePool _ _ ft' _ _) => ft' <> ft
  | _ => True
  end.
Theorem C81_removal e s ft s' r evs : remove_fee_tier e s ft = Ok (s', r) -> Forall (no_new_pool ft) evs ->
  answers s' evs = answers s evs /\ same_but_tiers (run s evs) (run s' evs).
Proof.
  intros H F. apply remove_fee_tier_inv in H as (_ & l & Hl & ->). 
  assert (S : same_but_tiers s (set_fee_tiers l s)) by (split; reflexivity).
  assert (M : forall ft', ft' <> ft -> (ft' ∈ s_fee_tiers s <-> ft' ∈ l)).
  { clear - Hl. intros ft' N. revert l Hl. generalize (s_fee_tiers s). intros m. induction m as [|u m IH]; intros l Hl; cbn in Hl; [discriminate Hl|].
    destruct (bool_decide (u = ft)) eqn:B.
    - injection Hl as <-. apply bool_decide_eq_true in B. subst u. rewrite elem_of_cons. tauto.
    - destruct (remove_first m ft) as [l1|]; cbn in Hl; [|discriminate Hl]. injection Hl as <-. rewrite !elem_of_cons, (IH l1 eq_refl). tauto. }
  destruct (C81_any_offer s (set_fee_tiers l s) evs S) as (A & B & _); [|auto].
  eapply Forall_impl; [exact F|]. intros ev N. destruct ev as [e0 o| | |]; cbn in N |- *; auto. destruct o; auto.
Qed.

(** The queries about pools, positions and prices do not depend on the offer either. *)
Theorem C81_queries s s' : same_but_tiers s s' ->
  (forall x y ft, get_pool s' x y ft = get_pool s x y ft) /\
  (forall size offset, get_pool_keys s' size offset = get_pool_keys s size offset) /\
  (forall u i, get_position s' u i = get_position s u i) /\
  (forall k i, get_tick s' k i = get_tick s k i) /\
  (forall u, get_user_balances s' u = get_user_balances s u) /\
  (forall e k d a b lim, quote e s' k d a b lim = quote e s k d a b lim) /\
  (forall e a hops, quote_route e s' a hops = quote_route e s a hops).
Proof.
  intros S. apply same_but_off in S. red in S. set (l := s_fee_tiers s') in *. clearbody l. subst s'.
  do 5 (split; [reflexivity|]). split; [|intros; apply route_quote_off].
  intros e k d a b lim. unfold quote. now rewrite calculate_swap_off.
Qed.

(** The listing of a pair's pools does: a pool whose fee tier was taken off the list is still
    there, with liquidity, and still trades, but the listing leaves it out. *)
Theorem C81_pair_listing_refuted : exists evs s k p e,
  history room evs s /\ get_pool s (pk_token_x k) (pk_token_y k) (pk_fee_tier k) = Ok p /\ 0 < p_liquidity p /\
  get_all_pools_for_pair s (pk_token_x k) (pk_token_y k) = Ok [] /\
  (exists q, quote e s k false 1000 true any_price = Ok q /\ q_amount_out q = 989).
Proof.
  exists (evs_traded ++ [Call (by_ admin) (OpRemoveFeeTier tier1)]), (run_events admin 10000000000 (evs_traded ++ [Call (by_ admin) (OpRemoveFeeTier tier1)])), pool1.
  eexists. exists (by_ carol). split.
  - apply history_room; [|vm_compute; reflexivity]. apply run_events_history; [unfold u128; lia|].
    unfold evs_traded, setup, positions3, swaps. cbn [app]. wf_events.
  - split; [vm_compute; reflexivity|]. split; [vm_compute; reflexivity|]. split; [vm_compute; reflexivity|].
    eexists. split; vm_compute; reflexivity.
Qed.

(** The fee tier of the pool of Cases.v is taken off the list; then Carol trades, Alice
    claims fees and closes a position, Bob opens one, and someone opens a pool with another
    fee tier. *)
Definition later : list event := [
  Call (by_ carol) (OpSwap pool1 false 2000 true any_price);
  Call (by_ alice) (OpClaimFee 0);
  Call (by_ alice) (OpRemovePosition 1);
  Call (by_ bob) (OpCreatePosition pool1 (-40) 20 50000000000 0 any_price);
  Call (by_ carol) (OpCreatePool tokA tokB tier2 1000000000000000000000000 0);
  Call (by_ admin) (OpWithdrawProtocolFee pool1) ].
Definition fine (a : res reply) : bool := match a with Ok _ => true | _ => false end.
Definition s_gone : state := set_fee_tiers [tier2] s_traded.
Lemma gone s : is_caller_admin (by_ admin) s = true -> s_fee_tiers s = [tier1; tier2] ->
  remove_fee_tier (by_ admin) s tier1 = Ok (set_fee_tiers [tier2] s, tier1).
Proof. intros A B. unfold remove_fee_tier. rewrite A, B. reflexivity. Qed.
Example C81_case :
  history room evs_traded s_traded /\ remove_fee_tier (by_ admin) s_traded tier1 = Ok (s_gone, tier1) /\
  Forall (no_new_pool tier1) later /\ map fine (answers s_gone later) = [true; true; true; true; true; true].
Proof.
  split; [apply s_traded_room|]. split; [apply gone; vm_compute; reflexivity|].
  split; [repeat first [apply Forall_cons; split | apply Forall_nil]; cbn; first [exact Logic.I | discriminate]|]. vm_compute. reflexivity.
Qed.

(** The query whether a fee tier is on offer agrees with the list: it says so exactly for the
    members, it turns true for a tier that is added and false for one that is taken off, and
    neither call changes its answer for any other tier. *)
Theorem C18_exists evs s : history anything evs s ->
  (forall ft, fee_tier_exists s ft = true <-> ft ∈ get_fee_tiers s) /\
  (forall e ft s' r, add_fee_tier e s ft = Ok (s', r) -> fee_tier_exists s ft = false /\
     forall g, fee_tier_exists s' g = true <-> g = ft \/ fee_tier_exists s g = true) /\
  (forall e ft s' r, remove_fee_tier e s ft = Ok (s', r) -> fee_tier_exists s ft = true /\
     forall g, fee_tier_exists s' g = true <-> g <> ft /\ fee_tier_exists s g = true).
Proof.
  intros HH. assert (M : forall s ft, fee_tier_exists s ft = true <-> ft ∈ get_fee_tiers s) by (intros; apply fee_tiers_contains_spec).
  split; [apply M|]. split; intros e ft s' r H.
  - destruct (C18_add s e ft s' r H) as [N E]. split.
    + apply fee_tiers_contains_false. exact N.
    + intros g. rewrite !M, E, elem_of_app, elem_of_list_singleton. tauto.
  - destruct (C18_remove evs s e ft s' r HH H) as [N E]. split; [apply M; exact N|]. intros g. rewrite !M, E. tauto.
Qed.

(** ** Assumptions *)
Print Assumptions C81_any_offer.
Print Assumptions C81_removal.
Print Assumptions C81_queries.
Print Assumptions C81_pair_listing_refuted.
Print Assumptions C18_exists.
