(** C74: the order in which different users' openings and claims, or closings and
    claims, are served within a block makes no difference to anybody.

    [opens_or_claims], [closes_or_claims], [at_timestamp], [caller_of], [went_through]
    and [indistinguishable] are defined in SpecOrder.v; [answers] and [run] in
    SpecIndep.v, [same_answer] in SpecTrace.v. *)
From Verif Require Import Base Decimal SqrtPriceM LogM ClammM FeeGrowthM Types TickmapM StorageM
  CollectionsM StateM ServiceM Arith SpecMath SpecState SpecHistory SpecIndep SpecTrace SpecOrder
  P_Clamm P_Balance P_State P_History P_Inv P_InvHist P_Trace P_Order Cases.
From stdpp Require Import gmap list.
From Coq Require Import ZArith Lia Bool.
Open Scope Z_scope.

Local Lemma room_Inv evs s : history room evs s -> Inv s.
Proof. apply Inv_history. auto. Qed.

Local Lemma opening_calls ts block : Forall event_wf block -> Forall (at_timestamp ts) block -> Forall opens_or_claims block ->
  Forall (call_of (fun o => closing o = false) ts) block.
Proof.
  intros W T F. rewrite !Forall_forall in *. intros ev H. specialize (W ev H). specialize (T ev H). specialize (F ev H).
  destruct ev as [e o| | |]; try contradiction. cbn in T, F |- *. split; [exact W|]. split; [exact T|].
  split; [destruct F; [left|right; right]; assumption|]. destruct F as [F|F], o; try discriminate F; reflexivity.
Qed.
Local Lemma closing_calls ts block : Forall event_wf block -> Forall (at_timestamp ts) block -> Forall closes_or_claims block ->
  Forall (call_of (fun o => opening o = false) ts) block.
Proof.
  intros W T F. rewrite !Forall_forall in *. intros ev H. specialize (W ev H). specialize (T ev H). specialize (F ev H).
  destruct ev as [e o| | |]; try contradiction. cbn in T, F |- *. split; [exact W|]. split; [exact T|].
  split; [destruct F; [right; left|right; right]; assumption|]. destruct F as [F|F], o; try discriminate F; reflexivity.
Qed.

(** Whatever order the calls of a block are served in: if they all go through in one
    order then they all go through in any other, each with the same answer, and
    nobody can tell afterwards which order it was. *)
Theorem C74_any_order evs s ts block block' :
  history room evs s ->
  (forall owner, get_user_position_amount s owner + Z.of_nat (length block) < 2 ^ 32 - 1) ->
  Forall event_wf block -> Forall (at_timestamp ts) block -> NoDup (map caller_of block) ->
  Forall opens_or_claims block \/ Forall closes_or_claims block ->
  Forall went_through (answers s block) -> Permutation block block' ->
  Forall went_through (answers s block') /\
  Permutation (combine block (answers s block)) (combine block' (answers s block')) /\
  indistinguishable (run s block) (run s block').
Proof.
  intros H N W T ND K G P.
  assert (F : few (Z.of_nat (length block)) s) by (intros v; specialize (N v); lia).
  assert (R : reach s) by now exists evs.
  destruct K as [K|K].
  - apply (perm_order (fun o => closing o = false) ts); auto using opening_calls. intros o o' C C'. left. auto.
  - apply (perm_order (fun o => opening o = false) ts); auto using closing_calls. intros o o' C C'. right. auto.
Qed.

(** Not now and not later: states that cannot be told apart give the same answers to
    whatever is called afterwards, by anybody, and still cannot be told apart. *)
Theorem C74_never_noticed evs s s' later :
  history room evs s -> indistinguishable s s' -> Forall event_wf later ->
  Forall2 same_answer (answers s later) (answers s' later) /\ indistinguishable (run s later) (run s' later).
Proof.
  intros H D W. apply run_indist; [exact W|]. intros w. specialize (D w). apply room_Inv in H as I.
  destruct D as [S1 S2 S3 S4 S5 S6 S7 S8 S9]. destruct S1 as (A1 & A2 & A3).
  constructor; auto.
  - intros k. specialize (S4 k). destruct (s_pools s !! k) as [p|] eqn:Ep, (s_pools s' !! k); cbn in *; auto.
    apply psame_spec. split; [exact S4|]. apply u256_M. apply (I_pool _ I _ _ Ep).
  - intros [k i]. specialize (S5 k i). destruct (s_ticks s !! (k, i)) as [t|] eqn:Et, (s_ticks s' !! (k, i)); cbn in *; auto.
    apply tsame_spec. split; [exact S5|]. apply (I_tick _ I _ _ _ Et).
  - intros [v i] _. specialize (S7 v i). unfold get_position, positions_get in S7.
    destruct (s_positions s !! (v, i)) as [q|] eqn:Eq, (s_positions s' !! (v, i)) as [q'|]; cbn in *; try discriminate S7; auto.
    injection S7 as <-. split; [reflexivity|]. pose proof (so_liq _ _ (I_pos _ I _ _ _ Eq)). unfold posok. lia.
Qed.

(** Both together: whatever is called after the block, by anybody, is answered alike,
    whichever order the block was served in. *)
Theorem C74_afterwards evs s ts block block' later :
  history room evs s ->
  (forall owner, get_user_position_amount s owner + Z.of_nat (length block) < 2 ^ 32 - 1) ->
  Forall event_wf block -> Forall (at_timestamp ts) block -> NoDup (map caller_of block) ->
  Forall opens_or_claims block \/ Forall closes_or_claims block ->
  Forall went_through (answers s block) -> Permutation block block' -> Forall event_wf later ->
  Forall2 same_answer (answers (run s block) later) (answers (run s block') later) /\
  indistinguishable (run (run s block) later) (run (run s block') later).
Proof.
  intros H N W T ND K G P L.
  destruct (C74_any_order evs s ts block block' H N W T ND K G P) as (_ & _ & D).
  assert (R : reach (run s block)).
  { assert (F : few (Z.of_nat (length block)) s) by (intros v; specialize (N v); lia).
    assert (R : reach s) by now exists evs.
    destruct K as [K|K]; [apply (run_reach _ ts block s R F (opening_calls ts block W T K) G)|apply (run_reach _ ts block s R F (closing_calls ts block W T K) G)]. }
  destruct R as [evs' R]. exact (C74_never_noticed evs' _ _ later R D L).
Qed.

(** In particular everybody holds the same balances and the same positions. *)
Theorem C74_same_wealth s s' u : indistinguishable s s' ->
  (forall t, bal s u t = bal s' u t) /\ get_user_position_amount s u = get_user_position_amount s' u /\
  forall i, get_position s u i = get_position s' u i.
Proof.
  intros D. split; [|split].
  - intros t. unfold bal, balm. now rewrite (sb_balances _ _ _ (D (u + 1)) u) by lia.
  - apply (sb_amounts _ _ _ (D u)).
  - intros i. apply (sb_positions _ _ _ (D u)).
Qed.

(** A block in which three users open and claim at shared ticks. *)
Definition c74_block : list event := [
  Call (by_ alice) (OpCreatePosition pool1 (-30) 10 1000000000 0 any_price);
  Call (by_ bob) (OpClaimFee 0);
  Call (by_ carol) (OpCreatePosition pool1 (-40) (-10) 5000000000 0 any_price) ].
Definition c74_other : list event := [
  Call (by_ carol) (OpCreatePosition pool1 (-40) (-10) 5000000000 0 any_price);
  Call (by_ alice) (OpCreatePosition pool1 (-30) 10 1000000000 0 any_price);
  Call (by_ bob) (OpClaimFee 0) ].
Definition is_okb (a : res reply) : bool := match a with Ok _ => true | _ => false end.
Lemma went_throughb l : forallb is_okb l = true -> Forall went_through l.
Proof.
  induction l as [|a l IH]; cbn; intros H; constructor; apply andb_prop in H as [H1 H2]; [|auto].
  destruct a as [r| | |]; try discriminate H1. now exists r.
Qed.
Example C74_case :
  history room evs_traded s_traded /\
  (forall owner, get_user_position_amount s_traded owner + Z.of_nat (length c74_block) < 2 ^ 32 - 1) /\
  Forall event_wf c74_block /\ Forall (at_timestamp 1000) c74_block /\ NoDup (map caller_of c74_block) /\
  Forall opens_or_claims c74_block /\ Forall went_through (answers s_traded c74_block) /\ Permutation c74_block c74_other.
Proof.
  split; [exact s_traded_room|]. split.
  { intros owner. destruct (history_room _ _ s_traded_history eq_refl) as [_ HA]. specialize (HA owner).
    change (Z.of_nat (length evs_traded)) with 14 in HA. change (Z.of_nat (length c74_block)) with 3. lia. }
  split; [unfold c74_block; wf_events|]. split; [repeat constructor|].
  split; [cbn; repeat (constructor; [rewrite ?elem_of_cons, elem_of_nil; cbv; intuition discriminate|]); constructor|].
  split; [repeat (apply Forall_cons; split; [cbn; auto|]); constructor|]. split; [apply went_throughb; vm_compute; reflexivity|].
  unfold c74_block, c74_other. etransitivity; [apply perm_skip, perm_swap|]. apply perm_swap.
Qed.

(** ** The limits *)

(** Openings and closings in one block do not commute: when the last position at a
    tick is closed the tick forgets what it has recorded, and whoever opens a
    position there is told another starting value. *)
Theorem C74_mixed_refuted : exists evs s a b,
  history room evs s /\ Forall event_wf [a; b] /\ Forall (at_timestamp 1000) [a; b] /\ caller_of a <> caller_of b /\
  Forall (fun ev => opens_or_claims ev \/ closes_or_claims ev) [a; b] /\
  Forall went_through (answers s [a; b]) /\ Forall went_through (answers s [b; a]) /\
  answer (exec_event s a) b <> answer s b /\ ~ indistinguishable (run s [a; b]) (run s [b; a]).
Proof.
  exists evs_traded, s_traded, (Call (by_ bob) (OpRemovePosition 0)), (Call (by_ carol) (OpCreatePosition pool1 (-30) 10 1000000000 0 any_price)).
  split; [exact s_traded_room|]. split; [wf_events|]. split; [repeat constructor|]. split; [discriminate|].
  split; [repeat (apply Forall_cons; split; [cbn; auto|]); constructor|]. split; [apply went_throughb; vm_compute; reflexivity|]. split; [apply went_throughb; vm_compute; reflexivity|].
  split; [vm_compute; discriminate|].
  intros D. pose proof (sb_positions _ _ _ (D 0) carol 0) as E. vm_compute in E. discriminate E.
Qed.

(** Nor do two calls of the same user: the positions come in the order they are opened. *)
Theorem C74_own_calls_refuted : exists evs s a b,
  history room evs s /\ Forall event_wf [a; b] /\ Forall (at_timestamp 1000) [a; b] /\ caller_of a = caller_of b /\
  Forall opens_or_claims [a; b] /\
  Forall went_through (answers s [a; b]) /\ Forall went_through (answers s [b; a]) /\
  ~ indistinguishable (run s [a; b]) (run s [b; a]).
Proof.
  exists evs_traded, s_traded, (Call (by_ carol) (OpCreatePosition pool1 (-30) 20 1000000000 0 any_price)), (Call (by_ carol) (OpCreatePosition pool1 (-30) 10 1000000000 0 any_price)).
  split; [exact s_traded_room|]. split; [wf_events|]. split; [repeat constructor|]. split; [reflexivity|].
  split; [repeat (apply Forall_cons; split; [cbn; auto|]); constructor|]. split; [apply went_throughb; vm_compute; reflexivity|]. split; [apply went_throughb; vm_compute; reflexivity|].
  intros D. pose proof (sb_positions _ _ _ (D 0) carol 0) as E. vm_compute in E. discriminate E.
Qed.

(** ** Assumptions *)
Print Assumptions C74_any_order.
Print Assumptions C74_never_noticed.
Print Assumptions C74_afterwards.
Print Assumptions C74_same_wealth.
Print Assumptions C74_mixed_refuted.
Print Assumptions C74_own_calls_refuted.
