(** Everybody can leave: all positions can be closed and all fees withdrawn. *)
From Verif Require Import Base Decimal SqrtPriceM LogM ClammM FeeGrowthM Types TickmapM StorageM
  CollectionsM StateM ServiceM Arith SpecMath SpecFees SpecSum SpecState SpecHistory SpecClean SpecSolv
  P_Balance P_Effects P_Positions P_History P_Inv P_PosOps P_InvHist P_Active P_Bals P_RSum P_Claims P_Owed P_Solv P_Payout.
From stdpp Require Import gmap list.
From Coq Require Import ZArith Lia Bool.
Open Scope Z_scope.

Definition count (s : state) : Z := msum (fun _ => 1) (s_positions s).

Lemma count_nonneg s : 0 <= count s.
Proof. apply msum_nonneg. lia. Qed.
Lemma count_pos s a n pos : s_positions s !! (a, n) = Some pos -> 1 <= count s.
Proof. intros H. apply (msum_ge_one (fun _ => 1) (s_positions s) (a, n) pos); [lia|auto]. Qed.

Lemma remove_room e s i s' xy : Inv s -> remove_position e s i = Ok (s', xy) ->
  (forall a, get_user_position_amount s a < 2 ^ 32 - 1) -> forall a, get_user_position_amount s' a < 2 ^ 32 - 1.
Proof.
  intros I H R a. destruct xy as [x y]. apply remove_position_inv in H
    as (pos & tl0 & tu0 & p & pos' & p' & tu & tl & dx & dy & rl & ru & b1 & T1 & lp & H). cbv zeta in H.
  destruct H as (Hpos & _ & _ & _ & _ & _ & _ & _ & _ & _ & _ & _ & _ & _ & _ & EL & _).
  destruct (proj2 (I_dense _ I (e_caller e)) i) as [D _]. specialize (D ltac:(eauto)).
  pose proof (proj1 (I_dense _ I (e_caller e))). specialize (R a).
  unfold get_user_position_amount, positions_get_length in *. rewrite EL. destruct (decide (e_caller e = a)) as [<-|Hn].
  - rewrite lookup_insert. cbn [default from_option id]. unfold last_index, positions_get_length. rewrite Z.mod_small; lia.
  - rewrite lookup_insert_ne by auto. exact R.
Qed.

Definition close_call (ev : event) : Prop :=
  match ev with Call _ (OpRemovePosition _) | Call _ (OpWithdrawProtocolFee _) => True | _ => False end.

Lemma close_nothing s0 l : Forall close_call l -> forall evs, all_roundings (evs ++ l) = all_roundings evs /\
  forall t, net_deposits s0 (evs ++ l) t = net_deposits s0 evs t.
Proof.
  induction l as [|ev l IH] using rev_ind; intros H evs; [rewrite app_nil_r; auto|].
  apply Forall_app in H as [H1 H2]. inversion H2; subst. destruct (IH H1 evs) as [E1 E2].
  rewrite app_assoc, all_roundings_snoc, E1. split.
  - destruct ev as [e []| | |]; cbn in *; try contradiction; lia.
  - intros t. rewrite net_deposits_snoc, E2. destruct ev as [e []| | |]; cbn in *; try contradiction; lia.
Qed.

Lemma trace_step (G : state -> event -> Prop) s0 evs s e o s' : trace G s0 evs s -> event_wf (Call e o) -> G s (Call e o) -> run_op e s o = Ok s' ->
  trace G s0 (evs ++ [Call e o]) s'.
Proof.
  intros H W Hg E. replace s' with (exec_event s (Call e o)); [constructor; auto|].
  cbn [exec_event]. unfold exec_op. rewrite E. reflexivity.
Qed.

Section Exit.
  Context (admin fee : Z) (Hf : u128 fee).
  Local Notation s0 := (init_state admin fee).

  Lemma close_all n : forall evs s, trace regular s0 evs s -> all_roundings evs < 2 * 10 ^ 14 ->
    (forall t, net_deposits s0 evs t < 2 ^ 256) -> (forall a, get_user_position_amount s a < 2 ^ 32 - 1) ->
    count s <= Z.of_nat n ->
    exists l s', Forall close_call l /\ trace regular s0 (evs ++ l) s' /\ s_positions s' = ∅ /\
      (forall a, get_user_position_amount s' a < 2 ^ 32 - 1).
  Proof using Hf.
    induction n as [|n IH]; intros evs s HT HR HN RM HC.
    - exists [], s. rewrite app_nil_r. split; [constructor|]. split; [auto|]. split; [|auto].
      apply map_eq. intros [a i]. rewrite lookup_empty. destruct (s_positions s !! (a, i)) as [pos|] eqn:E; [|auto].
      apply count_pos in E. lia.
    - destruct (decide (s_positions s = ∅)) as [E|E].
      { exists [], s. rewrite app_nil_r. split; [constructor|]. auto. }
      apply map_choose in E as ([a i] & pos & Hpos).
      destruct (active_history evs s (trace_history _ _ _ _ _ Hf HT)) as (I & _ & _).
      set (e := mkEnv a 0 0 0 0 0).
      destruct (remove_position_succeeds admin fee evs s Hf HT HR e i pos Hpos (HN _) (HN _)) as (s' & [x y] & E).
      assert (EO : run_op e s (OpRemovePosition i) = Ok s') by (cbn [run_op]; rewrite E; reflexivity).
      destruct (proj2 (I_dense _ I a) i) as [D _]. specialize (D ltac:(eauto)). pose proof (proj1 (I_dense _ I a)).
      assert (T' : trace regular s0 (evs ++ [Call e (OpRemovePosition i)]) s').
      { apply (trace_step regular s0 evs s e (OpRemovePosition i)); auto.
        - unfold M32 in *. cbn. unfold env_wf, u32, u64, u128; cbn. lia.
        - split; [exact RM|exact Logic.I]. }
      assert (CL : Forall close_call [Call e (OpRemovePosition i)]) by (repeat constructor).
      destruct (close_nothing s0 _ CL evs) as [C1 C2].
      destruct (IH (evs ++ [Call e (OpRemovePosition i)]) s' T') as (l & s'' & L1 & L2 & L3 & L4).
      + rewrite C1. auto.
      + intros t. rewrite C2. auto.
      + eapply remove_room; eauto.
      + destruct (remove_summary _ _ _ _ _ _ I E) as (pos' & p & tl & tu & dx & dy & ox & oy & C).
        unfold count in *. rewrite (rm_msum _ _ _ _ _ _ _ _ _ _ _ _ _ _ C). lia.
      + exists (Call e (OpRemovePosition i) :: l), s''. rewrite <- app_assoc in L2. split; [constructor; cbn; auto|]. auto.
  Qed.

  Lemma fees_all (ks : list pool_key) : forall evs s, trace regular s0 evs s -> all_roundings evs < 2 * 10 ^ 14 ->
    (forall t, net_deposits s0 evs t < 2 ^ 256) -> (forall a, get_user_position_amount s a < 2 ^ 32 - 1) ->
    exists l s', Forall close_call l /\ trace regular s0 (evs ++ l) s' /\ s_positions s' = s_positions s /\
      (forall k p, s_pools s' !! k = Some p -> exists q, s_pools s !! k = Some q /\
         ((p_fee_protocol_token_x p = 0 /\ p_fee_protocol_token_y p = 0) \/ (p = q /\ k ∉ ks))).
  Proof using Hf.
    induction ks as [|k ks IH]; intros evs s HT HR HN RM.
    - exists [], s. rewrite app_nil_r. split; [constructor|]. split; [auto|]. split; [auto|].
      intros k p Hk. exists p. split; [auto|]. right. split; [auto|]. apply not_elem_of_nil.
    - destruct (s_pools s !! k) as [p|] eqn:Hk.
      + set (e := mkEnv (p_fee_receiver p) 0 0 0 0 0).
        destruct (withdraw_fee_succeeds admin fee evs s Hf HT HR e k p Hk eq_refl (HN _) (HN _)) as (s' & E).
        assert (EO : run_op e s (OpWithdrawProtocolFee k) = Ok s') by (cbn [run_op]; rewrite E; reflexivity).
        assert (T' : trace regular s0 (evs ++ [Call e (OpWithdrawProtocolFee k)]) s').
        { apply (trace_step regular s0 evs s e (OpWithdrawProtocolFee k)); auto.
          - cbn. unfold env_wf, u32, u64, u128; cbn. lia.
          - split; [exact RM|exact Logic.I]. }
        assert (CL : Forall close_call [Call e (OpWithdrawProtocolFee k)]) by (repeat constructor).
        destruct (close_nothing s0 _ CL evs) as [C1 C2].
        apply withdraw_protocol_fee_inv in E as (p0 & B & Hk0 & _ & ES & _). assert (p0 = p) by congruence. subst p0.
        destruct (IH (evs ++ [Call e (OpWithdrawProtocolFee k)]) s' T') as (l & s'' & L1 & L2 & L3 & L4).
        * rewrite C1. auto.
        * intros t. rewrite C2. auto.
        * rewrite ES. exact RM.
        * exists (Call e (OpWithdrawProtocolFee k) :: l), s''. rewrite <- app_assoc in L2. split; [constructor; cbn; auto|]. split; [auto|].
          split; [rewrite L3, ES; reflexivity|].
          intros k' p' Hp'. destruct (L4 k' p' Hp') as (q & Hq & HH). rewrite ES in Hq. cbn [set_balances set_pools s_pools] in Hq.
          apply lookup_insert_Some in Hq as [[<- <-]|[Hn Hq]].
          -- exists p. split; [auto|]. left. destruct HH as [HH|[-> _]]; auto.
          -- exists q. split; [auto|]. destruct HH as [HH|[-> HN']]; auto. right. split; [auto|]. rewrite not_elem_of_cons. auto.
      + destruct (IH evs s HT HR HN RM) as (l & s' & L1 & L2 & L3 & L4). exists l, s'. split; [auto|]. split; [auto|]. split; [auto|].
        intros k' p' Hp'. destruct (L4 k' p' Hp') as (q & Hq & HH). exists q. split; [auto|].
        destruct HH as [HH|[-> HN']]; auto. right. split; [auto|]. rewrite not_elem_of_cons. split; [congruence|auto].
  Qed.

  Lemma exit_all evs s : trace regular s0 evs s -> all_roundings evs < 2 * 10 ^ 14 ->
    (forall t, net_deposits s0 evs t < 2 ^ 256) -> (forall a, get_user_position_amount s a < 2 ^ 32 - 1) ->
    exists l s', Forall close_call l /\ trace regular s0 (evs ++ l) s' /\ s_positions s' = ∅ /\
      (forall k p, s_pools s' !! k = Some p -> p_fee_protocol_token_x p = 0 /\ p_fee_protocol_token_y p = 0).
  Proof using Hf.
    intros HT HR HN RM. destruct (close_all (Z.to_nat (count s)) evs s HT HR HN RM) as (l1 & s1 & A1 & A2 & A3 & A4).
    { pose proof (count_nonneg s). lia. }
    destruct (close_nothing s0 _ A1 evs) as [C1 C2].
    destruct (fees_all (map fst (map_to_list (s_pools s1))) (evs ++ l1) s1 A2) as (l2 & s2 & B1 & B2 & B3 & B4).
    - rewrite C1. auto.
    - intros t. rewrite C2. auto.
    - auto.
    - exists (l1 ++ l2), s2. split; [apply Forall_app; auto|]. rewrite app_assoc. split; [auto|]. split; [congruence|].
      intros k p Hp. destruct (B4 k p Hp) as (q & Hq & [HH|[-> HN']]); [auto|]. exfalso. apply HN'.
      apply elem_of_list_fmap. exists (k, q). split; [auto|]. apply elem_of_map_to_list. auto.
  Qed.
End Exit.
