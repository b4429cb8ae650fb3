(** What the pools owe is covered by what was paid into them. *)
From Verif Require Import Base Decimal SqrtPriceM LogM ClammM FeeGrowthM Types TickmapM StorageM
  CollectionsM StateM ServiceM Arith SpecMath SpecFees SpecSum SpecState SpecHistory SpecClean SpecSolv P_Clamm P_Delta P_Next P_Step
  P_StepProps P_TickPrice P_GetTick P_Tickmap P_Closer
  P_Fees P_Balance P_Effects P_Positions P_History P_Loop P_Check P_State P_Iter P_Inv P_InvPos P_PosOps P_InvSwap P_Swap P_SwapLoop P_InvHist P_Active
  P_RSum P_Claims P_Owed P_OwedSwap.
From stdpp Require Import gmap list.
From Coq Require Import ZArith Lia Bool Reals Lra.
Open Scope Z_scope.

Lemma owed_route e hops t : forall s a s' out, Inv s -> u256 a -> active_ok s -> route_swap e s a hops = Ok (s', out) ->
  clean_route e s a hops ->
  (owed s' t <= owed s t + IZR (bal_total s t - bal_total s' t) + IZR (443637 * Z.of_nat (length hops)) * eps)%R.
Proof.
  pose proof eps_pos as He.
  induction hops as [|h hops IH]; cbn [route_swap clean_route length]; intros s a s' out I Ha A H HC.
  - injection H as <- _. rewrite Z.sub_diag. change (443637 * Z.of_nat 0) with 0. lra.
  - apply bind_Ok in H as ([s1 r] & E & H). destruct (HC _ _ E) as [C1 C2].
    destruct (Inv_swap _ _ _ _ _ _ _ _ _ I Ha E) as (I1 & _ & Hr).
    pose proof (active_swap e s _ _ a true _ s1 r I Ha E C1 A) as A1.
    pose proof (owed_swap e s _ _ a true _ s1 r t I Ha A E C1) as O1.
    pose proof (IH s1 (cs_amount_out r) s' out I1 Hr A1 H C2) as O2.
    rewrite Nat2Z.inj_succ. replace (443637 * Z.succ (Z.of_nat (length hops))) with (443637 * Z.of_nat (length hops) + 443637) by lia.
    rewrite plus_IZR, !minus_IZR in *. lra.
Qed.

Lemma owed_create_pool s k p t : Inv s -> s_pools s !! k = None -> p_fee_protocol_token_x p = 0 -> p_fee_protocol_token_y p = 0 ->
  owed (set_pools (<[k := p]> (s_pools s)) s) t = owed s t.
Proof.
  intros I Hk E1 E2. unfold owed. cbn [set_pools s_positions s_pools]. rewrite zsum_insert by auto.
  assert (E : protocol_in t k p = 0) by (unfold protocol_in, protocol_fee; rewrite E1, E2; destruct (_ =? t), (_ =? t); reflexivity).
  rewrite E, Z.add_0_l. f_equal. apply rsum_ext. intros [a n] q Hq.
  destruct (so_pool _ _ (I_pos _ I _ _ _ Hq)) as [p' Hp'].
  assert (Ne : k <> pos_pool_key q) by congruence.
  rewrite !claim_in_cin. unfold claim, uncollected, below. cbn [set_pools s_pools s_ticks]. rewrite lookup_insert_ne by auto. reflexivity.
Qed.

Definition moves_outside (o : op) : bool :=
  match o with OpDepositVara | OpWithdrawVara _ => true | _ => false end.

Ltac same_bal t :=
  match goal with |- context [bal_total ?s t - bal_total ?q t] => change (bal_total q t) with (bal_total s t) end; rewrite Z.sub_diag.

Lemma owed_op s e o s' t : Inv s -> Inv s' -> active_ok s -> op_wf o -> clean s (Call e o) -> run_op e s o = Ok s' ->
  (owed s' t <= owed s t + IZR (if moves_outside o then 0 else bal_total s t - bal_total s' t) + IZR (roundings (Call e o)) * eps)%R.
Proof.
  intros I I' A W HC HO. pose proof eps_pos as He.
  destruct o; cbn [run_op] in HO; apply drop_result_Ok in HO as [v H]; cbn [op_wf] in W; cbn [clean] in HC; cbn [roundings moves_outside].
  - apply change_protocol_fee_inv in H as [_ ->]. same_bal t. rewrite (owed_same s) by reflexivity. lra.
  - apply add_fee_tier_inv in H as (_ & _ & _ & _ & _ & ->). same_bal t. rewrite (owed_same s) by reflexivity. lra.
  - apply remove_fee_tier_inv in H as (_ & l & _ & ->). same_bal t. rewrite (owed_same s) by reflexivity. lra.
  - apply create_pool_inv in H as (k & p & HF & HT & HK & HN & _ & HC0 & ->).
    assert (E0 : p_fee_protocol_token_x p = 0 /\ p_fee_protocol_token_y p = 0).
    { unfold pool_create in HC0. apply bind_Ok in HC0 as (b & _ & HC0). apply bind_Ok in HC0 as (u & _ & HC0).
      apply bind_Ok in HC0 as (pr & _ & HC0). injection HC0 as <-. auto. }
    destruct E0 as [E1 E2].
    pose proof (owed_create_pool s k p t I HN E1 E2) as EO.
    rewrite (owed_same (set_pools (<[k := p]> (s_pools s)) s)) by reflexivity. rewrite EO.
    same_bal t. lra.
  - apply change_fee_receiver_inv in H as (_ & p & Hp & ->). 
    rewrite (owed_set_pool s _ p) by auto.
    rewrite (protocol_same t _ p (set_fee_receiver receiver p)) by reflexivity.
    same_bal t. lra.
  - apply create_summary in H as (p & x & y & mx & C); [|auto|apply W]. pose proof (owed_create _ _ _ _ _ _ _ _ _ _ _ _ _ _ t I I' C). lra.
  - destruct v as [x y]. apply remove_summary in H as (pos & p & tl & tu & dx & dy & ox & oy & C); [|auto].
    pose proof (owed_remove _ _ _ _ _ _ _ _ _ _ _ _ _ _ t I I' C). lra.
  - rewrite (owed_transfer e s index receiver s' v t (I_dense _ I) H).
    apply transfer_position_inv in H as (pos & lp & s1 & _ & _ & E1 & E2).
    assert (EB : bal_total s' t = bal_total s t) by (subst s' s1; reflexivity). rewrite EB, Z.sub_diag. lra.
  - pose proof (owed_swap e s k x_to_y amount by_amount_in sqrt_price_limit s' v t I (proj1 W) A H (HC _ _ H)). lra.
  - apply swap_route_inv in H. apply (owed_route e swaps t s amount_in s' v I (proj1 W) A H HC).
  - destruct v as [x y]. apply claim_summary in H as (pos & p & tl & tu & mx & C); [|auto].
    pose proof (owed_claim _ _ _ _ _ _ _ _ _ _ _ t I I' C). lra.
  - apply withdraw_protocol_fee_inv in H as (p & B & Hp & _ & -> & _ & HT).
    rewrite (owed_same (set_pools (<[k := fst (pool_withdraw_protocol_fee p)]> (s_pools s)) s)) by reflexivity.
    rewrite (owed_set_pool s k p) by auto. rewrite (HT t).
    assert (E1 : protocol_in t k (fst (pool_withdraw_protocol_fee p)) = 0) by (unfold protocol_in; cbn; destruct (_ =? t), (_ =? t); reflexivity).
    assert (E2 : on (pk_token_x k) (p_fee_protocol_token_x p) t + on (pk_token_y k) (p_fee_protocol_token_y p) t = protocol_in t k p).
    { unfold on, protocol_in, token_of, protocol_fee. rewrite !(Z.eqb_sym t). reflexivity. }
    rewrite E1, E2. replace (bal_total s t - (bal_total s t + protocol_in t k p)) with (- protocol_in t k p) by lia. rewrite opp_IZR. lra.
  - apply deposit_vara_inv in H as (_ & [B ->] & _). rewrite (owed_same s) by reflexivity. lra.
  - apply withdraw_vara_inv in H as ([B ->] & _). rewrite (owed_same s) by reflexivity. lra.
Qed.

(** ** Histories *)

Lemma trace_run G s0 evs s : trace G s0 evs s -> s = fold_left exec_event evs s0.
Proof. induction 1 as [|evs s ev H IH W HG]; [reflexivity|]. rewrite fold_left_app. cbn [fold_left]. rewrite <- IH. reflexivity. Qed.

Lemma trace_history (G : state -> event -> Prop) admin fee evs s : u128 fee -> trace G (init_state admin fee) evs s -> history G evs s.
Proof. intros Hf. induction 1; constructor; auto. Qed.

Lemma trace_weaken (G G' : state -> event -> Prop) s0 evs s : (forall s ev, G s ev -> G' s ev) -> trace G s0 evs s -> trace G' s0 evs s.
Proof. intros HG. induction 1; constructor; auto. Qed.

Lemma pool_reserves_snoc evs ev t : forall s0,
  pool_reserves s0 (evs ++ [ev]) t = pool_reserves s0 evs t + paid_by (fold_left exec_event evs s0) ev t.
Proof. induction evs as [|e evs IH]; intros s0; cbn [app pool_reserves fold_left]; [lia|]. rewrite IH. lia. Qed.
Lemma net_deposits_snoc evs ev t : forall s0,
  net_deposits s0 (evs ++ [ev]) t = net_deposits s0 evs t + deposited_by (fold_left exec_event evs s0) ev t.
Proof. induction evs as [|e evs IH]; intros s0; cbn [app net_deposits fold_left]; [lia|]. rewrite IH. lia. Qed.
Lemma all_roundings_snoc evs ev : all_roundings (evs ++ [ev]) = all_roundings evs + roundings ev.
Proof. induction evs as [|e evs IH]; cbn [app all_roundings]; [lia|]. rewrite IH. lia. Qed.
Lemma all_roundings_nonneg evs : 0 <= all_roundings evs.
Proof. induction evs as [|e evs IH]; cbn [all_roundings]; [lia|]. destruct e as [e []| | |]; cbn [roundings]; lia. Qed.

(** Balances are the deposits less what is in the pools. *)
Lemma balances_split evs t : forall s0, bal_total (fold_left exec_event evs s0) t = bal_total s0 t + net_deposits s0 evs t - pool_reserves s0 evs t.
Proof.
  induction evs as [|ev evs IH]; intros s0; cbn [fold_left net_deposits pool_reserves]; [lia|].
  rewrite IH. destruct ev as [e o|u k a|u k a|m]; cbn [paid_by deposited_by]; try lia.
  - destruct o; lia.
  - cbn [exec_event]. change (bal_total (set_awaiting m s0) t) with (bal_total s0 t). lia.
Qed.

Lemma bal_total_init admin fee t : bal_total (init_state admin fee) t = 0.
Proof. reflexivity. Qed.

Lemma owed_init admin fee t : owed (init_state admin fee) t = 0%R.
Proof. unfold owed. cbn. rewrite rsum_empty, zsum_empty. lra. Qed.

Lemma owed_trace admin fee evs s t : u128 fee -> trace regular (init_state admin fee) evs s ->
  (owed s t <= IZR (pool_reserves (init_state admin fee) evs t) + IZR (all_roundings evs) * eps)%R.
Proof.
  intros Hf. set (s0 := init_state admin fee). induction 1 as [|evs s ev H IH W [HR HC]].
  - cbn [pool_reserves all_roundings]. unfold s0. rewrite owed_init. lra.
  - pose proof (trace_run _ _ _ _ H) as Es. rewrite pool_reserves_snoc, all_roundings_snoc, <- Es, !plus_IZR.
    destruct (active_history evs s (trace_history _ _ _ _ _ Hf H)) as (I & _ & A).
    enough (owed (exec_event s ev) t <= owed s t + IZR (paid_by s ev t) + IZR (roundings ev) * eps)%R by lra.
    pose proof eps_pos as He.
    destruct ev as [e o|u k a|u k a|m]; cbn [exec_event].
    + unfold exec_op. destruct (run_op e s o) as [s1| | |] eqn:E.
      * assert (I1 : Inv s1) by (apply (Inv_op s e o s1 I (proj2 W)); [intros b; eapply room_lengths; eauto|exact E]).
        pose proof (owed_op s e o s1 t I I1 A (proj2 W) HC E) as O.
        assert (EP : paid_by s (Call e o) t = if moves_outside o then 0 else bal_total s t - bal_total s1 t).
        { unfold paid_by, moves_outside. cbn [exec_event]. unfold exec_op. rewrite E. destruct o; reflexivity. }
        rewrite EP. exact O.
      * assert (EP : paid_by s (Call e o) t = 0) by (unfold paid_by; cbn [exec_event]; unfold exec_op; rewrite E; destruct o; lia).
        rewrite EP. assert (0 <= IZR (roundings (Call e o)))%R by (apply IZR_le; destruct o; cbn [roundings]; lia).
        assert (0 <= IZR (roundings (Call e o)) * eps)%R by (apply Rmult_le_pos; lra). lra.
      * assert (EP : paid_by s (Call e o) t = 0) by (unfold paid_by; cbn [exec_event]; unfold exec_op; rewrite E; destruct o; lia).
        rewrite EP. assert (0 <= IZR (roundings (Call e o)))%R by (apply IZR_le; destruct o; cbn [roundings]; lia).
        assert (0 <= IZR (roundings (Call e o)) * eps)%R by (apply Rmult_le_pos; lra). lra.
      * assert (EP : paid_by s (Call e o) t = 0) by (unfold paid_by; cbn [exec_event]; unfold exec_op; rewrite E; destruct o; lia).
        rewrite EP. assert (0 <= IZR (roundings (Call e o)))%R by (apply IZR_le; destruct o; cbn [roundings]; lia).
        assert (0 <= IZR (roundings (Call e o)) * eps)%R by (apply Rmult_le_pos; lra). lra.
    + cbn [paid_by roundings]. destruct (increase_token_balance s k u a) eqn:E; try lra.
      apply increase_spec in E as ((B & ->) & _). rewrite (owed_same s) by reflexivity. lra.
    + cbn [paid_by roundings]. destruct (decrease_token_balance s k u a) as [[s1 v]| | |] eqn:E; try lra.
      apply decrease_spec in E as ((B & ->) & _). rewrite (owed_same s) by reflexivity. lra.
    + cbn [paid_by roundings]. rewrite (owed_same s) by reflexivity. lra.
Qed.

(** ** Whole tokens *)

Lemma closing_le t ts s a n pos : Inv s -> s_positions s !! (a, n) = Some pos ->
  (IZR (closing t ts s (a, n) pos) <= claim_in t s pos)%R.
Proof.
  intros I Hp. unfold closing. cbn [fst snd].
  pose proof (claim_in_nonneg t s a n pos I Hp) as H0.
  destruct (remove_position (mkEnv a ts 0 0 0 0) s n) as [[s' [x y]]| | |] eqn:E; try exact H0.
  apply remove_summary in E as (pos' & p & tl & tu & dx & dy & ox & oy & C); [|auto].
  pose proof (rm_pos _ _ _ _ _ _ _ _ _ _ _ _ _ _ C) as Hp'. cbn [e_caller] in Hp'.
  assert (pos' = pos) by congruence. subst pos'.
  destruct (removed_claim _ _ _ _ _ _ _ _ _ _ _ _ _ _ I C) as [A1 A2].
  rewrite claim_in_cin. rewrite plus_IZR. unfold cin. destruct (_ =? t), (_ =? t); lra.
Qed.

Lemma payable_le ts s t : Inv s -> (IZR (payable ts s t) <= owed s t)%R.
Proof.
  intros I. unfold payable, owed. rewrite plus_IZR. apply Rplus_le_compat_r. rewrite <- rsum_zsum.
  apply rsum_le. intros [a n] pos Hp. apply closing_le; auto.
Qed.

Lemma small_roundings n : 0 <= n < 2 * 10 ^ 14 -> (IZR n * eps < 1)%R.
Proof.
  intros H. pose proof eps_pos. destruct H as [_ H]. apply IZR_lt in H. change (IZR (2 * 10 ^ 14)) with 200000000000000%R in H.
  apply Rlt_le_trans with (200000000000000 * eps)%R; [apply Rmult_lt_compat_r; lra|]. unfold eps. lra.
Qed.

(** A whole amount below a real bound that exceeds a whole number by less than one. *)
Lemma whole_le v b (r : R) : (IZR v <= IZR b + r)%R -> (r < 1)%R -> v <= b.
Proof. intros H1 H2. assert (IZR v < IZR (b + 1))%R by (rewrite plus_IZR; lra). apply lt_IZR in H. lia. Qed.

(** ** Liveness *)

Section Live.
  Context (admin fee : Z) (evs : list event) (s : state).
  Local Notation s0 := (init_state admin fee).
  Context (Hf : u128 fee) (HT : trace regular s0 evs s) (HR : all_roundings evs < 2 * 10 ^ 14).

  Lemma owed_balances t : (owed s t + IZR (bal_total s t) <= IZR (net_deposits s0 evs t) + IZR (all_roundings evs) * eps)%R.
  Proof using Hf HT.
    pose proof (owed_trace admin fee evs s t Hf HT) as O. pose proof (balances_split evs t s0) as B.
    rewrite <- (trace_run _ _ _ _ HT), bal_total_init in B. rewrite B, minus_IZR, plus_IZR. lra.
  Qed.

  Lemma owed_one t a n pos : s_positions s !! (a, n) = Some pos -> (claim_in t s pos <= owed s t)%R.
  Proof using Hf HT.
    intros Hp. destruct (active_history evs s (trace_history _ _ _ _ _ Hf HT)) as (I & _ & _).
    unfold owed. assert (0 <= IZR (zsum (protocol_in t) (s_pools s)))%R.
    { apply IZR_le, zsum_nonneg. intros k p Hk. eapply protocol_nonneg; eauto. }
    pose proof (rsum_ge_one (fun _ q => claim_in t s q) (s_positions s) (a, n) pos) as G. cbv beta in G.
    specialize (G ltac:(intros [b m] q Hq; eapply claim_in_nonneg; eauto) Hp). lra.
  Qed.

  (** Whatever a claim is worth in whole tokens fits beside the balances. *)
  Lemma claim_fits (x : bool) a n pos v : s_positions s !! (a, n) = Some pos -> (IZR v <= claim x s pos)%R ->
    v + bal_total s (token_of x (pos_pool_key pos)) <= net_deposits s0 evs (token_of x (pos_pool_key pos)).
  Proof using Hf HT HR.
    intros Hp Hv. set (t := token_of x (pos_pool_key pos)).
    destruct (active_history evs s (trace_history _ _ _ _ _ Hf HT)) as (I & _ & _).
    pose proof (owed_balances t) as O. pose proof (owed_one t a n pos Hp) as O1.
    assert (HC : (claim x s pos <= claim_in t s pos)%R).
    { rewrite claim_in_cin. pose proof (claim_nonneg true s a n pos I Hp). pose proof (claim_nonneg false s a n pos I Hp).
      unfold cin, t. destruct x; rewrite Z.eqb_refl; destruct (_ =? _); lra. }
    apply (whole_le _ _ (IZR (all_roundings evs) * eps)); [rewrite plus_IZR; lra|].
    apply small_roundings. pose proof (all_roundings_nonneg evs). lia.
  Qed.
End Live.
