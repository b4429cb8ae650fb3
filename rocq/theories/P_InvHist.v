(** The structural invariant holds in every reachable state. *)
From Verif Require Import Base Decimal SqrtPriceM LogM ClammM FeeGrowthM Types TickmapM StorageM
  CollectionsM StateM ServiceM Arith SpecMath SpecFees SpecSum SpecState SpecHistory P_Clamm P_Delta P_Next P_Step
  P_StepProps P_TickPrice P_GetTick P_Tickmap P_Closer
  P_Fees P_Balance P_Effects P_Positions P_History P_Loop P_Check P_State P_Iter P_Inv P_InvPos P_InvSwap P_Swap P_SwapLoop.
From stdpp Require Import gmap list.
From Coq Require Import ZArith Lia Bool.
Open Scope Z_scope.

Lemma calculate_swap_pool s ts k d a bi lim r : calculate_swap s ts k d a bi lim = Ok r -> exists p, s_pools s !! k = Some p.
Proof. intros H. apply calculate_swap_inv in H as (p & _ & _ & _ & H & _). eauto. Qed.

(** State after the pool and the ticks of a computed swap are written back. *)
Definition swapped (s : state) (k : pool_key) (r : calculate_swap_result) : state :=
  set_pools (<[k := cs_pool r]> (s_pools s)) (set_ticks (put_ticks k (cs_ticks r) (s_ticks s)) s).

Lemma Inv_calculate_swap s ts k d a bi lim r : Inv s -> u256 a ->
  calculate_swap s ts k d a bi lim = Ok r ->
  Inv (swapped s k r) /\ u256 (cs_amount_in r) /\ u256 (cs_amount_out r) /\ u256 (cs_fee r).
Proof.
  intros I Ha H. destruct (calculate_swap_pool _ _ _ _ _ _ _ _ H) as [p0 Hp0].
  destruct (swap_induction s k d bi lim ts a p0 I Hp0 Ha (fun _ => True) r) as (l & V & _ & _ & _ & _ & ->); auto.
  unfold swapped. cbn [cs_pool cs_ticks cs_amount_in cs_amount_out cs_fee].
  split; [exact (v_inv _ _ _ _ _ _ _ V)|]. split; [apply V|]. split; apply V.
Qed.

Lemma Inv_swap e s k d a bi lim s' r : Inv s -> u256 a -> swap e s k d a bi lim = Ok (s', r) ->
  Inv s' /\ u256 (cs_amount_in r) /\ u256 (cs_amount_out r).
Proof.
  intros I Ha H. apply swap_inv in H as (B & H & -> & _).
  apply Inv_calculate_swap in H as (H1 & H2 & H3 & _); auto. split; [|auto].
  apply Inv_balances. exact H1.
Qed.

Lemma Inv_route e hops : forall s a s' out, Inv s -> u256 a -> route_swap e s a hops = Ok (s', out) -> Inv s' /\ u256 out.
Proof.
  induction hops as [|h hops IH]; cbn [route_swap]; intros s a s' out I Ha H.
  - injection H as <- <-. auto.
  - apply bind_Ok in H as ([s1 r] & E & H). apply Inv_swap in E as (I1 & _ & Hr); auto. eauto.
Qed.

Lemma Inv_op s e o s' : Inv s -> op_wf o -> (forall a, positions_get_length s a < M32 - 1) ->
  run_op e s o = Ok s' -> Inv s'.
Proof.
  intros I W R H. pose proof (dense_op s e o s' (I_dense _ I) R H) as D'.
  destruct o; cbn [run_op] in H; apply drop_result_Ok in H as [v H]; cbn [op_wf] in W.
  - apply change_protocol_fee_inv in H as [_ ->].
    apply (Inv_same s); [exact I|exact W|apply I|reflexivity|split; reflexivity|split; reflexivity].
  - apply add_fee_tier_inv in H as (_ & H1 & H2 & H3 & _ & ->). destruct W as [W1 W2].
    apply (Inv_same s); [exact I|apply I| |reflexivity|split; reflexivity|split; reflexivity].
    cbn [set_fee_tiers s_fee_tiers]. intros ft0 Hf. apply elem_of_app in Hf as [Hf|Hf]; [apply (I_tiers _ I _ Hf)|].
    apply elem_of_list_singleton in Hf. subst ft0. unfold tier_ok, u16, u128, PERCENTAGE_ONE in *. lia.
  - apply remove_fee_tier_inv in H as (_ & l & Hl & ->).
    apply (Inv_same s); [exact I|apply I| |reflexivity|split; reflexivity|split; reflexivity].
    cbn [set_fee_tiers s_fee_tiers]. apply remove_first_spec in Hl as (l1 & l2 & E & -> & _).
    intros ft0 Hf. apply (I_tiers _ I). rewrite E. apply elem_of_app in Hf as [Hf|Hf]; apply elem_of_app; [auto|].
    right. apply elem_of_cons. auto.
  - apply create_pool_inv in H as (k & p & HF & HT & HK & _ & _ & HC & ->).
    apply Inv_pool_keys, Inv_set_pool; [exact I|].
    apply fee_tiers_contains_spec in HF. pose proof (I_tiers _ I _ HF) as [HS HFe].
    apply check_tick_inv in HT; [|lia].
    unfold pool_create in HC. apply bind_Ok in HC as (b & Hb & HC). apply bind_Ok in HC as (u & Hu & HC).
    apply bind_Ok in HC as (pr & Hpr & HC). injection HC as <-. apply unwrap_inv in Hpr.
    pose proof HT as [HVt _].
    rewrite calculate_sqrt_price_valid in Hpr by auto. injection Hpr as <-.
    apply pool_key_new_inv in HK as (K1 & K2 & _).
    assert (Z0 : u128 0) by (apply u128_I; reflexivity || (unfold M128; lia)).
    assert (Z1 : u256 0) by (apply u256_I; unfold M256; lia).
    constructor; cbn [p_liquidity p_sqrt_price p_current_tick_index p_fee_growth_global_x p_fee_growth_global_y
      p_fee_protocol_token_x p_fee_protocol_token_y]; unfold pk_spacing; rewrite ?K2; auto.
    + split; auto.
    + apply price_range; auto.
    + lia.
    + intros Hv. apply price_le; auto. lia.
  - apply change_fee_receiver_inv in H as (_ & p & Hp & ->). apply Inv_set_pool; [exact I|].
    destruct (I_pool _ I _ _ Hp). constructor; assumption.
  - apply (Inv_create_position e s k lower upper liquidity_delta slippage_limit_lower slippage_limit_upper s' v); auto. apply W.
  - destruct v as [x y]. apply (Inv_remove_position e s index s' x y); auto.
  - apply (Inv_transfer_position e s index receiver s' v); auto.
  - apply Inv_swap in H as [H _]; auto. apply W.
  - apply swap_route_inv in H. apply Inv_route in H as [H _]; auto. apply W.
  - destruct v as [x y]. apply (Inv_claim_fee e s index s' x y); auto.
  - apply withdraw_protocol_fee_inv in H as (p & B & Hp & _ & -> & _).
    apply Inv_balances, Inv_set_pool; [exact I|]. destruct (I_pool _ I _ _ Hp).
    assert (Z1 : u256 0) by (apply u256_I; unfold M256; lia).
    constructor; assumption.
  - apply deposit_vara_inv in H as (_ & [B ->] & _). apply Inv_balances. exact I.
  - apply withdraw_vara_inv in H as ([B ->] & _). apply Inv_balances. exact I.
Qed.

Lemma room_lengths s ev a : room s ev -> positions_get_length s a < M32 - 1.
Proof. intros H. specialize (H a). unfold get_user_position_amount in H. change M32 with (2 ^ 32). lia. Qed.

Lemma Inv_history (G : state -> event -> Prop) evs s :
  (forall s ev, G s ev -> room s ev) -> history G evs s -> Inv s.
Proof.
  intros HG. apply history_invariant.
  - intros. apply Inv_state_init; auto.
  - intros s1 e o s' I [_ W] Hg H. apply (Inv_op s1 e o); auto. intros a. eapply room_lengths. apply HG, Hg.
  - intros s1 B I _. apply Inv_balances; auto.
  - intros s1 m I. apply Inv_awaiting; auto.
Qed.
