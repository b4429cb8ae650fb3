(** Liquidity per tick is bounded; the liquidity of a pool is that of the positions in range. *)
From Verif Require Import Base Decimal SqrtPriceM LogM ClammM FeeGrowthM Types TickmapM StorageM
  CollectionsM StateM ServiceM Arith SpecMath SpecFees SpecSum SpecState SpecHistory SpecClean P_Clamm P_TickPrice P_Tickmap
  P_Fees P_Balance P_Effects P_Positions P_History P_Loop P_Check P_State P_Iter P_Inv P_InvPos P_PosOps P_InvSwap P_Swap P_SwapLoop P_InvHist.
From stdpp Require Import gmap list.
From Coq Require Import ZArith Lia Bool.
Open Scope Z_scope.

(** ** Sums after each operation *)

Lemma created_sum e s s' k lo up L sl su pos p x y mx f : created e s s' k lo up L sl su pos p x y mx ->
  msum f (s_positions s') = msum f (s_positions s) + f pos.
Proof. intros C. rewrite (cr_positions _ _ _ _ _ _ _ _ _ _ _ _ _ _ C), msum_insert by apply C. lia. Qed.

Lemma claimed_sum e s s' i x y pos p tl tu mx (f : position -> Z) :
  (forall q q', pos_pool_key q = pos_pool_key q' -> pos_liquidity q = pos_liquidity q' ->
      pos_lower q = pos_lower q' -> pos_upper q = pos_upper q' -> f q = f q') ->
  claimed e s s' i x y pos p tl tu mx -> msum f (s_positions s') = msum f (s_positions s).
Proof.
  intros Hf C. rewrite (cl_positions _ _ _ _ _ _ _ _ _ _ _ C), (msum_update _ _ _ pos) by apply C.
  match goal with |- _ - f pos + f ?q = _ => assert (f q = f pos) as -> by (apply Hf; reflexivity) end. lia.
Qed.

Lemma gross_fields k i q q' : pos_pool_key q = pos_pool_key q' -> pos_liquidity q = pos_liquidity q' ->
  pos_lower q = pos_lower q' -> pos_upper q = pos_upper q' -> gross_of k i q = gross_of k i q'.
Proof. intros E1 E2 E3 E4. unfold gross_of. rewrite E1, E2, E3, E4. reflexivity. Qed.
Lemma active_fields k i q q' : pos_pool_key q = pos_pool_key q' -> pos_liquidity q = pos_liquidity q' ->
  pos_lower q = pos_lower q' -> pos_upper q = pos_upper q' -> active_of k i q = active_of k i q'.
Proof. intros E1 E2 E3 E4. unfold active_of. rewrite E1, E2, E3, E4. reflexivity. Qed.

(** ** Gross liquidity stays below the maximum *)

Definition max_per_tick (sp : Z) : Z := (2 ^ 256 - 1) / (443637 / sp).

Lemma max_per_tick_eq sp mx : calculate_max_liquidity_per_tick sp = Ok mx -> mx = max_per_tick sp.
Proof.
  unfold calculate_max_liquidity_per_tick. intros H. apply bind_Ok in H as (n & E & H).
  apply expect_Ok, checked_div_Some in E as [-> _]. apply expect_Ok, checked_div_Some in H as [-> _]. reflexivity.
Qed.

Definition gross_bound (s : state) : Prop :=
  forall k i, s_pools s !! k <> None -> gross_at s k i < max_per_tick (pk_spacing k).

Lemma max_per_tick_pos sp : 1 <= sp <= 100 -> 0 < max_per_tick sp.
Proof.
  intros H. unfold max_per_tick.
  assert (H1 : 4436 <= 443637 / sp <= 443637).
  { split; [apply Z.div_le_lower_bound; lia|apply Z.div_le_upper_bound; lia]. }
  apply Z.div_str_pos. lia.
Qed.

Lemma gross_bound_create e s s' k lo up L sl su pos p x y mx : created e s s' k lo up L sl su pos p x y mx ->
  gross_bound s -> gross_bound s'.
Proof.
  intros C H k' i Hk. unfold gross_at. rewrite (created_sum _ _ _ _ _ _ _ _ _ _ _ _ _ _ (gross_of k' i) C).
  fold (gross_at s k' i).
  rewrite (cr_pools _ _ _ _ _ _ _ _ _ _ _ _ _ _ C) in Hk.
  assert (Hk0 : s_pools s !! k' <> None).
  { destruct (decide (k' = k)) as [->|Hn]; [rewrite (cr_pool _ _ _ _ _ _ _ _ _ _ _ _ _ _ C); discriminate|].
    rewrite lookup_insert_ne in Hk by congruence. exact Hk. }
  specialize (H k' i Hk0).
  rewrite (cr_pos _ _ _ _ _ _ _ _ _ _ _ _ _ _ C). unfold gross_of. cbn [pos_pool_key pos_lower pos_upper pos_liquidity].
  destruct (bool_decide_reflect (k = k')) as [<-|]; cbn [andb]; [|lia].
  rewrite <- (max_per_tick_eq _ _ (cr_max _ _ _ _ _ _ _ _ _ _ _ _ _ _ C)) in *.
  pose proof (cr_gross_lo _ _ _ _ _ _ _ _ _ _ _ _ _ _ C). pose proof (cr_gross_up _ _ _ _ _ _ _ _ _ _ _ _ _ _ C).
  destruct (Z.eqb_spec lo i) as [<-|]; cbn [orb]; [lia|]. destruct (Z.eqb_spec up i) as [<-|]; lia.
Qed.

Lemma gross_bound_same s s' : s_positions s' = s_positions s ->
  (forall k, s_pools s' !! k <> None -> s_pools s !! k <> None) -> gross_bound s -> gross_bound s'.
Proof. intros E1 E2 H k i Hk. unfold gross_at. rewrite E1. apply H, E2, Hk. Qed.

Lemma insert_not_none {K A} `{Countable K} (m : gmap K A) k v k' : m !! k <> None -> <[k := v]> m !! k' <> None -> m !! k' <> None.
Proof. intros H1 H2. destruct (decide (k' = k)) as [->|]; [auto|]. rewrite lookup_insert_ne in H2 by congruence. auto. Qed.

Lemma gross_bound_op s e o s' : Inv s -> gross_bound s -> op_wf o ->
  (forall a, positions_get_length s a < M32 - 1) -> run_op e s o = Ok s' -> gross_bound s'.
Proof.
  intros I H W R HO. pose proof (Inv_op s e o s' I W R HO) as I'.
  destruct (keeps_positions o) eqn:EK.
  - pose proof (keeps_positions_spec e s o s' EK HO) as [E1 _]. intros k i Hk.
    destruct (s_pools s !! k) as [p|] eqn:Hp.
    + unfold gross_at. rewrite E1. apply H. congruence.
    + destruct (s_pools s' !! k) as [p'|] eqn:Hp'; [|congruence].
      assert (G0 : gross_at s' k i = 0).
      { pose proof (gross_at_nonneg s' k i I'). destruct (Z.eq_dec (gross_at s' k i) 0); [auto|]. exfalso.
        unfold gross_at in *. rewrite E1 in *. destruct (msum_pos_ex (gross_of k i) (s_positions s)) as ([a m] & pos & Hpos & Hg); [lia|].
        unfold gross_of in Hg. destruct (bool_decide_reflect (pos_pool_key pos = k)) as [Ek|]; [|cbn in Hg; lia].
        destruct (so_pool _ _ (I_pos _ I _ _ _ Hpos)) as [q Hq]. congruence. }
      rewrite G0. apply max_per_tick_pos, (pool_spacing _ _ (I_pool _ I' _ _ Hp')).
  - destruct o; try discriminate EK; cbn [run_op] in HO; apply drop_result_Ok in HO as [v HO]; cbn [op_wf] in W.
    + apply create_summary in HO as (p & x & y & mx & C); [|auto|apply W]. eapply gross_bound_create; eauto.
    + destruct v as [x y]. apply remove_summary in HO as (pos & p & tl & tu & dx & dy & ox & oy & C); [|auto].
      intros k i Hk. unfold gross_at. rewrite (rm_msum _ _ _ _ _ _ _ _ _ _ _ _ _ _ C).
      assert (Hk0 : s_pools s !! k <> None).
      { rewrite (rm_pools _ _ _ _ _ _ _ _ _ _ _ _ _ _ C) in Hk. eapply insert_not_none; [|exact Hk].
        rewrite (rm_pool _ _ _ _ _ _ _ _ _ _ _ _ _ _ C). discriminate. }
      specialize (H k i Hk0). unfold gross_at in H.
      pose proof (gross_of_nonneg k i pos) as HN. pose proof (pos_nonneg _ _ _ _ I (rm_pos _ _ _ _ _ _ _ _ _ _ _ _ _ _ C)). lia.
    + pose proof (transfer_msum (fun _ => 0) e s index receiver s' v (I_dense _ I) HO) as _.
      intros k i Hk. unfold gross_at. rewrite (transfer_msum _ e s index receiver s' v (I_dense _ I) HO).
      apply H. apply transfer_position_inv in HO as (pos & lp & s1 & _ & _ & E1 & E2). subst s' s1. exact Hk.
    + destruct v as [x y]. apply claim_summary in HO as (pos & p & tl & tu & mx & C); [|auto].
      intros k i Hk. unfold gross_at. rewrite (claimed_sum _ _ _ _ _ _ _ _ _ _ _ _ (gross_fields k i) C).
      apply H. rewrite (cl_pools _ _ _ _ _ _ _ _ _ _ _ C) in Hk. eapply insert_not_none; [|exact Hk].
      rewrite (cl_pool _ _ _ _ _ _ _ _ _ _ _ C). discriminate.
Qed.

Lemma gross_bound_history (G : state -> event -> Prop) evs s :
  (forall s ev, G s ev -> room s ev) -> history G evs s -> Inv s /\ gross_bound s.
Proof.
  intros HG. revert evs s. apply (history_invariant (fun s => Inv s /\ gross_bound s) G).
  - intros. split; [apply Inv_state_init; auto|]. intros k i Hk. cbn in Hk. rewrite lookup_empty in Hk. congruence.
  - intros s1 e o s' [I H] [_ W] Hg HO.
    assert (R : forall a, positions_get_length s1 a < M32 - 1) by (intros a; eapply room_lengths; apply HG, Hg).
    split; [apply (Inv_op s1 e o); auto|]. eapply gross_bound_op; eauto.
  - intros s1 B [I H] _. split; [apply Inv_balances; auto|]. exact H.
  - intros s1 m [I H]. split; [apply Inv_awaiting; auto|exact H].
Qed.

(** ** Active liquidity *)

Definition active_ok (s : state) : Prop :=
  forall k p, s_pools s !! k = Some p -> active_at s k (p_current_tick_index p) = p_liquidity p.

Lemma active_create e s s' k lo up L sl su pos p x y mx : created e s s' k lo up L sl su pos p x y mx ->
  active_ok s -> active_ok s'.
Proof.
  intros C H k' q Hq. unfold active_at. rewrite (created_sum _ _ _ _ _ _ _ _ _ _ _ _ _ _ _ C).
  rewrite (cr_pos _ _ _ _ _ _ _ _ _ _ _ _ _ _ C). unfold active_of at 2. cbn [pos_pool_key pos_lower pos_upper pos_liquidity].
  fold (active_at s k' (p_current_tick_index q)). rewrite (cr_pools _ _ _ _ _ _ _ _ _ _ _ _ _ _ C) in Hq.
  apply lookup_insert_Some in Hq as [[<- <-]|[Hn Hq]].
  - rewrite bool_decide_eq_true_2 by reflexivity. cbn [andb].
    unfold with_liq. cbn [set_liquidity set_last_timestamp p_current_tick_index p_liquidity].
    rewrite (H k p) by apply C. fold (in_range lo up (p_current_tick_index p)). destruct (in_range _ _ _); lia.
  - rewrite bool_decide_eq_false_2 by auto. cbn [andb]. rewrite (H k' q Hq). lia.
Qed.

Lemma active_remove e s s' i x y pos p tl tu dx dy ox oy : removed e s s' i x y pos p tl tu dx dy ox oy ->
  active_ok s -> active_ok s'.
Proof.
  intros C H k' q Hq. unfold active_at. rewrite (rm_msum _ _ _ _ _ _ _ _ _ _ _ _ _ _ C). unfold active_of at 2.
  fold (active_at s k' (p_current_tick_index q)). rewrite (rm_pools _ _ _ _ _ _ _ _ _ _ _ _ _ _ C) in Hq.
  apply lookup_insert_Some in Hq as [[<- <-]|[Hn Hq]].
  - rewrite bool_decide_eq_true_2 by reflexivity. cbn [andb].
    unfold with_liq. cbn [set_liquidity set_last_timestamp p_current_tick_index p_liquidity].
    rewrite (H _ p) by apply C. fold (in_range (pos_lower pos) (pos_upper pos) (p_current_tick_index p)). destruct (in_range _ _ _); lia.
  - rewrite bool_decide_eq_false_2 by auto. cbn [andb]. rewrite (H k' q Hq). lia.
Qed.

Lemma active_claim e s s' i x y pos p tl tu mx : claimed e s s' i x y pos p tl tu mx ->
  active_ok s -> active_ok s'.
Proof.
  intros C H k' q Hq. unfold active_at. rewrite (claimed_sum _ _ _ _ _ _ _ _ _ _ _ _ (active_fields k' _) C).
  fold (active_at s k' (p_current_tick_index q)). rewrite (cl_pools _ _ _ _ _ _ _ _ _ _ _ C) in Hq.
  apply lookup_insert_Some in Hq as [[<- <-]|[Hn Hq]]; [|auto].
  cbn [set_last_timestamp p_current_tick_index p_liquidity]. apply H, C.
Qed.

Lemma active_swapped s ts k d a bi lim r : Inv s -> u256 a -> calculate_swap s ts k d a bi lim = Ok r ->
  clean_result s k r -> active_ok s -> active_ok (swapped s k r).
Proof.
  intros I Ha H HC A k' q Hq. destruct (calculate_swap_pool _ _ _ _ _ _ _ _ H) as [p0 Hp0].
  destruct (swap_induction s k d bi lim ts a p0 I Hp0 Ha (fun _ => True) r) as (l & V & _ & _ & _ & _ & ->); auto.
  unfold swapped in *. cbn [set_pools s_pools cs_pool cs_ticks] in *. unfold active_at. cbn [set_pools set_ticks s_positions].
  fold (active_at s k' (p_current_tick_index q)).
  apply lookup_insert_Some in Hq as [[<- <-]|[Hn Hq]]; [|auto].
  apply (v_liq _ _ _ _ _ _ _ V); [|apply A; auto].
  intros v Hv. apply (HC p0 v Hp0 Hv).
Qed.

Lemma active_swap e s k d a bi lim s' r : Inv s -> u256 a -> swap e s k d a bi lim = Ok (s', r) ->
  clean_result s k r -> active_ok s -> active_ok s'.
Proof.
  intros I Ha H HC A. apply swap_inv in H as (B & H & -> & _). exact (active_swapped s _ k d a bi lim r I Ha H HC A).
Qed.

Lemma active_route e hops : forall s a s' out, Inv s -> u256 a -> route_swap e s a hops = Ok (s', out) ->
  clean_route e s a hops -> active_ok s -> active_ok s'.
Proof.
  induction hops as [|h hops IH]; cbn [route_swap clean_route]; intros s a s' out I Ha H HC A.
  - injection H as <- _. auto.
  - apply bind_Ok in H as ([s1 r] & E & H). destruct (HC _ _ E) as [C1 C2].
    destruct (Inv_swap _ _ _ _ _ _ _ _ _ I Ha E) as (I1 & _ & Hr).
    apply (IH s1 (cs_amount_out r) s' out I1 Hr H C2). exact (active_swap e s _ _ a true _ s1 r I Ha E C1 A).
Qed.

Lemma active_op s e o s' : Inv s -> active_ok s -> op_wf o -> clean s (Call e o) ->
  run_op e s o = Ok s' -> active_ok s'.
Proof.
  intros I A W HC HO.
  destruct o; cbn [run_op] in HO; apply drop_result_Ok in HO as [v H]; cbn [op_wf] in W; cbn [clean] in HC.
  - apply change_protocol_fee_inv in H as [_ ->]. exact A.
  - apply add_fee_tier_inv in H as (_ & _ & _ & _ & _ & ->). exact A.
  - apply remove_fee_tier_inv in H as (_ & l & _ & ->). exact A.
  - apply create_pool_inv in H as (k & p & HF & HT & HK & HN & _ & HC0 & ->).
    intros k' q Hq. cbn [set_pool_keys set_pools s_pools] in Hq.
    change (active_at _ k' (p_current_tick_index q)) with (active_at s k' (p_current_tick_index q)).
    apply lookup_insert_Some in Hq as [[<- <-]|[Hn Hq]]; [|auto].
    assert (EL : p_liquidity p = 0).
    { unfold pool_create in HC0. apply bind_Ok in HC0 as (b & _ & HC0). apply bind_Ok in HC0 as (u & _ & HC0).
      apply bind_Ok in HC0 as (pr & _ & HC0). injection HC0 as <-. reflexivity. }
    rewrite EL. unfold active_at. rewrite (msum_ext _ (fun _ => 0)); [apply msum_zero|].
    intros [b n] pos Hp. unfold active_of. destruct (bool_decide_reflect (pos_pool_key pos = k)) as [Ek|]; [|reflexivity].
    destruct (so_pool _ _ (I_pos _ I _ _ _ Hp)) as [q Hq]. rewrite Ek in Hq. congruence.
  - apply change_fee_receiver_inv in H as (_ & p & Hp & ->). intros k' q Hq. cbn [set_pools s_pools] in Hq.
    apply lookup_insert_Some in Hq as [[<- <-]|[Hn Hq]]; [|exact (A _ _ Hq)]. exact (A _ _ Hp).
  - apply create_summary in H as (p & x & y & mx & C); [|auto|apply W]. eapply active_create; eauto.
  - destruct v as [x y]. apply remove_summary in H as (pos & p & tl & tu & dx & dy & ox & oy & C); [|auto].
    eapply active_remove; eauto.
  - intros k q Hq. unfold active_at. rewrite (transfer_msum _ e s index receiver s' v (I_dense _ I) H).
    apply A. apply transfer_position_inv in H as (pos & lp & s1 & _ & _ & E1 & E2). subst s' s1. exact Hq.
  - eapply active_swap; eauto; apply W.
  - apply swap_route_inv in H. eapply active_route; eauto; apply W.
  - destruct v as [x y]. apply claim_summary in H as (pos & p & tl & tu & mx & C); [|auto]. eapply active_claim; eauto.
  - apply withdraw_protocol_fee_inv in H as (p & B & Hp & _ & -> & _). intros k' q Hq.
    cbn [set_balances set_pools s_pools] in Hq.
    apply lookup_insert_Some in Hq as [[<- <-]|[Hn Hq]]; [|exact (A _ _ Hq)]. exact (A _ _ Hp).
  - apply deposit_vara_inv in H as (_ & [B ->] & _). exact A.
  - apply withdraw_vara_inv in H as ([B ->] & _). exact A.
Qed.

Lemma active_history evs s : history regular evs s -> Inv s /\ gross_bound s /\ active_ok s.
Proof.
  intros H. assert (HR : forall s ev, regular s ev -> room s ev) by (intros ? ? [? _]; auto).
  destruct (gross_bound_history regular evs s HR H) as [I GB]. split; [auto|]. split; [auto|].
  assert (X : Inv s /\ active_ok s); [|apply X]. clear I GB. revert evs s H. apply (history_invariant (fun s => Inv s /\ active_ok s) regular).
  - intros. split; [apply Inv_state_init; auto|]. intros k p Hk. cbn in Hk. rewrite lookup_empty in Hk. congruence.
  - intros s1 e o s' [I H] [_ W] [Hr Hc] HO.
    assert (R : forall a, positions_get_length s1 a < M32 - 1) by (intros a; eapply room_lengths; eauto).
    split; [apply (Inv_op s1 e o); auto|]. eapply active_op; eauto.
  - intros s1 B [I H] _. split; [apply Inv_balances; auto|]. exact H.
  - intros s1 m [I H]. split; [apply Inv_awaiting; auto|exact H].
Qed.

(** ** The total liquidity of a pool *)

Lemma pool_active_le s k c : Inv s -> active_at s k c <= pool_total s k.
Proof.
  intros I. apply msum_le. intros [a n] pos Hp. unfold active_of, pool_of. pose proof (pos_nonneg _ _ _ _ I Hp).
  destruct (bool_decide (pos_pool_key pos = k)); cbn [andb]; [|lia]. destruct (_ && _); lia.
Qed.

(** Sum over the ticks lo, lo+1, ..., lo+n-1 (in units of the spacing). *)
Fixpoint sum_ticks (f : Z -> Z) (lo : Z) (n : nat) : Z :=
  match n with O => 0 | S n => f lo + sum_ticks f (lo + 1) n end.

Lemma sum_ticks_le f c n : forall lo, (forall i, lo <= i < lo + Z.of_nat n -> f i <= c) -> sum_ticks f lo n <= Z.of_nat n * c.
Proof.
  induction n as [|n IH]; cbn [sum_ticks]; intros lo H; [lia|].
  assert (f lo <= c) by (apply H; lia). assert (sum_ticks f (lo + 1) n <= Z.of_nat n * c) by (apply IH; intros; apply H; lia). lia.
Qed.
Lemma sum_ticks_ge f n : forall lo, (forall i, 0 <= f i) -> 0 <= sum_ticks f lo n.
Proof. induction n as [|n IH]; cbn [sum_ticks]; intros lo H; [lia|]. pose proof (H lo). pose proof (IH (lo + 1) H). lia. Qed.
Lemma sum_ticks_mem f n : forall lo i, (forall i, 0 <= f i) -> lo <= i < lo + Z.of_nat n -> f i <= sum_ticks f lo n.
Proof.
  induction n as [|n IH]; cbn [sum_ticks]; intros lo i H Hi; [lia|].
  pose proof (sum_ticks_ge f n (lo + 1) H). destruct (Z.eq_dec i lo) as [->|]; [lia|].
  pose proof (H lo). assert (f i <= sum_ticks f (lo + 1) n) by (apply IH; auto; lia). lia.
Qed.
Lemma sum_ticks_two f n : forall lo i j, (forall i, 0 <= f i) -> lo <= i -> i < j -> j < lo + Z.of_nat n -> f i + f j <= sum_ticks f lo n.
Proof.
  induction n as [|n IH]; cbn [sum_ticks]; intros lo i j H Hi Hij Hj; [lia|].
  destruct (Z.eq_dec i lo) as [->|].
  - assert (f j <= sum_ticks f (lo + 1) n) by (apply sum_ticks_mem; auto; lia). lia.
  - pose proof (H lo). assert (f i + f j <= sum_ticks f (lo + 1) n) by (apply IH; auto; lia). lia.
Qed.
Lemma sum_ticks_msum {A} `{Countable K} (m : gmap K A) (f : Z -> A -> Z) n : forall lo,
  sum_ticks (fun i => msum (f i) m) lo n = msum (fun x => sum_ticks (fun i => f i x) lo n) m.
Proof.
  induction n as [|n IH]; cbn [sum_ticks]; intros lo; [rewrite msum_zero; reflexivity|].
  rewrite IH, <- msum_add. reflexivity.
Qed.

Lemma gross_total s k p : Inv s -> gross_bound s -> s_pools s !! k = Some p -> 2 * pool_total s k <= 2 * (2 ^ 256 - 1).
Proof.
  intros I GB Hp. pose proof (pool_spacing _ _ (I_pool _ I _ _ Hp)) as Hs. set (sp := pk_spacing k) in *.
  set (q := MX / sp). set (n := Z.to_nat (2 * q + 1)).
  assert (Hq : 0 <= q) by (apply Z.div_pos; unfold MX; lia).
  assert (S1 : 2 * pool_total s k <= sum_ticks (fun i => gross_at s k (i * sp)) (- q) n).
  { unfold gross_at, pool_total. rewrite <- msum_scale.
    rewrite (sum_ticks_msum (s_positions s) (fun i => gross_of k (i * sp)) n).
    apply msum_le. intros [a m] pos Hpos. unfold pool_of.
    pose proof (pos_nonneg _ _ _ _ I Hpos) as HL.
    assert (NN : forall i, 0 <= gross_of k (i * sp) pos) by (intros; apply gross_of_nonneg; lia).
    destruct (bool_decide_reflect (pos_pool_key pos = k)) as [Ek|]; [|pose proof (sum_ticks_ge _ n (- q) NN); lia].
    destruct (pos_ticks s a m pos I Hpos) as (p' & tl & tu & _ & _ & _ & T1 & T2). rewrite Ek in T1, T2.
    pose proof (so_lt _ _ (I_pos _ I _ _ _ Hpos)) as Hlt.
    destruct (to_okt _ _ _ _ T1) as [B1 [i1 E1]]. destruct (to_okt _ _ _ _ T2) as [B2 [i2 E2]]. fold sp in E1, E2.
    assert (R : forall i, -221818 <= i * sp <= 221818 -> - q <= i <= q).
    { intros i Hi. unfold q, MX. assert (i <= 221818 / sp) by (apply Z.div_le_lower_bound; lia).
      assert (- i <= 221818 / sp) by (apply Z.div_le_lower_bound; lia). lia. }
    pose proof (R i1 ltac:(lia)). pose proof (R i2 ltac:(lia)).
    pose proof (sum_ticks_two (fun i => gross_of k (i * sp) pos) n (- q) i1 i2 NN ltac:(lia) ltac:(nia) ltac:(lia)) as S2.
    cbn beta in S2. rewrite <- E1, <- E2 in S2.
    assert (G : forall i, i = pos_lower pos \/ i = pos_upper pos -> gross_of k i pos = pos_liquidity pos).
    { intros i Hi. unfold gross_of. rewrite bool_decide_eq_true_2 by auto.
      destruct (Z.eqb_spec (pos_lower pos) i), (Z.eqb_spec (pos_upper pos) i); cbn; auto; lia. }
    rewrite !G in S2 by auto. lia. }
  assert (S2 : sum_ticks (fun i => gross_at s k (i * sp)) (- q) n <= Z.of_nat n * max_per_tick sp).
  { apply sum_ticks_le. intros i _. apply Z.lt_le_incl, GB. congruence. }
  assert (S3 : Z.of_nat n <= 2 * (443637 / sp)).
  { unfold n. rewrite Z2Nat.id by lia. unfold q, MX.
    assert (2 * (221818 / sp) <= 443637 / sp).
    { apply Z.div_le_lower_bound; [lia|]. pose proof (Z.mul_div_le 221818 sp). lia. }
    assert (4436 <= 443637 / sp) by (apply Z.div_le_lower_bound; lia). lia. }
  assert (S4 : (443637 / sp) * max_per_tick sp <= 2 ^ 256 - 1).
  { unfold max_per_tick. apply Z.mul_div_le. pose proof (Z.div_le_lower_bound 443637 sp 4436). lia. }
  pose proof (max_per_tick_pos sp Hs). nia.
Qed.

(** ** Swaps that are clean *)

Lemma clean_or_miss s ts k d a bi lim r : Inv s -> u256 a -> calculate_swap s ts k d a bi lim = Ok r ->
  clean_result s k r \/
  exists v, is_Some (s_ticks s !! (k, v)) /\ near_miss d bi lim v (p_sqrt_price (cs_pool r)).
Proof.
  intros I Ha H. destruct (calculate_swap_pool _ _ _ _ _ _ _ _ H) as [p0 Hp0].
  destruct (swap_induction s k d bi lim ts a p0 I Hp0 Ha (fun _ => True) r) as (l & V & _ & _ & _ & _ & ->); auto.
  cbn [cs_pool]. destruct (v_exact _ _ _ _ _ _ _ V) as [E|(_ & v & Hv & _ & Hn)]; [left|right; eauto].
  intros p i Hp Hi. rewrite Hp0 in Hp. injection Hp as <-. apply E. exact Hi.
Qed.
