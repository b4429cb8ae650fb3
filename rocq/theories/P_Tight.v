(** The price of a pool is strictly below the price of the next tick of its grid. *)
From Verif Require Import Base Decimal SqrtPriceM LogM ClammM FeeGrowthM Types TickmapM StorageM
  CollectionsM StateM ServiceM Arith SpecMath SpecFees SpecSum SpecState SpecHistory P_Clamm P_Delta P_Next P_Step
  P_StepProps P_TickPrice P_GetTick P_Tickmap P_Closer
  P_Fees P_Balance P_Effects P_Positions P_History P_Loop P_Check P_State P_Iter P_Inv P_InvPos P_PosOps P_InvSwap P_Swap P_SwapLoop P_InvHist.
From stdpp Require Import gmap list.
From Coq Require Import ZArith Lia Bool.
Open Scope Z_scope.

Definition tight (k : pool_key) (p : pool) : Prop :=
  p_current_tick_index p + pk_spacing k <= 221818 -> p_sqrt_price p < price (p_current_tick_index p + pk_spacing k).

Lemma tight_same k p p' : p_current_tick_index p' = p_current_tick_index p -> p_sqrt_price p' = p_sqrt_price p ->
  tight k p -> tight k p'.
Proof. unfold tight. intros -> ->. auto. Qed.

Lemma tight_at k p i : 1 <= pk_spacing k -> okt (pk_spacing k) i -> p_current_tick_index p = i -> p_sqrt_price p = price i -> tight k p.
Proof.
  intros Hs [Hi _] Ec Ep. unfold tight. rewrite Ec, Ep. intros H. apply price_lt; unfold valid_tick; lia.
Qed.

(** Nothing left does not change a price. *)
Lemma is_enough_zero p L fee bi en : u256 L -> 0 < L -> is_enough_amount_to_change_price 0 p L fee bi true = Ok en -> en = false.
Proof.
  intros UL HL H. unfold is_enough_amount_to_change_price in H. destruct (Z.eqb_spec L 0); [lia|].
  apply bind_Ok in H as (n' & E & H). injection H as <-. apply negb_false_iff, Z.eqb_eq. symmetry. destruct bi.
  - apply bind_Ok in E as (rate & E1 & E). replace (token_big_mul_percentage 0 rate) with (@Ok Z 0) in E by reflexivity.
    cbn in E. injection E as <-. reflexivity.
  - unfold get_next_sqrt_price_from_output, get_next_sqrt_price_y_down in E.
    replace (token_to_sqrt_price_value 0) with (@Ok Z 0) in E by reflexivity. cbn [bind] in E.
    rewrite liquidity_to_value_eq in E by auto. cbn [bind] in E. apply bind_Ok in E as (q & E3 & E).
    unfold checked_big_div_values_up in E3.
    replace (checked_mul M448 0 SQRT_PRICE_ONE) with (Some 0) in E3 by reflexivity. cbn [ok_or bind] in E3.
    apply bind_Ok in E3 as (d1 & E4 & E3). apply ok_or_Ok, checked_sub_Some in E4 as [-> E4].
    apply bind_Ok in E3 as (s1 & E5 & E3). apply ok_or_Ok, checked_add_Some in E5 as [-> E5].
    apply bind_Ok in E3 as (r & E6 & E3). apply ok_or_Ok, checked_div_Some in E6 as [-> E6].
    apply ok_or_Ok, checked_cast_Some in E3 as [-> _].
    rewrite Z.add_0_l, Z.div_small in E by lia. unfold dec_checked_sub in E. apply ok_or_Ok, checked_sub_Some in E as [-> _]. lia.
Qed.

Lemma pool_add_fee_price p a d f p' : pool_add_fee p a d f = Ok p' -> p_sqrt_price p' = p_sqrt_price p.
Proof.
  unfold pool_add_fee. intros H.
  repeat (match type of H with
    | bind _ _ = Ok _ => apply bind_Ok in H as (? & ? & H)
    | (if ?b then _ else _) = Ok _ => destruct b
    end); injection H as <-; reflexivity.
Qed.

Section Swap.
  Context (s : state) (k : pool_key) (d bi : bool) (lim tl ts : Z) (p0 : pool).
  Hypothesis I : Inv s.
  Hypothesis Hp0 : s_pools s !! k = Some p0.

  Lemma iteration_tight l l' : ready s k d lim l -> l_remaining l <> 0 ->
    (if d then get_min_tick (pk_spacing k) else get_max_tick (pk_spacing k)) = Ok tl ->
    swap_iteration s k d bi lim tl ts l = Ok l' -> l_remaining l' = 0 -> tight k (l_pool l').
  Proof using I Hp0.
    intros R Hnz Htl Hb H0.
    destruct (iteration_facts s k d bi lim tl ts p0 l l' I Hp0 R Hnz Htl Hb) as (? & ? & ? & _ & _ & _ & PO' & _).
    pose proof (r_inv _ _ _ _ _ R) as I1. pose proof (I_pool _ I1 _ _ (mid_pool s k l)) as PO.
    pose proof (pool_spacing _ _ PO) as Hs.
    assert (Hf : 0 <= pk_fee k <= E12) by (pose proof (po_tier _ _ PO) as [_ X]; unfold pk_fee; change E12 with (10 ^ 12); lia).
    apply swap_iteration_inv in Hb as (target & lt & r & p1 & E1 & E2 & _ & H). cbv zeta in H.
    destruct H as (Hr1 & E3 & _ & _ & _ & _ & _ & _ & _ & H).
    pose proof (closer_facts (mid s k l) k (l_pool l) d lim target lt I1 (mid_pool s k l) (r_lim _ _ _ _ _ R) E1) as (Ht & _ & HC).
    set (rem1 := l_remaining l - (if bi then sr_amount_in r + sr_fee_amount r else sr_amount_out r)) in *.
    destruct (step_amounts _ _ _ _ _ _ _ (po_range _ _ PO) Ht (po_liq _ _ PO) (r_rem _ _ _ _ _ R) Hf E2) as (Ui & Uo & Uf & S0).
    destruct (pool_add_fee_ok k _ _ _ _ _ PO Uf (proj1 (u128_M _ (I_fee _ I))) E3) as (PO1 & F1 & F2 & F3 & F4).
    assert (Hen : forall en, is_enough_amount_to_change_price rem1 (sr_next_sqrt_price r) (p_liquidity p1) (pk_fee k) bi d = Ok en ->
              rem1 = 0 -> d && en = false).
    { intros en Een Hr0. destruct d; [|reflexivity]. cbn. destruct (Z.eq_dec (p_liquidity p1) 0) as [HL|HL].
      - exfalso. destruct S0 as (S1 & S2 & S3 & _); [congruence|]. unfold rem1 in Hr0. rewrite S1, S2, S3 in Hr0. destruct bi; lia.
      - rewrite Hr0 in Een. apply is_enough_zero in Een; auto; [apply PO1|]. pose proof (u256_M _ (po_liq _ _ PO1)). lia. }
    destruct H as [(_ & (c & Ec & EP) & _)|(Et & i & b & en & -> & Een & H)].
    - pose proof (po_tick _ _ PO') as [Hc _]. rewrite EP in Hc |- *. cbn in Hc. unfold tight. cbn.
      apply get_tick_aligned in Ec as (_ & _ & _ & _ & X & _); auto. intros. apply X. lia.
    - destruct HC as (Epr & Hoi & _ & Hbt & _). cbn [set_sqrt_price p_liquidity] in Een.
      destruct H as [(_ & EP & _ & ER & _)|(-> & t & Ht0 & H)].
      + rewrite (Hen _ Een) in EP by congruence. rewrite EP. apply (tight_at k _ i); auto; cbn; [lia|congruence].
      + destruct (I_tick _ I _ _ _ Ht0) as [_ T]. pose proof (to_index _ _ _ _ T) as Hti.
        destruct H as [(_ & t' & p3 & EX & EP & _ & ER & _)|(_ & _ & p3 & EP & H)].
        * rewrite (Hen _ Een) in EP by congruence.
          apply tick_cross_inv in EX as (-> & _ & -> & _); [|apply T|cbn; apply u256_M, PO1].
          rewrite EP. apply (tight_at k _ i); auto; cbn; [lia|congruence].
        * rewrite EP. apply (tight_at k _ i); auto; cbn; [lia|].
          destruct H as [(_ & _ & EF & _)|(_ & -> & _)]; [|cbn; congruence].
          pose proof (pool_add_fee_price _ _ _ _ _ EF) as ->. cbn. congruence.
  Qed.
End Swap.

Definition all_tight (s : state) : Prop := forall k p, s_pools s !! k = Some p -> tight k p.

Lemma calculate_swap_tight s ts k d a bi lim r : Inv s -> u256 a -> calculate_swap s ts k d a bi lim = Ok r -> tight k (cs_pool r).
Proof.
  intros I Ha H. destruct (calculate_swap_inv _ _ _ _ _ _ _ _ H) as (p0 & tl & l & H1 & Hp0 & H3 & H4 & H5 & H6 & ->). cbn [cs_pool].
  assert (Hlim : dirP d (lim < p_sqrt_price p0) (p_sqrt_price p0 < lim)) by (destruct d; cbn; lia).
  pose proof (while_loop_inv (fun l => l_remaining l =? 0) (swap_iteration s k d bi lim tl ts)
    (fun l => linv s k d bi lim p0 l /\ (l_remaining l = 0 -> tight k (l_pool l)))) as W.
  destruct (W) with (s := loop_start a p0) (s' := l) as [[V HQ] Hf]; [| |exact H5|].
  - intros l1 l2 [V1 Q1] Hf Hb. apply Z.eqb_neq in Hf. pose proof (linv_ready _ _ _ _ _ _ l1 V1 Hf) as R.
    destruct (iteration_facts s k d bi lim tl ts p0 l1 l2 I Hp0 R Hf H4 Hb)
      as (target & r & p1 & S & E & PO1 & PO' & Hpr & Hl).
    split; [exact (linv_step s k d bi lim ts p0 I Hp0 l1 l2 target r p1 V1 Hf S E PO1 PO' Hpr Hl)|].
    exact (iteration_tight s k d bi lim tl ts p0 I Hp0 l1 l2 R Hf H4 Hb).
  - split; [apply linv_start; auto|]. unfold loop_start. cbn. intros. contradiction.
  - apply Z.eqb_eq in Hf. auto.
Qed.

Lemma tight_swap e s k d a bi lim s' r : Inv s -> u256 a -> swap e s k d a bi lim = Ok (s', r) -> all_tight s -> all_tight s'.
Proof.
  intros I Ha H A. apply swap_inv in H as (B & H & -> & _). pose proof (calculate_swap_tight _ _ _ _ _ _ _ _ I Ha H) as T.
  intros k' q Hq. unfold swapped in Hq. cbn in Hq. apply lookup_insert_Some in Hq as [[<- <-]|[_ Hq]]; auto.
Qed.

Lemma tight_route e hops : forall s a s' out, Inv s -> u256 a -> route_swap e s a hops = Ok (s', out) -> all_tight s -> all_tight s'.
Proof.
  induction hops as [|h hops IH]; cbn [route_swap]; intros s a s' out I Ha H A.
  - injection H as <- _. auto.
  - apply bind_Ok in H as ([s1 r] & E & H).
    destruct (Inv_swap _ _ _ _ _ _ _ _ _ I Ha E) as (I1 & _ & Hr).
    apply (IH s1 (cs_amount_out r) s' out I1 Hr H). exact (tight_swap e s _ _ a true _ s1 r I Ha E A).
Qed.

Lemma with_liq_tight k p lo up L ts : tight k p -> tight k (with_liq p lo up L ts).
Proof. apply tight_same; unfold with_liq; destruct (in_range _ _ _); reflexivity. Qed.

Lemma tight_op s e o s' : Inv s -> all_tight s -> op_wf o -> run_op e s o = Ok s' -> all_tight s'.
Proof.
  intros I A W HO.
  destruct o; cbn [run_op] in HO; apply drop_result_Ok in HO as [v H]; cbn [op_wf] in W.
  - apply change_protocol_fee_inv in H as [_ ->]. exact A.
  - apply add_fee_tier_inv in H as (_ & _ & _ & _ & _ & ->). exact A.
  - apply remove_fee_tier_inv in H as (_ & l & _ & ->). exact A.
  - apply create_pool_inv in H as (k & p & HF & HT & HK & HN & _ & HC0 & ->).
    intros k' q Hq. cbn [set_pool_keys set_pools s_pools] in Hq.
    apply lookup_insert_Some in Hq as [[<- <-]|[Hn Hq]]; [|auto].
    apply fee_tiers_contains_spec in HF. pose proof (I_tiers _ I _ HF) as [HS HFe].
    apply check_tick_inv in HT; [|lia].
    unfold pool_create in HC0. apply bind_Ok in HC0 as (b & Hb & HC0). apply bind_Ok in HC0 as (u & Hu & HC0).
    apply bind_Ok in HC0 as (pr & Hpr & HC0). injection HC0 as <-. apply unwrap_inv in Hpr.
    rewrite calculate_sqrt_price_valid in Hpr by apply HT. injection Hpr as <-.
    apply pool_key_new_inv in HK as (K1 & K2 & _).
    eapply tight_at; [| |reflexivity|reflexivity]; unfold pk_spacing; rewrite ?K2; auto. lia.
  - apply change_fee_receiver_inv in H as (_ & p & Hp & ->). intros k' q Hq. cbn [set_pools s_pools] in Hq.
    apply lookup_insert_Some in Hq as [[<- <-]|[Hn Hq]]; [|exact (A _ _ Hq)]. exact (A _ _ Hp).
  - apply create_summary in H as (p & x & y & mx & C); [|auto|apply W].
    intros k' q Hq. rewrite (cr_pools _ _ _ _ _ _ _ _ _ _ _ _ _ _ C) in Hq.
    apply lookup_insert_Some in Hq as [[<- <-]|[Hn Hq]]; [|auto]. apply with_liq_tight, A, C.
  - destruct v as [x y]. apply remove_summary in H as (pos & p & tl & tu & dx & dy & ox & oy & C); [|auto].
    intros k' q Hq. rewrite (rm_pools _ _ _ _ _ _ _ _ _ _ _ _ _ _ C) in Hq.
    apply lookup_insert_Some in Hq as [[<- <-]|[Hn Hq]]; [|auto]. apply with_liq_tight, A, C.
  - intros k q Hq. apply A. apply transfer_position_inv in H as (pos & lp & s1 & _ & _ & E1 & E2). subst s' s1. exact Hq.
  - eapply tight_swap; eauto; apply W.
  - apply swap_route_inv in H. eapply tight_route; eauto; apply W.
  - destruct v as [x y]. apply claim_summary in H as (pos & p & tl & tu & mx & C); [|auto].
    intros k' q Hq. rewrite (cl_pools _ _ _ _ _ _ _ _ _ _ _ C) in Hq.
    apply lookup_insert_Some in Hq as [[<- <-]|[Hn Hq]]; [|auto]. eapply tight_same; [| |apply A, C]; reflexivity.
  - apply withdraw_protocol_fee_inv in H as (p & B & Hp & _ & -> & _). intros k' q Hq.
    cbn [set_balances set_pools s_pools] in Hq.
    apply lookup_insert_Some in Hq as [[<- <-]|[Hn Hq]]; [|exact (A _ _ Hq)]. exact (A _ _ Hp).
  - apply deposit_vara_inv in H as (_ & [B ->] & _). exact A.
  - apply withdraw_vara_inv in H as ([B ->] & _). exact A.
Qed.

Lemma tight_history (G : state -> event -> Prop) evs s : (forall s ev, G s ev -> room s ev) -> history G evs s -> Inv s /\ all_tight s.
Proof.
  intros HG. revert evs s. apply (history_invariant (fun s => Inv s /\ all_tight s) G).
  - intros. split; [apply Inv_state_init; auto|]. intros k p Hk. cbn in Hk. rewrite lookup_empty in Hk. congruence.
  - intros s1 e o s' [I H] [_ W] Hr HO.
    assert (R : forall a, positions_get_length s1 a < M32 - 1) by (intros a; eapply room_lengths; eauto).
    split; [apply (Inv_op s1 e o); auto|]. eapply tight_op; eauto.
  - intros s1 B [I H] _. split; [apply Inv_balances; auto|]. exact H.
  - intros s1 m [I H]. split; [apply Inv_awaiting; auto|exact H].
Qed.
