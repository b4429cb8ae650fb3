(** Termination of the swap loop, and what a completed swap charges and pays. *)
From Verif Require Import Base Decimal SqrtPriceM LogM ClammM FeeGrowthM Types TickmapM StorageM
  CollectionsM StateM ServiceM Arith SpecMath SpecFees SpecSum SpecState SpecHistory SpecLoop P_Clamm P_Delta P_Next P_Step
  P_StepProps P_TickPrice P_GetTick P_Tickmap P_Closer
  P_Fees P_Balance P_Effects P_Positions P_History P_Loop P_Check P_State P_Iter P_Inv P_InvPos P_InvSwap P_Swap P_SwapLoop P_InvHist.
From stdpp Require Import gmap list.
From Coq Require Import ZArith Lia Bool.
Open Scope Z_scope.

(** ** Loops with a decreasing measure *)

Section Measure.
  Context {S : Type} (finished : S -> bool) (body : S -> res S) (P : S -> Prop) (m : S -> Z).
  Hypothesis step : forall s s', P s -> finished s = false -> body s = Ok s' -> P s' /\ (finished s' = false -> m s' < m s).
  Hypothesis pos : forall s, P s -> finished s = false -> 0 <= m s.
  Hypothesis noloop : forall s, P s -> finished s = false -> body s <> Loop.

  Lemma takes_measure : forall n s, P s -> (finished s = false -> m s < Z.of_nat n) ->
    exists j r, takes finished body j s r /\ Z.of_nat j <= Z.of_nat n /\ r <> Loop.
  Proof using step pos noloop.
    induction n as [|n IH]; intros s Hs Hm; destruct (finished s) eqn:Ef.
    - exists O, (Ok s). split; [constructor; auto|]. split; [lia|discriminate].
    - specialize (Hm eq_refl). pose proof (pos s Hs Ef). lia.
    - exists O, (Ok s). split; [constructor; auto|]. split; [lia|discriminate].
    - specialize (Hm eq_refl). pose proof (noloop s Hs Ef) as NL. destruct (body s) as [s'|e| |] eqn:Eb.
      + destruct (step s s' Hs Ef Eb) as [Hs' Hd].
        destruct (IH s' Hs') as (j & r & T & Hj & Hr); [intros Ef'; specialize (Hd Ef'); lia|].
        exists (Datatypes.S j), r. split; [econstructor; eauto|]. split; [lia|auto].
      + exists 1%nat, (Err e). split; [apply takes_fail; auto; discriminate|]. split; [lia|discriminate].
      + exists 1%nat, Panic. split; [apply takes_fail; auto; discriminate|]. split; [lia|discriminate].
      + contradiction.
  Qed.

  (** [iterate] follows [takes]. *)
  Lemma iterate_takes : forall n j s r, takes finished body j s r ->
    match iterate finished body n s with
    | Stop r' => r' = r
    | Cont s' => exists i, takes finished body i s' r /\ Z.of_nat j = 2 ^ Z.of_nat n + Z.of_nat i
    end.
  Proof using.
    induction n as [|n IH]; intros j s r T; cbn [iterate].
    - unfold loop_once. inversion T as [? Ef|? ? Ef Eb Hn|i ? s' ? Ef Eb T']; subst.
      + rewrite Ef. reflexivity.
      + rewrite Ef. destruct (body s); auto. edestruct Hn; eauto.
      + rewrite Ef, Eb. exists i. split; [auto|]. change (2 ^ Z.of_nat 0) with 1. lia.
    - specialize (IH j s r T) as H1. destruct (iterate finished body n s) as [s1|r1]; [|exact H1].
      destruct H1 as (i & T1 & E1). specialize (IH i s1 r T1) as H2.
      destruct (iterate finished body n s1) as [s2|r2]; [|exact H2].
      destruct H2 as (i2 & T2 & E2). exists i2. split; [auto|].
      rewrite Nat2Z.inj_succ, Z.pow_succ_r by lia. lia.
  Qed.

  Lemma while_takes j s r : takes finished body j s r -> Z.of_nat j < 2 ^ 100 -> while_loop finished body s = r.
  Proof using.
    intros T Hj. unfold while_loop. pose proof (iterate_takes 100 j s r T) as H.
    destruct (iterate finished body 100 s) as [s'|r']; [|exact H].
    destruct H as (i & _ & E). change (Z.of_nat 100) with 100 in E. lia.
  Qed.
End Measure.

(** ** Nothing but the loop can run out of budget *)

Lemma bind_noloop {A B} (r : res A) (f : A -> res B) :
  r <> Loop -> (forall a, r = Ok a -> f a <> Loop) -> bind r f <> Loop.
Proof. destruct r; cbn; auto; discriminate. Qed.
Lemma unwrap_noloop {A} (r : res A) : r <> Loop -> unwrap r <> Loop.
Proof. destruct r; cbn; congruence. Qed.
Lemma map_err_noloop {A} (r : res A) e : r <> Loop -> map_err r e <> Loop.
Proof. destruct r; cbn; congruence. Qed.
Lemma ok_or_noloop {A} (r : option A) e : ok_or r e <> Loop.
Proof. destruct r; cbn; congruence. Qed.
Lemma expect_noloop {A} (r : option A) : expect r <> Loop.
Proof. destruct r; cbn; congruence. Qed.
Lemma fail_if_noloop b e : fail_if b e <> Loop.
Proof. destruct b; cbn; congruence. Qed.
Lemma foldM_noloop {A S} (f : S -> A -> res S) l : (forall s a, f s a <> Loop) -> forall s, foldM_res f l s <> Loop.
Proof. intros H. induction l as [|x l IH]; cbn [foldM_res]; intros s; [discriminate|]. apply bind_noloop; auto. Qed.

Create HintDb noloop.
Ltac head_of t := match t with ?f _ => head_of f | _ => t end.
Ltac noloop := repeat first
  [ assumption | discriminate | solve [auto 2 with noloop nocore]
  | apply unwrap_noloop | apply map_err_noloop | apply ok_or_noloop | apply expect_noloop | apply fail_if_noloop
  | apply bind_noloop; [|intros ? _]
  | progress cbv zeta
  | match goal with |- context [match ?x with _ => _ end] => is_var x; destruct x end
  | match goal with |- ?t <> Loop => match t with match ?x with _ => _ end => destruct x end end
  | match goal with |- ?t <> Loop => let h := head_of t in progress unfold h end ].

Lemma mul_factors_noloop fs : forall t acc, mul_factors fs t acc <> Loop.
Proof. induction fs as [|f fs IH]; cbn [mul_factors]; intros; noloop; try apply IH. Qed.
#[local] Hint Resolve mul_factors_noloop : noloop.
Lemma calculate_sqrt_price_noloop t : calculate_sqrt_price t <> Loop.
Proof. unfold calculate_sqrt_price. noloop. Qed.
#[local] Hint Resolve calculate_sqrt_price_noloop : noloop.
Lemma get_tick_at_noloop p sp : get_tick_at_sqrt_price p sp <> Loop.
Proof. unfold get_tick_at_sqrt_price. noloop. Qed.
#[local] Hint Resolve get_tick_at_noloop : noloop.
Lemma next_loop_noloop b k sp lc lb n : forall c t, next_loop b k sp lc lb n c t <> Loop.
Proof. induction n as [|n IH]; cbn [next_loop]; intros; [discriminate|]. cbv zeta. noloop; try apply IH. Qed.
#[local] Hint Resolve next_loop_noloop : noloop.
Lemma prev_loop_noloop b k sp lc lb n : forall c t, prev_loop b k sp lc lb n c t <> Loop.
Proof. induction n as [|n IH]; cbn [prev_loop]; intros; [discriminate|]. cbv zeta. noloop; try apply IH. Qed.
#[local] Hint Resolve prev_loop_noloop : noloop.
Lemma get_closer_limit_noloop b lim d c sp k : get_closer_limit b lim d c sp k <> Loop.
Proof.
  unfold get_closer_limit, next_initialized, prev_initialized.
  noloop.
Qed.
#[local] Hint Resolve get_closer_limit_noloop : noloop.
Lemma compute_swap_step_noloop p t L a bi f : compute_swap_step p t L a bi f <> Loop.
Proof. unfold compute_swap_step. noloop. Qed.
#[local] Hint Resolve compute_swap_step_noloop : noloop.
Lemma pool_add_fee_noloop p a d f : pool_add_fee p a d f <> Loop.
Proof. unfold pool_add_fee. noloop. Qed.
#[local] Hint Resolve pool_add_fee_noloop : noloop.
Lemma pool_update_tick_noloop p r lim tk rem bi d ts pf ft : pool_update_tick p r lim tk rem bi d ts pf ft <> Loop.
Proof. unfold pool_update_tick. noloop. Qed.
#[local] Hint Resolve pool_update_tick_noloop : noloop.
Lemma swap_iteration_noloop s k d bi lim tl ts l : swap_iteration s k d bi lim tl ts l <> Loop.
Proof.
  unfold swap_iteration.
  repeat (apply bind_noloop; [|intros ? _]); cbv zeta; try discriminate;
    repeat match goal with |- context [match ?x with _ => _ end] => is_var x; destruct x end;
    first [apply get_closer_limit_noloop|apply unwrap_noloop, compute_swap_step_noloop
          |apply unwrap_noloop, pool_add_fee_noloop|apply pool_update_tick_noloop|noloop].
Qed.

(** ** The measure of the swap loop *)

Definition iteration_bound (x_to_y by_amount_in : bool) : Z :=
  if x_to_y || by_amount_in then 443637 else 2 ^ 96.

Section Term.
  Context (s : state) (k : pool_key) (d bi : bool) (lim tl ts a : Z) (p0 : pool).
  Context (I : Inv s) (Hp0 : s_pools s !! k = Some p0) (Ha : u256 a).
  Context (Htl : (if d then get_min_tick (pk_spacing k) else get_max_tick (pk_spacing k)) = Ok tl).
  Context (Hlim : dirP d (lim < p_sqrt_price p0) (p_sqrt_price p0 < lim)).

  Definition meas (l : swap_loop_state) : Z :=
    if d then cur l + 221818
    else if bi then 221818 - cur l
    else MAX_SQRT_PRICE + 221818 - (p_sqrt_price (l_pool l) + cur l).

  Lemma meas_bound l : pool_ok k (l_pool l) -> 0 <= meas l < iteration_bound d bi.
  Proof using.
    clear Hlim Htl. intros PO. destruct (po_tick _ _ PO) as [HT _]. pose proof (po_range _ _ PO) as HR.
    unfold price_in_range, MIN_SQRT_PRICE, MAX_SQRT_PRICE in HR. unfold meas, iteration_bound, cur, MAX_SQRT_PRICE.
    destruct d, bi; cbn [orb]; lia.
  Qed.

  Lemma swap_takes : exists j r,
    takes (fun l => l_remaining l =? 0) (swap_iteration s k d bi lim tl ts) j (loop_start a p0) r /\
    Z.of_nat j <= iteration_bound d bi /\ r <> Loop.
  Proof using I Hp0 Ha Htl Hlim.
    assert (HB : 0 <= iteration_bound d bi) by (unfold iteration_bound; destruct (d || bi); lia).
    rewrite <- (Z2Nat.id (iteration_bound d bi)) by auto.
    apply (takes_measure (fun l => l_remaining l =? 0) (swap_iteration s k d bi lim tl ts)
             (linv s k d bi lim p0) meas).
    - intros l l' V Hf Hb. apply Z.eqb_neq in Hf.
      destruct (iteration_facts s k d bi lim tl ts p0 l l' I Hp0 (linv_ready s k d bi lim p0 l V Hf) Hf Htl Hb)
        as (target & r & p1 & S & E & PO1 & PO' & Hpr & Hl).
      split; [eapply linv_step; eauto|]. intros Hf'. apply Z.eqb_neq in Hf'.
      pose proof (is_dir _ _ _ _ _ _ _ _ _ _ S) as HD.
      unfold meas, cur. inversion E as [c' EP ET ER EI NP DIR|c' v EP ET ER EZ|i t Ht Hti Hi Hn Hcl Hst EP ET ER EI NP|i p3 Hd Hbi Hr3 Hfe EP ET ER].
      + rewrite ER in Hf'. specialize (DIR Hf'). rewrite EP. cbn [set_current_tick_index set_sqrt_price p_current_tick_index p_sqrt_price].
        destruct d, bi; cbn [dirP] in *; lia.
      + lia.
      + rewrite EP. cbn [set_current_tick_index set_liquidity set_last_timestamp set_sqrt_price p_current_tick_index p_sqrt_price].
        pose proof (I_pool _ (v_inv _ _ _ _ _ _ _ V) _ _ (mid_pool s k l)) as PO. pose proof (pool_spacing _ _ PO).
        destruct d, bi; cbn [dirP] in *; lia.
      + lia.
    - intros l V _. apply meas_bound. apply (I_pool _ (v_inv _ _ _ _ _ _ _ V) _ _ (mid_pool s k l)).
    - intros l V _. apply swap_iteration_noloop.
    - apply linv_start; auto.
    - intros _. rewrite Z2Nat.id by auto. apply meas_bound. apply (I_pool _ I _ _ Hp0).
  Qed.
End Term.

Lemma calculate_swap_noloop s ts k d a bi lim : Inv s -> u256 a -> calculate_swap s ts k d a bi lim <> Loop.
Proof.
  intros I Ha. unfold calculate_swap. apply bind_noloop; [apply fail_if_noloop|intros _ _].
  apply bind_noloop; [unfold pools_get; noloop|intros p0 Hp]. apply pools_get_Ok in Hp.
  apply bind_noloop; [apply fail_if_noloop|intros ? HL]. apply fail_if_Ok in HL.
  apply bind_noloop; [noloop|intros tl Htl].
  assert (Hlim : dirP d (lim < p_sqrt_price p0) (p_sqrt_price p0 < lim)).
  { destruct d; apply orb_false_iff in HL as [? _]; cbn; lia. }
  destruct (swap_takes s k d bi lim tl ts a p0 I Hp Ha Htl Hlim) as (j & r & T & Hj & Hr).
  apply while_takes in T; [|assert (iteration_bound d bi < 2 ^ 100) by (unfold iteration_bound; destruct (d || bi); lia); lia].
  unfold loop_start in T. rewrite T. apply bind_noloop; [auto|intros l _]. noloop.
Qed.

Lemma swap_noloop e s k d a bi lim : Inv s -> u256 a -> swap e s k d a bi lim <> Loop.
Proof.
  intros I Ha. unfold swap. apply bind_noloop; [apply calculate_swap_noloop; auto|intros r _].
  apply bind_noloop; [apply foldM_noloop; intros; noloop|intros s1 _].
  apply bind_noloop; [noloop|intros s2 _]. destruct d; noloop.
Qed.

Lemma route_noloop e hops : forall s a, Inv s -> u256 a -> route_swap e s a hops <> Loop.
Proof.
  induction hops as [|h hops IH]; cbn [route_swap]; intros s a I Ha; [discriminate|].
  apply bind_noloop; [apply swap_noloop; auto|]. intros [s1 r] H. apply Inv_swap in H as (I1 & _ & Hr); auto.
Qed.

Lemma route_quote_noloop e hops : forall s a, Inv s -> u256 a -> route_quote e s a hops <> Loop.
Proof.
  induction hops as [|h hops IH]; cbn [route_quote]; intros s a I Ha; [discriminate|].
  apply bind_noloop; [apply calculate_swap_noloop; auto|]. intros r H.
  apply Inv_calculate_swap in H as (_ & _ & Hr & _); auto.
Qed.

Lemma drop_noloop {A} (r : res (state * A)) : r <> Loop -> drop_result r <> Loop.
Proof. intros H. unfold drop_result. noloop. Qed.

Lemma run_op_noloop e s o : Inv s -> op_wf o -> run_op e s o <> Loop.
Proof.
  intros I W. destruct o; cbn [run_op]; apply drop_noloop; cbn [op_wf] in W.
  - unfold change_protocol_fee. noloop.
  - unfold add_fee_tier. noloop.
  - unfold remove_fee_tier. noloop.
  - unfold create_pool, check_tick, pool_create. noloop.
  - unfold change_fee_receiver. noloop.
  - unfold create_position, position_create, get_or_create_tick, create_tick, check_tick, tick_create. noloop.
  - unfold remove_position. noloop.
  - unfold transfer_position. noloop.
  - apply swap_noloop; auto. apply W.
  - unfold swap_route. apply bind_noloop; [apply route_noloop; [auto|apply W]|]. intros [s1 out] _. noloop.
  - unfold claim_fee. noloop.
  - unfold withdraw_protocol_fee. noloop.
  - unfold deposit_vara. noloop.
  - assert (D : forall b, decrease_token_balance s VARA_ADDRESS (e_caller e) b <> Loop) by (intros; noloop).
    unfold withdraw_vara. apply bind_noloop; [|intros [s1 w] _; noloop].
    destruct value; [noloop|]. specialize (D None). destruct (decrease_token_balance _ _ _ None); congruence.
Qed.

(** ** Amounts and final price of a completed swap *)

Lemma swap_totals s ts k d a bi lim out p0 : Inv s -> u256 a -> 0 <= lim -> s_pools s !! k = Some p0 ->
  calculate_swap s ts k d a bi lim = Ok out ->
  (if bi then cs_amount_in out = a else cs_amount_out out = a) /\ 0 < cs_amount_out out /\
  0 <= cs_fee out <= cs_amount_in out /\
  dirP d (p_sqrt_price (cs_pool out) <= p_sqrt_price p0 /\
          (bi = false -> lim <= p_sqrt_price (cs_pool out)) /\
          (lim - p_sqrt_price (cs_pool out)) * lim < 10 ^ 24)
         (p_sqrt_price p0 <= p_sqrt_price (cs_pool out) <= lim).
Proof.
  intros I Ha Hl0 Hp0 H.
  destruct (swap_induction s k d bi lim ts a p0 I Hp0 Ha (fun l =>
     (if bi then l_in l + l_remaining l = a else l_out l + l_remaining l = a) /\
     l_fee l <= l_in l /\
     dirP d (p_sqrt_price (l_pool l) <= p_sqrt_price p0 /\
          (bi = false -> lim <= p_sqrt_price (l_pool l)) /\
          (lim - p_sqrt_price (l_pool l)) * lim < 10 ^ 24)
         (p_sqrt_price p0 <= p_sqrt_price (l_pool l) <= lim)) out) as (l & V & Hr & (H1 & H2 & H3) & Hnz & Ho & ->); auto.
  - intros Hl. unfold loop_start. cbn [l_in l_out l_fee l_remaining l_pool].
    split; [destruct bi; lia|]. split; [lia|]. destruct d; cbn [dirP] in *; [|lia].
    pose proof (po_range _ _ (I_pool _ I _ _ Hp0)) as HR. unfold price_in_range in HR. split; [lia|]. split; [lia|].
    nia.
  - intros l l' target r p1 V Hnz (Q1 & Q2 & Q3) S E PO1 Hpr V'.
    pose proof (is_rem _ _ _ _ _ _ _ _ _ _ S) as Hrm. pose proof (is_l_fee _ _ _ _ _ _ _ _ _ _ S) as Hfe.
    pose proof (is_l_out _ _ _ _ _ _ _ _ _ _ S) as Hou. pose proof (is_dir _ _ _ _ _ _ _ _ _ _ S) as HD.
    pose proof (u256_M _ (is_in _ _ _ _ _ _ _ _ _ _ S)) as HI.
    pose proof (is_between _ _ _ _ _ _ _ _ _ _ S) as HB. rewrite Hpr.
    assert (HP : dirP d (sr_next_sqrt_price r <= p_sqrt_price p0 /\
          (bi = false -> lim <= sr_next_sqrt_price r) /\
          (lim - sr_next_sqrt_price r) * lim < 10 ^ 24)
         (p_sqrt_price p0 <= sr_next_sqrt_price r <= lim)).
    { destruct d; cbn [dirP] in *; [|lia]. split; [lia|].
      pose proof (I_pool _ (v_inv _ _ _ _ _ _ _ V) _ _ (mid_pool s k l)) as PO.
      pose proof (po_tier _ _ PO) as [_ Hft]. fold (pk_fee k) in Hft.
      assert (Hfee : 0 <= pk_fee k <= E12) by (unfold pk_fee in *; change (10 ^ 12) with E12 in Hft; lia).
      pose proof (step_price_overshoot _ _ _ _ _ _ (po_range _ _ PO) (is_target _ _ _ _ _ _ _ _ _ _ S) (po_liq _ _ PO)
        (v_rem _ _ _ _ _ _ _ V) Hfee r (is_step _ _ _ _ _ _ _ _ _ _ S) ltac:(lia)) as OV.
      split.
      - intros Hb. pose proof (step_price_exact_out _ _ _ _ _ _ (po_range _ _ PO) (is_target _ _ _ _ _ _ _ _ _ _ S) (po_liq _ _ PO)
          (v_rem _ _ _ _ _ _ _ V) Hfee r (is_step _ _ _ _ _ _ _ _ _ _ S) ltac:(lia) Hb). lia.
      - destruct (Z.le_gt_cases lim (sr_next_sqrt_price r)); [nia|].
        eapply Z.le_lt_trans; [|exact OV]. apply Z.mul_le_mono_nonneg; lia. }
    inversion E as [c' EP ET ER EI NP DIR|c' v EP ET ER EZ EI|i t Ht Hti Hi Hn Hcl Hst EP ET ER EI NP|i p3 Hd Hbi Hr3 Hfex EP ET ER EI];
      rewrite ER, EI; (split; [destruct bi; lia|]; split; [lia|exact HP]).
  - cbn [cs_amount_in cs_amount_out cs_fee cs_pool].
    pose proof (u256_M _ (v_out _ _ _ _ _ _ _ V)). pose proof (u256_M _ (v_fee _ _ _ _ _ _ _ V)).
    split; [destruct bi; lia|]. split; [lia|]. split; [lia|]. exact H3.
Qed.
