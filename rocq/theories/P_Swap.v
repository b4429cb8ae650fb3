(** One iteration of a swap on a state that satisfies the structural invariant:
    what it does to the price, the current tick, the ticks and the amounts. *)
From Verif Require Import Base Decimal SqrtPriceM LogM ClammM FeeGrowthM Types TickmapM StorageM
  CollectionsM StateM ServiceM Arith SpecMath SpecFees SpecSum SpecState SpecHistory P_Clamm P_Delta P_Next P_Step
  P_StepProps P_TickPrice P_GetTick P_Tickmap P_Closer
  P_Fees P_Balance P_Effects P_Positions P_History P_Loop P_Check P_State P_Iter P_Inv P_InvPos P_InvSwap.
From stdpp Require Import gmap list.
From Coq Require Import ZArith Lia Bool.
Open Scope Z_scope.

(** ** Steps that cannot stand still *)

Lemma next_y_sub_lt p L y n : wide p -> u256 L -> 0 < L -> u256 y -> 0 < y ->
  get_next_sqrt_price_y_down p L y false = Ok n -> n < p.
Proof.
  intros Hp HL HL0 Hy Hy0. unfold get_next_sqrt_price_y_down.
  destruct (y_value_eq y Hy) as [-> HB]. cbn [bind].
  rewrite liquidity_to_value_eq by auto. cbn [bind].
  intros H. apply bind_Ok in H as (q & Hq & H). unfold dec_checked_sub in H.
  apply ok_or_Ok, checked_sub_Some in H as [-> H].
  unfold checked_big_div_values_up in Hq.
  apply bind_Ok in Hq as (a & E1 & Hq). apply ok_or_Ok, checked_mul_Some in E1 as [-> E1].
  apply bind_Ok in Hq as (b & E2 & Hq). apply ok_or_Ok, checked_sub_Some in E2 as [-> E2].
  apply bind_Ok in Hq as (c & E3 & Hq). apply ok_or_Ok, checked_add_Some in E3 as [-> E3].
  apply bind_Ok in Hq as (e & E4 & Hq). apply ok_or_Ok, checked_div_Some in E4 as [-> E4].
  apply ok_or_Ok, checked_cast_Some in Hq as [-> Hq].
  assert (HP : 0 < L * E19) by (unfold E19; lia).
  rewrite cdiv_eq_div by lia.
  pose proof (cdiv_bounds (y * E24 * SQRT_PRICE_ONE) (L * E19) HP) as HC.
  assert (0 < y * E24 * SQRT_PRICE_ONE) by (unfold E24, SQRT_PRICE_ONE; lia). nia.
Qed.

Lemma is_enough_exact_out rem p L fee en : wide p -> u256 L -> u256 rem -> rem <> 0 ->
  is_enough_amount_to_change_price rem p L fee false true = Ok en -> en = true.
Proof.
  intros Hp HL Hr H0. unfold is_enough_amount_to_change_price, get_next_sqrt_price_from_output.
  destruct (Z.eqb_spec L 0); [intros [= <-]; reflexivity|]. intros H.
  apply bind_Ok in H as (n' & E & H). injection H as <-.
  pose proof (u256_M _ HL). pose proof (u256_M _ Hr).
  apply next_y_sub_lt in E; auto; [|lia|lia]. apply negb_true_iff, Z.eqb_neq. lia.
Qed.

Lemma step_exact_out_moves p t L a fee r :
  price_in_range p -> price_in_range t -> u256 L -> u256 a -> 0 <= fee <= E12 -> a <> 0 -> L <> 0 -> p <> t ->
  compute_swap_step p t L a false fee = Ok r -> sr_next_sqrt_price r <> p.
Proof.
  intros Hp Ht HL Ha Hf Ha0 HL0 Hpt Hr.
  pose proof (range_wide p Hp) as Hpw. pose proof (range_wide t Ht) as Htw.
  pose proof (u256_M _ HL) as HLm. pose proof (u256_M _ Ha) as Ham.
  destruct (step_fields p t L a false fee Hp Ht HL Ha Hf r Hr) as [(E0 & _)|(H0 & -> & _)]; [lia|].
  unfold step_next. destruct (Z.leb_spec t p).
  - destruct (Z.leb_spec (Ydn L t p) a); [lia|]. unfold ny_out.
    pose proof (cdiv_bounds (a * E29) L H0). assert (0 < a * E29) by (unfold E29; lia).
    assert (0 < cdiv (a * E29) L) by nia. lia.
  - destruct (Z.leb_spec (Xdn L p t) a); [lia|]. destruct (Z.eqb_spec a 0); [lia|].
    destruct (next_x_sub_eq p L a t Hpw HL H0 Ha ltac:(lia) Htw) as (_ & _ & HD).
    { fold (Xdn L p t). lia. }
    unfold nx_out. pose proof (nx_nom_bounds p L Hpw HL) as HN.
    pose proof (cdiv_bounds (nx_nom p L) (L * E19 - p * a) ltac:(lia)) as HC.
    set (q := cdiv (nx_nom p L) (L * E19 - p * a)) in *. clearbody q.
    unfold wide in Hpw. assert (0 < p * a) by nia. intros ->. nia.
Qed.

Lemma step_same_price p L a bi fee r :
  price_in_range p -> u256 L -> u256 a -> 0 <= fee <= E12 ->
  compute_swap_step p p L a bi fee = Ok r ->
  sr_next_sqrt_price r = p /\ sr_amount_in r = 0 /\ sr_amount_out r = 0 /\ sr_fee_amount r = 0.
Proof.
  intros Hp HL Ha Hf Hr. pose proof (range_wide p Hp) as Hpw.
  destruct (step_fields p p L a bi fee Hp Hp HL Ha Hf r Hr) as [(E0 & E1 & E2 & E3 & E4)|(H0 & E1 & E2 & E3 & E4 & _)]; [auto|].
  assert (Y0 : Ydn L p p = 0) by (unfold Ydn; rewrite Z.sub_diag; reflexivity).
  assert (X0 : Xup L p p = 0) by (apply Xup_self; auto).
  destruct (after_fee_eq a fee Ha Hf) as (_ & HA & _). pose proof (u256_M _ Ha).
  assert (EN : step_next p p L a bi fee = p).
  { unfold step_next. rewrite Z.leb_refl, X0, Y0.
    rewrite (proj2 (Z.leb_le 0 (after_fee a fee))) by lia. rewrite (proj2 (Z.leb_le 0 a)) by lia. destruct bi; reflexivity. }
  rewrite EN in *. unfold step_in, step_out in *. rewrite Z.leb_refl in *. rewrite X0 in *. rewrite Y0 in *.
  rewrite Z.eqb_refl, andb_false_r in E4. cbn in E4.
  split; [auto|]. split; [auto|]. split; [rewrite E3; destruct bi; lia|]. rewrite E4. reflexivity.
Qed.

(** ** Ticks between two current ticks *)

Definition passed (c c' i : Z) : Prop := c' < i <= c \/ c < i <= c'.

Lemma some_passed_dec (P : Z -> Prop) (Hdec : forall i, {P i} + {~ P i}) (a b : Z) :
  {forall i, a < i <= b -> ~ P i} + {exists i, a < i <= b /\ P i}.
Proof.
  destruct (Z_le_gt_dec b a) as [Hle|Hgt]; [left; intros; lia|].
  assert (G : forall n : nat, {forall i, a < i <= a + Z.of_nat n -> ~ P i} + {exists i, a < i <= a + Z.of_nat n /\ P i}).
  { induction n as [|n [IH|IH]].
    - left. intros. lia.
    - destruct (Hdec (a + Z.of_nat (S n))) as [H|H].
      + right. exists (a + Z.of_nat (S n)). split; [lia|auto].
      + left. intros i Hi. destruct (Z.eq_dec i (a + Z.of_nat (S n))) as [->|]; [auto|apply IH; lia].
    - right. destruct IH as (i & Hi & HP). exists i. split; [lia|auto]. }
  specialize (G (Z.to_nat (b - a))). rewrite Z2Nat.id in G by lia. replace (a + (b - a)) with b in G by lia. exact G.
Qed.

Lemma passed_dec (P : Z -> Prop) (Hdec : forall i, {P i} + {~ P i}) (c c' : Z) :
  {forall i, P i -> ~ passed c c' i} + {exists i, P i /\ passed c c' i}.
Proof.
  destruct (some_passed_dec P Hdec (Z.min c c') (Z.max c c')) as [H|H].
  - left. intros i Hi Hp. apply (H i); auto. unfold passed in Hp. lia.
  - right. destruct H as (i & Hi & HP). exists i. split; [auto|]. unfold passed. lia.
Defined.

(** ** What an iteration does *)

Section Iter.
  Context (s : state) (k : pool_key) (d bi : bool) (lim tl ts : Z).

  (** The part common to all the cases: a step of the pricing engine towards
      [target], the fee booked, the totals. *)
  Record istep (l l' : swap_loop_state) (target : Z) (r : swap_result) (p1 : pool) : Prop := {
    is_target : price_in_range target;
    is_between : dirP d (lim <= target <= p_sqrt_price (l_pool l)) (p_sqrt_price (l_pool l) <= target <= lim);
    is_step : compute_swap_step (p_sqrt_price (l_pool l)) target (p_liquidity (l_pool l)) (l_remaining l) bi (pk_fee k) = Ok r;
    is_in : u256 (sr_amount_in r);
    is_out : u256 (sr_amount_out r);
    is_fee : u256 (sr_fee_amount r);
    is_next : price_in_range (sr_next_sqrt_price r);
    is_dir : dirP d (sr_next_sqrt_price r <= p_sqrt_price (l_pool l)) (p_sqrt_price (l_pool l) <= sr_next_sqrt_price r <= target);
    is_add_fee : pool_add_fee (l_pool l) (sr_fee_amount r) d (s_protocol_fee s) = Ok p1;
    is_l_fee : l_fee l' = l_fee l + sr_fee_amount r;
    is_l_fee_fits : l_fee l' < M256;
    is_l_out : l_out l' = l_out l + sr_amount_out r;
    is_l_out_fits : l_out l' < M256;
    is_l_in_fits : l_in l' < M256;
    is_rem : 0 <= l_remaining l - (if bi then sr_amount_in r + sr_fee_amount r else sr_amount_out r);
    is_clear : forall v, is_Some (s_ticks s !! (k, v)) ->
      dirP d (v <= p_current_tick_index (l_pool l) -> price v <= target)
             (p_current_tick_index (l_pool l) < v -> target <= price v);
  }.

  (** How the iteration ends; [p2] is the pool after the fee is booked and the
      price moved, [rem] the amount then left. *)
  Inductive iend (l l' : swap_loop_state) (r : swap_result) (p2 : pool) (rem : Z) : Prop :=
  | ie_stay c :
      l_pool l' = set_current_tick_index c p2 -> l_ticks l' = l_ticks l -> l_remaining l' = rem ->
      l_in l' = l_in l + (sr_amount_in r + sr_fee_amount r) ->
      (forall v, is_Some (s_ticks s !! (k, v)) -> ~ passed (p_current_tick_index (l_pool l)) c v) ->
      (rem <> 0 -> dirP d (c < p_current_tick_index (l_pool l))
                     (p_current_tick_index (l_pool l) <= c /\
                      p_sqrt_price (l_pool l) + p_current_tick_index (l_pool l) < sr_next_sqrt_price r + c /\
                      (bi = true -> p_current_tick_index (l_pool l) < c))) ->
      iend l l' r p2 rem
  | ie_skip c v :
      l_pool l' = set_current_tick_index c p2 -> l_ticks l' = l_ticks l -> l_remaining l' = 0 -> rem = 0 ->
      l_in l' = l_in l + (sr_amount_in r + sr_fee_amount r) ->
      is_Some (s_ticks s !! (k, v)) -> passed (p_current_tick_index (l_pool l)) c v ->
      get_tick_at_sqrt_price (sr_next_sqrt_price r) (pk_spacing k) = Ok c ->
      dirP d (bi = true /\ sr_next_sqrt_price r <= price v /\ (price v - sr_next_sqrt_price r) * price v < 10 ^ 24)
             (sr_next_sqrt_price r = lim /\ price v = lim) ->
      iend l l' r p2 rem
  | ie_cross i t :
      s_ticks s !! (k, i) = Some t -> t_index t = i ->
      dirP d (i <= p_current_tick_index (l_pool l)) (p_current_tick_index (l_pool l) < i) ->
      sr_next_sqrt_price r = price i ->
      0 <= cross_liquidity t p2 < M256 -> p_start_timestamp p2 <= ts ->
      l_pool l' = set_current_tick_index (if d then i - pk_spacing k else i)
                    (set_liquidity (cross_liquidity t p2) (set_last_timestamp ts p2)) ->
      l_ticks l' = l_ticks l ++ [crossed t p2 ts] -> l_remaining l' = rem ->
      l_in l' = l_in l + (sr_amount_in r + sr_fee_amount r) ->
      (forall v, is_Some (s_ticks s !! (k, v)) ->
         (passed (p_current_tick_index (l_pool l)) (if d then i - pk_spacing k else i) v <-> v = i)) ->
      iend l l' r p2 rem
  | ie_extra i p3 :
      d = true -> bi = true -> rem <> 0 -> pool_add_fee p2 rem d (s_protocol_fee s) = Ok p3 ->
      l_pool l' = set_current_tick_index i p3 -> l_ticks l' = l_ticks l -> l_remaining l' = 0 ->
      l_in l' = l_in l + (sr_amount_in r + sr_fee_amount r) + rem ->
      i <= p_current_tick_index (l_pool l) -> sr_next_sqrt_price r = price i ->
      (forall v, is_Some (s_ticks s !! (k, v)) -> ~ passed (p_current_tick_index (l_pool l)) i v) ->
      p_liquidity p2 <> 0 ->
      is_enough_amount_to_change_price rem (sr_next_sqrt_price r) (p_liquidity p2) (pk_fee k) true true = Ok false ->
      iend l l' r p2 rem.

  (** The hypotheses an iteration needs about the state it starts from. *)
  Record ready (l : swap_loop_state) : Prop := {
    r_inv : Inv (mid s k l);
    r_rem : u256 (l_remaining l);
    r_lim : dirP d (lim < p_sqrt_price (l_pool l)) (p_sqrt_price (l_pool l) < lim);
    r_side : forall i, i ∈ map t_index (l_ticks l) ->
      dirP d (p_current_tick_index (l_pool l) < i) (i <= p_current_tick_index (l_pool l));
  }.

  Lemma mid_ticks l v : Inv s -> Inv (mid s k l) ->
    is_Some (s_ticks (mid s k l) !! (k, v)) <-> is_Some (s_ticks s !! (k, v)).
  Proof. intros I I'. rewrite (I_exists _ I k v), (I_exists _ I' k v). reflexivity. Qed.

  Lemma pool_ok_move p n c : pool_ok k p -> price_in_range n -> okt (pk_spacing k) c -> price c <= n ->
    (valid_tick (c + pk_spacing k) -> n <= price (c + pk_spacing k)) ->
    (~ valid_tick (c + pk_spacing k) -> n = price c) ->
    pool_ok k (set_current_tick_index c (set_sqrt_price n p)).
  Proof. intros [] H1 H2 H3 H4 H5. constructor; assumption. Qed.

  Lemma pool_ok_at p i : pool_ok k p -> okt (pk_spacing k) i ->
    pool_ok k (set_current_tick_index i (set_sqrt_price (price i) p)).
  Proof.
    intros PO Ho. pose proof (pool_spacing _ _ PO). pose proof (okt_valid _ _ Ho) as Hv.
    apply pool_ok_move; auto using price_range; [lia|].
    intros Hv'. apply price_le; auto. lia.
  Qed.

  Lemma pool_ok_below p i : pool_ok k p -> okt (pk_spacing k) i -> okt (pk_spacing k) (i - pk_spacing k) ->
    pool_ok k (set_current_tick_index (i - pk_spacing k) (set_sqrt_price (price i) p)).
  Proof.
    intros PO Ho Ho'. pose proof (pool_spacing _ _ PO). pose proof (okt_valid _ _ Ho) as Hv.
    pose proof (okt_valid _ _ Ho') as Hv'.
    apply pool_ok_move; auto using price_range.
    - apply price_le; auto. lia.
    - intros _. apply price_le; [auto| |lia]. replace (i - pk_spacing k + pk_spacing k) with i by lia. auto.
    - replace (i - pk_spacing k + pk_spacing k) with i by lia. intros Hx. contradiction.
  Qed.

  Lemma pool_add_fee_cur c p a e f p' : pool_add_fee p a e f = Ok p' ->
    pool_add_fee (set_current_tick_index c p) a e f = Ok (set_current_tick_index c p').
  Proof.
    unfold pool_add_fee. cbn [set_current_tick_index p_liquidity p_fee_protocol_token_x p_fee_protocol_token_y
      p_fee_growth_global_x p_fee_growth_global_y].
    intros H. apply bind_Ok in H as (v & -> & H). cbn [bind]. apply bind_Ok in H as (w & -> & H). cbn [bind].
    destruct ((w =? 0) && (v =? 0) || (p_liquidity p =? 0)).
    - injection H as <-. reflexivity.
    - apply bind_Ok in H as (g & -> & H). cbn [bind]. destruct e; apply bind_Ok in H as (f1 & -> & H); injection H as <-; reflexivity.
  Qed.

  Lemma okt_maxt sp : 1 <= sp -> okt sp (maxt sp).
  Proof.
    intros. apply okt_bounds; [lia|]. unfold mint, maxt, MX. pose proof (div_nonneg 221818 sp ltac:(lia) ltac:(lia)).
    split; [|exists (221818 / sp); lia]. assert (0 <= 221818 / sp * sp) by (apply Z.mul_nonneg_nonneg; lia). lia.
  Qed.

  Lemma tick_limits : 1 <= pk_spacing k ->
    (if d then get_min_tick (pk_spacing k) else get_max_tick (pk_spacing k)) = Ok tl ->
    tl = if d then mint (pk_spacing k) else maxt (pk_spacing k).
  Proof.
    intros Hs. unfold get_min_tick, get_max_tick, i32_div, mint, maxt, MX.
    destruct (Z.eqb_spec (pk_spacing k) 0); [lia|].
    destruct d; cbn [bind]; intros [= <-]; unfold MIN_TICK, MAX_TICK.
    - change (-221818) with (- (221818)). rewrite Z.quot_opp_l by lia. rewrite Z.quot_div_nonneg by lia. lia.
    - rewrite Z.quot_div_nonneg by lia. lia.
  Qed.

  Lemma iteration_facts p0 l l' :
    Inv s -> s_pools s !! k = Some p0 -> ready l -> l_remaining l <> 0 ->
    (if d then get_min_tick (pk_spacing k) else get_max_tick (pk_spacing k)) = Ok tl ->
    swap_iteration s k d bi lim tl ts l = Ok l' ->
    exists target r p1,
      istep l l' target r p1 /\
      iend l l' r (set_sqrt_price (sr_next_sqrt_price r) p1)
        (l_remaining l - (if bi then sr_amount_in r + sr_fee_amount r else sr_amount_out r)) /\
      pool_ok k p1 /\ pool_ok k (l_pool l') /\ p_sqrt_price (l_pool l') = sr_next_sqrt_price r /\
      (l_remaining l' <> 0 -> dirP d (lim < sr_next_sqrt_price r) (sr_next_sqrt_price r < lim)).
  Proof.
    intros I Hp0 [I' Hrem Hlim Hside] Hnz Htl H.
    pose proof (I_pool _ I' _ _ (mid_pool s k l)) as PO. pose proof (pool_spacing _ _ PO) as Hs.
    apply tick_limits in Htl; [|lia].
    pose proof (po_tier _ _ PO) as [_ Hft]. fold (pk_fee k) in Hft.
    assert (Hfee : 0 <= pk_fee k <= E12) by (unfold pk_fee in *; change (10 ^ 12) with E12 in Hft; lia).
    apply swap_iteration_inv in H as (target & lt & r & p1 & E1 & E2 & E3 & H). cbv zeta in H.
    destruct H as (E4 & E5 & E6 & E7 & E8 & E9 & E10 & E11 & E12 & H).
    destruct (closer_facts (mid s k l) k (l_pool l) d lim target lt I' (mid_pool s k l) Hlim E1) as (T1 & T2 & T3).
    pose proof (po_range _ _ PO) as HR. pose proof (po_liq _ _ PO) as HL.
    destruct (step_amounts _ _ _ _ _ _ _ HR T1 HL Hrem Hfee E2) as (U1 & U2 & U3 & U4).
    set (p := l_pool l) in *. set (c := p_current_tick_index p) in *. set (sp := pk_spacing k) in *.
    set (n := sr_next_sqrt_price r) in *.
    set (rem1 := l_remaining l - (if bi then sr_amount_in r + sr_fee_amount r else sr_amount_out r)) in *.
    pose proof (u128_M _ (I_fee _ I)) as Hpf.
    destruct (pool_add_fee_ok k p _ d (s_protocol_fee s) p1 PO U3 ltac:(lia) E5) as (PO1 & F1 & F2 & F3 & F4).
    assert (HD : dirP d (n <= p_sqrt_price p) (p_sqrt_price p <= n <= target)).
    { destruct d; cbn [dirP] in *.
      - apply (step_price_x_to_y _ _ _ _ _ _ HR T1 HL Hrem Hfee r E2). lia.
      - destruct (Z.eq_dec (p_sqrt_price p) target) as [Eq|Ne].
        + rewrite <- Eq in E2. destruct (step_same_price _ _ _ _ _ _ HR HL Hrem Hfee E2) as (EE & _). fold n in EE. lia.
        + apply (step_price_y_to_x _ _ _ _ _ _ HR T1 HL Hrem Hfee r E2). lia. }
    assert (TK : forall v, is_Some (s_ticks s !! (k, v)) -> okt sp v).
    { intros v [t Ht]. apply (to_okt _ _ _ _ (proj2 (I_tick _ I _ _ _ Ht))). }
    assert (TN : forall v, s_ticks (mid s k l) !! (k, v) = None -> ~ is_Some (s_ticks s !! (k, v))).
    { intros v Hv Hx. apply (mid_ticks l v I I') in Hx. rewrite Hv in Hx. destruct Hx; discriminate. }
    assert (CLR : forall v, is_Some (s_ticks s !! (k, v)) -> dirP d (v <= c -> price v <= target) (c < v -> target <= price v)).
    { intros v Hv. pose proof (okt_valid _ _ (TK v Hv)) as Hvv. destruct d; cbn [dirP] in *; intros Hvc; (destruct lt as [[i b]|]; [destruct T3 as (T3 & T4 & T5 & _ & _ & T6 & _); rewrite T3|destruct T3 as (T3 & j & T4 & T5 & T6); rewrite T3]).
      - apply price_le; [exact Hvv|apply (okt_valid sp); auto|]. destruct (Z.le_gt_cases v i); [auto|].
        exfalso. apply (TN v); [apply T6; lia|auto].
      - transitivity (price j); [|lia]. apply price_le; [exact Hvv|apply (okt_valid sp); auto|]. destruct (Z.le_gt_cases v j); [auto|].
        exfalso. apply (TN v); [apply T6; lia|auto].
      - apply price_le; [apply (okt_valid sp); auto|exact Hvv|]. destruct (Z.le_gt_cases i v); [auto|].
        exfalso. apply (TN v); [apply T6; lia|auto].
      - transitivity (price j); [lia|]. apply price_le; [apply (okt_valid sp); auto|exact Hvv|]. destruct (Z.le_gt_cases j v); [auto|].
        exfalso. apply (TN v); [apply T6; lia|auto]. }
    assert (IST : forall (HN : price_in_range n), istep l l' target r p1).
    { intros HN. constructor; auto. }
    pose proof (po_tick _ _ PO) as Hoc. fold p c sp in Hoc.
    pose proof (po_lo _ _ PO) as Hlo. fold p c in Hlo.
    exists target, r, p1. fold n rem1.
    destruct H as [(HA & (c' & Hc' & EP) & ET & ER & EI)|(HT & i & b & en & -> & Een & H)].
    - (* the price stops before the target, or at the limit *)
      destruct (get_tick_aligned n sp c' ltac:(lia) Hc') as (G1 & G2 & G3 & G4 & G5 & G6 & G7).
      rewrite EP in E11. cbn [set_current_tick_index p_current_tick_index] in E11.
      assert (Hoc' : okt sp c').
      { split; [|auto]. split; [|lia]. destruct d; cbn [dirP] in *.
        - subst tl. pose proof (proj1 (okt_bounds sp c ltac:(lia)) Hoc) as [? _].
          unfold mint, MX in E11. pose proof (div_bounds 221818 sp ltac:(lia)). lia.
        - assert (c <= c') by (apply G6; [auto|lia]). destruct Hoc; lia. }
      pose proof (okt_valid _ _ Hoc') as Hvc'. unfold valid_tick in Hvc'.
      assert (Hmax : ~ valid_tick (c' + sp) -> n = price c').
      { intros Hnv. unfold valid_tick in Hnv. destruct d; cbn [dirP] in *.
        - pose proof (pool_price_max _ _ PO) as HM. fold p sp in HM.
          assert (c' = maxt sp).
          { apply (okt_between sp); [lia|apply okt_maxt; lia|auto|].
            pose proof (proj1 (okt_bounds sp c' ltac:(lia)) Hoc') as [? _].
            unfold maxt, MX in *. pose proof (div_bounds 221818 sp ltac:(lia)). lia. }
          rewrite <- H in HM. specialize (G4 ltac:(lia)). lia.
        - subst tl. assert (c' + sp <= maxt sp).
          { apply okt_step; [lia|auto|apply okt_maxt; lia|lia]. }
          unfold maxt, MX in *. pose proof (div_bounds 221818 sp ltac:(lia)). lia. }
      assert (POK : pool_ok k (l_pool l')).
      { rewrite EP. apply pool_ok_move; auto.
        - apply G4. lia.
        - intros Hv. unfold valid_tick in Hv. fold sp in Hv. apply Z.lt_le_incl, G5. fold sp. lia. }
      assert (SHORT : n <> target -> p_liquidity p <> 0).
      { intros Hne HL0. destruct (U4 HL0) as (_ & _ & _ & EE). fold n in EE. lia. }
      split; [apply IST; auto|].
      (* how far the current tick can move *)
      assert (HZ : d = true -> rem1 = 0).
      { intros Ed. destruct (Z.eq_dec n target) as [Eq|Ne].
        - destruct HA as [->|HA]; [|lia]. destruct T3 as [T3 _]. apply E10. lia.
        - specialize (SHORT Ne). unfold rem1. destruct bi eqn:Ebi.
          + rewrite (step_exact_in_short _ _ _ _ _ _ HR T1 HL Hrem Hfee r E2 eq_refl SHORT Ne). lia.
          + rewrite (step_exact_out_short_y _ _ _ _ _ _ HR T1 HL Hrem Hfee r E2 eq_refl SHORT); [lia| |exact Ne].
            rewrite Ed in T2. cbn [dirP] in T2. lia. }
      assert (HC : dirP d (c' <= c \/ (c' = c + sp /\ n = p_sqrt_price p /\ n = price c')) (c <= c')).
      { destruct d; cbn [dirP] in *; [|apply G6; [auto|lia]].
        destruct (Z.le_gt_cases c' c) as [Hle|Hgt]; [auto|right].
        pose proof (okt_step sp c c' ltac:(lia) Hoc Hoc' Hgt) as Hst.
        assert (Hvs : valid_tick (c + sp)) by (destruct Hoc; unfold valid_tick; lia).
        pose proof (po_up _ _ PO Hvs) as HU. fold p c sp in HU. specialize (G4 ltac:(lia)).
        pose proof (price_le (c + sp) c' Hvs ltac:(unfold valid_tick; lia) Hst).
        assert (n = p_sqrt_price p /\ price (c + sp) = price c') as [-> Eqp] by lia.
        assert (c' = c + sp).
        { destruct (Z.eq_dec c' (c + sp)); [auto|].
          pose proof (price_lt (c + sp) c' Hvs ltac:(unfold valid_tick; lia) ltac:(lia)). lia. }
        split; [auto|]. split; lia. }
      split; [|split; [exact PO1|split; [exact POK|split; [rewrite EP; reflexivity|]]]].
      + destruct (passed_dec (fun v => is_Some (s_ticks s !! (k, v))) (fun v => is_Some_dec _) c c') as [Hnp|(v & Hv & Hpv)].
        * apply (ie_stay _ _ _ _ _ c'); auto. intros Hr0. destruct d; cbn [dirP] in *; [specialize (HZ eq_refl); lia|].
          split; [auto|]. fold p. fold c n.
          assert (n <> p_sqrt_price p /\ bi = false) as [? ->]; [|split; [lia|discriminate]].
          assert (Hnt : n <> target).
          { intros Eq. destruct HA as [->|HA]; [|lia]. destruct T3 as [T3 _]. apply Hr0, E10. lia. }
          destruct bi eqn:Ebi.
          { exfalso. apply Hr0. unfold rem1.
            rewrite (step_exact_in_short _ _ _ _ _ _ HR T1 HL Hrem Hfee r E2 eq_refl (SHORT Hnt) Hnt). lia. }
          split; [|reflexivity].
          apply (step_exact_out_moves _ _ _ _ _ _ HR T1 HL Hrem Hfee Hnz (SHORT Hnt)); [lia|exact E2].
        * pose proof (TK v Hv) as Hov. pose proof (okt_valid _ _ Hov) as Hvv.
          assert (HZ' : rem1 = 0 /\ (d = false -> n = lim /\ price v = lim)).
          { destruct d; cbn [dirP] in *; [split; [auto|discriminate]|].
            assert (n = lim /\ price v = lim); [|split; [apply E10; tauto|auto]].
            unfold passed in Hpv.
            destruct lt as [[i b]|].
            - destruct HA as [HA|HA]; [discriminate|]. destruct T3 as (T3 & T4 & T5 & _ & _ & T6 & _).
              exfalso. apply (TN v); [|auto]. apply T6. split; [lia|].
              assert (c' < i) by (apply G7; [auto|lia]). lia.
            - destruct T3 as (T3 & j & T4 & T5 & T6). destruct (Z.eq_dec n lim) as [En|Hne].
              + split; [auto|]. specialize (G4 ltac:(lia)).
                assert (price v <= price c') by (apply price_le; [exact Hvv|unfold valid_tick; lia|lia]).
                destruct (Z.le_gt_cases j v) as [Hjv|Hjv]; [|exfalso; apply (TN v); [apply T6; lia|auto]].
                assert (price j <= price v) by (apply price_le; [apply (okt_valid sp); auto|exact Hvv|auto]). lia.
              + exfalso. apply (TN v); [|auto]. apply T6. split; [lia|].
                assert (c' < j) by (apply G7; [auto|lia]). lia. }
          destruct HZ' as [HZ1 HZ2].
          apply (ie_skip _ _ _ _ _ c' v EP ET); [lia|exact HZ1|exact EI|exact Hv|exact Hpv|exact Hc'|]. fold n p c sp. destruct d; cbn [dirP] in *; [|auto].
          assert (Htv : v <= c -> price v <= target).
          { intros Hvc. destruct lt as [[i b]|].
            - destruct T3 as (T3 & T4 & T5 & _ & _ & T6 & _). rewrite T3.
              apply price_le; [exact Hvv|apply (okt_valid sp); auto|]. destruct (Z.le_gt_cases v i); [auto|].
              exfalso. apply (TN v); [apply T6; lia|auto].
            - destruct T3 as (T3 & j & T4 & T5 & T6). rewrite T3. transitivity (price j); [|lia].
              apply price_le; [exact Hvv|apply (okt_valid sp); auto|]. destruct (Z.le_gt_cases v j); [auto|].
              exfalso. apply (TN v); [apply T6; lia|auto]. }
          pose proof (proj1 (price_range v Hvv)) as Hvp.
          destruct HC as [HC|(HC1 & HC2 & HC3)].
          -- unfold passed in Hpv. specialize (Htv ltac:(lia)).
             assert (Hnv : n < price v).
             { destruct (Z.lt_ge_cases n (price v)) as [|Hge]; [auto|]. assert (v <= c') by (apply G6; auto). lia. }
             assert (price v <= price c) by (apply price_le; [exact Hvv|apply (okt_valid sp); auto|lia]).
             pose proof (step_price_overshoot _ _ _ _ _ _ HR T1 HL Hrem Hfee r E2 ltac:(lia)) as OV. fold n in OV.
             split; [|split; [lia|]].
             2: { eapply Z.le_lt_trans; [|exact OV]. apply Z.mul_le_mono_nonneg; lia. }
             destruct bi eqn:Ebi; [auto|exfalso].
             destruct (Z.eq_dec target (p_sqrt_price p)) as [Et|Et].
             ++ rewrite Et in E2. destruct (step_same_price _ _ _ _ _ _ HR HL Hrem Hfee E2) as (EE & _). fold n in EE. lia.
             ++ pose proof (step_price_exact_out _ _ _ _ _ _ HR T1 HL Hrem Hfee r E2 ltac:(lia) eq_refl) as SO. fold n in SO. lia.
          -- assert (v = c').
             { unfold passed in Hpv. apply (okt_between sp); auto; lia. }
             subst v. split; [|split; [lia|rewrite <- HC3; lia]].
             destruct bi eqn:Ebi; [auto|exfalso].
             assert (Hnt : n <> target).
             { intros Eq. destruct lt as [[i b]|].
               - destruct T3 as (T3 & T4 & T5 & _). pose proof (price_le i c (okt_valid _ _ T4) (okt_valid _ _ Hoc) T5).
                 pose proof (price_lt c c' (okt_valid _ _ Hoc) Hvv ltac:(lia)). lia.
               - destruct T3 as (T3 & _). lia. }
             apply (step_exact_out_moves _ _ _ _ _ _ HR T1 HL Hrem Hfee Hnz (SHORT Hnt)) in E2; [|lia]. fold n in E2. lia.
      + rewrite ER. intros Hr0. destruct d; cbn [dirP] in *; [specialize (HZ eq_refl); lia|].
        assert (n <> lim); [|lia]. intros En. apply Hr0, E10. auto.
    - (* the price reaches the tick [i] *)
      destruct T3 as (T3 & T4 & T5 & T6 & T7 & T8 & T9 & T10).
      assert (En : n = price i) by lia.
      assert (HN : price_in_range n) by (rewrite En; apply price_range; apply (okt_valid sp); auto).
      pose proof (okt_valid _ _ T4) as Hvi. unfold valid_tick in Hvi.
      split; [apply IST; auto|].
      assert (NL : dirP d (lim < n) (n < lim)) by (destruct d; cbn [dirP] in *; lia).
      assert (BELOW : forall v, is_Some (s_ticks s !! (k, v)) -> i - sp < v <= i -> v = i).
      { intros v Hv Hx. apply (okt_between sp); auto; lia. }
      assert (BT : forall v, is_Some (s_ticks s !! (k, v)) -> ~ dirP d (i < v <= c) (c < v < i)).
      { intros v Hv Hx. apply (TN v); auto. }
      assert (OKB : forall x, x = i - sp -> tl < x -> d = true -> okt sp x).
      { intros x -> Hx Ed. rewrite Ed in Htl. rewrite Htl in Hx. destruct T4 as [_ [q Hq]]. split; [|exists (q - 1); lia].
        unfold mint, MX in Hx. pose proof (div_bounds 221818 sp ltac:(lia)). nia. }
      destruct H as [(-> & EP & ET & ER & EI)|(-> & t & Ht & H)].
      + (* not initialized *)
        assert (NI : ~ is_Some (s_ticks s !! (k, i))) by (apply TN; auto).
        specialize (T10 eq_refl). rewrite EP in E11. cbn [set_current_tick_index p_current_tick_index] in E11.
        split; [|split; [exact PO1|split; [|split; [rewrite EP; reflexivity|auto]]]].
        * apply (ie_stay _ _ _ _ _ _ EP ET ER EI).
          -- intros v Hv Hpv. fold p c in Hpv. fold sp in Hpv. unfold passed in Hpv.
             assert (v <> i) by (intros ->; auto). pose proof (BT v Hv) as HB. pose proof (BELOW v Hv) as HB2.
             destruct d, en; cbn [andb dirP] in *; lia.
          -- intros Hr0. fold p c sp n. destruct d; cbn [dirP andb] in *; [|split; lia].
             destruct en; lia.
        * rewrite EP, En. destruct (d && en) eqn:Ede.
          -- apply andb_true_iff in Ede as [-> ->]. apply pool_ok_below; auto.
          -- apply pool_ok_at; auto.
      + specialize (T6 eq_refl).
        destruct (I_tick _ I _ _ _ Ht) as [_ TO]. pose proof (to_index _ _ _ _ TO) as Ti.
        destruct H as [(Hde & t' & p3 & Hx & EP & ET & ER & EI)|(Hde & ET & p3 & EP & H)].
        * (* crossed *)
          apply tick_cross_inv in Hx as (-> & Hts & -> & Hcl);
            [|apply (u256_M _ (to_change _ _ _ _ TO))|cbn [set_sqrt_price p_liquidity]; rewrite F1; apply (u256_M _ HL)].
          cbn [crossed t_index] in EP. rewrite Ti in EP. fold sp in EP.
          assert (Ede : (if d && en then i - sp else i) = (if d then i - sp else i)).
          { destruct d, en; cbn in *; congruence. }
          rewrite Ede in EP.
          rewrite EP in E11. cbn [set_current_tick_index p_current_tick_index] in E11.
          split; [|split; [exact PO1|split; [|split; [rewrite EP; reflexivity|auto]]]].
          -- apply (ie_cross _ _ _ _ _ i t); auto.
             intros v Hv. fold p c sp. pose proof (BT v Hv) as HB. pose proof (BELOW v Hv) as HB2.
             unfold passed. destruct d; cbn [dirP] in *; (split; [intros HP; lia|intros ->; lia]).
          -- rewrite EP. apply u256_I in Hcl. rewrite En in *.
             assert (POX : pool_ok k (set_current_tick_index (if d then i - sp else i) (set_sqrt_price (price i) p1))).
             { destruct d; [apply pool_ok_below|apply pool_ok_at]; auto. }
             destruct POX. constructor; assumption.
        * (* not enough left to move on *)
          apply orb_false_iff in Hde as [Hd Hen]. apply negb_false_iff in Hd.
          rewrite Ti in EP. rewrite Hd in T5, BT. cbn [dirP] in T5, BT.
          assert (NP : forall v, is_Some (s_ticks s !! (k, v)) -> ~ passed c i v).
          { intros v Hv Hpv. pose proof (BT v Hv). unfold passed in Hpv. lia. }
          destruct H as [(Hr0 & Hbi & Hfe & ER & EI)|(Hr0 & -> & ER & EI)].
          -- assert (POX : pool_ok k (set_current_tick_index i (set_sqrt_price n p1))) by (rewrite En; apply pool_ok_at; auto).
             assert (UR : u256 rem1).
             { apply u256_I. pose proof (u256_M _ Hrem). pose proof (u256_M _ U1). pose proof (u256_M _ U2). pose proof (u256_M _ U3).
               unfold rem1 in *. destruct bi; lia. }
             pose proof (pool_add_fee_cur i _ _ _ _ _ Hfe) as Hfe'.
             destruct (pool_add_fee_ok k _ _ _ (s_protocol_fee s) _ POX UR ltac:(lia) Hfe') as (PO3 & _ & Q2 & _).
             split; [|split; [exact PO1|split; [rewrite EP; exact PO3|split; [rewrite EP; exact Q2|]]]].
             ++ apply (ie_extra _ _ _ _ _ i p3); auto.
                ** intros HL0. unfold is_enough_amount_to_change_price in Een. rewrite HL0 in Een. cbn in Een. congruence.
                ** rewrite <- Hen, <- Een, Hbi, Hd. reflexivity.
             ++ rewrite ER. intros Hx. lia.
          -- assert (Hz : rem1 = 0).
             { destruct Hr0 as [Hr0|Hr0]; [exact Hr0|]. destruct (Z.eq_dec rem1 0) as [|Hne]; [auto|exfalso].
               rewrite Hr0, Hd in Een. apply is_enough_exact_out in Een; auto using range_wide; [congruence| |].
               - cbn [set_sqrt_price p_liquidity]. rewrite F1. exact HL.
               - apply u256_I. pose proof (u256_M _ Hrem). pose proof (u256_M _ U2).
                 unfold rem1 in *. rewrite Hr0 in *. lia. }
             split; [|split; [exact PO1|split; [|split; [rewrite EP; reflexivity|]]]].
             ++ apply (ie_stay _ _ _ _ _ i); auto; [lia|]. intros Hx. lia.
             ++ rewrite EP, En. apply pool_ok_at; auto.
             ++ rewrite ER. intros Hx. lia.
  Qed.
End Iter.
