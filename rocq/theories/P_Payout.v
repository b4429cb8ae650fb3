(** Closing, collecting and withdrawing succeed when the deposits fit 256 bits. *)
From Verif Require Import Base Decimal SqrtPriceM LogM ClammM FeeGrowthM Types TickmapM StorageM
  CollectionsM StateM ServiceM Arith SpecMath SpecFees SpecSum SpecState SpecHistory SpecClean SpecSolv P_Clamm P_Delta
  P_TickPrice P_GetTick P_Tickmap P_Closer
  P_Fees P_Balance P_Effects P_Positions P_History P_Loop P_Check P_State P_Iter P_Inv P_InvPos P_PosOps P_InvHist P_Active
  P_Live P_Bals P_RSum P_Claims P_Owed P_Solv.
From stdpp Require Import gmap list.
From Coq Require Import ZArith Lia Bool Reals Lra.
Open Scope Z_scope.

Lemma bal_le_total s u t : bals_ok s -> 0 <= bal s u t <= bal_total s t.
Proof.
  intros B. pose proof (u256_M _ (B u t)) as Hb. split; [lia|]. unfold bal, balm, bal_total in *.
  destruct (s_balances s !! u) as [m|] eqn:E; cbn [from_option id default] in *.
  - apply (msum_ge_one (fun m : gmap actor_id Z => default 0 (m !! t)) (s_balances s) u m); [|auto].
    intros j y Hj. pose proof (u256_M _ (B j t)) as Hj'. unfold bal, balm in Hj'. rewrite Hj in Hj'. cbn in Hj'. lia.
  - rewrite lookup_empty. cbn. apply msum_nonneg.
    intros j y Hj. pose proof (u256_M _ (B j t)) as Hj'. unfold bal, balm in Hj'. rewrite Hj in Hj'. cbn in Hj'. lia.
Qed.

Lemma bal_total_nonneg s t : bals_ok s -> 0 <= bal_total s t.
Proof. intros B. pose proof (bal_le_total s 0 t B). lia. Qed.

(** A position of a pool in range is part of its active liquidity. *)
Lemma active_ge s a n pos p : Inv s -> active_ok s -> s_positions s !! (a, n) = Some pos -> s_pools s !! pos_pool_key pos = Some p ->
  in_range (pos_lower pos) (pos_upper pos) (p_current_tick_index p) = true -> pos_liquidity pos <= p_liquidity p.
Proof.
  intros I A Hp Hk HR. rewrite <- (A _ _ Hk). unfold active_at.
  pose proof (msum_ge_one (active_of (pos_pool_key pos) (p_current_tick_index p)) (s_positions s) (a, n) pos) as M.
  unfold active_of at 2 in M. rewrite bool_decide_eq_true_2 in M by reflexivity. unfold in_range in HR. rewrite HR in M.
  cbn [andb] in M. apply M; [|auto]. intros [b m] q Hq. pose proof (pos_nonneg _ _ _ _ I Hq).
  unfold active_of. destruct (bool_decide _ && _); lia.
Qed.

Section Payout.
  Context (admin fee : Z) (evs : list event) (s : state).
  Local Notation s0 := (init_state admin fee).
  Context (Hf : u128 fee) (HT : trace regular s0 evs s) (HR : all_roundings evs < 2 * 10 ^ 14).

  Lemma trace_bals : bals_ok s.
  Proof using Hf HT. apply (bals_history regular evs); [intros ? ? []; auto|]. eapply trace_history; eauto. Qed.

  (** Uncollected fees, with or without the tokens of the position. *)
  Lemma claim_parts a n pos : s_positions s !! (a, n) = Some pos ->
    net_deposits s0 evs (pk_token_x (pos_pool_key pos)) < 2 ^ 256 ->
    net_deposits s0 evs (pk_token_y (pos_pool_key pos)) < 2 ^ 256 ->
    exists p tl tu ox oy dx dy,
      s_pools s !! pos_pool_key pos = Some p /\
      s_ticks s !! (pos_pool_key pos, pos_lower pos) = Some tl /\
      s_ticks s !! (pos_pool_key pos, pos_upper pos) = Some tu /\
      to_fee (unchecked_sub (inside_x p tl tu) (pos_fee_growth_inside_x pos)) (pos_liquidity pos) = Ok ox /\
      to_fee (unchecked_sub (inside_y p tl tu) (pos_fee_growth_inside_y pos)) (pos_liquidity pos) = Ok oy /\
      calculate_amount_delta (p_current_tick_index p) (p_sqrt_price p) (pos_liquidity pos) false (pos_upper pos) (pos_lower pos)
        = Ok (dx, dy, in_range (pos_lower pos) (pos_upper pos) (p_current_tick_index p)) /\
      0 <= dx /\ 0 <= dy /\ 0 <= ox /\ 0 <= oy /\
      dx + ox + bal_total s (pk_token_x (pos_pool_key pos)) < M256 /\
      dy + oy + bal_total s (pk_token_y (pos_pool_key pos)) < M256.
  Proof using Hf HT HR.
    intros Hpos NX NY. destruct (active_history evs s (trace_history _ _ _ _ _ Hf HT)) as (I & _ & _).
    destruct (pos_ticks s a n pos I Hpos) as (p & tl & tu & P & L & U & TL & TU).
    pose proof (I_pos _ I _ _ _ Hpos) as SO. pose proof (so_liq _ _ SO) as HL. pose proof (so_lt _ _ SO) as Hlt.
    pose proof (I_pool _ I _ _ P) as PO.
    pose proof (to_okt _ _ _ _ TL) as OL. pose proof (to_okt _ _ _ _ TU) as OU.
    pose proof (okt_valid _ _ OL) as VL. pose proof (okt_valid _ _ OU) as VU.
    assert (UL : u256 (pos_liquidity pos)) by (apply u256_I; lia).
    destruct (amount_delta_ok (p_current_tick_index p) (p_sqrt_price p) (pos_liquidity pos) false (pos_upper pos) (pos_lower pos))
      as (dx & dy & AD); auto; [lia|apply PO|].
    destruct (amount_delta_nonneg _ _ _ _ _ _ _ _ _ VL VU (po_range _ _ PO) UL AD) as [Dx Dy].
    destruct (amounts_down (pos_pool_key pos) p (pos_liquidity pos) (pos_lower pos) (pos_upper pos) dx dy _ PO OL OU Hlt UL AD) as [PX PY].
    assert (FE : forall x : bool, exists v,
      to_fee (unchecked_sub (if x then inside_x p tl tu else inside_y p tl tu) (seen_growth x pos)) (pos_liquidity pos) = Ok v /\
      0 <= v /\ (if x then dx else dy) + v + bal_total s (token_of x (pos_pool_key pos)) < M256).
    { intros x. destruct (uncollected_inside x s pos p tl tu I SO P L U) as [EU HU]. rewrite <- EU.
      pose proof (u128_M _ HU) as HU'.
      set (v := uncollected x s pos * pos_liquidity pos / E33).
      assert (Hv : 0 <= v) by (apply Z.div_pos; [nia|reflexivity]).
      assert (Hc : (IZR ((if x then dx else dy) + v) <= claim x s pos)%R).
      { rewrite (claim_eq x s pos p P), !tick_price_valid by auto. rewrite plus_IZR.
        assert (IZR v <= IZR (pos_liquidity pos) * IZR (uncollected x s pos) / 10 ^ 33)%R.
        { apply fee_below. unfold v. pose proof (Z.mul_div_le (uncollected x s pos * pos_liquidity pos) E33 eq_refl). lia. }
        destruct x; lra. }
      pose proof (claim_fits admin fee evs s Hf HT HR x a n pos _ Hpos Hc) as F.
      assert (net_deposits s0 evs (token_of x (pos_pool_key pos)) < M256) by (unfold M256; destruct x; auto).
      pose proof (bal_total_nonneg s (token_of x (pos_pool_key pos)) trace_bals).
      exists v. split; [|split; [auto|lia]]. apply to_fee_ok; auto. fold v. destruct x; lia. }
    destruct (FE true) as (ox & E1 & O1 & B1). destruct (FE false) as (oy & E2 & O2 & B2).
    exists p, tl, tu, ox, oy, dx, dy. auto 20.
  Qed.

  Lemma claim_fee_succeeds e i pos : s_positions s !! (e_caller e, i) = Some pos ->
    net_deposits s0 evs (pk_token_x (pos_pool_key pos)) < 2 ^ 256 ->
    net_deposits s0 evs (pk_token_y (pos_pool_key pos)) < 2 ^ 256 ->
    exists s' xy, claim_fee e s i = Ok (s', xy).
  Proof using Hf HT HR.
    intros Hpos NX NY. destruct (claim_parts _ _ _ Hpos NX NY) as (p & tl & tu & ox & oy & dx & dy & P & L & U & F1 & F2 & _ & D1 & D2 & O1 & O2 & B1 & B2).
    destruct (active_history evs s (trace_history _ _ _ _ _ Hf HT)) as (I & G & _).
    pose proof (bal_le_total s (e_caller e) (pk_token_x (pos_pool_key pos)) trace_bals).
    pose proof (bal_le_total s (e_caller e) (pk_token_y (pos_pool_key pos)) trace_bals).
    destruct (claim_fee_ok e s i pos p tl tu ox oy) as [s' E]; auto; try lia. eauto.
  Qed.

  Lemma remove_position_succeeds e i pos : s_positions s !! (e_caller e, i) = Some pos ->
    net_deposits s0 evs (pk_token_x (pos_pool_key pos)) < 2 ^ 256 ->
    net_deposits s0 evs (pk_token_y (pos_pool_key pos)) < 2 ^ 256 ->
    exists s' xy, remove_position e s i = Ok (s', xy).
  Proof using Hf HT HR.
    intros Hpos NX NY. destruct (claim_parts _ _ _ Hpos NX NY) as (p & tl & tu & ox & oy & dx & dy & P & L & U & F1 & F2 & AD & D1 & D2 & O1 & O2 & B1 & B2).
    destruct (active_history evs s (trace_history _ _ _ _ _ Hf HT)) as (I & G & A).
    pose proof (bal_le_total s (e_caller e) (pk_token_x (pos_pool_key pos)) trace_bals).
    pose proof (bal_le_total s (e_caller e) (pk_token_y (pos_pool_key pos)) trace_bals).
    destruct (remove_position_ok e s i pos p tl tu ox oy dx dy) as [s' E]; auto; try lia; [|eauto].
    apply (active_ge s (e_caller e) i); auto.
  Qed.

  Lemma protocol_fits x k p : s_pools s !! k = Some p ->
    protocol_fee x p + bal_total s (token_of x k) <= net_deposits s0 evs (token_of x k).
  Proof using Hf HT HR.
    intros Hk. destruct (active_history evs s (trace_history _ _ _ _ _ Hf HT)) as (I & _ & _).
    pose proof (owed_balances admin fee evs s Hf HT (token_of x k)) as O. unfold owed in O.
    assert (P0 : (0 <= rsum (fun _ pos => claim_in (token_of x k) s pos) (s_positions s))%R).
    { apply rsum_nonneg. intros [b m] q Hq. eapply claim_in_nonneg; eauto. }
    pose proof (I_pool _ I _ _ Hk) as PO. pose proof (u256_M _ (po_fx _ _ PO)). pose proof (u256_M _ (po_fy _ _ PO)).
    assert (P1 : protocol_fee x p <= zsum (protocol_in (token_of x k)) (s_pools s)).
    { apply Z.le_trans with (protocol_in (token_of x k) k p).
      - unfold protocol_in, protocol_fee. destruct x; rewrite Z.eqb_refl; destruct (_ =? _); lia.
      - pose proof (zsum_nonneg (protocol_in (token_of x k)) (delete k (s_pools s))) as Z0.
        rewrite <- (insert_delete (s_pools s) k p) by auto. rewrite zsum_insert by apply lookup_delete.
        enough (0 <= zsum (protocol_in (token_of x k)) (delete k (s_pools s))) by lia. apply Z0.
        intros j q Hj. apply lookup_delete_Some in Hj as [_ Hj]. eapply protocol_nonneg; eauto. }
    apply (whole_le _ _ (IZR (all_roundings evs) * eps)); [rewrite plus_IZR; apply IZR_le in P1; lra|].
    apply small_roundings. pose proof (all_roundings_nonneg evs). lia.
  Qed.

  Lemma withdraw_fee_succeeds e k p : s_pools s !! k = Some p -> p_fee_receiver p = e_caller e ->
    net_deposits s0 evs (pk_token_x k) < 2 ^ 256 -> net_deposits s0 evs (pk_token_y k) < 2 ^ 256 ->
    exists s', withdraw_protocol_fee e s k = Ok (s', tt).
  Proof using Hf HT HR.
    intros Hk HRc NX NY. destruct (active_history evs s (trace_history _ _ _ _ _ Hf HT)) as (I & G & A).
    pose proof (I_pool _ I _ _ Hk) as PO. pose proof (u256_M _ (po_fx _ _ PO)). pose proof (u256_M _ (po_fy _ _ PO)).
    pose proof (protocol_fits true k p Hk) as F1. pose proof (protocol_fits false k p Hk) as F2. cbn [protocol_fee token_of] in F1, F2.
    pose proof (bal_le_total s (e_caller e) (pk_token_x k) trace_bals).
    pose proof (bal_le_total s (e_caller e) (pk_token_y k) trace_bals).
    change (2 ^ 256) with M256 in *.
    unfold withdraw_protocol_fee, pools_get. rewrite Hk. cbn [ok_or bind]. rewrite HRc, Z.eqb_refl. cbn [negb fail_if bind].
    unfold pool_withdraw_protocol_fee. unfold pools_update, pools_get. rewrite Hk. cbn [ok_or bind].
    match goal with |- context [increase_token_balance ?s1 (pk_token_x k) _ _] =>
      destruct (increase_two_ok s1 (pk_token_x k) (pk_token_y k) (e_caller e) (p_fee_protocol_token_x p) (p_fee_protocol_token_y p)) as (s2 & s3 & E1 & E2) end; try lia.
    { pose proof (po_tokens _ _ PO). lia. }
    { unfold bal in *. cbn [set_pools s_balances]. lia. } { unfold bal in *. cbn [set_pools s_balances]. lia. }
    rewrite E1. cbn [bind]. rewrite E2. cbn [bind]. eauto.
  Qed.
End Payout.
