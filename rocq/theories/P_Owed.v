(** What the pools owe, before and after each operation on positions. *)
From Verif Require Import Base Decimal SqrtPriceM LogM ClammM FeeGrowthM Types TickmapM StorageM
  CollectionsM StateM ServiceM Arith SpecMath SpecFees SpecSum SpecState SpecHistory SpecSolv P_Clamm P_Delta P_Next P_Step P_StepProps P_TickPrice P_GetTick P_Tickmap P_Closer
  P_Fees P_Balance P_Effects P_Positions P_History P_Loop P_Check P_State P_Iter P_Inv P_InvPos P_PosOps P_RSum P_Claims.
From stdpp Require Import gmap list.
From Coq Require Import ZArith Lia Bool Reals Lra.
Open Scope Z_scope.

(** Amounts of the two tokens of a pool, as an amount in token [t]. *)
Definition cin (t : Z) (k : pool_key) (a b : R) : R :=
  ((if token_of true k =? t then a else 0) + (if token_of false k =? t then b else 0))%R.

Lemma cin_le t k a b a' b' : (a <= a')%R -> (b <= b')%R -> (cin t k a b <= cin t k a' b')%R.
Proof. intros. unfold cin. destruct (_ =? t), (_ =? t); lra. Qed.
Lemma cin_add t k a b a' b' : (cin t k (a + a') (b + b') = cin t k a b + cin t k a' b')%R.
Proof. unfold cin. destruct (_ =? t), (_ =? t); lra. Qed.
Lemma cin_eps t k a : pk_token_x k <> pk_token_y k -> (0 <= a)%R -> (cin t k a 0 <= a)%R.
Proof. intros. unfold cin. destruct (_ =? t), (_ =? t); lra. Qed.
Lemma cin_nonneg t k a b : (0 <= a)%R -> (0 <= b)%R -> (0 <= cin t k a b)%R.
Proof. intros. unfold cin. destruct (_ =? t), (_ =? t); lra. Qed.

Lemma cin_on t k a b : IZR (on (pk_token_x k) a t + on (pk_token_y k) b t) = cin t k (IZR a) (IZR b).
Proof.
  unfold cin, on, token_of. rewrite plus_IZR, !(Z.eqb_sym t). destruct (_ =? t), (_ =? t); reflexivity.
Qed.

Lemma claim_in_cin t s pos : claim_in t s pos = cin t (pos_pool_key pos) (claim true s pos) (claim false s pos).
Proof. reflexivity. Qed.

(** ** Claims of positions that an operation does not concern *)

Lemma below_eq x s k i p t : s_pools s !! k = Some p -> s_ticks s !! (k, i) = Some t ->
  below x s k i = growth_below i (p_current_tick_index p) (global_growth x p) (outside_growth x t).
Proof. intros E1 E2. unfold below. rewrite E1, E2. reflexivity. Qed.

Lemma claim_eq x s pos p : s_pools s !! pos_pool_key pos = Some p ->
  claim x s pos = (principal x (pos_liquidity pos) (p_sqrt_price p) (tick_price (pos_lower pos)) (tick_price (pos_upper pos))
       + IZR (pos_liquidity pos) * IZR (uncollected x s pos) / 10 ^ 33)%R.
Proof. intros E. unfold claim. rewrite E. reflexivity. Qed.

Lemma claim_frame s s' pos p p' tl tu tl' tu' :
  s_pools s !! pos_pool_key pos = Some p -> s_pools s' !! pos_pool_key pos = Some p' ->
  p_sqrt_price p' = p_sqrt_price p -> p_current_tick_index p' = p_current_tick_index p ->
  p_fee_growth_global_x p' = p_fee_growth_global_x p -> p_fee_growth_global_y p' = p_fee_growth_global_y p ->
  s_ticks s !! (pos_pool_key pos, pos_lower pos) = Some tl -> s_ticks s' !! (pos_pool_key pos, pos_lower pos) = Some tl' ->
  s_ticks s !! (pos_pool_key pos, pos_upper pos) = Some tu -> s_ticks s' !! (pos_pool_key pos, pos_upper pos) = Some tu' ->
  (t_fee_growth_outside_x tl' = t_fee_growth_outside_x tl /\ t_fee_growth_outside_y tl' = t_fee_growth_outside_y tl) ->
  (t_fee_growth_outside_x tu' = t_fee_growth_outside_x tu /\ t_fee_growth_outside_y tu' = t_fee_growth_outside_y tu) ->
  forall x, claim x s' pos = claim x s pos.
Proof.
  intros P1 P2 E1 E2 E3 E4 L1 L2 U1 U2 [O1 O2] [O3 O4] x.
  rewrite (claim_eq x s pos p P1), (claim_eq x s' pos p' P2), E1. do 4 f_equal. unfold uncollected.
  rewrite (below_eq x s _ _ p tl P1 L1), (below_eq x s _ _ p tu P1 U1), (below_eq x s' _ _ p' tl' P2 L2), (below_eq x s' _ _ p' tu' P2 U2).
  unfold global_growth, outside_growth. rewrite E2, E3, E4, O1, O2, O3, O4. reflexivity.
Qed.

Lemma claim_frame_ticks s s' pos p p' tl tu :
  s_pools s !! pos_pool_key pos = Some p -> s_pools s' !! pos_pool_key pos = Some p' ->
  p_sqrt_price p' = p_sqrt_price p -> p_current_tick_index p' = p_current_tick_index p ->
  p_fee_growth_global_x p' = p_fee_growth_global_x p -> p_fee_growth_global_y p' = p_fee_growth_global_y p ->
  s_ticks s !! (pos_pool_key pos, pos_lower pos) = Some tl -> s_ticks s !! (pos_pool_key pos, pos_upper pos) = Some tu ->
  (forall i t, s_ticks s !! (pos_pool_key pos, i) = Some t -> exists t', s_ticks s' !! (pos_pool_key pos, i) = Some t' /\
     t_fee_growth_outside_x t' = t_fee_growth_outside_x t /\ t_fee_growth_outside_y t' = t_fee_growth_outside_y t) ->
  forall x, claim x s' pos = claim x s pos.
Proof.
  intros P1 P2 E1 E2 E3 E4 L1 U1 HT. destruct (HT _ _ L1) as (tl' & L2 & ?). destruct (HT _ _ U1) as (tu' & U2 & ?).
  eapply claim_frame; eauto.
Qed.

(** ** Uncollected fees as the code computes them *)

Lemma uncollected_inside (x : bool) s pos p tl tu : Inv s -> pos_ok s pos -> s_pools s !! pos_pool_key pos = Some p ->
  s_ticks s !! (pos_pool_key pos, pos_lower pos) = Some tl -> s_ticks s !! (pos_pool_key pos, pos_upper pos) = Some tu ->
  uncollected x s pos = unchecked_sub (if x then inside_x p tl tu else inside_y p tl tu) (seen_growth x pos) /\
  u128 (uncollected x s pos).
Proof.
  intros I SO P L U. pose proof (I_pool _ I _ _ P) as PO.
  destruct (I_tick _ I _ _ _ L) as [_ TL]. destruct (I_tick _ I _ _ _ U) as [_ TU].
  split; [|apply wrap_u128]. unfold uncollected. rewrite (below_eq x s _ _ p tl P L), (below_eq x s _ _ p tu P U).
  assert (H : (if x then inside_x p tl tu else inside_y p tl tu) =
    wrap (growth_below (pos_upper pos) (p_current_tick_index p) (global_growth x p) (outside_growth x tu) -
          growth_below (pos_lower pos) (p_current_tick_index p) (global_growth x p) (outside_growth x tl))).
  { unfold inside_x, inside_y, global_growth, outside_growth. rewrite (to_index _ _ _ _ TL), (to_index _ _ _ _ TU).
    destruct x; apply fee_growth_inside_eq; first [apply TL|apply TU|apply PO]. }
  rewrite H. rewrite unchecked_sub_wrap; [|apply wrap_u128|destruct x; apply SO]. rewrite wrap_sub_l. reflexivity.
Qed.

Lemma fee_below (g L v : Z) : v * E33 <= g * L -> (IZR v <= IZR L * IZR g / 10 ^ 33)%R.
Proof.
  intros H. apply IZR_le in H. rewrite !mult_IZR in H. unfold E33 in H.
  apply (Rmult_le_reg_r (10 ^ 33)); [lra|]. unfold Rdiv. rewrite Rmult_assoc, Rinv_l by lra. lra.
Qed.

(** Collected fees are covered by the claim. *)
Lemma fee_covered (x : bool) s pos p tl tu v : Inv s -> pos_ok s pos -> s_pools s !! pos_pool_key pos = Some p ->
  s_ticks s !! (pos_pool_key pos, pos_lower pos) = Some tl -> s_ticks s !! (pos_pool_key pos, pos_upper pos) = Some tu ->
  to_fee (unchecked_sub (if x then inside_x p tl tu else inside_y p tl tu) (seen_growth x pos)) (pos_liquidity pos) = Ok v ->
  (0 <= IZR v <= IZR (pos_liquidity pos) * IZR (uncollected x s pos) / 10 ^ 33)%R.
Proof.
  intros I SO P L U H. destruct (uncollected_inside x s pos p tl tu I SO P L U) as [E Hu]. rewrite <- E in H.
  apply to_fee_le in H as [H0 H]; [|auto|apply u256_I; pose proof (so_liq _ _ SO); lia].
  split; [apply IZR_le; lia|]. apply fee_below. lia.
Qed.

(** Claims are not negative. *)
Lemma inv_le a b : 0 < a -> a <= b -> (/ IZR b <= / IZR a)%R.
Proof. intros. apply Rinv_le_contravar; [apply IZR_lt; auto|apply IZR_le; auto]. Qed.

Lemma principal_nonneg x L p pl pu : 0 <= L -> 0 < pl -> pl <= pu -> (0 <= principal x L p pl pu)%R.
Proof.
  intros HL Hp Hpu. unfold principal. set (q := Z.max pl (Z.min p pu)). assert (Hq : pl <= q <= pu) by lia. clearbody q.
  apply IZR_le in HL. destruct x.
  - apply Rmult_le_pos; [lra|]. pose proof (inv_le q pu ltac:(lia) ltac:(lia)). lra.
  - destruct Hq as [Hq _]. apply IZR_le in Hq. unfold Rdiv. apply Rmult_le_pos; [|lra]. apply Rmult_le_pos; lra.
Qed.

Lemma uncollected_nonneg x s pos : (0 <= IZR (uncollected x s pos))%R.
Proof. apply IZR_le. pose proof (wrap_u128 (below x s (pos_pool_key pos) (pos_upper pos) - below x s (pos_pool_key pos) (pos_lower pos) - seen_growth x pos)) as H. apply u128_M in H. unfold uncollected. lia. Qed.

Lemma claim_nonneg x s a n pos : Inv s -> s_positions s !! (a, n) = Some pos -> (0 <= claim x s pos)%R.
Proof.
  intros I H. destruct (pos_ticks s a n pos I H) as (p & tl & tu & P & L & U & TL & TU).
  pose proof (I_pos _ I _ _ _ H) as SO. pose proof (so_liq _ _ SO) as HL. pose proof (so_lt _ _ SO) as Hlt.
  pose proof (okt_valid _ _ (to_okt _ _ _ _ TL)) as VL. pose proof (okt_valid _ _ (to_okt _ _ _ _ TU)) as VU.
  rewrite (claim_eq x s pos p P), !tick_price_valid by auto.
  pose proof (price_range _ VL) as RL. pose proof (price_lt _ _ VL VU Hlt).
  pose proof (principal_nonneg x (pos_liquidity pos) (p_sqrt_price p) (price (pos_lower pos)) (price (pos_upper pos))) as HP.
  unfold price_in_range in RL. specialize (HP ltac:(lia) ltac:(lia) ltac:(lia)).
  pose proof (uncollected_nonneg x s pos). assert (0 <= IZR (pos_liquidity pos))%R by (apply IZR_le; lia).
  assert (0 <= IZR (pos_liquidity pos) * IZR (uncollected x s pos) / 10 ^ 33)%R; [|lra].
  unfold Rdiv. apply Rmult_le_pos; [|lra]. apply Rmult_le_pos; lra.
Qed.

Lemma claim_in_nonneg t s a n pos : Inv s -> s_positions s !! (a, n) = Some pos -> (0 <= claim_in t s pos)%R.
Proof. intros I H. rewrite claim_in_cin. apply cin_nonneg; eapply claim_nonneg; eauto. Qed.

(** ** Protocol fees *)

Lemma protocol_update t s k p p' : s_pools s !! k = Some p ->
  zsum (protocol_in t) (<[k := p']> (s_pools s)) = zsum (protocol_in t) (s_pools s) - protocol_in t k p + protocol_in t k p'.
Proof. intros E. rewrite (zsum_update _ _ _ p) by auto. lia. Qed.

Lemma protocol_same t k p p' : p_fee_protocol_token_x p' = p_fee_protocol_token_x p ->
  p_fee_protocol_token_y p' = p_fee_protocol_token_y p -> protocol_in t k p' = protocol_in t k p.
Proof. intros E1 E2. unfold protocol_in, protocol_fee. rewrite E1, E2. reflexivity. Qed.

Lemma protocol_nonneg t s k p : Inv s -> s_pools s !! k = Some p -> 0 <= protocol_in t k p.
Proof.
  intros I H. pose proof (I_pool _ I _ _ H) as PO. pose proof (u256_M _ (po_fx _ _ PO)). pose proof (u256_M _ (po_fy _ _ PO)).
  unfold protocol_in, protocol_fee. destruct (_ =? t), (_ =? t); lia.
Qed.

(** ** Opening a position *)

Lemma new_uncollected k p s' pos lo up L (ox oy : Z -> Z) tl tu b :
  s_pools s' !! k = Some p -> s_ticks s' !! (k, lo) = Some tl -> s_ticks s' !! (k, up) = Some tu ->
  pool_ok k p ->
  t_fee_growth_outside_x tl = ox lo -> t_fee_growth_outside_y tl = oy lo ->
  t_fee_growth_outside_x tu = ox up -> t_fee_growth_outside_y tu = oy up ->
  (forall i, u128 (ox i)) -> (forall i, u128 (oy i)) ->
  pos = mkPosition k L lo up
     (fee_growth_inside_one lo (ox lo) up (ox up) (p_current_tick_index p) (p_fee_growth_global_x p))
     (fee_growth_inside_one lo (oy lo) up (oy up) (p_current_tick_index p) (p_fee_growth_global_y p)) b 0 0 ->
  forall x, uncollected x s' pos = 0.
Proof.
  intros P HL HU PO E1 E2 E3 E4 U1 U2 -> x. unfold uncollected. cbn [pos_pool_key pos_lower pos_upper].
  rewrite (below_eq x s' k lo p tl), (below_eq x s' k up p tu) by auto.
  assert (H : seen_growth x (mkPosition k L lo up
     (fee_growth_inside_one lo (ox lo) up (ox up) (p_current_tick_index p) (p_fee_growth_global_x p))
     (fee_growth_inside_one lo (oy lo) up (oy up) (p_current_tick_index p) (p_fee_growth_global_y p)) b 0 0) =
    wrap (growth_below up (p_current_tick_index p) (global_growth x p) (outside_growth x tu) -
          growth_below lo (p_current_tick_index p) (global_growth x p) (outside_growth x tl))).
  { unfold seen_growth, global_growth, outside_growth. cbn [pos_fee_growth_inside_x pos_fee_growth_inside_y].
    rewrite E1, E2, E3, E4. destruct x; apply fee_growth_inside_eq; auto; apply PO. }
  rewrite H, wrap_sub_r, Z.sub_diag. reflexivity.
Qed.

Lemma owed_create e s s' k lo up L sl su pos p x y mx t : Inv s -> Inv s' ->
  created e s s' k lo up L sl su pos p x y mx ->
  (owed s' t <= owed s t + IZR (bal_total s t - bal_total s' t) + eps)%R.
Proof.
  intros I I' C. pose proof (I_pool _ I _ _ (cr_pool _ _ _ _ _ _ _ _ _ _ _ _ _ _ C)) as PO.
  destruct (cr_ticks _ _ _ _ _ _ _ _ _ _ _ _ _ _ C) as (tl & tu & ET & T1 & T2 & T3 & T4).
  pose proof (cr_lt _ _ _ _ _ _ _ _ _ _ _ _ _ _ C) as Hlt.
  pose proof (cr_pool _ _ _ _ _ _ _ _ _ _ _ _ _ _ C) as Hp.
  assert (HB : bal_total s t - bal_total s' t = on (pk_token_x k) x t + on (pk_token_y k) y t).
  { rewrite (cr_total _ _ _ _ _ _ _ _ _ _ _ _ _ _ C t). unfold on. destruct (t =? _), (t =? _); lia. }
  rewrite HB, cin_on. clear HB. unfold owed.
  rewrite (cr_positions _ _ _ _ _ _ _ _ _ _ _ _ _ _ C), rsum_insert by apply C.
  rewrite (cr_pools _ _ _ _ _ _ _ _ _ _ _ _ _ _ C), (protocol_update t s k p _ Hp).
  rewrite (protocol_same t k p (with_liq p lo up L (e_timestamp e))) by reflexivity.
  replace (zsum (protocol_in t) (s_pools s) - protocol_in t k p + protocol_in t k p) with (zsum (protocol_in t) (s_pools s)) by lia.
  assert (ELO : (k, up) <> (k, lo)) by (intros [= Hx]; lia).
  assert (F : rsum (fun _ q => claim_in t s' q) (s_positions s) = rsum (fun _ q => claim_in t s q) (s_positions s)).
  { apply rsum_ext. intros [a n] q Hq. destruct (pos_ticks s a n q I Hq) as (p0 & tl0 & tu0 & P0 & L0 & U0 & _).
    assert (HT : forall i t0, s_ticks s !! (pos_pool_key q, i) = Some t0 -> exists t', s_ticks s' !! (pos_pool_key q, i) = Some t' /\
       t_fee_growth_outside_x t' = t_fee_growth_outside_x t0 /\ t_fee_growth_outside_y t' = t_fee_growth_outside_y t0).
    { intros i t0 H0. rewrite ET. destruct (decide ((k, up) = (pos_pool_key q, i))) as [Eq|Ne].
      - rewrite Eq, lookup_insert. injection Eq as E1 E2. exists tu. split; [auto|]. rewrite T3, T4. unfold old_x, old_y.
        rewrite E1, E2, H0. auto.
      - rewrite lookup_insert_ne by auto. destruct (decide ((k, lo) = (pos_pool_key q, i))) as [Eq|Ne'].
        + rewrite Eq, lookup_insert. injection Eq as E1 E2. exists tl. split; [auto|]. rewrite T1, T2. unfold old_x, old_y.
          rewrite E1, E2, H0. auto.
        + rewrite lookup_insert_ne by auto. eauto. }
    assert (G : forall b, claim b s' q = claim b s q).
    { destruct (decide (pos_pool_key q = k)) as [Ek|Nk].
      - assert (p0 = p) by congruence. subst p0.
        apply (claim_frame_ticks s s' q p (with_liq p lo up L (e_timestamp e)) tl0 tu0); auto.
        rewrite (cr_pools _ _ _ _ _ _ _ _ _ _ _ _ _ _ C), Ek, lookup_insert. reflexivity.
      - apply (claim_frame_ticks s s' q p0 p0 tl0 tu0); auto.
        rewrite (cr_pools _ _ _ _ _ _ _ _ _ _ _ _ _ _ C), lookup_insert_ne by congruence. auto. }
    rewrite !claim_in_cin, !G. reflexivity. }
  rewrite F. clear F.
  enough (claim_in t s' pos <= cin t k (IZR x) (IZR y) + eps)%R by lra.
  pose proof (cr_pos _ _ _ _ _ _ _ _ _ _ _ _ _ _ C) as EP.
  assert (Hp' : s_pools s' !! k = Some (with_liq p lo up L (e_timestamp e))).
  { rewrite (cr_pools _ _ _ _ _ _ _ _ _ _ _ _ _ _ C), lookup_insert. reflexivity. }
  assert (OX : forall i, u128 (old_x s k p i) /\ u128 (old_y s k p i)).
  { intros i. unfold old_x, old_y. destruct (s_ticks s !! (k, i)) as [t0|] eqn:E0.
    - destruct (I_tick _ I _ _ _ E0) as [_ TO]. split; apply TO.
    - assert (u128 0) by (unfold u128; lia). destruct (i <=? _); split; first [apply PO|auto]. }
  assert (U0 : forall b, uncollected b s' pos = 0).
  { apply (new_uncollected k (with_liq p lo up L (e_timestamp e)) s' pos lo up L (old_x s k p) (old_y s k p) tl tu (e_block e)); auto.
    - rewrite ET, lookup_insert_ne by auto. apply lookup_insert.
    - rewrite ET. apply lookup_insert.
    - apply (I_pool _ I' _ _ Hp').
    - apply OX.
    - apply OX. }
  assert (Ek : pos_pool_key pos = k) by (rewrite EP; reflexivity).
  assert (EL : pos_liquidity pos = L /\ pos_lower pos = lo /\ pos_upper pos = up) by (rewrite EP; auto).
  destruct EL as (EL1 & EL2 & EL3).
  assert (HC : forall b, claim b s' pos = principal b L (p_sqrt_price p) (price lo) (price up)).
  { intros b. rewrite (claim_eq b s' pos _ ltac:(rewrite Ek; exact Hp')), U0, EL1, EL2, EL3.
    rewrite !tick_price_valid by (eapply okt_valid; apply C). cbn [with_liq set_liquidity set_last_timestamp p_sqrt_price]. 
    unfold Rdiv. rewrite Rmult_0_r. lra. }
  destruct (amounts_up k p L lo up x y _ PO (cr_lo _ _ _ _ _ _ _ _ _ _ _ _ _ _ C) (cr_up _ _ _ _ _ _ _ _ _ _ _ _ _ _ C) Hlt
    ltac:(apply u256_I; pose proof (cr_liq _ _ _ _ _ _ _ _ _ _ _ _ _ _ C); lia) (cr_amounts _ _ _ _ _ _ _ _ _ _ _ _ _ _ C)) as [A1 A2].
  rewrite claim_in_cin, Ek, !HC.
  pose proof (cin_le t k _ _ _ _ A1 A2) as A3.
  replace (IZR y) with (IZR y + 0)%R in A3 by lra. rewrite cin_add in A3.
  pose proof (cin_eps t k eps ltac:(pose proof (po_tokens _ _ PO); lia) ltac:(pose proof eps_pos; lra)). lra.
Qed.

(** ** Closing a position *)

Lemma removed_rsum (f : position -> R) s a i lp pos :
  s_positions s !! (a, i) = Some pos ->
  (match lp with Some q => i < last_index s a /\ s_positions s !! (a, last_index s a) = Some q
               | None => last_index s a <= i end) ->
  rsum (fun _ q => f q) (removed_positions s a i lp) = (rsum (fun _ q => f q) (s_positions s) - f pos)%R.
Proof.
  intros H HL. unfold removed_positions. destruct lp as [q|].
  - destruct HL as [Hlt Hq].
    rewrite (rsum_update _ _ _ pos), (rsum_delete _ _ _ q) by
      (try rewrite lookup_delete_ne by (intros [= Hx]; lia); auto).
    lra.
  - rewrite (rsum_delete _ _ _ pos) by auto. lra.
Qed.

Lemma removed_claim e s s' i x y pos p tl tu dx dy ox oy : Inv s -> removed e s s' i x y pos p tl tu dx dy ox oy ->
  (IZR x <= claim true s pos)%R /\ (IZR y <= claim false s pos)%R.
Proof.
  intros I C. pose proof (I_pos _ I _ _ _ (rm_pos _ _ _ _ _ _ _ _ _ _ _ _ _ _ C)) as SO.
  pose proof (rm_pool _ _ _ _ _ _ _ _ _ _ _ _ _ _ C) as Hp. pose proof (I_pool _ I _ _ Hp) as PO.
  pose proof (rm_tl _ _ _ _ _ _ _ _ _ _ _ _ _ _ C) as HL. pose proof (rm_tu _ _ _ _ _ _ _ _ _ _ _ _ _ _ C) as HU.
  destruct (I_tick _ I _ _ _ HL) as [_ TL]. destruct (I_tick _ I _ _ _ HU) as [_ TU].
  pose proof (to_okt _ _ _ _ TL) as OL. pose proof (to_okt _ _ _ _ TU) as OU.
  destruct (fee_covered true s pos p tl tu ox I SO Hp HL HU (rm_fee_x _ _ _ _ _ _ _ _ _ _ _ _ _ _ C)) as [_ FX].
  destruct (fee_covered false s pos p tl tu oy I SO Hp HL HU (rm_fee_y _ _ _ _ _ _ _ _ _ _ _ _ _ _ C)) as [_ FY].
  destruct (amounts_down (pos_pool_key pos) p (pos_liquidity pos) (pos_lower pos) (pos_upper pos) dx dy _ PO OL OU (so_lt _ _ SO)
    ltac:(apply u256_I; pose proof (so_liq _ _ SO); lia) (rm_amounts _ _ _ _ _ _ _ _ _ _ _ _ _ _ C)) as [A1 A2].
  rewrite !(claim_eq _ s pos p Hp), !tick_price_valid by (eapply okt_valid; eauto).
  rewrite (rm_x _ _ _ _ _ _ _ _ _ _ _ _ _ _ C), (rm_y _ _ _ _ _ _ _ _ _ _ _ _ _ _ C), !plus_IZR. lra.
Qed.

(** Closing changes no other claim. *)
Lemma removed_others e s s' i x y pos p tl tu dx dy ox oy a n q : Inv s -> Inv s' -> removed e s s' i x y pos p tl tu dx dy ox oy ->
  s_positions s' !! (a, n) = Some q -> forall b, claim b s' q = claim b s q.
Proof.
  intros I I' C Hq. destruct (pos_ticks s' a n q I' Hq) as (p1 & tl1 & tu1 & P1 & L1 & U1 & _).
  destruct (rm_ticks _ _ _ _ _ _ _ _ _ _ _ _ _ _ C _ _ _ L1) as (tl0 & L0 & A1 & A2).
  destruct (rm_ticks _ _ _ _ _ _ _ _ _ _ _ _ _ _ C _ _ _ U1) as (tu0 & U0 & A3 & A4).
  pose proof P1 as P1'. rewrite (rm_pools _ _ _ _ _ _ _ _ _ _ _ _ _ _ C) in P1'.
  apply lookup_insert_Some in P1' as [[Ek <-]|[_ P0]].
  - apply (claim_frame s s' q p _ tl0 tu0 tl1 tu1 ltac:(rewrite <- Ek; apply C) P1); auto.
  - apply (claim_frame s s' q p1 _ tl0 tu0 tl1 tu1 P0 P1); auto.
Qed.

Lemma owed_remove e s s' i x y pos p tl tu dx dy ox oy t : Inv s -> Inv s' ->
  removed e s s' i x y pos p tl tu dx dy ox oy ->
  (owed s' t <= owed s t + IZR (bal_total s t - bal_total s' t))%R.
Proof.
  intros I I' C. pose proof (rm_pool _ _ _ _ _ _ _ _ _ _ _ _ _ _ C) as Hp.
  set (k := pos_pool_key pos) in *.
  assert (HB : bal_total s t - bal_total s' t = - (on (pk_token_x k) x t + on (pk_token_y k) y t)).
  { rewrite (rm_total _ _ _ _ _ _ _ _ _ _ _ _ _ _ C t). fold k. lia. }
  rewrite HB, opp_IZR, cin_on. clear HB. unfold owed.
  rewrite (rm_pools _ _ _ _ _ _ _ _ _ _ _ _ _ _ C). fold k. rewrite (protocol_update t s k p _ Hp).
  rewrite (protocol_same t k p (with_liq p (pos_lower pos) (pos_upper pos) (- pos_liquidity pos) (e_timestamp e))) by reflexivity.
  replace (zsum (protocol_in t) (s_pools s) - protocol_in t k p + protocol_in t k p) with (zsum (protocol_in t) (s_pools s)) by lia.
  assert (F : rsum (fun _ q => claim_in t s' q) (s_positions s') = rsum (fun _ q => claim_in t s q) (s_positions s')).
  { apply rsum_ext. intros [a n] q Hq. rewrite !claim_in_cin. f_equal; eapply removed_others; eauto. }
  rewrite F. clear F. destruct (rm_positions _ _ _ _ _ _ _ _ _ _ _ _ _ _ C) as (lp & HLP & ->).
  rewrite (removed_rsum (claim_in t s) s _ _ _ pos) by (try apply C; auto).
  destruct (removed_claim _ _ _ _ _ _ _ _ _ _ _ _ _ _ I C) as [A1 A2].
  pose proof (cin_le t k _ _ _ _ A1 A2) as A3. rewrite claim_in_cin. fold k. lra.
Qed.

(** ** Collecting fees *)

Lemma owed_claim e s s' i x y pos p tl tu mx t : Inv s -> Inv s' ->
  claimed e s s' i x y pos p tl tu mx ->
  (owed s' t <= owed s t + IZR (bal_total s t - bal_total s' t))%R.
Proof.
  intros I I' C. pose proof (cl_pool _ _ _ _ _ _ _ _ _ _ _ C) as Hp. pose proof (cl_pos _ _ _ _ _ _ _ _ _ _ _ C) as Hpos.
  pose proof (cl_tl _ _ _ _ _ _ _ _ _ _ _ C) as HL. pose proof (cl_tu _ _ _ _ _ _ _ _ _ _ _ C) as HU.
  destruct (cl_ticks _ _ _ _ _ _ _ _ _ _ _ C) as (tl' & tu' & ET & T1 & T2 & T3 & T4).
  pose proof (I_pos _ I _ _ _ Hpos) as SO. pose proof (so_lt _ _ SO) as Hlt. pose proof (I_pool _ I _ _ Hp) as PO.
  destruct (I_tick _ I _ _ _ HL) as [_ TL]. destruct (I_tick _ I _ _ _ HU) as [_ TU].
  set (k := pos_pool_key pos) in *.
  set (pos' := mkPosition k (pos_liquidity pos) (pos_lower pos) (pos_upper pos) (inside_x p tl tu) (inside_y p tl tu) (pos_last_block_number pos) 0 0).
  assert (HB : bal_total s t - bal_total s' t = - (on (pk_token_x k) x t + on (pk_token_y k) y t)).
  { rewrite (cl_total _ _ _ _ _ _ _ _ _ _ _ C t). fold k. lia. }
  rewrite HB, opp_IZR, cin_on. clear HB. unfold owed.
  rewrite (cl_pools _ _ _ _ _ _ _ _ _ _ _ C). fold k. rewrite (protocol_update t s k p _ Hp).
  rewrite (protocol_same t k p (set_last_timestamp (e_timestamp e) p)) by reflexivity.
  replace (zsum (protocol_in t) (s_pools s) - protocol_in t k p + protocol_in t k p) with (zsum (protocol_in t) (s_pools s)) by lia.
  assert (HT : forall k0 i0 t0, s_ticks s !! (k0, i0) = Some t0 -> exists t', s_ticks s' !! (k0, i0) = Some t' /\
       t_fee_growth_outside_x t' = t_fee_growth_outside_x t0 /\ t_fee_growth_outside_y t' = t_fee_growth_outside_y t0).
  { intros k0 i0 t0 H0. rewrite ET. destruct (decide ((k, pos_lower pos) = (k0, i0))) as [Eq|Ne].
    - rewrite Eq, lookup_insert. exists tl'. split; [auto|]. rewrite T1, T2. fold k in HL. rewrite Eq in HL.
      assert (tl = t0) by congruence. subst. auto.
    - rewrite lookup_insert_ne by auto. destruct (decide ((k, pos_upper pos) = (k0, i0))) as [Eq|Ne'].
      + rewrite Eq, lookup_insert. exists tu'. split; [auto|]. rewrite T3, T4. fold k in HU. rewrite Eq in HU.
        assert (tu = t0) by congruence. subst. auto.
      + rewrite lookup_insert_ne by auto. eauto. }
  assert (G0 : forall a n q, s_positions s !! (a, n) = Some q -> forall b, claim b s' q = claim b s q).
  { intros a n q Hq. destruct (pos_ticks s a n q I Hq) as (p0 & tl0 & tu0 & P0 & L0 & U0 & _).
    destruct (decide (pos_pool_key q = k)) as [Ek|Nk].
    - assert (p0 = p) by congruence. subst p0.
      apply (claim_frame_ticks s s' q p (set_last_timestamp (e_timestamp e) p) tl0 tu0); auto.
      rewrite (cl_pools _ _ _ _ _ _ _ _ _ _ _ C), Ek. apply lookup_insert.
    - apply (claim_frame_ticks s s' q p0 p0 tl0 tu0); auto.
      rewrite (cl_pools _ _ _ _ _ _ _ _ _ _ _ C), lookup_insert_ne by (fold k; congruence). auto. }
  assert (F : rsum (fun _ q => claim_in t s' q) (s_positions s) = rsum (fun _ q => claim_in t s q) (s_positions s)).
  { apply rsum_ext. intros [a n] q Hq. rewrite !claim_in_cin, !(G0 _ _ _ Hq). reflexivity. }
  rewrite (cl_positions _ _ _ _ _ _ _ _ _ _ _ C). fold k. fold pos'. rewrite (rsum_update _ _ _ pos) by auto. rewrite F. clear F.
  assert (Hp' : s_pools s' !! k = Some (set_last_timestamp (e_timestamp e) p)) by (rewrite (cl_pools _ _ _ _ _ _ _ _ _ _ _ C); apply lookup_insert).
  assert (U0 : forall b, uncollected b s' pos' = 0).
  { apply (new_uncollected k (set_last_timestamp (e_timestamp e) p) s' pos' (pos_lower pos) (pos_upper pos) (pos_liquidity pos)
      (fun j => if j =? pos_lower pos then t_fee_growth_outside_x tl else t_fee_growth_outside_x tu)
      (fun j => if j =? pos_lower pos then t_fee_growth_outside_y tl else t_fee_growth_outside_y tu) tl' tu' (pos_last_block_number pos)); auto.
    - rewrite ET. apply lookup_insert.
    - rewrite ET, lookup_insert_ne by (intros [= Hx]; lia). apply lookup_insert.
    - apply (I_pool _ I' _ _ Hp').
    - rewrite Z.eqb_refl. auto.
    - rewrite Z.eqb_refl. auto.
    - destruct (Z.eqb_spec (pos_upper pos) (pos_lower pos)); [lia|]. auto.
    - destruct (Z.eqb_spec (pos_upper pos) (pos_lower pos)); [lia|]. auto.
    - intros j. destruct (j =? _); [apply TL|apply TU].
    - intros j. destruct (j =? _); [apply TL|apply TU].
    - unfold pos', inside_x, inside_y. rewrite (to_index _ _ _ _ TL), (to_index _ _ _ _ TU).
      rewrite Z.eqb_refl. destruct (Z.eqb_spec (pos_upper pos) (pos_lower pos)); [lia|]. reflexivity. }
  destruct (fee_covered true s pos p tl tu x I SO Hp HL HU (cl_fee_x _ _ _ _ _ _ _ _ _ _ _ C)) as [_ FX].
  destruct (fee_covered false s pos p tl tu y I SO Hp HL HU (cl_fee_y _ _ _ _ _ _ _ _ _ _ _ C)) as [_ FY].
  assert (HC : forall b, claim b s' pos' = (claim b s pos - IZR (pos_liquidity pos) * IZR (uncollected b s pos) / 10 ^ 33)%R).
  { intros b. rewrite (claim_eq b s' pos' _ Hp'), U0, (claim_eq b s pos p Hp). cbn [set_last_timestamp p_sqrt_price pos' pos_liquidity pos_lower pos_upper].
    unfold Rdiv. rewrite Rmult_0_r. lra. }
  assert (A1 : (claim true s' pos' <= claim true s pos + - IZR x)%R) by (rewrite HC; lra).
  assert (A2 : (claim false s' pos' <= claim false s pos + - IZR y)%R) by (rewrite HC; lra).
  pose proof (cin_le t k _ _ _ _ A1 A2) as A3. rewrite cin_add in A3.
  assert (A4 : cin t k (- IZR x) (- IZR y) = (- cin t k (IZR x) (IZR y))%R) by (unfold cin; destruct (_ =? t), (_ =? t); lra).
  rewrite !claim_in_cin. change (pos_pool_key pos') with k. fold k. rewrite !(G0 _ _ _ Hpos). lra.
Qed.

(** ** Transfers of positions *)

Lemma transfer_rsum (f : position -> R) e s i rc s' r : dense s ->
  transfer_position e s i rc = Ok (s', r) -> rsum (fun _ q => f q) (s_positions s') = rsum (fun _ q => f q) (s_positions s).
Proof.
  intros D H. apply transfer_position_inv in H as (pos & lp & s1 & Hpos & HL & Es1 & ->).
  unfold positions_add. cbn [set_positions s_positions].
  rewrite rsum_insert.
  - rewrite Es1. cbn [set_positions s_positions]. rewrite (removed_rsum f s (e_caller e) i lp pos) by auto. lra.
  - rewrite Es1. unfold positions_get_length. cbn [set_positions s_positions s_positions_length].
    eapply removed_fresh; eauto.
Qed.

(** ** Only the pools, ticks and positions matter *)

Lemma claim_same s s' : s_pools s' = s_pools s -> s_ticks s' = s_ticks s -> forall b pos, claim b s' pos = claim b s pos.
Proof. intros E1 E2 b pos. unfold claim, uncollected, below. rewrite E1, E2. reflexivity. Qed.

Lemma owed_same s s' t : s_pools s' = s_pools s -> s_ticks s' = s_ticks s -> s_positions s' = s_positions s -> owed s' t = owed s t.
Proof.
  intros E1 E2 E3. unfold owed. rewrite E1, E3. f_equal. apply rsum_ext. intros j pos _. rewrite !claim_in_cin, !(claim_same s s') by auto. reflexivity.
Qed.

Lemma owed_transfer e s i rc s' r t : dense s -> transfer_position e s i rc = Ok (s', r) -> owed s' t = owed s t.
Proof.
  intros D H. pose proof (transfer_rsum (claim_in t s) e s i rc s' r D H) as HS.
  apply transfer_position_inv in H as (pos & lp & s1 & _ & _ & E1 & E2).
  assert (P : s_pools s' = s_pools s /\ s_ticks s' = s_ticks s) by (subst s' s1; auto). destruct P as [P T].
  unfold owed. rewrite P. f_equal. rewrite <- HS. apply rsum_ext. intros j q _. rewrite !claim_in_cin, !(claim_same s s') by auto. reflexivity.
Qed.

(** Replacing a pool by one with the same view of prices and growths. *)
Lemma owed_set_pool s k p p' t : s_pools s !! k = Some p ->
  p_sqrt_price p' = p_sqrt_price p -> p_current_tick_index p' = p_current_tick_index p ->
  p_fee_growth_global_x p' = p_fee_growth_global_x p -> p_fee_growth_global_y p' = p_fee_growth_global_y p ->
  owed (set_pools (<[k := p']> (s_pools s)) s) t = (owed s t - IZR (protocol_in t k p) + IZR (protocol_in t k p'))%R.
Proof.
  intros Hp E1 E2 E3 E4. unfold owed. cbn [set_pools s_positions s_pools]. rewrite (protocol_update t s k p p' Hp).
  rewrite plus_IZR, minus_IZR. enough (rsum (fun _ q => claim_in t (set_pools (<[k := p']> (s_pools s)) s) q) (s_positions s) =
    rsum (fun _ q => claim_in t s q) (s_positions s)) as -> by lra.
  apply rsum_ext. intros j q _.
  assert (G : forall b, claim b (set_pools (<[k := p']> (s_pools s)) s) q = claim b s q).
  { intros b. unfold claim, uncollected, below. cbn [set_pools s_pools s_ticks].
    destruct (decide (pos_pool_key q = k)) as [->|Hne].
    - rewrite lookup_insert, Hp, E1. unfold global_growth. rewrite E2, E3, E4. reflexivity.
    - rewrite lookup_insert_ne by congruence. reflexivity. }
  rewrite !claim_in_cin, !G. reflexivity.
Qed.
