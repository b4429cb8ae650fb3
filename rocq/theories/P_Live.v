(** Calls on positions that cannot fail (used by C25 and C34). *)
From Verif Require Import Base Decimal SqrtPriceM LogM ClammM FeeGrowthM Types TickmapM StorageM
  CollectionsM StateM ServiceM Arith SpecMath SpecFees SpecSum SpecState SpecHistory P_Clamm P_Delta P_TickPrice P_Tickmap
  P_Fees P_Balance P_Effects P_Positions P_History P_Loop P_Check P_State P_Iter P_Inv P_InvPos P_PosOps P_Active.
From stdpp Require Import gmap list.
From Coq Require Import ZArith Lia Bool.
Open Scope Z_scope.

Lemma max_per_tick_ok sp : 1 <= sp <= 100 -> calculate_max_liquidity_per_tick sp = Ok (max_per_tick sp).
Proof.
  intros H. unfold calculate_max_liquidity_per_tick, max_per_tick. change (2 * MAX_TICK + 1) with 443637.
  change (M256 - 1) with (2 ^ 256 - 1).
  rewrite checked_div_ok by lia. cbn [expect bind].
  rewrite checked_div_ok; [reflexivity|]. pose proof (Z.div_le_lower_bound 443637 sp 4436). lia.
Qed.

Lemma to_fee_0 L : u256 L -> to_fee 0 L = Ok 0.
Proof.
  intros HL%u256_M. unfold to_fee. rewrite checked_mul_ok by (rewrite Z.mul_0_l; reflexivity).
  rewrite Z.mul_0_l. reflexivity.
Qed.

Lemma to_fee_ok g L : u128 g -> u256 L -> g * L / E33 < M256 -> to_fee g L = Ok (g * L / E33).
Proof.
  intros Hg%u128_M HL%u256_M H. unfold to_fee.
  assert (g * L < M384).
  { apply Z.le_lt_trans with ((M128 - 1) * (M256 - 1)); [|reflexivity].
    pose proof (mul_bound g L (M128 - 1) (M256 - 1)). lia. }
  rewrite checked_mul_ok by auto. cbn [ok_or bind].
  rewrite checked_div_ok by (unfold LIQUIDITY_ONE; lia). cbn [ok_or bind].
  rewrite checked_div_ok by (unfold FEE_GROWTH_ONE; lia). cbn [ok_or bind].
  rewrite div_div by reflexivity. change (LIQUIDITY_ONE * FEE_GROWTH_ONE) with E33.
  rewrite checked_cast_ok by auto. reflexivity.
Qed.

Lemma unchecked_sub_self a : u128 a -> unchecked_sub a a = 0.
Proof. intros H. rewrite unchecked_sub_wrap by auto. rewrite Z.sub_diag. reflexivity. Qed.

(** ** Updating a tick *)

(** Re-writing a tick without changing liquidity. *)
Lemma tick_update_zero_ok t mx up : 0 <= t_liquidity_change t < M256 ->
  0 <= t_liquidity_gross t < mx -> mx <= M256 ->
  exists t', tick_update t 0 mx up true = Ok t'.
Proof.
  intros Hc Hg Hm. unfold tick_update, tick_new_liquidity_gross. cbn [negb andb fail_if bind].
  unfold dec_checked_add. rewrite checked_add_ok by lia. cbn [ok_or bind].
  rewrite Z.add_0_r. destruct (Z.leb_spec mx (t_liquidity_gross t)); [lia|]. cbn [fail_if bind].
  unfold tick_new_liquidity_change, dec_sub, dec_add. destruct (xorb (t_sign t) _).
  - destruct (Z.ltb_spec 0 (t_liquidity_change t)).
    + rewrite checked_sub_ok by lia. cbn [expect bind]. eauto.
    + rewrite checked_sub_ok by lia. cbn [expect bind]. eauto.
  - rewrite checked_add_ok by lia. cbn [expect bind]. eauto.
Qed.

(** Taking liquidity out of a tick. *)
Lemma tick_update_take_ok t d mx up : 0 <= t_liquidity_change t < M256 -> 0 <= d -> d <= t_liquidity_gross t ->
  Z.abs (t_net t + (if up : bool then d else - d)) < M256 ->
  exists t', tick_update t d mx up false = Ok t'.
Proof.
  intros Hc Hd Hg Hn. unfold tick_update, tick_new_liquidity_gross.
  destruct (Z.ltb_spec (t_liquidity_gross t) d); [lia|]. cbn [negb andb fail_if bind].
  unfold dec_checked_sub. rewrite checked_sub_ok by lia. cbn [ok_or bind].
  unfold tick_new_liquidity_change, dec_sub, dec_add. unfold t_net in Hn.
  destruct (t_sign t), up; cbn [xorb].
  - rewrite checked_add_ok by lia. cbn [expect bind]. eauto.
  - destruct (Z.ltb_spec d (t_liquidity_change t)); rewrite checked_sub_ok by lia; cbn [expect bind]; eauto.
  - destruct (Z.ltb_spec d (t_liquidity_change t)); rewrite checked_sub_ok by lia; cbn [expect bind]; eauto.
  - rewrite checked_add_ok by lia. cbn [expect bind]. eauto.
Qed.

(** Leaving out one position, the net liquidity of a tick is bounded by the gross liquidity. *)
Lemma net_without s k i a n pos : Inv s -> s_positions s !! (a, n) = Some pos ->
  Z.abs (net_at s k i - net_of k i pos) <= gross_at s k i - gross_of k i pos.
Proof.
  intros I H.
  assert (B : forall j q, s_positions s !! j = Some q -> Z.abs (net_of k i q) <= gross_of k i q).
  { intros [b m] q Hq. pose proof (pos_nonneg _ _ _ _ I Hq). pose proof (so_lt _ _ (I_pos _ I _ _ _ Hq)).
    unfold net_of, gross_of. destruct (bool_decide _); cbn [andb]; [|lia].
    destruct (Z.eqb_spec (pos_lower q) i), (Z.eqb_spec (pos_upper q) i); cbn [orb]; lia. }
  pose proof (msum_ge_one (fun q => gross_of k i q + net_of k i q) (s_positions s) (a, n) pos) as H1.
  pose proof (msum_ge_one (fun q => gross_of k i q - net_of k i q) (s_positions s) (a, n) pos) as H2.
  rewrite msum_add in H1. rewrite msum_sub in H2. fold (gross_at s k i) (net_at s k i) in *.
  enough (gross_of k i pos + net_of k i pos <= gross_at s k i + net_at s k i /\
          gross_of k i pos - net_of k i pos <= gross_at s k i - net_at s k i) by lia.
  split; [apply H1|apply H2]; auto; intros j q Hq; specialize (B j q Hq); lia.
Qed.

(** ** The amounts of a change of liquidity *)
Lemma amount_delta_ok cur p L sg up lo : valid_tick lo -> valid_tick up -> lo <= up -> price_in_range p -> u256 L ->
  exists x y, calculate_amount_delta cur p L sg up lo = Ok (x, y, in_range lo up cur).
Proof.
  intros Hl Hu Hlu Hp HL. unfold calculate_amount_delta, in_range.
  destruct (Z.ltb_spec up lo); [lia|]. rewrite !calculate_sqrt_price_valid by auto. cbn [bind].
  pose proof (price_range _ Hl). pose proof (price_range _ Hu).
  destruct (Z.ltb_spec cur lo).
  - destruct (delta_success (price lo) (price up) L sg) as [[x ->] _]; auto. cbn [bind].
    destruct (Z.leb_spec lo cur); [lia|]. cbn [andb]. eauto.
  - destruct (Z.leb_spec lo cur); [|lia]. cbn [andb]. destruct (Z.ltb_spec cur up).
    + destruct (delta_success p (price up) L sg) as [[x ->] _]; auto. cbn [bind].
      destruct (delta_success (price lo) p L sg) as [_ [y ->]]; auto. cbn [bind]. eauto.
    + destruct (delta_success (price lo) (price up) L sg) as [_ [y ->]]; auto. cbn [bind]. eauto.
Qed.

(** ** Modifying a position *)

Lemma max_per_tick_le sp : 1 <= sp <= 100 -> max_per_tick sp <= M256.
Proof.
  intros H. unfold max_per_tick. change M256 with (2 ^ 256). pose proof (Z.div_le_lower_bound 443637 sp 4436).
  apply Z.div_le_upper_bound; nia.
Qed.

Section Modify.
  Context (s : state) (a n : Z) (pos : position) (p : pool) (tl tu : tick).
  Hypothesis I : Inv s.
  Hypothesis G : gross_bound s.
  Hypothesis Hpos : s_positions s !! (a, n) = Some pos.
  Hypothesis Hp : s_pools s !! pos_pool_key pos = Some p.
  Hypothesis Hl : s_ticks s !! (pos_pool_key pos, pos_lower pos) = Some tl.
  Hypothesis Hu : s_ticks s !! (pos_pool_key pos, pos_upper pos) = Some tu.
  Context (ox oy : Z).
  Hypothesis Hox : to_fee (unchecked_sub (inside_x p tl tu) (pos_fee_growth_inside_x pos)) (pos_liquidity pos) = Ok ox.
  Hypothesis Hoy : to_fee (unchecked_sub (inside_y p tl tu) (pos_fee_growth_inside_y pos)) (pos_liquidity pos) = Ok oy.

  Let k := pos_pool_key pos.

  Lemma modify_ok d add ts tl' tu' :
    tick_update tl d (max_per_tick (pk_spacing k)) false add = Ok tl' ->
    tick_update tu d (max_per_tick (pk_spacing k)) true add = Ok tu' ->
    (d = 0 \/ d = pos_liquidity pos) -> (add = true -> d = 0) ->
    (d = 0 \/ (in_range (pos_lower pos) (pos_upper pos) (p_current_tick_index p) = true -> d <= p_liquidity p)) ->
    exists pos' p' xy, position_modify pos p tu tl d add ts (pk_spacing k) = Ok (pos', p', tu', tl', xy).
  Proof using I G Hpos Hp Hl Hu Hox Hoy.
    intros T1 T2 Hd Hadd Hpl.
    pose proof (I_pos _ I _ _ _ Hpos) as SO. pose proof (I_pool _ I _ _ Hp) as PO.
    destruct (I_tick _ I _ _ _ Hl) as [_ TO1]. destruct (I_tick _ I _ _ _ Hu) as [_ TO2].
    unfold position_modify. rewrite max_per_tick_ok by apply (pool_spacing _ _ PO). cbn [bind].
    rewrite T1. cbn [bind]. rewrite T2. cbn [bind].
    apply tick_update_inv in T1 as (E1 & _ & E2 & E3 & _). apply tick_update_inv in T2 as (F1 & _ & F2 & F3 & _).
    rewrite E1, E2, E3, F1, F2, F3. cbn [set_last_timestamp p_current_tick_index p_fee_growth_global_x p_fee_growth_global_y].
    unfold calculate_fee_growth_inside. fold (inside_x p tl tu) (inside_y p tl tu).
    assert (HL : 0 < pos_liquidity pos < M256) by apply SO.
    assert (u256 (pos_liquidity pos)) by (apply u256_I; lia).
    assert (PU : exists pos', position_update pos add d (inside_x p tl tu) (inside_y p tl tu) = Ok pos').
    { unfold position_update. destruct (Z.eqb_spec (pos_liquidity pos) 0); [lia|]. rewrite andb_false_r. cbn [fail_if bind].
      rewrite Hox, Hoy. cbn [bind]. unfold position_new_liquidity.
      destruct (Z.ltb_spec (pos_liquidity pos) d); [lia|]. rewrite andb_false_r. cbn [fail_if bind].
      assert (PL : exists l, (if add then dec_checked_add M256 (pos_liquidity pos) d else dec_checked_sub (pos_liquidity pos) d) = Ok l).
      { destruct add; unfold dec_checked_add, dec_checked_sub.
        - rewrite Hadd by reflexivity. rewrite checked_add_ok by lia. eauto.
        - rewrite checked_sub_ok by lia. eauto. }
      destruct PL as [l ->]. cbn [bind]. rewrite (so_ox _ _ SO), (so_oy _ _ SO).
      assert (IX : u128 (inside_x p tl tu)) by (apply inside_u128; [apply TO1|apply TO2|apply PO]).
      assert (IY : u128 (inside_y p tl tu)) by (apply inside_u128; [apply TO1|apply TO2|apply PO]).
      apply to_fee_inv in Hox as [_ BX%u256_M]; [|apply unchecked_sub_u128; [auto|apply SO]|auto].
      apply to_fee_inv in Hoy as [_ BY%u256_M]; [|apply unchecked_sub_u128; [auto|apply SO]|auto].
      unfold dec_add. rewrite !checked_add_ok by lia. cbn [expect bind]. eauto. }
    destruct PU as [pos' ->]. cbn [bind].
    unfold pool_update_liquidity. cbn [set_last_timestamp p_current_tick_index p_sqrt_price p_liquidity].
    rewrite (to_index _ _ _ _ TO1), (to_index _ _ _ _ TO2).
    destruct (amount_delta_ok (p_current_tick_index p) (p_sqrt_price p) d add (pos_upper pos) (pos_lower pos)) as (x & y & ->).
    { apply TO1. } { apply TO2. } { pose proof (so_lt _ _ SO). lia. } { apply PO. } { apply u256_I. destruct Hd as [->| ->]; lia. }
    cbn [bind]. destruct (in_range _ _ _) eqn:ER; cbn [negb].
    - destruct add; unfold dec_checked_add, dec_checked_sub.
      + rewrite Hadd by reflexivity. pose proof (u256_M _ (po_liq _ _ PO)).
        rewrite checked_add_ok by lia. cbn [ok_or bind]. eauto.
      + pose proof (u256_M _ (po_liq _ _ PO)). assert (d <= p_liquidity p) by (destruct Hpl; [lia|auto]).
        rewrite checked_sub_ok by lia. cbn [ok_or bind]. eauto.
    - cbn [bind]. eauto.
  Qed.

  Lemma claim_ticks_ok : exists tl' tu',
    tick_update tl 0 (max_per_tick (pk_spacing k)) false true = Ok tl' /\
    tick_update tu 0 (max_per_tick (pk_spacing k)) true true = Ok tu'.
  Proof using I G Hpos Hp Hl Hu.
    pose proof (I_pool _ I _ _ Hp) as PO. pose proof (pool_spacing _ _ PO) as Hs.
    destruct (I_tick _ I _ _ _ Hl) as [_ TO1]. destruct (I_tick _ I _ _ _ Hu) as [_ TO2].
    assert (X : forall i t up, tick_ok s k i t -> exists t', tick_update t 0 (max_per_tick (pk_spacing k)) up true = Ok t').
    { intros i t up T. apply tick_update_zero_ok.
      - apply u256_M, T.
      - rewrite (to_gross _ _ _ _ T). split; [apply gross_at_nonneg; auto|]. apply G. unfold k. rewrite Hp. discriminate.
      - apply max_per_tick_le. auto. }
    destruct (X _ tl false TO1) as [tl' ?]. destruct (X _ tu true TO2) as [tu' ?]. eauto.
  Qed.

  Lemma remove_ticks_ok : exists tl' tu',
    tick_update tl (pos_liquidity pos) (max_per_tick (pk_spacing k)) false false = Ok tl' /\
    tick_update tu (pos_liquidity pos) (max_per_tick (pk_spacing k)) true false = Ok tu'.
  Proof using I G Hpos Hp Hl Hu.
    pose proof (I_pos _ I _ _ _ Hpos) as SO. pose proof (so_liq _ _ SO). pose proof (so_lt _ _ SO).
    pose proof (I_pool _ I _ _ Hp) as PO. pose proof (pool_spacing _ _ PO) as Hs.
    destruct (I_tick _ I _ _ _ Hl) as [_ TO1]. destruct (I_tick _ I _ _ _ Hu) as [_ TO2].
    pose proof (max_per_tick_le _ Hs).
    assert (GB : forall i, gross_at s k i < M256) by (intros i; apply Z.lt_le_trans with (max_per_tick (pk_spacing k)); [apply G; unfold k; rewrite Hp; discriminate|auto]).
    destruct (tick_update_take_ok tl (pos_liquidity pos) (max_per_tick (pk_spacing k)) false) as [tl' ?].
    { apply u256_M, TO1. } { lia. }
    { rewrite (to_gross _ _ _ _ TO1). apply (gross_at_ge s _ _ a n); auto. }
    { rewrite (to_net _ _ _ _ TO1). pose proof (net_without s k (pos_lower pos) a n pos I Hpos) as N.
      pose proof (GB (pos_lower pos)). unfold net_of at 1, gross_of in N. rewrite bool_decide_eq_true_2 in N by reflexivity. rewrite Z.eqb_refl in N. cbn [andb orb] in N.
      destruct (Z.eqb_spec (pos_upper pos) (pos_lower pos)); [lia|]. unfold k in *. lia. }
    destruct (tick_update_take_ok tu (pos_liquidity pos) (max_per_tick (pk_spacing k)) true) as [tu' ?].
    { apply u256_M, TO2. } { lia. }
    { rewrite (to_gross _ _ _ _ TO2). apply (gross_at_ge s _ _ a n); auto. }
    { rewrite (to_net _ _ _ _ TO2). pose proof (net_without s k (pos_upper pos) a n pos I Hpos) as N.
      pose proof (GB (pos_upper pos)). unfold net_of at 1, gross_of in N. rewrite bool_decide_eq_true_2 in N by reflexivity. rewrite Z.eqb_refl in N.
      rewrite orb_true_r in N. cbn [andb] in N.
      destruct (Z.eqb_spec (pos_lower pos) (pos_upper pos)); [lia|]. unfold k in *. lia. }
    eauto.
  Qed.
End Modify.

(** ** Balances *)
Lemma increase_two_ok s X Y u x y : 0 <= x -> 0 <= y -> X <> Y ->
  bal s u X + x < M256 -> bal s u Y + y < M256 ->
  exists s1 s2, increase_token_balance s X u x = Ok s1 /\ increase_token_balance s1 Y u y = Ok s2.
Proof.
  intros Hx Hy Hn H1 H2. destruct (increase_ok s X u x H1) as [s1 E1].
  pose proof (increase_spec _ _ _ _ _ E1) as (_ & B & _).
  destruct (increase_ok s1 Y u y) as [s2 E2].
  { rewrite B. unfold at_. rewrite Z.eqb_refl. destruct (Z.eqb_spec Y X); [congruence|]. cbn [andb]. lia. }
  eauto.
Qed.

(** ** Claiming *)
Lemma claim_fee_ok e s i pos p tl tu x y : Inv s -> gross_bound s ->
  s_positions s !! (e_caller e, i) = Some pos ->
  s_pools s !! pos_pool_key pos = Some p ->
  s_ticks s !! (pos_pool_key pos, pos_lower pos) = Some tl ->
  s_ticks s !! (pos_pool_key pos, pos_upper pos) = Some tu ->
  to_fee (unchecked_sub (inside_x p tl tu) (pos_fee_growth_inside_x pos)) (pos_liquidity pos) = Ok x ->
  to_fee (unchecked_sub (inside_y p tl tu) (pos_fee_growth_inside_y pos)) (pos_liquidity pos) = Ok y ->
  bal s (e_caller e) (pk_token_x (pos_pool_key pos)) + x < M256 ->
  bal s (e_caller e) (pk_token_y (pos_pool_key pos)) + y < M256 ->
  exists s', claim_fee e s i = Ok (s', (x, y)).
Proof.
  intros I G Hpos Hp Hl Hu Hx Hy Bx By.
  pose proof (I_pos _ I _ _ _ Hpos) as SO. pose proof (I_pool _ I _ _ Hp) as PO.
  destruct (I_tick _ I _ _ _ Hl) as [_ TO1]. destruct (I_tick _ I _ _ _ Hu) as [_ TO2].
  destruct (claim_ticks_ok s _ _ pos p tl tu I G Hpos Hp Hl Hu) as (tl' & tu' & T1 & T2).
  destruct (modify_ok s _ _ pos p tl tu I G Hpos Hp Hl Hu x y Hx Hy 0 true (e_timestamp e) tl' tu' T1 T2) as (pos' & p' & [dx dy] & M); auto.
  pose proof (position_modify_facts s pos p tu tl _ _ _ _ _ _ _ _ _ TO1 TO2 SO M)
    as (mx & u & ox & oy & _ & _ & _ & O1 & O2 & EP & _ & _ & _ & _ & I1 & I2).
  assert (ox = x) by congruence. assert (oy = y) by congruence. subst ox oy.
  assert (Hi : 0 <= i < positions_get_length s (e_caller e)).
  { apply (proj2 (I_dense _ I (e_caller e))). eauto. }
  assert (NN : 0 <= x /\ 0 <= y).
  { assert (u256 (pos_liquidity pos)) by (apply u256_I; pose proof (so_liq _ _ SO); lia).
    apply to_fee_inv in Hx as [_ ?%u256_M]; auto.
    - apply to_fee_inv in Hy as [_ ?%u256_M]; auto; [lia|].
      apply unchecked_sub_u128; [apply inside_u128; [apply TO1|apply TO2|apply PO]|apply SO].
    - apply unchecked_sub_u128; [apply inside_u128; [apply TO1|apply TO2|apply PO]|apply SO]. }
  unfold claim_fee. unfold positions_get. rewrite Hpos. cbn [ok_or bind]. unfold ticks_get at 1. rewrite Hl. cbn [ok_or bind].
  unfold ticks_get at 1. rewrite Hu. cbn [ok_or bind]. unfold pools_get at 1. rewrite Hp. cbn [ok_or bind].
  unfold position_claim_fee. rewrite M. cbn [unwrap bind]. subst pos'. cbn [pos_tokens_owed_x pos_tokens_owed_y].
  cbn [pos_pool_key pos_lower pos_upper].
  unfold positions_update. destruct (Z.leb_spec (positions_get_length s (e_caller e)) i); [lia|]. cbn [fail_if bind].
  unfold pools_update, pools_get. cbn [set_positions s_pools]. rewrite Hp. cbn [ok_or bind].
  rewrite I1, I2. unfold ticks_update at 1, ticks_get at 1. cbn [set_positions set_pools s_ticks]. rewrite Hu. cbn [ok_or bind].
  unfold ticks_update, ticks_get. cbn [set_positions set_pools set_ticks s_ticks].
  rewrite lookup_insert_ne by (intros [= ?]; pose proof (so_lt _ _ SO); lia). rewrite Hl. cbn [ok_or bind].
  match goal with |- context [increase_token_balance ?s0 ?X ?u ?v] =>
    destruct (increase_two_ok s0 X (pk_token_y (pos_pool_key pos)) u x y) as (s1 & s2 & E1 & E2) end; try tauto.
  { pose proof (po_tokens _ _ PO). lia. }
  rewrite E1. cbn [bind]. rewrite E2. cbn [bind]. eauto.
Qed.

(** ** Closing *)
Lemma remove_position_ok e s i pos p tl tu ox oy dx dy : Inv s -> gross_bound s ->
  s_positions s !! (e_caller e, i) = Some pos ->
  s_pools s !! pos_pool_key pos = Some p ->
  s_ticks s !! (pos_pool_key pos, pos_lower pos) = Some tl ->
  s_ticks s !! (pos_pool_key pos, pos_upper pos) = Some tu ->
  to_fee (unchecked_sub (inside_x p tl tu) (pos_fee_growth_inside_x pos)) (pos_liquidity pos) = Ok ox ->
  to_fee (unchecked_sub (inside_y p tl tu) (pos_fee_growth_inside_y pos)) (pos_liquidity pos) = Ok oy ->
  calculate_amount_delta (p_current_tick_index p) (p_sqrt_price p) (pos_liquidity pos) false (pos_upper pos) (pos_lower pos)
     = Ok (dx, dy, in_range (pos_lower pos) (pos_upper pos) (p_current_tick_index p)) ->
  0 <= dx -> 0 <= dy ->
  (in_range (pos_lower pos) (pos_upper pos) (p_current_tick_index p) = true -> pos_liquidity pos <= p_liquidity p) ->
  bal s (e_caller e) (pk_token_x (pos_pool_key pos)) + (dx + ox) < M256 ->
  bal s (e_caller e) (pk_token_y (pos_pool_key pos)) + (dy + oy) < M256 ->
  dx + ox < M256 -> dy + oy < M256 ->
  exists s', remove_position e s i = Ok (s', (dx + ox, dy + oy)).
Proof.
  intros I G Hpos Hp Hl Hu Hx Hy Had Hdx Hdy Hliq Bx By Fx Fy.
  pose proof (I_pos _ I _ _ _ Hpos) as SO. pose proof (I_pool _ I _ _ Hp) as PO.
  pose proof (pool_spacing _ _ PO) as Hs.
  destruct (I_tick _ I _ _ _ Hl) as [_ TO1]. destruct (I_tick _ I _ _ _ Hu) as [_ TO2].
  destruct (remove_ticks_ok s _ _ pos p tl tu I G Hpos Hp Hl Hu) as (tl' & tu' & T1 & T2).
  destruct (modify_ok s _ _ pos p tl tu I G Hpos Hp Hl Hu ox oy Hx Hy (pos_liquidity pos) false (e_timestamp e) tl' tu' T1 T2)
    as (pos' & p' & [dx' dy'] & M); auto; [discriminate|].
  pose proof (position_modify_facts s pos p tu tl _ _ _ _ _ _ _ _ _ TO1 TO2 SO M)
    as (mx & u & ox' & oy' & _ & _ & _ & O1 & O2 & EP & AD & _ & _ & _ & I1 & I2).
  assert (ox' = ox) by congruence. assert (oy' = oy) by congruence. subst ox' oy'.
  rewrite Had in AD. injection AD as <- <- _.
  assert (NN : 0 <= ox /\ 0 <= oy).
  { assert (u256 (pos_liquidity pos)) by (apply u256_I; pose proof (so_liq _ _ SO); lia).
    apply to_fee_inv in Hx as [_ ?%u256_M]; auto.
    - apply to_fee_inv in Hy as [_ ?%u256_M]; auto; [lia|].
      apply unchecked_sub_u128; [apply inside_u128; [apply TO1|apply TO2|apply PO]|apply SO].
    - apply unchecked_sub_u128; [apply inside_u128; [apply TO1|apply TO2|apply PO]|apply SO]. }
  unfold remove_position. unfold positions_get at 1. rewrite Hpos. cbn [ok_or bind]. unfold ticks_get at 1. rewrite Hl. cbn [ok_or bind].
  unfold ticks_get at 1. rewrite Hu. cbn [ok_or bind]. unfold pools_get at 1. rewrite Hp. cbn [ok_or bind].
  unfold position_remove. rewrite M. cbn [unwrap bind]. subst pos'. cbn [pos_tokens_owed_x pos_tokens_owed_y].
  unfold dec_add. rewrite !checked_add_ok by lia. cbn [expect bind].
  unfold pools_update, pools_get. rewrite Hp. cbn [ok_or bind].
  set (k := pos_pool_key pos) in *. set (s1 := set_pools (<[k := p']> (s_pools s)) s).
  assert (okl : okt (pk_spacing k) (pos_lower pos)) by apply TO1.
  assert (oku : okt (pk_spacing k) (pos_upper pos)) by apply TO2.
  assert (HNE : tidx (pk_spacing k) (pos_lower pos) <> tidx (pk_spacing k) (pos_upper pos)).
  { intros E. pose proof (so_lt _ _ SO). apply (tidx_inj (pk_spacing k)) in E; auto; lia. }
  assert (MU : mem (s_bitmap s) k (tidx (pk_spacing k) (pos_upper pos)) = true) by (apply (I_bit2 _ I); eauto).
  assert (S2 : exists T b, (if t_liquidity_gross tl' =? 0 then remove_tick s1 k tl' else ticks_update s1 k (pos_lower pos) tl')
      = Ok (set_bitmap b (set_ticks T s1)) /\ T !! (k, pos_upper pos) = Some tu /\
        mem b k (tidx (pk_spacing k) (pos_upper pos)) = true).
  { destruct (Z.eqb_spec (t_liquidity_gross tl') 0) as [EZ|EZ].
    - unfold remove_tick. rewrite EZ. cbn [Z.eqb negb fail_if bind]. rewrite I1.
      pose proof (tickmap_flip_spec (s_bitmap s) k (pk_spacing k) (pos_lower pos) false) as F.
      assert (ML : mem (s_bitmap s) k (tidx (pk_spacing k) (pos_lower pos)) = true) by (apply (I_bit2 _ I); eauto).
      rewrite ML in F. cbn [Bool.eqb] in F. destruct F as (b & F1 & _ & F2); [lia|auto|].
      change (s_bitmap s1) with (s_bitmap s). rewrite F1. cbn [bind]. unfold ticks_remove, ticks_get.
      cbn [set_bitmap s_ticks]. change (s_ticks s1) with (s_ticks s). rewrite Hl. cbn [ok_or bind].
      exists (delete (k, pos_lower pos) (s_ticks s)), b. split; [reflexivity|]. split.
      + rewrite lookup_delete_ne by (intros [= ?]; pose proof (so_lt _ _ SO); lia). auto.
      + rewrite F2. destruct (decide _) as [[? _]|]; [exfalso; congruence|auto].
    - unfold ticks_update, ticks_get. change (s_ticks s1) with (s_ticks s). rewrite Hl. cbn [ok_or bind].
      exists (<[(k, pos_lower pos) := tl']> (s_ticks s)), (s_bitmap s). split; [reflexivity|]. split; [|auto].
      rewrite lookup_insert_ne by (intros [= ?]; pose proof (so_lt _ _ SO); lia). auto. }
  destruct S2 as (T & b & -> & ST & SB). cbn [bind].
  assert (S3 : exists T' b', (if t_liquidity_gross tu' =? 0 then remove_tick (set_bitmap b (set_ticks T s1)) k tu'
       else ticks_update (set_bitmap b (set_ticks T s1)) k (pos_upper pos) tu') = Ok (set_bitmap b' (set_ticks T' s1))).
  { destruct (Z.eqb_spec (t_liquidity_gross tu') 0) as [EZ|EZ].
    - unfold remove_tick. rewrite EZ. cbn [Z.eqb negb fail_if bind]. rewrite I2.
      pose proof (tickmap_flip_spec b k (pk_spacing k) (pos_upper pos) false) as F.
      rewrite SB in F. cbn [Bool.eqb] in F. destruct F as (b' & F1 & _ & F2); [lia|auto|].
      cbn [set_bitmap s_bitmap]. rewrite F1. cbn [bind]. unfold ticks_remove, ticks_get.
      cbn [set_bitmap set_ticks s_ticks]. rewrite ST. cbn [ok_or bind]. do 2 eexists. reflexivity.
    - unfold ticks_update, ticks_get. cbn [set_bitmap set_ticks s_ticks]. rewrite ST. cbn [ok_or bind].
      exists (<[(k, pos_upper pos) := tu']> T), b. reflexivity. }
  destruct S3 as (T' & b' & ->). cbn [bind].
  set (s3 := set_bitmap b' (set_ticks T' s1)).
  assert (S4 : exists m n, positions_remove s3 (e_caller e) i = Ok (set_positions n m s3, pos)).
  { unfold positions_remove, positions_get. change (s_positions s3) with (s_positions s). rewrite Hpos. cbn [ok_or bind].
    change (positions_get_length s3 (e_caller e)) with (positions_get_length s (e_caller e)).
    assert (Hi : 0 <= i < positions_get_length s (e_caller e)).
    { apply (proj2 (I_dense _ I (e_caller e))). eauto. }
    pose proof (proj1 (I_dense _ I (e_caller e))).
    rewrite Z.mod_small by lia. destruct (Z.ltb_spec i (positions_get_length s (e_caller e) - 1)).
    - destruct (proj2 (proj2 (I_dense _ I (e_caller e)) (positions_get_length s (e_caller e) - 1))) as [lp ->]; [lia|].
      cbn [expect bind]. do 2 eexists. reflexivity.
    - cbn [bind]. do 2 eexists. reflexivity. }
  destruct S4 as (m & n & ->). cbn [bind].
  destruct (increase_two_ok (set_positions n m s3) (pk_token_x k) (pk_token_y k) (e_caller e) (dx + ox) (dy + oy)) as (s5 & s6 & E1 & E2); try lia.
  { pose proof (po_tokens _ _ PO). lia. } { exact Bx. } { exact By. }
  rewrite E1. cbn [bind]. rewrite E2. cbn [bind]. eauto.
Qed.
