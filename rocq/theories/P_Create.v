(** When creating a position succeeds. *)
From Verif Require Import Base Decimal SqrtPriceM LogM ClammM FeeGrowthM Types TickmapM StorageM
  CollectionsM StateM ServiceM LiquidityM Arith SpecMath SpecFees SpecSum SpecState SpecHistory SpecCost
  P_Clamm P_Delta P_TickPrice P_Tickmap P_Fees P_Balance P_Effects P_Positions P_History P_Loop P_Check P_State P_Iter
  P_Inv P_InvPos P_PosOps P_Active P_Live P_Quote P_Liq P_LiqCharge.
From stdpp Require Import gmap list.
From Coq Require Import ZArith Lia Bool.
Open Scope Z_scope.

(** ** The amounts, in terms of prices *)

Lemma up_div_cdiv n d : 0 < d -> up_div n d = cdiv n d.
Proof.
  intros Hd. symmetry. apply cdiv_unique; [auto|]. unfold up_div. pose proof (div_bounds (- n) d Hd). lia.
Qed.

Section Amounts.
  Context (k : pool_key) (p : pool) (PO : pool_ok k p).
  Context (lo up : Z) (Vl : okt (pk_spacing k) lo) (Vu : okt (pk_spacing k) up) (Hlu : lo < up).
  Let c := p_current_tick_index p.
  Let q := into_range (price lo) (price up) (p_sqrt_price p).

  Lemma place_facts : price lo < price up /\ price_in_range (price lo) /\ price_in_range (price up) /\
    price_in_range q /\ price lo <= q <= price up /\
    (c < lo -> q = price lo) /\ (lo <= c < up -> q = p_sqrt_price p) /\ (up <= c -> q = price up).
  Proof using PO Vl Vu Hlu.
    pose proof (pool_spacing _ _ PO) as Hs. destruct Vl as [Vl1 Vl2], Vu as [Vu1 Vu2].
    assert (V1 : valid_tick lo) by (unfold valid_tick; lia). assert (V2 : valid_tick up) by (unfold valid_tick; lia).
    destruct (po_tick _ _ PO) as [C1 C2]. fold c in C1, C2. assert (V3 : valid_tick c) by (unfold valid_tick; lia).
    pose proof (po_lo _ _ PO) as Q1. fold c in Q1. pose proof (po_up _ _ PO) as Q2. fold c in Q2.
    pose proof (po_range _ _ PO) as Q3. pose proof (price_lt _ _ V1 V2 Hlu) as PL.
    pose proof (price_range _ V1) as R1. pose proof (price_range _ V2) as R2.
    assert (N : forall i, valid_tick i -> (pk_spacing k | i) -> c < i -> p_sqrt_price p <= price i).
    { intros i Vi Di Hi. assert (c + pk_spacing k <= i) by (apply next_multiple; auto; lia).
      assert (valid_tick (c + pk_spacing k)) by (unfold valid_tick in *; lia).
      eapply Z.le_trans; [apply Q2; auto|]. apply price_le; auto. }
    assert (M : forall i, valid_tick i -> i <= c -> price i <= p_sqrt_price p).
    { intros i Vi Hi. eapply Z.le_trans; [apply price_le; [| |exact Hi]; auto|auto]. }
    unfold q, into_range. split; [exact PL|]. split; [exact R1|]. split; [exact R2|].
    split; [unfold price_in_range in *; lia|]. split; [lia|].
    split; [intros H; pose proof (N lo V1 Vl2 H); lia|].
    split; [intros [H1 H2]; pose proof (M lo V1 H1); pose proof (N up V2 Vu2 H2); lia|].
    intros H; pose proof (M up V2 H); lia.
  Qed.

  Lemma amounts_charged L : u256 L ->
    calculate_amount_delta c (p_sqrt_price p) L true up lo
      = Ok (charge_x L q (price up), charge_y L (price lo) q, in_range lo up c).
  Proof using PO Vl Vu Hlu.
    intros HL. destruct place_facts as (PL & R1 & R2 & R3 & Q & K1 & K2 & K3).
    destruct (amount_delta_ok c (p_sqrt_price p) L true up lo) as (x & y & E).
    { apply Vl. } { apply Vu. } { lia. } { apply PO. } { auto. }
    rewrite E. f_equal. f_equal.
    apply range_wide in R1 as W1, R2 as W2, R3 as W3.
    assert (X : charge_x L q (price up) = cdiv (dx_nom q (price up) L) (dx_den q (price up))).
    { unfold charge_x, dx_nom, dx_den. rewrite up_div_cdiv.
      - rewrite Z.abs_neq, Z.mul_comm by lia. repeat f_equal; lia.
      - pose proof (dx_den_pos _ _ W3 W2). unfold dx_den in *. change SQRT_PRICE_ONE with (10 ^ 24) in *. lia. }
    assert (Y : charge_y L (price lo) q = cdiv (Z.abs (price lo - q) * L) E29).
    { unfold charge_y. rewrite up_div_cdiv by reflexivity. rewrite Z.abs_neq by lia. rewrite Z.mul_comm. f_equal. f_equal. lia. }
    assert (X0 : q = price up -> charge_x L q (price up) = 0).
    { intros Eq. rewrite X, Eq, dx_nom_self. apply cdiv_zero. pose proof (dx_den_pos _ _ W2 W2). lia. }
    assert (Y0 : q = price lo -> charge_y L (price lo) q = 0).
    { intros Eq. rewrite Y, Eq, Z.sub_diag. reflexivity. }
    unfold calculate_amount_delta in E. destruct (Z.ltb_spec up lo); [lia|].
    rewrite !calculate_sqrt_price_valid in E by (apply Vl || apply Vu). cbn [bind] in E.
    destruct (Z.ltb_spec c lo) as [G1|G1].
    - specialize (K1 G1). rewrite get_delta_x_up_eq in E by auto. cbn [bind] in E. injection E as <- <- _.
      rewrite Y0 by auto. rewrite X, K1. reflexivity.
    - destruct (Z.ltb_spec c up) as [G2|G2].
      + specialize (K2 (conj G1 G2)). rewrite <- K2, get_delta_x_up_eq, get_delta_y_up_ok in E by auto. cbn [bind] in E.
        injection E as <- <- _. rewrite X, Y. reflexivity.
      + specialize (K3 G2). rewrite get_delta_y_up_ok in E by auto. cbn [bind] in E. injection E as <- <- _.
        rewrite X0 by auto. rewrite Y, K3. reflexivity.
  Qed.

  Lemma amounts_returned L : u256 L ->
    calculate_amount_delta c (p_sqrt_price p) L false up lo
      = Ok (worth_x L q (price up), worth_y L (price lo) q, in_range lo up c).
  Proof using PO Vl Vu Hlu.
    intros HL. destruct place_facts as (PL & R1 & R2 & R3 & Q & K1 & K2 & K3).
    destruct (amount_delta_ok c (p_sqrt_price p) L false up lo) as (x & y & E).
    { apply Vl. } { apply Vu. } { lia. } { apply PO. } { auto. }
    rewrite E. f_equal. f_equal.
    apply range_wide in R1 as W1, R2 as W2, R3 as W3.
    assert (X : worth_x L q (price up) = dx_nom q (price up) L / dx_den_up q (price up)).
    { unfold worth_x, dx_nom, dx_den_up. rewrite up_div_cdiv by reflexivity.
      rewrite Z.abs_neq, Z.mul_comm by lia. repeat f_equal; lia. }
    assert (Y : worth_y L (price lo) q = Z.abs (price lo - q) * L / E29).
    { unfold worth_y. rewrite Z.abs_neq by lia. rewrite Z.mul_comm. f_equal. f_equal. lia. }
    assert (X0 : q = price up -> worth_x L q (price up) = 0).
    { intros Eq. rewrite X, Eq, dx_nom_self. reflexivity. }
    assert (Y0 : q = price lo -> worth_y L (price lo) q = 0).
    { intros Eq. rewrite Y, Eq, Z.sub_diag. reflexivity. }
    unfold calculate_amount_delta in E. destruct (Z.ltb_spec up lo); [lia|].
    rewrite !calculate_sqrt_price_valid in E by (apply Vl || apply Vu). cbn [bind] in E.
    destruct (Z.ltb_spec c lo) as [G1|G1].
    - specialize (K1 G1). rewrite get_delta_x_down_eq in E by auto. cbn [bind] in E. injection E as <- <- _.
      rewrite Y0 by auto. rewrite X, K1. reflexivity.
    - destruct (Z.ltb_spec c up) as [G2|G2].
      + specialize (K2 (conj G1 G2)). rewrite <- K2, get_delta_x_down_eq, get_delta_y_down_ok in E by auto. cbn [bind] in E.
        injection E as <- <- _. rewrite X, Y. reflexivity.
      + specialize (K3 G2). rewrite get_delta_y_down_ok in E by auto. cbn [bind] in E. injection E as <- <- _.
        rewrite X0 by auto. rewrite Y, K3. reflexivity.
  Qed.
End Amounts.

(** ** Success *)

Lemma get_or_create_exists s ts k p i : Inv s -> s_pools s !! k = Some p -> okt (pk_spacing k) i ->
  exists t added, get_or_create_tick s ts k i = Ok (t, added).
Proof.
  intros I Hp Ho. unfold get_or_create_tick. destruct (s_ticks s !! (k, i)); [eauto|].
  pose proof (pool_spacing _ _ (I_pool _ I _ _ Hp)) as Hs.
  unfold create_tick. rewrite check_tick_ok by (auto; lia). cbn [map_err bind].
  unfold pools_get. rewrite Hp. cbn [ok_or bind]. unfold tick_create. rewrite calculate_sqrt_price_valid by apply Ho.
  cbn [unwrap bind]. eauto.
Qed.

Lemma net_le_gross s k i : Inv s -> Z.abs (net_at s k i) <= gross_at s k i.
Proof.
  intros I. unfold net_at, gross_at.
  assert (B : forall j q, s_positions s !! j = Some q -> Z.abs (net_of k i q) <= gross_of k i q).
  { intros [b m] q Hq. pose proof (pos_nonneg _ _ _ _ I Hq). pose proof (so_lt _ _ (I_pos _ I _ _ _ Hq)).
    unfold net_of, gross_of. destruct (bool_decide _); cbn [andb]; [|lia].
    destruct (Z.eqb_spec (pos_lower q) i), (Z.eqb_spec (pos_upper q) i); cbn [orb]; lia. }
  pose proof (msum_nonneg (fun q => gross_of k i q + net_of k i q) (s_positions s)) as H1.
  pose proof (msum_nonneg (fun q => gross_of k i q - net_of k i q) (s_positions s)) as H2.
  rewrite msum_add in H1. rewrite msum_sub in H2.
  enough (0 <= msum (gross_of k i) (s_positions s) + msum (net_of k i) (s_positions s) /\
          0 <= msum (gross_of k i) (s_positions s) - msum (net_of k i) (s_positions s)) by lia.
  split; [apply H1|apply H2]; intros j q Hq; specialize (B j q Hq); lia.
Qed.

(** Putting liquidity on a tick. *)
Lemma tick_update_put_ok t d mx up : 0 <= t_liquidity_change t < M256 -> 0 <= d ->
  0 <= t_liquidity_gross t -> t_liquidity_gross t + d < mx -> mx <= M256 ->
  Z.abs (t_net t + (if up : bool then - d else d)) < M256 ->
  exists t', tick_update t d mx up true = Ok t'.
Proof.
  intros Hc Hd Hg Hm Hmx Hn. unfold tick_update, tick_new_liquidity_gross. cbn [negb andb fail_if bind].
  unfold dec_checked_add. rewrite checked_add_ok by lia. cbn [ok_or bind].
  destruct (Z.leb_spec mx (t_liquidity_gross t + d)); [lia|]. cbn [fail_if bind].
  unfold tick_new_liquidity_change, dec_sub, dec_add. unfold t_net in Hn.
  destruct (t_sign t), up; cbn [xorb].
  - destruct (Z.ltb_spec d (t_liquidity_change t)); rewrite checked_sub_ok by lia; cbn [expect bind]; eauto.
  - rewrite checked_add_ok by lia. cbn [expect bind]. eauto.
  - rewrite checked_add_ok by lia. cbn [expect bind]. eauto.
  - destruct (Z.ltb_spec d (t_liquidity_change t)); rewrite checked_sub_ok by lia; cbn [expect bind]; eauto.
Qed.

Section Create.
  Context (e : env) (s : state) (k : pool_key) (p : pool) (lo up L sl su x y : Z).
  Hypothesis I : Inv s.
  Hypothesis Hp : s_pools s !! k = Some p.
  Hypothesis HL : 0 < L < M256.
  Hypothesis Hlt : lo < up.
  Hypothesis Ol : okt (pk_spacing k) lo.
  Hypothesis Ou : okt (pk_spacing k) up.
  Hypothesis Hsl : sl <= p_sqrt_price p <= su.
  Hypothesis Gl : gross_at s k lo + L < max_per_tick (pk_spacing k).
  Hypothesis Gu : gross_at s k up + L < max_per_tick (pk_spacing k).
  Hypothesis Fit : in_range lo up (p_current_tick_index p) = true -> p_liquidity p + L < M256.
  Hypothesis Am : calculate_amount_delta (p_current_tick_index p) (p_sqrt_price p) L true up lo
                    = Ok (x, y, in_range lo up (p_current_tick_index p)).
  Hypothesis Hx : 0 <= x <= bal s (e_caller e) (pk_token_x k).
  Hypothesis Hy : 0 <= y <= bal s (e_caller e) (pk_token_y k).

  Lemma put_ok i t up' : tick_ok s k i t -> gross_at s k i + L < max_per_tick (pk_spacing k) ->
    exists t', tick_update t L (max_per_tick (pk_spacing k)) up' true = Ok t'.
  Proof using I Hp HL.
    intros T G. pose proof (pool_spacing _ _ (I_pool _ I _ _ Hp)) as Hs. pose proof (max_per_tick_le _ Hs).
    pose proof (gross_at_nonneg s k i I). pose proof (net_le_gross s k i I).
    apply tick_update_put_ok.
    - apply u256_M, T.
    - lia.
    - rewrite (to_gross _ _ _ _ T). auto.
    - rewrite (to_gross _ _ _ _ T). auto.
    - auto.
    - rewrite (to_net _ _ _ _ T). destruct up'; lia.
  Qed.

  Lemma create_succeeds : exists s' pos, create_position e s k lo up L sl su = Ok (s', pos).
  Proof.
    pose proof (I_pool _ I _ _ Hp) as PO. pose proof (pool_spacing _ _ PO) as Hs.
    destruct (get_or_create_exists s (e_timestamp e) k p lo I Hp Ol) as (tl & al & El).
    destruct (get_or_create_exists s (e_timestamp e) k p up I Hp Ou) as (tu & au & Eu).
    destruct (get_or_create_ok _ _ _ _ _ _ _ I Hp El) as (TO1 & A1 & _).
    destruct (get_or_create_ok _ _ _ _ _ _ _ I Hp Eu) as (TO2 & A2 & _).
    destruct (put_ok lo tl false TO1 Gl) as [tl' U1]. destruct (put_ok up tu true TO2 Gu) as [tu' U2].
    pose proof (tick_update_inv _ _ _ _ _ _ U1) as (E1 & _ & E2 & E3 & _).
    pose proof (tick_update_inv _ _ _ _ _ _ U2) as (F1 & _ & F2 & F3 & _).
    rewrite (to_index _ _ _ _ TO1) in E1. rewrite (to_index _ _ _ _ TO2) in F1.
    assert (PC : exists pos p', position_create p k tl tu (e_timestamp e) L sl su (e_block e) (pk_spacing k)
              = Ok (pos, p', tu', tl', (x, y))).
    { unfold position_create. destruct (Z.ltb_spec (p_sqrt_price p) sl); [lia|]. destruct (Z.ltb_spec su (p_sqrt_price p)); [lia|].
      cbn [orb fail_if bind]. unfold position_modify. rewrite max_per_tick_ok by auto. cbn [bind].
      rewrite U1. cbn [bind]. rewrite U2. cbn [bind].
      rewrite E1, F1, E2, E3, F2, F3. cbn [set_last_timestamp p_current_tick_index p_fee_growth_global_x p_fee_growth_global_y].
      unfold calculate_fee_growth_inside, position_update, position_new_liquidity.
      cbn [pos_liquidity pos_fee_growth_inside_x pos_fee_growth_inside_y pos_tokens_owed_x pos_tokens_owed_y].
      destruct (Z.eqb_spec L 0); [lia|]. cbn [andb fail_if bind].
      assert (F0 : forall g, to_fee g 0 = Ok 0).
      { intros g. unfold to_fee. rewrite checked_mul_ok by (rewrite Z.mul_0_r; reflexivity). rewrite Z.mul_0_r. reflexivity. }
      rewrite !F0. cbn [bind negb andb fail_if]. unfold dec_checked_add. rewrite checked_add_ok by lia. cbn [ok_or bind].
      unfold dec_add. rewrite !checked_add_ok by (vm_compute; reflexivity). cbn [expect bind].
      unfold pool_update_liquidity. cbn [set_last_timestamp p_current_tick_index p_sqrt_price p_liquidity].
      rewrite Am. cbn [bind]. destruct (in_range lo up (p_current_tick_index p)) eqn:ER; cbn [negb].
      - unfold dec_checked_add. rewrite checked_add_ok by (apply Fit; reflexivity). cbn [ok_or bind unwrap]. eauto.
      - cbn [bind unwrap]. eauto. }
    destruct PC as (pos & p' & PC).
    unfold create_position. destruct (Z.eqb_spec L 0); [lia|]. destruct (Z.eqb_spec lo up); [lia|]. cbn [fail_if bind].
    unfold pools_get at 1. rewrite Hp. cbn [ok_or bind]. rewrite El. cbn [bind]. rewrite Eu. cbn [bind]. rewrite PC. cbn [bind].
    destruct (decrease_ok s (pk_token_x k) (e_caller e) x) as [s1 D1]; [lia|lia|]. rewrite D1. cbn [bind].
    apply decrease_spec in D1 as ((B1 & ->) & L1 & _).
    destruct (decrease_ok (set_balances B1 s) (pk_token_y k) (e_caller e) y) as [s2 D2]; [lia| |].
    { rewrite L1. unfold at_. pose proof (po_tokens _ _ PO). destruct (Z.eqb_spec (pk_token_y k) (pk_token_x k)); [lia|].
      rewrite andb_false_r. lia. }
    rewrite D2. cbn [bind]. apply decrease_spec in D2 as ((B2 & ->) & _).
    unfold pools_update, pools_get. cbn [set_balances s_pools]. rewrite Hp. cbn [ok_or bind]. unfold positions_add.
    assert (BM : forall i, okt (pk_spacing k) i -> s_ticks s !! (k, i) = None -> mem (s_bitmap s) k (tidx (pk_spacing k) i) = false).
    { intros i Oi Ni. destruct (mem _ _ _) eqn:EM; [|reflexivity]. apply (I_bit1 _ I) in EM as (j & [t Hj] & EJ).
      destruct (I_tick _ I _ _ _ Hj) as [_ TOj]. apply tidx_inj in EJ; [|lia|auto|apply TOj]. subst j. congruence. }
    assert (NE : tidx (pk_spacing k) lo <> tidx (pk_spacing k) up) by (intros EE; apply tidx_inj in EE; auto; lia).
    (* the lower tick *)
    cbn [bind]. match goal with |- context [if al then add_tick ?S _ _ else _] => set (S0 := S) end.
    assert (T0 : s_ticks S0 = s_ticks s) by reflexivity. assert (M0 : s_bitmap S0 = s_bitmap s) by reflexivity. clearbody S0.
    assert (S1 : exists s3, (if al then add_tick S0 k tl' else ticks_update S0 k (t_index tl') tl') = Ok s3 /\
       s_ticks s3 = <[(k, lo) := tl']> (s_ticks s) /\
       mem (s_bitmap s3) k (tidx (pk_spacing k) up) = mem (s_bitmap s) k (tidx (pk_spacing k) up)).
    { rewrite E1. destruct al.
      - unfold add_tick, ticks_add. rewrite E1, T0, A1. cbn [bind set_ticks s_bitmap]. rewrite M0.
        pose proof (tickmap_flip_spec (s_bitmap s) k (pk_spacing k) lo true ltac:(lia) Ol) as FS.
        rewrite (BM lo Ol A1) in FS. cbn [Bool.eqb] in FS. destruct FS as (b' & FS & _ & FM). rewrite FS. cbn [bind].
        eexists. split; [reflexivity|]. split; [reflexivity|]. cbn [set_bitmap s_bitmap].
        rewrite FM. destruct (decide _) as [[EE _]|]; [congruence|reflexivity].
      - unfold ticks_update, ticks_get. rewrite T0, A1. cbn [ok_or bind].
        eexists. split; [reflexivity|]. split; [reflexivity|]. cbn [set_ticks s_bitmap]. rewrite M0. reflexivity. }
    destruct S1 as (s3 & S1 & T3 & MU). rewrite S1. cbn [bind]. clear S1.
    rewrite F1. destruct au.
    - unfold add_tick, ticks_add. rewrite F1, T3. rewrite lookup_insert_ne by (intros [= ?]; lia). rewrite A2. cbn [bind].
      cbn [set_ticks s_bitmap]. pose proof (tickmap_flip_spec (s_bitmap s3) k (pk_spacing k) up true ltac:(lia) Ou) as FS.
      rewrite MU, (BM up Ou A2) in FS. cbn [Bool.eqb] in FS. destruct FS as (b' & FS & _). rewrite FS. cbn [bind]. eauto.
    - unfold ticks_update, ticks_get. rewrite T3. rewrite lookup_insert_ne by (intros [= ?]; lia). rewrite A2. cbn [ok_or bind]. eauto.
  Qed.
End Create.

(** ** Liquidity that the ticks admit fits the pool *)

Lemma admitted_fits s k p lo up L : Inv s -> gross_bound s -> s_pools s !! k = Some p -> 0 < L ->
  okt (pk_spacing k) lo -> okt (pk_spacing k) up -> lo < up ->
  gross_at s k lo + L < max_per_tick (pk_spacing k) -> gross_at s k up + L < max_per_tick (pk_spacing k) ->
  pool_total s k + L <= 2 ^ 256 - 1.
Proof.
  intros I GB Hp HL Ol Ou Hlt Gl Gu. pose proof (pool_spacing _ _ (I_pool _ I _ _ Hp)) as Hs. set (sp := pk_spacing k) in *.
  set (q := MX / sp). set (n := Z.to_nat (2 * q + 1)).
  assert (Hq : 0 <= q) by (apply Z.div_pos; unfold MX; lia).
  assert (R : forall i, -221818 <= i * sp <= 221818 -> - q <= i <= q).
  { intros i Hi. unfold q, MX. assert (i <= 221818 / sp) by (apply Z.div_le_lower_bound; lia).
    assert (- i <= 221818 / sp) by (apply Z.div_le_lower_bound; lia). lia. }
  assert (S1 : 2 * pool_total s k <= sum_ticks (fun i => gross_at s k (i * sp)) (- q) n).
  { unfold gross_at, pool_total. rewrite <- msum_scale.
    rewrite (sum_ticks_msum (s_positions s) (fun i => gross_of k (i * sp)) n).
    apply msum_le. intros [a m] pos Hpos. unfold pool_of.
    pose proof (pos_nonneg _ _ _ _ I Hpos) as HLp.
    assert (NN : forall i, 0 <= gross_of k (i * sp) pos) by (intros; apply gross_of_nonneg; lia).
    destruct (bool_decide_reflect (pos_pool_key pos = k)) as [Ek|]; [|pose proof (sum_ticks_ge _ n (- q) NN); lia].
    destruct (pos_ticks s a m pos I Hpos) as (p' & tl & tu & _ & _ & _ & T1 & T2). rewrite Ek in T1, T2.
    pose proof (so_lt _ _ (I_pos _ I _ _ _ Hpos)) as Hltp.
    destruct (to_okt _ _ _ _ T1) as [B1 [i1 E1]]. destruct (to_okt _ _ _ _ T2) as [B2 [i2 E2]]. fold sp in E1, E2.
    pose proof (R i1 ltac:(lia)). pose proof (R i2 ltac:(lia)).
    pose proof (sum_ticks_two (fun i => gross_of k (i * sp) pos) n (- q) i1 i2 NN ltac:(lia) ltac:(nia) ltac:(lia)) as S2.
    cbn beta in S2. rewrite <- E1, <- E2 in S2.
    assert (G : forall i, i = pos_lower pos \/ i = pos_upper pos -> gross_of k i pos = pos_liquidity pos).
    { intros i Hi. unfold gross_of. rewrite bool_decide_eq_true_2 by auto.
      destruct (Z.eqb_spec (pos_lower pos) i), (Z.eqb_spec (pos_upper pos) i); cbn; auto; lia. }
    rewrite !G in S2 by auto. lia. }
  set (h := fun i => (if i * sp =? lo then L else 0) + (if i * sp =? up then L else 0)).
  assert (Hh : forall i, 0 <= h i) by (intros i; unfold h; destruct (_ =? lo), (_ =? up); lia).
  assert (S0 : 2 * L <= sum_ticks h (- q) n).
  { destruct Ol as [B1 [i1 E1]]. destruct Ou as [B2 [i2 E2]].
    pose proof (R i1 ltac:(lia)). pose proof (R i2 ltac:(lia)).
    pose proof (sum_ticks_two h n (- q) i1 i2 Hh ltac:(lia) ltac:(nia) ltac:(lia)) as S2.
    unfold h at 1 2 in S2. rewrite <- E1, <- E2, !Z.eqb_refl in S2.
    destruct (Z.eqb_spec lo up); [lia|]. destruct (Z.eqb_spec up lo); [lia|]. lia. }
  assert (SA : forall f g m a, sum_ticks f a m + sum_ticks g a m = sum_ticks (fun i => f i + g i) a m).
  { intros f g m. induction m as [|m IH]; cbn [sum_ticks]; intros a; [lia|]. rewrite <- IH. lia. }
  assert (S2 : sum_ticks (fun i => gross_at s k (i * sp)) (- q) n + sum_ticks h (- q) n <= Z.of_nat n * max_per_tick sp).
  { rewrite SA. apply sum_ticks_le. intros i _. unfold h.
    assert (gross_at s k (i * sp) < max_per_tick sp) by (apply GB; congruence).
    destruct (Z.eqb_spec (i * sp) lo) as [E1|]; destruct (Z.eqb_spec (i * sp) up) as [E2|];
      rewrite ?E1, ?E2 in *; lia. }
  assert (S3 : Z.of_nat n <= 2 * (443637 / sp)).
  { unfold n. rewrite Z2Nat.id by lia. unfold q, MX.
    assert (2 * (221818 / sp) <= 443637 / sp).
    { apply Z.div_le_lower_bound; [lia|]. pose proof (Z.mul_div_le 221818 sp). lia. }
    assert (4436 <= 443637 / sp) by (apply Z.div_le_lower_bound; lia). lia. }
  assert (S4 : (443637 / sp) * max_per_tick sp <= 2 ^ 256 - 1).
  { unfold max_per_tick. apply Z.mul_div_le. pose proof (Z.div_le_lower_bound 443637 sp 4436). lia. }
  pose proof (max_per_tick_pos sp Hs). nia.
Qed.
