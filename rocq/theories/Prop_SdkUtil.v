(** Properties C45, C46 and C47: what the SDK's helpers promise about positions and
    slippage.  [moves] (Prop_State.v) says how the caller's balances change. *)
From Verif Require Import Base Decimal SqrtPriceM LogM ClammM FeeGrowthM Types TickmapM StorageM
  CollectionsM StateM ServiceM SdkUtilM Arith SpecMath SpecSum SpecState SpecHistory
  P_Clamm P_Delta P_TickPrice P_Balance P_Effects P_History P_Tickmap P_Check P_State P_Inv P_InvPos P_PosOps P_InvHist
  P_Live P_Liq P_LiqCharge P_SdkUtil Prop_State Prop_Ticks Prop_Queries Prop_Liq Cases CasesClean.
From stdpp Require Import gmap list.
From Coq Require Import ZArith Lia Bool.
Open Scope Z_scope.

(** ** C45: previews of what a position pays *)

Lemma associates_Ok s a i pos p tl tu : get_position_with_associates s a i = Ok (pos, p, tl, tu) <->
  s_positions s !! (a, i) = Some pos /\ s_pools s !! pos_pool_key pos = Some p /\
  s_ticks s !! (pos_pool_key pos, pos_lower pos) = Some tl /\ s_ticks s !! (pos_pool_key pos, pos_upper pos) = Some tu.
Proof.
  unfold get_position_with_associates. split.
  - intros H. step H a0 E1. step H a1 E2. step H a2 E3. step H a3 E4. injection H as -> -> -> ->.
    apply positions_get_Ok in E1. apply pools_get_Ok in E2. apply ticks_get_Ok in E3, E4. auto.
  - intros (E1 & E2 & E3 & E4). apply positions_get_Ok in E1. apply pools_get_Ok in E2. apply ticks_get_Ok in E3, E4.
    rewrite E1. cbn [bind]. rewrite E2. cbn [bind]. rewrite E3. cbn [bind]. rewrite E4. reflexivity.
Qed.

(** Every position comes with its pool and its two ticks. *)
Theorem C45_associates evs s owner i pos : history room evs s -> get_position s owner i = Ok pos ->
  exists p tl tu, get_position_with_associates s owner i = Ok (pos, p, tl, tu) /\
    pools_get s (pos_pool_key pos) = Ok p /\ get_tick s (pos_pool_key pos) (pos_lower pos) = Ok tl /\
    get_tick s (pos_pool_key pos) (pos_upper pos) = Ok tu.
Proof.
  intros H Hpos. apply positions_get_Ok in Hpos. apply room_facts in H as (I & _ & _).
  destruct (pos_ticks s owner i pos I Hpos) as (p & tl & tu & P & L & U & _).
  exists p, tl, tu. rewrite associates_Ok. split; [auto|].
  split; [apply pools_get_Ok; auto|]. split; apply ticks_get_Ok; auto.
Qed.

Lemma calculate_fee_Ok p pos tl tu x y : sdk_calculate_fee p pos tl tu = Ok (x, y) <->
  to_fee (unchecked_sub (inside_x p tl tu) (pos_fee_growth_inside_x pos)) (pos_liquidity pos) = Ok x /\
  to_fee (unchecked_sub (inside_y p tl tu) (pos_fee_growth_inside_y pos)) (pos_liquidity pos) = Ok y.
Proof.
  unfold sdk_calculate_fee, calculate_fee_growth_inside. fold (inside_x p tl tu) (inside_y p tl tu). cbv beta iota. split.
  - intros H. step H a E1. step H b E2. injection H as -> ->. auto.
  - intros [-> E]. cbn [bind]. rewrite E. reflexivity.
Qed.

(** calculateFee on what getPositionWithAssociates returns is what claimFee pays,
    and claimFee pays it whenever the owner's balances can hold it. *)
Theorem C45_fee_preview evs s e i pos p tl tu : history room evs s ->
  get_position_with_associates s (e_caller e) i = Ok (pos, p, tl, tu) ->
  (forall s' x y, claim_fee e s i = Ok (s', (x, y)) -> sdk_calculate_fee p pos tl tu = Ok (x, y)) /\
  (forall x y, sdk_calculate_fee p pos tl tu = Ok (x, y) ->
     let k := pos_pool_key pos in
     bal s (e_caller e) (pk_token_x k) + x < 2 ^ 256 -> bal s (e_caller e) (pk_token_y k) + y < 2 ^ 256 ->
     exists s', claim_fee e s i = Ok (s', (x, y)) /\
       moves s s' (e_caller e) [(pk_token_x k, x); (pk_token_y k, y)]).
Proof.
  intros H HA. apply associates_Ok in HA as (A1 & A2 & A3 & A4). apply room_facts in H as (I & G & _). split.
  - intros s' x y HC. apply claim_summary in HC as (pos' & p' & tl' & tu' & mx & C); [|auto].
    destruct C as [C1 C2 C3 C4 C5 C6 _ _ _ _ _ _ _]. rewrite A1 in C1. injection C1 as <-. rewrite A2 in C2. injection C2 as <-.
    rewrite A3 in C3. injection C3 as <-. rewrite A4 in C4. injection C4 as <-. apply calculate_fee_Ok. auto.
  - intros x y HF k Bx By. apply calculate_fee_Ok in HF as [F1 F2].
    destruct (claim_fee_ok e s i pos p tl tu x y) as [s' E]; auto.
    exists s'. split; [exact E|]. destruct (C31_claim _ _ _ _ _ _ E) as (pos' & Hp & M).
    apply positions_get_Ok in Hp. rewrite A1 in Hp. injection Hp as <-. exact M.
Qed.

(** calculateTokenAmounts plus calculateFee is what removePosition pays. *)
Theorem C45_removal_preview evs s e i s' x y pos p tl tu : history room evs s ->
  get_position_with_associates s (e_caller e) i = Ok (pos, p, tl, tu) ->
  remove_position e s i = Ok (s', (x, y)) ->
  exists ax ay fx fy, sdk_calculate_token_amounts p pos = Ok (ax, ay) /\ sdk_calculate_fee p pos tl tu = Ok (fx, fy) /\
    x = ax + fx /\ y = ay + fy /\
    moves s s' (e_caller e) [(pk_token_x (pos_pool_key pos), ax + fx); (pk_token_y (pos_pool_key pos), ay + fy)].
Proof.
  intros H HA HR. apply associates_Ok in HA as (A1 & A2 & A3 & A4). apply room_facts in H as (I & G & _).
  pose proof (C31_remove _ _ _ _ _ _ HR) as (pos0 & Hp & M). apply positions_get_Ok in Hp. rewrite A1 in Hp. injection Hp as <-.
  apply remove_summary in HR as (pos' & p' & tl' & tu' & dx & dy & ox & oy & C); [|auto].
  destruct C as [C1 C2 C3 C4 C5 C6 C7 C8 C9 _ _ _ _ _ _ _ _ _]. rewrite A1 in C1. injection C1 as <-. rewrite A2 in C2. injection C2 as <-.
  rewrite A3 in C3. injection C3 as <-. rewrite A4 in C4. injection C4 as <-.
  exists dx, dy, ox, oy. split; [unfold sdk_calculate_token_amounts; rewrite C7; reflexivity|].
  split; [apply calculate_fee_Ok; auto|]. subst x y. auto.
Qed.

Definition preview (s : state) (a i : Z) : option (Z * Z * (Z * Z)) :=
  match get_position_with_associates s a i with
  | Ok (pos, p, tl, tu) =>
      match sdk_calculate_token_amounts p pos, sdk_calculate_fee p pos tl tu with
      | Ok xy, Ok fxy => Some (xy, fxy)
      | _, _ => None
      end
  | _ => None
  end.
Definition paid {A} (r : res (state * A)) : option A := match r with Ok (_, v) => Some v | _ => None end.
Example C45_case :
  history room evs_traded s_traded /\
  preview s_traded alice 0 = Some ((2288, 210), (8, 0)) /\
  paid (claim_fee (by_ alice) s_traded 0) = Some (8, 0) /\
  paid (remove_position (by_ alice) s_traded 0) = Some (2296, 210).
Proof. split; [apply s_traded_room|]. crunch. Qed.

(** ** C46: square root and slippage *)

(** The square root that prices are computed with is exact, and ends: with a budget of
    log2(n) + 2 calls. *)
Theorem C46_sqrt_exact n : 0 <= n -> n <> 4 ->
  exists r, sdk_sqrt n = Ok r /\ 0 <= r /\ r * r <= n < (r + 1) * (r + 1).
Proof.
  intros Hn H4. exists (Z.sqrt n). split; [apply sdk_sqrt_exact; auto|]. split; [apply Z.sqrt_nonneg|apply Z.sqrt_spec; auto].
Qed.
Theorem C46_sqrt_four_refuted : sdk_sqrt 4 = Ok 1.
Proof. reflexivity. Qed.

(** The price after a slippage of s (in 10^-12): the limit r is below (above) the price
    p, moves the price p^2 by at most the factor 1 -/+ s and by at least that factor up
    to rounding. *)
Theorem C46_slippage_up p s : price_in_range p -> 0 <= s <= 10 ^ 12 ->
  exists r, sqrt_price_after_slippage p s true = Ok r /\ p <= r < 2 ^ 128 /\ (0 < s -> p < r) /\
    r * r * 10 ^ 12 <= p * p * (10 ^ 12 + s) /\
    (p * p - 10 ^ 24) * (10 ^ 12 + s) < (r + 1) * (r + 1) * 10 ^ 12.
Proof.
  intros Hp Hs. destruct (after_slippage_spec p s true Hp Hs) as (r & E & R & H1 & H2 & H3). exists r. split; [exact E|].
  unfold slip in *. assert (p <= r).
  { destruct (Z.eq_dec s 0) as [->|]; [change (Ok p = Ok r) in E; injection E as ->; lia|]. specialize (H3 ltac:(lia)). lia. }
  split; [lia|]. split; [intros; specialize (H3 ltac:(lia)); lia|]. auto.
Qed.
Theorem C46_slippage_down p s : price_in_range p -> 0 <= s <= 10 ^ 12 ->
  exists r, sqrt_price_after_slippage p s false = Ok r /\ 0 <= r <= p /\ (0 < s -> r < p) /\
    r * r * 10 ^ 12 <= p * p * (10 ^ 12 - s) /\
    (p * p - 10 ^ 24) * (10 ^ 12 - s) < (r + 1) * (r + 1) * 10 ^ 12.
Proof.
  intros Hp Hs. destruct (after_slippage_spec p s false Hp Hs) as (r & E & R & H1 & H2 & H3). exists r. split; [exact E|].
  unfold slip in *. assert (r <= p).
  { destruct (Z.eq_dec s 0) as [->|]; [change (Ok p = Ok r) in E; injection E as ->; lia|]. specialize (H3 ltac:(lia)). lia. }
  split; [lia|]. split; [intros; specialize (H3 ltac:(lia)); lia|]. auto.
Qed.

(** The slippage check only compares the pool's price with the two limits. *)
Lemma create_position_window e s k lo up L sl su sl' su' p : pools_get s k = Ok p ->
  sl <= p_sqrt_price p <= su -> sl' <= p_sqrt_price p <= su' ->
  create_position e s k lo up L sl su = create_position e s k lo up L sl' su'.
Proof.
  intros Hp H1 H2. unfold create_position. rewrite Hp.
  destruct (fail_if (L =? 0) _); cbn [bind]; auto. destruct (fail_if (lo =? up) _); cbn [bind]; auto.
  destruct (get_or_create_tick s _ k lo) as [[]| | |]; cbn [bind]; auto.
  destruct (get_or_create_tick s _ k up) as [[]| | |]; cbn [bind]; auto.
  unfold position_create.
  replace ((p_sqrt_price p <? sl) || (su <? p_sqrt_price p)) with false
    by (symmetry; apply orb_false_iff; split; apply Z.ltb_ge; lia).
  replace ((p_sqrt_price p <? sl') || (su' <? p_sqrt_price p)) with false
    by (symmetry; apply orb_false_iff; split; apply Z.ltb_ge; lia).
  reflexivity.
Qed.

Lemma encode_Ok v r : encode_u128 v = Ok r <-> r = v /\ 0 <= v < 2 ^ 128.
Proof.
  unfold encode_u128. change (2 ^ 128) with M128. destruct (Z.leb_spec 0 v), (Z.ltb_spec v M128); cbn [andb]; split; intros E;
    try discriminate; try lia; [injection E as <-; lia|destruct E as [-> _]; reflexivity].
Qed.

(** When the pool is still at the price that the caller saw, createPosition is never
    refused because of the price, whatever the tolerance: it does what it would do
    without a limit. *)
Theorem C46_create_at_seen_price evs s e k p lo up L tol : history room evs s -> pools_get s k = Ok p ->
  0 <= tol <= 10 ^ 12 ->
  sdk_create_position e s k lo up L (p_sqrt_price p) tol = create_position e s k lo up L 0 (2 ^ 128 - 1).
Proof.
  intros H Hp Ht. destruct (facts _ _ _ _ H Hp) as (I & Hp' & PO). pose proof (po_range _ _ PO) as R.
  destruct (C46_slippage_down _ _ R Ht) as (r1 & E1 & B1 & _). destruct (C46_slippage_up _ _ R Ht) as (r2 & E2 & B2 & _).
  unfold sdk_create_position. rewrite E1, E2. cbn [bind]. unfold price_in_range in R.
  rewrite (proj2 (encode_Ok r1 r1)) by lia. rewrite (proj2 (encode_Ok r2 r2)) by lia. cbn [bind].
  apply (create_position_window e s k lo up L _ _ _ _ p); auto; lia.
Qed.

(** When the price has moved, createPosition succeeds only if the pool's price q^2 is
    within the tolerance of the price p0^2 that the caller saw. *)
Theorem C46_create_within_tolerance evs s e k p p0 lo up L tol s' pos : history room evs s -> pools_get s k = Ok p ->
  price_in_range p0 -> 0 <= tol <= 10 ^ 12 -> u256 L ->
  sdk_create_position e s k lo up L p0 tol = Ok (s', pos) ->
  let q := p_sqrt_price p in
  q * q * 10 ^ 12 <= p0 * p0 * (10 ^ 12 + tol) /\
  (p0 * p0 - 10 ^ 24) * (10 ^ 12 - tol) < (q + 1) * (q + 1) * 10 ^ 12.
Proof.
  intros H Hp R Ht HL HC. cbv zeta.
  destruct (C46_slippage_down _ _ R Ht) as (r1 & E1 & B1 & _ & _ & D1). destruct (C46_slippage_up _ _ R Ht) as (r2 & E2 & B2 & _ & U1 & _).
  unfold sdk_create_position in HC. rewrite E1, E2 in HC. cbn [bind] in HC.
  step HC a F1. apply encode_Ok in F1 as [-> _]. step HC a F1. apply encode_Ok in F1 as [-> _].
  destruct (C41_create_position_guards _ _ _ _ _ _ _ _ _ _ _ _ H HL HC Hp) as ([G1 G2] & _).
  destruct (facts _ _ _ _ H Hp) as (_ & _ & PO). pose proof (po_range _ _ PO) as R0. unfold price_in_range in R0. split.
  - assert (p_sqrt_price p * p_sqrt_price p <= r2 * r2) by (apply Z.mul_le_mono_nonneg; lia). lia.
  - assert ((r1 + 1) * (r1 + 1) <= (p_sqrt_price p + 1) * (p_sqrt_price p + 1)) by (apply Z.mul_le_mono_nonneg; lia). lia.
Qed.

(** 1% tolerance around the price of the pool, and around a price that is too far away. *)
Example C46_case :
  history room evs_traded s_traded /\
  (match pools_get s_traded pool1 with Ok p => p_sqrt_price p | _ => 0 end) = 999211189370072007762822 /\
  sqrt_price_after_slippage 999211189370072007762822 10000000000 true = Ok 1004194817240149592851916 /\
  is_Ok (sdk_create_position (by_ alice) s_traded pool1 (-50) 50 1000000 999211189370072007762822 0) = true /\
  is_Ok (sdk_create_position (by_ alice) s_traded pool1 (-50) 50 1000000 1000000000000000000000000 10000000000) = true /\
  is_Ok (sdk_create_position (by_ alice) s_traded pool1 (-50) 50 1000000 1000000000000000000000000 1000000000) = false.
Proof. split; [apply s_traded_room|]. crunch. Qed.

(** The impact of a price move from a to b: the relative distance of the prices a^2 and
    b^2 to the larger one, rounded down; symmetric, below 100%, zero only without a move
    (up to rounding). *)
Theorem C46_price_impact a b : 0 < a -> 0 < b ->
  exists v, price_impact a b = Ok v /\ price_impact b a = Ok v /\ 0 <= v < 10 ^ 12 /\
    is_floor v (Z.abs (a * a - b * b) * 10 ^ 12) (Z.max (a * a) (b * b)).
Proof.
  assert (G : forall a b, 0 < a -> 0 < b ->
    price_impact a b = Ok (Z.abs (a * a - b * b) * 10 ^ 12 / Z.max (a * a) (b * b))).
  { clear. intros a b Ha Hb. unfold price_impact. change PERCENTAGE_ONE with (10 ^ 12).
    assert (0 < a * a) by nia. assert (0 < b * b) by nia. set (A := a * a) in *. set (B := b * b) in *.
    destruct (Z.ltb_spec 0 (A - B)), (Z.ltb_spec B A); try lia.
    - destruct (Z.eqb_spec A 0); [lia|]. rewrite Z.quot_div_nonneg by lia. rewrite Z.abs_eq, Z.max_l by lia. reflexivity.
    - destruct (Z.eqb_spec B 0); [lia|]. rewrite Z.quot_div_nonneg by lia. rewrite Z.abs_neq, Z.max_r by lia. reflexivity. }
  intros Ha Hb. eexists. split; [apply G; auto|]. split.
  { rewrite (G b a) by auto. f_equal. rewrite (Z.max_comm (b * b)). f_equal. f_equal. lia. }
  assert (0 < a * a) by nia. assert (0 < b * b) by nia. set (A := a * a) in *. set (B := b * b) in *.
  assert (HM : 0 < Z.max A B) by lia. split.
  - split; [apply Z.div_pos; lia|]. apply Z.div_lt_upper_bound; lia.
  - unfold is_floor. pose proof (Z.div_mod (Z.abs (A - B) * 10 ^ 12) (Z.max A B) ltac:(lia)).
    pose proof (Z.mod_pos_bound (Z.abs (A - B) * 10 ^ 12) (Z.max A B) HM). nia.
Qed.

(** ** C47: token amounts with slippage *)

Lemma cdiv_mono n n' d d' : 0 < d' -> 0 <= n -> n <= n' -> d' <= d -> cdiv n d <= cdiv n' d'.
Proof.
  intros Hd Hn H1 H2. pose proof (cdiv_bounds n d ltac:(lia)) as B1. pose proof (cdiv_bounds n' d' Hd) as B2.
  pose proof (cdiv_nonneg n' d' Hd ltac:(lia)) as N. nia.
Qed.

Lemma dx_cost_mono a a' b L : 0 <= a' <= a -> a <= b -> 0 <= L -> 0 < dx_den a' b ->
  cdiv (dx_nom a b L) (dx_den a b) <= cdiv (dx_nom a' b L) (dx_den a' b).
Proof.
  intros Ha Hb HL Hd. apply cdiv_mono; auto.
  - apply dx_nom_nonneg. lia.
  - unfold dx_nom. apply Z.div_le_mono; [reflexivity|]. rewrite !Z.abs_neq by lia. apply Z.mul_le_mono_nonneg_r; lia.
  - unfold dx_den. apply Z.div_le_mono; [reflexivity|]. apply Z.mul_le_mono_nonneg_r; lia.
Qed.

Lemma get_delta_y_up_inv a b L v : u128 a -> u128 b -> u256 L ->
  get_delta_y a b L true = Ok v -> v = cdiv (Z.abs (a - b) * L) E29.
Proof.
  intros Ha Hb HL H. rewrite get_delta_y_up_eq in H by auto. cbv zeta in H.
  destruct (_ <? _) in H; [injection H as <-; reflexivity|discriminate].
Qed.

(** calculateTokenAmountsWithSlippage (rounding up) covers what createPosition charges
    at any price that the tolerance admits, if the tick of the price that the caller saw
    is inside the range, or if the pool's price has not entered the range. *)
Theorem C47_amounts_cover evs s e k p p0 c0 lo up L tol x y s' pos pl pu :
  history room evs s -> pools_get s k = Ok p -> u256 L -> price_in_range p0 -> 0 <= tol <= 10 ^ 12 ->
  get_tick_at_sqrt_price p0 (pk_spacing k) = Ok c0 ->
  calculate_sqrt_price lo = Ok pl -> calculate_sqrt_price up = Ok pu ->
  lo <= c0 < up \/ c0 < lo /\ p_sqrt_price p <= pl \/ up <= c0 /\ pu <= p_sqrt_price p ->
  token_amounts_with_slippage (pk_spacing k) p0 L lo up tol true = Ok (x, y) ->
  sdk_create_position e s k lo up L p0 tol = Ok (s', pos) ->
  exists ax ay, moves s s' (e_caller e) [(pk_token_x k, - ax); (pk_token_y k, - ay)] /\
    0 <= ax <= x /\ 0 <= ay <= y.
Proof.
  intros H Hp HL R0 Ht Hc0 Hpl Hpu HR HT HC.
  destruct (C46_slippage_down _ _ R0 Ht) as (r1 & E1 & B1 & _). destruct (C46_slippage_up _ _ R0 Ht) as (r2 & E2 & B2 & _).
  unfold sdk_create_position in HC. rewrite E1, E2 in HC. cbn [bind] in HC.
  unfold token_amounts_with_slippage in HT. rewrite E1, E2, Hc0 in HT. cbn [bind] in HT.
  unfold price_in_range in R0.
  rewrite (proj2 (encode_Ok r1 r1)) in HT, HC by lia. rewrite (proj2 (encode_Ok r2 r2)) in HT, HC by lia. cbn [bind] in HT, HC.
  destruct (C41_create_position_guards _ _ _ _ _ _ _ _ _ _ _ _ H HL HC Hp) as ([G1 G2] & HL0 & Hlu & Hlo & Hup & _).
  assert (V1 : valid_tick lo) by (apply tick_valid; lia). assert (V2 : valid_tick up) by (apply tick_valid; lia).
  rewrite calculate_sqrt_price_valid in Hpl, Hpu by auto. injection Hpl as <-. injection Hpu as <-.
  destruct (facts _ _ _ _ H Hp) as (I & Hp' & PO). pose proof (po_range _ _ PO) as R.
  destruct (charged _ _ _ _ H Hp _ _ _ _ _ _ _ _ HL HC) as (ax & ay & HM & CX & CX0 & CY & CY0). cbv zeta in *.
  set (q := p_sqrt_price p) in *. pose proof (price_range _ V1) as R1. pose proof (price_range _ V2) as R2.
  pose proof (price_lt _ _ V1 V2 ltac:(lia)) as PL.
  assert (WX : wide (price lo)) by (apply range_wide; auto).
  assert (U : forall v, price_in_range v -> u128 v) by (intros v Hv; apply wide_u128, range_wide; auto).
  assert (Ur1 : u128 r1) by (unfold u128; lia). assert (Ur2 : u128 r2) by (unfold u128; lia).
  assert (HL' : 0 <= L) by lia.
  assert (AX : 0 <= ax).
  { destruct (Z.le_gt_cases q (price up)) as [Hq|Hq]; [|rewrite CX0 by lia; lia]. rewrite CX by auto.
    apply cdiv_nonneg; [|apply dx_nom_nonneg; lia].
    pose proof (dx_den_pos (Z.max (price lo) q) (price up)) as D. specialize (D ltac:(apply range_wide; unfold price_in_range in *; lia)).
    specialize (D ltac:(apply range_wide; auto)). lia. }
  assert (AY : 0 <= ay).
  { destruct (Z.le_gt_cases (price lo) q) as [Hq|Hq]; [|rewrite CY0 by lia; lia]. rewrite CY by auto.
    apply cdiv_nonneg; [reflexivity|apply Z.mul_nonneg_nonneg; lia]. }
  exists ax, ay. split; [exact HM|].
  step HT xy1 T1. destruct xy1 as [[lx ly] li]. step HT xy2 T2. destruct xy2 as [[ux uy] ui].
  injection HT as <- <-.
  assert (MX1 : lx <= (if ux <? lx then lx else ux)) by (destruct (Z.ltb_spec ux lx); lia).
  assert (MY1 : uy <= (if uy <? ly then ly else uy)) by (destruct (Z.ltb_spec uy ly); lia).
  set (X := if ux <? lx then lx else ux) in *. set (Y := if uy <? ly then ly else uy) in *. clearbody X Y.
  unfold calculate_amount_delta in T1, T2. destruct (Z.ltb_spec up lo); [lia|].
  rewrite !calculate_sqrt_price_valid in T1, T2 by auto. cbn [bind] in T1, T2.
  destruct (Z.ltb_spec c0 lo) as [Hc1|Hc1]; [|destruct (Z.ltb_spec c0 up) as [Hc2|Hc2]].
  - step T1 vx F1. injection T1 as <- <- _. step T2 vy F2. injection T2 as <- <- _.
    apply get_delta_x_up_inv in F1 as [F1 D1]; auto.
    assert (Hq : q <= price lo) by (unfold q in *; lia). rewrite CY0 by auto. split; [|lia]. split; [auto|].
    rewrite CX by lia. rewrite Z.max_l by lia. lia.
  - step T1 vx F1. step T1 vy F2. injection T1 as <- <- _. step T2 wx F3. step T2 wy F4. injection T2 as <- <- _.
    apply get_delta_x_up_inv in F1 as [F1 D1]; auto. apply get_delta_y_up_inv in F4; auto. split; (split; [auto|]).
    + destruct (Z.le_gt_cases q (price up)) as [Hq|Hq].
      * rewrite CX by auto. etransitivity; [|exact MX1]. rewrite F1. apply dx_cost_mono; try lia; auto.
      * rewrite CX0 by lia. etransitivity; [|exact MX1]. rewrite F1. apply cdiv_nonneg; auto. apply dx_nom_nonneg. lia.
    + destruct (Z.le_gt_cases (price lo) q) as [Hq|Hq].
      * rewrite CY by auto. etransitivity; [|exact MY1]. rewrite F4. apply cdiv_mono; [reflexivity|apply Z.mul_nonneg_nonneg; lia| |lia].
        apply Z.mul_le_mono_nonneg_r; lia.
      * rewrite CY0 by lia. etransitivity; [|exact MY1]. rewrite F4. apply cdiv_nonneg; [reflexivity|apply Z.mul_nonneg_nonneg; lia].
  - step T1 vx F1. injection T1 as <- <- _. step T2 vy F2. injection T2 as <- <- _.
    apply get_delta_y_up_inv in F2; auto.
    assert (Hq : price up <= q) by (unfold q in *; lia). rewrite CX0 by auto. split; [lia|]. split; [auto|].
    rewrite CY by lia. rewrite Z.min_l by lia. lia.
Qed.

(** The amounts are NOT enough when the price enters the range within the tolerance:
    seen at price 1 (tick 0, above the range), created at price 0.9992.. inside it, the
    position costs token x although the estimate of x was zero. *)
Definition cost_of (s : state) (r : res (state * position)) (a : Z) (k : pool_key) : option (Z * Z) :=
  match r with
  | Ok (s', _) => Some (bal s a (pk_token_x k) - bal s' a (pk_token_x k), bal s a (pk_token_y k) - bal s' a (pk_token_y k))
  | _ => None
  end.
Theorem C47_amounts_cover_refuted :
  history room evs_traded s_traded /\
  token_amounts_with_slippage 10 1000000000000000000000000 1000000000 (-50) (-10) 10000000000 true = Ok (0, 20) /\
  cost_of s_traded (sdk_create_position (by_ alice) s_traded pool1 (-50) (-10) 1000000000 1000000000000000000000000 10000000000)
    alice pool1 = Some (3, 18).
Proof. split; [apply s_traded_room|]. crunch. Qed.

(** The hypotheses of the theorem are met: a range around the price. *)
Example C47_case :
  history room evs_traded s_traded /\
  get_tick_at_sqrt_price 1000000000000000000000000 10 = Ok 0 /\
  token_amounts_with_slippage 10 1000000000000000000000000 1000000000 (-50) 50 10000000000 true = Ok (76, 75) /\
  cost_of s_traded (sdk_create_position (by_ alice) s_traded pool1 (-50) 50 1000000000 1000000000000000000000000 10000000000)
    alice pool1 = Some (33, 18).
Proof. split; [apply s_traded_room|]. crunch. Qed.

(** ** Assumptions *)
Print Assumptions C45_associates.
Print Assumptions C45_fee_preview.
Print Assumptions C45_removal_preview.
Print Assumptions C46_sqrt_exact.
Print Assumptions C46_sqrt_four_refuted.
Print Assumptions C46_slippage_up.
Print Assumptions C46_slippage_down.
Print Assumptions C46_create_at_seen_price.
Print Assumptions C46_create_within_tolerance.
Print Assumptions C46_price_impact.
Print Assumptions C47_amounts_cover.
Print Assumptions C47_amounts_cover_refuted.
