(** Property C61: what a position costs and what closing it pays.

    [charge_x], [charge_y], [worth_x], [worth_y] and [into_range] are defined in
    SpecCost.v; [moves s s' user l]: the ledger of [s'] is that of [s] with the
    amounts [l] added to the balances of [user]. *)
From Verif Require Import Base Decimal SqrtPriceM LogM ClammM FeeGrowthM Types TickmapM StorageM
  CollectionsM StateM ServiceM Arith SpecMath SpecFees SpecSum SpecState SpecHistory SpecCost
  P_Clamm P_Delta P_TickPrice P_Tickmap P_Fees P_Balance P_Effects P_Positions P_History P_Loop P_Check P_State P_Iter P_Inv
  P_InvPos P_PosOps P_InvHist P_Active P_Live P_Quote P_LiqCharge P_Bals P_Create Prop_State Prop_Ticks Cases CasesClean.
From stdpp Require Import gmap list.
From Coq Require Import ZArith Lia Bool.
Open Scope Z_scope.

(** The cost, at the price of the pool moved into the range. *)
Theorem C61_cost evs s e k lo up L sl su s' pos : history room evs s -> u256 L ->
  create_position e s k lo up L sl su = Ok (s', pos) ->
  exists p pl pu, pools_get s k = Ok p /\ calculate_sqrt_price lo = Ok pl /\ calculate_sqrt_price up = Ok pu /\ pl < pu /\
    let q := into_range pl pu (p_sqrt_price p) in
    moves s s' (e_caller e) [(pk_token_x k, - charge_x L q pu); (pk_token_y k, - charge_y L pl q)].
Proof.
  intros H HL E. apply room_Inv in H as I. apply create_summary in E as (p & x & y & mx & C); auto.
  pose proof (I_pool _ I _ _ (cr_pool _ _ _ _ _ _ _ _ _ _ _ _ _ _ C)) as PO.
  pose proof (cr_lo _ _ _ _ _ _ _ _ _ _ _ _ _ _ C) as Ol. pose proof (cr_up _ _ _ _ _ _ _ _ _ _ _ _ _ _ C) as Ou.
  pose proof (cr_lt _ _ _ _ _ _ _ _ _ _ _ _ _ _ C) as Lt.
  pose proof (cr_amounts _ _ _ _ _ _ _ _ _ _ _ _ _ _ C) as Am. rewrite (amounts_charged k p PO lo up Ol Ou Lt L HL) in Am.
  injection Am as Ax Ay. exists p, (price lo), (price up).
  split; [apply pools_get_Ok, C|]. split; [apply calculate_sqrt_price_valid, Ol|]. split; [apply calculate_sqrt_price_valid, Ou|].
  split; [apply (place_facts k p PO lo up Ol Ou Lt)|]. cbn zeta. rewrite Ax, Ay. apply ledger_moves2, C.
Qed.

(** What closing pays: the worth of the liquidity, and the fees that a claim would pay. *)
Theorem C61_proceeds evs s e i s' x y : history room evs s -> remove_position e s i = Ok (s', (x, y)) ->
  exists pos p pl pu fx fy, get_position s (e_caller e) i = Ok pos /\ pools_get s (pos_pool_key pos) = Ok p /\
    calculate_sqrt_price (pos_lower pos) = Ok pl /\ calculate_sqrt_price (pos_upper pos) = Ok pu /\ pl < pu /\ 0 <= fx /\ 0 <= fy /\
    (forall e1 s1 c d, e_caller e1 = e_caller e -> claim_fee e1 s i = Ok (s1, (c, d)) -> c = fx /\ d = fy) /\
    let q := into_range pl pu (p_sqrt_price p) in
    x = worth_x (pos_liquidity pos) q pu + fx /\ y = worth_y (pos_liquidity pos) pl q + fy /\
    moves s s' (e_caller e) [(pk_token_x (pos_pool_key pos), x); (pk_token_y (pos_pool_key pos), y)].
Proof.
  intros H E. apply room_Inv in H as I. apply remove_summary in E as (pos & p & tl & tu & dx & dy & ox & oy & C); auto.
  pose proof (rm_pos _ _ _ _ _ _ _ _ _ _ _ _ _ _ C) as Hpos. pose proof (I_pos _ I _ _ _ Hpos) as SO.
  pose proof (I_pool _ I _ _ (rm_pool _ _ _ _ _ _ _ _ _ _ _ _ _ _ C)) as PO.
  destruct (I_tick _ I _ _ _ (rm_tl _ _ _ _ _ _ _ _ _ _ _ _ _ _ C)) as [_ T1].
  destruct (I_tick _ I _ _ _ (rm_tu _ _ _ _ _ _ _ _ _ _ _ _ _ _ C)) as [_ T2].
  pose proof (to_okt _ _ _ _ T1) as Ol. pose proof (to_okt _ _ _ _ T2) as Ou. pose proof (so_lt _ _ SO) as Lt.
  assert (HL : u256 (pos_liquidity pos)) by (apply u256_I; pose proof (so_liq _ _ SO); lia).
  pose proof (rm_amounts _ _ _ _ _ _ _ _ _ _ _ _ _ _ C) as Am. rewrite (amounts_returned _ p PO _ _ Ol Ou Lt _ HL) in Am.
  injection Am as Ax Ay. exists pos, p, (price (pos_lower pos)), (price (pos_upper pos)), ox, oy.
  split; [apply positions_get_Ok; auto|]. split; [apply pools_get_Ok, C|].
  split; [apply calculate_sqrt_price_valid, Ol|]. split; [apply calculate_sqrt_price_valid, Ou|].
  split; [apply (place_facts _ p PO _ _ Ol Ou Lt)|].
  split; [eapply owed_nonneg; eauto; left; apply C|]. split; [eapply owed_nonneg; eauto; right; apply C|]. split.
  - intros e1 s1 c d EC HC. apply claim_summary in HC as (pos1 & p1 & tl1 & tu1 & mx & D); auto.
    destruct C as [C1 C2 C3 C4 C5 C6 _ _ _ _ _ _ _ _ _ _ _ _]. destruct D as [D1 D2 D3 D4 D5 D6 _ _ _ _ _ _ _].
    rewrite EC, C1 in D1. injection D1 as <-. rewrite C2 in D2. injection D2 as <-. rewrite C3 in D3. injection D3 as <-.
    rewrite C4 in D4. injection D4 as <-. rewrite C5 in D5. rewrite C6 in D6. split; congruence.
  - cbn zeta. rewrite Ax, Ay. split; [apply C|]. split; [apply C|]. apply ledger_moves2, C.
Qed.

(** ** Comparing the two *)

Lemma up_div_bounds n d : 0 < d -> d * (up_div n d - 1) < n <= d * up_div n d.
Proof. intros Hd. unfold up_div. pose proof (Z.mul_div_le (- n) d Hd). pose proof (Z.mul_succ_div_gt (- n) d Hd). lia. Qed.

Lemma up_div_le n n' d : 0 < d -> n <= n' -> up_div n d <= up_div n' d.
Proof. intros Hd Hn. unfold up_div. pose proof (Z.div_le_mono (- n') (- n) d Hd ltac:(lia)). lia. Qed.

(** The worth of token y is the cost or one unit less. *)
Theorem C61_loss_y L lo q : worth_y L lo q <= charge_y L lo q <= worth_y L lo q + 1.
Proof.
  unfold worth_y, charge_y. set (n := L * (q - lo)). pose proof (up_div_bounds n (10 ^ 29) ltac:(lia)) as U.
  pose proof (Z.mul_div_le n (10 ^ 29) ltac:(lia)). pose proof (Z.mul_succ_div_gt n (10 ^ 29) ltac:(lia)). nia.
Qed.

(** The worth of token x is at most the cost, and smaller by at most two units and
    a 10^14th of the cost. *)
Theorem C61_loss_x L q up : 0 <= L -> price_in_range q -> price_in_range up -> q <= up ->
  0 <= worth_x L q up <= charge_x L q up /\
  (charge_x L q up - worth_x L q up - 2) * 10 ^ 14 <= charge_x L q up.
Proof.
  intros HL Hq Hu Hqu. unfold worth_x, charge_x. unfold price_in_range in *.
  set (n := L * (up - q) / 10 ^ 5). assert (Hn : 0 <= n) by (apply Z.div_pos; [nia|lia]).
  set (m := q * up). assert (Hm : 10 ^ 14 * 10 ^ 24 <= m) by (unfold m; nia).
  set (d := m / 10 ^ 24). set (d' := up_div m (10 ^ 24)).
  assert (Hd : 10 ^ 14 <= d) by (apply Z.div_le_lower_bound; lia).
  assert (Hdd : d <= d' <= d + 1).
  { pose proof (up_div_bounds m (10 ^ 24) ltac:(lia)). pose proof (Z.mul_div_le m (10 ^ 24) ltac:(lia)) as A1.
    pose proof (Z.mul_succ_div_gt m (10 ^ 24) ltac:(lia)) as A2. fold d in A1, A2. fold d' in H. lia. }
  pose proof (up_div_bounds n d ltac:(lia)) as [U1 U2]. set (c := up_div n d) in *.
  pose proof (Z.mul_div_le n d' ltac:(lia)) as W1. pose proof (Z.mul_succ_div_gt n d' ltac:(lia)) as W2.
  pose proof (Z.div_pos n d' Hn ltac:(lia)) as W0. set (w := n / d') in *.
  assert (Hc : 0 <= c) by nia. assert (w <= c) by nia. split; [lia|].
  (* d (c - 1) < n < d' (w + 1) <= (d + 1) (w + 1) *)
  assert (X : d * (c - 1) < (d + 1) * (w + 1)) by nia.
  assert (Y : d * (c - w - 2) <= w) by nia. 
  destruct (Z.le_gt_cases (c - w - 2) 0); nia.
Qed.

(** A price outside the range: only one of the tokens is needed. *)
Theorem C61_below_range L lo up p : lo < up -> p <= lo -> let q := into_range lo up p in
  q = lo /\ charge_y L lo q = 0 /\ worth_y L lo q = 0.
Proof.
  intros H1 H2 q. assert (E : q = lo) by (unfold q, into_range; lia). rewrite E. unfold charge_y, worth_y, up_div.
  rewrite Z.sub_diag, Z.mul_0_r. auto.
Qed.
Theorem C61_above_range L lo up p : lo < up -> up <= p -> let q := into_range lo up p in
  q = up /\ charge_x L q up = 0 /\ worth_x L q up = 0.
Proof.
  intros H1 H2 q. assert (E : q = up) by (unfold q, into_range; lia). rewrite E. unfold charge_x, worth_x, up_div.
  rewrite Z.sub_diag, Z.mul_0_r. auto.
Qed.

(** More liquidity costs no less and is worth no less. *)
Theorem C61_monotone L L' lo q up : 0 <= L <= L' -> price_in_range q -> price_in_range up -> lo <= q <= up ->
  charge_x L q up <= charge_x L' q up /\ charge_y L lo q <= charge_y L' lo q /\
  worth_x L q up <= worth_x L' q up /\ worth_y L lo q <= worth_y L' lo q.
Proof.
  intros HL Hq Hu Hr. unfold price_in_range in *. unfold charge_x, charge_y, worth_x, worth_y.
  assert (Hm : 10 ^ 24 <= q * up) by nia.
  assert (Hd : 0 < q * up / 10 ^ 24) by (apply Z.div_str_pos; lia).
  assert (Hd' : 0 < up_div (q * up) (10 ^ 24)) by (pose proof (up_div_bounds (q * up) (10 ^ 24) ltac:(lia)); lia).
  assert (N : L * (up - q) / 10 ^ 5 <= L' * (up - q) / 10 ^ 5) by (apply Z.div_le_mono; nia).
  split; [apply up_div_le; lia|]. split; [apply up_div_le; nia|].
  split; [apply Z.div_le_mono; lia|]. apply Z.div_le_mono; nia.
Qed.

(** Splitting a position into two changes the cost of each token by at most one unit. *)
Theorem C61_split L1 L2 lo q up : 0 <= L1 -> 0 <= L2 -> price_in_range q -> price_in_range up -> lo <= q <= up ->
  (charge_y (L1 + L2) lo q <= charge_y L1 lo q + charge_y L2 lo q <= charge_y (L1 + L2) lo q + 1) /\
  (charge_x (L1 + L2) q up - 1 <= charge_x L1 q up + charge_x L2 q up <= charge_x (L1 + L2) q up + 1).
Proof.
  intros H1 H2 Hq Hu Hr. unfold price_in_range in *. unfold charge_x, charge_y.
  assert (Hm : 10 ^ 24 <= q * up) by nia.
  assert (Hd : 0 < q * up / 10 ^ 24) by (apply Z.div_str_pos; lia). set (d := q * up / 10 ^ 24) in *.
  assert (S : forall a b c e, 0 < e -> a + b <= c <= a + b + 1 ->
    up_div c e - 1 <= up_div a e + up_div b e <= up_div c e + 1).
  { intros a b c e He Hc. pose proof (up_div_bounds a e He). pose proof (up_div_bounds b e He). pose proof (up_div_bounds c e He). nia. }
  split.
  - rewrite Z.mul_add_distr_r. set (a := L1 * (q - lo)). set (b := L2 * (q - lo)).
    pose proof (up_div_bounds a (10 ^ 29) ltac:(lia)). pose proof (up_div_bounds b (10 ^ 29) ltac:(lia)).
    pose proof (up_div_bounds (a + b) (10 ^ 29) ltac:(lia)). lia.
  - apply S; [lia|]. rewrite Z.mul_add_distr_r. set (a := L1 * (up - q)). set (b := L2 * (up - q)).
    pose proof (Z.mul_div_le a (10 ^ 5) ltac:(lia)). pose proof (Z.mul_succ_div_gt a (10 ^ 5) ltac:(lia)).
    pose proof (Z.mul_div_le b (10 ^ 5) ltac:(lia)). pose proof (Z.mul_succ_div_gt b (10 ^ 5) ltac:(lia)).
    pose proof (Z.mul_div_le (a + b) (10 ^ 5) ltac:(lia)). pose proof (Z.mul_succ_div_gt (a + b) (10 ^ 5) ltac:(lia)). lia.
Qed.

(** ** Opening and closing at once *)

Theorem C61_round_trip evs s e e' k lo up L sl su s' pos s'' x y :
  history room evs s -> event_wf (Call e (OpCreatePosition k lo up L sl su)) ->
  room s (Call e (OpCreatePosition k lo up L sl su)) ->
  create_position e s k lo up L sl su = Ok (s', pos) ->
  e_caller e' = e_caller e -> remove_position e' s' (get_user_position_amount s (e_caller e)) = Ok (s'', (x, y)) ->
  let lost t := bal s (e_caller e) t - bal s'' (e_caller e) t in
  0 <= lost (pk_token_y k) <= 1 /\
  0 <= lost (pk_token_x k) /\ (lost (pk_token_x k) - 2) * 10 ^ 14 <= lost (pk_token_x k) + x /\
  forall t, t <> pk_token_x k -> t <> pk_token_y k -> lost t = 0.
Proof.
  intros H W R E EC E'. assert (HL : u256 L) by apply W.
  assert (H' : history room (evs ++ [Call e (OpCreatePosition k lo up L sl su)]) s').
  { replace s' with (exec_event s (Call e (OpCreatePosition k lo up L sl su))).
    - constructor; auto.
    - cbn [exec_event]. unfold exec_op. cbn [run_op]. rewrite E. reflexivity. }
  apply room_Inv in H as I. apply room_Inv in H' as I'.
  destruct (C61_cost _ _ _ _ _ _ _ _ _ _ _ H HL E) as (p & pl & pu & Hp & Pl & Pu & Hlt & MV). cbn zeta in MV.
  destruct (C61_proceeds _ _ _ _ _ _ _ H' E') as (pos1 & p1 & pl1 & pu1 & fx & fy & Hpos1 & Hp1 & Pl1 & Pu1 & _ & _ & _ & _ & X & Y & MV').
  cbn zeta in X, Y, MV'. rewrite EC in MV', Hpos1.
  destruct (create_summary _ _ _ _ _ _ _ _ _ _ I HL E) as (p0 & x0 & y0 & mx & C).
  apply pools_get_Ok in Hp. pose proof (cr_pool _ _ _ _ _ _ _ _ _ _ _ _ _ _ C) as Hp0. rewrite Hp in Hp0. injection Hp0 as <-.
  apply positions_get_Ok in Hpos1. rewrite (cr_positions _ _ _ _ _ _ _ _ _ _ _ _ _ _ C) in Hpos1.
  unfold get_user_position_amount in Hpos1. rewrite lookup_insert in Hpos1. injection Hpos1 as <-.
  pose proof (cr_pos _ _ _ _ _ _ _ _ _ _ _ _ _ _ C) as EP. 
  assert (KP : pos_pool_key pos = k /\ pos_liquidity pos = L /\ pos_lower pos = lo /\ pos_upper pos = up) by (rewrite EP; auto).
  destruct KP as (K1 & K2 & K3 & K4). rewrite K1 in *. rewrite K2 in *. rewrite K3 in *. rewrite K4 in *.
  apply pools_get_Ok in Hp1. rewrite (cr_pools _ _ _ _ _ _ _ _ _ _ _ _ _ _ C), lookup_insert in Hp1. injection Hp1 as <-.
  change (p_sqrt_price (with_liq p lo up L (e_timestamp e))) with (p_sqrt_price p) in X, Y.
  rewrite Pl in Pl1. injection Pl1 as <-. rewrite Pu in Pu1. injection Pu1 as <-.
  (* the fees of the new position are zero *)
  destruct (remove_summary _ _ _ _ _ _ I' E') as (pos2 & p2 & tl & tu & dx & dy & ox & oy & D).
  assert (FZ : fx = 0 /\ fy = 0).
  { pose proof (rm_pos _ _ _ _ _ _ _ _ _ _ _ _ _ _ D) as Hpos2. unfold get_user_position_amount in Hpos2.
    rewrite EC, (cr_positions _ _ _ _ _ _ _ _ _ _ _ _ _ _ C), lookup_insert in Hpos2. injection Hpos2 as <-.
    pose proof (rm_pool _ _ _ _ _ _ _ _ _ _ _ _ _ _ D) as Hp2.
    pose proof (rm_tl _ _ _ _ _ _ _ _ _ _ _ _ _ _ D) as Htl. pose proof (rm_tu _ _ _ _ _ _ _ _ _ _ _ _ _ _ D) as Htu.
    destruct (I_tick _ I' _ _ _ Htl) as [_ T1]. destruct (I_tick _ I' _ _ _ Htu) as [_ T2].
    pose proof (rm_fee_x _ _ _ _ _ _ _ _ _ _ _ _ _ _ D) as FX. pose proof (rm_fee_y _ _ _ _ _ _ _ _ _ _ _ _ _ _ D) as FY.
    pose proof (rm_amounts _ _ _ _ _ _ _ _ _ _ _ _ _ _ D) as Am.
    pose proof (rm_x _ _ _ _ _ _ _ _ _ _ _ _ _ _ D) as RX. pose proof (rm_y _ _ _ _ _ _ _ _ _ _ _ _ _ _ D) as RY.
    rewrite K1 in Hp2, Htl, Htu, T1, T2. rewrite K3 in Htl, T1, Am. rewrite K4 in Htu, T2, Am. rewrite K2 in FX, FY, Am.
    rewrite (cr_pools _ _ _ _ _ _ _ _ _ _ _ _ _ _ C), lookup_insert in Hp2. injection Hp2 as <-.
    pose proof (to_okt _ _ _ _ T1) as Ol. pose proof (to_okt _ _ _ _ T2) as Ou.
    assert (Hp' : s_pools s' !! k = Some (with_liq p lo up L (e_timestamp e))).
    { rewrite (cr_pools _ _ _ _ _ _ _ _ _ _ _ _ _ _ C). apply lookup_insert. }
    pose proof (I_pool _ I' _ _ Hp') as PO'.
    rewrite (amounts_returned k _ PO' lo up Ol Ou (cr_lt _ _ _ _ _ _ _ _ _ _ _ _ _ _ C) L HL) in Am.
    rewrite calculate_sqrt_price_valid in Pl by apply Ol. injection Pl as <-.
    rewrite calculate_sqrt_price_valid in Pu by apply Ou. injection Pu as <-.
    injection Am as <- <-. change (p_sqrt_price (with_liq p lo up L (e_timestamp e))) with (p_sqrt_price p) in RX, RY.
    destruct (cr_ticks _ _ _ _ _ _ _ _ _ _ _ _ _ _ C) as (tl' & tu' & ET & X1 & Y1 & X2 & Y2).
    rewrite ET in Htl, Htu. rewrite lookup_insert in Htu. injection Htu as <-.
    rewrite lookup_insert_ne, lookup_insert in Htl by (intros [= ?]; pose proof (cr_lt _ _ _ _ _ _ _ _ _ _ _ _ _ _ C); lia).
    injection Htl as <-.
    assert (EX : inside_x (with_liq p lo up L (e_timestamp e)) tl' tu' = pos_fee_growth_inside_x pos).
    { unfold inside_x. rewrite X1, X2, (to_index _ _ _ _ T1), (to_index _ _ _ _ T2), EP. reflexivity. }
    assert (EY : inside_y (with_liq p lo up L (e_timestamp e)) tl' tu' = pos_fee_growth_inside_y pos).
    { unfold inside_y. rewrite Y1, Y2, (to_index _ _ _ _ T1), (to_index _ _ _ _ T2), EP. reflexivity. }
    rewrite <- EX, unchecked_sub_self, to_fee_0 in FX by first [exact HL | apply inside_u128; [apply T1|apply T2|apply PO']].
    rewrite <- EY, unchecked_sub_self, to_fee_0 in FY by first [exact HL | apply inside_u128; [apply T1|apply T2|apply PO']].
    injection FX as <-. injection FY as <-. lia. }
  destruct FZ as [-> ->].
  pose proof (I_pool _ I _ _ Hp) as PO. pose proof (po_tokens _ _ PO) as T.
  assert (RL : price_in_range pl /\ price_in_range pu).
  { destruct (cr_lo _ _ _ _ _ _ _ _ _ _ _ _ _ _ C) as [V1 _]. destruct (cr_up _ _ _ _ _ _ _ _ _ _ _ _ _ _ C) as [V2 _].
    rewrite calculate_sqrt_price_valid in Pl, Pu by auto. injection Pl as <-. injection Pu as <-. split; apply price_range; auto. }
  destruct RL as [RL RU]. set (q := into_range pl pu (p_sqrt_price p)) in *.
  assert (Hq : pl <= q <= pu) by (unfold q, into_range; lia).
  assert (RQ : price_in_range q) by (unfold price_in_range in *; lia).
  pose proof (C61_loss_y L pl q) as LY. destruct (C61_loss_x L q pu) as [LX1 LX2]; [unfold u256 in HL; lia|auto|auto|lia|].
  assert (BL : forall t, bal s'' (e_caller e) t - bal s (e_caller e) t =
    sum_on t [(pk_token_x k, - charge_x L q pu); (pk_token_y k, - charge_y L pl q)] + sum_on t [(pk_token_x k, x); (pk_token_y k, y)]).
  { intros t. rewrite (MV' (e_caller e) t), (MV (e_caller e) t), Z.eqb_refl. lia. }
  cbn [sum_on] in BL. cbn zeta.
  pose proof (BL (pk_token_x k)) as BX. pose proof (BL (pk_token_y k)) as BY. rewrite !Z.eqb_refl in BX, BY.
  destruct (Z.eqb_spec (pk_token_x k) (pk_token_y k)); [lia|]. destruct (Z.eqb_spec (pk_token_y k) (pk_token_x k)); [lia|].
  split; [lia|]. split; [lia|]. split; [lia|].
  intros t T1 T2. specialize (BL t). destruct (Z.eqb_spec t (pk_token_x k)); [lia|]. destruct (Z.eqb_spec t (pk_token_y k)); [lia|]. lia.
Qed.

(** Opening and closing in range costs one unit of each token here; a position above
    the price costs only x, one below only y. *)
Example C61_case : history room evs_traded s_traded /\
  (match create_position (by_ alice) s_traded pool1 (-50) 50 100000000000 0 any_price with
   | Ok (s', _) => match remove_position (by_ alice) s' 2 with
     | Ok (s'', (x, y)) => Some (bal s_traded alice tokA - bal s' alice tokA, bal s_traded alice tokB - bal s' alice tokB, x, y,
                                 get_user_position_amount s_traded alice)
     | _ => None end
   | _ => None end) = Some (3287, 1708, 3286, 1707, 2) /\
  (match create_position (by_ alice) s_traded pool1 (-10) 50 100000000000 0 any_price with
   | Ok (s', _) => Some (bal s_traded alice tokA - bal s' alice tokA, bal s_traded alice tokB - bal s' alice tokB)
   | _ => None end) = Some (2997, 0) /\
  (match create_position (by_ alice) s_traded pool1 (-50) (-20) 100000000000 0 any_price with
   | Ok (s', _) => Some (bal s_traded alice tokA - bal s' alice tokA, bal s_traded alice tokB - bal s' alice tokB)
   | _ => None end) = Some (0, 1498) /\
  (match remove_position (by_ alice) s_traded 0, claim_fee (by_ alice) s_traded 0 with
   | Ok (_, xy), Ok (_, fees) => Some (xy, fees)
   | _, _ => None end) = Some ((2296, 210), (8, 0)).
Proof. split; [apply s_traded_room|]. crunch. Qed.

(** ** Assumptions *)
Print Assumptions C61_cost.
Print Assumptions C61_proceeds.
Print Assumptions C61_loss_y.
Print Assumptions C61_loss_x.
Print Assumptions C61_below_range.
Print Assumptions C61_above_range.
Print Assumptions C61_monotone.
Print Assumptions C61_split.
Print Assumptions C61_round_trip.
