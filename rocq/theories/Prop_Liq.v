(** Property C44: the liquidity that the SDK computes for an amount of one token.

    A wallet asks getLiquidityByX / getLiquidityByY for the liquidity that an
    amount of one token buys in a range at the pool's current price, and for the
    amount of the other token that goes with it; it then opens a position with
    that liquidity.  [y_num/y_den] and [x_num/x_den] (SpecMath.v) are the exact
    amounts for a liquidity between two prices, [moves] (Prop_State.v) says how
    the caller's balances change. *)
From Verif Require Import Base Decimal SqrtPriceM LogM ClammM FeeGrowthM Types TickmapM StorageM
  CollectionsM StateM ServiceM LiquidityM Arith SpecMath SpecSum SpecState SpecHistory
  P_Clamm P_Delta P_TickPrice P_Balance P_Effects P_History P_Tickmap P_Check P_State P_Inv P_InvPos P_PosOps P_InvHist
  P_Liq P_LiqCharge Prop_State Cases CasesClean.
From stdpp Require Import gmap list.
From Coq Require Import ZArith Lia Bool.
Open Scope Z_scope.

Section Facts.
  Context (evs : list event) (s : state) (k : pool_key) (p : pool).
  Context (H : history room evs s) (Hp : pools_get s k = Ok p).

  Lemma facts : Inv s /\ s_pools s !! k = Some p /\ pool_ok k p.
  Proof using H Hp.
    assert (I : Inv s) by (eapply Inv_history; [|exact H]; auto).
    apply pools_get_Ok in Hp as Hp'. split; [auto|]. split; [auto|]. apply (I_pool _ I _ _ Hp').
  Qed.

  Lemma charged e lo up L sl su s' pos : u256 L -> create_position e s k lo up L sl su = Ok (s', pos) ->
    let q := p_sqrt_price p in
    exists x y, moves s s' (e_caller e) [(pk_token_x k, - x); (pk_token_y k, - y)] /\
    (q <= price up -> x = cdiv (dx_nom (Z.max (price lo) q) (price up) L) (dx_den (Z.max (price lo) q) (price up))) /\
    (price up <= q -> x = 0) /\
    (price lo <= q -> y = cdiv (Z.abs (price lo - Z.min (price up) q) * L) E29) /\
    (q <= price lo -> y = 0).
  Proof using H Hp.
    intros HL HC. destruct facts as (I & Hp' & PO). cbv zeta.
    apply create_summary in HC as (p0 & x & y & mx & C); auto.
    pose proof (cr_pool _ _ _ _ _ _ _ _ _ _ _ _ _ _ C) as E. rewrite Hp' in E. injection E as <-.
    exists x, y. split; [apply ledger_moves2; apply C|].
    eapply (charge_prices k p PO lo up); [apply C|apply C|apply C|auto|apply C].
  Qed.
End Facts.

Lemma tick_valid t : -221818 <= t <= 221818 -> valid_tick t.
Proof. unfold valid_tick. lia. Qed.

(** ** Affordable *)

(** Opening a position with the returned liquidity takes at most the x that was
    asked for; the y it takes is at least the estimate, and above it by at most one
    unit (two if the estimate was rounded down) plus the price distance between the
    pool and the lower end of the range, in whole price units. *)
Theorem C44_by_x_is_affordable evs s e k p lo up x ru L est sl su s' pos pl :
  history room evs s -> pools_get s k = Ok p -> u256 x -> -221818 <= lo < up -> up <= 221818 ->
  get_liquidity_by_x x lo up (p_sqrt_price p) ru = Ok (L, est) ->
  create_position e s k lo up L sl su = Ok (s', pos) ->
  calculate_sqrt_price lo = Ok pl ->
  exists ax ay, moves s s' (e_caller e) [(pk_token_x k, - ax); (pk_token_y k, - ay)] /\
    0 <= ax <= x /\ est <= ay /\
    (ay - est - (if ru then 1 else 2)) * 10 ^ 24 < Z.max 0 (p_sqrt_price p - pl).
Proof.
  intros H Hp Hx Hlo Hup HG HC Hpl. destruct (facts _ _ _ _ H Hp) as (I & Hp' & PO).
  assert (V1 : valid_tick lo) by (apply tick_valid; lia). assert (V2 : valid_tick up) by (apply tick_valid; lia).
  rewrite calculate_sqrt_price_valid in Hpl by auto. injection Hpl as <-.
  apply by_x_inv in HG as (Ga & GL & UL & GE); auto; [|lia|apply PO].
  pose proof (charged _ _ _ _ H Hp _ _ _ _ _ _ _ _ UL HC) as (ax & ay & HM & CX & _ & CY & CY0). cbv zeta in *.
  set (q := p_sqrt_price p) in *. pose proof (po_range _ _ PO) as R. fold q in R.
  pose proof (price_range _ V1) as R1. pose proof (price_range _ V2) as R2.
  pose proof (price_lt _ _ V1 V2 ltac:(lia)) as PL.
  assert (R3 : price_in_range (Z.max (price lo) q)) by (unfold price_in_range in *; lia).
  exists ax, ay. split; [exact HM|]. apply u256_M in Hx as Hx'. apply u256_M in UL as UL'.
  assert (AX : 0 <= ax <= x).
  { rewrite CX by lia. split.
    - apply cdiv_nonneg; [pose proof (dx_den_pos _ _ (range_wide _ R3) (range_wide _ R2)); lia|].
      unfold dx_nom. apply div_nonneg; [reflexivity|]. apply Z.mul_nonneg_nonneg; lia.
    - apply by_x_charge; auto using range_wide; lia. }
  split; [exact AX|]. destruct (Z.ltb_spec q (price lo)) as [G|G].
  - rewrite CY0 by lia. subst est. split; [lia|]. destruct ru; lia.
  - rewrite CY by lia. rewrite Z.min_r by lia. replace (Z.abs (price lo - q)) with (q - price lo) by lia.
    pose proof (calculate_y_estimate ru (q - price lo) L ltac:(lia) ltac:(lia)) as [S1 S2]. rewrite <- GE in S1, S2.
    split; [exact S1|]. rewrite Z.max_r by lia. exact S2.
Qed.

(** The same for an amount of y; the x taken exceeds its estimate by at most two
    units (three if rounded down) plus 10^19 divided by the product of the pool's
    price and the upper price (raw, rounded down to 24 digits; at least 2*10^14). *)
Theorem C44_by_y_is_affordable evs s e k p lo up y ru L est sl su s' pos pu :
  history room evs s -> pools_get s k = Ok p -> u256 y -> -221818 <= lo < up -> up <= 221818 ->
  get_liquidity_by_y y lo up (p_sqrt_price p) ru = Ok (L, est) ->
  create_position e s k lo up L sl su = Ok (s', pos) ->
  calculate_sqrt_price up = Ok pu ->
  exists ax ay, moves s s' (e_caller e) [(pk_token_x k, - ax); (pk_token_y k, - ay)] /\
    0 <= ay <= y /\ est <= ax /\
    (ax - est - (if ru then 2 else 3)) * (p_sqrt_price p * pu / 10 ^ 24) < 10 ^ 19.
Proof.
  intros H Hp Hx Hlo Hup HG HC Hpl. destruct (facts _ _ _ _ H Hp) as (I & Hp' & PO).
  assert (V1 : valid_tick lo) by (apply tick_valid; lia). assert (V2 : valid_tick up) by (apply tick_valid; lia).
  rewrite calculate_sqrt_price_valid in Hpl by auto. injection Hpl as <-.
  apply by_y_inv in HG as (Ga & GL & UL & GE); auto; [|lia|apply PO].
  pose proof (charged _ _ _ _ H Hp _ _ _ _ _ _ _ _ UL HC) as (ax & ay & HM & CX & CX0 & CY & _). cbv zeta in *.
  set (q := p_sqrt_price p) in *. pose proof (po_range _ _ PO) as R. fold q in R.
  pose proof (price_range _ V1) as R1. pose proof (price_range _ V2) as R2.
  pose proof (price_lt _ _ V1 V2 ltac:(lia)) as PL.
  exists ax, ay. split; [exact HM|]. apply u256_M in Hx as Hx'. apply u256_M in UL as UL'.
  assert (AY : 0 <= ay <= y).
  { rewrite CY by lia. split.
    - apply cdiv_nonneg; [reflexivity|]. apply Z.mul_nonneg_nonneg; lia.
    - apply by_y_charge; auto; lia. }
  split; [exact AY|]. pose proof (dx_den_pos _ _ (range_wide _ R) (range_wide _ R2)) as D.
  change (q * price up / 10 ^ 24) with (dx_den q (price up)).
  destruct (Z.leb_spec (price up) q) as [G|G].
  - rewrite CX0 by lia. subst est. split; [lia|]. assert (0 < 10 ^ 19) by reflexivity. destruct ru; nia.
  - rewrite CX by lia. rewrite Z.max_r by lia. unfold dx_nom. replace (Z.abs (q - price up)) with (price up - q) by lia.
    pose proof (calculate_x_estimate ru (price up - q) (dx_den q (price up)) L ltac:(lia) ltac:(lia) ltac:(lia)) as [S1 S2].
    rewrite <- GE in S1, S2. split; [exact S1|]. exact S2.
Qed.

(** [get_liquidity] (both amounts given; contracts library only): the returned
    liquidity costs at most x and at most y. *)
Theorem C44_both_is_affordable evs s e k p lo up x y ru rx ry L sl su s' pos :
  history room evs s -> pools_get s k = Ok p -> u256 x -> u256 y -> -221818 <= lo < up -> up <= 221818 ->
  get_liquidity x y lo up (p_sqrt_price p) ru = Ok (rx, ry, L) ->
  create_position e s k lo up L sl su = Ok (s', pos) ->
  exists ax ay, moves s s' (e_caller e) [(pk_token_x k, - ax); (pk_token_y k, - ay)] /\
    0 <= ax <= x /\ 0 <= ay <= y.
Proof.
  intros H Hp Hx Hy Hlo Hup HG HC. destruct (facts _ _ _ _ H Hp) as (I & Hp' & PO).
  assert (V1 : valid_tick lo) by (apply tick_valid; lia). assert (V2 : valid_tick up) by (apply tick_valid; lia).
  set (q := p_sqrt_price p) in *. pose proof (po_range _ _ PO) as R. fold q in R.
  pose proof (price_range _ V1) as R1. pose proof (price_range _ V2) as R2.
  pose proof (price_lt _ _ V1 V2 ltac:(lia)) as PL. apply u256_M in Hx as Hx'. apply u256_M in Hy as Hy'.
  assert (G0 : ((lo <? - MAX_TICK) || (MAX_TICK <? up)) = false).
  { change MAX_TICK with 221818 in *. apply orb_false_iff. split; apply Z.ltb_ge; lia. }
  assert (FX : get_liquidity_by_x_sqrt_price x (price lo) (price up) q ru = get_liquidity_by_x x lo up q ru).
  { unfold get_liquidity_by_x. rewrite G0, !calculate_sqrt_price_valid by auto. reflexivity. }
  assert (FY : get_liquidity_by_y_sqrt_price y (price lo) (price up) q ru = get_liquidity_by_y y lo up q ru).
  { unfold get_liquidity_by_y. rewrite G0, !calculate_sqrt_price_valid by auto. reflexivity. }
  unfold get_liquidity in HG. rewrite G0, !calculate_sqrt_price_valid in HG by auto. cbn [fail_if bind] in HG.
  rewrite FX, FY in HG.
  assert (CH : u256 L -> exists ax ay, moves s s' (e_caller e) [(pk_token_x k, - ax); (pk_token_y k, - ay)] /\
    (q <= price up -> ax = cdiv (dx_nom (Z.max (price lo) q) (price up) L) (dx_den (Z.max (price lo) q) (price up))) /\
    (price up <= q -> ax = 0) /\
    (price lo <= q -> ay = cdiv (Z.abs (price lo - Z.min (price up) q) * L) E29) /\
    (q <= price lo -> ay = 0)).
  { intros UL. apply (charged _ _ _ _ H Hp _ _ _ _ _ _ _ _ UL HC). }
  assert (R3 : price_in_range (Z.max (price lo) q)) by (unfold price_in_range in *; lia).
  assert (CX : forall Lx, u256 L -> u256 Lx -> L <= Lx -> Z.max (price lo) q < price up ->
     Lx = x * dx_den (Z.max (price lo) q) (price up) * LIQUIDITY_ONE / (price up - Z.max (price lo) q) ->
     0 <= cdiv (dx_nom (Z.max (price lo) q) (price up) L) (dx_den (Z.max (price lo) q) (price up)) <= x).
  { intros Lx UL%u256_M ULx%u256_M Hle Hlt E.
    pose proof (dx_den_pos _ _ (range_wide _ R3) (range_wide _ R2)) as D. split.
    - apply cdiv_nonneg; [lia|]. unfold dx_nom. apply div_nonneg; [reflexivity|]. apply Z.mul_nonneg_nonneg; lia.
    - eapply Z.le_trans; [|apply (by_x_charge x (Z.max (price lo) q) (price up) Lx); auto using range_wide; lia].
      apply cdiv_mono; [lia|]. unfold dx_nom. apply Z.div_le_mono; [reflexivity|]. apply Z.mul_le_mono_nonneg_l; lia. }
  assert (CY : forall Ly, u256 L -> u256 Ly -> L <= Ly -> price lo < Z.min (price up) q ->
     Ly = y * SQRT_PRICE_ONE * LIQUIDITY_ONE / (Z.min (price up) q - price lo) ->
     0 <= cdiv (Z.abs (price lo - Z.min (price up) q) * L) E29 <= y).
  { intros Ly UL%u256_M ULy%u256_M Hle Hlt E. split.
    - apply cdiv_nonneg; [reflexivity|]. apply Z.mul_nonneg_nonneg; lia.
    - eapply Z.le_trans; [|apply (by_y_charge y (price lo) (Z.min (price up) q) Ly); auto; lia].
      apply cdiv_mono; [reflexivity|]. apply Z.mul_le_mono_nonneg_l; lia. }
  destruct (Z.ltb_spec (price up) q) as [G|G].
  - apply bind_Ok' in HG as ([l a] & E & HG). injection HG as <- <- <-.
    apply by_y_inv in E as (Ga & GL & UL & GE); auto; [|lia]. cbv zeta in *.
    destruct (CH UL) as (ax & ay & HM & _ & X0 & Y & _). exists ax, ay. split; [exact HM|].
    rewrite X0, Y by lia. split; [lia|]. apply (CY l); auto. lia.
  - destruct (Z.ltb_spec q (price lo)) as [G2|G2].
    + apply bind_Ok' in HG as ([l a] & E & HG). injection HG as <- <- <-.
      apply by_x_inv in E as (Ga & GL & UL & GE); auto; [|lia]. cbv zeta in *.
      destruct (CH UL) as (ax & ay & HM & X & _ & _ & Y0). exists ax, ay. split; [exact HM|].
      rewrite X, Y0 by lia. split; [|lia]. apply (CX l); auto. lia.
    + apply bind_Ok' in HG as ([ly a] & E & HG). apply bind_Ok' in HG as ([lx b] & F & HG).
      apply by_y_inv in E as (Ga & GL & UL & GE); auto; [|lia].
      apply by_x_inv in F as (Fa & FL & UL2 & FE); auto; [|lia]. cbv zeta in *.
      assert (HL : L = Z.min ly lx). { destruct (Z.ltb_spec ly lx); injection HG as _ _ <-; lia. }
      assert (U : u256 L) by (rewrite HL; destruct (Z.min_spec ly lx) as [[_ ->]|[_ ->]]; auto).
      destruct (CH U) as (ax & ay & HM & X & _ & Y & _). exists ax, ay. split; [exact HM|].
      rewrite X, Y by lia. split; [apply (CX lx); auto; lia|apply (CY ly); auto; lia].
Qed.

(** ** Nothing is wasted *)

(** From y: any larger liquidity costs more than y (exactly, before rounding). *)
Theorem C44_by_y_is_largest y lo up p ru L est pl pu L' :
  u256 y -> -221818 <= lo < up -> up <= 221818 -> price_in_range p ->
  calculate_sqrt_price lo = Ok pl -> calculate_sqrt_price up = Ok pu ->
  get_liquidity_by_y y lo up p ru = Ok (L, est) -> L < L' ->
  y * y_den < y_num pl (Z.min pu p) L'.
Proof.
  intros Hx Hlo Hup R Hpl Hpu HG HL.
  assert (V1 : valid_tick lo) by (apply tick_valid; lia). assert (V2 : valid_tick up) by (apply tick_valid; lia).
  rewrite calculate_sqrt_price_valid in Hpl, Hpu by auto. injection Hpl as <-. injection Hpu as <-.
  apply by_y_inv in HG as (Ga & GL & UL & GE); auto; [|lia]. cbv zeta in *. apply u256_M in Hx.
  eapply Z.lt_le_trans; [apply (by_y_largest y (price lo) (Z.min (price up) p)); lia|]. rewrite <- GL.
  unfold y_num. apply Z.mul_le_mono_nonneg_r; lia.
Qed.

(** From x: any larger liquidity costs more than x, up to a relative error of 1/(2*10^14). *)
Theorem C44_by_x_is_almost_largest x lo up p ru L est pl pu L' :
  u256 x -> -221818 <= lo < up -> up <= 221818 -> price_in_range p ->
  calculate_sqrt_price lo = Ok pl -> calculate_sqrt_price up = Ok pu ->
  get_liquidity_by_x x lo up p ru = Ok (L, est) -> L < L' ->
  let a := Z.max pl p in
  x * x_den a pu * (2 * 10 ^ 14) < x_num a pu L' * (2 * 10 ^ 14 + 1).
Proof.
  intros Hx Hlo Hup R Hpl Hpu HG HL. cbv zeta.
  assert (V1 : valid_tick lo) by (apply tick_valid; lia). assert (V2 : valid_tick up) by (apply tick_valid; lia).
  rewrite calculate_sqrt_price_valid in Hpl, Hpu by auto. injection Hpl as <-. injection Hpu as <-.
  apply by_x_inv in HG as (Ga & GL & UL & GE); auto; [|lia]. cbv zeta in *. apply u256_M in Hx.
  pose proof (price_range _ V1) as R1. pose proof (price_range _ V2) as R2.
  eapply Z.lt_le_trans; [apply by_x_largest; auto; [lia|unfold price_in_range in *; lia]|]. rewrite <- GL.
  apply Z.mul_le_mono_nonneg_r; [lia|]. unfold x_num. apply Z.mul_le_mono_nonneg_r; [lia|]. apply Z.mul_le_mono_nonneg_r; lia.
Qed.

(** ** Availability *)

(** A price above the range is an error, a price exactly at its upper end a panic;
    otherwise there is a result unless the liquidity, or the other token's amount in
    raw price units, does not fit 256 bits. *)
Theorem C44_by_x_outcomes x lo up p ru pl pu :
  u256 x -> -221818 <= lo < up -> up <= 221818 -> price_in_range p ->
  calculate_sqrt_price lo = Ok pl -> calculate_sqrt_price up = Ok pu ->
  let a := Z.max pl p in
  let n := x * (a * pu / 10 ^ 24) * 10 ^ 5 in
  let r := get_liquidity_by_x x lo up p ru in
  (pu < p -> r = Err ETrack) /\ (p = pu -> r = Panic) /\
  (p < pu -> (exists L est, r = Ok (L, est)) \/
     (r = Err ETrack /\ 2 ^ 256 * (pu - a) <= n) \/
     (r = Panic /\ 2 ^ 256 - 10 ^ 24 <= (p - pl) * (n / (pu - a) / 10 ^ 5))).
Proof.
  intros Hx Hlo Hup R Hpl Hpu. cbv zeta.
  assert (V1 : valid_tick lo) by (apply tick_valid; lia). assert (V2 : valid_tick up) by (apply tick_valid; lia).
  rewrite calculate_sqrt_price_valid in Hpl, Hpu by auto. injection Hpl as <-. injection Hpu as <-.
  apply (by_x_total x lo up p ru); auto. lia.
Qed.

Theorem C44_by_y_outcomes y lo up p ru pl pu :
  u256 y -> -221818 <= lo < up -> up <= 221818 -> price_in_range p ->
  calculate_sqrt_price lo = Ok pl -> calculate_sqrt_price up = Ok pu ->
  let b := Z.min pu p in
  let n := y * 10 ^ 24 * 10 ^ 5 in
  let r := get_liquidity_by_y y lo up p ru in
  (p < pl -> r = Err ETrack) /\ (p = pl -> r = Panic) /\
  (pl < p -> (exists L est, r = Ok (L, est)) \/
     (r = Err ETrack /\ 2 ^ 256 * (b - pl) <= n) \/
     (r = Panic /\ (2 ^ 256 - 10 ^ 5) * Z.min (10 ^ 24) (p * pu / 10 ^ 24) <= n / (b - pl) * (pu - p))).
Proof.
  intros Hx Hlo Hup R Hpl Hpu. cbv zeta.
  assert (V1 : valid_tick lo) by (apply tick_valid; lia). assert (V2 : valid_tick up) by (apply tick_valid; lia).
  rewrite calculate_sqrt_price_valid in Hpl, Hpu by auto. injection Hpl as <-. injection Hpu as <-.
  apply (by_y_total y lo up p ru); auto. lia.
Qed.

(** ** Cases *)

Definition dave := 14.

(** A wallet with 1001 of token A and the estimated amount of token B, rounded up
    (15675), cannot open the position; one more unit of token B is needed. *)
Definition evs_short (y : Z) := evs_traded ++ [Credit dave tokA 1001; Credit dave tokB y].
Definition s_short (y : Z) := run_events admin 10000000000 (evs_short y).

Lemma s_short_room y : u256 y -> history room (evs_short y) (s_short y).
Proof.
  intros Hy. apply history_room; [|reflexivity]. apply run_events_history; [unfold u128; lia|].
  unfold evs_short, evs_traded, setup, positions3, swaps. cbn [app].
  repeat (apply Forall_cons; split); try apply Forall_nil;
  unfold event_wf, env_wf, op_wf, tier_wf, u16, u32, u64, i32, u128, u256; cbn; try lia; try exact Hy;
  repeat split; cbn; try lia; try discriminate.
Qed.

Theorem C44_estimate_covers_refuted :
  history room (evs_short 15675) (s_short 15675) /\
  (match pools_get (s_short 15675) pool1 with
   | Ok p => match get_liquidity_by_x 1001 (-30000) 1000 (p_sqrt_price p) true with
             | Ok le => Some le | _ => None end
   | _ => None end) = Some (2019870566, 15675) /\
  is_Ok (create_position (by_ dave) (s_short 15675) pool1 (-30000) 1000 2019870566 0 any_price) = false /\
  is_Ok (create_position (by_ dave) (s_short 15676) pool1 (-30000) 1000 2019870566 0 any_price) = true.
Proof.
  split; [apply s_short_room; unfold u256; lia|]. crunch.
Qed.

(** The hypotheses of the theorems are met: both kinds of estimate, in and out of range. *)
Example C44_case :
  history room (evs_short 15676) (s_short 15676) /\
  (match pools_get (s_short 15676) pool1 with Ok p => Some (p_sqrt_price p) | _ => None end) = Some 999211189370072007762822 /\
  get_liquidity_by_x 1001 (-30000) 1000 999211189370072007762822 true = Ok (2019870566, 15675) /\
  get_liquidity_by_x 1001 10 1000 999211189370072007762822 true = Ok (2073822807, 0) /\
  get_liquidity_by_y 39729 (-30000) 1000 999211189370072007762822 true = Ok (5119292340, 2537) /\
  get_liquidity_by_y 39729 (-30000) (-1000) 999211189370072007762822 false = Ok (5456643801, 0) /\
  get_liquidity_by_x 1001 (-30000) 0 1000000000000000000000000 true = Panic /\
  get_liquidity_by_y 1001 0 10 1000000000000000000000000 true = Panic.
Proof. split; [apply s_short_room; unfold u256; lia|]. crunch. Qed.

(** [get_liquidity] pairs the amounts of two different liquidities: the y it
    reports can exceed the y that was offered. *)
Theorem C44_both_amounts_refuted :
  get_liquidity 1001 100 (-30000) 1000 999211189370072007762822 true = Ok (7, 15675, 12885530).
Proof. vm_compute. reflexivity. Qed.

(** ** Assumptions *)
Print Assumptions C44_by_x_is_affordable.
Print Assumptions C44_by_y_is_affordable.
Print Assumptions C44_both_is_affordable.
Print Assumptions C44_by_y_is_largest.
Print Assumptions C44_by_x_is_almost_largest.
Print Assumptions C44_by_x_outcomes.
Print Assumptions C44_by_y_outcomes.
Print Assumptions C44_estimate_covers_refuted.
Print Assumptions C44_both_amounts_refuted.
