(** C58: why a quote or a swap does not succeed, and amounts that always do. *)
From Verif Require Import Base Decimal SqrtPriceM LogM ClammM FeeGrowthM Types TickmapM StorageM
  CollectionsM StateM ServiceM Arith SpecMath SpecFees SpecSum SpecState SpecHistory SpecClean SpecPath SpecOutcome
  P_TickPrice P_GetTick P_Tickmap P_Closer P_Fees P_Balance P_Effects P_Positions P_History P_State P_Inv P_Swap P_InvHist P_Active P_Quote P_Path P_Outcome P_Capacity Cases CasesClean Prop_State Prop_Ticks Prop_Swap.
From stdpp Require Import gmap list.
From Coq Require Import ZArith Lia Bool.
Open Scope Z_scope.

(** Every quote, after any history without unclean swaps, in ordinary circumstances:
    it ends, and its outcome has the cause that its error names.  There are no
    other errors. *)
Theorem C58_quote_outcome evs s e k d a bi lim p : history regular evs s -> ordinary e s k d bi p a ->
  explained s k d bi p a lim (quote e s k d a bi lim).
Proof.
  intros H [Ha Hg Hf Hp Hpf Hts Hl Hr]. destruct (active_history _ _ H) as (I & GB & _).
  pose proof (C23_active_liquidity_guarded _ _ _ _ H Hg) as HA. apply pools_get_Ok in Hg as Hp0.
  pose proof (swap_outcome s (e_timestamp e) k d bi a lim p I GB Hp0 Ha (eq_sym HA) Hf Hp Hpf Hts Hl Hr) as HO.
  unfold quote. destruct (calculate_swap s (e_timestamp e) k d a bi lim) as [r|er| |]; exact HO || exact Logic.I.
Qed.

(** The same for a swap: its outcome has such a cause, or the quote succeeds but
    the caller does not have the input or cannot receive the output. *)
Theorem C58_swap_outcome evs s e k d a bi lim p : history regular evs s -> ordinary e s k d bi p a ->
  explained s k d bi p a lim (swap e s k d a bi lim) \/
  exists q, quote e s k d a bi lim = Ok q /\
    (bal s (e_caller e) (if d then pk_token_x k else pk_token_y k) < q_amount_in q \/
     2 ^ 256 <= bal s (e_caller e) (if d then pk_token_y k else pk_token_x k) + q_amount_out q).
Proof.
  intros H HO. pose proof (or_amount _ _ _ _ _ _ _ HO) as Ha. apply (C58_quote_outcome evs s e k d a bi lim p H) in HO. unfold quote in HO.
  destruct (calculate_swap s (e_timestamp e) k d a bi lim) as [r|er| |] eqn:E.
  - destruct (Z.le_gt_cases (cs_amount_in r) (bal s (e_caller e) (if d then pk_token_x k else pk_token_y k))) as [H1|H1].
    + destruct (Z.lt_ge_cases (bal s (e_caller e) (if d then pk_token_y k else pk_token_x k) + cs_amount_out r) (2 ^ 256)) as [H2|H2].
      * left. destruct (active_history _ _ H) as (I & _). destruct (swap_ok e s k d a bi lim r I Ha E H1 H2) as [s' ->]. exact Logic.I.
      * right. unfold quote. rewrite E. eexists. split; [reflexivity|]. right. exact H2.
    + right. unfold quote. rewrite E. eexists. split; [reflexivity|]. left. exact H1.
  - left. unfold swap. rewrite E. exact HO.
  - left. unfold swap. rewrite E. exact HO.
  - left. unfold swap. rewrite E. exact HO.
Qed.

(** ** Amounts that the pool takes *)

(** Paying y: if at all prices up to the limit the curve has at least the liquidity
    [L], and [L] alone takes the amount before the limit, which is below the end of
    the prices, the quote succeeds (or pays nothing out). *)
Theorem C58_exact_in_up_guarded evs s e k a lim p L m : history regular evs s -> ordinary e s k false true p a -> 0 < a ->
  p_sqrt_price p < lim -> get_max_tick (pk_spacing k) = Ok m -> lim < tick_price m ->
  0 < L -> (forall q, p_sqrt_price p - 1 <= q <= lim -> L <= curve s k q) ->
  a * 10 ^ 29 <= L * (lim - p_sqrt_price p) ->
  (exists r, quote e s k false a true lim = Ok r) \/ quote e s k false a true lim = Err NoGainSwap.
Proof.
  intros H HO Ha Hlim Hm Hend HL HC Hcap. pose proof (C58_quote_outcome evs s e k false a true lim p H HO) as HX.
  pose proof (or_fee _ _ _ _ _ _ _ HO) as Hf. pose proof (or_fee_pos _ _ _ _ _ _ _ HO eq_refl) as Hf0.
  destruct (active_history _ _ H) as (I & _). pose proof (or_pool _ _ _ _ _ _ _ HO) as Hp. apply pools_get_Ok in Hp.
  pose proof (po_range _ _ (I_pool _ I _ _ Hp)) as Hrange.
  assert (Hmax : tick_price m <= 65535383934512647000000000000).
  { pose proof (pool_spacing _ _ (I_pool _ I _ _ Hp)) as Hs.
    assert (Em : m = maxt (pk_spacing k)) by (apply (tick_limits k false); [lia|exact Hm]).
    assert (Hv : valid_tick m) by (rewrite Em; apply (okt_valid (pk_spacing k)), okt_maxt; lia).
    rewrite tick_price_valid by exact Hv. apply (price_range _ Hv). }
  destruct (explained_ok _ _ _ _ _ _ _ _ HX) as [(r & E)|[[_ E]|E]].
  - lia.
  - unfold price_in_range in Hrange. lia.
  - intros segs used paid R W.
    destruct (input_up s k true (ft_fee (pk_fee_tier k)) L HL (p_sqrt_price p) lim segs _ _ (re_connected _ _ _ _ _ _ _ _ _ _ R)
      (re_segments _ _ _ _ _ _ _ _ _ _ R) ltac:(lia) ltac:(lia) HC) as (_ & B & _).
    rewrite <- (re_used _ _ _ _ _ _ _ _ _ _ R) in B. unfold left_of. lia.
  - intros segs q used paid R (m' & Em & Hq). rewrite Hm in Em. injection Em as <-.
    pose proof (re_limit _ _ _ _ _ _ _ _ _ _ R). cbn in *. lia.
  - left. eauto.
  - right. exact E.
  - exfalso. rewrite E in HX. destruct HX as (segs & q & used & paid & R & _ & Hleft & [[? _]|(g & Hg & Hg0 & HU)]); [discriminate|].
    pose proof (re_limit _ _ _ _ _ _ _ _ _ _ R) as Hq. cbn in Hq.
    destruct (input_up s k true (ft_fee (pk_fee_tier k)) L HL (p_sqrt_price p) lim segs _ _ (re_connected _ _ _ _ _ _ _ _ _ _ R)
      (re_segments _ _ _ _ _ _ _ _ _ _ R) ltac:(lia) Hq HC) as (Hpq & B & Lg).
    specialize (Lg _ Hg). rewrite <- (re_used _ _ _ _ _ _ _ _ _ _ R) in B. cbn [left_of unpriced] in *.
    destruct HU as [_ HU]. set (rem := a - used) in *. set (G := g_liquidity g) in *. set (rate := ft_fee (pk_fee_tier k)) in *.
    assert (Hnet : 0 <= rem * (10 ^ 12 - rate) / 10 ^ 12 <= rem).
    { split; [apply Z.div_pos; [apply Z.mul_nonneg_nonneg; lia|lia]|]. apply Z.div_le_upper_bound; [lia|].
      rewrite Z.mul_comm. apply Z.mul_le_mono_nonneg_r; lia. }
    assert (Hd : rem * (10 ^ 12 - rate) / 10 ^ 12 * 10 ^ 29 / G <= lim - q).
    { apply Z.div_le_upper_bound; [lia|]. assert (L * (lim - q) <= G * (lim - q)) by (apply Z.mul_le_mono_nonneg_r; lia). lia. }
    lia.
Qed.

(** Buying y, the amount fixed: the same, but for one unit of y at each of at most
    443637 segments. *)
Theorem C40_exact_out_down_guarded evs s e k a lim p L m : history regular evs s -> ordinary e s k true false p a -> 0 < a ->
  lim < p_sqrt_price p -> get_min_tick (pk_spacing k) = Ok m -> tick_price (m + pk_spacing k) < lim ->
  0 < L -> (forall q, lim - 1 <= q <= p_sqrt_price p -> L <= curve s k q) ->
  (a + 443637) * 10 ^ 29 <= L * (p_sqrt_price p - lim) ->
  exists r, quote e s k true a false lim = Ok r.
Proof.
  intros H HO Ha Hlim Hm Hend HL HC Hcap. pose proof (C58_quote_outcome evs s e k true a false lim p H HO) as HX.
  destruct (active_history _ _ H) as (I & _). pose proof (or_pool _ _ _ _ _ _ _ HO) as Hp. apply pools_get_Ok in Hp.
  pose proof (po_range _ _ (I_pool _ I _ _ Hp)) as Hrange. unfold price_in_range in Hrange.
  assert (Hmin : 15258932000000000000 <= tick_price (m + pk_spacing k)).
  { pose proof (pool_spacing _ _ (I_pool _ I _ _ Hp)) as Hs.
    assert (Em : m = mint (pk_spacing k)) by (apply (tick_limits k true); [lia|exact Hm]).
    destruct (min_valid s I k p Hp) as [Hv _]. apply okt_valid in Hv. rewrite <- Em in Hv.
    rewrite tick_price_valid by exact Hv. apply (price_range _ Hv). }
  destruct (explained_ok _ _ _ _ _ _ _ _ HX) as [(r & E)|[[? _]|E]].
  - lia.
  - lia.
  - intros segs used paid R W. pose proof (re_count _ _ _ _ _ _ _ _ _ _ R eq_refl) as Hn.
    destruct (output_down s k false (ft_fee (pk_fee_tier k)) L HL lim (p_sqrt_price p) segs _ _ (re_connected _ _ _ _ _ _ _ _ _ _ R)
      (re_segments _ _ _ _ _ _ _ _ _ _ R) W ltac:(lia) ltac:(lia) HC) as (_ & B & _).
    rewrite <- (re_paid _ _ _ _ _ _ _ _ _ _ R) in B. unfold left_of. lia.
  - intros segs q used paid R (m' & Em & Hq). rewrite Hm in Em. injection Em as <-.
    pose proof (re_limit _ _ _ _ _ _ _ _ _ _ R). cbn in *. lia.
  - eauto.
  - discriminate.
  - exfalso. rewrite E in HX. destruct HX as (segs & q & used & paid & R & W & Hleft & [(_ & ? & _)|(g & Hg & Hg0 & HU)]); [discriminate|].
    pose proof (re_limit _ _ _ _ _ _ _ _ _ _ R) as Hq. cbn in Hq. pose proof (re_count _ _ _ _ _ _ _ _ _ _ R eq_refl) as Hn.
    destruct (output_down s k false (ft_fee (pk_fee_tier k)) L HL lim (p_sqrt_price p) segs _ _ (re_connected _ _ _ _ _ _ _ _ _ _ R)
      (re_segments _ _ _ _ _ _ _ _ _ _ R) W ltac:(lia) Hq HC) as (Hpq & B & Lg).
    specialize (Lg _ Hg). rewrite <- (re_paid _ _ _ _ _ _ _ _ _ _ R) in B. cbn [left_of unpriced] in *.
    set (G := g_liquidity g) in *.
    assert (L * q <= G * q) by (apply Z.mul_le_mono_nonneg_r; lia).
    assert (0 <= L * lim) by (apply Z.mul_nonneg_nonneg; lia). lia.
Qed.

(** Paying x: the same, but for one unit of x at each of at most 443637 segments,
    and but for the step that charges more than is left, or goes below the least
    price, by its rounding. *)
Theorem C58_exact_in_down_guarded evs s e k a lim p L m : history regular evs s -> ordinary e s k true true p a -> 0 < a ->
  lim < p_sqrt_price p -> get_min_tick (pk_spacing k) = Ok m -> tick_price (m + pk_spacing k) <= lim - 65536 ->
  0 < L -> (forall q, lim - 65536 <= q <= p_sqrt_price p -> L <= curve s k q) ->
  (a + 443637) * (p_sqrt_price p * lim) <= L * 10 ^ 19 * (p_sqrt_price p - lim) ->
  (exists r, quote e s k true a true lim = Ok r) \/ quote e s k true a true lim = Err NoGainSwap \/
  (quote e s k true a true lim = Panic /\
   exists q rem, lim < q + 65536 /\ q <= p_sqrt_price p /\ 0 < rem <= a /\ misstep s k q rem).
Proof.
  intros H HO Ha Hlim Hm Hend HL HC Hcap. pose proof (C58_quote_outcome evs s e k true a true lim p H HO) as HX.
  destruct (active_history _ _ H) as (I & _). pose proof (or_pool _ _ _ _ _ _ _ HO) as Hp. apply pools_get_Ok in Hp.
  pose proof (po_range _ _ (I_pool _ I _ _ Hp)) as Hrange. unfold price_in_range in Hrange.
  assert (Hmin : 15258932000000000000 <= tick_price (m + pk_spacing k)).
  { pose proof (pool_spacing _ _ (I_pool _ I _ _ Hp)) as Hs.
    assert (Em : m = mint (pk_spacing k)) by (apply (tick_limits k true); [lia|exact Hm]).
    destruct (min_valid s I k p Hp) as [Hv _]. apply okt_valid in Hv. rewrite <- Em in Hv.
    rewrite tick_price_valid by exact Hv. apply (price_range _ Hv). }
  destruct (explained_ok _ _ _ _ _ _ _ _ HX) as [(r & E)|[[_ E]|E]].
  - lia.
  - lia.
  - intros segs used paid R W. pose proof (re_count _ _ _ _ _ _ _ _ _ _ R eq_refl) as Hn.
    destruct (input_down s k true (ft_fee (pk_fee_tier k)) L HL (lim - 65535) (p_sqrt_price p) segs _ _ (re_connected _ _ _ _ _ _ _ _ _ _ R)
      (re_segments _ _ _ _ _ _ _ _ _ _ R) ltac:(lia) ltac:(lia) ltac:(lia)) as (_ & B).
    { intros x Hx. apply HC. lia. }
    rewrite <- (re_used _ _ _ _ _ _ _ _ _ _ R) in B. unfold left_of.
    assert (Hpos : 0 < p_sqrt_price p * lim) by (apply Z.mul_pos_pos; lia).
    pose proof (Z.le_trans _ _ _ Hcap B) as B'. apply (Z.mul_le_mono_pos_r _ _ _ Hpos) in B'. lia.
  - intros segs q used paid R (m' & Em & Hq). rewrite Hm in Em. injection Em as <-.
    pose proof (re_limit _ _ _ _ _ _ _ _ _ _ R). cbn in *. lia.
  - left. eauto.
  - right. left. exact E.
  - right. right. split; [exact E|]. rewrite E in HX.
    destruct HX as (segs & q & used & paid & R & W & Hleft & [(_ & _ & HM)|(g & _ & _ & HU)]); [|destruct HU; discriminate].
    pose proof (re_limit _ _ _ _ _ _ _ _ _ _ R) as Hq. cbn in Hq.
    destruct (input_down s k true (ft_fee (pk_fee_tier k)) L HL (lim - 65535) (p_sqrt_price p) segs _ _ (re_connected _ _ _ _ _ _ _ _ _ _ R)
      (re_segments _ _ _ _ _ _ _ _ _ _ R) ltac:(lia) ltac:(lia) ltac:(lia)) as (Hqp & _).
    { intros x Hx. apply HC. lia. }
    exists q, (left_of true a used paid). split; [exact Hq|]. split; [exact Hqp|]. split; [|exact HM].
    split; [exact Hleft|]. cbn [left_of]. pose proof (used_nonneg _ _ _ _ _ (re_segments _ _ _ _ _ _ _ _ _ _ R)) as U.
    rewrite <- (re_used _ _ _ _ _ _ _ _ _ _ R) in U. lia.
Qed.

(** ** Cases *)

(** The curve as the list of the price ranges and liquidities of the positions. *)
Definition pieces (s : state) (k : pool_key) : list (Z * Z * Z) :=
  omap (fun '(_, pos) => if bool_decide (pos_pool_key pos = k)
                         then Some (tick_price (pos_lower pos), tick_price (pos_upper pos), pos_liquidity pos) else None)
    (map_to_list (s_positions s)).
Lemma curve_pieces s k q : curve s k q =
  foldr (fun '(lo, hi, L) acc => (if (lo <=? q) && (q <? hi) then L else 0) + acc) 0 (pieces s k).
Proof.
  unfold curve, msum, map_fold, pieces, compose. induction (map_to_list (s_positions s)) as [|[i pos] l IH]; [reflexivity|].
  cbn [foldr omap list_omap uncurry]. rewrite IH. unfold uncurry, Datatypes.uncurry. destruct (decide (pos_pool_key pos = k)) as [E|E].
  - rewrite !(bool_decide_true _ E). reflexivity.
  - rewrite !(bool_decide_false _ E). reflexivity.
Qed.

Definition ordinaryb (e : env) (s : state) (k : pool_key) (d bi : bool) (a : Z) : option Z :=
  match pools_get s k with
  | Ok p =>
      if (0 <=? a) && (a <? 2 ^ 256) && (ft_fee (pk_fee_tier k) <=? 99 * 10 ^ 10) && (0 <? ft_fee (pk_fee_tier k)) &&
         (s_protocol_fee s <=? 10 ^ 12) && (p_start_timestamp p <=? e_timestamp e) && (pool_total s k <=? 2 ^ 128) &&
         ((if d then p_fee_protocol_token_x p else p_fee_protocol_token_y p) + (if bi then a else 2 ^ 230) <? 2 ^ 256)
      then Some (p_sqrt_price p) else None
  | _ => None
  end.
Lemma ordinaryb_spec e s k d bi a q : ordinaryb e s k d bi a = Some q -> exists p, ordinary e s k d bi p a /\ p_sqrt_price p = q.
Proof.
  unfold ordinaryb. destruct (pools_get s k) as [p|er| |] eqn:Hp; [|discriminate..].
  match goal with |- (if ?b then _ else _) = _ -> _ => destruct b eqn:E end; [|discriminate]. intros H. injection H as <-.
  rewrite !andb_true_iff in E. destruct E as [[[[[[[E1 E2] E3] E4] E5] E6] E7] E8].
  exists p. split; [|reflexivity]. constructor; auto; unfold u256; lia.
Qed.
Definition outcome (s : state) (k : pool_key) (d bi : bool) (a lim : Z) : res (Z * Z) :=
  match quote (by_ carol) s k d a bi lim with
  | Ok q => Ok (q_amount_in q, q_amount_out q) | Err e => Err e | Panic => Panic | Loop => Loop end.

(** Every outcome occurs in ordinary circumstances; the pool has positions from
    tick -30 to 30, and its price is between the ticks -20 and -10. *)
Example C58_case :
  history regular evs_traded s_traded /\
  (exists p, ordinary (by_ carol) s_traded pool1 true true p 300000 /\ p_sqrt_price p = 999211189370072007762822) /\
  (exists p, ordinary (by_ carol) s_traded pool1 false false p 100000 /\ p_sqrt_price p = 999211189370072007762822) /\
  pieces s_traded pool1 = [(999500149965000000000000, 1000500100010000000000000, 300000000000);
                           (998501199320000000000000, 999500149965000000000000, 200000000000);
                           (999000549780000000000000, 1001501050455000000000000, 100000000000)] /\
  outcome s_traded pool1 true true 0 15258932000000000000 = Err AmountIsZero /\
  outcome s_traded pool1 true true 5 any_price = Err WrongLimit /\
  outcome s_traded pool1 true true 3000 999000000000000000000000 = Err PriceLimitReached /\
  outcome s_traded pool1 true true 300000 15258932000000000000 = Err TickLimitReached /\
  outcome s_traded pool1 true true 1 15258932000000000000 = Err NoGainSwap /\
  outcome s_traded pool1 false false 100000 65535383934512647000000000000 = Err TickLimitReached /\
  outcome s_traded pool1 true false 300 999000000000000000000000 = Ok (305, 300) /\
  outcome s_traded pool1 true false 500 999100000000000000000000 = Err PriceLimitReached.
Proof.
  split; [exact s_traded_regular|]. split; [apply ordinaryb_spec; vm_compute; reflexivity|]. split; [apply ordinaryb_spec; vm_compute; reflexivity|].
  crunch.
Qed.

(** A deep pool at the price 1: what 10^18 of liquidity takes on the way to the
    prices of the ticks -10 and 10 goes through. *)
Definition deep_events : list event := setup ++ [
  Credit alice tokA 1000000000000; Credit alice tokB 1000000000000;
  Call (by_ alice) (OpCreatePosition pool1 (-100) 100 1000000000000000000 0 any_price);
  Call (by_ bob) (OpCreatePosition pool1 (-20) 20 500000000 0 any_price)].
Definition s_deep : state := run_events admin 10000000000 deep_events.
Lemma s_deep_regular : history regular deep_events s_deep.
Proof. apply run_regular; [unfold u128; lia| |reflexivity|vm_compute; reflexivity]. unfold deep_events, setup. wf_events. Qed.
Ltac piecewise :=
  cbn [foldr];
  repeat match goal with
  | |- context[?a <=? ?b] => destruct (Z.leb_spec a b)
  | |- context[?a <? ?b] => destruct (Z.ltb_spec a b)
  end; cbn [andb]; lia.
Lemma deep_curve q : 999000000000000000000000 <= q <= 1001000000000000000000000 -> 1000000000000000000 <= curve s_deep pool1 q.
Proof.
  intros Hq. rewrite curve_pieces.
  assert (E : pieces s_deep pool1 = [(999000549780000000000000, 1001000450120000000000000, 500000000);
    (995012727930000000000000, 1005012269622000000000000, 1000000000000000000)]) by (vm_compute; reflexivity).
  rewrite E. piecewise.
Qed.

Example C58_case_enough :
  history regular deep_events s_deep /\
  get_max_tick (pk_spacing pool1) = Ok 221810 /\ get_min_tick (pk_spacing pool1) = Ok (-221810) /\
  1000500000000000000000000 < tick_price 221810 /\ tick_price (-221810 + pk_spacing pool1) <= 999500149965000000000000 - 65536 /\
  (exists p, ordinary (by_ carol) s_deep pool1 false true p 4000000000 /\ p_sqrt_price p = 1000000000000000000000000) /\
  (exists p, ordinary (by_ carol) s_deep pool1 true false p 4000000000 /\ p_sqrt_price p = 1000000000000000000000000) /\
  (exists p, ordinary (by_ carol) s_deep pool1 true true p 4000000000 /\ p_sqrt_price p = 1000000000000000000000000) /\
  (forall q, 999000000000000000000000 <= q <= 1001000000000000000000000 -> 1000000000000000000 <= curve s_deep pool1 q) /\
  4000000000 * 10 ^ 29 <= 1000000000000000000 * (1000500000000000000000000 - 1000000000000000000000000) /\
  (4000000000 + 443637) * 10 ^ 29 <= 1000000000000000000 * (1000000000000000000000000 - 999500149965000000000000) /\
  (4000000000 + 443637) * (1000000000000000000000000 * 999500149965000000000000) <=
    1000000000000000000 * 10 ^ 19 * (1000000000000000000000000 - 999500149965000000000000) /\
  outcome s_deep pool1 false true 4000000000 1000500000000000000000000 = Ok (4000000000, 3958432460) /\
  outcome s_deep pool1 true false 4000000000 999500149965000000000000 = Ok (4041616648, 4000000000) /\
  outcome s_deep pool1 true true 4000000000 999500149965000000000000 = Ok (4000000000, 3958432460).
Proof.
  split; [exact s_deep_regular|]. split; [vm_compute; reflexivity|]. split; [vm_compute; reflexivity|].
  split; [vm_compute; reflexivity|]. split; [vm_compute; discriminate|].
  do 3 (split; [apply ordinaryb_spec; vm_compute; reflexivity|]). split; [exact deep_curve|].
  do 3 (split; [lia|]). crunch.
Qed.

(** ** Amounts that are trapped although the pool has the liquidity *)

(** Paying y: there is liquidity at all prices up to the limit, and the part of the
    curve above the price [c] alone takes the amount, but the call is trapped when
    it reaches [c], because the thin liquidity below [c] could not take it. *)
Definition thin_start_events : list event := setup ++ [
  Credit alice tokA 100000000000000000000000000000000; Credit alice tokB 100000000000000000000000000000000;
  Call (by_ alice) (OpCreatePosition pool1 (-10) 10 1000000000 0 any_price);
  Call (by_ alice) (OpCreatePosition pool1 10 20 1000000000000000000000000000 0 any_price)].
Definition s_thin_start : state := run_events admin 10000000000 thin_start_events.
Theorem C58_enough_liquidity_refuted : exists evs s e k a lim p c L m,
  history regular evs s /\ ordinary e s k false true p a /\ p_sqrt_price p < c < lim /\
  get_max_tick (pk_spacing k) = Ok m /\ lim < tick_price m /\
  (forall q, p_sqrt_price p - 1 <= q <= lim -> 0 < curve s k q) /\
  (forall q, c <= q <= lim -> L <= curve s k q) /\ a * 10 ^ 29 <= L * (lim - c) /\
  quote e s k false a true lim = Panic.
Proof.
  exists thin_start_events, s_thin_start, (by_ carol), pool1, 4000000000000000000, 1001000000000000000000000.
  assert (O : ordinaryb (by_ carol) s_thin_start pool1 false true 4000000000000000000 = Some 1000000000000000000000000) by (vm_compute; reflexivity).
  apply ordinaryb_spec in O as (p & O & Hp).
  assert (E : pieces s_thin_start pool1 = [(1000500100010000000000000, 1001000450120000000000000, 1000000000000000000000000000);
    (999500149965000000000000, 1000500100010000000000000, 1000000000)]) by (vm_compute; reflexivity).
  exists p, 1000500100010000000000000, 1000000000000000000000000000, 221810. rewrite Hp. split.
  { apply run_regular; [unfold u128; lia| |reflexivity|vm_compute; reflexivity]. unfold thin_start_events, setup. wf_events. }
  split; [exact O|]. split; [lia|]. split; [vm_compute; reflexivity|]. split; [vm_compute; reflexivity|].
  split; [intros q Hq; rewrite curve_pieces, E; piecewise|]. split; [intros q Hq; rewrite curve_pieces, E; piecewise|].
  split; [lia|]. vm_compute. reflexivity.
Qed.

(** Paying x at a fee of 1%: 99 units and 101 units go through, 100 units are
    trapped; the rounding of the last step would charge 101. *)
Definition sharp_events : list event := [
  Call (by_ admin) (OpAddFeeTier tier1);
  Call (by_ bob) (OpCreatePool tokB tokA tier1 1000500100010000000000000 10);
  Credit alice tokA 100000000000000000000000000000000; Credit alice tokB 100000000000000000000000000000000;
  Call (by_ alice) (OpCreatePosition pool1 (-10) 20 9913711321335590876796532 0 any_price)].
Definition s_sharp : state := run_events admin 10000000000 sharp_events.
Definition quoted (r : res quote_result) : option (Z * Z) :=
  match r with Ok q => Some (q_amount_in q, q_amount_out q) | _ => None end.
Theorem C58_exact_in_monotone_refuted : exists evs s e k lim p,
  history regular evs s /\ ordinary e s k true true p 100 /\
  quoted (quote e s k true 99 true lim) = Some (99, 98) /\
  quote e s k true 100 true lim = Panic /\
  quoted (quote e s k true 101 true lim) = Some (101, 99).
Proof.
  exists sharp_events, s_sharp, (by_ carol), pool1, 1000500100009999999000384.
  assert (O : ordinaryb (by_ carol) s_sharp pool1 true true 100 = Some 1000500100010000000000000) by (vm_compute; reflexivity).
  apply ordinaryb_spec in O as (p & O & Hp). exists p. split.
  { apply run_regular; [unfold u128; lia| |reflexivity|vm_compute; reflexivity]. unfold sharp_events. wf_events. }
  split; [exact O|]. split; [vm_compute; reflexivity|]. split; vm_compute; reflexivity.
Qed.

(** Paying x down to the least price: the rounding of the last step goes below it,
    and the call is trapped, where less is told that the end is reached, and more
    that the limit is reached. *)
Definition pool2 : pool_key := mkPoolKey tokA tokB tier2.
Definition low_events : list event := setup ++ [
  Call (by_ bob) (OpCreatePool tokA tokB tier2 15349221000000000000 (-221700));
  Credit alice tokA 100000000000000000000000000000; Credit alice tokB 100000000000000000000000000000;
  Credit bob tokA 1000000000000000000000000; Credit bob tokB 1000000000000000000000;
  Call (by_ alice) (OpCreatePosition pool2 (-221818) (-221600) 98765432109876543211 0 any_price);
  Call (by_ bob) (OpSwap pool2 false 12345678 true any_price)].
Definition s_low : state := run_events admin 10000000000 low_events.
Theorem C58_least_price_refuted : exists evs s e k a p,
  history regular evs s /\ ordinary e s k true true p a /\
  quote e s k true (a - 2000) true 15258932000000000000 = Err TickLimitReached /\
  quote e s k true a true 15258932000000000000 = Panic /\
  quote e s k true (a + 1) true 15258932000000000000 = Err PriceLimitReached.
Proof.
  exists low_events, s_low, (by_ carol), pool2, 434245194774968038.
  assert (O : ordinaryb (by_ carol) s_low pool2 true true 434245194774968038 = Some 15361683497998597968) by (vm_compute; reflexivity).
  apply ordinaryb_spec in O as (p & O & Hp). exists p. split.
  { apply run_regular; [unfold u128; lia| |reflexivity|vm_compute; reflexivity]. unfold low_events, setup. wf_events. }
  split; [exact O|]. split; [vm_compute; reflexivity|]. split; vm_compute; reflexivity.
Qed.

(** ** Assumptions *)
Print Assumptions C58_quote_outcome.
Print Assumptions C58_swap_outcome.
Print Assumptions C58_exact_in_up_guarded.
Print Assumptions C40_exact_out_down_guarded.
Print Assumptions C58_exact_in_down_guarded.
Print Assumptions C58_enough_liquidity_refuted.
Print Assumptions C58_exact_in_monotone_refuted.
Print Assumptions C58_least_price_refuted.
