(** Property C60: exactly when the calls that change pools, positions and balances succeed.

    [charge_x], [charge_y] and [into_range] are the cost of liquidity at a price
    (SpecCost.v); [gross_at s k i] is the liquidity of the open positions of pool
    [k] that start or end at tick [i], [active_at] that of the positions whose
    range contains a tick (SpecState.v).  Fee tiers: C18_add_iff and
    C18_remove_iff; swaps: C58; closing and claiming: C25; token deposits and
    withdrawals: C52. *)
From Verif Require Import Base Decimal SqrtPriceM LogM ClammM FeeGrowthM Types TickmapM StorageM
  CollectionsM StateM ServiceM Arith SpecMath SpecFees SpecSum SpecState SpecHistory SpecClean SpecCost
  P_Clamm P_TickPrice P_Tickmap P_Fees P_Balance P_Effects P_Positions P_History P_Loop P_Check P_State P_Iter P_Inv
  P_InvPos P_PosOps P_InvHist P_Active P_Live P_Quote P_LiqCharge P_Bals P_Create Prop_State Prop_Ticks Cases CasesClean.
From stdpp Require Import gmap list.
From Coq Require Import ZArith Lia Bool.
Open Scope Z_scope.

Definition succeeds {A} (r : res A) : Prop := exists a, r = Ok a.

(** What a caller must bring to open a position with liquidity [L] between two
    ticks of a pool. *)
Record position_admitted (s : state) (caller : actor_id) (k : pool_key) (p : pool) (lo up L sl su : Z) : Prop := {
  pa_liquidity : 0 < L;
  pa_order : lo < up;
  pa_lower : -221818 <= lo /\ (pk_spacing k | lo);
  pa_upper : up <= 221818 /\ (pk_spacing k | up);
  pa_slippage : sl <= p_sqrt_price p <= su;
  (** neither tick exceeds its share of what a pool can hold *)
  pa_room_lower : gross_at s k lo + L < (2 ^ 256 - 1) / (443637 / pk_spacing k);
  pa_room_upper : gross_at s k up + L < (2 ^ 256 - 1) / (443637 / pk_spacing k);
  pa_funds : forall pl pu, calculate_sqrt_price lo = Ok pl -> calculate_sqrt_price up = Ok pu ->
    let q := into_range pl pu (p_sqrt_price p) in
    charge_x L q pu <= bal s caller (pk_token_x k) /\ charge_y L pl q <= bal s caller (pk_token_y k);
}.

Section Create.
  Context (evs : list event) (s : state) (e : env) (k : pool_key) (p : pool) (lo up L sl su : Z).
  Hypothesis HL : u256 L.

  Lemma create_iff_inv : Inv s -> bals_ok s -> pools_get s k = Ok p ->
    (succeeds (create_position e s k lo up L sl su) <->
     position_admitted s (e_caller e) k p lo up L sl su /\
     (lo <= p_current_tick_index p < up -> p_liquidity p + L < 2 ^ 256)).
  Proof using HL.
    intros I B Hp. apply pools_get_Ok in Hp. pose proof (I_pool _ I _ _ Hp) as PO.
    pose proof (pool_spacing _ _ PO) as Hs. split.
    - intros [[s' pos] E]. pose proof (gen_create bals_ok increase_bals decrease_bals bals_same _ _ _ _ _ _ _ _ _ _ I HL B E) as B'.
      apply create_summary in E as (q & x & y & mx & C); auto.
      pose proof (cr_pool _ _ _ _ _ _ _ _ _ _ _ _ _ _ C) as Hq. rewrite Hp in Hq. injection Hq as <-.
      pose proof (cr_lo _ _ _ _ _ _ _ _ _ _ _ _ _ _ C) as Ol. pose proof (cr_up _ _ _ _ _ _ _ _ _ _ _ _ _ _ C) as Ou.
      pose proof (cr_lt _ _ _ _ _ _ _ _ _ _ _ _ _ _ C) as Lt. pose proof (cr_liq _ _ _ _ _ _ _ _ _ _ _ _ _ _ C) as Hl.
      pose proof (max_per_tick_eq _ _ (cr_max _ _ _ _ _ _ _ _ _ _ _ _ _ _ C)) as ->.
      pose proof (cr_amounts _ _ _ _ _ _ _ _ _ _ _ _ _ _ C) as Am. rewrite (amounts_charged k p PO lo up Ol Ou Lt L HL) in Am.
      injection Am as Ax Ay. pose proof (cr_ledger _ _ _ _ _ _ _ _ _ _ _ _ _ _ C) as Led.
      destruct (Ol) as [Vl Dl]. destruct (Ou) as [Vu Du]. unfold valid_tick in Vl, Vu.
      split; [split|].
      + lia.
      + lia.
      + split; [lia|auto].
      + split; [lia|auto].
      + apply C.
      + exact (cr_gross_lo _ _ _ _ _ _ _ _ _ _ _ _ _ _ C).
      + exact (cr_gross_up _ _ _ _ _ _ _ _ _ _ _ _ _ _ C).
      + intros pl pu Epl Epu. rewrite calculate_sqrt_price_valid in Epl, Epu by (unfold valid_tick; lia).
        injection Epl as <-. injection Epu as <-. cbn zeta. rewrite Ax, Ay.
        pose proof (Led (e_caller e) (pk_token_x k)) as L1. pose proof (Led (e_caller e) (pk_token_y k)) as L2.
        unfold both, at_ in L1, L2. rewrite !Z.eqb_refl in L1, L2. pose proof (po_tokens _ _ PO).
        destruct (Z.eqb_spec (pk_token_x k) (pk_token_y k)); [lia|]. destruct (Z.eqb_spec (pk_token_y k) (pk_token_x k)); [lia|].
        cbn [andb] in L1, L2. pose proof (u256_M _ (B' (e_caller e) (pk_token_x k))). pose proof (u256_M _ (B' (e_caller e) (pk_token_y k))). lia.
      + intros HR. change (2 ^ 256) with M256. apply (cr_fits _ _ _ _ _ _ _ _ _ _ _ _ _ _ C). unfold in_range. lia.
    - intros [A F]. destruct A. change (2 ^ 256) with M256 in *.
      assert (Ol : okt (pk_spacing k) lo) by (split; [unfold valid_tick; lia|tauto]).
      assert (Ou : okt (pk_spacing k) up) by (split; [unfold valid_tick; lia|tauto]).
      pose proof (amounts_charged k p PO lo up Ol Ou pa_order0 L HL) as Am.
      destruct (pa_funds0 (price lo) (price up)) as [FX FY]; [apply calculate_sqrt_price_valid, Ol|apply calculate_sqrt_price_valid, Ou|].
      destruct (create_succeeds e s k p lo up L sl su _ _ I Hp ltac:(unfold u256 in HL; change (2 ^ 256) with M256 in HL; lia)
        pa_order0 Ol Ou pa_slippage0 pa_room_lower0 pa_room_upper0
        ltac:(intros HR; apply F; unfold in_range in HR; lia) Am) as (s' & pos & E); [| |eexists; exact E].
      + split; [|exact FX]. eapply amount_delta_nonneg in Am; [apply Am|apply Ol|apply Ou|apply PO|exact HL].
      + split; [|exact FY]. eapply amount_delta_nonneg in Am; [apply Am|apply Ol|apply Ou|apply PO|exact HL].
  Qed.
End Create.

(** Every history: the position is opened exactly if it is admitted and, when it is
    in range, the pool's liquidity still fits 256 bits. *)
Theorem C60_create_position evs s e k p lo up L sl su : history room evs s -> u256 L -> pools_get s k = Ok p ->
  (succeeds (create_position e s k lo up L sl su) <->
   position_admitted s (e_caller e) k p lo up L sl su /\
   (lo <= p_current_tick_index p < up -> p_liquidity p + L < 2 ^ 256)).
Proof.
  intros H HL Hp. destruct (gross_bound_history room evs s (fun _ _ h => h) H) as [I _].
  apply create_iff_inv; auto. eapply bals_history; [|exact H]. auto.
Qed.

(** While swaps are clean the latter always holds: exactly if it is admitted. *)
Theorem C60_create_position_regular evs s e k p lo up L sl su : history regular evs s -> u256 L -> pools_get s k = Ok p ->
  (succeeds (create_position e s k lo up L sl su) <-> position_admitted s (e_caller e) k p lo up L sl su).
Proof.
  intros H HL Hp. assert (H' : history room evs s) by (eapply history_weaken; [|exact H]; intros ? ? [? _]; auto).
  rewrite (C60_create_position evs s e k p lo up L sl su H' HL Hp). split; [tauto|]. intros A. split; [exact A|]. intros _.
  rewrite (C23_active_liquidity_guarded _ _ _ _ H Hp). destruct (gross_bound_history room evs s (fun _ _ h => h) H') as [I G].
  pose proof (pool_active_le s k (p_current_tick_index p) I). destruct A. apply pools_get_Ok in Hp.
  pose proof (admitted_fits s k p lo up L I G Hp pa_liquidity0) as F. unfold okt, valid_tick in F.
  assert (X1 : (-221818 <= lo <= 221818) /\ (pk_spacing k | lo)) by (split; [lia|tauto]).
  assert (X2 : (-221818 <= up <= 221818) /\ (pk_spacing k | up)) by (split; [lia|tauto]).
  specialize (F X1 X2 pa_order0 pa_room_lower0 pa_room_upper0). lia.
Qed.

(** Without the pool nothing is opened. *)
Theorem C60_create_position_no_pool e s k lo up L sl su : pools_get s k = Err PoolNotFound ->
  ~ succeeds (create_position e s k lo up L sl su).
Proof. intros Hp [[s' pos] E]. apply C41_create_position_needs_pool in E as [p E]. congruence. Qed.

(** The check of a pair of ticks that the client library offers accepts exactly the
    ordered pairs of admissible ticks ... *)
Theorem C60_check_ticks lo up sp : 1 <= sp ->
  (check_ticks lo up sp = Ok tt <->
   lo <= up /\ (-221818 <= lo <= 221818 /\ (sp | lo)) /\ (-221818 <= up <= 221818 /\ (sp | up))).
Proof.
  intros Hs. unfold check_ticks. split.
  - destruct (Z.ltb_spec up lo) as [L|L]; cbn [fail_if bind]; [discriminate|].
    destruct (check_tick lo sp) as [[]| | |] eqn:E1; cbn [bind]; try discriminate. intros E2.
    apply check_tick_inv in E1, E2; auto.
  - intros (L & A & B). destruct (Z.ltb_spec up lo) as [L'|_]; [lia|]. cbn [fail_if bind].
    rewrite (check_tick_ok lo sp), (check_tick_ok up sp); auto; unfold okt, valid_tick; tauto.
Qed.

(** ... and so accepts a pair of equal ticks, with which no position can be opened. *)
Theorem C60_check_ticks_refuted e s k t L sl su : 1 <= pk_spacing k -> -221818 <= t <= 221818 -> (pk_spacing k | t) ->
  check_ticks t t (pk_spacing k) = Ok tt /\ ~ succeeds (create_position e s k t t L sl su).
Proof.
  intros Hs Ht Hd. split; [apply C60_check_ticks; auto; repeat split; auto; lia|]. intros [a E]. revert E. unfold create_position. rewrite Z.eqb_refl.
  destruct (fail_if _ _); cbn [bind fail_if]; discriminate.
Qed.

(** ** Pools *)

Lemma keys_and_pools evs s : history anything evs s ->
  forall k, is_Some (s_pool_keys s !! k) <-> is_Some (s_pools s !! k).
Proof.
  apply (history_invariant (fun s => forall k, is_Some (s_pool_keys s !! k) <-> is_Some (s_pools s !! k))); auto.
  - intros admin fee _ k. cbn. rewrite !lookup_empty. split; intros [v Hv]; discriminate Hv.
  - intros s0 e o s1 IH _ _ H k. destruct (changes_pools o) eqn:EO.
    + destruct o; try discriminate EO; cbn [run_op] in H; apply drop_result_Ok in H as [r H].
      * apply create_pool_inv in H as (k0 & p & _ & _ & _ & _ & _ & _ & ->).
        cbn [set_pool_keys set_pools s_pools s_pool_keys]. destruct (decide (k0 = k)) as [->|Hn].
        -- rewrite !lookup_insert. split; eauto.
        -- rewrite !lookup_insert_ne by auto. apply IH.
      * apply change_fee_receiver_inv in H as (_ & p & Hp & ->). cbn [set_pools s_pools s_pool_keys]. rewrite IH.
        destruct (decide (k0 = k)) as [->|Hn]; [rewrite lookup_insert, Hp; split; eauto|rewrite lookup_insert_ne by auto; reflexivity].
    + pose proof (run_op_pools_kept _ _ _ _ EO H k) as K.
      assert (EK : s_pool_keys s1 = s_pool_keys s0).
      { destruct (admin_or_pool o) eqn:EA; [|apply run_op_cfg in H as (_ & _ & _ & H & _); auto].
        destruct o; try discriminate EA; try discriminate EO; cbn [run_op] in H; apply drop_result_Ok in H as [r H].
        - apply change_protocol_fee_inv in H as (_ & ->). reflexivity.
        - apply add_fee_tier_inv in H as (_ & _ & _ & _ & _ & ->). reflexivity.
        - apply remove_fee_tier_inv in H as (_ & l & _ & ->). reflexivity. }
      rewrite EK, IH. destruct (s_pools s0 !! k) as [q|] eqn:Eq.
      * destruct K as (q' & -> & _). split; eauto.
      * rewrite K. reflexivity.
Qed.

(** A pool is opened exactly for a listed tier, two different tokens that have no
    pool with this tier, and a tick of the grid whose interval [tick, tick + spacing)
    contains the given price (above the last tick of the grid: the price of that tick). *)
Theorem C60_create_pool evs s e x y ft ip t : history anything evs s -> u128 ip -> i32 t ->
  (succeeds (create_pool e s x y ft ip t) <->
   ft ∈ get_fee_tiers s /\ x <> y /\ (forall p, get_pool s x y ft <> Ok p) /\
   -221818 <= t <= 221818 /\ (ft_tick_spacing ft | t) /\
   exists pt, calculate_sqrt_price t = Ok pt /\ pt <= ip /\
     (t + ft_tick_spacing ft <= 221818 -> forall pn, calculate_sqrt_price (t + ft_tick_spacing ft) = Ok pn -> ip < pn) /\
     (221818 < t + ft_tick_spacing ft -> ip = pt)).
Proof.
  intros H Hip Ht. pose proof (proj2 (C18_valid_set _ _ H)) as HV. pose proof (keys_and_pools _ _ H) as KP. split.
  - intros [[s' u] E]. apply create_pool_inv in E as (k & p & HF & HT & HK & HN & _ & HC & _).
    apply fee_tiers_contains_spec in HF. specialize (HV ft HF). apply check_tick_inv in HT; [|lia].
    split; [exact HF|]. split. { intros ->. unfold pool_key_new in HK. rewrite Z.eqb_refl in HK. discriminate. }
    split. { intros q Hq. unfold get_pool in Hq. rewrite HK in Hq. cbn [bind] in Hq. apply pools_get_Ok in Hq. congruence. }
    pose proof HT as [V D]. unfold valid_tick in V. split; [lia|]. split; [auto|].
    unfold pool_create in HC. apply bind_Ok in HC as (b & Hb & HC). apply bind_Ok in HC as (u1 & Hu & HC).
    apply fail_if_Ok, negb_false_iff in Hu. subst b. apply map_err_Ok in Hb.
    apply relationship_inv in Hb as (R1 & R2 & R3); [|lia|auto].
    exists (price t). split; [apply calculate_sqrt_price_valid; auto|]. split; [auto|]. split.
    + intros HB pn En. rewrite calculate_sqrt_price_valid in En by (unfold valid_tick; lia). injection En as <-.
      apply R2. unfold valid_tick. lia.
    + intros HB. apply R3. unfold valid_tick. lia.
  - intros (HF & Hxy & HN & HT & D & pt & Ept & R1 & R2 & R3). specialize (HV ft HF).
    assert (Ot : okt (ft_tick_spacing ft) t) by (split; auto).
    rewrite calculate_sqrt_price_valid in Ept by apply Ot. injection Ept as <-.
    destruct (pool_key_new x y ft) as [k| | |] eqn:EK;
      try (exfalso; unfold pool_key_new in EK; destruct (Z.eqb_spec x y); [contradiction|]; destruct (x <? y); discriminate EK).
    assert (NP : s_pools s !! k = None).
    { destruct (s_pools s !! k) eqn:E; [|reflexivity]. exfalso. apply (HN p). unfold get_pool. rewrite EK. cbn [bind].
      apply pools_get_Ok. auto. }
    assert (NK : s_pool_keys s !! k = None).
    { destruct (s_pool_keys s !! k) eqn:E; [|reflexivity]. destruct (proj1 (KP k)) as [q Hq]; [eauto|congruence]. }
    assert (RL : check_tick_to_sqrt_price_relationship t (ft_tick_spacing ft) ip = Ok true).
    { unfold check_tick_to_sqrt_price_relationship. unfold checked_add.
      destruct (Z.ltb_spec (t + ft_tick_spacing ft) (i32_max + 1)) as [_|Hx]; [|unfold i32_max in Hx; lia].
      cbn [expect bind]. destruct (Z.ltb_spec MAX_TICK (t + ft_tick_spacing ft)) as [Hm|Hm]; unfold MAX_TICK in Hm.
      - unfold get_max_tick, i32_div. rewrite (proj2 (Z.eqb_neq (ft_tick_spacing ft) 0)) by lia. cbn [bind].
        assert (EM : MAX_TICK ÷ ft_tick_spacing ft * ft_tick_spacing ft = t).
        { unfold MAX_TICK. rewrite Z.quot_div_nonneg by lia. destruct D as [q ->].
          f_equal. symmetry. apply Z.div_unique with (221818 - q * ft_tick_spacing ft); lia. }
        rewrite EM, calculate_sqrt_price_valid by apply Ot. cbn [bind]. rewrite (R3 Hm), Z.eqb_refl. reflexivity.
      - assert (Vn : valid_tick (t + ft_tick_spacing ft)) by (unfold valid_tick; lia).
        rewrite !calculate_sqrt_price_valid by (apply Ot || exact Vn). cbn [bind].
        specialize (R2 Hm (price (t + ft_tick_spacing ft)) (calculate_sqrt_price_valid _ Vn)).
        destruct (Z.leb_spec (price (t + ft_tick_spacing ft)) ip); [lia|]. destruct (Z.ltb_spec ip (price t)); [lia|]. reflexivity. }
    apply fee_tiers_contains_spec in HF. unfold get_fee_tiers in HF. unfold succeeds, create_pool. rewrite HF. cbn [negb fail_if bind].
    rewrite check_tick_ok by (auto; lia). cbn [map_err bind]. rewrite EK. cbn [bind].
    unfold pools_get. rewrite NP. cbn [ok_or is_ok fail_if bind]. unfold pool_create. rewrite RL. cbn [map_err bind negb fail_if].
    rewrite calculate_sqrt_price_valid by apply Ot. cbn [unwrap bind]. unfold pools_add. rewrite NP. cbn [bind].
    unfold pool_keys_add. cbn [set_pools s_pool_keys]. rewrite NK. cbn [bind]. eauto.
Qed.

(** ** Administration and protocol fees *)

Theorem C60_change_protocol_fee e s f : succeeds (change_protocol_fee e s f) <-> e_caller e = s_admin s.
Proof.
  unfold succeeds, change_protocol_fee, is_caller_admin. destruct (Z.eqb_spec (s_admin s) (e_caller e)) as [E|E]; cbn.
  - split; [auto|eauto].
  - split; [intros [a Ha]; discriminate Ha|congruence].
Qed.

Theorem C60_change_fee_receiver e s k r : succeeds (change_fee_receiver e s k r) <->
  e_caller e = s_admin s /\ exists p, pools_get s k = Ok p.
Proof.
  split.
  - intros [[s' u] E]. apply change_fee_receiver_inv in E as (E & p & Hp & _). split; [auto|]. exists p. apply pools_get_Ok. auto.
  - intros [E [p Hp]]. unfold succeeds, change_fee_receiver, is_caller_admin. rewrite E, Z.eqb_refl. cbn [negb fail_if bind].
    rewrite Hp. cbn [bind]. unfold pools_update. rewrite Hp. cbn [bind]. eauto.
Qed.

Theorem C60_withdraw_protocol_fee evs s e k p : history room evs s -> pools_get s k = Ok p ->
  (succeeds (withdraw_protocol_fee e s k) <->
   e_caller e = p_fee_receiver p /\
   bal s (e_caller e) (pk_token_x k) + p_fee_protocol_token_x p < 2 ^ 256 /\
   bal s (e_caller e) (pk_token_y k) + p_fee_protocol_token_y p < 2 ^ 256).
Proof.
  intros H Hp. destruct (gross_bound_history room evs s (fun _ _ h => h) H) as [I _].
  assert (B : bals_ok s) by (eapply bals_history; [|exact H]; auto).
  pose proof Hp as Hp'. apply pools_get_Ok in Hp'. pose proof (I_pool _ I _ _ Hp') as PO. pose proof (po_tokens _ _ PO) as T.
  unfold succeeds, withdraw_protocol_fee. rewrite Hp. cbn [bind].
  destruct (Z.eqb_spec (p_fee_receiver p) (e_caller e)) as [ER|ER]; cbn [negb fail_if bind].
  2: { split; [intros [a Ha]; discriminate Ha|intros [X _]; congruence]. }
  cbn [pool_withdraw_protocol_fee]. unfold pools_update. rewrite Hp. cbn [bind].
  set (s1 := set_pools _ s). assert (B1 : forall u t, bal s1 u t = bal s u t) by reflexivity. clearbody s1.
  change (2 ^ 256) with M256. split.
  - intros [[s' u] E]. split; [auto|]. apply bind_Ok in E as (s2 & E1 & E). apply bind_Ok in E as (s3 & E2 & _).
    apply increase_spec in E1 as (_ & D1 & _ & F1). apply increase_spec in E2 as (_ & D2 & _ & F2).
    pose proof (u256_M _ (B (e_caller e) (pk_token_x k))). pose proof (u256_M _ (B (e_caller e) (pk_token_y k))).
    rewrite D1 in F1. rewrite D2, D1 in F2. unfold at_ in F1, F2. rewrite !Z.eqb_refl in F1, F2. rewrite !B1 in *.
    destruct (Z.eqb_spec (pk_token_y k) (pk_token_x k)); [lia|]. cbn [andb] in F1, F2. split; lia.
  - intros (_ & G1 & G2). destruct (increase_ok s1 (pk_token_x k) (e_caller e) (p_fee_protocol_token_x p)) as [s2 E1]; [rewrite B1; auto|].
    rewrite E1. cbn [bind]. apply increase_spec in E1 as (_ & D1 & _).
    destruct (increase_ok s2 (pk_token_y k) (e_caller e) (p_fee_protocol_token_y p)) as [s3 E2].
    { rewrite D1, B1. unfold at_. destruct (Z.eqb_spec (pk_token_y k) (pk_token_x k)); [lia|]. rewrite andb_false_r. lia. }
    rewrite E2. cbn [bind]. eauto.
Qed.

(** ** Positions and VARA *)

Theorem C60_transfer_position evs s e i receiver : history room evs s ->
  (succeeds (transfer_position e s i receiver) <-> exists pos, get_position s (e_caller e) i = Ok pos).
Proof.
  intros H. apply room_Inv in H as I. split.
  - intros [[s' u] E]. apply transfer_position_inv in E as (pos & lp & s1 & Hp & _). exists pos. apply positions_get_Ok. auto.
  - intros [pos Hp]. pose proof Hp as Hp'. apply positions_get_Ok in Hp'. unfold succeeds, transfer_position, positions_transfer, positions_remove.
    unfold get_position in Hp. rewrite Hp. cbn [bind]. pose proof (I_dense _ I (e_caller e)) as [D1 D2].
    destruct (proj1 (D2 i)) as [Hi1 Hi2]; [eauto|]. unfold positions_get_length in *. 
    rewrite Z.mod_small by lia. set (n := default _ _) in *.
    destruct (Z.ltb_spec i (n - 1)); cbn [bind]; [|eauto].
    destruct (proj2 (D2 (n - 1))) as [q Hq]; [lia|]. rewrite Hq. cbn [expect bind]. eauto.
Qed.

Theorem C60_deposit_vara evs s e : history room evs s -> u128 (e_value e) ->
  (succeeds (deposit_vara e s) <-> bal s (e_caller e) VARA_ADDRESS + e_value e < 2 ^ 256).
Proof.
  intros H HV. assert (B : bals_ok s) by (eapply bals_history; [|exact H]; auto).
  change (2 ^ 256) with M256. unfold succeeds, deposit_vara. split.
  - intros [[s' v] E]. apply bind_Ok in E as (s1 & E & _). apply increase_spec in E as (_ & D & _ & F).
    rewrite D in F. unfold at_ in F. rewrite !Z.eqb_refl in F. cbn [andb] in F. pose proof (u256_M _ (B (e_caller e) VARA_ADDRESS)). lia.
  - intros G. destruct (increase_ok _ _ _ _ G) as [s1 E]. rewrite E. cbn [bind]. eauto.
Qed.

(** The reply carries a 128-bit amount; without an amount the whole balance is
    withdrawn. *)
Theorem C60_withdraw_vara evs s e value : history room evs s -> match value with Some v => u256 v | None => True end ->
  (succeeds (withdraw_vara e s value) <->
   match value with
   | Some v => 0 < v <= bal s (e_caller e) VARA_ADDRESS /\ v < 2 ^ 128
   | None => bal s (e_caller e) VARA_ADDRESS < 2 ^ 128
   end).
Proof.
  intros H HV. assert (B : bals_ok s) by (eapply bals_history; [|exact H]; auto).
  change (2 ^ 128) with M128. pose proof (u256_M _ (B (e_caller e) VARA_ADDRESS)) as BB.
  unfold succeeds, withdraw_vara. destruct value as [v|].
  - apply u256_M in HV. destruct (Z.eqb_spec v 0) as [->|H0]; cbn [fail_if bind].
    { split; [intros [a Ha]; discriminate Ha|lia]. }
    split.
    + intros [[s' w] E]. apply bind_Ok in E as ([s1 v1] & E & E1). apply bind_Ok in E1 as (v2 & E1 & _).
      apply decrease_spec in E as (_ & _ & _ & E & ->). apply expect_Ok in E1. unfold checked_cast in E1.
      destruct (Z.ltb_spec v M128); [|discriminate E1]. lia.
    + intros [G1 G2]. destruct (decrease_ok s VARA_ADDRESS (e_caller e) v) as [s1 E]; [lia|lia|]. rewrite E. cbn [bind].
      unfold checked_cast. destruct (Z.ltb_spec v M128); [|lia]. cbn [expect bind]. eauto.
  - unfold decrease_token_balance. rewrite bool_decide_eq_false_2 by discriminate. unfold bal, balm in *.
    destruct (s_balances s !! e_caller e) as [m|] eqn:Em; cbn [from_option id ok_or bind] in *.
    2: { rewrite lookup_empty in *. cbn. split; [intros _; reflexivity|eauto]. }
    destruct (m !! VARA_ADDRESS) as [w|] eqn:Ew; cbn [from_option id ok_or bind default] in *.
    2: { cbn. split; [intros _; reflexivity|eauto]. }
    assert (Eq : forall s1, (exists a, (let* v := expect (checked_cast M128 w) in Ok (s1, v)) = @Ok (state * Z) a) <-> w < M128).
    { intros s1. unfold checked_cast. destruct (Z.ltb_spec w M128); cbn; [split; [auto|eauto]|].
      split; [intros [a Ha]; discriminate Ha|lia]. }
    destruct (bool_decide _); cbn [bind]; apply Eq.
Qed.

(** A position in range, one that costs more than the caller has, one that a tick has
    no room for, one off the grid; pools with and without a listed tier, at a price in
    and out of the tick's interval. *)
Example C60_case : history regular evs_traded s_traded /\
  is_Ok (create_position (by_ alice) s_traded pool1 (-50) 50 1000000 0 any_price) = true /\
  is_Ok (create_position (by_ alice) s_traded pool1 (-50) 50 1000000000000000 0 any_price) = false /\
  is_Ok (create_position (by_ alice) s_traded pool1 221800 221810 1 0 any_price) = true /\
  is_Ok (create_position (by_ alice) s_traded pool1 221800 221810 (2 ^ 256 / 44363) 0 any_price) = false /\
  is_Ok (create_position (by_ alice) s_traded pool1 (-55) 50 1000000 0 any_price) = false /\
  is_Ok (create_position (by_ alice) s_traded pool1 50 (-50) 1000000 0 any_price) = false /\
  is_Ok (create_pool (by_ bob) s_traded tokA tokB tier2 1000020000000000000000000 0) = true /\
  is_Ok (create_pool (by_ bob) s_traded tokA tokB tier2 1000060000000000000000000 0) = false /\
  is_Ok (create_pool (by_ bob) s_traded tokA tokB tier1 1000000000000000000000000 0) = false /\
  is_Ok (create_pool (by_ bob) s_traded tokA tokB (mkFeeTier 5 5) 1000000000000000000000000 0) = false /\
  is_Ok (transfer_position (by_ bob) s_traded 0 carol) = true /\
  is_Ok (transfer_position (by_ bob) s_traded 1 carol) = false.
Proof. split; [apply s_traded_regular|]. crunch. Qed.

(** The admission of a position of one million, with the amounts it costs. *)
Example C60_case_admitted : exists p, pools_get s_traded pool1 = Ok p /\
  position_admitted s_traded alice pool1 p (-50) 50 100000000000 0 any_price /\
  calculate_sqrt_price (-50) = Ok 997503247077000000000000 /\ calculate_sqrt_price 50 = Ok 1002503002301000000000000 /\
  charge_x 100000000000 (p_sqrt_price p) 1002503002301000000000000 = 3287 /\
  charge_y 100000000000 997503247077000000000000 (p_sqrt_price p) = 1708.
Proof.
  destruct (pools_get s_traded pool1) as [p| | |] eqn:Hp; try (exfalso; vm_compute in Hp; discriminate Hp).
  exists p. split; [reflexivity|]. split.
  - apply (C60_create_position_regular evs_traded s_traded (by_ alice) pool1 p); [apply s_traded_regular|unfold u256; lia|exact Hp|].
    destruct (create_position (by_ alice) s_traded pool1 (-50) 50 100000000000 0 any_price) as [a| | |] eqn:E; [exists a; reflexivity| | |];
      exfalso; assert (X : is_Ok (create_position (by_ alice) s_traded pool1 (-50) 50 100000000000 0 any_price) = true) by (vm_compute; reflexivity);
      rewrite E in X; discriminate X.
  - assert (EP : (match pools_get s_traded pool1 with Ok p => p_sqrt_price p | _ => 0 end) = 999211189370072007762822) by (vm_compute; reflexivity).
    rewrite Hp in EP. rewrite EP. crunch.
Qed.

(** ** Assumptions *)
Print Assumptions C60_create_position.
Print Assumptions C60_create_position_regular.
Print Assumptions C60_create_position_no_pool.
Print Assumptions C60_check_ticks.
Print Assumptions C60_check_ticks_refuted.
Print Assumptions C60_create_pool.
Print Assumptions C60_change_protocol_fee.
Print Assumptions C60_change_fee_receiver.
Print Assumptions C60_withdraw_protocol_fee.
Print Assumptions C60_transfer_position.
Print Assumptions C60_deposit_vara.
Print Assumptions C60_withdraw_vara.
