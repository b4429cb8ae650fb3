(** The structural invariant and the operations on positions. *)
From Verif Require Import Base Decimal SqrtPriceM LogM ClammM FeeGrowthM Types TickmapM StorageM
  CollectionsM StateM ServiceM Arith SpecMath SpecFees SpecSum SpecState SpecHistory P_Clamm P_TickPrice P_Tickmap
  P_Fees P_Balance P_Effects P_Positions P_History P_Loop P_Check P_State P_Iter P_Inv.
From stdpp Require Import gmap list.
From Coq Require Import ZArith Lia Bool.
Open Scope Z_scope.

Lemma okt_not_min s i : okt s i -> i <> i32_min.
Proof. intros [H _]. unfold i32_min. lia. Qed.

Lemma no_gross_no_net s k i : Inv s -> gross_at s k i = 0 -> net_at s k i = 0.
Proof.
  intros I H. unfold net_at.
  rewrite (msum_ext _ (fun _ => 0)); [apply msum_zero|].
  intros [a n] pos Hp. unfold net_of. destruct (bool_decide (pos_pool_key pos = k)) eqn:EK; [|reflexivity].
  apply bool_decide_eq_true in EK. pose proof (pos_nonneg _ _ _ _ I Hp) as HL.
  destruct (Z.eqb_spec (pos_lower pos) i).
  { pose proof (gross_at_ge s k i a n pos I Hp EK ltac:(auto)). lia. }
  destruct (Z.eqb_spec (pos_upper pos) i).
  { pose proof (gross_at_ge s k i a n pos I Hp EK ltac:(auto)). lia. }
  reflexivity.
Qed.

Lemma map_err_Ok {A} (r : res A) e v : map_err r e = Ok v -> r = Ok v.
Proof. destruct r; cbn; congruence. Qed.

Lemma get_or_create_ok s ts k p i t added : Inv s -> s_pools s !! k = Some p ->
  get_or_create_tick s ts k i = Ok (t, added) ->
  tick_ok s k i t /\ (if added then s_ticks s !! (k, i) = None else s_ticks s !! (k, i) = Some t) /\
  (added = true -> t_fee_growth_outside_x t = (if i <=? p_current_tick_index p then p_fee_growth_global_x p else 0) /\
                   t_fee_growth_outside_y t = (if i <=? p_current_tick_index p then p_fee_growth_global_y p else 0)).
Proof.
  intros I Hp. unfold get_or_create_tick. destruct (s_ticks s !! (k, i)) as [t0|] eqn:ET.
  - intros [= <- <-]. split; [apply (I_tick _ I _ _ _ ET)|]. split; [reflexivity|discriminate].
  - intros H. apply bind_Ok in H as (t0 & E & H). injection H as <- <-. apply unwrap_inv in E.
    split; [|split; [reflexivity|]].
    2: { intros _. unfold create_tick in E. apply bind_Ok in E as (u & _ & E).
         apply bind_Ok in E as (p' & E2 & E). apply pools_get_Ok in E2. rewrite Hp in E2. injection E2 as <-.
         unfold tick_create in E. apply bind_Ok in E as (sp & _ & E). injection E as <-. split; reflexivity. }
    pose proof (I_pool _ I _ _ Hp) as PO. pose proof (pool_spacing _ _ PO) as Hs.
    unfold create_tick in E. apply bind_Ok in E as (u & E1 & E). apply map_err_Ok in E1. destruct u.
    apply check_tick_inv in E1; [|lia].
    apply bind_Ok in E as (p' & E2 & E). apply pools_get_Ok in E2. rewrite Hp in E2. injection E2 as <-.
    unfold tick_create in E. apply bind_Ok in E as (sp & E3 & E). apply unwrap_inv in E3. injection E as <-.
    apply calculate_sqrt_price_Ok in E3 as [_ ->]; [|eapply okt_not_min; eauto].
    assert (G0 : gross_at s k i = 0).
    { pose proof (gross_at_nonneg s k i I). destruct (Z.eq_dec (gross_at s k i) 0); [auto|].
      exfalso. destruct (proj2 (I_exists _ I k i)) as [t Ht]; [lia|congruence]. }
    constructor; cbn; auto.
    + destruct (i <=? _); [apply PO|unfold u128; lia].
    + destruct (i <=? _); [apply PO|unfold u128; lia].
    + unfold u256. lia.
    + unfold t_net. cbn. symmetry. apply no_gross_no_net; auto.
Qed.

Lemma pool_ok_liq k p v ts : pool_ok k p -> u256 v -> pool_ok k (set_liquidity v (set_last_timestamp ts p)).
Proof. intros [] Hv. constructor; cbn; auto. Qed.

Lemma tick_update_ok s s' k i t d mx up dep t' : tick_ok s k i t -> 0 <= d < M256 ->
  tick_update t d mx up dep = Ok t' ->
  gross_at s' k i = gross_at s k i + (if dep then d else - d) ->
  net_at s' k i = net_at s k i + (if xorb dep up then d else - d) ->
  tick_ok s' k i t'.
Proof.
  intros T Hd H HG HN. destruct T as [T1 T2 T3 T4 T5 T6 T7 T8].
  apply tick_update_inv in H as (H1 & H2 & H3 & H4 & _ & H5 & H6 & H7).
  apply u256_M in T6. apply tick_new_liquidity_change_net in H7 as [H7 H8]; [|lia|lia|lia].
  constructor; try congruence.
  - apply u256_I. exact H8.
  - rewrite HG, <- T7. destruct dep; [destruct (H5 eq_refl)|destruct (H6 eq_refl)]; lia.
  - rewrite HN, <- T8. unfold t_net at 1. exact H7.
Qed.

Lemma tick_ok_other s s' k i t : tick_ok s k i t ->
  gross_at s' k i = gross_at s k i -> net_at s' k i = net_at s k i -> tick_ok s' k i t.
Proof. intros [] HG HN. constructor; auto; congruence. Qed.

(** Sums after a position has been added. *)
Lemma sums_insert s s' key pos k i : s_positions s !! key = None ->
  s_positions s' = <[key := pos]> (s_positions s) ->
  gross_at s' k i = gross_at s k i + gross_of k i pos /\ net_at s' k i = net_at s k i + net_of k i pos.
Proof. intros H E. unfold gross_at, net_at. rewrite E, !msum_insert by auto. lia. Qed.

Lemma to_fee_zero g v : to_fee g 0 = Ok v -> v = 0.
Proof.
  unfold to_fee. intros H. inv_res. subst. rewrite Z.mul_0_r. reflexivity.
Qed.

Lemma inside_u128 lo lo_out up up_out cur g : u128 lo_out -> u128 up_out -> u128 g ->
  u128 (fee_growth_inside_one lo lo_out up up_out cur g).
Proof. intros. rewrite fee_growth_inside_eq by auto. apply wrap_u128. Qed.

(** What [position_create] produces. *)
Lemma position_create_facts s p k tl0 tu0 ts L sl su bn pos p' tu tl x y lo up :
  tick_ok s k lo tl0 -> tick_ok s k up tu0 -> pool_ok k p -> L <> 0 -> u256 L -> lo <> up ->
  position_create p k tl0 tu0 ts L sl su bn (pk_spacing k) = Ok (pos, p', tu, tl, (x, y)) ->
  exists mx u,
    sl <= p_sqrt_price p <= su /\
    calculate_max_liquidity_per_tick (pk_spacing k) = Ok mx /\
    tick_update tl0 L mx false true = Ok tl /\ tick_update tu0 L mx true true = Ok tu /\
    pos = mkPosition k L lo up
            (fee_growth_inside_one lo (t_fee_growth_outside_x tl0) up (t_fee_growth_outside_x tu0)
               (p_current_tick_index p) (p_fee_growth_global_x p))
            (fee_growth_inside_one lo (t_fee_growth_outside_y tl0) up (t_fee_growth_outside_y tu0)
               (p_current_tick_index p) (p_fee_growth_global_y p)) bn 0 0 /\
    calculate_amount_delta (p_current_tick_index p) (p_sqrt_price p) L true up lo = Ok (x, y, u) /\
    p' = set_liquidity (if u then p_liquidity p + L else p_liquidity p) (set_last_timestamp ts p) /\
    (u = true -> p_liquidity p + L < M256) /\
    lo < up /\ u = (lo <=? p_current_tick_index p) && (p_current_tick_index p <? up).
Proof.
  intros T1 T2 PO HL0 HL Hne H. unfold position_create in H. apply bind_Ok in H as (v & E & H).
  apply fail_if_Ok, orb_false_iff in E as [E1 E2]. apply unwrap_inv in H.
  apply position_modify_inv in H as (mx & fx & fy & M1 & M2 & M3 & M4 & M5 & M6 & u & M7 & M8 & M9).
  rewrite (to_index _ _ _ _ T1), (to_index _ _ _ _ T2) in *.
  pose proof (amount_delta_in_range _ _ _ _ _ _ _ _ _ M7) as [R1 R2].
  apply position_update_inv in M6 as (ox & oy & O1 & O2 & _ & _ & _ & _ & _ & ->).
  cbn [pos_liquidity pos_tokens_owed_x pos_tokens_owed_y pos_pool_key pos_lower pos_upper pos_last_block_number] in *.
  apply to_fee_zero in O1, O2. subst ox oy fx fy.
  exists mx, u. split; [lia|]. split; [auto|]. split; [auto|]. split; [auto|]. split; [reflexivity|].
  split; [auto|]. split; [auto|]. split; [auto|]. split; [lia|auto].
Qed.

Lemma Inv_create_position e s k lo up L sl su s' pos :
  Inv s -> u256 L -> positions_get_length s (e_caller e) < M32 - 1 ->
  create_position e s k lo up L sl su = Ok (s', pos) -> dense s' -> Inv s'.
Proof.
  intros I HL HB H D'. apply create_position_inv in H
    as (p & tl0 & al & tu0 & au & p' & tl & tu & x & y & b1 & L0 & Hne & Hp & G1 & G2 & PC & CF & SP & SPos & SLen & ST & A1 & A2 & _).
  pose proof (I_pool _ I _ _ Hp) as PO. pose proof (pool_spacing _ _ PO) as Hs.
  destruct (get_or_create_ok _ _ _ _ _ _ _ I Hp G1) as (TO1 & N1 & _).
  destruct (get_or_create_ok _ _ _ _ _ _ _ I Hp G2) as (TO2 & N2 & _).
  destruct (position_create_facts s p k tl0 tu0 _ L sl su _ pos p' tu tl x y lo up TO1 TO2 PO L0 HL Hne PC)
    as (mx & u & _ & _ & U1 & U2 & EP & _ & EP' & Hu & Hlt & _).
  pose proof (proj1 (u256_M _ HL)) as HL1. pose proof (proj2 (u256_M _ HL)) as HL2.
  assert (I1 : t_index tl = lo).
  { apply tick_update_inv in U1 as [U1 _]. rewrite U1. apply (to_index _ _ _ _ TO1). }
  assert (I2 : t_index tu = up).
  { apply tick_update_inv in U2 as [U2 _]. rewrite U2. apply (to_index _ _ _ _ TO2). }
  rewrite I1, I2 in *.
  assert (SUM : forall k' j, gross_at s' k' j = gross_at s k' j + gross_of k' j pos /\
                             net_at s' k' j = net_at s k' j + net_of k' j pos).
  { intros k' j. apply (sums_insert s s' _ pos k' j (dense_fresh s (e_caller e) (I_dense _ I)) SPos). }
  assert (GO : forall k' j, gross_of k' j pos = if bool_decide (k = k') && ((lo =? j) || (up =? j)) then L else 0).
  { intros. subst pos. reflexivity. }
  assert (NO : forall k' j, net_of k' j pos = if bool_decide (k = k')
      then (if lo =? j then L else 0) - (if up =? j then L else 0) else 0).
  { intros. subst pos. reflexivity. }
  clear PC. rewrite lookup_insert_ne in A2 by (intros [= Hx]; lia).
  assert (okl : okt (pk_spacing k) lo) by apply TO1. assert (oku : okt (pk_spacing k) up) by apply TO2.
  (* bitmap *)
  assert (B : wf_bitmap (s_bitmap s') /\ forall k' n, mem (s_bitmap s') k' n = true <->
      mem (s_bitmap s) k' n = true \/ (k' = k /\ (n = tidx (pk_spacing k) lo \/ n = tidx (pk_spacing k) up))).
  { assert (B1 : wf_bitmap b1 /\ forall k' n, mem b1 k' n = true <->
        mem (s_bitmap s) k' n = true \/ (k' = k /\ n = tidx (pk_spacing k) lo)).
    { destruct al.
      - destruct A1 as [_ A1]. apply tickmap_flip_inv in A1 as (_ & _ & W & M); [|lia].
        split; [apply W, I|]. intros k' n. rewrite M. destruct (decide (n = tidx (pk_spacing k) lo /\ k' = k)); naive_solver.
      - destruct A1 as [-> _]. split; [apply I|]. intros k' n. split; [auto|]. intros [Hm|[-> ->]]; [auto|].
        apply (I_bit2 _ I). eauto. }
    destruct B1 as [W1 M1]. destruct au.
    - destruct A2 as [_ A2]. apply tickmap_flip_inv in A2 as (_ & _ & W & M); [|lia].
      split; [apply W; auto|]. intros k' n. rewrite M.
      destruct (decide (n = tidx (pk_spacing k) up /\ k' = k)); [naive_solver|rewrite M1; naive_solver].
    - destruct A2 as [-> _]. split; [auto|]. intros k' n. rewrite M1. split; [naive_solver|].
      intros [Hm|[-> [->| ->]]]; [auto|auto|]. left. apply (I_bit2 _ I). eauto. }
  destruct B as [W M].
  assert (TS : forall k' j, is_Some (s_ticks s' !! (k', j)) <-> is_Some (s_ticks s !! (k', j)) \/ (k' = k /\ (j = lo \/ j = up))).
  { intros k' j. rewrite ST. rewrite !lookup_insert_is_Some. split.
    - intros [[= -> ->]|[_ [[= -> ->]|[_ Hj]]]]; auto.
    - intros [Hj|[-> [->| ->]]].
      + destruct (decide ((k, up) = (k', j))); [auto|]. right. split; [auto|].
        destruct (decide ((k, lo) = (k', j))); auto.
      + right. split; [intros [= Hx]; lia|]. left. reflexivity.
      + left. reflexivity. }
  destruct CF as (_ & CF2 & CF3 & _).
  assert (PS : forall k', is_Some (s_pools s !! k') -> is_Some (s_pools s' !! k')).
  { intros k' Hk. rewrite SP, lookup_insert_is_Some. destruct (decide (k = k')); auto. }
  constructor; auto.
  - rewrite CF2. apply I.
  - rewrite CF3. apply I.
  - intros k' q Hq. rewrite SP in Hq. apply lookup_insert_Some in Hq as [[-> <-]|[_ Hq]]; [|apply (I_pool _ I _ _ Hq)].
    rewrite EP'. apply pool_ok_liq; [auto|]. pose proof (u256_M _ (po_liq _ _ PO)). apply u256_I.
    destruct u; [specialize (Hu eq_refl); lia|lia].
  - intros a i q Hq. rewrite SPos in Hq. apply lookup_insert_Some in Hq as [[_ <-]|[_ Hq]].
    + clear SUM GO NO SPos. subst pos. constructor; cbn [pos_pool_key pos_lower pos_upper pos_liquidity pos_fee_growth_inside_x pos_fee_growth_inside_y pos_tokens_owed_x pos_tokens_owed_y].
      * apply PS. eauto.
      * lia.
      * lia.
      * apply inside_u128; [apply TO1|apply TO2|apply PO].
      * apply inside_u128; [apply TO1|apply TO2|apply PO].
      * reflexivity.
      * reflexivity.
    + destruct (I_pos _ I _ _ _ Hq). constructor; auto.
  - intros k' n Hn. apply M in Hn as [Hn|[-> [->| ->]]].
    + apply (I_bit1 _ I) in Hn as (i & Hi & ->). exists i. split; [apply TS; auto|auto].
    + exists lo. split; [apply TS; auto|auto].
    + exists up. split; [apply TS; auto|auto].
  - intros k' i Hi. apply M. apply TS in Hi as [Hi|[-> [->| ->]]]; [left; apply (I_bit2 _ I); auto|auto|auto].
  - intros k' i t Ht. rewrite ST in Ht. destruct (SUM k' i) as [S1 S2]. rewrite GO in S1. rewrite NO in S2.
    apply lookup_insert_Some in Ht as [[[= <- <-] <-]|[Hn1 Ht]].
    + split; [apply PS; eauto|].
      rewrite bool_decide_eq_true_2 in S1, S2 by reflexivity. rewrite Z.eqb_refl in S1, S2. rewrite orb_true_r in S1.
      destruct (Z.eqb_spec lo up); [lia|]. cbn [andb] in S1.
      apply (tick_update_ok s s' k up tu0 L mx true true); [auto|lia|auto|lia|cbn [xorb]; lia].
    + apply lookup_insert_Some in Ht as [[[= <- <-] <-]|[Hn2 Ht]].
      * split; [apply PS; eauto|].
        rewrite bool_decide_eq_true_2 in S1, S2 by reflexivity. rewrite Z.eqb_refl in S1, S2. cbn [orb] in S1.
        destruct (Z.eqb_spec up lo); [lia|]. cbn [andb] in S1.
        apply (tick_update_ok s s' k lo tl0 L mx false true); [auto|lia|auto|lia|cbn [xorb]; lia].
      * destruct (I_tick _ I _ _ _ Ht) as [Hk TO]. split; [auto|]. apply (tick_ok_other s); [auto| |].
        -- rewrite S1. destruct (bool_decide (k = k')) eqn:EK; cbn [andb]; [|lia].
           apply bool_decide_eq_true in EK. subst k'.
           destruct (Z.eqb_spec lo i); [congruence|]. destruct (Z.eqb_spec up i); [congruence|]. cbn. lia.
        -- rewrite S2. destruct (bool_decide (k = k')) eqn:EK; [|lia].
           apply bool_decide_eq_true in EK. subst k'.
           destruct (Z.eqb_spec lo i); [congruence|]. destruct (Z.eqb_spec up i); [congruence|]. lia.
  - intros k' i. rewrite TS. destruct (SUM k' i) as [S1 _]. rewrite S1, GO.
    pose proof (gross_at_nonneg s k' i I) as Hg. rewrite (I_exists _ I k' i). split.
    + intros [Hi|[-> Hi]].
      * destruct (_ && _); lia.
      * rewrite bool_decide_eq_true_2 by reflexivity.
        destruct (Z.eqb_spec lo i), (Z.eqb_spec up i); cbn [andb orb]; lia.
    + destruct (bool_decide (k = k')) eqn:EK; cbn [andb]; [|intros; left; lia].
      apply bool_decide_eq_true in EK. subst k'.
      destruct (Z.eqb_spec lo i); [intros; right; auto|]. destruct (Z.eqb_spec up i); [intros; right; auto|].
      cbn. intros; left; lia.
Qed.

(** Fees owed to a position, from the current growth inside its range. *)
Definition inside_x (p : pool) (tl tu : tick) : Z :=
  fee_growth_inside_one (t_index tl) (t_fee_growth_outside_x tl) (t_index tu) (t_fee_growth_outside_x tu)
    (p_current_tick_index p) (p_fee_growth_global_x p).
Definition inside_y (p : pool) (tl tu : tick) : Z :=
  fee_growth_inside_one (t_index tl) (t_fee_growth_outside_y tl) (t_index tu) (t_fee_growth_outside_y tu)
    (p_current_tick_index p) (p_fee_growth_global_y p).

(** What [position_modify] does to an existing position. *)
Lemma position_modify_facts s pos p tu0 tl0 d add ts pos' p' tu tl dx dy :
  tick_ok s (pos_pool_key pos) (pos_lower pos) tl0 -> tick_ok s (pos_pool_key pos) (pos_upper pos) tu0 ->
  pos_ok s pos ->
  position_modify pos p tu0 tl0 d add ts (pk_spacing (pos_pool_key pos)) = Ok (pos', p', tu, tl, (dx, dy)) ->
  exists mx u ox oy,
    calculate_max_liquidity_per_tick (pk_spacing (pos_pool_key pos)) = Ok mx /\
    tick_update tl0 d mx false add = Ok tl /\ tick_update tu0 d mx true add = Ok tu /\
    to_fee (unchecked_sub (inside_x p tl0 tu0) (pos_fee_growth_inside_x pos)) (pos_liquidity pos) = Ok ox /\
    to_fee (unchecked_sub (inside_y p tl0 tu0) (pos_fee_growth_inside_y pos)) (pos_liquidity pos) = Ok oy /\
    pos' = mkPosition (pos_pool_key pos) (if add then pos_liquidity pos + d else pos_liquidity pos - d)
             (pos_lower pos) (pos_upper pos) (inside_x p tl0 tu0) (inside_y p tl0 tu0) (pos_last_block_number pos) ox oy /\
    calculate_amount_delta (p_current_tick_index p) (p_sqrt_price p) d add (pos_upper pos) (pos_lower pos) = Ok (dx, dy, u) /\
    p' = set_liquidity (if u then (if add then p_liquidity p + d else p_liquidity p - d) else p_liquidity p)
           (set_last_timestamp ts p) /\
    (u = true -> if add then p_liquidity p + d < M256 else d <= p_liquidity p) /\
    u = (pos_lower pos <=? p_current_tick_index p) && (p_current_tick_index p <? pos_upper pos) /\
    t_index tl = pos_lower pos /\ t_index tu = pos_upper pos.
Proof.
  intros T1 T2 SO H.
  apply position_modify_inv in H as (mx & fx & fy & M1 & M2 & M3 & M4 & M5 & M6 & u & M7 & M8 & M9).
  fold (inside_x p tl0 tu0) in M4. fold (inside_y p tl0 tu0) in M5. subst fx fy.
  rewrite (to_index _ _ _ _ T1), (to_index _ _ _ _ T2) in *.
  pose proof (amount_delta_in_range _ _ _ _ _ _ _ _ _ M7) as [R1 R2].
  apply position_update_inv in M6 as (ox & oy & O1 & O2 & _ & _ & _ & _ & _ & ->).
  rewrite (so_ox _ _ SO), (so_oy _ _ SO), !Z.add_0_l.
  exists mx, u, ox, oy. do 9 (split; [auto|]). split; [auto|].
  apply tick_update_inv in M2 as [M2 _]. apply tick_update_inv in M3 as [M3 _].
  rewrite M2, M3. split; [apply T1|apply T2].
Qed.

Lemma sums_removed s s' a i lp pos k j : s_positions s !! (a, i) = Some pos ->
  (match lp with Some q => i < last_index s a /\ s_positions s !! (a, last_index s a) = Some q
               | None => last_index s a <= i end) ->
  s_positions s' = removed_positions s a i lp ->
  gross_at s' k j = gross_at s k j - gross_of k j pos /\ net_at s' k j = net_at s k j - net_of k j pos.
Proof. intros H HL E. unfold gross_at, net_at. rewrite E. rewrite !(removed_msum _ s a i lp pos) by auto. auto. Qed.

Lemma Inv_remove_position e s i s' x y : Inv s ->
  remove_position e s i = Ok (s', (x, y)) -> dense s' -> Inv s'.
Proof.
  intros I H D'. apply remove_position_inv in H
    as (pos & tl0 & tu0 & p & pos' & p' & tu & tl & dx & dy & rl & ru & b1 & T1 & lp & H). cbv zeta in H.
  set (k := pos_pool_key pos) in *.
  destruct H as (Hpos & Htl & Htu & Hp & PM & _ & _ & Erl & Eru & CF & SP & A1 & A2 & HLP & SPos & _ & _ & _).
  pose proof (I_pool _ I _ _ Hp) as PO. pose proof (pool_spacing _ _ PO) as Hs.
  pose proof (I_pos _ I _ _ _ Hpos) as SO.
  pose proof (proj2 (I_tick _ I _ _ _ Htl)) as TO1. pose proof (proj2 (I_tick _ I _ _ _ Htu)) as TO2.
  destruct (position_modify_facts s pos p tu0 tl0 _ _ _ pos' p' tu tl dx dy TO1 TO2 SO PM)
    as (mx & u & ox & oy & _ & U1 & U2 & _ & _ & _ & _ & EP' & Hu & _ & I1 & I2).
  fold k in U1, U2, PM. rewrite I1, I2 in *.
  pose proof (so_liq _ _ SO) as HL. pose proof (so_lt _ _ SO) as Hlt.
  set (lo := pos_lower pos) in *. set (up := pos_upper pos) in *. set (L := pos_liquidity pos) in *.
  assert (SUM : forall k' j, gross_at s' k' j = gross_at s k' j - gross_of k' j pos /\
                             net_at s' k' j = net_at s k' j - net_of k' j pos).
  { intros k' j. apply (sums_removed s s' (e_caller e) i lp pos k' j Hpos HLP SPos). }
  assert (GO : forall k' j, gross_of k' j pos = if bool_decide (k = k') && ((lo =? j) || (up =? j)) then L else 0) by reflexivity.
  assert (NO : forall k' j, net_of k' j pos = if bool_decide (k = k')
      then (if lo =? j then L else 0) - (if up =? j then L else 0) else 0) by reflexivity.
  assert (TU : tick_ok s' k up tu).
  { destruct (SUM k up) as [S1 S2]. rewrite GO in S1. rewrite NO in S2.
    rewrite bool_decide_eq_true_2 in S1, S2 by reflexivity. rewrite Z.eqb_refl in S1, S2. rewrite orb_true_r in S1.
    destruct (Z.eqb_spec lo up); [lia|]. cbn [andb] in S1.
    apply (tick_update_ok s s' k up tu0 L mx true false); [auto|lia|auto|lia|cbn [xorb]; lia]. }
  assert (TL : tick_ok s' k lo tl).
  { destruct (SUM k lo) as [S1 S2]. rewrite GO in S1. rewrite NO in S2.
    rewrite bool_decide_eq_true_2 in S1, S2 by reflexivity. rewrite Z.eqb_refl in S1, S2. cbn [orb] in S1.
    destruct (Z.eqb_spec up lo); [lia|]. cbn [andb] in S1.
    apply (tick_update_ok s s' k lo tl0 L mx false false); [auto|lia|auto|lia|cbn [xorb]; lia]. }
  assert (okl : okt (pk_spacing k) lo) by apply TO1. assert (oku : okt (pk_spacing k) up) by apply TO2.
  assert (Hidx : tidx (pk_spacing k) lo <> tidx (pk_spacing k) up).
  { intros E. apply tidx_inj in E; auto; lia. }
  (* bitmap *)
  assert (B : wf_bitmap (s_bitmap s') /\ forall k' n, mem (s_bitmap s') k' n = true <->
      mem (s_bitmap s) k' n = true /\ ~ (k' = k /\ ((rl = true /\ n = tidx (pk_spacing k) lo) \/ (ru = true /\ n = tidx (pk_spacing k) up)))).
  { assert (B1 : wf_bitmap b1 /\ forall k' n, mem b1 k' n = true <->
        mem (s_bitmap s) k' n = true /\ ~ (k' = k /\ rl = true /\ n = tidx (pk_spacing k) lo)).
    { destruct rl.
      - destruct A1 as [_ A1]. apply tickmap_flip_inv in A1 as (_ & _ & W & M); [|lia].
        split; [apply W, I|]. intros k' n. rewrite M. destruct (decide (n = tidx (pk_spacing k) lo /\ k' = k)); naive_solver.
      - destruct A1 as [_ ->]. split; [apply I|]. intros k' n. naive_solver. }
    destruct B1 as [W1 M1]. destruct ru.
    - destruct A2 as [_ A2]. apply tickmap_flip_inv in A2 as (_ & _ & W & M); [|lia].
      split; [apply W; auto|]. intros k' n. rewrite M.
      destruct (decide (n = tidx (pk_spacing k) up /\ k' = k)); [naive_solver|rewrite M1; naive_solver].
    - destruct A2 as [_ ->]. split; [auto|]. intros k' n. rewrite M1. naive_solver. }
  destruct B as [W M].
  assert (TV : forall k' j t, s_ticks s' !! (k', j) = Some t <->
     (k' = k /\ j = lo /\ rl = false /\ t = tl) \/ (k' = k /\ j = up /\ ru = false /\ t = tu) \/
     (~ (k' = k /\ (j = lo \/ j = up)) /\ s_ticks s !! (k', j) = Some t)).
  { assert (TV1 : forall k' j t, T1 !! (k', j) = Some t <->
      (k' = k /\ j = lo /\ rl = false /\ t = tl) \/ (~ (k' = k /\ j = lo) /\ s_ticks s !! (k', j) = Some t)).
    { intros k' j t. destruct rl; destruct A1 as [-> _].
      - rewrite lookup_delete_Some. split.
        + intros [Hn Ht]. right. split; [intros [-> ->]; apply Hn; reflexivity|auto].
        + intros [(_ & _ & [=] & _)|[Hn Ht]]. split; [intros [= <- <-]; apply Hn; auto|auto].
      - rewrite lookup_insert_Some. split.
        + intros [[[= <- <-] <-]|[Hn Ht]]; [left; auto|]. right. split; [intros [-> ->]; apply Hn; reflexivity|auto].
        + intros [(-> & -> & _ & ->)|[Hn Ht]]; [left; auto|]. right. split; [intros [= <- <-]; apply Hn; auto|auto]. }
    intros k' j t. destruct ru; destruct A2 as [-> _].
    - rewrite lookup_delete_Some, TV1. split.
      + intros [Hn [(-> & -> & -> & ->)|[Hn2 Ht]]]; [left; auto|]. right; right. split; [|auto].
        intros [-> [->| ->]]; [apply Hn2; auto|apply Hn; reflexivity].
      + intros [(-> & -> & -> & ->)|[(_ & _ & [=] & _)|[Hn Ht]]].
        * split; [intros [= Hx]; lia|]. left; auto.
        * split; [intros [= <- <-]; apply Hn; auto|]. right. split; [intros [-> ->]; apply Hn; auto|auto].
    - rewrite lookup_insert_Some, TV1. split.
      + intros [[[= <- <-] <-]|[Hn [(-> & -> & -> & ->)|[Hn2 Ht]]]]; [right; left; auto|left; auto|].
        right; right. split; [|auto]. intros [-> [->| ->]]; [apply Hn2; auto|apply Hn; reflexivity].
      + intros [(-> & -> & -> & ->)|[(-> & -> & _ & ->)|[Hn Ht]]].
        * right. split; [intros [= Hx]; lia|]. left; auto.
        * left. auto.
        * right. split; [intros [= <- <-]; apply Hn; auto|]. right. split; [intros [-> ->]; apply Hn; auto|auto]. }
  assert (TS : forall k' j, is_Some (s_ticks s' !! (k', j)) <->
     is_Some (s_ticks s !! (k', j)) /\ ~ (k' = k /\ ((rl = true /\ j = lo) \/ (ru = true /\ j = up)))).
  { intros k' j. split.
    - intros [t Ht]. apply TV in Ht as [(-> & -> & -> & ->)|[(-> & -> & -> & ->)|[Hn Ht]]].
      + split; [eauto|]. intros (_ & [[[=] _]|[_ Hx]]). lia.
      + split; [eauto|]. intros (_ & [[_ Hx]|[[=] _]]). lia.
      + split; [eauto|]. intros (-> & [[_ ->]|[_ ->]]); apply Hn; auto.
    - intros [[t Ht] Hn]. destruct (decide (k' = k /\ j = lo)) as [[-> ->]|N1].
      + exists tl. apply TV. left. destruct rl; [exfalso; apply Hn; auto|auto].
      + destruct (decide (k' = k /\ j = up)) as [[-> ->]|N2].
        * exists tu. apply TV. right; left. destruct ru; [exfalso; apply Hn; auto|auto].
        * exists t. apply TV. right; right. split; [|auto]. intros [-> [->| ->]]; auto. }
  destruct CF as (_ & CF2 & CF3 & _).
  assert (PS : forall k', is_Some (s_pools s !! k') -> is_Some (s_pools s' !! k')).
  { intros k' Hk. rewrite SP, lookup_insert_is_Some. destruct (decide (k = k')); auto. }
  constructor; auto.
  - rewrite CF2. apply I.
  - rewrite CF3. apply I.
  - intros k' q Hq. rewrite SP in Hq. apply lookup_insert_Some in Hq as [[<- <-]|[_ Hq]]; [|apply (I_pool _ I _ _ Hq)].
    rewrite EP'. apply pool_ok_liq; [auto|]. pose proof (u256_M _ (po_liq _ _ PO)). apply u256_I.
    destruct u; [specialize (Hu eq_refl); cbn in Hu; lia|lia].
  - intros a n q Hq. rewrite SPos in Hq. apply removed_lookup in Hq as (n' & Hq); [|auto].
    destruct (I_pos _ I _ _ _ Hq). constructor; auto.
  - intros k' n Hn. apply M in Hn as [Hn Hx]. apply (I_bit1 _ I) in Hn as (j & Hj & ->). exists j. split; [|auto].
    apply TS. split; [auto|]. intros (-> & [[? ->]|[? ->]]); apply Hx; auto.
  - intros k' j Hj. apply TS in Hj as [[t Hj] Hx]. apply M. split; [apply (I_bit2 _ I); eauto|].
    pose proof (to_okt _ _ _ _ (proj2 (I_tick _ I _ _ _ Hj))) as Hoj.
    intros (-> & [[? E]|[? E]]); apply tidx_inj in E; auto; try lia; subst j; apply Hx; auto.
  - intros k' j t Ht. apply TV in Ht as [(-> & -> & -> & ->)|[(-> & -> & -> & ->)|[Hn Ht]]].
    + split; [apply PS; eauto|auto].
    + split; [apply PS; eauto|auto].
    + destruct (I_tick _ I _ _ _ Ht) as [Hk TO]. split; [auto|].
      destruct (SUM k' j) as [S1 S2]. rewrite GO in S1. rewrite NO in S2. apply (tick_ok_other s); [auto| |].
      * rewrite S1. destruct (bool_decide (k = k')) eqn:EK; cbn [andb]; [|lia].
        apply bool_decide_eq_true in EK. subst k'.
        destruct (Z.eqb_spec lo j); [exfalso; apply Hn; auto|]. destruct (Z.eqb_spec up j); [exfalso; apply Hn; auto|]. cbn. lia.
      * rewrite S2. destruct (bool_decide (k = k')) eqn:EK; [|lia].
        apply bool_decide_eq_true in EK. subst k'.
        destruct (Z.eqb_spec lo j); [exfalso; apply Hn; auto|]. destruct (Z.eqb_spec up j); [exfalso; apply Hn; auto|]. lia.
  - intros k' j. rewrite TS. destruct (SUM k' j) as [S1 _].
    rewrite (I_exists _ I k' j).
    assert (GN : 0 <= gross_at s' k' j).
    { unfold gross_at. rewrite SPos, (removed_msum _ s (e_caller e) i lp pos) by auto.
      pose proof (msum_ge_one (gross_of k' j) (s_positions s) (e_caller e, i) pos) as Hx.
      cut (gross_of k' j pos <= msum (gross_of k' j) (s_positions s)); [lia|]. apply Hx; [|auto].
      intros [b m] q Hq. apply gross_of_nonneg. pose proof (pos_nonneg _ _ _ _ I Hq). lia. }
    destruct (decide (k' = k /\ (j = lo \/ j = up))) as [[-> Hj]|Hn].
    + assert (GT : 0 < gross_at s k j).
      { apply (I_exists _ I). destruct Hj as [->| ->]; eauto. }
      pose proof (to_gross _ _ _ _ TL) as GL. pose proof (to_gross _ _ _ _ TU) as GU.
      split.
      * intros [_ Hx]. destruct (Z.eq_dec (gross_at s' k j) 0) as [E|]; [|lia]. exfalso. apply Hx.
        split; [auto|]. destruct Hj as [Ej|Ej]; [left|right]; (split; [|auto]); rewrite Ej in E.
        -- rewrite Erl. apply Z.eqb_eq. lia.
        -- rewrite Eru. apply Z.eqb_eq. lia.
      * intros Hx. split; [auto|]. intros (_ & [[Hr Ej]|[Hr Ej]]); rewrite Ej in Hx.
        -- rewrite Hr in Erl. symmetry in Erl. apply Z.eqb_eq in Erl. lia.
        -- rewrite Hr in Eru. symmetry in Eru. apply Z.eqb_eq in Eru. lia.
    + assert (E : gross_at s' k' j = gross_at s k' j).
      { rewrite S1, GO. destruct (bool_decide (k = k')) eqn:EK; cbn [andb]; [|lia].
        apply bool_decide_eq_true in EK. subst k'.
        destruct (Z.eqb_spec lo j); [exfalso; apply Hn; auto|]. destruct (Z.eqb_spec up j); [exfalso; apply Hn; auto|]. cbn. lia. }
      rewrite E. split; [intros [? _]; auto|]. intros Hg. split; [auto|]. intros (-> & [[_ ->]|[_ ->]]); apply Hn; auto.
Qed.

Lemma removed_fresh s a i lp pos rc : dense s -> s_positions s !! (a, i) = Some pos ->
  (match lp with Some q => i < last_index s a /\ s_positions s !! (a, last_index s a) = Some q
               | None => last_index s a <= i end) ->
  removed_positions s a i lp !!
    (rc, default 0 (<[a := last_index s a]> (s_positions_length s) !! rc)) = None.
Proof.
  intros D H HL. destruct (D a) as [HB HD].
  assert (Hi : 0 <= i < positions_get_length s a) by (apply HD; eauto).
  assert (EL : last_index s a = positions_get_length s a - 1).
  { unfold last_index. apply Z.mod_small. lia. }
  destruct (decide (rc = a)) as [->|Hne].
  - rewrite lookup_insert. cbn [from_option default id]. unfold removed_positions. destruct lp as [q|].
    + destruct HL as [Hlt _]. rewrite lookup_insert_ne by (intros [= Hx]; lia). apply lookup_delete.
    + replace (last_index s a) with i by lia. apply lookup_delete.
  - rewrite lookup_insert_ne by congruence.
    change (default 0 (s_positions_length s !! rc)) with (positions_get_length s rc).
    pose proof (dense_fresh s rc D) as HF. unfold removed_positions. destruct lp as [q|].
    + rewrite lookup_insert_ne by congruence. rewrite lookup_delete_ne by congruence. exact HF.
    + rewrite lookup_delete_ne by congruence. exact HF.
Qed.

Lemma Inv_positions s s' : Inv s -> dense s' ->
  s_protocol_fee s' = s_protocol_fee s -> s_fee_tiers s' = s_fee_tiers s ->
  s_pools s' = s_pools s -> same_ticks s s' ->
  (forall a i pos, s_positions s' !! (a, i) = Some pos -> pos_ok s pos) ->
  (forall k i, gross_at s' k i = gross_at s k i) -> (forall k i, net_at s' k i = net_at s k i) -> Inv s'.
Proof.
  intros I D E1 E2 E3 [E4 E5] HP HG HN. constructor; auto.
  - rewrite E1. apply I.
  - rewrite E2. apply I.
  - rewrite E3. apply I.
  - intros a i pos Hp. destruct (HP _ _ _ Hp). constructor; auto. rewrite E3. auto.
  - rewrite E5. apply I.
  - rewrite E4, E5. apply I.
  - rewrite E4, E5. apply I.
  - rewrite E3, E4. intros k i t Ht. destruct (I_tick _ I _ _ _ Ht) as [Hk TO]. split; [auto|].
    apply (tick_ok_other s); auto.
  - intros k i. rewrite E4, HG. apply I.
Qed.

(** Every sum over the positions is unchanged by a transfer. *)
Lemma transfer_msum f e s i rc s' r : dense s ->
  transfer_position e s i rc = Ok (s', r) -> msum f (s_positions s') = msum f (s_positions s).
Proof.
  intros D H. apply transfer_position_inv in H as (pos & lp & s1 & Hpos & HL & Es1 & ->).
  unfold positions_add. cbn [set_positions s_positions].
  rewrite msum_insert.
  - rewrite Es1. cbn [set_positions s_positions]. rewrite (removed_msum _ s (e_caller e) i lp pos) by auto. lia.
  - rewrite Es1. unfold positions_get_length. cbn [set_positions s_positions s_positions_length].
    eapply removed_fresh; eauto.
Qed.

Lemma Inv_transfer_position e s i rc s' r : Inv s ->
  transfer_position e s i rc = Ok (s', r) -> dense s' -> Inv s'.
Proof.
  intros I H D'. pose proof (fun f => transfer_msum f e s i rc s' r (I_dense _ I) H) as MS.
  apply transfer_position_inv in H as (pos & lp & s1 & Hpos & HL & Es1 & Es').
  apply (Inv_positions s); auto.
  - subst. reflexivity.
  - subst. reflexivity.
  - subst. reflexivity.
  - subst. split; reflexivity.
  - intros a n q Hq. subst s'. unfold positions_add in Hq. cbn [set_positions s_positions] in Hq.
    apply lookup_insert_Some in Hq as [[_ <-]|[_ Hq]]; [apply (I_pos _ I _ _ _ Hpos)|].
    subst s1. cbn [set_positions s_positions] in Hq. apply removed_lookup in Hq as (n' & Hq); [|auto].
    apply (I_pos _ I _ _ _ Hq).
  - intros k j. apply MS.
  - intros k j. apply MS.
Qed.

(** Changing only the fee fields of a tick or of a position. *)
Lemma Inv_claim_fee e s i s' x y : Inv s ->
  claim_fee e s i = Ok (s', (x, y)) -> dense s' -> Inv s'.
Proof.
  intros I H D'. apply claim_fee_inv in H
    as (pos & tl0 & tu0 & p & pos' & p' & tu & tl & dx & dy & B & H). cbv zeta in H.
  set (k := pos_pool_key pos) in *.
  destruct H as (Hpos & Htl & Htu & Hp & PM & _ & _ & _ & Es' & _).
  pose proof (I_pool _ I _ _ Hp) as PO. pose proof (pool_spacing _ _ PO) as Hs.
  pose proof (I_pos _ I _ _ _ Hpos) as SO.
  pose proof (proj2 (I_tick _ I _ _ _ Htl)) as TO1. pose proof (proj2 (I_tick _ I _ _ _ Htu)) as TO2.
  destruct (position_modify_facts s pos p tu0 tl0 _ _ _ pos' p' tu tl dx dy TO1 TO2 SO PM)
    as (mx & u & ox & oy & _ & U1 & U2 & _ & _ & EP & _ & EP' & Hu & _ & I1 & I2).
  fold k in U1, U2, PM. rewrite I1, I2 in *. cbv iota in EP. rewrite Z.add_0_r in EP.
  set (lo := pos_lower pos) in *. set (up := pos_upper pos) in *.
  pose proof (so_lt _ _ SO) as Hlt.
  assert (MS : forall f, (forall q q', pos_pool_key q = pos_pool_key q' -> pos_liquidity q = pos_liquidity q' ->
      pos_lower q = pos_lower q' -> pos_upper q = pos_upper q' -> f q = f q') ->
    msum f (s_positions s') = msum f (s_positions s)).
  { intros f Hf. subst s'. cbn [set_balances set_ticks set_pools set_positions s_positions].
    rewrite (msum_update _ _ _ pos) by auto. subst pos'.
    match goal with |- _ - f pos + f ?q = _ => assert (f q = f pos) as -> by (apply Hf; reflexivity) end. lia. }
  assert (HG : forall k' j, gross_at s' k' j = gross_at s k' j).
  { intros k' j. apply MS. intros q q' E1 E2 E3 E4. unfold gross_of. rewrite E1, E2, E3, E4. reflexivity. }
  assert (HN : forall k' j, net_at s' k' j = net_at s k' j).
  { intros k' j. apply MS. intros q q' E1 E2 E3 E4. unfold net_of. rewrite E1, E2, E3, E4. reflexivity. }
  assert (ST : s_ticks s' = <[(k, lo) := tl]> (<[(k, up) := tu]> (s_ticks s))) by (subst s'; reflexivity).
  assert (TS : forall k' j, is_Some (s_ticks s' !! (k', j)) <-> is_Some (s_ticks s !! (k', j))).
  { intros k' j. rewrite ST, !lookup_insert_is_Some. split.
    - intros [[= <- <-]|[_ [[= <- <-]|[_ Hj]]]]; eauto.
    - intros Hj. destruct (decide ((k, lo) = (k', j))); [auto|]. right. split; [auto|].
      destruct (decide ((k, up) = (k', j))); auto. }
  assert (PS : forall k', is_Some (s_pools s !! k') -> is_Some (s_pools s' !! k')).
  { intros k' Hk. subst s'. cbn [set_balances set_ticks set_pools s_pools].
    rewrite lookup_insert_is_Some. destruct (decide (k = k')); auto. }
  assert (EB : s_bitmap s' = s_bitmap s) by (subst s'; reflexivity).
  constructor; auto.
  - subst s'. apply I.
  - subst s'. apply I.
  - intros k' q Hq. subst s'. cbn [set_balances set_ticks set_pools s_pools] in Hq.
    apply lookup_insert_Some in Hq as [[<- <-]|[_ Hq]]; [|apply (I_pool _ I _ _ Hq)].
    rewrite EP'. apply pool_ok_liq; [auto|]. rewrite Z.add_0_r. destruct u; apply PO.
  - intros a n q Hq. subst s'. cbn [set_balances set_ticks set_pools set_positions s_positions] in Hq.
    apply lookup_insert_Some in Hq as [[_ <-]|[_ Hq]].
    + destruct SO. subst pos'.
      constructor; cbn [pos_pool_key pos_lower pos_upper pos_liquidity pos_fee_growth_inside_x pos_fee_growth_inside_y pos_tokens_owed_x pos_tokens_owed_y]; auto.
      * apply inside_u128; [apply TO1|apply TO2|apply PO].
      * apply inside_u128; [apply TO1|apply TO2|apply PO].
    + destruct (I_pos _ I _ _ _ Hq). constructor; auto.
  - rewrite EB. apply I.
  - rewrite EB. intros k' n Hn. apply (I_bit1 _ I) in Hn as (j & Hj & ->). exists j. split; [apply TS; auto|auto].
  - rewrite EB. intros k' j Hj. apply TS in Hj. apply (I_bit2 _ I); auto.
  - intros k' j t Ht. rewrite ST in Ht.
    apply lookup_insert_Some in Ht as [[[= <- <-] <-]|[_ Ht]].
    { split; [apply PS; eauto|]. apply (tick_update_ok s s' k lo tl0 0 mx false true); [auto|unfold M256; lia|auto|rewrite HG; lia|rewrite HN; cbn [xorb]; lia]. }
    apply lookup_insert_Some in Ht as [[[= <- <-] <-]|[_ Ht]].
    { split; [apply PS; eauto|]. apply (tick_update_ok s s' k up tu0 0 mx true true); [auto|unfold M256; lia|auto|rewrite HG; lia|rewrite HN; cbn [xorb]; lia]. }
    destruct (I_tick _ I _ _ _ Ht) as [Hk TO]. split; [auto|]. apply (tick_ok_other s); auto.
  - intros k' j. rewrite TS, HG. apply I.
Qed.
