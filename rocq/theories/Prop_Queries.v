(** Properties C31 (bounds of balances), C34, C36, C37: claims and queries. *)
From Verif Require Import Base Decimal SqrtPriceM LogM ClammM FeeGrowthM Types TickmapM StorageM
  CollectionsM StateM ServiceM Arith SpecMath SpecFees SpecSum SpecState SpecHistory P_Clamm P_Delta P_TickPrice P_Tickmap
  P_Fees P_Balance P_Effects P_Positions P_History P_Loop P_Check P_State P_Iter P_Inv P_InvPos P_PosOps P_InvHist P_Active
  P_Live P_Bals P_Queries Cases CasesClean.
From stdpp Require Import gmap list.
From Coq Require Import ZArith Lia Bool.
Open Scope Z_scope.

Lemma room_facts evs s : history room evs s -> Inv s /\ gross_bound s /\ bals_ok s.
Proof.
  intros H. destruct (gross_bound_history room evs s (fun _ _ h => h) H) as [I G].
  split; [auto|]. split; [auto|]. eapply bals_history; [|exact H]. auto.
Qed.

(** ** C31 *)

Theorem C31_balances_bounded evs s user token : history room evs s ->
  0 <= bal s user token < 2 ^ 256.
Proof. intros H. apply room_facts in H as (_ & _ & B). apply B. Qed.

(** ** C34 *)

Lemma claim_state e s i s' x y : Inv s -> gross_bound s -> claim_fee e s i = Ok (s', (x, y)) -> Inv s' /\ gross_bound s'.
Proof.
  intros I G H. destruct (claim_fee_lists _ _ _ _ _ (positions_get_length s (e_caller e)) [] H) as (pos0 & pos0' & _).
  assert (I' : Inv s').
  { apply (Inv_claim_fee e s i s' x y); auto. intros b. pose proof (I_dense _ I b) as [D1 D2].
    destruct (claim_summary _ _ _ _ _ _ I H) as (pos & p & tl & tu & mx & C).
    apply claim_fee_inv in H as (pos1 & tl0 & tu0 & p0 & pos' & p' & tu1 & tl1 & dx & dy & B & Hpos & _ & _ & _ & _ & _ & _ & _ & -> & _).
    unfold positions_get_length in *. cbn [set_balances set_ticks set_pools set_positions s_positions s_positions_length].
    split; [exact D1|]. intros j. rewrite <- D2. destruct (decide ((e_caller e, i) = (b, j))) as [[= <- <-]|Hn].
    - rewrite lookup_insert, Hpos. split; eauto.
    - rewrite lookup_insert_ne by auto. reflexivity. }
  split; [exact I'|].
  destruct (claim_summary _ _ _ _ _ _ I H) as (pos & p & tl & tu & mx & C).
  intros k j Hk. unfold gross_at. rewrite (claimed_sum _ _ _ _ _ _ _ _ _ _ _ _ (gross_fields k j) C).
  apply G. rewrite (cl_pools _ _ _ _ _ _ _ _ _ _ _ C) in Hk.
  destruct (decide (pos_pool_key pos = k)) as [<-|Hn].
  - rewrite (cl_pool _ _ _ _ _ _ _ _ _ _ _ C). discriminate.
  - rewrite lookup_insert_ne in Hk by auto. exact Hk.
Qed.

Theorem C34_second_claim_pays_zero evs s e1 e2 i s1 xy :
  history room evs s -> e_caller e2 = e_caller e1 ->
  claim_fee e1 s i = Ok (s1, xy) ->
  exists s2, claim_fee e2 s1 i = Ok (s2, (0, 0)) /\ forall u t, bal s2 u t = bal s1 u t.
Proof.
  intros H EC HC. destruct xy as [x y]. apply room_facts in H as (I & G & B).
  destruct (claim_state _ _ _ _ _ _ I G HC) as [I1 G1].
  pose proof (bals_claim _ _ _ _ _ _ I B HC) as B1.
  destruct (claim_summary _ _ _ _ _ _ I HC) as (pos & p & tl & tu & mx & C).
  pose proof (I_pos _ I _ _ _ (cl_pos _ _ _ _ _ _ _ _ _ _ _ C)) as SO.
  pose proof (I_pool _ I _ _ (cl_pool _ _ _ _ _ _ _ _ _ _ _ C)) as PO.
  destruct (I_tick _ I _ _ _ (cl_tl _ _ _ _ _ _ _ _ _ _ _ C)) as [_ T1].
  destruct (I_tick _ I _ _ _ (cl_tu _ _ _ _ _ _ _ _ _ _ _ C)) as [_ T2].
  destruct (cl_ticks _ _ _ _ _ _ _ _ _ _ _ C) as (tl' & tu' & ET & X1 & Y1 & X2 & Y2).
  set (pos' := mkPosition (pos_pool_key pos) (pos_liquidity pos) (pos_lower pos) (pos_upper pos)
       (inside_x p tl tu) (inside_y p tl tu) (pos_last_block_number pos) 0 0).
  set (p' := set_last_timestamp (e_timestamp e1) p).
  assert (Hpos' : s_positions s1 !! (e_caller e2, i) = Some pos').
  { rewrite (cl_positions _ _ _ _ _ _ _ _ _ _ _ C), EC. apply lookup_insert. }
  assert (Hp' : s_pools s1 !! pos_pool_key pos' = Some p').
  { rewrite (cl_pools _ _ _ _ _ _ _ _ _ _ _ C). apply lookup_insert. }
  assert (Hl' : s_ticks s1 !! (pos_pool_key pos', pos_lower pos') = Some tl') by (rewrite ET; apply lookup_insert).
  assert (Hu' : s_ticks s1 !! (pos_pool_key pos', pos_upper pos') = Some tu').
  { rewrite ET. cbn [pos' pos_pool_key pos_upper].
    rewrite lookup_insert_ne by (intros [= ?]; pose proof (so_lt _ _ SO); lia). apply lookup_insert. }
  destruct (I_tick _ I1 _ _ _ Hl') as [_ T1']. destruct (I_tick _ I1 _ _ _ Hu') as [_ T2'].
  assert (EX : inside_x p' tl' tu' = inside_x p tl tu).
  { unfold inside_x. rewrite X1, X2, (to_index _ _ _ _ T1), (to_index _ _ _ _ T2), (to_index _ _ _ _ T1'), (to_index _ _ _ _ T2'). reflexivity. }
  assert (EY : inside_y p' tl' tu' = inside_y p tl tu).
  { unfold inside_y. rewrite Y1, Y2, (to_index _ _ _ _ T1), (to_index _ _ _ _ T2), (to_index _ _ _ _ T1'), (to_index _ _ _ _ T2'). reflexivity. }
  assert (HL : u256 (pos_liquidity pos)) by (apply u256_I; pose proof (so_liq _ _ SO); lia).
  destruct (claim_fee_ok e2 s1 i pos' p' tl' tu' 0 0 I1 G1 Hpos' Hp' Hl' Hu') as [s2 E2].
  - rewrite EX. cbn [pos' pos_fee_growth_inside_x pos_liquidity]. rewrite unchecked_sub_self; [apply to_fee_0; auto|].
    apply inside_u128; [apply T1|apply T2|apply PO].
  - rewrite EY. cbn [pos' pos_fee_growth_inside_y pos_liquidity]. rewrite unchecked_sub_self; [apply to_fee_0; auto|].
    apply inside_u128; [apply T1|apply T2|apply PO].
  - pose proof (u256_M _ (B1 (e_caller e2) (pk_token_x (pos_pool_key pos')))). lia.
  - pose proof (u256_M _ (B1 (e_caller e2) (pk_token_y (pos_pool_key pos')))). lia.
  - exists s2. split; [exact E2|]. destruct (claim_summary _ _ _ _ _ _ I1 E2) as (q & ? & ? & ? & ? & C2).
    intros u t. rewrite (cl_ledger _ _ _ _ _ _ _ _ _ _ _ C2). unfold both, at_. repeat destruct (_ && _); lia.
Qed.

(** A claim leaves every position's owner, range and liquidity, every pool's
    price, tick, liquidity, fee growth and protocol fee, and every tick's
    liquidity as they were. *)
Theorem C34_claim_moves_no_liquidity evs s e i s' xy :
  history room evs s -> claim_fee e s i = Ok (s', xy) ->
  (forall owner n pos, get_position s owner n = Ok pos -> exists pos', get_position s' owner n = Ok pos' /\
     pos_pool_key pos' = pos_pool_key pos /\ pos_liquidity pos' = pos_liquidity pos /\
     pos_lower pos' = pos_lower pos /\ pos_upper pos' = pos_upper pos /\
     ((owner, n) <> (e_caller e, i) -> pos' = pos)) /\
  (forall owner n pos', get_position s' owner n = Ok pos' -> exists pos, get_position s owner n = Ok pos) /\
  (forall k p, pools_get s k = Ok p -> exists p', pools_get s' k = Ok p' /\
     p_liquidity p' = p_liquidity p /\ p_sqrt_price p' = p_sqrt_price p /\ p_current_tick_index p' = p_current_tick_index p /\
     p_fee_growth_global_x p' = p_fee_growth_global_x p /\ p_fee_growth_global_y p' = p_fee_growth_global_y p /\
     p_fee_protocol_token_x p' = p_fee_protocol_token_x p /\ p_fee_protocol_token_y p' = p_fee_protocol_token_y p) /\
  (forall k j, match get_tick s k j with
     | Ok t => exists t', get_tick s' k j = Ok t' /\ t_liquidity_gross t' = t_liquidity_gross t /\ t_net t' = t_net t /\
         t_fee_growth_outside_x t' = t_fee_growth_outside_x t /\ t_fee_growth_outside_y t' = t_fee_growth_outside_y t
     | _ => forall t', get_tick s' k j <> Ok t' end).
Proof.
  intros H HC. destruct xy as [x y]. apply room_facts in H as (I & G & B).
  destruct (claim_state _ _ _ _ _ _ I G HC) as [I1 G1].
  destruct (claim_summary _ _ _ _ _ _ I HC) as (pos & p & tl & tu & mx & C).
  pose proof (cl_pos _ _ _ _ _ _ _ _ _ _ _ C) as Hpos.
  pose proof (cl_positions _ _ _ _ _ _ _ _ _ _ _ C) as EP.
  split; [|split; [|split]].
  - intros a n q Hq. apply positions_get_Ok in Hq. destruct (decide ((e_caller e, i) = (a, n))) as [[= <- <-]|Hn].
    + assert (q = pos) by congruence. subst q. eexists. split; [apply positions_get_Ok; rewrite EP; apply lookup_insert|].
      cbn. do 4 (split; [reflexivity|]). congruence.
    + exists q. split; [apply positions_get_Ok; rewrite EP, lookup_insert_ne by auto; exact Hq|]. auto 10.
  - intros a n q Hq. apply positions_get_Ok in Hq. rewrite EP in Hq.
    apply lookup_insert_Some in Hq as [[[= <- <-] _]|[_ Hq]]; eexists; apply positions_get_Ok; eauto.
  - intros k q Hq. apply pools_get_Ok in Hq. pose proof (cl_pools _ _ _ _ _ _ _ _ _ _ _ C) as EQ.
    destruct (decide (pos_pool_key pos = k)) as [<-|Hn].
    + assert (q = p) by (pose proof (cl_pool _ _ _ _ _ _ _ _ _ _ _ C); congruence). subst q.
      eexists. split; [apply pools_get_Ok; rewrite EQ; apply lookup_insert|]. cbn. auto 10.
    + exists q. split; [apply pools_get_Ok; rewrite EQ, lookup_insert_ne by auto; exact Hq|]. auto 10.
  - assert (SUM : forall k j, gross_at s' k j = gross_at s k j /\ net_at s' k j = net_at s k j).
    { intros k j. split.
      - apply (claimed_sum _ _ _ _ _ _ _ _ _ _ _ _ (gross_fields k j) C).
      - apply (claimed_sum _ _ _ _ _ _ _ _ _ _ _ (net_of k j)) with (2 := C).
        intros q q' E1 E2 E3 E4. unfold net_of. rewrite E1, E2, E3, E4. reflexivity. }
    destruct (cl_ticks _ _ _ _ _ _ _ _ _ _ _ C) as (tl' & tu' & ET & X1 & Y1 & X2 & Y2).
    assert (OUT : forall k j t t', s_ticks s !! (k, j) = Some t -> s_ticks s' !! (k, j) = Some t' ->
       t_fee_growth_outside_x t' = t_fee_growth_outside_x t /\ t_fee_growth_outside_y t' = t_fee_growth_outside_y t).
    { intros k j t t' Ht Ht'. rewrite ET in Ht'. pose proof (cl_tl _ _ _ _ _ _ _ _ _ _ _ C). pose proof (cl_tu _ _ _ _ _ _ _ _ _ _ _ C).
      apply lookup_insert_Some in Ht' as [[[= <- <-] <-]|[Hn Ht']]; [assert (t = tl) by congruence; subst; auto|].
      apply lookup_insert_Some in Ht' as [[[= <- <-] <-]|[Hn' Ht']]; [assert (t = tu) by congruence; subst; auto|].
      assert (t' = t) by congruence. subst. auto. }
    intros k j. destruct (SUM k j) as [SG SN].
    destruct (get_tick s k j) as [t| | |] eqn:Eg.
    + apply ticks_get_Ok in Eg. destruct (proj2 (I_exists _ I1 k j)) as [t' Ht'].
      { rewrite SG. apply (I_exists _ I). eauto. }
      exists t'. split; [apply ticks_get_Ok; auto|].
      destruct (I_tick _ I _ _ _ Eg) as [_ T]. destruct (I_tick _ I1 _ _ _ Ht') as [_ T'].
      rewrite (to_gross _ _ _ _ T), (to_gross _ _ _ _ T'), (to_net _ _ _ _ T), (to_net _ _ _ _ T'), SG, SN.
      split; [reflexivity|]. split; [reflexivity|]. eapply OUT; eauto.
    + intros t' Ht'. apply ticks_get_Ok in Ht'. assert (HG : 0 < gross_at s' k j) by (apply (I_exists _ I1); eauto).
      rewrite SG in HG. apply (I_exists _ I) in HG as [t Ht]. apply ticks_get_Ok in Ht. unfold get_tick in Eg. congruence.
    + intros t' Ht'. apply ticks_get_Ok in Ht'. assert (HG : 0 < gross_at s' k j) by (apply (I_exists _ I1); eauto).
      rewrite SG in HG. apply (I_exists _ I) in HG as [t Ht]. apply ticks_get_Ok in Ht. unfold get_tick in Eg. congruence.
    + intros t' Ht'. apply ticks_get_Ok in Ht'. assert (HG : 0 < gross_at s' k j) by (apply (I_exists _ I1); eauto).
      rewrite SG in HG. apply (I_exists _ I) in HG as [t Ht]. apply ticks_get_Ok in Ht. unfold get_tick in Eg. congruence.
Qed.

(** In the reachable state [s_traded] alice's first position has earned fees. *)
Definition claim_amounts (e : env) (s : state) (i : Z) : option (Z * Z) :=
  match claim_fee e s i with Ok (_, xy) => Some xy | _ => None end.
Definition claim_twice (e : env) (s : state) (i : Z) : option (Z * Z * (Z * Z)) :=
  match claim_fee e s i with
  | Ok (s', xy) => match claim_fee e s' i with Ok (_, xy') => Some (xy, xy') | _ => None end
  | _ => None
  end.
Example C34_case : history room evs_traded s_traded /\
  claim_twice (by_ alice) s_traded 1 = Some ((15, 0), (0, 0)).
Proof. split; [exact s_traded_room|]. vm_compute. reflexivity. Qed.

(** ** C36 *)

(** [get_positions owner size offset] returns groups: a pool, and positions with
    their indices.  Concatenated, the groups hold exactly the positions of the
    owner with indices from [offset], [size] of them or as many as there are; the
    positions of a group all belong to one pool, the group carries that pool's
    data, and two groups never belong to the same pool. *)
Theorem C36_positions_listing evs s owner size offset : history room evs s ->
  0 <= offset -> 0 <= size -> offset + size < 2 ^ 32 ->
  exists l groups keys,
    get_all_positions s owner = Ok l /\
    get_positions s owner size offset = Ok (groups, Z.of_nat (length l)) /\
    let page := take (Z.to_nat size) (drop (Z.to_nat offset) l) in
    concat (map snd groups) ≡ₚ zip page (seqZ offset (Z.of_nat (length page))) /\
    NoDup keys /\
    Forall2 (fun g k => pools_get s k = Ok (fst g) /\ snd g <> [] /\
                        Forall (fun e => pos_pool_key (fst e) = k) (snd g)) groups keys.
Proof.
  intros H Ho Hs Hm. apply room_facts in H as (I & _ & _).
  destruct (slice_ok s owner offset size (I_dense _ I) Ho Hs Hm) as (l & E1 & E2).
  destruct (dense_lists s owner (I_dense _ I)) as (l' & E1' & HL & Hlk). assert (l' = l) by congruence. subst l'.
  set (page := take (Z.to_nat size) (drop (Z.to_nat offset) l)) in *.
  destruct (group_fold_ok s offset page [] [] [] 0) as (gs & ks & E3 & G1 & G2 & G3).
  { intros pos Hpos. apply elem_of_list_lookup in Hpos as [j Hj]. unfold page in Hj.
    apply lookup_take_Some in Hj as [Hj _]. rewrite lookup_drop in Hj.
    assert (HP : s_positions s !! (owner, Z.of_nat (Z.to_nat offset + j)) = Some pos).
    { apply Hlk. split; [lia|]. rewrite Nat2Z.id. exact Hj. }
    apply (so_pool _ _ (I_pos _ I _ _ _ HP)). }
  { split; [constructor|]. split; [constructor|]. reflexivity. }
  exists l, gs, ks. split; [exact E1|]. split.
  - unfold get_positions. rewrite E2. cbn [bind]. rewrite E3. cbn [bind]. rewrite HL. reflexivity.
  - cbv zeta. split; [|split; [exact G2|exact G1]]. rewrite G3. cbn [app]. rewrite Z.add_0_r. reflexivity.
Qed.

(** Each listed index is listed once and with the position it names. *)
Theorem C36_listing_by_index evs s owner size offset groups total : history room evs s ->
  0 <= offset -> 0 <= size -> offset + size < 2 ^ 32 ->
  get_positions s owner size offset = Ok (groups, total) ->
  let entries := concat (map snd groups) in
  NoDup (map snd entries) /\
  (forall pos j, (pos, j) ∈ entries <-> offset <= j < offset + size /\ get_position s owner j = Ok pos) /\
  total = get_user_position_amount s owner.
Proof.
  intros H Ho Hs Hm E. destruct (C36_positions_listing evs s owner size offset H Ho Hs Hm) as (l & gs & ks & E1 & E2 & P & _).
  rewrite E in E2. injection E2 as -> ->. cbv zeta in *.
  set (page := take (Z.to_nat size) (drop (Z.to_nat offset) l)) in *.
  apply room_facts in H as (I & _ & _).
  destruct (dense_lists s owner (I_dense _ I)) as (l' & E1' & HL & Hlk). assert (l' = l) by congruence. subst l'.
  split; [|split].
  - eapply NoDup_Permutation_proper; [apply Permutation_map; exact P|].
    change (NoDup ((zip page (seqZ offset (Z.of_nat (length page)))).*2)).
    rewrite snd_zip by (rewrite seqZ_length; lia). apply NoDup_seqZ.
  - intros pos j. rewrite P, elem_of_list_lookup. unfold get_position. rewrite positions_get_Ok, Hlk. split.
    + intros (n & Hn). rewrite lookup_zip_with in Hn.
      destruct (page !! n) as [q|] eqn:Eq; [|discriminate]. cbn in Hn.
      destruct (seqZ offset (Z.of_nat (length page)) !! n) as [v|] eqn:Ev; [|discriminate]. cbn in Hn. injection Hn as -> ->.
      apply lookup_seqZ in Ev as [-> Hb]. unfold page in Eq. apply lookup_take_Some in Eq as [Eq Hlt]. rewrite lookup_drop in Eq.
      split; [lia|]. split; [lia|]. replace (Z.to_nat (offset + Z.of_nat n)) with (Z.to_nat offset + n)%nat by lia. exact Eq.
    + intros [Hb [_ Hq]]. exists (Z.to_nat (j - offset)).
      assert (HP : page !! Z.to_nat (j - offset) = Some pos).
      { unfold page. rewrite lookup_take by lia. rewrite lookup_drop. replace (Z.to_nat offset + Z.to_nat (j - offset))%nat with (Z.to_nat j) by lia. exact Hq. }
      rewrite lookup_zip_with, HP. cbn. pose proof (lookup_lt_Some _ _ _ HP).
      rewrite lookup_seqZ_lt by lia. cbn. f_equal. f_equal. lia.
  - unfold get_user_position_amount. symmetry. exact HL.
Qed.

Definition listing (s : state) (owner size offset : Z) : option (list (list Z) * Z) :=
  match get_positions s owner size offset with
  | Ok (gs, n) => Some (map (fun g => map snd (snd g)) gs, n)
  | _ => None
  end.

(** Three positions in two pools. *)
Definition listing_events : list event := setup ++ [
  Call (by_ bob) (OpCreatePool tokA tokB tier2 1000000000000000000000000 0);
  Call (by_ alice) (OpCreatePosition pool1 (-20) 30 100000000000 0 any_price);
  Call (by_ alice) (OpCreatePosition (mkPoolKey tokA tokB tier2) (-20) 30 100000000000 0 any_price);
  Call (by_ alice) (OpCreatePosition pool1 (-10) 10 300000000000 0 any_price) ].
Definition s_listing : state := run_events admin 10000000000 listing_events.
Lemma s_listing_room : history room listing_events s_listing.
Proof.
  apply history_room; [|reflexivity]. apply run_events_history; [unfold u128; lia|].
  unfold listing_events, setup. wf_events.
Qed.
Example C36_case : history room listing_events s_listing /\
  listing s_listing alice 10 0 = Some ([[0; 2]; [1]], 3) /\ listing s_listing alice 2 1 = Some ([[1]; [2]], 3) /\
  listing s_listing alice 1 7 = Some ([], 3).
Proof. split; [exact s_listing_room|]. repeat split; vm_compute; reflexivity. Qed.

(** ** C37 *)

(** [get_tickmap] returns (chunk, 64-bit word) pairs.  Bit [b] of chunk [c]
    stands for the tick [(64 c + b - 221818 / spacing) * spacing]. *)
Definition tick_of_bit (spacing c b : Z) : Z := (64 * c + b - 221818 / spacing) * spacing.

Theorem C37_tickmap_complete evs s k p : history room evs s -> pools_get s k = Ok p ->
  exists m, get_tickmap s k = Ok m /\ NoDup (map fst m) /\
    (forall i, (exists t, get_tick s k i = Ok t) <->
       exists c v b, (c, v) ∈ m /\ 0 <= b < 64 /\ Z.testbit v b = true /\ i = tick_of_bit (pk_spacing k) c b).
Proof.
  intros H Hp. apply room_facts in H as (I & _ & _). apply pools_get_Ok in Hp.
  pose proof (pool_spacing _ _ (I_pool _ I _ _ Hp)) as Hs.
  unfold get_tickmap. rewrite max_chunk_ok by auto. cbn [bind]. eexists. split; [reflexivity|].
  set (m := 2 * (MX / pk_spacing k) / 64).
  assert (MXp : 0 <= MX / pk_spacing k) by (apply div_nonneg; unfold MX; lia).
  assert (Hm : 0 <= m) by (apply div_nonneg; lia).
  assert (EL : forall c v, (c, v) ∈ tickmap_slice s (range 0 (m + 1)) k <-> 0 <= c <= m /\ s_bitmap s !! (c, k) = Some v).
  { intros c v. unfold tickmap_slice. rewrite elem_of_list_omap. split.
    - intros (c' & Hc & E). unfold range in Hc. apply elem_of_seqZ in Hc.
      destruct (s_bitmap s !! (c', k)) eqn:EB; [|discriminate]. injection E as <- <-. split; [lia|exact EB].
    - intros [Hc EB]. exists c. split; [unfold range; apply elem_of_seqZ; lia|]. rewrite EB. reflexivity. }
  split.
  - clear EL. unfold tickmap_slice. assert (ND : NoDup (range 0 (m + 1))) by apply NoDup_seqZ.
    induction ND as [|c cs Hc ND IH]; [constructor|]. cbn [omap list_omap].
    destruct (s_bitmap s !! (c, k)) as [v|]; [|exact IH]. cbn [map fst]. constructor; [|exact IH].
    intros Hin. apply elem_of_list_In, in_map_iff in Hin as ([c' v'] & E & Hin). cbn in E. subst c'.
    apply elem_of_list_In, elem_of_list_omap in Hin as (c' & Hc' & E). destruct (s_bitmap s !! (c', k)); [|discriminate].
    injection E as -> _. contradiction.
  - intros i. split.
    + intros [t Ht]. apply ticks_get_Ok in Ht. destruct (I_tick _ I _ _ _ Ht) as [_ T].
      pose proof (to_okt _ _ _ _ T) as Ho. pose proof (okt_tidx (pk_spacing k) i ltac:(lia) Ho) as HB.
      assert (HM : mem (s_bitmap s) k (tidx (pk_spacing k) i) = true) by (apply (I_bit2 _ I); eauto).
      unfold mem in HM. set (n := tidx (pk_spacing k) i) in *.
      assert (Hc : exists v, s_bitmap s !! (n / 64, k) = Some v /\ Z.testbit v (n mod 64) = true).
      { unfold chunk_at in HM. destruct (s_bitmap s !! (n / 64, k)) as [v|] eqn:E; [exists v; auto|].
        cbn in HM. rewrite Z.testbit_0_l in HM. discriminate. }
      destruct Hc as (v & Hv & Hb). exists (n / 64), v, (n mod 64). split.
      * apply EL. split; [|exact Hv]. split; [apply Z.div_pos; lia|]. unfold m. apply Z.div_le_mono; lia.
      * split; [apply Z.mod_pos_bound; lia|]. split; [exact Hb|].
        unfold tick_of_bit. change 221818 with MX. replace (64 * (n / 64) + n mod 64) with n by (apply Z.div_mod; lia).
        fold (ticki (pk_spacing k) n). unfold n. symmetry. apply tidx_ticki; [lia|apply Ho].
    + intros (c & v & b & Hin & Hb & Ht & ->). apply EL in Hin as [Hc Hv].
      assert (HM : mem (s_bitmap s) k (c * 64 + b) = true).
      { rewrite mem_bit by lia. unfold chunk_at. rewrite Hv. exact Ht. }
      apply (I_bit1 _ I) in HM as (i & [t Hi] & E). destruct (I_tick _ I _ _ _ Hi) as [_ T].
      assert (Ei : i = tick_of_bit (pk_spacing k) c b).
      { unfold tick_of_bit. change 221818 with MX. replace (64 * c + b) with (c * 64 + b) by lia. rewrite E.
        fold (ticki (pk_spacing k) (tidx (pk_spacing k) i)). symmetry. apply tidx_ticki; [lia|apply (to_okt _ _ _ _ T)]. }
      rewrite <- Ei. exists t. apply ticks_get_Ok. exact Hi.
Qed.

(** [get_liquidity_ticks_amount] counts the initialized ticks below this bound:
    the first tick of the last chunk of the bitmap. *)
Definition last_chunk_start (spacing : Z) : Z :=
  tick_of_bit spacing (2 * (221818 / spacing) / 64) 0.

Theorem C37_ticks_amount evs s k p : history room evs s -> pools_get s k = Ok p ->
  exists l, NoDup l /\
    (forall i, i ∈ l <-> (exists t, get_tick s k i = Ok t) /\ i < last_chunk_start (pk_spacing k)) /\
    get_liquidity_ticks_amount s k = Ok (Z.of_nat (length l)).
Proof.
  intros H Hp. apply room_facts in H as (I & _ & _). apply pools_get_Ok in Hp.
  pose proof (pool_spacing _ _ (I_pool _ I _ _ Hp)) as Hs.
  set (sp := pk_spacing k) in *. set (m := 2 * (MX / sp) / 64).
  assert (MXp : 0 <= MX / sp) by (apply div_nonneg; unfold MX; lia).
  assert (Hm : 0 <= m) by (apply div_nonneg; lia).
  exists (map (ticki sp) (counted (s_bitmap s) k (range 0 m))). split; [|split].
  - apply NoDup_fmap_2; [|apply NoDup_counted, NoDup_seqZ].
    intros a b E. rewrite <- (ticki_tidx sp a), <- (ticki_tidx sp b) by lia. congruence.
  - intros i. unfold last_chunk_start, tick_of_bit. change 221818 with MX. fold m.
    replace ((64 * m + 0 - MX / sp) * sp) with (ticki sp (64 * m)) by (unfold ticki; f_equal; lia).
    rewrite elem_of_list_In, in_map_iff. split.
    + intros (n & <- & Hn). apply elem_of_list_In, elem_of_counted in Hn as [Hn HM]; [|auto].
      split; [|unfold ticki; nia].
      apply (I_bit1 _ I) in HM as (i & [t Hi] & ->). destruct (I_tick _ I _ _ _ Hi) as [_ T].
      fold sp. rewrite tidx_ticki by (lia || apply (to_okt _ _ _ _ T)). exists t. apply ticks_get_Ok. exact Hi.
    + intros [[t Ht] Hlt]. apply ticks_get_Ok in Ht. destruct (I_tick _ I _ _ _ Ht) as [_ T]. fold sp in T.
      assert (HM : mem (s_bitmap s) k (tidx sp i) = true) by (apply (I_bit2 _ I); eauto).
      pose proof (to_okt _ _ _ _ T) as Ho. fold sp in Ho. pose proof (okt_tidx sp i ltac:(lia) Ho) as HB.
      exists (tidx sp i). rewrite tidx_ticki by (lia || apply Ho). split; [reflexivity|].
      apply elem_of_list_In, elem_of_counted; [auto|]. split; [|exact HM]. split; [lia|].
      rewrite <- (tidx_ticki sp i) in Hlt by (lia || apply Ho). unfold ticki in Hlt. nia.
  - unfold get_liquidity_ticks_amount, liquidity_ticks_count. fold sp. rewrite max_chunk_ok by auto. cbn [bind]. fold m.
    rewrite count_fold, map_length. reflexivity.
Qed.

(** Hence the number is right when no tick lies in the last chunk ... *)
Theorem C37_ticks_amount_guarded evs s k p : history room evs s -> pools_get s k = Ok p ->
  (forall i t, get_tick s k i = Ok t -> i < last_chunk_start (pk_spacing k)) ->
  exists l, NoDup l /\ (forall i, i ∈ l <-> exists t, get_tick s k i = Ok t) /\
    get_liquidity_ticks_amount s k = Ok (Z.of_nat (length l)).
Proof.
  intros H Hp HB. destruct (C37_ticks_amount evs s k p H Hp) as (l & N & E & A). exists l. split; [auto|]. split; [|auto].
  intros i. rewrite E. split; [tauto|]. intros [t Ht]. split; [eauto|]. eapply HB; eauto.
Qed.

(** ... and wrong otherwise: two ticks are stored, one is counted. *)
Definition pool2 : pool_key := mkPoolKey tokA tokB tier2.
Definition last_chunk_events : list event := setup ++ [
  Call (by_ bob) (OpCreatePool tokA tokB tier2 1000000000000000000000000 0);
  Call (by_ alice) (OpCreatePosition pool2 (-20) 221800 100000000 0 any_price) ].
Definition s_last_chunk : state := run_events admin 10000000000 last_chunk_events.
Lemma s_last_chunk_room : history room last_chunk_events s_last_chunk.
Proof.
  apply history_room; [|reflexivity]. apply run_events_history; [unfold u128; lia|].
  unfold last_chunk_events, setup. wf_events.
Qed.

Theorem C37_ticks_amount_refuted : exists evs s k p i j,
  history room evs s /\ pools_get s k = Ok p /\ i <> j /\
  (exists t, get_tick s k i = Ok t) /\ (exists t, get_tick s k j = Ok t) /\
  get_liquidity_ticks_amount s k = Ok 1.
Proof.
  destruct (pools_get s_last_chunk pool2) as [p| | |] eqn:Ep.
  2-4: exfalso; vm_compute in Ep; discriminate.
  destruct (get_tick s_last_chunk pool2 (-20)) as [t| | |] eqn:Et.
  2-4: exfalso; vm_compute in Et; discriminate.
  destruct (get_tick s_last_chunk pool2 221800) as [t'| | |] eqn:Et'.
  2-4: exfalso; vm_compute in Et'; discriminate.
  exists last_chunk_events, s_last_chunk, pool2, p, (-20), 221800.
  split; [exact s_last_chunk_room|]. split; [exact Ep|]. split; [lia|]. split; [exists t; exact Et|]. split; [exists t'; exact Et'|].
  vm_compute. reflexivity.
Qed.

(** [get_liquidity_ticks] reports, for each requested initialized tick, its signed
    liquidity change; it panics if one of them is not initialized. *)
Theorem C37_liquidity_ticks s k l : Z.of_nat (length l) <= 21544 ->
  (forall i, i ∈ l -> exists t, get_tick s k i = Ok t) ->
  exists r, get_liquidity_ticks s k l = Ok r /\ length r = length l /\
    (forall j i t, l !! j = Some i -> get_tick s k i = Ok t ->
       r !! j = Some (mkLiquidityTick (t_index t) (t_liquidity_change t) (t_sign t))).
Proof.
  intros Hl Ht. unfold get_liquidity_ticks, LIQUIDITY_TICK_LIMIT.
  destruct (Z.ltb_spec 21544 (Z.of_nat (length l))); [lia|]. cbn [fail_if bind].
  destruct (mapM_res_ok (fun i => let* t := unwrap (ticks_get s k i) in
       Ok (mkLiquidityTick (t_index t) (t_liquidity_change t) (t_sign t))) l) as (r & E & L & K).
  { intros i Hi. destruct (Ht i) as [t E]; [apply elem_of_list_In; auto|]. unfold get_tick in E. rewrite E. cbn. eauto. }
  exists r. split; [exact E|]. split; [exact L|]. intros j i t Hj E'. apply K. exists i. split; [exact Hj|].
  unfold get_tick in E'. rewrite E'. reflexivity.
Qed.

(** [get_position_ticks] reports the two boundary ticks of each position of the owner, in
    order, from the given position on, for at most 8936 positions (17872 ticks). *)
Definition reports (s : state) (k : pool_key) (i : Z) (pt : position_tick) : Prop :=
  exists t, get_tick s k i = Ok t /\ pt_index pt = i /\
    pt_fee_growth_outside_x pt = t_fee_growth_outside_x t /\
    pt_fee_growth_outside_y pt = t_fee_growth_outside_y t /\
    pt_seconds_outside pt = t_seconds_outside t.
Definition reports_ends (s : state) (ends : position_tick * position_tick) (pos : position) : Prop :=
  reports s (pos_pool_key pos) (pos_lower pos) (fst ends) /\
  reports s (pos_pool_key pos) (pos_upper pos) (snd ends).

Lemma position_ticks_spec s owner : Inv s -> forall rest (o : nat) (ticks : list position_tick) n,
  (forall j pos, rest !! j = Some pos -> s_positions s !! (owner, Z.of_nat o + Z.of_nat j) = Some pos) ->
  Z.of_nat (length ticks) + 2 * Z.of_nat n = 17872 -> (0 < n)%nat ->
  exists ends, position_ticks_loop s owner (seqZ (Z.of_nat o) (Z.of_nat (length rest))) ticks
      = ticks ++ concat (map (fun '(a, b) => [a; b]) ends) /\
    Forall2 (reports_ends s) ends (take n rest).
Proof.
  intros I. induction rest as [|pos rest IH]; intros o ticks n HR HL Hn.
  - exists []. cbn. rewrite app_nil_r, take_nil. auto.
  - cbn [length]. rewrite seqZ_cons by lia. replace (Z.pred (Z.of_nat (S (length rest)))) with (Z.of_nat (length rest)) by lia.
    replace (Z.succ (Z.of_nat o)) with (Z.of_nat (S o)) by lia. cbn [position_ticks_loop].
    pose proof (HR 0%nat pos eq_refl) as H0. rewrite Z.add_0_r in H0. rewrite H0.
    destruct (pos_ticks s owner _ pos I H0) as (p & tl & tu & _ & E1 & E2 & T1 & T2). rewrite E1, E2. cbn [app].
    destruct n as [|n]; [lia|]. cbn [take].
    assert (RE : reports_ends s (position_tick_of tl, position_tick_of tu) pos).
    { split; [exists tl|exists tu]; unfold get_tick; rewrite ticks_get_Ok.
      - split; [exact E1|]. cbn. split; [apply (to_index _ _ _ _ T1)|auto].
      - split; [exact E2|]. cbn. split; [apply (to_index _ _ _ _ T2)|auto]. }
    unfold POSITION_TICK_LIMIT. rewrite app_length. cbn [length].
    destruct (Z.leb_spec 17872 (Z.of_nat (length ticks + 2))).
    + assert (n = 0%nat) as -> by lia. exists [(position_tick_of tl, position_tick_of tu)]. cbn. split; [reflexivity|].
      constructor; [exact RE|constructor].
    + destruct (IH (S o) (ticks ++ [position_tick_of tl; position_tick_of tu]) n) as (ends & E & F).
      * intros j q Hj. specialize (HR (S j) q Hj). rewrite <- HR. do 2 f_equal. lia.
      * rewrite app_length. cbn [length]. lia.
      * lia.
      * exists ((position_tick_of tl, position_tick_of tu) :: ends). rewrite E. split.
        -- rewrite <- app_assoc. reflexivity.
        -- constructor; [exact RE|exact F].
Qed.
Theorem C37_position_ticks evs s owner offset : history room evs s -> 0 <= offset ->
  exists l ends, get_all_positions s owner = Ok l /\
    get_position_ticks s owner offset = concat (map (fun '(a, b) => [a; b]) ends) /\
    Forall2 (reports_ends s) ends (take (Z.to_nat 8936) (drop (Z.to_nat offset) l)).
Proof.
  intros H Ho. apply room_facts in H as (I & _ & _).
  destruct (dense_lists s owner (I_dense _ I)) as (l & El & HL & Hlk). exists l.
  unfold get_position_ticks. rewrite HL.
  destruct (position_ticks_spec s owner I (drop (Z.to_nat offset) l) (Z.to_nat offset) [] (Z.to_nat 8936)) as (ends & E & F).
  - intros j pos Hj. rewrite lookup_drop in Hj. apply Hlk. split; [lia|].
    rewrite <- Hj. f_equal. lia.
  - cbn [length]. lia.
  - lia.
  - exists ends. split; [exact El|]. split; [|exact F]. cbn [app] in E. rewrite <- E. f_equal. unfold range.
    rewrite Z2Nat.id by lia. rewrite drop_length. destruct (Z.le_gt_cases offset (Z.of_nat (length l))).
    + f_equal. lia.
    + rewrite !seqZ_nil by lia. reflexivity.
Qed.

Example C37_case : history room evs_traded s_traded /\
  get_liquidity_ticks_amount s_traded pool1 = Ok 5 /\
  match get_tickmap s_traded pool1 with Ok m => Some m | _ => None end =
    Some [(346, 2 ^ 34 + 2 ^ 35 + 2 ^ 36 + 2 ^ 38 + 2 ^ 40)] /\
  map (tick_of_bit 10 346) [34; 35; 36; 38; 40] = [-30; -20; -10; 10; 30] /\
  map pt_index (get_position_ticks s_listing alice 1) = [-20; 30; -10; 10].
Proof. split; [exact s_traded_room|]. repeat split; vm_compute; reflexivity. Qed.

(** ** Assumptions *)
Print Assumptions C31_balances_bounded.
Print Assumptions C34_second_claim_pays_zero.
Print Assumptions C34_claim_moves_no_liquidity.
Print Assumptions C36_positions_listing.
Print Assumptions C36_listing_by_index.
Print Assumptions C37_tickmap_complete.
Print Assumptions C37_ticks_amount.
Print Assumptions C37_ticks_amount_guarded.
Print Assumptions C37_ticks_amount_refuted.
Print Assumptions C37_liquidity_ticks.
Print Assumptions C37_position_ticks.
