(** Properties C16-C21, C31, C35, C39: who can change what, and by how much.

    [bal s u t] is the balance of user [u] in token [t]: the amount the balance
    query lists for [t], zero when it lists none (C31_balance_is_the_query).
    [get_position], [get_all_positions], [get_pool], [get_pool_keys], ... are the
    contract's own queries. *)
From Verif Require Import Base Decimal SqrtPriceM LogM ClammM Types TickmapM StorageM CollectionsM StateM ServiceM
  SpecMath SpecHistory P_Clamm P_TickPrice P_Tickmap P_Check P_Balance P_Effects P_Positions P_History P_Loop P_State Cases.
From stdpp Require Import gmap list.
From Coq Require Import ZArith Lia Bool.
Open Scope Z_scope.

(** ** C16 *)

Theorem C16_dense evs s owner : history room evs s ->
  exists l, get_all_positions s owner = Ok l /\
    get_user_position_amount s owner = Z.of_nat (length l) /\
    (forall i p, get_position s owner i = Ok p <-> 0 <= i /\ l !! Z.to_nat i = Some p).
Proof.
  intros H. assert (D : dense s) by (eapply (dense_history room); eauto).
  destruct (dense_lists s owner D) as (l & E & HL & Hlk). exists l. split; [auto|]. split; [auto|].
  intros i p. rewrite <- Hlk. apply positions_get_Ok.
Qed.

Lemma room_dense evs s : history room evs s -> dense s.
Proof. intros H. eapply (dense_history room); eauto. Qed.
Lemma dense_after evs s e o s' :
  history room evs s -> room s (Call e o) -> run_op e s o = Ok s' -> dense s'.
Proof.
  intros H R E. eapply dense_op; [eapply room_dense; eauto| |exact E].
  intros a. apply R.
Qed.

Theorem C16_create evs s e k lo up L sl su s' pos owner l :
  history room evs s -> room s (Call e (OpCreatePosition k lo up L sl su)) ->
  create_position e s k lo up L sl su = Ok (s', pos) ->
  get_all_positions s owner = Ok l ->
  get_all_positions s' owner = Ok (if decide (owner = e_caller e) then l ++ [pos] else l) /\
  pos_pool_key pos = k /\ pos_liquidity pos = L.
Proof.
  intros H R E G.
  assert (D' : dense s') by (eapply (dense_after _ _ e); eauto; cbn [run_op]; rewrite E; reflexivity).
  split.
  - apply lists_get_all; [auto|]. eapply create_position_lists; [apply R|exact E|].
    apply lists_get_all; [eapply room_dense; eauto|auto].
  - apply create_position_inv in E
      as (p & tl0 & al & tu0 & au & p' & tl & tu & x & y & b1 & _ & _ & _ & _ & _ & E & _).
    unfold position_create in E. apply bind_Ok in E as (u & _ & E). apply unwrap_inv in E.
    apply position_modify_inv in E as (mx & fx & fy & _ & _ & _ & _ & _ & E & _).
    apply position_update_inv in E as (ox & oy & _ & _ & _ & _ & _ & _ & _ & ->). cbn. auto.
Qed.

(** [swap_remove i l] is [l] without its element [i], the last element having
    taken its place. *)
Theorem C16_swap_remove {A} i (l : list A) x : l !! i = Some x ->
  x :: swap_remove i l ≡ₚ l /\ length (swap_remove i l) = (length l - 1)%nat /\
  (forall j, (j < length l - 1)%nat -> j <> i -> swap_remove i l !! j = l !! j) /\
  ((i < length l - 1)%nat -> swap_remove i l !! i = last l).
Proof.
  intros H. pose proof (lookup_lt_Some _ _ _ H) as Hl. split; [apply swap_remove_perm; auto|].
  split; [apply swap_remove_length; auto|]. split.
  - intros j Hj Hn. rewrite swap_remove_lookup by auto. destruct (decide _); [|contradiction].
    destruct (decide (j = i)); [contradiction|reflexivity].
  - intros Hi. rewrite swap_remove_lookup by auto. destruct (decide _); [|contradiction].
    destruct (decide (i = i)); [reflexivity|contradiction].
Qed.

Theorem C16_remove evs s e i s' xy owner l :
  history room evs s -> room s (Call e (OpRemovePosition i)) ->
  remove_position e s i = Ok (s', xy) ->
  get_all_positions s owner = Ok l ->
  get_all_positions s' owner = Ok (if decide (owner = e_caller e) then swap_remove (Z.to_nat i) l else l) /\
  (owner = e_caller e -> 0 <= i < Z.of_nat (length l)).
Proof.
  intros H R E G. assert (D : dense s) by (eapply room_dense; eauto).
  assert (D' : dense s') by (eapply (dense_after _ _ e); eauto; cbn [run_op]; rewrite E; reflexivity).
  apply lists_get_all in G; [|auto]. split.
  - apply lists_get_all; [auto|]. eapply remove_position_lists; eauto.
    specialize (R (e_caller e)). unfold get_user_position_amount in R. change M32 with (2 ^ 32). lia.
  - intros ->. destruct xy as [x y]. apply remove_position_inv in E
      as (pos & tl0 & tu0 & p & pos' & p' & tu & tl & dx & dy & rl & ru & b1 & T1 & lp & E).
    cbv zeta in E. destruct E as (E & _). apply G in E as [Hi E]. apply lookup_lt_Some in E. lia.
Qed.

Theorem C16_transfer evs s e i receiver s' r :
  history room evs s -> room s (Call e (OpTransferPosition i receiver)) ->
  transfer_position e s i receiver = Ok (s', r) ->
  exists pos, get_position s (e_caller e) i = Ok pos /\
  forall owner l, get_all_positions s owner = Ok l ->
  get_all_positions s' owner =
    Ok (let l1 := if decide (owner = e_caller e) then swap_remove (Z.to_nat i) l else l in
        if decide (owner = receiver) then l1 ++ [pos] else l1).
Proof.
  intros H R E. assert (D : dense s) by (eapply room_dense; eauto).
  assert (D' : dense s') by (eapply (dense_after _ _ e); eauto; cbn [run_op]; rewrite E; reflexivity).
  assert (HB : positions_get_length s (e_caller e) < M32).
  { specialize (R (e_caller e)). unfold get_user_position_amount in R. change M32 with (2 ^ 32). lia. }
  destruct (transfer_position_lists e s i receiver s' r receiver [] HB (R receiver) E) as (pos & Hp & _).
  exists pos. split; [apply positions_get_Ok; auto|]. intros owner l G.
  destruct (transfer_position_lists e s i receiver s' r owner l HB (R receiver) E) as (pos1 & Hp1 & HT).
  assert (pos1 = pos) by congruence. subst pos1.
  apply lists_get_all; [auto|]. apply HT; [apply lists_get_all; auto|].
  destruct (dense_lists s (e_caller e) D) as (lc & _ & HC). eauto.
Qed.

(** Claiming touches only the fee bookkeeping of the claimed position. *)
Theorem C16_claim evs s e i s' xy owner l :
  history room evs s -> room s (Call e (OpClaimFee i)) -> claim_fee e s i = Ok (s', xy) ->
  get_all_positions s owner = Ok l ->
  exists pos pos', get_position s (e_caller e) i = Ok pos /\
    pos_pool_key pos' = pos_pool_key pos /\ pos_liquidity pos' = pos_liquidity pos /\
    pos_lower pos' = pos_lower pos /\ pos_upper pos' = pos_upper pos /\
    pos_last_block_number pos' = pos_last_block_number pos /\
    get_all_positions s' owner = Ok (if decide (owner = e_caller e) then <[Z.to_nat i := pos']> l else l).
Proof.
  intros H R E G. assert (D : dense s) by (eapply room_dense; eauto).
  assert (D' : dense s') by (eapply (dense_after _ _ e); eauto; cbn [run_op]; rewrite E; reflexivity).
  destruct (claim_fee_lists e s i s' xy owner l E) as (pos & pos' & H1 & H2 & H3 & H4 & H5 & H6 & HT).
  exists pos, pos'. split; [apply positions_get_Ok; auto|]. do 5 (split; [auto|]).
  apply lists_get_all; [auto|]. apply HT. apply lists_get_all; auto.
Qed.

(** Every other call leaves every list as it was. *)
Theorem C16_others evs s e o s' owner :
  history room evs s -> run_op e s o = Ok s' ->
  (forall k lo up L sl su, o <> OpCreatePosition k lo up L sl su) ->
  (forall i, o <> OpRemovePosition i) -> (forall i r, o <> OpTransferPosition i r) ->
  (forall i, o <> OpClaimFee i) ->
  get_all_positions s' owner = get_all_positions s owner.
Proof.
  intros H E N1 N2 N3 N4.
  assert (K : keeps_positions o = true).
  { destruct o; try reflexivity; exfalso.
    - eapply N1; reflexivity.
    - eapply N2; reflexivity.
    - eapply N3; reflexivity.
    - eapply N4; reflexivity. }
  apply keeps_positions_spec in E as [E1 E2]; [|auto].
  unfold get_all_positions, positions_get_all, positions_get_length. rewrite E1, E2. reflexivity.
Qed.

(** Fewer than 2^32 - 1 events always leave room. *)
Theorem C16_room evs s : history anything evs s -> Z.of_nat (length evs) < 2 ^ 32 - 1 -> history room evs s.
Proof. apply history_room. Qed.

Example C16_case :
  history room evs_traded s_traded /\
  is_Ok (remove_position (by_ alice) s_traded 0) = true /\
  is_Ok (transfer_position (by_ alice) s_traded 0 bob) = true /\
  is_Ok (claim_fee (by_ alice) s_traded 1) = true /\
  get_user_position_amount s_traded alice = 2.
Proof. split; [apply s_traded_room|]. repeat split; vm_compute; reflexivity. Qed.

(** ** C17 *)

Lemma listed_history evs s : history pool_room evs s -> exists ks, listed s ks.
Proof.
  apply (history_invariant (fun s => exists ks, listed s ks)).
  - intros. exists []. apply listed_init.
  - intros s0 e o s1 (ks & HL) _ HR H.
    destruct (admin_or_pool o || changes_pools o) eqn:E.
    2: { apply orb_false_iff in E as [E1 E2]. exists ks. eapply listed_kept; eauto.
         - eapply run_op_pools_kept; eauto.
         - eapply run_op_cfg; eauto. }
    destruct o; try discriminate E; cbn [run_op] in H; apply drop_result_Ok in H as [r H].
    + apply change_protocol_fee_inv in H as (_ & ->). exists ks. eapply listed_same_cfg_but; eauto.
    + apply add_fee_tier_inv in H as (_ & _ & _ & _ & _ & ->). exists ks. eapply listed_same_cfg_but; eauto.
    + apply remove_fee_tier_inv in H as (_ & l & _ & ->). exists ks. eapply listed_same_cfg_but; eauto.
    + eapply listed_create in H as (k & _ & H); eauto.
      destruct HL as (_ & HL & _). unfold pool_room in HR. change M16 with (2 ^ 16). lia.
    + apply change_fee_receiver_inv in H as (_ & p & Hp & ->). exists ks.
      destruct HL as (L1 & L2 & L3 & L4 & L5 & L6). do 3 (split; [auto|]). split; [|auto].
      intros q. rewrite L4. cbn [set_pools s_pools]. destruct (decide (k = q)) as [<-|Hn].
      * rewrite lookup_insert, Hp. split; eauto.
      * rewrite lookup_insert_ne by auto. reflexivity.
  - intros s0 B (ks & HL) _. exists ks. eapply listed_same_cfg_but; eauto.
  - intros s0 m (ks & HL). exists ks. eapply listed_same_cfg_but; eauto.
Qed.

(** Below 65536 pools: there is a duplicate-free list [ks] of exactly the keys of
    the existing pools; the count is its length and every page is a slice. *)
Theorem C17_listing evs s : history pool_room evs s ->
  exists ks, NoDup ks /\
    (forall k, k ∈ ks <-> exists p, pools_get s k = Ok p) /\
    (forall size offset, 0 <= size -> 0 <= offset -> offset + size < 2 ^ 16 ->
       get_pool_keys s size offset
       = Ok (take (Z.to_nat size) (drop (Z.to_nat offset) ks), Z.of_nat (length ks))).
Proof.
  intros H. apply listed_history in H as (ks & H). exists ks. pose proof H as (H1 & _ & _ & H4 & _).
  split; [auto|]. split.
  - intros k. rewrite H4. split; intros [p Hp]; exists p; apply pools_get_Ok; auto.
  - intros. apply listed_get_pool_keys; auto.
Qed.

(** The whole list in one page: it grows at the end, by the new pool, and only then. *)
Definition all_pool_keys (s : state) : res (list pool_key * Z) := get_pool_keys s (2 ^ 16 - 1) 0.

Theorem C17_creation_order evs s ev ks n :
  history pool_room evs s -> event_wf ev -> pool_room s ev ->
  all_pool_keys s = Ok (ks, n) ->
  all_pool_keys (exec_event s ev) = Ok (ks, n) \/
  exists e x y ft p t k, ev = Call e (OpCreatePool x y ft p t) /\ pool_key_new x y ft = Ok k /\
    k ∉ ks /\ all_pool_keys (exec_event s ev) = Ok (ks ++ [k], n + 1).
Proof.
  intros H Hw HR HA.
  assert (GA : forall s ks, listed s ks -> all_pool_keys s = Ok (ks, Z.of_nat (length ks))).
  { intros s1 k1 HL. unfold all_pool_keys.
    rewrite (listed_get_pool_keys _ _ _ _ HL) by (try lia; reflexivity).
    rewrite drop_0, take_ge; [reflexivity|]. destruct HL as (_ & _ & HL & _).
    change M16 with (2 ^ 16) in HL. lia. }
  destruct (listed_history evs s H) as (ks0 & HL). pose proof (GA _ _ HL) as HG.
  rewrite HG in HA. injection HA as -> <-.
  assert (HN : forall s', s_pools s' = s_pools s -> s_pool_keys s' = s_pool_keys s ->
    s_pool_keys_by_index s' = s_pool_keys_by_index s -> s_pool_keys_length s' = s_pool_keys_length s ->
    all_pool_keys s' = Ok (ks, Z.of_nat (length ks))).
  { intros. apply GA. eapply listed_same_cfg_but; eauto. }
  destruct ev as [e o|u t a|u t a|m]; cbn [exec_event].
  2: { left. destruct (increase_token_balance s t u a) eqn:E; auto.
       apply increase_spec in E as ((B & ->) & _). apply HN; reflexivity. }
  2: { left. destruct (decrease_token_balance s t u a) as [[s1 v]| | |] eqn:E; auto.
       apply decrease_spec in E as ((B & ->) & _). apply HN; reflexivity. }
  2: { left. apply HN; reflexivity. }
  unfold exec_op. destruct (run_op e s o) as [s'| | |] eqn:E; auto.
  destruct (admin_or_pool o || changes_pools o) eqn:EO.
  2: { apply orb_false_iff in EO as [E1 E2]. left. apply GA. eapply listed_kept; eauto.
       - eapply run_op_pools_kept; eauto.
       - eapply run_op_cfg; eauto. }
  destruct o; try discriminate EO; cbn [run_op] in E; apply drop_result_Ok in E as [r E].
  - apply change_protocol_fee_inv in E as (_ & ->). left. apply HN; reflexivity.
  - apply add_fee_tier_inv in E as (_ & _ & _ & _ & _ & ->). left. apply HN; reflexivity.
  - apply remove_fee_tier_inv in E as (_ & l & _ & ->). left. apply HN; reflexivity.
  - right. pose proof HL as (HD & HLen & _). unfold pool_room in HR.
    destruct (listed_create e s token_x token_y ft init_sqrt_price init_tick s' r ks HL) as (k & Ek & HL'); auto.
    { change M16 with (2 ^ 16). lia. }
    exists e, token_x, token_y, ft, init_sqrt_price, init_tick, k. split; [auto|]. split; [auto|].
    split.
    + destruct HL' as (HL' & _). apply NoDup_app in HL' as (_ & HL' & _). intros Hk.
      apply (HL' k Hk). apply elem_of_list_singleton. reflexivity.
    + rewrite (GA _ _ HL'), app_length. cbn [length]. do 2 f_equal. lia.
  - left. apply GA. apply change_fee_receiver_inv in E as (_ & p & Hp & ->).
    destruct HL as (L1 & L2 & L3 & L4 & L5 & L6). do 3 (split; [auto|]). split; [|auto].
    intros q. rewrite L4. cbn [set_pools s_pools]. destruct (decide (k = q)) as [<-|Hn].
    * rewrite lookup_insert, Hp. split; eauto.
    * rewrite lookup_insert_ne by auto. reflexivity.
Qed.

(** Fewer than 2^16 - 1 events always leave room. *)
Theorem C17_room evs s : history anything evs s -> Z.of_nat (length evs) < 2 ^ 16 - 1 -> history pool_room evs s.
Proof.
  intros H HN.
  enough (history pool_room evs s /\ exists ks, listed s ks /\ (length ks <= length evs)%nat) by tauto.
  revert HN. induction H as [admin fee Hf|evs s ev H IH Hw _]; intros HN.
  - split; [constructor; auto|]. exists []. split; [apply listed_init|cbn; lia].
  - rewrite app_length in *. cbn [length] in *. destruct IH as (IH1 & ks & HL & HK); [lia|].
    assert (R : pool_room s ev). { unfold pool_room. destruct HL as (_ & -> & _). lia. }
    split; [constructor; auto|].
    destruct (listed_history (evs ++ [ev]) (exec_event s ev)) as (ks' & HL'); [constructor; auto|].
    exists ks'. split; [auto|].
    assert (GA : forall s ks, listed s ks -> all_pool_keys s = Ok (ks, Z.of_nat (length ks))).
    { intros s1 k1 HL1. unfold all_pool_keys.
      rewrite (listed_get_pool_keys _ _ _ _ HL1) by (try lia; reflexivity).
      rewrite drop_0, take_ge; [reflexivity|]. destruct HL1 as (_ & _ & HL1 & _).
      change M16 with (2 ^ 16) in HL1. lia. }
    destruct (C17_creation_order evs s ev _ _ IH1 Hw R (GA _ _ HL)) as [E|(e & x & y & ft & p & t & k & _ & _ & _ & E)];
      rewrite (GA _ _ HL') in E; injection E as -> E; rewrite ?app_length; cbn [length]; lia.
Qed.

Example C17_case : history pool_room evs_setup s_setup /\ all_pool_keys s_setup = Ok ([pool1], 1).
Proof.
  split; [|vm_compute; reflexivity]. apply C17_room; [apply s_setup_history|reflexivity].
Qed.

(** The 16-bit counter wraps: there is a history with 65536 existing pools after
    which the reported count is zero and the listing is empty. *)
Definition many_tier : fee_tier := mkFeeTier 10000000000 10.
Definition many_key (i : Z) : pool_key := mkPoolKey 0 i many_tier.
Definition many_env : env := mkEnv 7 1000 5 0 0 99.

Lemma many_pools (n : nat) : exists evs s, history anything evs s /\ many_tier ∈ s_fee_tiers s /\
  s_pool_keys_length s = Z.of_nat n mod M16 /\
  (forall i, is_Some (s_pools s !! many_key i) <-> 1 <= i <= Z.of_nat n) /\
  (forall i, is_Some (s_pool_keys s !! many_key i) <-> 1 <= i <= Z.of_nat n).
Proof.
  induction n as [|n (evs & s & H & HT & HL & HP & HK)].
  - exists [Call many_env (OpAddFeeTier many_tier)], (run_events 7 0 [Call many_env (OpAddFeeTier many_tier)]).
    split. { apply run_events_history; [unfold u128; lia|]. wf_events. }
    split; [vm_compute; constructor|]. split; [vm_compute; reflexivity|].
    split; intros i; cbn; rewrite lookup_empty; (split; [intros [? [=]]|lia]).
  - set (o := OpCreatePool 0 (Z.of_nat n + 1) many_tier 1000000000000000000000000 0).
    assert (N1 : s_pools s !! many_key (Z.of_nat n + 1) = None).
    { destruct (s_pools s !! many_key (Z.of_nat n + 1)) eqn:E; [|auto].
      destruct (HP (Z.of_nat n + 1)) as [G _]. rewrite E in G. specialize (G ltac:(eauto)). lia. }
    assert (N2 : s_pool_keys s !! many_key (Z.of_nat n + 1) = None).
    { destruct (s_pool_keys s !! many_key (Z.of_nat n + 1)) eqn:E; [|auto].
      destruct (HK (Z.of_nat n + 1)) as [G _]. rewrite E in G. specialize (G ltac:(eauto)). lia. }
    assert (PC : exists p, pool_create 1000000000000000000000000 0 1000 10 (s_admin s) = Ok p).
    { eexists. unfold pool_create.
      replace (check_tick_to_sqrt_price_relationship 0 10 1000000000000000000000000) with (@Ok bool true)
        by (vm_compute; reflexivity).
      replace (calculate_sqrt_price 0) with (Ok 1000000000000000000000000) by (vm_compute; reflexivity).
      cbn. reflexivity. }
    destruct PC as [p PC].
    assert (E : create_pool many_env s 0 (Z.of_nat n + 1) many_tier 1000000000000000000000000 0
      = Ok (set_pool_keys (<[many_key (Z.of_nat n + 1) := s_pool_keys_length s]> (s_pool_keys s))
              (<[s_pool_keys_length s := many_key (Z.of_nat n + 1)]> (s_pool_keys_by_index s))
              ((s_pool_keys_length s + 1) mod M16)
              (set_pools (<[many_key (Z.of_nat n + 1) := p]> (s_pools s)) s), tt)).
    { unfold create_pool. rewrite (proj2 (fee_tiers_contains_spec _ _) HT). cbn [negb fail_if bind].
      change (ft_tick_spacing many_tier) with 10.
      replace (check_tick 0 10) with (@Ok unit tt) by (vm_compute; reflexivity). cbn [map_err bind].
      assert (EK : pool_key_new 0 (Z.of_nat n + 1) many_tier = Ok (many_key (Z.of_nat n + 1))).
      { apply (pool_key_new_self (many_key (Z.of_nat n + 1))). cbn. lia. }
      rewrite EK. cbn [bind]. unfold pools_get. rewrite N1. cbn [ok_or is_ok fail_if bind].
      change (e_timestamp many_env) with 1000. rewrite PC. cbn [bind]. unfold pools_add. rewrite N1. cbn [bind].
      unfold pool_keys_add. cbn [set_pools s_pool_keys]. rewrite N2. cbn [bind]. reflexivity. }
    exists (evs ++ [Call many_env o]), (exec_event s (Call many_env o)). split.
    { constructor; auto; [|exact I]. unfold event_wf, env_wf, op_wf, o, tier_wf, u16, u32, u64, i32, u128. cbn. lia. }
    cbn [exec_event]. unfold exec_op. cbn [run_op o]. rewrite E. cbn [drop_result bind].
    cbn [set_pool_keys set_pools s_fee_tiers s_pool_keys_length s_pools s_pool_keys].
    split; [auto|]. split. { rewrite HL, Zplus_mod_idemp_l. f_equal. lia. }
    split; intros i; (destruct (decide (i = Z.of_nat n + 1)) as [->|Hn];
      [rewrite lookup_insert; split; [lia|eauto]
      |rewrite lookup_insert_ne by (intros [= Hx]; lia); rewrite ?HP, ?HK; lia]).
Qed.

Theorem C17_wrap_refuted : exists evs s,
  history anything evs s /\
  (forall i, 1 <= i <= 65536 -> exists p, get_pool s 0 i many_tier = Ok p) /\
  get_pool_keys s 65535 0 = Ok ([], 0).
Proof.
  destruct (many_pools (Z.to_nat 65536)) as (evs & s & H & _ & HL & HP & _).
  exists evs, s. split; [auto|]. split.
  - intros i Hi. destruct (HP i) as [_ [p E]]; [lia|]. exists p. unfold get_pool.
    assert (EK : pool_key_new 0 i many_tier = Ok (many_key i)) by (apply (pool_key_new_self (many_key i)); cbn; lia).
    rewrite EK. cbn [bind].
    apply pools_get_Ok. exact E.
  - unfold get_pool_keys, pool_keys_get_all. rewrite HL. rewrite Z2Nat.id by lia. reflexivity.
Qed.

(** ** C18 *)

Theorem C18_valid_set evs s : history anything evs s ->
  NoDup (get_fee_tiers s) /\
  forall ft, ft ∈ get_fee_tiers s -> 1 <= ft_tick_spacing ft <= 100 /\ 0 <= ft_fee ft < 10 ^ 12.
Proof.
  apply (history_invariant (fun s => NoDup (get_fee_tiers s) /\
    forall ft, ft ∈ get_fee_tiers s -> 1 <= ft_tick_spacing ft <= 100 /\ 0 <= ft_fee ft < 10 ^ 12));
    unfold get_fee_tiers; auto.
  - intros. split; [constructor|]. intros ft Hf. apply elem_of_nil in Hf as [].
  - intros s0 e o s1 [HD HV] [_ Hw] _ H. destruct (admin_or_pool o) eqn:EO.
    2: { apply run_op_cfg in H as (_ & _ & -> & _); auto. }
    destruct o; try discriminate EO; cbn [run_op] in H; apply drop_result_Ok in H as [r H].
    + apply change_protocol_fee_inv in H as (_ & ->). auto.
    + apply add_fee_tier_inv in H as (_ & H1 & H2 & H3 & H4 & ->). cbn [set_fee_tiers s_fee_tiers].
      apply fee_tiers_contains_false in H4. destruct Hw as [[Hw1 Hw2] [Hw3 Hw4]]. split.
      * apply NoDup_app. split; [auto|]. split; [|apply NoDup_singleton].
        intros z Hz Hz'. apply elem_of_list_singleton in Hz'. subst. contradiction.
      * intros f Hf. apply elem_of_app in Hf as [Hf|Hf]; [auto|]. apply elem_of_list_singleton in Hf. subst f.
        unfold PERCENTAGE_ONE in H3. lia.
    + apply remove_fee_tier_inv in H as (_ & l & Hl & ->). cbn [set_fee_tiers s_fee_tiers].
      apply remove_first_spec in Hl as (l1 & l2 & E & -> & Hn). rewrite E in HD, HV.
      apply NoDup_app in HD as (D1 & D2 & D3). apply NoDup_cons in D3 as [D3 D4]. split.
      * apply NoDup_app. split; [auto|]. split; [|auto]. intros z Hz Hz'. apply (D2 z Hz). apply elem_of_cons. auto.
      * intros f Hf. apply HV. apply elem_of_app in Hf as [Hf|Hf]; apply elem_of_app; [auto|].
        right. apply elem_of_cons. auto.
    + apply create_pool_inv in H as (k & p & _ & _ & _ & _ & _ & _ & ->). auto.
Qed.

Theorem C18_add s e ft s' r : add_fee_tier e s ft = Ok (s', r) ->
  ft ∉ get_fee_tiers s /\ get_fee_tiers s' = get_fee_tiers s ++ [ft].
Proof.
  intros H. apply add_fee_tier_inv in H as (_ & _ & _ & _ & H & ->). split; [|reflexivity].
  apply fee_tiers_contains_false. auto.
Qed.

(** Adding succeeds exactly for the admin, a valid tier and a tier not yet listed. *)
Theorem C18_add_iff s e ft : tier_wf ft ->
  (exists s' r, add_fee_tier e s ft = Ok (s', r)) <->
  e_caller e = s_admin s /\ 1 <= ft_tick_spacing ft <= 100 /\ ft_fee ft < 10 ^ 12 /\ ft ∉ get_fee_tiers s.
Proof.
  intros [W1 [W2 W3]]. split.
  - intros (s' & r & H). apply add_fee_tier_inv in H as (H1 & H2 & H3 & H4 & H5 & _).
    unfold PERCENTAGE_ONE in H4. apply fee_tiers_contains_false in H5. repeat split; auto; lia.
  - intros (H1 & H2 & H3 & H4). apply fee_tiers_contains_false in H4.
    unfold add_fee_tier, is_caller_admin, fee_tiers_add, PERCENTAGE_ONE.
    rewrite (proj2 (Z.eqb_neq _ _)) by lia. rewrite (proj2 (Z.ltb_ge _ _)) by lia.
    rewrite (proj2 (Z.leb_gt _ _)) by lia. rewrite (proj2 (Z.eqb_eq _ _)) by auto.
    unfold get_fee_tiers in H4. rewrite H4. cbn. eauto.
Qed.

Theorem C18_remove evs s e ft s' r : history anything evs s -> remove_fee_tier e s ft = Ok (s', r) ->
  ft ∈ get_fee_tiers s /\
  forall g, g ∈ get_fee_tiers s' <-> g ∈ get_fee_tiers s /\ g <> ft.
Proof.
  intros HH H. apply C18_valid_set in HH as [HD _]. unfold get_fee_tiers in *.
  apply remove_fee_tier_inv in H as (_ & l & Hl & ->). cbn [set_fee_tiers s_fee_tiers].
  apply remove_first_spec in Hl as (l1 & l2 & E & -> & Hn). rewrite E in *.
  apply NoDup_app in HD as (D1 & D2 & D3). apply NoDup_cons in D3 as [D3 D4]. split.
  - apply elem_of_app. right. apply elem_of_cons. auto.
  - intros g. rewrite !elem_of_app, elem_of_cons. split.
    + intros [Hg|Hg]; (split; [auto|intros ->; contradiction]).
    + intros [[Hg|[Hg|Hg]] Hne]; auto. contradiction.
Qed.

Theorem C18_remove_iff s e ft :
  (exists s' r, remove_fee_tier e s ft = Ok (s', r)) <-> e_caller e = s_admin s /\ ft ∈ get_fee_tiers s.
Proof.
  split.
  - intros (s' & r & H). apply remove_fee_tier_inv in H as (H1 & l & H2 & _). split; [auto|].
    apply remove_first_spec in H2 as (l1 & l2 & E & _). unfold get_fee_tiers. rewrite E.
    apply elem_of_app. right. apply elem_of_cons. auto.
  - intros [H1 H2]. apply remove_first_Some in H2 as [l H2]. unfold get_fee_tiers in H2. unfold remove_fee_tier, is_caller_admin, fee_tiers_remove.
    rewrite (proj2 (Z.eqb_eq _ _)) by auto. rewrite H2. cbn. eauto.
Qed.

Example C18_case : history anything evs_traded s_traded /\ get_fee_tiers s_traded = [tier1; tier2] /\
  is_Ok (remove_fee_tier (by_ admin) s_traded tier1) = true /\
  is_Ok (add_fee_tier (by_ admin) s_traded (mkFeeTier 5 100)) = true /\
  is_Ok (add_fee_tier (by_ admin) s_traded tier1) = false.
Proof. split; [apply s_traded_history|]. repeat split; vm_compute; reflexivity. Qed.

(** ** C19 *)

Lemma exec_event_cfg s ev :
  (exists e o s', ev = Call e o /\ run_op e s o = Ok s' /\ exec_event s ev = s') \/
  (same_cfg s (exec_event s ev) /\ s_pools (exec_event s ev) = s_pools s) \/
  (exists m, ev = Awaiting m).
Proof.
  destruct ev as [e o|u t a|u t a|m]; cbn [exec_event].
  - unfold exec_op. destruct (run_op e s o) as [s'| | |] eqn:E.
    + left. eauto 10.
    + right. left. split; [apply same_cfg_refl|reflexivity].
    + right. left. split; [apply same_cfg_refl|reflexivity].
    + right. left. split; [apply same_cfg_refl|reflexivity].
  - right. left. destruct (increase_token_balance s t u a) eqn:E; try (split; [apply same_cfg_refl|reflexivity]).
    apply increase_spec in E as ((B & ->) & _). repeat split.
  - right. left. destruct (decrease_token_balance s t u a) as [[s1 v]| | |] eqn:E;
      try (split; [apply same_cfg_refl|reflexivity]).
    apply decrease_spec in E as ((B & ->) & _). repeat split.
  - eauto.
Qed.

Theorem C19_admin_constant s ev : s_admin (exec_event s ev) = s_admin s.
Proof.
  destruct (exec_event_cfg s ev) as [(e & o & s' & -> & H & ->)|[[H _]|[m ->]]].
  - destruct (admin_or_pool o) eqn:EO.
    2: { apply run_op_cfg in H as (H & _); auto. }
    destruct o; try discriminate EO; cbn [run_op] in H; apply drop_result_Ok in H as [r H].
    + apply change_protocol_fee_inv in H as (_ & ->). reflexivity.
    + apply add_fee_tier_inv in H as (_ & _ & _ & _ & _ & ->). reflexivity.
    + apply remove_fee_tier_inv in H as (_ & l & _ & ->). reflexivity.
    + apply create_pool_inv in H as (k & p & _ & _ & _ & _ & _ & _ & ->). reflexivity.
  - destruct H as (-> & _). reflexivity.
  - reflexivity.
Qed.

(** Over whole histories: the admin is the one the program was initialised with. *)
Theorem C19_admin_fixed adm fee evs s : run_events adm fee evs = s -> s_admin s = adm.
Proof.
  intros <-. unfold run_events. induction evs as [|ev evs IH] using rev_ind; [reflexivity|].
  rewrite fold_left_app. cbn [fold_left]. rewrite C19_admin_constant. exact IH.
Qed.

Theorem C19_protocol_fee s ev : get_protocol_fee (exec_event s ev) <> get_protocol_fee s ->
  exists e f, ev = Call e (OpChangeProtocolFee f) /\ e_caller e = s_admin s /\
    get_protocol_fee (exec_event s ev) = f.
Proof.
  unfold get_protocol_fee. intros HN.
  destruct (exec_event_cfg s ev) as [(e & o & s' & -> & H & E)|[[H _]|[m ->]]].
  - rewrite E in *. destruct (admin_or_pool o) eqn:EO.
    2: { apply run_op_cfg in H as (_ & H & _); auto. congruence. }
    destruct o; try discriminate EO; cbn [run_op] in H; apply drop_result_Ok in H as [r H].
    + apply change_protocol_fee_inv in H as (H & ->). eauto.
    + apply add_fee_tier_inv in H as (_ & _ & _ & _ & _ & ->). contradiction.
    + apply remove_fee_tier_inv in H as (_ & l & _ & ->). contradiction.
    + apply create_pool_inv in H as (k & p & _ & _ & _ & _ & _ & _ & ->). contradiction.
  - destruct H as (_ & H & _). congruence.
  - contradiction.
Qed.

Theorem C19_fee_tiers s ev : get_fee_tiers (exec_event s ev) <> get_fee_tiers s ->
  exists e ft, (ev = Call e (OpAddFeeTier ft) \/ ev = Call e (OpRemoveFeeTier ft)) /\ e_caller e = s_admin s.
Proof.
  unfold get_fee_tiers. intros HN.
  destruct (exec_event_cfg s ev) as [(e & o & s' & -> & H & E)|[[H _]|[m ->]]].
  - rewrite E in *. destruct (admin_or_pool o) eqn:EO.
    2: { apply run_op_cfg in H as (_ & _ & H & _); auto. congruence. }
    destruct o; try discriminate EO; cbn [run_op] in H; apply drop_result_Ok in H as [r H].
    + apply change_protocol_fee_inv in H as (H & ->). contradiction.
    + apply add_fee_tier_inv in H as (H & _ & _ & _ & _ & ->). eauto.
    + apply remove_fee_tier_inv in H as (H & l & _ & ->). eauto.
    + apply create_pool_inv in H as (k & p & _ & _ & _ & _ & _ & _ & ->). contradiction.
  - destruct H as (_ & _ & H & _). congruence.
  - contradiction.
Qed.

Theorem C19_fee_receiver s ev x y ft p p' :
  get_pool s x y ft = Ok p -> get_pool (exec_event s ev) x y ft = Ok p' ->
  p_fee_receiver p' <> p_fee_receiver p ->
  exists e k r, ev = Call e (OpChangeFeeReceiver k r) /\ pool_key_new x y ft = Ok k /\
    e_caller e = s_admin s /\ p_fee_receiver p' = r.
Proof.
  unfold get_pool. intros H1 H2 HN. apply bind_Ok in H1 as (k & HK & H1). rewrite HK in H2. cbn [bind] in H2.
  apply pools_get_Ok in H1, H2.
  destruct (exec_event_cfg s ev) as [(e & o & s' & -> & H & E)|[[_ H]|[m ->]]].
  - rewrite E in *. destruct (changes_pools o) eqn:EO.
    2: { apply run_op_pools_kept in H; auto. specialize (H k). rewrite H1 in H.
         destruct H as (q & Hq & F & _). congruence. }
    destruct o; try discriminate EO; cbn [run_op] in H; apply drop_result_Ok in H as [r H].
    + apply create_pool_inv in H as (k' & q & _ & _ & _ & Hn & _ & _ & ->).
      cbn [set_pool_keys set_pools s_pools] in H2. destruct (decide (k' = k)) as [->|Hd]; [congruence|].
      rewrite lookup_insert_ne in H2 by auto. congruence.
    + apply change_fee_receiver_inv in H as (H & q & Hq & ->). cbn [set_pools s_pools] in H2.
      destruct (decide (k0 = k)) as [->|Hd].
      * rewrite lookup_insert in H2. injection H2 as <-. exists e, k, receiver. auto.
      * rewrite lookup_insert_ne in H2 by auto. congruence.
  - rewrite H in H2. congruence.
  - cbn [exec_event set_awaiting s_pools] in H2. congruence.
Qed.

(** The administrative calls fail for everybody else. *)
Theorem C19_others_rejected e s o s' : e_caller e <> s_admin s ->
  run_op e s o = Ok s' ->
  match o with
  | OpChangeProtocolFee _ | OpAddFeeTier _ | OpRemoveFeeTier _ | OpChangeFeeReceiver _ _ => False
  | _ => True
  end.
Proof.
  intros HN H. destruct o; auto; cbn [run_op] in H; apply drop_result_Ok in H as [r H]; apply HN.
  - apply change_protocol_fee_inv in H as (H & _). auto.
  - apply add_fee_tier_inv in H as (H & _). auto.
  - apply remove_fee_tier_inv in H as (H & _). auto.
  - apply change_fee_receiver_inv in H as (H & _). auto.
Qed.

Example C19_case :
  is_Ok (change_fee_receiver (by_ admin) s_traded pool1 bob) = true /\
  is_Ok (change_fee_receiver (by_ bob) s_traded pool1 bob) = false /\
  is_Ok (change_protocol_fee (by_ admin) s_traded 5) = true.
Proof. repeat split; vm_compute; reflexivity. Qed.

(** ** C20 *)

Theorem C20_balances e s o s' u t : run_op e s o = Ok s' -> u <> e_caller e -> bal s' u t = bal s u t.
Proof. intros H Hu. eapply run_op_others; eauto. Qed.

(** Somebody else's list of positions is untouched, except that a transfer
    appends one position to the receiver's list. *)
Theorem C20_positions evs s e o s' u l :
  history room evs s -> room s (Call e o) -> run_op e s o = Ok s' -> u <> e_caller e ->
  get_all_positions s u = Ok l ->
  exists new, get_all_positions s' u = Ok (l ++ new) /\
    (new = [] \/ exists i pos, o = OpTransferPosition i u /\ get_position s (e_caller e) i = Ok pos /\ new = [pos]).
Proof.
  intros H R E Hu G. destruct (keeps_positions o) eqn:EK.
  { exists []. rewrite app_nil_r. split; [|auto]. rewrite <- G. eapply C16_others; eauto; intros; intros ->; discriminate. }
  destruct o; try discriminate EK; cbn [run_op] in E; apply drop_result_Ok in E as [r E].
  - exists []. rewrite app_nil_r. split; [|auto]. eapply C16_create in E as [E _]; eauto.
    destruct (decide (u = e_caller e)); [contradiction|]. exact E.
  - exists []. rewrite app_nil_r. split; [|auto]. eapply C16_remove in E as [E _]; eauto.
    destruct (decide (u = e_caller e)); [contradiction|]. exact E.
  - eapply C16_transfer in E as (pos & Hp & E); eauto. specialize (E u l G). cbv zeta in E.
    destruct (decide (u = e_caller e)); [contradiction|]. destruct (decide (u = receiver)) as [->|].
    + exists [pos]. split; [auto|]. right. eauto.
    + exists []. rewrite app_nil_r. auto.
  - exists []. rewrite app_nil_r. split; [|auto]. eapply C16_claim in E as (pos & pos' & _ & _ & _ & _ & _ & _ & E); eauto.
    destruct (decide (u = e_caller e)); [contradiction|]. exact E.
Qed.

Example C20_case : history room evs_traded s_traded /\
  is_Ok (run_op (by_ alice) s_traded (OpTransferPosition 0 bob)) = true /\ bob <> e_caller (by_ alice).
Proof. split; [apply s_traded_room|]. split; [vm_compute; reflexivity|discriminate]. Qed.

(** ** C21 *)

Lemma pool_origin evs s : history anything evs s -> forall k p, s_pools s !! k = Some p ->
  pk_token_x k < pk_token_y k /\
  exists evs1 evs2 s1, evs = evs1 ++ evs2 /\ history anything evs1 s1 /\ pk_fee_tier k ∈ get_fee_tiers s1.
Proof.
  induction 1 as [adm fee Hf|evs s ev H IH Hw _]; intros k p Hk.
  - cbn in Hk. rewrite lookup_empty in Hk. discriminate.
  - assert (OLD : is_Some (s_pools s !! k) -> pk_token_x k < pk_token_y k /\
      exists evs1 evs2 s1, evs ++ [ev] = evs1 ++ evs2 /\ history anything evs1 s1 /\ pk_fee_tier k ∈ get_fee_tiers s1).
    { intros [q Hq]. destruct (IH k q Hq) as (H1 & e1 & e2 & s1 & -> & H2 & H3). split; [auto|].
      exists e1, (e2 ++ [ev]), s1. rewrite app_assoc. auto. }
    destruct (exec_event_cfg s ev) as [(e & o & s' & -> & HR & E)|[[_ E]|[m ->]]].
    + rewrite E in *. destruct (changes_pools o) eqn:EO.
      2: { apply OLD. apply run_op_pools_kept in HR; auto. specialize (HR k). destruct (s_pools s !! k); [eauto|congruence]. }
      destruct o; try discriminate EO; cbn [run_op] in HR; apply drop_result_Ok in HR as [r HR].
      * apply create_pool_inv in HR as (k' & q & HF & _ & HK & _ & _ & _ & ->).
        cbn [set_pool_keys set_pools s_pools] in Hk. destruct (decide (k' = k)) as [->|Hd].
        -- apply pool_key_new_inv in HK as (HK & HT & _). split; [auto|]. exists evs, [Call e (OpCreatePool token_x token_y ft init_sqrt_price init_tick)], s.
           split; [reflexivity|]. split; [auto|]. rewrite HT. apply fee_tiers_contains_spec. auto.
        -- rewrite lookup_insert_ne in Hk by auto. apply OLD. eauto.
      * apply change_fee_receiver_inv in HR as (_ & q & Hq & ->). cbn [set_pools s_pools] in Hk. apply OLD.
        destruct (decide (k0 = k)) as [->|Hd]; [eauto|]. rewrite lookup_insert_ne in Hk by auto. eauto.
    + rewrite E in Hk. apply OLD. eauto.
    + cbn [exec_event set_awaiting s_pools] in Hk. apply OLD. eauto.
Qed.

(** Every pool has ordered tokens and a tier the admin had listed when it was created. *)
Theorem C21_canonical evs s k p : history anything evs s -> pools_get s k = Ok p ->
  pk_token_x k < pk_token_y k /\
  exists evs1 evs2 s1, evs = evs1 ++ evs2 /\ history anything evs1 s1 /\ pk_fee_tier k ∈ get_fee_tiers s1.
Proof. intros H Hp. apply pools_get_Ok in Hp. eapply pool_origin; eauto. Qed.

(** The pool of a pair does not depend on the order of the tokens, and different
    pairs or tiers have different pools. *)
Theorem C21_order s x y ft : get_pool s x y ft = get_pool s y x ft.
Proof. unfold get_pool. rewrite pool_key_new_swap. reflexivity. Qed.
Theorem C21_unique x y ft x' y' ft' k :
  pool_key_new x y ft = Ok k -> pool_key_new x' y' ft' = Ok k ->
  ft = ft' /\ ((x = x' /\ y = y') \/ (x = y' /\ y = x')).
Proof.
  intros H1 H2. apply pool_key_new_inv in H1 as (_ & <- & H1). apply pool_key_new_inv in H2 as (_ & <- & H2).
  split; [reflexivity|]. intuition congruence.
Qed.

Theorem C21_created e s x y ft ip it s' r : create_pool e s x y ft ip it = Ok (s', r) ->
  (forall p, get_pool s x y ft <> Ok p) /\ (exists p, get_pool s' x y ft = Ok p) /\
  forall x' y' ft', get_pool s' x' y' ft' = get_pool s x' y' ft' \/ pool_key_new x' y' ft' = pool_key_new x y ft.
Proof.
  intros H. apply create_pool_inv in H as (k & q & _ & _ & HK & Hn & _ & _ & ->).
  unfold get_pool. rewrite HK. cbn [bind]. split; [|split].
  - intros p Hp. apply pools_get_Ok in Hp. congruence.
  - exists q. apply pools_get_Ok. cbn [set_pool_keys set_pools s_pools]. apply lookup_insert.
  - intros x' y' ft'. destruct (pool_key_new x' y' ft') as [k'| | |] eqn:E'; auto. cbn [bind].
    destruct (decide (k' = k)) as [->|Hd]; [auto|]. left. unfold pools_get.
    cbn [set_pool_keys set_pools s_pools]. rewrite lookup_insert_ne by auto. reflexivity.
Qed.

Theorem C21_duplicate_rejected e s x y ft ip it p s' r :
  get_pool s x y ft = Ok p -> create_pool e s x y ft ip it <> Ok (s', r) /\ create_pool e s y x ft ip it <> Ok (s', r).
Proof.
  intros HP. split; intros H; apply C21_created in H as (H & _); apply (H p); [auto|].
  rewrite C21_order. auto.
Qed.

Theorem C21_never_deleted s ev x y ft p : get_pool s x y ft = Ok p ->
  exists p', get_pool (exec_event s ev) x y ft = Ok p'.
Proof.
  unfold get_pool. intros H. apply bind_Ok in H as (k & -> & H). cbn [bind]. apply pools_get_Ok in H.
  enough (is_Some (s_pools (exec_event s ev) !! k)) as [p' G] by (exists p'; apply pools_get_Ok; auto).
  destruct (exec_event_cfg s ev) as [(e & o & s' & -> & HR & E)|[[_ E]|[m ->]]].
  - rewrite E. destruct (changes_pools o) eqn:EO.
    2: { apply run_op_pools_kept in HR; auto. specialize (HR k). rewrite H in HR. destruct HR as (q & -> & _). eauto. }
    destruct o; try discriminate EO; cbn [run_op] in HR; apply drop_result_Ok in HR as [r HR].
    + apply create_pool_inv in HR as (k' & q & _ & _ & _ & _ & _ & _ & ->). cbn [set_pool_keys set_pools s_pools].
      destruct (decide (k' = k)) as [->|Hd]; [rewrite lookup_insert|rewrite lookup_insert_ne by auto]; eauto.
    + apply change_fee_receiver_inv in HR as (_ & q & Hq & ->). cbn [set_pools s_pools].
      destruct (decide (k0 = k)) as [->|Hd]; [rewrite lookup_insert|rewrite lookup_insert_ne by auto]; eauto.
  - rewrite E. eauto.
  - eauto.
Qed.

Example C21_case : history anything evs_traded s_traded /\ is_Ok (pools_get s_traded pool1) = true /\
  is_Ok (create_pool (by_ bob) s_traded tokA tokB tier1 1000000000000000000000000 0) = false /\
  is_Ok (create_pool (by_ bob) s_traded tokA tokB tier2 1000000000000000000000000 0) = true.
Proof. split; [apply s_traded_history|]. repeat split; vm_compute; reflexivity. Qed.

(** ** C31 *)

(** Balance, as reported by the query. *)
Theorem C31_balance_is_the_query s u t v : bal s u t = v <->
  (t, v) ∈ get_user_balances s u \/ (v = 0 /\ forall w, (t, w) ∉ get_user_balances s u).
Proof. apply bal_query. Qed.

(** The balances of [c] change by the listed (token, amount) pairs and by nothing
    else, and nobody else's balances change. *)
Fixpoint sum_on (t : Z) (ds : list (Z * Z)) : Z :=
  match ds with [] => 0 | (t', a) :: ds' => (if t =? t' then a else 0) + sum_on t ds' end.
Definition moves (s s' : state) (c : Z) (ds : list (Z * Z)) : Prop :=
  forall u t, bal s' u t = bal s u t + (if u =? c then sum_on t ds else 0).

Lemma ledger_moves2 s s' c x a y b : ledger s s' (both (at_ c x a) (at_ c y b)) -> moves s s' c [(x, a); (y, b)].
Proof.
  intros H u t. rewrite H. unfold both, at_. cbn [sum_on].
  destruct (u =? c), (t =? x), (t =? y); cbn [andb]; lia.
Qed.
Lemma ledger_moves1 s s' c x a : ledger s s' (at_ c x a) -> moves s s' c [(x, a)].
Proof.
  intros H u t. rewrite H. unfold at_. cbn [sum_on]. destruct (u =? c), (t =? x); cbn [andb]; lia.
Qed.
Lemma moves_none s s' c : s_balances s' = s_balances s -> moves s s' c [].
Proof. intros E u t. unfold bal. rewrite E. cbn. destruct (u =? c); lia. Qed.

(** Creating a position charges the amounts computed for its liquidity and range
    at the pool's price (rounded up, C03-C05). *)
Theorem C31_create e s k lo up L sl su s' pos : create_position e s k lo up L sl su = Ok (s', pos) ->
  exists p x y inside, pools_get s k = Ok p /\
    calculate_amount_delta (p_current_tick_index p) (p_sqrt_price p) L true (pos_upper pos) (pos_lower pos)
      = Ok (x, y, inside) /\
    moves s s' (e_caller e) [(pk_token_x k, - x); (pk_token_y k, - y)].
Proof.
  intros H. apply create_position_inv in H
    as (p & tl0 & al & tu0 & au & p' & tl & tu & x & y & b1 & H).
  destruct H as (_ & _ & HP & _ & _ & HC & _ & _ & _ & _ & _ & _ & _ & H & _).
  unfold position_create in HC. apply bind_Ok in HC as (u & _ & HC). apply unwrap_inv in HC.
  apply position_modify_inv in HC as (mx & fx & fy & _ & _ & _ & _ & _ & HU & i & HD & _).
  apply position_update_inv in HU as (ox & oy & _ & _ & _ & _ & _ & _ & _ & ->).
  exists p, x, y, i. split; [apply pools_get_Ok; auto|]. split; [exact HD|]. apply ledger_moves2. auto.
Qed.

Theorem C31_remove e s i s' x y : remove_position e s i = Ok (s', (x, y)) ->
  exists pos, get_position s (e_caller e) i = Ok pos /\
    moves s s' (e_caller e) [(pk_token_x (pos_pool_key pos), x); (pk_token_y (pos_pool_key pos), y)].
Proof.
  intros H. apply remove_position_inv in H
    as (pos & tl0 & tu0 & p & pos' & p' & tu & tl & dx & dy & rl & ru & b1 & T1 & lp & H).
  cbv zeta in H. destruct H as (HP & _ & _ & _ & _ & _ & _ & _ & _ & _ & _ & _ & _ & _ & _ & _ & H & _).
  exists pos. split; [apply positions_get_Ok; auto|]. apply ledger_moves2. auto.
Qed.

Theorem C31_claim e s i s' x y : claim_fee e s i = Ok (s', (x, y)) ->
  exists pos, get_position s (e_caller e) i = Ok pos /\
    moves s s' (e_caller e) [(pk_token_x (pos_pool_key pos), x); (pk_token_y (pos_pool_key pos), y)].
Proof.
  intros H. apply claim_fee_inv in H as (pos & tl0 & tu0 & p & pos' & p' & tu & tl & dx & dy & B & H).
  cbv zeta in H. destruct H as (HP & _ & _ & _ & _ & _ & _ & _ & _ & H & _).
  exists pos. split; [apply positions_get_Ok; auto|]. apply ledger_moves2. auto.
Qed.

Theorem C31_swap e s k x_to_y a b lim s' r : swap e s k x_to_y a b lim = Ok (s', r) ->
  moves s s' (e_caller e)
    [((if x_to_y then pk_token_x k else pk_token_y k), - cs_amount_in r);
     ((if x_to_y then pk_token_y k else pk_token_x k), cs_amount_out r)].
Proof. intros H. apply swap_inv in H as (B & _ & _ & H & _). apply ledger_moves2. auto. Qed.

(** A swap is paid for: it fails when the balance is too small. *)
Theorem C31_swap_covered e s k x_to_y a b lim s' r : swap e s k x_to_y a b lim = Ok (s', r) ->
  cs_amount_in r <> 0 -> cs_amount_in r <= bal s (e_caller e) (if x_to_y then pk_token_x k else pk_token_y k).
Proof. intros H. apply swap_inv in H as (B & _ & _ & _ & _ & H). auto. Qed.

Theorem C31_protocol_fee e s k s' r : withdraw_protocol_fee e s k = Ok (s', r) ->
  exists p, pools_get s k = Ok p /\
  moves s s' (e_caller e) [(pk_token_x k, p_fee_protocol_token_x p); (pk_token_y k, p_fee_protocol_token_y p)].
Proof.
  intros H. apply withdraw_protocol_fee_inv in H as (p & B & HP & _ & _ & H & _).
  exists p. split; [apply pools_get_Ok; auto|]. apply ledger_moves2. auto.
Qed.

Theorem C31_deposit_vara e s s' v : deposit_vara e s = Ok (s', v) ->
  v = e_value e /\ moves s s' (e_caller e) [(VARA_ADDRESS, e_value e)].
Proof. intros H. apply deposit_vara_inv in H as (-> & _ & H & _). split; [auto|]. apply ledger_moves1. auto. Qed.

Theorem C31_withdraw_vara e s o s' v : withdraw_vara e s o = Ok (s', v) ->
  moves s s' (e_caller e) [(VARA_ADDRESS, - v)] /\ (v <> 0 -> v <= bal s (e_caller e) VARA_ADDRESS) /\
  match o with Some a => v = a /\ a <> 0 | None => v = bal s (e_caller e) VARA_ADDRESS end.
Proof.
  intros H. apply withdraw_vara_inv in H as (_ & H1 & _ & _ & H2 & H3). split; [apply ledger_moves1; auto|]. auto.
Qed.

(** All other calls except route swaps move no balance at all. *)
Theorem C31_no_other_moves e s o s' : run_op e s o = Ok s' ->
  match o with
  | OpChangeProtocolFee _ | OpAddFeeTier _ | OpRemoveFeeTier _ | OpCreatePool _ _ _ _ _
  | OpChangeFeeReceiver _ _ | OpTransferPosition _ _ => moves s s' (e_caller e) []
  | _ => True
  end.
Proof.
  intros H. destruct o; auto; cbn [run_op] in H; apply drop_result_Ok in H as [r H]; apply moves_none.
  - apply change_protocol_fee_inv in H as (_ & ->). reflexivity.
  - apply add_fee_tier_inv in H as (_ & _ & _ & _ & _ & ->). reflexivity.
  - apply remove_fee_tier_inv in H as (_ & l & _ & ->). reflexivity.
  - apply create_pool_inv in H as (k & p & _ & _ & _ & _ & _ & _ & ->). reflexivity.
  - apply change_fee_receiver_inv in H as (_ & p & _ & ->). reflexivity.
  - apply transfer_position_inv in H as (pos & lp & s1 & _ & _ & -> & ->). reflexivity.
Qed.

Example C31_case :
  (match claim_fee (by_ alice) s_traded 0 with Ok (_, xy) => Some xy | _ => None end) = Some (8, 0) /\
  is_Ok (swap (by_ carol) s_traded pool1 false 100 true any_price) = true /\
  is_Ok (create_position (by_ bob) s_traded pool1 (-40) 40 5000000000 0 any_price) = true /\
  is_Ok (withdraw_protocol_fee (by_ admin) s_traded pool1) = true.
Proof. repeat split; vm_compute; reflexivity. Qed.

(** ** C35 *)

Theorem C35_receiver_only_and_exact e s k s' r : withdraw_protocol_fee e s k = Ok (s', r) ->
  exists p p', pools_get s k = Ok p /\ e_caller e = p_fee_receiver p /\
    moves s s' (e_caller e) [(pk_token_x k, p_fee_protocol_token_x p); (pk_token_y k, p_fee_protocol_token_y p)] /\
    pools_get s' k = Ok p' /\ p_fee_protocol_token_x p' = 0 /\ p_fee_protocol_token_y p' = 0 /\
    p_liquidity p' = p_liquidity p /\ p_sqrt_price p' = p_sqrt_price p /\
    p_current_tick_index p' = p_current_tick_index p /\
    p_fee_growth_global_x p' = p_fee_growth_global_x p /\ p_fee_growth_global_y p' = p_fee_growth_global_y p.
Proof.
  intros H. apply withdraw_protocol_fee_inv in H as (p & B & HP & HR & -> & H & _).
  exists p, (fst (pool_withdraw_protocol_fee p)). split; [apply pools_get_Ok; auto|]. split; [auto|].
  split; [apply ledger_moves2; auto|]. split.
  - apply pools_get_Ok. cbn [set_balances set_pools s_pools]. apply lookup_insert.
  - cbn. auto 10.
Qed.

(** A second withdrawal pays nothing. *)
Theorem C35_once e s k s' r s'' r' :
  withdraw_protocol_fee e s k = Ok (s', r) -> withdraw_protocol_fee e s' k = Ok (s'', r') ->
  forall u t, bal s'' u t = bal s' u t.
Proof.
  intros H1 H2 u t. apply C35_receiver_only_and_exact in H1 as (p & p' & _ & _ & _ & HP & Hx & Hy & _).
  apply C31_protocol_fee in H2 as (q & HQ & H2). assert (q = p') by congruence. subst q.
  rewrite H2, Hx, Hy. cbn [sum_on].
  destruct (u =? e_caller e), (t =? pk_token_x k), (t =? pk_token_y k); lia.
Qed.

(** Every other caller is refused. *)
Theorem C35_others_refused e s k p : pools_get s k = Ok p -> e_caller e <> p_fee_receiver p ->
  withdraw_protocol_fee e s k = Err NotFeeReceiver.
Proof.
  intros HP HN. unfold withdraw_protocol_fee. rewrite HP. cbn [bind].
  destruct (Z.eqb_spec (p_fee_receiver p) (e_caller e)); [congruence|]. reflexivity.
Qed.

Example C35_case :
  (match withdraw_protocol_fee (by_ admin) s_traded pool1 with
   | Ok (s', _) => Some (bal s' admin tokA, bal s' admin tokB, is_Ok (withdraw_protocol_fee (by_ admin) s' pool1))
   | _ => None end) = Some (2, 1, true) /\
  bal s_traded admin tokA = 0 /\ bal s_traded admin tokB = 0.
Proof. repeat split; vm_compute; reflexivity. Qed.

(** ** C39 *)

(** The claim is false: a pool asked to start at the middle of a tick does not. *)
Theorem C39_initial_price_refuted : exists evs s e x y ft price t s' r p,
  history anything evs s /\ op_wf (OpCreatePool x y ft price t) /\
  create_pool e s x y ft price t = Ok (s', r) /\
  get_pool s' x y ft = Ok p /\ p_sqrt_price p <> price.
Proof.
  destruct (create_pool (by_ bob) s_setup tokA tokB tier2 1000020000000000000000000 0) as [[s' r]| | |] eqn:E;
    try (exfalso; vm_compute in E; discriminate E).
  exists evs_setup, s_setup, (by_ bob), tokA, tokB, tier2, 1000020000000000000000000, 0, s', r.
  destruct (C21_created _ _ _ _ _ _ _ _ _ E) as (_ & [p Hp] & _). exists p.
  split; [apply s_setup_history|]. split; [unfold op_wf, tier_wf, u128, u16, i32; cbn; lia|].
  split; [auto|]. split; [auto|].
  assert (EP : (match create_pool (by_ bob) s_setup tokA tokB tier2 1000020000000000000000000 0 with
    | Ok (s', _) => match get_pool s' tokA tokB tier2 with Ok p => p_sqrt_price p | _ => 0 end
    | _ => 0 end) = 1000000000000000000000000) by (vm_compute; reflexivity).
  rewrite E, Hp in EP. rewrite EP. lia.
Qed.

(** What it does start with: the price of the given tick, which is at most the
    price asked for and less than one tick spacing below it; no liquidity and no
    fees; the admin as fee receiver. *)
Theorem C39_initial_state_guarded evs s e x y ft ip t s' r :
  history anything evs s -> op_wf (OpCreatePool x y ft ip t) ->
  create_pool e s x y ft ip t = Ok (s', r) ->
  exists p, get_pool s' x y ft = Ok p /\
    calculate_sqrt_price t = Ok (p_sqrt_price p) /\ p_current_tick_index p = t /\
    p_sqrt_price p <= ip /\
    (forall q, calculate_sqrt_price (t + ft_tick_spacing ft) = Ok q -> ip < q) /\
    p_liquidity p = 0 /\ p_fee_growth_global_x p = 0 /\ p_fee_growth_global_y p = 0 /\
    p_fee_protocol_token_x p = 0 /\ p_fee_protocol_token_y p = 0 /\ p_fee_receiver p = s_admin s.
Proof.
  intros HH HW H. apply create_pool_inv in H as (k & p & HF & HT & HK & _ & _ & HC & ->).
  apply C18_valid_set in HH as [_ HV]. apply fee_tiers_contains_spec in HF. specialize (HV ft HF).
  exists p. split.
  { unfold get_pool. rewrite HK. cbn [bind]. apply pools_get_Ok. cbn [set_pool_keys set_pools s_pools]. apply lookup_insert. }
  apply check_tick_inv in HT; [|lia].
  unfold pool_create in HC. apply bind_Ok in HC as (b & Hb & HC). apply bind_Ok in HC as (u & Hu & HC).
  apply fail_if_Ok, negb_false_iff in Hu. subst b. apply bind_Ok in HC as (pr & Hpr & HC). injection HC as <-.
  apply map_err_Ok in Hb. apply relationship_inv in Hb as (R1 & R2 & _); [|lia|auto].
  cbn. apply unwrap_inv in Hpr. pose proof HT as [HVt _].
  assert (pr = price t) by (rewrite calculate_sqrt_price_valid in Hpr by auto; congruence). subst pr.
  do 3 (split; [auto|]). split; [|auto 10].
  intros q Hq. apply calculate_sqrt_price_Ok in Hq as [Hq1 ->]; [auto|]. unfold valid_tick in HVt. unfold i32_min. lia.
Qed.

Example C39_case : history anything evs_setup s_setup /\
  is_Ok (create_pool (by_ bob) s_setup tokA tokB tier2 1000020000000000000000000 0) = true /\
  is_Ok (create_pool (by_ bob) s_setup tokA tokB tier2 1000060000000000000000000 0) = false.
Proof. split; [apply s_setup_history|]. repeat split; vm_compute; reflexivity. Qed.

(** ** Assumptions *)
Print Assumptions C16_dense.
Print Assumptions C16_create.
Print Assumptions C16_swap_remove.
Print Assumptions C16_remove.
Print Assumptions C16_transfer.
Print Assumptions C16_claim.
Print Assumptions C16_others.
Print Assumptions C16_room.
Print Assumptions C17_listing.
Print Assumptions C17_creation_order.
Print Assumptions C17_room.
Print Assumptions C17_wrap_refuted.
Print Assumptions C18_valid_set.
Print Assumptions C18_add.
Print Assumptions C18_add_iff.
Print Assumptions C18_remove.
Print Assumptions C18_remove_iff.
Print Assumptions C19_admin_constant.
Print Assumptions C19_admin_fixed.
Print Assumptions C19_protocol_fee.
Print Assumptions C19_fee_tiers.
Print Assumptions C19_fee_receiver.
Print Assumptions C19_others_rejected.
Print Assumptions C20_balances.
Print Assumptions C20_positions.
Print Assumptions C21_canonical.
Print Assumptions C21_order.
Print Assumptions C21_unique.
Print Assumptions C21_created.
Print Assumptions C21_duplicate_rejected.
Print Assumptions C21_never_deleted.
Print Assumptions C31_balance_is_the_query.
Print Assumptions C31_create.
Print Assumptions C31_remove.
Print Assumptions C31_claim.
Print Assumptions C31_swap.
Print Assumptions C31_swap_covered.
Print Assumptions C31_protocol_fee.
Print Assumptions C31_deposit_vara.
Print Assumptions C31_withdraw_vara.
Print Assumptions C31_no_other_moves.
Print Assumptions C35_receiver_only_and_exact.
Print Assumptions C35_once.
Print Assumptions C35_others_refused.
Print Assumptions C39_initial_price_refuted.
Print Assumptions C39_initial_state_guarded.
