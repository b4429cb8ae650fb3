(** C78: all tokens are treated alike.

    [respects_order], [other_tokens], [other_event], [other_reply], … are defined in
    SpecCoins.v; [answers] and [run] in SpecIndep.v. *)
From Verif Require Import Base Decimal SqrtPriceM LogM ClammM FeeGrowthM Types TickmapM StorageM
  CollectionsM StateM ServiceM SpecMath SpecState SpecHistory SpecIndep SpecCoins
  P_Clamm P_Effects P_State P_History P_Indep P_Anon P_Coins Cases.
From stdpp Require Import gmap list.
From Coq Require Import ZArith Lia Bool.
Open Scope Z_scope.

(** Giving the tokens of a history other addresses does the same to its outcome and
    changes nothing else. *)
Theorem C78_tokens g s evs : respects_order g ->
  answers (other_tokens g s) (map (other_event g) evs) = map (other_result (other_reply g)) (answers s evs) /\
  run (other_tokens g s) (map (other_event g) evs) = other_tokens g (run s evs).
Proof. intros H. now apply run_coin. Qed.

(** A freshly deployed program knows no token. *)
Theorem C78_from_the_start g admin fee evs : respects_order g ->
  answers (init_state admin fee) (map (other_event g) evs) = map (other_result (other_reply g)) (answers (init_state admin fee) evs) /\
  run (init_state admin fee) (map (other_event g) evs) = other_tokens g (run (init_state admin fee) evs).
Proof.
  intros H. assert (E : other_tokens g (init_state admin fee) = init_state admin fee).
  { unfold other_tokens, init_state. cbn. f_equal; try apply kmap_empty; apply fmap_empty. }
  pose proof (C78_tokens g (init_state admin fee) evs H) as X. now rewrite E in X.
Qed.

Local Lemma mapM_ext {A B} (f h : A -> res B) l : (forall a, f a = h a) -> mapM_res f l = mapM_res h l.
Proof. intros E. induction l as [|a l IH]; cbn; [reflexivity|]. now rewrite E, IH. Qed.
Local Lemma mapM_other {A B C} (h : B -> C) (f : A -> res B) (f' : A -> res C) l : (forall a, f' a = other_result h (f a)) ->
  mapM_res f' l = other_result (map h) (mapM_res f l).
Proof.
  intros E. induction l as [|a l IH]; cbn [mapM_res]; [reflexivity|]. rewrite E, IH. destruct (f a); cbn [other_result bind]; [|reflexivity..].
  destruct (mapM_res f l); reflexivity.
Qed.
Local Lemma push_coin g gs pos i : respects_order g ->
  push_to_group (other_groups g gs) (other_position g pos) i = option_map (other_groups g) (push_to_group gs pos i).
Proof.
  intros H. unfold other_groups. induction gs as [|[p [|[q j] ps]] gs IH]; cbn [push_to_group map fst snd]; [reflexivity|..].
  - rewrite IH. destruct (push_to_group gs pos i); reflexivity.
  - change (pos_pool_key (other_position g q)) with (other_key g (pos_pool_key q)).
    change (pos_pool_key (other_position g pos)) with (other_key g (pos_pool_key pos)).
    assert (B : bool_decide (other_key g (pos_pool_key q) = other_key g (pos_pool_key pos)) = bool_decide (pos_pool_key q = pos_pool_key pos)).
    { apply bool_decide_ext. split; [apply (gk_inj g H)|now intros ->]. }
    rewrite B. destruct (bool_decide (pos_pool_key q = pos_pool_key pos)); [cbn [option_map map app fst snd]; now rewrite map_app|]. rewrite IH. destruct (push_to_group gs pos i); reflexivity.
Qed.

Local Lemma list_coin g (m : gmap actor_id Z) : respects_order g ->
  map_to_list (other_balances g m) ≡ₚ map (fun ta => (g ta.1, ta.2)) (map_to_list m).
Proof.
  intros H. pose proof (g_inj g H) as I.
  assert (J : Inj (=) (=) (fun ta : actor_id * Z => (g ta.1, ta.2))).
  { intros [t a] [t' a'] E. assert (E1 := f_equal fst E). assert (E2 := f_equal snd E). cbn [fst snd] in E1, E2. apply I in E1. now subst. }
  apply NoDup_Permutation.
  - apply NoDup_map_to_list.
  - apply (NoDup_fmap_2 (fun ta : actor_id * Z => (g ta.1, ta.2))), NoDup_map_to_list.
  - intros [t a]. rewrite elem_of_map_to_list. unfold other_balances. rewrite lookup_kmap_Some by exact I.
    change (map ?f ?l) with (f <$> l). rewrite elem_of_list_fmap. split.
    + intros (t0 & -> & E). exists (t0, a). split; [reflexivity|]. now apply elem_of_map_to_list.
    + intros ([t0 a0] & E & X). apply elem_of_map_to_list in X. injection E as -> ->. eauto.
Qed.

(** Every query answers alike. *)
Theorem C78_queries g s : respects_order g -> let s' := other_tokens g s in
  (forall u, get_user_balances s' u ≡ₚ map (fun ta => (g ta.1, ta.2)) (get_user_balances s u)) /\
  (forall u, get_user_position_amount s' u = get_user_position_amount s u) /\
  (forall u i, get_position s' u i = other_result (other_position g) (get_position s u i)) /\
  (forall u, get_all_positions s' u = other_result (map (other_position g)) (get_all_positions s u)) /\
  (forall u size offset, get_positions s' u size offset =
     other_result (fun r => (other_groups g r.1, r.2)) (get_positions s u size offset)) /\
  (forall u i, get_position_with_associates s' u i =
     other_result (fun '(pos, p, lo, up) => (other_position g pos, p, lo, up)) (get_position_with_associates s u i)) /\
  (forall u offset, get_position_ticks s' u offset = get_position_ticks s u offset) /\
  (forall e k d a b l, quote e s' (other_key g k) d a b l = quote e s k d a b l) /\
  (forall e a h, quote_route e s' a (map (other_hop g) h) = quote_route e s a h) /\
  (forall x y ft, get_pool s' (g x) (g y) ft = get_pool s x y ft) /\
  (forall x y, get_all_pools_for_pair s' (g x) (g y) = get_all_pools_for_pair s x y) /\
  (forall size offset, get_pool_keys s' size offset =
     other_result (fun r => (map (other_key g) r.1, r.2)) (get_pool_keys s size offset)) /\
  (forall k i, get_tick s' (other_key g k) i = get_tick s k i) /\
  (forall k i, is_tick_initialized s' (other_key g k) i = is_tick_initialized s k i) /\
  (forall k, get_tickmap s' (other_key g k) = get_tickmap s k) /\
  (forall k, get_liquidity_ticks_amount s' (other_key g k) = get_liquidity_ticks_amount s k) /\
  (forall k l, get_liquidity_ticks s' (other_key g k) l = get_liquidity_ticks s k l) /\
  get_fee_tiers s' = get_fee_tiers s /\ get_protocol_fee s' = get_protocol_fee s.
Proof.
  intros H s'. subst s'. assert (PG : forall k, pools_get (other_tokens g s) (other_key g k) = pools_get s k) by (intros k; now apply pools_get_coin).
  assert (TG : forall k i, ticks_get (other_tokens g s) (other_key g k) i = ticks_get s k i) by (intros k i; now apply ticks_get_coin).
  assert (QG : forall u i, positions_get (other_tokens g s) u i = other_result (other_position g) (positions_get s u i)) by (intros u i; apply positions_get_coin).
  assert (QA : forall u i, expect (s_positions (other_tokens g s) !! (u, i)) = other_result (other_position g) (expect (s_positions s !! (u, i)))).
  { intros u i. rewrite positions_at. destruct (s_positions s !! (u, i)); reflexivity. }
  split. { intros u. unfold get_user_balances. rewrite balances_at. destruct (s_balances s !! u) as [m|]; cbn [fmap option_fmap option_map default]; [|reflexivity].
    exact (list_coin g m H). }
  split; [reflexivity|]. split; [exact QG|].
  split. { intros u. unfold get_all_positions, positions_get_all. now apply mapM_other. }
  split. { intros u size offset. unfold get_positions, positions_get_slice. cbv zeta.
    change (positions_get_length (other_tokens g s) u) with (positions_get_length s u).
    destruct (expect _) as [w| | |]; cbn [bind]; [|reflexivity..].
    erewrite (mapM_other (other_position g)); [|intros i; apply QA].
    destruct (mapM_res _ _) as [l| | |]; cbn [bind other_result]; [|reflexivity..].
    assert (E : forall l gr i, foldM_res (fun (acc : list (pool * list (position * Z)) * Z) pos =>
                 let '(groups, i) := acc in
                 match push_to_group groups pos (offset + i) with
                 | Some groups' => Ok (groups', i + 1)
                 | None => let* p := pools_get (other_tokens g s) (pos_pool_key pos) in
                           Ok (groups ++ [(p, [(pos, offset + i)])], i + 1)
                 end) (map (other_position g) l) (other_groups g gr, i) = other_result (fun r => (other_groups g r.1, r.2))
               (foldM_res (fun (acc : list (pool * list (position * Z)) * Z) pos =>
                 let '(groups, i) := acc in
                 match push_to_group groups pos (offset + i) with
                 | Some groups' => Ok (groups', i + 1)
                 | None => let* p := pools_get s (pos_pool_key pos) in
                           Ok (groups ++ [(p, [(pos, offset + i)])], i + 1)
                 end) l (gr, i))).
    { clear l. induction l as [|pos l IH]; intros gr i; cbn [foldM_res map]; [reflexivity|]. rewrite push_coin by exact H.
      destruct (push_to_group gr pos (offset + i)) as [g'|]; cbn [option_map bind]; [apply IH|].
      change (pos_pool_key (other_position g pos)) with (other_key g (pos_pool_key pos)). rewrite PG.
      destruct (pools_get s (pos_pool_key pos)) as [p| | |]; cbn [other_result bind]; [|reflexivity..].
      rewrite <- IH. unfold other_groups. now rewrite map_app. }
    specialize (E l [] 0). change (other_groups g []) with (@nil (pool * list (position * Z))) in E. rewrite E.
    match goal with |- context [foldM_res ?F l ?A] => destruct (foldM_res F l A) as [[gr n]| | |]; reflexivity end. }
  split. { intros u i. unfold get_position_with_associates. rewrite QG.
    destruct (positions_get s u i) as [pos| | |]; cbn [bind other_result]; [|reflexivity..].
    change (pos_pool_key (other_position g pos)) with (other_key g (pos_pool_key pos)). rewrite PG, !TG. cbn [other_position pos_lower pos_upper].
    destruct (pools_get s _) as [p| | |]; cbn [bind]; [|reflexivity..].
    destruct (ticks_get s _ (pos_lower pos)); cbn [bind]; [|reflexivity..]. destruct (ticks_get s _ (pos_upper pos)); reflexivity. }
  split. { intros u offset. unfold get_position_ticks. change (positions_get_length (other_tokens g s) u) with (positions_get_length s u).
    generalize (@nil position_tick).
    induction (range offset (positions_get_length s u)) as [|i is IH]; intros ts; cbn [position_ticks_loop]; [reflexivity|].
    rewrite positions_at. destruct (s_positions s !! (u, i)) as [pos|]; cbn [fmap option_fmap option_map].
    - change (pos_pool_key (other_position g pos)) with (other_key g (pos_pool_key pos)). rewrite !(ticks_at g H). cbn [other_position pos_lower pos_upper].
      cbv zeta. destruct (_ <=? _); [reflexivity|]. apply IH.
    - cbv zeta. destruct (_ <=? _); [reflexivity|]. apply IH. }
  split. { intros e k d a b l. unfold quote. now rewrite calculate_swap_coin. }
  split. { intros e a h. unfold quote_route. revert a. induction h as [|x h IH]; intros a; cbn [route_quote map]; [reflexivity|].
    cbn [other_hop h_pool_key h_x_to_y]. rewrite calculate_swap_coin by exact H. destruct (calculate_swap s _ _ _ _ _ _) as [r| | |]; cbn [bind]; [|reflexivity..].
    apply IH. }
  split. { intros x y ft. unfold get_pool. rewrite (pool_key_coin g H). destruct (pool_key_new x y ft); cbn [rmap bind]; [apply PG|reflexivity..]. }
  split. { intros x y. unfold get_all_pools_for_pair. change (s_fee_tiers (other_tokens g s)) with (s_fee_tiers s).
    assert (E : forall l acc, foldM_res (fun acc ft => let* k := pool_key_new (g x) (g y) ft in
               match pools_get (other_tokens g s) k with Ok p => Ok (acc ++ [(ft, p)]) | _ => Ok acc end) l acc
             = foldM_res (fun acc ft => let* k := pool_key_new x y ft in
               match pools_get s k with Ok p => Ok (acc ++ [(ft, p)]) | _ => Ok acc end) l acc).
    { induction l as [|ft l IH]; intros acc; cbn [foldM_res]; [reflexivity|].
      rewrite (pool_key_coin g H). destruct (pool_key_new x y ft) as [k| | |]; cbn [rmap bind]; [|reflexivity..]. rewrite PG.
      destruct (pools_get s k); cbn [bind]; apply IH. }
    apply E. }
  split. { intros size offset. unfold get_pool_keys, pool_keys_get_all. cbv zeta. change (s_pool_keys_length (other_tokens g s)) with (s_pool_keys_length s).
    destruct (expect _) as [w| | |]; cbn [bind]; [|reflexivity..]. 
    rewrite (mapM_other (other_key g) (fun i => expect (s_pool_keys_by_index s !! i))).
    - match goal with |- context [mapM_res ?F ?L] => destruct (mapM_res F L); reflexivity end.
    - intros i. cbn [other_tokens s_pool_keys_by_index]. rewrite lookup_fmap. destruct (s_pool_keys_by_index s !! i); reflexivity. }
  split; [exact TG|].
  split. { intros k i. unfold is_tick_initialized, tickmap_get. apply bind_ext. intros [c b]. now rewrite chunk_coin. }
  split. { intros k. unfold get_tickmap. apply bind_ext. intros m. f_equal. unfold tickmap_slice.
    induction (range 0 (m + 1)) as [|c l IH]; [reflexivity|]. cbn [omap list_omap] in *. now rewrite (bitmap_at g H), IH. }
  split. { intros k. unfold get_liquidity_ticks_amount, liquidity_ticks_count. apply bind_ext. intros m. f_equal.
    induction (range 0 m) as [|c l IH]; [reflexivity|]. cbn [foldr]. now rewrite (bitmap_at g H), IH. }
  split. { intros k l. unfold get_liquidity_ticks. apply bind_ext. intros _. apply mapM_ext. intros i. now rewrite TG. }
  split; reflexivity.
Qed.

(** The order of the addresses matters: exchange two tokens, and what was x is y. *)
Definition exchange_tokens (t : actor_id) : actor_id := if t =? tokA then tokB else if t =? tokB then tokA else t.
Theorem C78_order_matters :
  nth 2 (answers (init_state admin 10000000000) (map (other_event exchange_tokens) evs_traded)) Panic = Ok RUnit /\
  nth 9 (answers (init_state admin 10000000000) evs_traded) Panic <> Err PoolNotFound /\
  nth 9 (answers (init_state admin 10000000000) (map (other_event exchange_tokens) evs_traded)) Panic = Err PoolNotFound.
Proof. split; [vm_compute; reflexivity|]. split; [vm_compute; discriminate|vm_compute; reflexivity]. Qed.

(** The traded history with the tokens at other addresses. *)
Definition farther (t : actor_id) : actor_id := 1000003 * t.
Definition went_well (a : res reply) : bool := match a with Ok _ => true | _ => false end.
Example C78_case : respects_order farther /\ farther tokA <> tokA /\ farther tokB <> tokB /\
  forallb went_well (answers (init_state admin 10000000000) (map (other_event farther) evs_traded)) = true.
Proof.
  split; [split; [unfold farther; lia|reflexivity]|]. split; [vm_compute; discriminate|]. split; [vm_compute; discriminate|]. vm_compute. reflexivity.
Qed.

(** ** Assumptions *)
Print Assumptions C78_tokens.
Print Assumptions C78_from_the_start.
Print Assumptions C78_queries.
Print Assumptions C78_order_matters.
