(** C76: all users are treated alike.

    [renamed], [rename_event], [rename_answer], [exchange], [own_the_same] and
    [ordinary] are defined in SpecAnon.v; [answers] and [run] in SpecIndep.v. *)
From Verif Require Import Base Decimal SqrtPriceM LogM ClammM FeeGrowthM Types TickmapM StorageM
  CollectionsM StateM ServiceM SpecMath SpecState SpecHistory SpecIndep SpecSale SpecAnon
  P_Clamm P_Effects P_State P_Positions P_History P_Inv P_InvHist P_Indep P_Anon Cases.
From stdpp Require Import gmap list.
From Coq Require Import ZArith Lia Bool.
Open Scope Z_scope.

(** Renaming the users of a history renames its outcome and changes nothing else. *)
Theorem C76_renaming f s s' evs : (forall u v, f u = f v -> u = v) -> renamed f s s' ->
  answers s' (map (rename_event f) evs) = map (rename_answer f) (answers s evs) /\
  renamed f (run s evs) (run s' (map (rename_event f) evs)).
Proof. intros I H. now apply run_ren. Qed.

(** A freshly deployed program knows nobody but its administrator. *)
Theorem C76_from_the_start f admin fee evs : (forall u v, f u = f v -> u = v) ->
  answers (init_state (f admin) fee) (map (rename_event f) evs) = map (rename_answer f) (answers (init_state admin fee) evs) /\
  renamed f (run (init_state admin fee) evs) (run (init_state (f admin) fee) (map (rename_event f) evs)).
Proof.
  intros I. apply run_ren; [exact I|]. constructor; cbn; auto; intros; symmetry; apply fmap_empty.
Qed.

Local Lemma mapM_ext {A B} (g h : A -> res B) l : (forall a, g a = h a) -> mapM_res g l = mapM_res h l.
Proof. intros E. induction l as [|a l IH]; cbn; [reflexivity|]. now rewrite E, IH. Qed.
Local Lemma push_ren f gs pos i : push_to_group (rename_groups f gs) pos i = option_map (rename_groups f) (push_to_group gs pos i).
Proof.
  unfold rename_groups. induction gs as [|[p [|[q j] ps]] gs IH]; cbn; [reflexivity|..].
  - rewrite IH. destruct (push_to_group gs pos i); reflexivity.
  - destruct (bool_decide _); [reflexivity|]. rewrite IH. destruct (push_to_group gs pos i); reflexivity.
Qed.

(** Every query answers alike. *)
Theorem C76_queries f s s' : (forall u v, f u = f v -> u = v) -> renamed f s s' ->
  (forall u, get_user_balances s' (f u) = get_user_balances s u) /\
  (forall u, get_user_position_amount s' (f u) = get_user_position_amount s u) /\
  (forall u i, get_position s' (f u) i = get_position s u i) /\
  (forall u, get_all_positions s' (f u) = get_all_positions s u) /\
  (forall u size offset, get_positions s' (f u) size offset =
     rename_result (fun r => (rename_groups f r.1, r.2)) (get_positions s u size offset)) /\
  (forall u i, get_position_with_associates s' (f u) i =
     rename_result (fun '(pos, p, lo, up) => (pos, rename_pool f p, lo, up)) (get_position_with_associates s u i)) /\
  (forall u offset, get_position_ticks s' (f u) offset = get_position_ticks s u offset) /\
  (forall e v k d a b l, quote (sent_by v e) s' k d a b l = quote e s k d a b l) /\
  (forall e v a h, quote_route (sent_by v e) s' a h = quote_route e s a h) /\
  (forall x y ft, get_pool s' x y ft = rename_result (rename_pool f) (get_pool s x y ft)) /\
  (forall x y, get_all_pools_for_pair s' x y =
     rename_result (map (fun r => (r.1, rename_pool f r.2))) (get_all_pools_for_pair s x y)) /\
  (forall size offset, get_pool_keys s' size offset = get_pool_keys s size offset) /\
  (forall k i, get_tick s' k i = get_tick s k i) /\
  (forall k, get_tickmap s' k = get_tickmap s k) /\
  (forall k l, get_liquidity_ticks s' k l = get_liquidity_ticks s k l) /\
  get_fee_tiers s' = get_fee_tiers s /\ get_protocol_fee s' = get_protocol_fee s.
Proof.
  intros I H. assert (PG : forall k, pools_get s' k = rename_result (rename_pool f) (pools_get s k)) by (intros k; exact (pools_get_ren f s s' H k)).
  split; [intros u; unfold get_user_balances; now rewrite (rn_balances _ _ _ H)|].
  split; [apply H|]. split; [intros u i; unfold get_position; now apply positions_get_ren|].
  split. { intros u. unfold get_all_positions, positions_get_all. rewrite (length_ren f s s' H). apply mapM_ext. intros i. now rewrite (rn_positions _ _ _ H). }
  split. { intros u size offset. unfold get_positions, positions_get_slice. rewrite (length_ren f s s' H).
    destruct (expect _) as [w| | |]; cbn [bind]; [|reflexivity..]. 
    erewrite (mapM_ext (fun i => expect (s_positions s' !! (f u, i)))); [|intros i; now rewrite (rn_positions _ _ _ H)].
    destruct (mapM_res _ _) as [l| | |]; cbn [bind]; [|reflexivity..].
    assert (E : forall l g i, foldM_res (fun (acc : list (pool * list (position * Z)) * Z) pos =>
                 let '(groups, i) := acc in
                 match push_to_group groups pos (offset + i) with
                 | Some groups' => Ok (groups', i + 1)
                 | None => let* p := pools_get s' (pos_pool_key pos) in
                           Ok (groups ++ [(p, [(pos, offset + i)])], i + 1)
                 end) l (rename_groups f g, i) = rename_result (fun r => (rename_groups f r.1, r.2))
               (foldM_res (fun (acc : list (pool * list (position * Z)) * Z) pos =>
                 let '(groups, i) := acc in
                 match push_to_group groups pos (offset + i) with
                 | Some groups' => Ok (groups', i + 1)
                 | None => let* p := pools_get s (pos_pool_key pos) in
                           Ok (groups ++ [(p, [(pos, offset + i)])], i + 1)
                 end) l (g, i))).
    { clear l. induction l as [|pos l IH]; intros g i; cbn [foldM_res]; [reflexivity|]. rewrite push_ren.
      destruct (push_to_group g pos (offset + i)) as [g'|]; cbn [option_map bind]; [apply IH|]. rewrite PG.
      destruct (pools_get s (pos_pool_key pos)) as [p| | |]; cbn [rename_result bind]; [|reflexivity..].
      rewrite <- IH. unfold rename_groups. now rewrite map_app. }
    specialize (E l [] 0). change (rename_groups f []) with (@nil (pool * list (position * Z))) in E. rewrite E.
    match goal with |- context [foldM_res ?F l ?A] => destruct (foldM_res F l A) as [[g n]| | |]; reflexivity end. }
  split. { intros u i. unfold get_position_with_associates. rewrite (positions_get_ren f s s' H).
    destruct (positions_get s u i) as [pos| | |]; cbn [bind]; [|reflexivity..]. rewrite PG, !(ticks_get_ren f s s' H).
    destruct (pools_get s _) as [p| | |]; cbn [bind rename_result]; [|reflexivity..].
    destruct (ticks_get s _ (pos_lower pos)); cbn [bind]; [|reflexivity..]. destruct (ticks_get s _ (pos_upper pos)); reflexivity. }
  split. { intros u offset. unfold get_position_ticks. rewrite (length_ren f s s' H). generalize (@nil position_tick).
    induction (range offset (positions_get_length s u)) as [|i is IH]; intros ts; cbn [position_ticks_loop]; [reflexivity|].
    rewrite (rn_positions _ _ _ H), (rn_ticks _ _ _ H). cbv zeta. destruct (_ <=? _); [reflexivity|]. apply IH. }
  split. { intros e v k d a b l. unfold quote. cbn [sent_by e_timestamp]. rewrite (calculate_swap_ren f s s' H).
    destruct (calculate_swap s _ _ _ _ _ _); reflexivity. }
  split. { intros e v a h. unfold quote_route. revert a. induction h as [|x h IH]; intros a; cbn [route_quote]; [reflexivity|].
    cbn [sent_by e_timestamp]. rewrite (calculate_swap_ren f s s' H). destruct (calculate_swap s _ _ _ _ _ _) as [r| | |]; cbn [bind rmap]; [|reflexivity..].
    apply IH. }
  split. { intros x y ft. unfold get_pool. destruct (pool_key_new x y ft); cbn [bind]; [apply PG|reflexivity..]. }
  split. { intros x y. unfold get_all_pools_for_pair. rewrite (rn_tiers _ _ _ H).
    assert (E : forall l acc, foldM_res (fun acc ft => let* k := pool_key_new x y ft in
               match pools_get s' k with Ok p => Ok (acc ++ [(ft, p)]) | _ => Ok acc end) l (map (fun r => (r.1, rename_pool f r.2)) acc)
             = rename_result (map (fun r => (r.1, rename_pool f r.2))) (foldM_res (fun acc ft => let* k := pool_key_new x y ft in
               match pools_get s k with Ok p => Ok (acc ++ [(ft, p)]) | _ => Ok acc end) l acc)).
    { induction l as [|ft l IH]; intros acc; cbn [foldM_res]; [reflexivity|]. destruct (pool_key_new x y ft) as [k| | |]; cbn [bind]; [|reflexivity..].
      rewrite PG. destruct (pools_get s k) as [p| | |]; cbn [rename_result bind]; try apply IH. rewrite <- IH. now rewrite map_app. }
    exact (E (s_fee_tiers s) []). }
  destruct (rn_keys _ _ _ H) as (K1 & K2 & K3).
  split. { intros size offset. unfold get_pool_keys, pool_keys_get_all. now rewrite K2, K3. }
  split; [intros k i; apply (ticks_get_ren f s s' H)|].
  split. { intros k. unfold get_tickmap, tickmap_slice. now rewrite (rn_bitmap _ _ _ H). }
  split. { intros k l. unfold get_liquidity_ticks. erewrite mapM_ext; [reflexivity|]. intros i. cbn. now rewrite (ticks_get_ren f s s' H). }
  split; apply H.
Qed.

Local Lemma exchange_inj u v a b : exchange u v a = exchange u v b -> a = b.
Proof. unfold exchange. destruct (Z.eqb_spec a u), (Z.eqb_spec b u), (Z.eqb_spec a v), (Z.eqb_spec b v); congruence. Qed.
Local Lemma exchange_other u v w : w <> u -> w <> v -> exchange u v w = w.
Proof. unfold exchange. intros. destruct (Z.eqb_spec w u), (Z.eqb_spec w v); congruence. Qed.
Local Lemma exchange_l u v : exchange u v u = v.
Proof. unfold exchange. now rewrite Z.eqb_refl. Qed.
Local Lemma set_same_receiver p : set_fee_receiver (p_fee_receiver p) p = p.
Proof. now destruct p. Qed.

Local Lemma mirror s u v : ordinary s u -> ordinary s v -> own_the_same s u v -> renamed (exchange u v) s s.
Proof.
  intros (A1 & A2 & A3) (B1 & B2 & B3) (C1 & C2 & C3).
  assert (X : forall w, exchange u v w = w \/ (w = u /\ exchange u v w = v) \/ (w = v /\ exchange u v w = u)).
  { intros w. unfold exchange. destruct (Z.eqb_spec w u) as [->|]; [auto|]. destruct (Z.eqb_spec w v) as [->|]; auto. }
  constructor; auto.
  - symmetry. apply exchange_other; congruence.
  - apply map_eq. intros k. rewrite lookup_fmap. destruct (s_pools s !! k) as [p|] eqn:E; [|reflexivity]. cbn. unfold rename_pool.
    rewrite exchange_other; [now rewrite set_same_receiver|..]; apply not_eq_sym; eauto.
  - intros w. destruct (X w) as [->|[[-> ->]|[-> ->]]]; auto.
  - intros w. destruct (X w) as [->|[[-> ->]|[-> ->]]]; auto.
  - intros w i. destruct (X w) as [->|[[-> ->]|[-> ->]]]; auto.
  - apply map_eq. intros k. rewrite lookup_fmap. destruct (s_awaiting s !! k) as [[ac am ty]|] eqn:E; [|reflexivity]. cbn. unfold rename_transfer. cbn.
    rewrite exchange_other; [reflexivity|..]; apply not_eq_sym; [exact (A3 _ _ E)|exact (B3 _ _ E)].
Qed.

(** Two users who own the same: whatever happens afterwards, exchanging their names
    in all later calls exchanges them in the outcome. *)
Theorem C76_same_treatment s u v evs : ordinary s u -> ordinary s v -> own_the_same s u v ->
  answers s (map (rename_event (exchange u v)) evs) = map (rename_answer (exchange u v)) (answers s evs) /\
  renamed (exchange u v) (run s evs) (run s (map (rename_event (exchange u v)) evs)).
Proof. intros A B C. apply run_ren; [apply exchange_inj|]. now apply mirror. Qed.

(** In particular they get the same answer to the same call, word for word. *)
Theorem C76_same_answer s u v e o : ordinary s u -> ordinary s v -> own_the_same s u v ->
  ~ names u o -> ~ names v o ->
  answer s (Call (sent_by v e) o) = answer s (Call (sent_by u e) o) /\
  (forall i, get_position (exec_event s (Call (sent_by v e) o)) v i = get_position (exec_event s (Call (sent_by u e) o)) u i) /\
  get_user_balances (exec_event s (Call (sent_by v e) o)) v = get_user_balances (exec_event s (Call (sent_by u e) o)) u.
Proof.
  intros A B C Nu Nv. pose proof (mirror s u v A B C) as M.
  destruct (step_ren (exchange u v) (exchange_inj u v) s s (Call (sent_by u e) o) M) as [E R].
  assert (RE : rename_event (exchange u v) (Call (sent_by u e) o) = Call (sent_by v e) o).
  { cbn [rename_event]. change (e_caller (sent_by u e)) with u. rewrite exchange_l. change (sent_by v (sent_by u e)) with (sent_by v e). f_equal.
    destruct o; cbn in *; auto; f_equal; apply exchange_other; auto. }
  rewrite RE in *. split; [|split].
  - rewrite E. destruct o; cbn [answer].
    9: { unfold told, swap. pose proof (calculate_swap_ren (exchange u v) s s M (e_timestamp (sent_by u e)) k x_to_y amount by_amount_in sqrt_price_limit) as CS.
         destruct (calculate_swap s _ _ _ _ _ _) as [r| | |]; cbn [bind]; [|reflexivity..]. cbn [rmap] in CS. injection CS as CS.
         destruct (foldM_res _ _ _); cbn [bind]; [|reflexivity..]. destruct (pools_update _ _ _); cbn [bind]; [|reflexivity..].
         destruct (if x_to_y then _ else _) as [ti to].
         destruct (decrease_token_balance _ _ _ _) as [[? ?]| | |]; cbn [bind]; [|reflexivity..].
         destruct (increase_token_balance _ _ _ _); cbn [bind]; [|reflexivity..]. cbn [rename_answer rename_reply]. now rewrite <- CS. }
    all: unfold told; match goal with |- context [bind ?r _] => destruct r as [[? ?]| | |]; reflexivity end.
  - intros i. pose proof (positions_get_ren _ _ _ R u i) as X. rewrite exchange_l in X. exact X.
  - unfold get_user_balances. pose proof (rn_balances _ _ _ R u) as X. rewrite exchange_l in X. now rewrite X.
Qed.

(** The offices do make a difference: the administrator may do what others may not. *)
Theorem C76_offices_matter :
  exists evs s u v e o, history room evs s /\ own_the_same s u v /\ ordinary s v /\
    answer s (Call (sent_by v e) o) <> answer s (Call (sent_by u e) o).
Proof.
  exists [], (init_state admin 0), admin, alice, (by_ alice), (OpAddFeeTier tier1).
  split; [constructor; unfold u128; lia|]. split; [repeat split|]. split; [split; [discriminate|split; intros ? ? X; cbn in X; rewrite lookup_empty in X; discriminate X]|].
  cbn. discriminate.
Qed.

(** Dave and Eve put in the same and open the same position; Carol trades, and both
    would be paid the same fees. *)
Definition dave := 21.
Definition eve := 22.
Definition evs_twins : list event := setup ++ positions3 ++ [
  Credit dave tokA 500000; Credit dave tokB 500000; Credit eve tokA 500000; Credit eve tokB 500000;
  Call (by_ dave) (OpCreatePosition pool1 (-10) 10 400000000000 0 any_price);
  Call (by_ eve) (OpCreatePosition pool1 (-10) 10 400000000000 0 any_price) ] ++ swaps.
Definition s_twins : state := run_events admin 10000000000 evs_twins.
Lemma s_twins_history : history anything evs_twins s_twins.
Proof. apply run_events_history; [unfold u128; lia|]. unfold evs_twins, setup, positions3, swaps. wf_events. Qed.
Definition paid_to (a : res reply) : Z := match a with Ok (RAmounts x y) => x + y | _ => 0 end.
Local Lemma one_each s u v : dense s -> get_user_position_amount s u = 1 -> get_user_position_amount s v = 1 ->
  s_positions s !! (u, 0) = s_positions s !! (v, 0) -> forall i, s_positions s !! (u, i) = s_positions s !! (v, i).
Proof.
  unfold get_user_position_amount. intros D Lu Lv E i. destruct (decide (i = 0)) as [->|N]; [exact E|].
  assert (NO : forall w, positions_get_length s w = 1 -> s_positions s !! (w, i) = None).
  { intros w Lw. destruct (s_positions s !! (w, i)) eqn:X; [|reflexivity].
    assert (Y : is_Some (s_positions s !! (w, i))) by (rewrite X; eauto). apply (proj2 (D w)) in Y. lia. }
  rewrite !NO by auto. reflexivity.
Qed.
Local Lemma ordinary_if s u a : s_admin s = a -> bool_decide (map_Forall (fun _ p => p_fee_receiver p = a) (s_pools s)) = true ->
  s_awaiting s = ∅ -> u <> a -> ordinary s u.
Proof.
  intros E0 F E1 Hu. apply bool_decide_eq_true in F. split; [congruence|]. split.
  - intros k p E. rewrite (F _ _ E). exact Hu.
  - intros m x X. rewrite E1, lookup_empty in X. discriminate X.
Qed.
Example C76_case :
  history room evs_twins s_twins /\ ordinary s_twins dave /\ ordinary s_twins eve /\ own_the_same s_twins dave eve /\
  get_user_position_amount s_twins dave = 1 /\
  0 < paid_to (answer s_twins (Call (by_ dave) (OpClaimFee 0))) /\
  paid_to (answer s_twins (Call (by_ dave) (OpClaimFee 0))) = paid_to (answer s_twins (Call (by_ eve) (OpClaimFee 0))) /\
  renamed (Z.add 1000) (init_state admin 10000000000) (init_state (1000 + admin) 10000000000) /\
  forallb is_Ok (answers (init_state (1000 + admin) 10000000000) (map (rename_event (Z.add 1000)) evs_twins)) = true.
Proof.
  assert (HR : history room evs_twins s_twins) by (apply history_room; [apply s_twins_history|reflexivity]).
  split; [exact HR|].
  split; [apply (ordinary_if _ _ admin); [vm_compute; reflexivity..|discriminate]|].
  split; [apply (ordinary_if _ _ admin); [vm_compute; reflexivity..|discriminate]|].
  split; [split; [vm_compute; reflexivity|split; [vm_compute; reflexivity|]]|].
  { refine (one_each s_twins dave eve _ _ _ _); [|vm_compute; reflexivity..].
    eapply (dense_history room); [|exact HR]; auto. }
  split; [vm_compute; reflexivity|]. split; [vm_compute; reflexivity|]. split; [vm_compute; reflexivity|].
  split; [|vm_compute; reflexivity]. constructor; cbn; auto; intros; symmetry; apply fmap_empty.
Qed.

(** ** Assumptions *)
Print Assumptions C76_renaming.
Print Assumptions C76_from_the_start.
Print Assumptions C76_queries.
Print Assumptions C76_same_treatment.
Print Assumptions C76_same_answer.
Print Assumptions C76_offices_matter.
