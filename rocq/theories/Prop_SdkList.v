(** C59: what the SDK's listings of pools and positions contain. *)
From Verif Require Import Base Decimal Types TickmapM StorageM CollectionsM StateM ServiceM SdkListM SpecHistory SpecState P_History P_State P_Inv
  P_Positions P_Effects P_Queries Cases CasesClean Prop_State Prop_Queries.
From stdpp Require Import gmap list sorting.
From Coq Require Import ZArith Lia Bool.
Open Scope Z_scope.

(** ** Lists *)

Lemma insert_perm {A} (e : A * Z) l : insert_by_index e l ≡ₚ e :: l.
Proof.
  induction l as [|e' l IH]; cbn [insert_by_index]; [reflexivity|]. destruct (_ <=? _); [reflexivity|].
  rewrite IH. apply Permutation_swap.
Qed.
Lemma sort_perm {A} (l : list (A * Z)) : sort_by_index l ≡ₚ l.
Proof. induction l as [|e l IH]; cbn; [reflexivity|]. rewrite insert_perm. fold (sort_by_index l). rewrite IH. reflexivity. Qed.

Definition below {A} (e e' : A * Z) : Prop := snd e <= snd e'.
Lemma insert_sorted {A} (e : A * Z) l : StronglySorted below l -> StronglySorted below (insert_by_index e l).
Proof.
  induction 1 as [|e' l S IH F]; cbn [insert_by_index]; [repeat constructor|].
  destruct (Z.leb_spec (snd e) (snd e')).
  - constructor; [constructor; auto|]. constructor; [exact H|]. eapply Forall_impl; [exact F|]. unfold below. intros; lia.
  - constructor; [auto|]. rewrite (insert_perm e l). constructor; [unfold below; lia|auto].
Qed.
Lemma sort_sorted {A} (l : list (A * Z)) : StronglySorted below (sort_by_index l).
Proof. induction l as [|e l IH]; cbn; [constructor|]. apply insert_sorted, IH. Qed.

Lemma sorted_same {A} (l1 : list (A * Z)) : forall l2, StronglySorted below l1 -> StronglySorted below l2 ->
  NoDup (map snd l1) -> l1 ≡ₚ l2 -> l1 = l2.
Proof.
  induction l1 as [|e1 l1 IH]; intros l2 S1 S2 N P.
  - apply Permutation_nil_l in P. congruence.
  - destruct l2 as [|e2 l2]; [symmetry in P; apply Permutation_nil_l in P; discriminate|].
    inversion S1 as [|? ? S1' F1]; subst. inversion S2 as [|? ? S2' F2]; subst.
    assert (E : e1 = e2).
    { assert (H1 : e1 ∈ e2 :: l2) by (rewrite <- P; left). assert (H2 : e2 ∈ e1 :: l1) by (rewrite P; left).
      apply elem_of_cons in H1 as [|H1]; [auto|]. apply elem_of_cons in H2 as [|H2]; [auto|].
      rewrite Forall_forall in F1, F2. specialize (F1 _ H2). specialize (F2 _ H1). unfold below in *.
      cbn [map] in N. apply NoDup_cons in N as [N _]. destruct N.
      replace (snd e1) with (snd e2) by lia. apply (elem_of_list_fmap_1 snd). exact H2. }
    subst e2. f_equal. apply IH; auto.
    + cbn [map] in N. apply NoDup_cons in N. tauto.
    + eapply Permutation_cons_inv; eauto.
Qed.

Lemma pages_concat {A} (l : list A) (n m : nat) :
  concat (map (fun i => take n (drop (i * n) l)) (seq 0 m)) = take (m * n) l.
Proof.
  induction m as [|m IH]; [reflexivity|]. rewrite seq_S, map_app, concat_app, IH. cbn [map concat Nat.add].
  rewrite app_nil_r. replace (S m * n)%nat with (m * n + n)%nat by lia. apply take_take_drop.
Qed.
Lemma range_seq m : 0 <= m -> range 0 m = map Z.of_nat (seq 0 (Z.to_nat m)).
Proof.
  intros H. apply list_eq. intros j. rewrite range_lookup, list_lookup_fmap.
  destruct (Z.ltb_spec (Z.of_nat j) (m - 0)).
  - rewrite lookup_seq_lt by lia. cbn. f_equal.
  - rewrite lookup_seq_ge by lia. reflexivity.
Qed.
Lemma range_cons lo hi : lo < hi -> range lo hi = lo :: range (lo + 1) hi.
Proof. intros H. unfold range. rewrite seqZ_cons by lia. f_equal. f_equal; lia. Qed.
Lemma page_count_spec a b : 0 <= a -> 0 < b -> a <= page_count a b * b < a + b.
Proof.
  intros Ha Hb. unfold page_count. pose proof (Z.div_mod (a + b - 1) b ltac:(lia)).
  pose proof (Z.mod_pos_bound (a + b - 1) b Hb). lia.
Qed.
Lemma page_count_nonneg a b : 0 <= a -> 0 < b -> 0 <= page_count a b.
Proof. intros. apply Z.div_pos; lia. Qed.

Lemma mapM_res_map {A B} (f : A -> res B) (g : A -> B) l :
  (forall a, a ∈ l -> f a = Ok (g a)) -> mapM_res f l = Ok (map g l).
Proof.
  induction l as [|a l IH]; intros H; [reflexivity|]. cbn [mapM_res map]. rewrite (H a) by left. cbn [bind].
  rewrite IH by (intros; apply H; right; auto). reflexivity.
Qed.

(** ** Pools *)

(** With at most 57540 pools the list is complete, without duplicates, in the order of the contract. *)
Theorem C59_pool_keys evs s : history pool_room evs s ->
  exists ks, NoDup ks /\ (forall k, k ∈ ks <-> exists p, pools_get s k = Ok p) /\
    get_pool_keys s 65535 0 = Ok (ks, Z.of_nat (length ks)) /\
    (Z.of_nat (length ks) <= 57540 -> sdk_get_all_pool_keys s = Ok ks).
Proof.
  intros H. destruct (listed_history evs s H) as (ks0 & HL0). destruct (C17_listing evs s H) as (ks & H1 & H2 & H3).
  exists ks. split; [auto|]. split; [auto|].
  assert (E0 : get_pool_keys s 65535 0 = Ok (ks, Z.of_nat (length ks))).
  { rewrite H3 by lia. rewrite drop_0, take_ge; [reflexivity|].
    assert (X : (length ks <= length ks0)%nat).
    { apply submseteq_length, NoDup_submseteq; [auto|]. intros k Hk. apply H2 in Hk as [p Hp]. apply pools_get_Ok in Hp.
      destruct HL0 as (_ & _ & _ & HL0 & _). apply HL0. eauto. }
    destruct HL0 as (_ & _ & HL0 & _). change M16 with (2 ^ 16) in HL0. lia. }
  split; [exact E0|]. intros HN. unfold sdk_get_all_pool_keys, MAX_POOL_KEYS_RETURNED.
  rewrite H3 by lia. cbn [bind]. set (c := Z.of_nat (length ks)) in *.
  pose proof (page_count_spec c 9590 ltac:(lia) ltac:(lia)) as PC.
  pose proof (page_count_nonneg c 9590 ltac:(lia) ltac:(lia)) as PN.
  set (m := page_count c 9590) in *. clearbody m.
  rewrite (mapM_res_map _ (fun i => (take (Z.to_nat 9590) (drop (Z.to_nat (i * 9590)) ks), c))).
  2: { intros i Hi. unfold range in Hi. apply elem_of_seqZ in Hi. rewrite H3 by lia. reflexivity. }
  cbn [bind]. rewrite map_map. cbn [fst]. f_equal.
  destruct (Z.eq_dec m 0) as [->|Hm].
  - change (range 1 0) with (@nil Z). cbn [map concat]. rewrite app_nil_r, drop_0. apply take_ge. lia.
  - set (f := fun i => take (Z.to_nat 9590) (drop (Z.to_nat (i * 9590)) ks)).
    change (take (Z.to_nat 9590) (drop (Z.to_nat 0) ks)) with (f 0).
    change (f 0 ++ concat (map f (range 1 m))) with (concat (map f (0 :: range (0 + 1) m))).
    rewrite <- (range_cons 0 m) by lia. rewrite range_seq, map_map by lia.
    rewrite (map_ext _ (fun i : nat => take (Z.to_nat 9590) (drop (i * Z.to_nat 9590) ks))).
    2: { intros i. unfold f. do 2 f_equal. lia. }
    rewrite pages_concat. apply take_ge. lia.
Qed.

(** With more, a page ends beyond the 16-bit numbers and the query for it is trapped. *)
Lemma too_many_pools s ks : 57540 < s_pool_keys_length s -> sdk_get_all_pool_keys s <> Ok ks.
Proof.
  intros H E. unfold sdk_get_all_pool_keys in E. destruct (get_pool_keys s _ 0) as [[l c]| | |] eqn:E0; cbn [bind] in E; try discriminate.
  assert (c = s_pool_keys_length s) as ->.
  { unfold get_pool_keys in E0. destruct (pool_keys_get_all s _ 0); cbn [bind] in E0; congruence. }
  destruct (mapM_res _ _) as [r| | |] eqn:EM; cbn [bind] in E; try discriminate.
  apply mapM_res_inv in EM as [HL Hlk].
  pose proof (page_count_spec (s_pool_keys_length s) 9590 ltac:(lia) ltac:(lia)) as PC.
  unfold MAX_POOL_KEYS_RETURNED in *. set (m := page_count (s_pool_keys_length s) 9590) in *. clearbody m.
  assert (H5 : range 1 m !! 5%nat = Some 6).
  { rewrite range_lookup. destruct (Z.ltb_spec (Z.of_nat 5) (m - 1)); [reflexivity|lia]. }
  destruct (lookup_lt_is_Some_2 r 5) as [x Hx]. { rewrite HL. apply lookup_lt_Some in H5. exact H5. }
  apply Hlk in Hx as (i & Hi & Hx). rewrite H5 in Hi. injection Hi as <-.
  unfold get_pool_keys, pool_keys_get_all in Hx. discriminate Hx.
Qed.
Theorem C59_many_pools_refuted : exists evs s,
  history anything evs s /\
  (forall i, 1 <= i <= 57541 -> exists p, get_pool s 0 i many_tier = Ok p) /\
  (forall ks, sdk_get_all_pool_keys s <> Ok ks).
Proof.
  destruct (many_pools (Z.to_nat 57541)) as (evs & s & H & _ & HL & HP & _).
  exists evs, s. split; [auto|]. split.
  - intros i Hi. destruct (HP i) as [_ [p E]]; [lia|]. exists p. unfold get_pool.
    assert (EK : pool_key_new 0 i many_tier = Ok (many_key i)) by (apply (pool_key_new_self (many_key i)); cbn; lia).
    rewrite EK. cbn [bind]. apply pools_get_Ok. exact E.
  - intros ks. apply too_many_pools. rewrite HL, Z2Nat.id by lia. reflexivity.
Qed.

(** ** Positions *)

(** An entry is a position with the current data of its pool. *)
Definition paired (s : state) (entry : position * pool) (pos : position) : Prop :=
  fst entry = pos /\ pools_get s (pos_pool_key pos) = Ok (snd entry).

Definition nopool : pool := mkPool 0 0 0 0 0 0 0 0 0 0.
Definition pool_at (s : state) (k : pool_key) : pool := default nopool (s_pools s !! k).

Lemma flat_groups s groups keys :
  Forall2 (fun g k => pools_get s k = Ok (fst g) /\ snd g <> [] /\
                      Forall (fun e : position * Z => pos_pool_key (fst e) = k) (snd g)) groups keys ->
  concat (map (fun '(p, entries) => map (fun '(pos, i) => (pos, p, i)) entries) groups)
  = map (fun '(pos, i) => (pos, pool_at s (pos_pool_key pos), i)) (concat (map snd groups)).
Proof.
  induction 1 as [|[p es] k groups keys (Hp & _ & F) _ IH]; [reflexivity|]. cbn [map concat fst snd] in *.
  rewrite map_app, IH. f_equal. apply pools_get_Ok in Hp.
  clear IH. induction F as [|[pos i] es E F IH]; [reflexivity|]. cbn [map fst] in *. rewrite IH. do 2 f_equal.
  unfold pool_at. rewrite E, Hp. reflexivity.
Qed.

Theorem C59_position_page evs s owner size offset : history room evs s ->
  0 <= offset -> 0 <= size -> offset + size < 2 ^ 32 ->
  exists l es, get_all_positions s owner = Ok l /\
    sdk_get_positions s owner size offset = Ok (es, Z.of_nat (length l)) /\
    Forall2 (paired s) es (take (Z.to_nat size) (drop (Z.to_nat offset) l)).
Proof.
  intros H Ho Hs Hm. destruct (C36_positions_listing evs s owner size offset H Ho Hs Hm) as (l & gs & ks & E1 & E2 & P & _ & F).
  cbv zeta in P. set (page := take (Z.to_nat size) (drop (Z.to_nat offset) l)) in *.
  apply room_facts in H as (I & _ & _). destruct (dense_lists s owner (P_Inv.I_dense _ I)) as (l' & E1' & HL & Hlk).
  assert (l' = l) by congruence. subst l'.
  set (g := fun '(pos, i) => (pos, pool_at s (pos_pool_key pos), i) : position * pool * Z).
  exists l, (map (fun pos => (pos, pool_at s (pos_pool_key pos))) page). split; [exact E1|]. split.
  - unfold sdk_get_positions. rewrite E2. cbn [bind]. rewrite (flat_groups _ _ _ F). fold g. do 2 f_equal.
    replace (sort_by_index (map g (concat (map snd gs)))) with (map g (zip page (seqZ offset (Z.of_nat (length page))))).
    + rewrite map_map. transitivity (map (fun pos => (pos, pool_at s (pos_pool_key pos))) (map fst (zip page (seqZ offset (Z.of_nat (length page)))))).
      * rewrite map_map. apply map_ext. intros [pos i]. reflexivity.
      * f_equal. apply fst_zip. rewrite seqZ_length. lia.
    + apply sorted_same.
      * clear. generalize offset. induction page as [|pos page IH]; intros o; [constructor|].
        cbn [length]. rewrite Nat2Z.inj_succ, seqZ_cons by lia. cbn [zip zip_with map]. rewrite Z.pred_succ.
        constructor; [apply IH|]. apply Forall_forall. intros e He. apply elem_of_list_fmap in He as ([q i] & -> & He).
        apply elem_of_zip_r in He. apply elem_of_seqZ in He. unfold below. cbn. lia.
      * apply sort_sorted.
      * rewrite map_map. rewrite (map_ext _ snd) by (intros [pos i]; reflexivity).
        change (NoDup ((zip page (seqZ offset (Z.of_nat (length page)))).*2)).
        rewrite snd_zip by (rewrite seqZ_length; lia). apply NoDup_seqZ.
      * rewrite sort_perm. apply Permutation_map. symmetry. exact P.
  - apply Forall2_fmap_l, Forall_Forall2_diag. apply Forall_forall. intros pos Hpos. split; [reflexivity|]. cbn.
    apply elem_of_list_lookup in Hpos as [j Hj]. unfold page in Hj.
    apply lookup_take_Some in Hj as [Hj _]. rewrite lookup_drop in Hj.
    assert (HP : s_positions s !! (owner, Z.of_nat (Z.to_nat offset + j)) = Some pos).
    { apply Hlk. split; [lia|]. rewrite Nat2Z.id. exact Hj. }
    destruct (P_Inv.so_pool _ _ (P_Inv.I_pos _ I _ _ _ HP)) as [p Hp].
    unfold pool_at. rewrite Hp. apply pools_get_Ok. exact Hp.
Qed.

(** The page with a given number: the positions from [i * n] to [(i + 1) * n - 1], with their pools. *)
Definition page_of (s : state) (n : Z) (l : list position) (page : Z * list (position * pool)) : Prop :=
  Forall2 (paired s) (snd page) (take (Z.to_nat n) (drop (Z.to_nat (fst page * n)) l)).

Lemma first_zero skip : find (fun i => negb (existsb (Z.eqb i) skip)) skip = None.
Proof.
  destruct (find _ skip) as [i|] eqn:E; [|reflexivity]. apply find_some in E as [Hi E].
  apply negb_true_iff in E. rewrite existsb_false in E || idtac.
  assert (X : existsb (Z.eqb i) skip = true) by (apply existsb_exists; exists i; split; [auto|apply Z.eqb_refl]). congruence.
Qed.

Definition wanted (skip : list Z) (i : Z) : bool := negb (existsb (Z.eqb i) skip).
Lemma wanted_spec skip i : wanted skip i = true <-> i ∉ skip.
Proof.
  unfold wanted. rewrite negb_true_iff. split.
  - intros E Hi. assert (X : existsb (Z.eqb i) skip = true); [|congruence].
    apply existsb_exists. exists i. split; [apply elem_of_list_In; auto|apply Z.eqb_refl].
  - intros Hi. destruct (existsb _ _) eqn:E; [|reflexivity]. apply existsb_exists in E as (j & Hj & Ej).
    apply Z.eqb_eq in Ej. subst j. apply elem_of_list_In in Hj. contradiction.
Qed.
Lemma range_sorted lo hi : StronglySorted Z.lt (range lo hi).
Proof.
  unfold range. generalize (hi - lo). intros n. destruct (Z.le_gt_cases n 0).
  { rewrite seqZ_nil by lia. constructor. }
  rewrite <- (Z2Nat.id n) by lia. generalize (Z.to_nat n). clear. intros n. revert lo.
  induction n as [|n IH]; intros lo; [constructor|]. rewrite seqZ_cons by lia.
  replace (Z.pred (Z.of_nat (S n))) with (Z.of_nat n) by lia. constructor; [apply IH|].
  apply Forall_forall. intros i Hi. apply elem_of_seqZ in Hi. lia.
Qed.
Lemma filter_sorted (f : Z -> bool) l : StronglySorted Z.lt l -> StronglySorted Z.lt (List.filter f l).
Proof.
  induction 1 as [|i l S IH F]; [constructor|]. cbn. destruct (f i); [|auto]. constructor; [auto|].
  apply Forall_forall. intros j Hj. apply elem_of_list_In, filter_In in Hj as [Hj _]. apply elem_of_list_In in Hj.
  rewrite Forall_forall in F. auto.
Qed.
Lemma indexes_spec skip lo a n i : 0 < n -> 0 <= a -> 0 <= lo ->
  i ∈ List.filter (wanted skip) (range lo (page_count a n)) <-> lo <= i /\ i * n < a /\ i ∉ skip.
Proof.
  intros Hn Ha Hlo. rewrite elem_of_list_In, filter_In, <- elem_of_list_In, wanted_spec.
  unfold range. rewrite elem_of_seqZ. pose proof (page_count_spec a n Ha Hn). split.
  - intros [Hi Hs]. split; [lia|]. split; [|auto]. assert (i + 1 <= page_count a n) by lia.
    assert ((i + 1) * n <= page_count a n * n) by (apply Z.mul_le_mono_nonneg_r; lia). lia.
  - intros (H1 & H2 & H3). split; [|auto]. split; [lia|].
    destruct (Z.le_gt_cases (page_count a n) i) as [C|C]; [|lia].
    assert (page_count a n * n <= i * n) by (apply Z.mul_le_mono_nonneg_r; lia). lia.
Qed.

Lemma pages_read evs s owner n l idx : history room evs s -> get_all_positions s owner = Ok l -> 0 <= n ->
  (forall i, i ∈ idx -> 0 <= i /\ i * n + n < 2 ^ 32) ->
  exists r, mapM_res (fun i => sdk_get_positions s owner n (i * n)) idx = Ok r /\ length r = length idx /\
    Forall (page_of s n l) (zip idx (map fst r)).
Proof.
  intros H El Hn. induction idx as [|i idx IH]; intros HI.
  - exists []. repeat split; constructor.
  - destruct IH as (r & Er & HLr & F). { intros; apply HI; right; auto. }
    destruct (HI i) as [Hi Hb]; [left|].
    destruct (C59_position_page evs s owner n (i * n) H) as (l' & es & E1 & E2 & F2); try lia.
    assert (l' = l) by congruence. subst l'.
    exists ((es, Z.of_nat (length l)) :: r). cbn [mapM_res]. rewrite E2, Er. cbn. split; [reflexivity|]. split; [lia|].
    constructor; [exact F2|exact F].
Qed.

(** Without a count the first page is asked for first, and tells how many positions there are. *)
Theorem C59_all_positions evs s owner skip n : history room evs s -> 0 < n < 2 ^ 32 ->
  exists l, get_all_positions s owner = Ok l /\
    (Z.of_nat (length l) + n <= 2 ^ 32 ->
     exists pages, sdk_get_all_positions s owner None skip (Some n) = Ok pages /\
       StronglySorted Z.lt (map fst pages) /\
       (forall i, i ∈ map fst pages <-> i = 0 \/ (0 < i /\ i * n < Z.of_nat (length l) /\ i ∉ skip)) /\
       Forall (page_of s n l) pages).
Proof.
  intros H Hn. pose proof H as H'. apply room_facts in H' as (I & _ & _).
  destruct (dense_lists s owner (P_Inv.I_dense _ I)) as (l & El & _). exists l. split; [exact El|]. intros HB.
  destruct (C59_position_page evs s owner n 0 H) as (l' & es & E1 & E2 & F2); try lia.
  assert (l' = l) by congruence. subst l'.
  unfold sdk_get_all_positions. rewrite first_zero. cbn [default]. unfold given. destruct (Z.eqb_spec n 0); [lia|].
  cbn [default from_option id]. rewrite Z.mul_0_l, E2. cbn [bind].
  set (c := Z.of_nat (length l)) in *.
  change (fun i : Z => negb (existsb (Z.eqb i) skip)) with (wanted skip).
  change (0 + 1) with 1.
  set (idx := List.filter (wanted skip) (range 1 (page_count c n))).
  assert (HI : forall i, i ∈ idx <-> 1 <= i /\ i * n < c /\ i ∉ skip) by (intros; apply indexes_spec; lia).
  destruct (pages_read evs s owner n l idx H El ltac:(lia)) as (r & Er & HLr & F).
  { intros i Hi. apply HI in Hi as (? & ? & _). lia. }
  rewrite Er. cbn [bind]. eexists. split; [reflexivity|].
  assert (EF : map fst ([(0, es)] ++ zip idx (map fst r)) = 0 :: idx).
  { cbn. f_equal. change (map fst (zip idx (map fst r))) with ((zip idx (map fst r)).*1). apply fst_zip. rewrite map_length. lia. }
  rewrite EF. split; [|split].
  - constructor; [apply filter_sorted, range_sorted|]. apply Forall_forall. intros i Hi. apply HI in Hi. lia.
  - intros i. rewrite elem_of_cons, HI. split; intros [?|?]; auto; right; intuition lia.
  - constructor; [|exact F]. unfold page_of. cbn [fst snd]. rewrite Z.mul_0_l. exact F2.
Qed.

(** With a count only the pages that are not skipped are asked for. *)
Theorem C59_counted_positions evs s owner skip n c : history room evs s -> 0 < n -> 0 < c -> c + n <= 2 ^ 32 ->
  exists l pages, get_all_positions s owner = Ok l /\
    sdk_get_all_positions s owner (Some c) skip (Some n) = Ok pages /\
    StronglySorted Z.lt (map fst pages) /\
    (forall i, i ∈ map fst pages <-> 0 <= i /\ i * n < c /\ i ∉ skip) /\
    Forall (page_of s n l) pages.
Proof.
  intros H Hn Hc HB. pose proof H as H'. apply room_facts in H' as (I & _ & _).
  destruct (dense_lists s owner (P_Inv.I_dense _ I)) as (l & El & _). exists l.
  unfold sdk_get_all_positions. rewrite first_zero. cbn [default]. unfold given.
  destruct (Z.eqb_spec n 0); [lia|]. destruct (Z.eqb_spec c 0); [lia|].
  cbn [default from_option id bind].
  change (fun i : Z => negb (existsb (Z.eqb i) skip)) with (wanted skip).
  set (idx := List.filter (wanted skip) (range 0 (page_count c n))).
  assert (HI : forall i, i ∈ idx <-> 0 <= i /\ i * n < c /\ i ∉ skip) by (intros; apply indexes_spec; lia).
  destruct (pages_read evs s owner n l idx H El ltac:(lia)) as (r & Er & HLr & F).
  { intros i Hi. apply HI in Hi as (? & ? & _). lia. }
  rewrite Er. cbn [bind app]. eexists. split; [exact El|]. split; [reflexivity|].
  assert (EF : map fst (zip idx (map fst r)) = idx).
  { change (map fst (zip idx (map fst r))) with ((zip idx (map fst r)).*1). apply fst_zip. rewrite map_length. lia. }
  rewrite EF. split; [apply filter_sorted, range_sorted|]. split; [exact HI|exact F].
Qed.

Lemma sorted_lt_same (l1 : list Z) : forall l2, StronglySorted Z.lt l1 -> StronglySorted Z.lt l2 ->
  (forall i, i ∈ l1 <-> i ∈ l2) -> l1 = l2.
Proof.
  induction l1 as [|a l1 IH]; intros l2 S1 S2 E.
  - destruct l2 as [|b l2]; [reflexivity|]. assert (X : b ∈ @nil Z) by (apply E; left). inversion X.
  - destruct l2 as [|b l2]. { assert (X : a ∈ @nil Z) by (apply E; left). inversion X. }
    inversion S1 as [|? ? S1' F1]; subst. inversion S2 as [|? ? S2' F2]; subst. rewrite Forall_forall in F1, F2.
    assert (a = b).
    { assert (Ha : a ∈ b :: l2) by (apply E; left). assert (Hb : b ∈ a :: l1) by (apply E; left).
      apply elem_of_cons in Ha as [|Ha]; [auto|]. apply elem_of_cons in Hb as [|Hb]; [auto|].
      specialize (F1 _ Hb). specialize (F2 _ Ha). lia. }
    subst b. f_equal. apply IH; auto. intros i. split; intros Hi.
    + assert (X : i ∈ a :: l2) by (apply E; right; auto). apply elem_of_cons in X as [->|X]; [|auto]. specialize (F1 _ Hi). lia.
    + assert (X : i ∈ a :: l1) by (apply E; right; auto). apply elem_of_cons in X as [->|X]; [|auto]. specialize (F2 _ Hi). lia.
Qed.
Lemma pages_of_concat s n l pages :
  Forall (page_of s n l) pages ->
  Forall2 (paired s) (concat (map snd pages))
    (concat (map (fun i => take (Z.to_nat n) (drop (Z.to_nat (i * n)) l)) (map fst pages))).
Proof. induction 1 as [|pg pages H _ IH]; cbn; [constructor|]. apply Forall2_app; [exact H|exact IH]. Qed.

(** Nothing skipped: every position of the owner, once, in order. *)
Theorem C59_every_position evs s owner n : history room evs s -> 0 < n < 2 ^ 32 ->
  exists l, get_all_positions s owner = Ok l /\
    (Z.of_nat (length l) + n <= 2 ^ 32 ->
     exists pages, sdk_get_all_positions s owner None [] (Some n) = Ok pages /\
       Forall2 (paired s) (concat (map snd pages)) l).
Proof.
  intros H Hn. destruct (C59_all_positions evs s owner [] n H Hn) as (l & El & HP). exists l. split; [exact El|].
  intros HB. destruct (HP HB) as (pages & E & S & HI & F). exists pages. split; [exact E|].
  pose proof (pages_of_concat s n l pages F) as R.
  set (c := Z.of_nat (length l)) in *. set (m := Z.max 1 (page_count c n)).
  pose proof (page_count_spec c n ltac:(lia) ltac:(lia)) as PC.
  assert (EI : map fst pages = range 0 m).
  { apply sorted_lt_same; [auto|apply range_sorted|]. intros i. rewrite HI. unfold range. rewrite elem_of_seqZ.
    pose proof (indexes_spec [] 1 c n i ltac:(lia) ltac:(lia) ltac:(lia)) as X.
    assert (EX : List.filter (wanted []) (range 1 (page_count c n)) = range 1 (page_count c n)).
    { generalize (range 1 (page_count c n)). induction l0; cbn; congruence. }
    rewrite EX in X. unfold range in X. rewrite elem_of_seqZ in X. split.
    - intros [->|(Y1 & Y2 & Y3)]; [lia|]. assert (1 <= i < 1 + (page_count c n - 1)) by (apply X; auto with lia). lia.
    - intros Y. destruct (Z.eq_dec i 0); [auto|]. right. apply proj1 in X. destruct X as (X1 & X2 & X3); [lia|]. split; [lia|auto]. }
  rewrite EI, range_seq, map_map in R by lia.
  rewrite (map_ext _ (fun i : nat => take (Z.to_nat n) (drop (i * Z.to_nat n) l))) in R.
  2: { intros i. do 2 f_equal. lia. }
  rewrite pages_concat, take_ge in R; [exact R|].
  assert (c <= m * n). { assert (page_count c n * n <= m * n) by (apply Z.mul_le_mono_nonneg_r; lia). lia. }
  rewrite <- Z2Nat.inj_mul by lia. lia.
Qed.
(** The page size is 1800 if it is not given, and a size or a count of zero counts as not given. *)
Theorem C59_default_size s owner count skip :
  sdk_get_all_positions s owner count skip None = sdk_get_all_positions s owner count skip (Some 1800) /\
  sdk_get_all_positions s owner count skip (Some 0) = sdk_get_all_positions s owner count skip (Some 1800) /\
  forall per_page, sdk_get_all_positions s owner (Some 0) skip per_page = sdk_get_all_positions s owner None skip per_page.
Proof. auto. Qed.

(** The first page is returned even if it is to be skipped. *)
Definition page_indexes (r : res (list (Z * list (position * pool)))) : option (list (Z * list Z)) :=
  match r with Ok pages => Some (map (fun '(i, es) => (i, map (fun e => pos_lower (fst e)) es)) pages) | _ => None end.
Theorem C59_skipped_page_refuted : exists evs s,
  history room evs s /\
  exists l pages entries, get_all_positions s alice = Ok l /\ l <> [] /\
    sdk_get_all_positions s alice None [0] (Some 2) = Ok pages /\
    (0, entries) ∈ pages /\ entries <> [].
Proof.
  exists listing_events, s_listing. split; [exact s_listing_room|].
  destruct (C59_all_positions listing_events s_listing alice [0] 2 s_listing_room ltac:(lia)) as (l & El & HP).
  assert (HL : length l = 3%nat).
  { assert (X : match get_all_positions s_listing alice with Ok l => length l | _ => 0%nat end = 3%nat) by (vm_compute; reflexivity).
    rewrite El in X. exact X. }
  destruct HP as (pages & E & _ & HI & F); [lia|].
  assert (H0 : 0 ∈ map fst pages) by (apply HI; auto).
  apply (elem_of_list_fmap fst) in H0 as ([i entries] & Hi & Hin). cbn in Hi. subst i.
  exists l, pages, entries. split; [auto|]. split; [intros ->; discriminate HL|]. split; [auto|]. split; [auto|].
  rewrite Forall_forall in F. specialize (F _ Hin). unfold page_of in F. cbn [fst snd] in F.
  intros ->. destruct l as [|p l]; [discriminate HL|]. inversion F.
Qed.

Example C59_case : history room listing_events s_listing /\
  page_indexes (sdk_get_all_positions s_listing alice None [] (Some 2)) = Some [(0, [-20; -20]); (1, [-10])] /\
  page_indexes (sdk_get_all_positions s_listing alice (Some 3) [0] (Some 2)) = Some [(1, [-10])] /\
  page_indexes (sdk_get_all_positions s_listing alice None [] None) = Some [(0, [-20; -20; -10])].
Proof. split; [exact s_listing_room|]. repeat split; vm_compute; reflexivity. Qed.
Example C59_pool_case : history pool_room evs_setup s_setup /\ sdk_get_all_pool_keys s_setup = Ok [pool1].
Proof.
  split; [|vm_compute; reflexivity]. apply C17_room; [apply s_setup_history|reflexivity].
Qed.

(** ** Assumptions *)
Print Assumptions C59_pool_keys.
Print Assumptions C59_many_pools_refuted.
Print Assumptions C59_position_page.
Print Assumptions C59_all_positions.
Print Assumptions C59_counted_positions.
Print Assumptions C59_every_position.
Print Assumptions C59_default_size.
Print Assumptions C59_skipped_page_refuted.
