(** The list of all the liquidity ticks that the SDK fetches, in order, and its prefix sums. *)
From Verif Require Import Base Decimal SqrtPriceM Types TickmapM CollectionsM StateM ServiceM SdkM SdkFetchM SdkUtilM
  SpecMath SpecSum SpecState SpecHistory SpecSdk SpecUtil P_Effects P_Tickmap P_Check P_State P_Inv P_InvPos P_Live P_Sdk P_SdkView Prop_Queries.
From stdpp Require Import gmap list.
From Coq Require Import ZArith Lia Bool Sorting.Sorted.
Open Scope Z_scope.

Lemma mapM_map {A B} (f : A -> res B) (g : A -> B) l : (forall a, In a l -> f a = Ok (g a)) ->
  mapM_res f l = Ok (map g l).
Proof.
  induction l as [|a l IH]; intros H; [reflexivity|]. cbn [mapM_res map]. rewrite H by (left; reflexivity). cbn [bind].
  rewrite IH by (intros; apply H; right; auto). reflexivity.
Qed.

Lemma slices_concat n : forall l, (length l <= n)%nat -> concat (sdk_slices n l) = l.
Proof.
  induction n as [|n IH]; intros l Hl; destruct l as [|y l]; try reflexivity; [cbn in Hl; lia|].
  cbn [sdk_slices]. set (c := Z.to_nat LIQUIDITY_TICK_LIMIT). cbn [concat]. rewrite IH; [apply take_drop|].
  rewrite drop_length. cbn [length] in *. assert (1 <= c)%nat by (unfold c, LIQUIDITY_TICK_LIMIT; lia). lia.
Qed.

(** ** Sorted lists *)

Lemma sorted_app (l1 l2 : list Z) : StronglySorted Z.lt l1 -> StronglySorted Z.lt l2 ->
  (forall x y, In x l1 -> In y l2 -> x < y) -> StronglySorted Z.lt (l1 ++ l2).
Proof.
  induction 1 as [|a l1 S1 IH F1]; intros S2 H; [auto|]. cbn [app]. constructor.
  - apply IH; auto. intros; apply H; auto. right; auto.
  - apply List.Forall_forall. intros x Hx. apply in_app_or in Hx as [Hx|Hx].
    + eapply List.Forall_forall in F1; eauto.
    + apply H; auto. left; reflexivity.
Qed.

Lemma sorted_seqZ n m : StronglySorted Z.lt (seqZ m n).
Proof.
  destruct (Z.le_gt_cases 0 n) as [Hn|Hn]; [|rewrite seqZ_nil by lia; constructor].
  revert m. pattern n. apply natlike_ind; [|intros x Hx IH m|exact Hn].
  - intros m. rewrite seqZ_nil by lia. constructor.
  - rewrite seqZ_cons by lia. constructor; [rewrite Z.pred_succ; apply IH|].
    apply List.Forall_forall. intros y Hy. apply elem_of_list_In, elem_of_seqZ in Hy. lia.
Qed.

Lemma sorted_filter (f : Z -> bool) l : StronglySorted Z.lt l -> StronglySorted Z.lt (List.filter f l).
Proof.
  induction 1 as [|a l S IH F]; [constructor|]. cbn [List.filter]. destruct (f a); [|exact IH]. constructor; [exact IH|].
  apply List.Forall_forall. intros x Hx. apply filter_In in Hx as [Hx _]. eapply List.Forall_forall in F; eauto.
Qed.

Lemma sorted_map (g : Z -> Z) l : (forall x y, x < y -> g x < g y) -> StronglySorted Z.lt l -> StronglySorted Z.lt (map g l).
Proof.
  intros Hg. induction 1 as [|a l S IH F]; [constructor|]. cbn [map]. constructor; [exact IH|].
  apply List.Forall_forall. intros x Hx. apply in_map_iff in Hx as (y & <- & Hy). apply Hg. eapply List.Forall_forall in F; eauto.
Qed.

(** ** The indices *)
Section Indexes.
  Context (s : state) (k : pool_key) (p : pool).
  Hypothesis I : Inv s.
  Hypothesis Hp : s_pools s !! k = Some p.
  Notation sp := (pk_spacing k).
  Notation mx := (2 * (MX / sp) / 64).
  Notation all := (tickmap_slice s (range 0 (mx + 1)) k).

  Definition row (e : Z * Z) : list Z :=
    map (fun b => ticki sp (64 * fst e + b)) (List.filter (Z.testbit (snd e)) (range 0 CHUNK_SIZE)).
  Definition all_indexes : list Z := concat (map row all).

  Lemma all_indexes_eq : sdk_tick_indexes all sp = Ok all_indexes.
  Proof using I Hp.
    pose proof (sp_ok s k p I Hp) as Hs. unfold sdk_tick_indexes.
    rewrite (mapM_map _ row).
    - reflexivity.
    - intros [c v] Hin. apply entries in Hin as [Hc Hv]. apply mapM_map. intros b Hb.
      apply filter_In in Hb as [Hb _]. apply elem_of_list_In in Hb. unfold range in Hb. apply elem_of_seqZ in Hb.
      unfold CHUNK_SIZE in Hb. apply position_to_tick_ok; auto; lia.
  Qed.

  Lemma row_In c v i : In i (row (c, v)) <-> exists b, 0 <= b < 64 /\ Z.testbit v b = true /\ i = ticki sp (64 * c + b).
  Proof using.
    unfold row. cbn [fst snd]. rewrite in_map_iff. split.
    - intros (b & <- & Hb). apply filter_In in Hb as [Hb Ht]. apply elem_of_list_In in Hb. unfold range in Hb. apply elem_of_seqZ in Hb.
      unfold CHUNK_SIZE in Hb. exists b. split; [lia|auto].
    - intros (b & Hb & Ht & ->). exists b. split; [reflexivity|]. apply filter_In. split; [|auto].
      apply elem_of_list_In. unfold range. apply elem_of_seqZ. unfold CHUNK_SIZE. lia.
  Qed.

  Lemma all_indexes_In i : In i all_indexes <-> exists t, s_ticks s !! (k, i) = Some t.
  Proof using I Hp.
    unfold all_indexes. rewrite in_concat. pose proof (sp_ok s k p I Hp) as Hs. split.
    - intros (r & Hr & Hi). apply in_map_iff in Hr as ([c v] & <- & Hin). apply entries in Hin as [_ Hv].
      apply row_In in Hi as (b & Hb & Ht & ->). eapply bit_tick; eauto.
    - intros [t Ht]. destruct (I_tick _ I _ _ _ Ht) as [_ T]. pose proof (to_okt _ _ _ _ T) as Ho.
      assert (HM : mem (s_bitmap s) k (tidx sp i) = true) by (apply (I_bit2 _ I); eauto).
      unfold mem in HM. set (n := tidx sp i) in *.
      assert (Hc : exists v, s_bitmap s !! (n / 64, k) = Some v /\ Z.testbit v (n mod 64) = true).
      { unfold chunk_at in HM. destruct (s_bitmap s !! (n / 64, k)) as [v|] eqn:Ev; [exists v; auto|].
        cbn in HM. rewrite Z.testbit_0_l in HM. discriminate. }
      destruct Hc as (v & Hbv & Hb). pose proof (Z.mod_pos_bound n 64 ltac:(lia)) as Hmod.
      destruct (bit_tick s k p I Hp _ _ _ Hbv Hmod Hb) as [Hcr _].
      exists (row (n / 64, v)). split; [apply in_map; apply entries; auto|]. apply row_In. exists (n mod 64).
      split; [exact Hmod|]. split; [exact Hb|]. rewrite <- (Z.div_mod n 64) by lia. unfold n. symmetry.
      apply tidx_ticki; [lia|apply Ho].
  Qed.

  Lemma ticki_lt a b : a < b -> ticki sp a < ticki sp b.
  Proof using I Hp. pose proof (sp_ok s k p I Hp). unfold ticki. intros. apply Z.mul_lt_mono_pos_r; lia. Qed.

  Lemma all_indexes_sorted : StronglySorted Z.lt all_indexes.
  Proof using I Hp.
    unfold all_indexes, tickmap_slice. pose proof (sorted_seqZ (mx + 1 - 0) 0) as S. change (seqZ 0 (mx + 1 - 0)) with (range 0 (mx + 1)) in S.
    induction S as [|c cs S IH F]; [constructor|]. cbn [omap list_omap].
    destruct (s_bitmap s !! (c, k)) as [v|]; [|exact IH]. cbn [map concat]. apply sorted_app; auto.
    - unfold row. cbn [fst snd]. apply (sorted_map (fun b => ticki sp (64 * c + b))); [intros; apply ticki_lt; lia|].
      apply sorted_filter, sorted_seqZ.
    - intros x y Hx Hy. apply row_In in Hx as (b & Hb & _ & ->). apply in_concat in Hy as (r & Hr & Hy).
      apply in_map_iff in Hr as ([c' v'] & <- & Hin). apply row_In in Hy as (b' & Hb' & _ & ->). apply ticki_lt.
      apply elem_of_list_In, elem_of_list_omap in Hin as (c2 & Hc2 & E). destruct (s_bitmap s !! (c2, k)); [|discriminate].
      injection E as -> _. apply elem_of_list_In in Hc2. eapply List.Forall_forall in F; eauto. lia.
  Qed.

  Definition tick_at (i : Z) : liquidity_tick :=
    match s_ticks s !! (k, i) with Some t => liquidity_tick_of t | None => mkLiquidityTick i 0 true end.

  Lemma all_ticks_eq : sdk_get_all_liquidity_ticks s k all = Ok (map tick_at all_indexes).
  Proof using I Hp.
    unfold sdk_get_all_liquidity_ticks. rewrite all_indexes_eq. cbn [bind].
    destruct (slices_In (length all_indexes) all_indexes (le_n _)) as [_ S2].
    rewrite (mapM_map _ (map tick_at)).
    - cbn [bind]. rewrite <- concat_map, slices_concat by auto. reflexivity.
    - intros sl Hsl. destruct (S2 sl Hsl) as [Hlen Hsub]. unfold get_liquidity_ticks.
      destruct (Z.ltb_spec LIQUIDITY_TICK_LIMIT (Z.of_nat (length sl))); [lia|]. cbn [fail_if bind]. apply mapM_map.
      intros i Hi. apply Hsub, all_indexes_In in Hi as [t Ht]. unfold ticks_get, tick_at. rewrite Ht. reflexivity.
  Qed.

  Lemma tick_at_index i : lt_index (tick_at i) = i.
  Proof using I Hp.
    unfold tick_at. destruct (s_ticks s !! (k, i)) as [t|] eqn:E; [|reflexivity]. destruct (I_tick _ I _ _ _ E) as [_ T].
    apply (to_index _ _ _ _ T).
  Qed.

  Lemma tick_at_net i : lt_liquidity_change (tick_at i) * (if lt_sign (tick_at i) then 1 else -1) = net_at s k i.
  Proof using I Hp.
    unfold tick_at. destruct (s_ticks s !! (k, i)) as [t|] eqn:E.
    - destruct (I_tick _ I _ _ _ E) as [_ T]. rewrite <- (to_net _ _ _ _ T). cbn. unfold P_Effects.t_net. destruct (t_sign t); lia.
    - cbn. symmetry. pose proof (proj2 (I_exists _ I k i)) as X.
      assert (G : gross_at s k i <= 0).
      { destruct (Z.le_gt_cases (gross_at s k i) 0) as [|C]; [auto|]. exfalso.
        assert (0 < gross_at s k i) as C' by lia. apply X in C' as [t Ht]. congruence. }
      assert (N : forall j q, s_positions s !! j = Some q -> 0 <= gross_of k i q).
      { intros [a n] q Hq. unfold gross_of. pose proof (so_liq _ _ (I_pos _ I _ _ _ Hq)). destruct (_ && _); lia. }
      unfold net_at. rewrite (msum_ext _ (fun _ => 0)); [apply msum_zero|].
      intros [a n] pos Hpos. pose proof (msum_ge_one (gross_of k i) (s_positions s) _ _ N Hpos) as B. fold (gross_at s k i) in B.
      unfold gross_of in B. unfold net_of. pose proof (so_liq _ _ (I_pos _ I _ _ _ Hpos)).
      destruct (bool_decide _); [|reflexivity]. destruct (_ =? _), (_ =? _); cbn [andb orb] in B; lia.
  Qed.
End Indexes.

(** ** Prefix sums *)

(** The sum of [f] over the elements of [l] up to [c]. *)
Definition zsum_to (f : Z -> Z) (c : Z) (l : list Z) : Z := foldr (fun i acc => (if i <=? c then f i else 0) + acc) 0 l.

Lemma level_sum (g : Z -> liquidity_tick) (f : Z -> Z) c l : (forall i, lt_index (g i) = i) ->
  (forall i, lt_liquidity_change (g i) * (if lt_sign (g i) then 1 else -1) = f i) -> StronglySorted Z.lt l ->
  forall cur, fold_left (fun acc '(i, L) => if i <=? c then L else acc) (liquidity_breakpoints_from cur (map g l)) cur
    = cur + zsum_to f c l.
Proof.
  intros Hg Hf. induction 1 as [|i l S IH F]; intros cur; [cbn; lia|].
  cbn [map liquidity_breakpoints_from fold_left zsum_to foldr]. rewrite Hg, Hf. destruct (Z.leb_spec i c) as [Hc|Hc].
  - rewrite IH. unfold zsum_to. lia.
  - assert (Z0 : forall m, Forall (Z.lt i) m -> zsum_to f c m = 0 /\
      forall cur acc, fold_left (fun acc '(i, L) => if i <=? c then L else acc) (liquidity_breakpoints_from cur (map g m)) acc = acc).
    { clear - Hg Hc. induction 1 as [|j m Hj Hm IH]; [split; reflexivity|]. destruct IH as [IH1 IH2]. split.
      - unfold zsum_to in *. cbn [foldr]. destruct (Z.leb_spec j c); lia.
      - intros cur acc. cbn [map liquidity_breakpoints_from fold_left]. rewrite Hg. destruct (Z.leb_spec j c); [lia|]. apply IH2. }
    destruct (Z0 l F) as [E1 E2]. rewrite E2. change (foldr _ 0 l) with (zsum_to f c l). lia.
Qed.

Lemma zsum_to_point c l v L : StronglySorted Z.lt l -> In v l ->
  zsum_to (fun i => if v =? i then L else 0) c l = if v <=? c then L else 0.
Proof.
  assert (Z0 : forall m, (forall j, In j m -> j <> v) -> zsum_to (fun i => if v =? i then L else 0) c m = 0).
  { induction m as [|j m IH]; intros H; [reflexivity|]. unfold zsum_to in *. cbn [foldr]. rewrite IH by (intros; apply H; right; auto).
    destruct (Z.eqb_spec v j); [exfalso; apply (H j); [left|]; auto|]. destruct (_ <=? _); reflexivity. }
  induction 1 as [|i l S IH F]; intros Hin; [destruct Hin|]. unfold zsum_to in *. cbn [foldr]. destruct Hin as [->|Hin].
  - rewrite Z0, Z.eqb_refl by (intros j Hj; eapply List.Forall_forall in F; eauto; lia). lia.
  - rewrite IH by auto. destruct (Z.eqb_spec v i) as [->|]; [|destruct (i <=? c); lia].
    eapply List.Forall_forall in F; eauto. lia.
Qed.

Lemma zsum_to_sub f g c l : zsum_to (fun i => f i - g i) c l = zsum_to f c l - zsum_to g c l.
Proof. induction l as [|i l IH]; [reflexivity|]. unfold zsum_to in *. cbn [foldr]. rewrite IH. destruct (_ <=? _); lia. Qed.

Lemma zsum_to_msum (h : Z -> position -> Z) (c : Z) (l : list Z) (m : gmap (actor_id * Z) position) :
  zsum_to (fun i => msum (h i) m) c l = msum (fun pos => zsum_to (fun i => h i pos) c l) m.
Proof.
  induction l as [|i l IH]; [symmetry; apply msum_zero|]. unfold zsum_to in *. cbn [foldr]. rewrite IH.
  rewrite (msum_add (fun pos => if i <=? c then h i pos else 0)). f_equal.
  destruct (i <=? c); [reflexivity|]. symmetry. apply msum_zero.
Qed.

Lemma zsum_to_zero f c l : (forall i, f i = 0) -> zsum_to f c l = 0.
Proof. intros H. induction l as [|i l IH]; [reflexivity|]. unfold zsum_to in *. cbn [foldr]. rewrite IH, H. destruct (_ <=? _); reflexivity. Qed.

Lemma level_active s k p c : Inv s -> s_pools s !! k = Some p ->
  level_at (liquidity_breakpoints (map (tick_at s k) (all_indexes s k))) c = active_at s k c.
Proof.
  intros I Hp. unfold level_at, liquidity_breakpoints.
  rewrite (level_sum _ (net_at s k)); [|eapply tick_at_index; eauto|eapply tick_at_net; eauto|eapply all_indexes_sorted; eauto].
  rewrite Z.add_0_l. unfold net_at. rewrite zsum_to_msum. unfold active_at. apply msum_ext. intros [a n] pos Hpos.
  unfold net_of, active_of. destruct (bool_decide_reflect (pos_pool_key pos = k)) as [<-|]; [|apply zsum_to_zero; reflexivity].
  destruct (pos_ticks s a n pos I Hpos) as (p' & tl & tu & _ & L & U & _).
  rewrite zsum_to_sub, !zsum_to_point; try (eapply all_indexes_sorted; eauto); try (eapply all_indexes_In; eauto).
  pose proof (so_lt _ _ (I_pos _ I _ _ _ Hpos)). cbn [andb].
  destruct (Z.leb_spec (pos_lower pos) c), (Z.leb_spec (pos_upper pos) c), (Z.ltb_spec c (pos_upper pos)); cbn [andb]; lia.
Qed.
