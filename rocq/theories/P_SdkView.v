(** The snapshot that the SDK fetches shows the contract state. *)
From Verif Require Import Base Decimal SqrtPriceM LogM ClammM FeeGrowthM Types TickmapM StorageM
  CollectionsM StateM ServiceM SdkM SdkFetchM Arith SpecMath SpecFees SpecSum SpecState SpecHistory SpecLoop SpecSdk P_TickPrice
  P_Tickmap P_Closer P_Effects P_Positions P_Loop P_Check P_State P_Inv P_Queries P_Sdk.
From stdpp Require Import gmap list.
From Coq Require Import ZArith Lia Bool.
Open Scope Z_scope.

Lemma mapM_In {A B} (f : A -> res B) l : (forall a, In a l -> exists b, f a = Ok b) ->
  exists r, mapM_res f l = Ok r /\ forall b, In b r <-> exists a, In a l /\ f a = Ok b.
Proof.
  intros H. destruct (mapM_res_ok f l H) as (r & E & _ & K). exists r. split; [exact E|]. intros b. split.
  - intros Hb. apply elem_of_list_In, elem_of_list_lookup in Hb as [j Hj]. apply K in Hj as (a & Ha & Hf).
    exists a. split; [|exact Hf]. apply elem_of_list_In, elem_of_list_lookup. eauto.
  - intros (a & Ha & Hf). apply elem_of_list_In, elem_of_list_lookup in Ha as [j Hj].
    apply elem_of_list_In, elem_of_list_lookup. exists j. apply K. eauto.
Qed.

Lemma slices_In n : forall l, (length l <= n)%nat ->
  (forall x, In x (concat (sdk_slices n l)) <-> In x l) /\
  (forall sl, In sl (sdk_slices n l) -> Z.of_nat (length sl) <= LIQUIDITY_TICK_LIMIT /\ forall x, In x sl -> In x l).
Proof.
  induction n as [|n IH]; intros l Hl; destruct l as [|y l].
  - cbn. split; [tauto|]. intros sl [].
  - cbn [length] in Hl. lia.
  - cbn. split; [tauto|]. intros sl [].
  - cbn [sdk_slices]. set (N := Z.to_nat LIQUIDITY_TICK_LIMIT). set (l0 := y :: l) in *.
    assert (HN : (1 <= N)%nat) by (unfold N, LIQUIDITY_TICK_LIMIT; lia).
    assert (Hd : (length (drop N l0) <= n)%nat) by (rewrite drop_length; lia).
    destruct (IH (drop N l0) Hd) as [A B]. split.
    + intros x. cbn [concat]. rewrite in_app_iff, A, <- in_app_iff, take_drop. tauto.
    + intros sl [<-|Hs].
      * split; [|intros x Hx; rewrite <- (take_drop N l0); apply in_app_iff; auto].
        rewrite take_length. unfold N. lia.
      * destruct (B sl Hs) as [B1 B2]. split; [exact B1|]. intros x Hx.
        rewrite <- (take_drop N l0). apply in_app_iff. right. auto.
Qed.

Lemma position_to_tick_ok sp c b : 1 <= sp <= 100 -> 0 <= c <= 2 * (MX / sp) / 64 -> 0 <= b < 64 ->
  sdk_position_to_tick c b sp = Ok (ticki sp (64 * c + b)).
Proof.
  intros Hs Hc Hb. unfold sdk_position_to_tick. replace (sp =? 0) with false by lia. cbn [fail_if bind].
  change MAX_TICK with MX.
  assert (HM : MX - Z.rem MX sp = MX / sp * sp).
  { rewrite Z.rem_mod_nonneg by (unfold MX; lia). pose proof (Z.div_mod MX sp ltac:(lia)). lia. }
  rewrite HM. pose proof (Z.mul_div_le MX sp ltac:(lia)) as HB. assert (0 <= MX / sp) by (apply Z.div_pos; unfold MX; lia).
  assert (HC : 64 * c <= 2 * (MX / sp)) by (pose proof (Z.mul_div_le (2 * (MX / sp)) 64 ltac:(lia)); lia).
  assert (HB2 : MX / sp * sp <= 221818) by (unfold MX in *; lia).
  assert (H1 : 0 <= c * 64 * sp <= 443636) by nia.
  assert (H2 : 0 <= b * sp <= 6400) by nia.
  unfold i32_checked, i32_min, i32_max, CHUNK_SIZE.
  repeat match goal with |- context [(?x <=? ?y) && (?z <=? ?w)] =>
    replace ((x <=? y) && (z <=? w)) with true by (symmetry; apply andb_true_iff; split; apply Z.leb_le; lia); cbn [bind] end.
  f_equal. unfold ticki. lia.
Qed.

(** ** The entries of the tickmap *)

Section View.
  Context (s : state) (k : pool_key) (p : pool).
  Hypothesis I : Inv s.
  Hypothesis Hp : s_pools s !! k = Some p.

  Notation sp := (pk_spacing k).
  Notation mx := (2 * (MX / sp) / 64).

  Lemma sp_ok : 1 <= sp <= 100.
  Proof using I Hp. exact (pool_spacing _ _ (I_pool _ I _ _ Hp)). Qed.

  Lemma cur_okt : okt sp (p_current_tick_index p).
  Proof using I Hp. apply (po_tick _ _ (I_pool _ I _ _ Hp)). Qed.

  Lemma tidx_chunk i : okt sp i -> tidx sp i / 64 = chunk_of sp i.
  Proof using I Hp.
    intros Ho. pose proof sp_ok. eapply position_chunk; [lia|]. apply tick_to_position_ok; [lia|exact Ho].
  Qed.

  Lemma entries c v : In (c, v) (tickmap_slice s (range 0 (mx + 1)) k) <-> 0 <= c <= mx /\ s_bitmap s !! (c, k) = Some v.
  Proof using.
    rewrite <- elem_of_list_In. unfold tickmap_slice. rewrite elem_of_list_omap. split.
    - intros (c' & Hc & E). unfold range in Hc. apply elem_of_seqZ in Hc.
      destruct (s_bitmap s !! (c', k)) eqn:EB; [|discriminate]. injection E as <- <-. split; [lia|exact EB].
    - intros [Hc EB]. exists c. split; [unfold range; apply elem_of_seqZ; lia|]. rewrite EB. reflexivity.
  Qed.

  Lemma entries_nodup : NoDup (map fst (tickmap_slice s (range 0 (mx + 1)) k)).
  Proof using.
    unfold tickmap_slice. assert (ND : NoDup (range 0 (mx + 1))) by apply NoDup_seqZ.
    induction ND as [|c cs Hc ND IH]; [constructor|]. cbn [omap list_omap].
    destruct (s_bitmap s !! (c, k)) as [v|]; [|exact IH]. cbn [map fst]. constructor; [|exact IH].
    intros Hin. apply elem_of_list_In, in_map_iff in Hin as ([c' v'] & E & Hin). cbn in E. subst c'.
    apply elem_of_list_In, elem_of_list_omap in Hin as (c' & Hc' & E). destruct (s_bitmap s !! (c', k)); [|discriminate].
    injection E as -> _. contradiction.
  Qed.

  (** A set bit is an initialised tick. *)
  Lemma bit_tick c v b : s_bitmap s !! (c, k) = Some v -> 0 <= b < 64 -> Z.testbit v b = true ->
    0 <= c <= mx /\ exists t, s_ticks s !! (k, ticki sp (64 * c + b)) = Some t.
  Proof using I Hp.
    intros Hv Hb Ht. pose proof sp_ok as Hs.
    assert (HM : mem (s_bitmap s) k (c * 64 + b) = true).
    { rewrite mem_bit by lia. unfold chunk_at. rewrite Hv. exact Ht. }
    apply (I_bit1 _ I) in HM as (i & [t Hi] & E). destruct (I_tick _ I _ _ _ Hi) as [_ T].
    pose proof (to_okt _ _ _ _ T) as Ho. pose proof (okt_tidx sp i ltac:(lia) Ho) as HB. split.
    - rewrite <- E in HB. split; [lia|]. apply Z.div_le_lower_bound; lia.
    - exists t. replace (64 * c + b) with (c * 64 + b) by lia. rewrite E, tidx_ticki; [exact Hi|lia|exact (proj2 Ho)].
  Qed.

  Lemma chunk_outside c v : s_bitmap s !! (c, k) = Some v -> ~ 0 <= c <= mx -> v = 0.
  Proof using I Hp.
    intros Hv Hc. destruct (Z.eq_dec v 0) as [|Hn]; [auto|exfalso].
    assert (HW : 0 <= v < 2 ^ 64) by (pose proof (I_wf _ I c k) as W; unfold chunk_at in W; rewrite Hv in W; exact W).
    destruct (bit_tick c v (Z.log2 v) Hv) as [? _]; [|apply Z.bit_log2; lia|contradiction].
    split; [apply Z.log2_nonneg|]. apply Z.log2_lt_pow2; lia.
  Qed.

  (** ** A part of the entries that holds everything on one side *)

  Context (d : bool) (L : list (Z * Z)).
  Hypothesis L_sub : forall c v, In (c, v) L -> 0 <= c <= mx /\ s_bitmap s !! (c, k) = Some v.
  Hypothesis L_nodup : NoDup (map fst L).
  Hypothesis L_all : forall c v, 0 <= c <= mx -> s_bitmap s !! (c, k) = Some v ->
    (if d then c <= chunk_of sp (p_current_tick_index p) else chunk_of sp (p_current_tick_index p) <= c) -> In (c, v) L.

  Lemma part_bits c :
    (if d then c <= chunk_of sp (p_current_tick_index p) else chunk_of sp (p_current_tick_index p) <= c) ->
    default 0 (sdk_bitmap L !! c) = default 0 (s_bitmap s !! (c, k)).
  Proof using I Hp L_sub L_nodup L_all.
    intros Hc. unfold sdk_bitmap. destruct (list_to_map (M := gmap Z Z) L !! c) as [v|] eqn:E.
    - apply elem_of_list_to_map_2, elem_of_list_In, L_sub in E as [_ ->]. reflexivity.
    - destruct (s_bitmap s !! (c, k)) as [v|] eqn:Ev; [|reflexivity]. cbn.
      destruct (decide (0 <= c <= mx)) as [Hr|Hr].
      + exfalso. specialize (L_all c v Hr Ev Hc). apply not_elem_of_list_to_map in E. apply E.
        apply elem_of_list_fmap. exists (c, v). split; [reflexivity|]. apply elem_of_list_In. exact L_all.
      + symmetry. eapply chunk_outside; eauto.
  Qed.

  Lemma part_indexes : exists r, sdk_tick_indexes L sp = Ok r /\
    forall i, In i r <-> exists c v b, In (c, v) L /\ 0 <= b < 64 /\ Z.testbit v b = true /\ i = ticki sp (64 * c + b).
  Proof using I Hp L_sub.
    pose proof sp_ok as Hs.
    assert (F : forall v b, In b (List.filter (Z.testbit v) (range 0 CHUNK_SIZE)) <-> 0 <= b < 64 /\ Z.testbit v b = true).
    { intros v b. rewrite filter_In, <- elem_of_list_In. unfold range. rewrite elem_of_seqZ. unfold CHUNK_SIZE.
      split; intros [? ?]; (split; [lia|auto]). }
    assert (ROW : forall c v, In (c, v) L -> exists r,
      mapM_res (fun bit => sdk_position_to_tick c bit sp) (List.filter (Z.testbit v) (range 0 CHUNK_SIZE)) = Ok r /\
      forall i, In i r <-> exists b, 0 <= b < 64 /\ Z.testbit v b = true /\ i = ticki sp (64 * c + b)).
    { intros c v Hin. apply L_sub in Hin as [Hc Hv].
      assert (OK : forall b, 0 <= b < 64 -> sdk_position_to_tick c b sp = Ok (ticki sp (64 * c + b))).
      { intros b Hb. apply position_to_tick_ok; auto. }
      destruct (mapM_In (fun bit => sdk_position_to_tick c bit sp) (List.filter (Z.testbit v) (range 0 CHUNK_SIZE))) as (r & E & K).
      { intros b Hb. apply F in Hb as [Hb _]. eauto. }
      exists r. split; [exact E|]. intros i. rewrite K. split.
      - intros (b & Hb & Ei). apply F in Hb as [Hb Ht]. rewrite OK in Ei by auto. injection Ei as <-. eauto.
      - intros (b & Hb & Ht & ->). exists b. rewrite F. auto. }
    unfold sdk_tick_indexes.
    match goal with |- context [mapM_res ?f L] => destruct (mapM_In f L) as (rows & E & K) end.
    { intros [c v] Hin. destruct (ROW c v Hin) as (r & E & _). eauto. }
    rewrite E. cbn [bind]. eexists. split; [reflexivity|]. intros i. rewrite in_concat. split.
    - intros (row & Hr & Hi). apply K in Hr as ([c v] & Hin & Er). destruct (ROW c v Hin) as (r & E2 & K2).
      rewrite E2 in Er. injection Er as ->. apply K2 in Hi as (b & ? & ? & ?). exists c, v, b. auto.
    - intros (c & v & b & Hin & Hb & Ht & ->). destruct (ROW c v Hin) as (r & E2 & K2). exists r. split.
      + apply K. exists (c, v). auto.
      + apply K2. eauto.
  Qed.

  Lemma part_ticks : exists r, sdk_get_all_liquidity_ticks s k L = Ok r /\
    (forall lt, In lt r -> exists t, s_ticks s !! (k, lt_index lt) = Some t /\ lt = liquidity_tick_of t) /\
    (forall i t, s_ticks s !! (k, i) = Some t ->
      (if d then i <= p_current_tick_index p else p_current_tick_index p <= i) -> In (liquidity_tick_of t) r).
  Proof using I Hp L_sub L_all.
    pose proof sp_ok as Hs. destruct part_indexes as (idx & E & K).
    unfold sdk_get_all_liquidity_ticks. rewrite E. cbn [bind].
    destruct (slices_In (length idx) idx (le_n _)) as [S1 S2].
    assert (EX : forall i, In i idx -> exists t, s_ticks s !! (k, i) = Some t).
    { intros i Hi. apply K in Hi as (c & v & b & Hin & Hb & Ht & ->). apply L_sub in Hin as [_ Hv]. eapply bit_tick; eauto. }
    assert (ONE : forall sl, In sl (sdk_slices (length idx) idx) -> exists r, get_liquidity_ticks s k sl = Ok r /\
      forall lt, In lt r <-> exists i t, In i sl /\ s_ticks s !! (k, i) = Some t /\ lt = liquidity_tick_of t).
    { intros sl Hsl. destruct (S2 sl Hsl) as [Hlen Hsub]. unfold get_liquidity_ticks.
      destruct (Z.ltb_spec LIQUIDITY_TICK_LIMIT (Z.of_nat (length sl))); [lia|]. cbn [fail_if bind].
      match goal with |- context [mapM_res ?f sl] => destruct (mapM_In f sl) as (r & Er & Kr) end.
      { intros i Hi. destruct (EX i (Hsub i Hi)) as [t Ht]. unfold ticks_get. rewrite Ht. cbn. eauto. }
      exists r. split; [exact Er|]. intros lt. rewrite Kr. split.
      - intros (i & Hi & Ei). destruct (EX i (Hsub i Hi)) as [t Ht]. unfold ticks_get in Ei. rewrite Ht in Ei. cbn in Ei.
        injection Ei as <-. exists i, t. auto.
      - intros (i & t & Hi & Ht & ->). exists i. split; [exact Hi|]. unfold ticks_get. rewrite Ht. reflexivity. }
    match goal with |- context [mapM_res ?f (sdk_slices ?n ?l)] => destruct (mapM_In f (sdk_slices n l)) as (rs & Er & Kr) end.
    { intros sl Hsl. destruct (ONE sl Hsl) as (r & ? & _). eauto. }
    rewrite Er. cbn [bind]. eexists. split; [reflexivity|]. split.
    - intros lt Hlt. apply in_concat in Hlt as (r & Hr & Hlt). apply Kr in Hr as (sl & Hsl & Hg).
      destruct (ONE sl Hsl) as (r' & Er' & K'). rewrite Er' in Hg. injection Hg as ->.
      apply K' in Hlt as (i & t & Hi & Ht & ->). exists t. cbn [liquidity_tick_of lt_index].
      destruct (I_tick _ I _ _ _ Ht) as [_ T]. rewrite (to_index _ _ _ _ T). auto.
    - intros i t Ht Hv. destruct (I_tick _ I _ _ _ Ht) as [_ T]. pose proof (to_okt _ _ _ _ T) as Ho.
      pose proof (okt_tidx sp i ltac:(lia) Ho) as HB.
      assert (HM : mem (s_bitmap s) k (tidx sp i) = true) by (apply (I_bit2 _ I); eauto).
      unfold mem in HM. set (n := tidx sp i) in *.
      assert (Hc : exists v, s_bitmap s !! (n / 64, k) = Some v /\ Z.testbit v (n mod 64) = true).
      { unfold chunk_at in HM. destruct (s_bitmap s !! (n / 64, k)) as [v|] eqn:Ev; [exists v; auto|].
        cbn in HM. rewrite Z.testbit_0_l in HM. discriminate. }
      destruct Hc as (v & Hbv & Hb). pose proof (Z.mod_pos_bound n 64 ltac:(lia)) as Hmod.
      destruct (bit_tick _ _ _ Hbv Hmod Hb) as [Hcr _].
      assert (Hi : In i idx).
      { apply K. exists (n / 64), v, (n mod 64). split.
        - apply L_all; [exact Hcr|exact Hbv|]. unfold n. rewrite tidx_chunk by exact Ho.
          destruct d; apply chunk_mono; lia.
        - split; [exact Hmod|]. split; [exact Hb|]. rewrite <- (Z.div_mod n 64) by lia. unfold n. symmetry.
          apply tidx_ticki; [lia|apply Ho]. }
      apply S1 in Hi. apply in_concat in Hi as (sl & Hsl & Hi). destruct (ONE sl Hsl) as (r & E2 & K2).
      apply in_concat. exists r. split; [apply Kr; eauto|]. apply K2. eauto.
  Qed.
End View.

(** ** The filters *)

Lemma filter_ticks_In n : forall ticks i (d : bool) lt, In lt (sdk_filter_ticks_from n ticks i d) -> In lt ticks.
Proof.
  induction n as [|n IH]; intros ticks i d lt H; destruct ticks as [|t ticks]; cbn [sdk_filter_ticks_from] in H; auto.
  destruct (if d then _ else _).
  - destruct ticks as [|t' ticks]; [destruct H|]. destruct H as [<-|H]; [right; left; reflexivity|].
    right. right. eapply IH; eauto.
  - destruct H as [<-|H]; [left; reflexivity|]. right. eapply IH; eauto.
Qed.
Lemma filter_ticks_keep n : forall ticks i (d : bool) lt, In lt ticks ->
  (if d then lt_index lt <= i else i <= lt_index lt) -> In lt (sdk_filter_ticks_from n ticks i d).
Proof.
  induction n as [|n IH]; intros ticks i d lt H Hk; destruct ticks as [|t ticks]; cbn [sdk_filter_ticks_from]; auto.
  destruct (if d then _ else _) eqn:E.
  - assert (Hne : t <> lt) by (intros ->; destruct d; lia).
    destruct H as [|H]; [contradiction|]. destruct ticks as [|t' ticks]; [destruct H|].
    destruct H as [<-|H]; [left; reflexivity|]. right. apply IH; auto.
  - destruct H as [<-|H]; [left; reflexivity|]. right. apply IH; auto.
Qed.

Lemma position_of_tick sp i : 1 <= sp -> okt sp i -> exists b, sdk_tick_index_to_position i sp = Ok (chunk_of sp i, b).
Proof.
  intros Hs [Hr Hd]. unfold sdk_tick_index_to_position.
  replace ((- MAX_TICK <=? i) && (i <=? MAX_TICK)) with true by (symmetry; unfold MAX_TICK; apply andb_true_iff; split; apply Z.leb_le; lia).
  unfold MAX_TICK, CHUNK_SIZE.
  replace (sp =? 0) with false by lia. cbn [negb fail_if bind].
  replace (Z.rem i sp =? 0) with true.
  2: { symmetry. apply Z.eqb_eq. apply Z.rem_divide in Hd; lia. }
  cbn [negb fail_if bind]. eexists. apply f_equal, f_equal2; [|reflexivity]. unfold chunk_of.
  rewrite (Z.quot_div_nonneg (i + 221818)) by lia. apply Z.quot_div_nonneg; [apply Z.div_pos; lia|lia].
Qed.

Lemma NoDup_filtered {A B} (f : A -> B) (keep : A -> bool) l n : NoDup (map f l) ->
  NoDup (map f (List.filter keep (take n l) ++ drop n l)).
Proof.
  intros H. rewrite <- (take_drop n l), map_app in H. apply NoDup_app in H as (H1 & H2 & H3).
  rewrite map_app. apply NoDup_app. split; [|split; [|exact H3]].
  - clear H2 H3. induction (take n l) as [|a t IH]; [constructor|]. cbn [map] in H1. apply NoDup_cons in H1 as [Ha Ht].
    cbn [List.filter]. destruct (keep a); [|auto]. cbn [map]. apply NoDup_cons. split; [|auto].
    intros Hin. apply Ha. apply elem_of_list_In, in_map_iff in Hin as (x & Ex & Hx). apply filter_In in Hx as [Hx _].
    apply elem_of_list_In, in_map_iff. eauto.
  - intros y Hy. apply H2. apply elem_of_list_In, in_map_iff in Hy as (x & Ex & Hx). apply filter_In in Hx as [Hx _].
    apply elem_of_list_In, in_map_iff. eauto.
Qed.

Lemma snapshot_view s k p d fl : Inv s -> pools_get s k = Ok p ->
  exists m ticks, sdk_snapshot s k d fl = Ok (p, m, ticks) /\ sdk_view d s k p m ticks.
Proof.
  intros I Hp. pose proof Hp as Hp'. apply pools_get_Ok in Hp'. pose proof (sp_ok s k p I Hp') as Hs.
  unfold sdk_snapshot. rewrite Hp. cbn [bind]. unfold sdk_get_tickmap, get_tickmap. rewrite max_chunk_ok by auto. cbn [bind].
  set (all := tickmap_slice s (range 0 (2 * (MX / pk_spacing k) / 64 + 1)) k).
  assert (X : exists L, (if fl then sdk_filter_tickmap all (pk_spacing k) (p_current_tick_index p) d else Ok all) = Ok L /\
    (forall c v, In (c, v) L -> 0 <= c <= 2 * (MX / pk_spacing k) / 64 /\ s_bitmap s !! (c, k) = Some v) /\
    NoDup (map fst L) /\
    (forall c v, 0 <= c <= 2 * (MX / pk_spacing k) / 64 -> s_bitmap s !! (c, k) = Some v ->
      (if d then c <= chunk_of (pk_spacing k) (p_current_tick_index p) else chunk_of (pk_spacing k) (p_current_tick_index p) <= c) -> In (c, v) L)).
  { destruct fl.
    - unfold sdk_filter_tickmap. destruct (position_of_tick (pk_spacing k) (p_current_tick_index p)) as [b ->]; [lia|eapply cur_okt; eauto|].
      cbn [bind]. set (n := Z.to_nat MAX_SWAP_STEPS). eexists. split; [reflexivity|].
      assert (SUB : forall e keep, In e (List.filter keep (take n all) ++ drop n all) -> In e all).
      { intros e keep He. rewrite <- (take_drop n all). apply in_app_iff in He as [He|He]; apply in_app_iff; [left|right]; auto.
        apply filter_In in He. tauto. }
      split; [intros c v Hc; apply entries; eapply SUB; eauto|]. split; [apply NoDup_filtered, entries_nodup|].
      intros c v Hc Hv Hd. assert (Ha : In (c, v) all) by (apply entries; auto).
      rewrite <- (take_drop n all) in Ha. apply in_app_iff in Ha as [Ha|Ha]; apply in_app_iff; [left|right; exact Ha].
      apply filter_In. split; [exact Ha|]. destruct d; apply negb_true_iff, Z.ltb_ge; exact Hd.
    - exists all. split; [reflexivity|]. split; [intros; apply entries; auto|]. split; [apply entries_nodup|].
      intros; apply entries; auto. }
  destruct X as (L & -> & L1 & L2 & L3). cbn [bind].
  destruct (part_ticks s k p I Hp' d L L1 L3) as (r & -> & T1 & T2). cbn [bind].
  eexists. eexists. split; [reflexivity|]. split.
  - exact Hp.
  - intros c here Hc. eapply part_bits; eauto.
  - intros lt Hlt. destruct (T1 lt) as (t & Ht & E).
    { destruct fl; [eapply filter_ticks_In; exact Hlt|exact Hlt]. }
    exists t. split; [apply ticks_get_Ok; exact Ht|exact E].
  - intros i t Ht Hi. apply ticks_get_Ok in Ht. pose proof (T2 i t Ht Hi) as Hin. destruct fl; [|exact Hin].
    apply filter_ticks_keep; [exact Hin|]. destruct (I_tick _ I _ _ _ Ht) as [_ T].
    cbn [liquidity_tick_of lt_index]. rewrite (to_index _ _ _ _ T). exact Hi.
Qed.

(** ** A loop has one outcome *)
Lemma takes_det {S} (finished : S -> bool) (body : S -> res S) n st r : takes finished body n st r ->
  forall n' r', takes finished body n' st r' -> n = n' /\ r = r'.
Proof.
  induction 1 as [st Ef|st r Ef Eb Hn|n st st' r Ef Eb T IH]; intros n' r' T';
    inversion T' as [st2 Ef2|st2 r2 Ef2 Eb2 Hn2|n2 st2 st3 r2 Ef2 Eb2 T2]; subst; try congruence; auto.
  all: try solve [exfalso; match goal with H : forall _, _ <> Ok _ |- _ => eapply H; eauto end].
  rewrite Eb in Eb2. injection Eb2 as <-. destruct (IH _ _ T2) as [-> ->]. auto.
Qed.
