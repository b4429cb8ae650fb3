(** C13 - C15: the tick bitmap.

    [tickmap_get b t s k = Ok true] is what the query is_tick_initialized
    reports for tick t of pool k (spacing s).  [wf_bitmap b] says that every
    stored chunk is a 64-bit word; it holds initially and is preserved by every
    update ([C13_flip_effect]). *)
From Verif Require Import Base Decimal SqrtPriceM Types TickmapM Arith SpecMath P_Clamm P_TickPrice P_Tickmap P_Closer.
From stdpp Require Import gmap.
From Coq Require Import ZArith Lia Bool.
Open Scope Z_scope.

(** ** C13 *)
(** Every aligned tick has a position, and only these. *)
Theorem C13_position_total t s : 1 <= s <= 100 ->
  (-221818 <= t <= 221818 /\ (s | t)) <-> exists c bit, tick_to_position t s = Ok (c, bit).
Proof.
  intros Hs. split.
  - intros H. do 2 eexists. apply tick_to_position_ok; [lia|exact H].
  - intros (c & bit & H). apply tick_to_position_inv in H; [exact H|lia].
Qed.

Theorem C13_position_bounds t s c bit : 1 <= s <= 100 -> tick_to_position t s = Ok (c, bit) ->
  0 <= bit < 64 /\ 0 <= c < 2 ^ 16 /\ exists m, get_max_chunk s = Ok m /\ c <= m.
Proof.
  intros Hs H. pose proof (tick_to_position_inv s t (c, bit) ltac:(lia) H) as Ho.
  rewrite tick_to_position_ok in H by (auto; lia). injection H as <- <-.
  pose proof (okt_tidx s t ltac:(lia) Ho) as HI. pose proof (Z.mod_pos_bound (tidx s t) 64 ltac:(lia)).
  assert (HM : MX / s <= 221818) by (apply div_le_upper; unfold MX; nia).
  assert (0 <= MX / s) by (apply div_nonneg; unfold MX; lia).
  split; [lia|]. split.
  - split; [apply div_nonneg; lia|]. apply div_lt_upper; lia.
  - unfold get_max_chunk, get_max_tick, i32_div. destruct (Z.eqb_spec s 0); [lia|]. cbn [bind].
    eexists. split; [reflexivity|]. change MAX_TICK with MX. unfold CHUNK_SIZE.
    rewrite (Z.quot_div_nonneg MX s) by (unfold MX; lia).
    rewrite (Z.quot_div_nonneg (MX / s * s + MX) s) by (unfold MX in *; nia).
    replace (MX / s * s + MX) with (MX + (MX / s) * s) by lia. rewrite Z.div_add by lia.
    rewrite Z.quot_div_nonneg by lia. apply Z.div_le_mono; lia.
Qed.

(** position_to_tick undoes tick_to_position, so the mapping is injective. *)
Theorem C13_position_inverse t s c bit : 1 <= s <= 100 ->
  tick_to_position t s = Ok (c, bit) -> position_to_tick c bit s = Ok t.
Proof.
  intros Hs H. pose proof (tick_to_position_inv s t (c, bit) ltac:(lia) H) as Ho.
  rewrite tick_to_position_ok in H by (auto; lia). injection H as <- <-.
  unfold position_to_tick, get_max_tick, i32_div. destruct (Z.eqb_spec s 0); [lia|]. cbn [bind]. f_equal.
  rewrite <- (tidx_ticki s t) at 3 by (try lia; apply Ho).
  unfold ticki, MAX_TICK, MX, CHUNK_SIZE. rewrite (Z.quot_div_nonneg 221818) by lia.
  rewrite (Z.div_mod (tidx s t) 64) at 3 by lia. ring.
Qed.

Theorem C13_position_injective t1 t2 s q : 1 <= s <= 100 ->
  tick_to_position t1 s = Ok q -> tick_to_position t2 s = Ok q -> t1 = t2.
Proof.
  intros Hs H1 H2. destruct q as [c bit].
  apply C13_position_inverse in H1, H2; auto. congruence.
Qed.

(** A successful flip to [v] finds the tick in the opposite state and changes
    exactly that tick of that pool. *)
Theorem C13_flip_effect b b' v t s k : 1 <= s <= 100 -> tickmap_flip b v t s k = Ok b' ->
  tickmap_get b t s k = Ok (negb v) /\ tickmap_get b' t s k = Ok v /\
  (forall t' k', ~ (t' = t /\ k' = k) -> tickmap_get b' t' s k' = tickmap_get b t' s k') /\
  (forall t' s' k', 1 <= s' <= 100 -> k' <> k -> tickmap_get b' t' s' k' = tickmap_get b t' s' k') /\
  (wf_bitmap b -> wf_bitmap b').
Proof.
  intros Hs H. destruct (tickmap_flip_inv b k s t v b' ltac:(lia) H) as (Ho & Hm & HW & HM).
  assert (G : forall t' s' k', 1 <= s' -> ~ okt s' t' -> tickmap_get b' t' s' k' = tickmap_get b t' s' k').
  { intros t' s' k' Hs' Hn. unfold tickmap_get. destruct (tick_to_position t' s') as [[c bit]| | |] eqn:E; try reflexivity.
    exfalso. apply Hn. eapply tick_to_position_inv; eauto. }
  assert (D : forall s' t', okt s' t' \/ ~ okt s' t').
  { intros s' t'. unfold okt. destruct (Z_le_gt_dec (-221818) t'); [|right; lia]. destruct (Z_le_gt_dec t' 221818); [|right; lia].
    destruct (Znumtheory.Zdivide_dec s' t'); [left; auto|right; tauto]. }
  split; [rewrite tickmap_get_ok by (auto; lia); congruence|].
  split; [rewrite tickmap_get_ok, HM by (auto; lia); destruct (decide _) as [|N]; [auto|exfalso; apply N; auto]|].
  split; [|split; [|auto]].
  - intros t' k' Hn. destruct (D s t') as [Ho'|Ho']; [|apply G; auto; lia].
    rewrite !tickmap_get_ok, HM by (auto; lia). destruct (decide _) as [[E ->]|]; [|auto].
    exfalso. apply Hn. split; auto. rewrite <- (tidx_ticki s t), <- (tidx_ticki s t') by (try lia; apply Ho || apply Ho'). congruence.
  - intros t' s' k' Hs' Hn. destruct (D s' t') as [Ho'|Ho']; [|apply G; auto; lia].
    rewrite !tickmap_get_ok, HM by (auto; lia). destruct (decide _) as [[E ->]|]; [|auto]. exfalso; auto.
Qed.

(** Flipping to the value the tick already has fails; otherwise it succeeds. *)
Theorem C13_flip_total b v t s k cur : 1 <= s <= 100 -> tickmap_get b t s k = Ok cur ->
  (cur = v -> tickmap_flip b v t s k = Panic) /\ (cur <> v -> exists b', tickmap_flip b v t s k = Ok b').
Proof.
  intros Hs H.
  assert (Ho : okt s t).
  { unfold tickmap_get in H. inv_res. eapply tick_to_position_inv; eauto. lia. }
  rewrite tickmap_get_ok in H by (auto; lia). injection H as <-.
  pose proof (tickmap_flip_spec b k s t v ltac:(lia) Ho) as HS.
  destruct (mem b k (tidx s t)), v; cbn [Bool.eqb] in HS; split; intros E; try congruence; destruct HS as (b' & HS & _); eauto.
Qed.

Theorem C13_empty_map t s k : 1 <= s <= 100 -> -221818 <= t <= 221818 -> (s | t) ->
  wf_bitmap ∅ /\ tickmap_get ∅ t s k = Ok false.
Proof.
  intros Hs Ht Hd. split.
  - intros c k'. unfold chunk_at. rewrite lookup_empty. cbn. lia.
  - rewrite tickmap_get_ok by (try lia; split; auto). unfold mem, chunk_at. rewrite lookup_empty. cbn [default]. rewrite Z.bits_0. reflexivity.
Qed.

Definition ex_key : pool_key := mkPoolKey 1 2 (mkFeeTier 1000000000 10).
Definition ex_map : res bitmap :=
  let* b := tickmap_flip ∅ true (-221810) 10 ex_key in
  let* b := tickmap_flip b true (-20) 10 ex_key in
  let* b := tickmap_flip b true 30 10 ex_key in
  tickmap_flip b true 1510 10 ex_key.
Definition on_map {A} (f : bitmap -> res A) : res A := let* b := ex_map in f b.
Example C13_case :
  on_map (fun b => tickmap_get b 30 10 ex_key) = Ok true /\ on_map (fun b => tickmap_get b 40 10 ex_key) = Ok false /\
  on_map (fun b => tickmap_flip b true 30 10 ex_key) = Panic /\ tick_to_position 30 10 = Ok (346, 40).
Proof. repeat split; vm_compute; reflexivity. Qed.

(** ** C14 *)
(** Search upwards: nearest initialized tick strictly above, within 256
    spacings and the largest aligned tick. *)
Theorem C14_next_initialized b t s k : wf_bitmap b -> 1 <= s <= 100 -> -221818 <= t <= 221818 -> (s | t) ->
  exists r, next_initialized b t s k = Ok r /\
  match r with
  | Some u => t < u <= t + 256 * s /\ tickmap_get b u s k = Ok true /\
              forall v, t < v < u -> tickmap_get b v s k <> Ok true
  | None => forall v, t < v <= t + 256 * s -> tickmap_get b v s k <> Ok true
  end.
Proof.
  intros W Hs Ht Hd. destruct (next_initialized_spec b k s t W ltac:(lia) (conj Ht Hd)) as (r & H1 & H2).
  exists r. split; auto. destruct r as [u|].
  - destruct H2 as (H2 & H3 & H4). split; [lia|]. split; [apply init_get; auto; lia|].
    intros v Hv Hg. apply (H4 v Hv). apply init_get; auto; lia.
  - intros v Hv Hg. apply init_get in Hg; [|lia]. apply (H2 v); auto.
    destruct Hg as [Ho _]. apply okt_bounds in Ho; [|lia]. lia.
Qed.

(** Search downwards: nearest initialized tick at or below. *)
Theorem C14_prev_initialized b t s k : wf_bitmap b -> 1 <= s <= 100 -> -221818 <= t <= 221818 -> (s | t) ->
  exists r, prev_initialized b t s k = Ok r /\
  match r with
  | Some u => t - 256 * s <= u <= t /\ tickmap_get b u s k = Ok true /\
              forall v, u < v <= t -> tickmap_get b v s k <> Ok true
  | None => forall v, t - 256 * s <= v <= t -> tickmap_get b v s k <> Ok true
  end.
Proof.
  intros W Hs Ht Hd. destruct (prev_initialized_spec b k s t W ltac:(lia) (conj Ht Hd)) as (r & H1 & H2).
  exists r. split; auto. destruct r as [u|].
  - destruct H2 as (H2 & H3 & H4). split; [lia|]. split; [apply init_get; auto; lia|].
    intros v Hv Hg. apply (H4 v Hv). apply init_get; auto; lia.
  - intros v Hv Hg. apply init_get in Hg; [|lia]. apply (H2 v); auto.
    destruct Hg as [Ho _]. apply okt_bounds in Ho; [|lia]. lia.
Qed.

Example C14_case :
  on_map (fun b => next_initialized b 0 10 ex_key) = Ok (Some 30) /\
  on_map (fun b => next_initialized b 30 10 ex_key) = Ok (Some 1510) /\
  on_map (fun b => next_initialized b 1510 10 ex_key) = Ok None /\
  on_map (fun b => prev_initialized b 30 10 ex_key) = Ok (Some 30) /\
  on_map (fun b => prev_initialized b 20 10 ex_key) = Ok (Some (-20)) /\
  on_map (fun b => prev_initialized b (-30) 10 ex_key) = Ok None.
Proof. repeat split; vm_compute; reflexivity. Qed.

(** ** C15 *)
(** Towards lower prices.  [cur], [p]: the pool's tick and price, which agree in
    every reachable state (C24). *)
Theorem C15_target_down b k s p lim cur pc target lt :
  wf_bitmap b -> 1 <= s <= 100 -> -221818 <= cur <= 221818 -> (s | cur) ->
  calculate_sqrt_price cur = Ok pc -> pc <= p -> lim <= p ->
  get_closer_limit b lim true cur s k = Ok (target, lt) ->
  lim <= target <= p /\
  (forall v pv, v <= cur -> tickmap_get b v s k = Ok true -> calculate_sqrt_price v = Ok pv -> pv <= target) /\
  match lt with
  | Some (u, i) => u <= cur /\ calculate_sqrt_price u = Ok target /\ tickmap_get b u s k = Ok i
  | None => target = lim
  end.
Proof.
  intros W Hs Ht Hd Ec Hp Hlim HG. pose proof (conj Ht Hd : okt s cur) as Ho.
  pose proof (get_closer_limit_down b k s lim cur W ltac:(lia) Ho) as HC. rewrite HG in HC.
  rewrite calculate_sqrt_price_valid in Ec by exact Ht. injection Ec as <-.
  assert (CP : forall v pv, tickmap_get b v s k = Ok true -> calculate_sqrt_price v = Ok pv -> init b k s v /\ valid_tick v /\ pv = price v).
  { intros v pv Hg Hv. apply init_get in Hg; [|lia]. split; [auto|]. pose proof (okt_valid s v (proj1 Hg)) as V.
    split; auto. rewrite calculate_sqrt_price_valid in Hv by auto. congruence. }
  assert (PL : forall u v, okt s u -> okt s v -> u <= v -> price u <= price v).
  { intros u v Hu Hv. apply price_le; eapply okt_valid; eauto. }
  pose proof (okt_down s cur ltac:(lia) Ho) as Hol. fold (lo_lim s cur) in Hol.
  inversion HC as [u A1 A2 A3 A4|u A1 A2 A3 A4|A1 A2|A1 A2 A3|A1 A2 A3]; subst; clear HC.
  - split; [|split].
    + pose proof (PL u cur (proj1 A2) Ho ltac:(lia)). lia.
    + intros v pv Hv Hg Hpv. destruct (CP v pv Hg Hpv) as (Hi & Vv & ->).
      apply PL; [apply Hi|apply A2|]. destruct (Z.le_gt_cases v u); auto. exfalso. apply (A3 v); auto; lia.
    + split; [lia|]. split; [apply calculate_sqrt_price_valid; eapply okt_valid; apply A2|]. apply init_get; auto; lia.
  - split; [|split]; [lia| |auto].
    intros v pv Hv Hg Hpv. destruct (CP v pv Hg Hpv) as (Hi & Vv & ->).
    assert (price v <= price u); [|lia].
    apply PL; [apply Hi|apply A2|]. destruct (Z.le_gt_cases v u); auto. exfalso. apply (A3 v); auto; lia.
  - split; [|split].
    + pose proof (PL (lo_lim s cur) cur Hol Ho ltac:(lia)). lia.
    + intros v pv Hv Hg Hpv. destruct (CP v pv Hg Hpv) as (Hi & Vv & ->).
      apply PL; [apply Hi|auto|]. destruct (Z.le_gt_cases v (lo_lim s cur)); auto. exfalso. apply (A1 v); auto; lia.
    + split; [lia|]. split; [apply calculate_sqrt_price_valid; eapply okt_valid; apply Hol|].
      rewrite tickmap_get_ok by (auto; lia). f_equal. destruct (mem b k (tidx s (lo_lim s cur))) eqn:E; auto.
      exfalso. apply (A1 (lo_lim s cur)); [lia|split; auto].
  - split; [|split]; [lia| |auto].
    intros v pv Hv Hg Hpv. destruct (CP v pv Hg Hpv) as (Hi & Vv & ->).
    assert (price v <= price (lo_lim s cur)); [|lia].
    apply PL; [apply Hi|auto|]. destruct (Z.le_gt_cases v (lo_lim s cur)); auto. exfalso. apply (A1 v); auto; lia.
Qed.

(** Towards higher prices. *)
Theorem C15_target_up b k s p lim cur target lt :
  wf_bitmap b -> 1 <= s <= 100 -> -221818 <= cur <= 221818 -> (s | cur) ->
  (forall pn, calculate_sqrt_price (cur + s) = Ok pn -> p <= pn) -> p <= lim ->
  get_closer_limit b lim false cur s k = Ok (target, lt) ->
  p <= target <= lim /\
  (forall v pv, cur < v -> tickmap_get b v s k = Ok true -> calculate_sqrt_price v = Ok pv -> target <= pv) /\
  match lt with
  | Some (u, i) => cur < u /\ calculate_sqrt_price u = Ok target /\ tickmap_get b u s k = Ok i
  | None => target = lim
  end.
Proof.
  intros W Hs Ht Hd Hp Hlim HG. pose proof (conj Ht Hd : okt s cur) as Ho.
  pose proof (get_closer_limit_up b k s lim cur W ltac:(lia) Ho) as HC. rewrite HG in HC.
  assert (CP : forall v pv, tickmap_get b v s k = Ok true -> calculate_sqrt_price v = Ok pv -> init b k s v /\ valid_tick v /\ pv = price v).
  { intros v pv Hg Hv. apply init_get in Hg; [|lia]. split; [auto|]. pose proof (okt_valid s v (proj1 Hg)) as V.
    split; auto. rewrite calculate_sqrt_price_valid in Hv by auto. congruence. }
  assert (PL : forall u v, okt s u -> okt s v -> u <= v -> price u <= price v).
  { intros u v Hu Hv. apply price_le; eapply okt_valid; eauto. }
  pose proof (okt_up s cur ltac:(lia) Ho) as Hol. fold (hi_lim s cur) in Hol.
  assert (PU : forall u, okt s u -> cur < u -> p <= price u).
  { intros u Hu Hlt. assert (cur + s <= u).
    { destruct Hu as [_ [q ->]]. destruct Hd as [q' ->].
      assert (q' < q) by (apply Z.mul_lt_mono_pos_r with s; lia).
      assert ((q' + 1) * s <= q * s) by (apply Z.mul_le_mono_nonneg_r; lia). lia. }
    assert (Hos : okt s (cur + s)).
    { destruct Hu as [Hu _]. split; [lia|]. destruct Hd as [q ->]. exists (q + 1). lia. }
    specialize (Hp (price (cur + s)) (calculate_sqrt_price_valid _ (okt_valid _ _ Hos))).
    pose proof (PL (cur + s) u Hos Hu ltac:(lia)). lia. }
  inversion HC as [u A1 A2 A3 A4|u A1 A2 A3 A4|A1 A2|A1 A2 A3|A1 A2 A3]; subst; clear HC.
  - split; [|split].
    + pose proof (PU u (proj1 A2) ltac:(lia)). lia.
    + intros v pv Hv Hg Hpv. destruct (CP v pv Hg Hpv) as (Hi & Vv & ->).
      apply PL; [apply A2|apply Hi|]. destruct (Z.le_gt_cases u v); auto. exfalso. apply (A3 v); auto; lia.
    + split; [lia|]. split; [apply calculate_sqrt_price_valid; eapply okt_valid; apply A2|]. apply init_get; auto; lia.
  - split; [|split]; [lia| |auto].
    intros v pv Hv Hg Hpv. destruct (CP v pv Hg Hpv) as (Hi & Vv & ->).
    assert (price u <= price v); [|lia].
    apply PL; [apply A2|apply Hi|]. destruct (Z.le_gt_cases u v); auto. exfalso. apply (A3 v); auto; lia.
  - split; [|split].
    + pose proof (PU (hi_lim s cur) Hol ltac:(lia)). lia.
    + intros v pv Hv Hg Hpv. destruct (CP v pv Hg Hpv) as (Hi & Vv & ->).
      apply PL; [auto|apply Hi|]. destruct (Z.le_gt_cases (hi_lim s cur) v); auto. exfalso. apply (A1 v); auto; lia.
    + split; [lia|]. split; [apply calculate_sqrt_price_valid; eapply okt_valid; apply Hol|].
      rewrite tickmap_get_ok by (auto; lia). f_equal. destruct (mem b k (tidx s (hi_lim s cur))) eqn:E; auto.
      exfalso. apply (A1 (hi_lim s cur)); [lia|split; auto].
  - split; [|split]; [lia| |auto].
    intros v pv Hv Hg Hpv. destruct (CP v pv Hg Hpv) as (Hi & Vv & ->).
    assert (price (hi_lim s cur) <= price v); [|lia].
    apply PL; [auto|apply Hi|]. destruct (Z.le_gt_cases (hi_lim s cur) v); auto. exfalso. apply (A1 v); auto; lia.
Qed.

Example C15_case :
  on_map (fun b => get_closer_limit b MIN_SQRT_PRICE true 0 10 ex_key)
    = Ok (999000549780000000000000, Some (-20, true)) /\
  on_map (fun b => get_closer_limit b MAX_SQRT_PRICE false 30 10 ex_key)
    = Ok (1078419156925000000000000, Some (1510, true)) /\
  on_map (fun b => get_closer_limit b MAX_SQRT_PRICE false 221810 10 ex_key) = Err TickLimitReached.
Proof. repeat split; vm_compute; reflexivity. Qed.

(** ** Assumptions *)
Print Assumptions C13_position_total.
Print Assumptions C13_position_bounds.
Print Assumptions C13_position_inverse.
Print Assumptions C13_position_injective.
Print Assumptions C13_flip_effect.
Print Assumptions C13_flip_total.
Print Assumptions C13_empty_map.
Print Assumptions C14_next_initialized.
Print Assumptions C14_prev_initialized.
Print Assumptions C15_target_down.
Print Assumptions C15_target_up.
