(** The structural invariant: pools, ticks, bitmap and positions agree. *)
From Verif Require Import Base Decimal SqrtPriceM LogM ClammM FeeGrowthM Types TickmapM StorageM
  CollectionsM StateM ServiceM Arith SpecMath SpecFees SpecSum SpecState SpecHistory P_Clamm P_TickPrice P_Tickmap
  P_Fees P_Balance P_Effects P_Positions P_History P_Loop P_Check P_State P_Iter.
From stdpp Require Import gmap list.
From Coq Require Import ZArith Lia Bool.
Open Scope Z_scope.

Definition tier_ok (ft : fee_tier) : Prop := 1 <= ft_tick_spacing ft <= 100 /\ 0 <= ft_fee ft < 10 ^ 12.

Record pool_ok (k : pool_key) (p : pool) : Prop := {
  po_tier : tier_ok (pk_fee_tier k);
  po_tokens : pk_token_x k < pk_token_y k;
  po_liq : u256 (p_liquidity p);
  po_range : price_in_range (p_sqrt_price p);
  po_tick : okt (pk_spacing k) (p_current_tick_index p);
  po_lo : price (p_current_tick_index p) <= p_sqrt_price p;
  po_up : valid_tick (p_current_tick_index p + pk_spacing k) ->
          p_sqrt_price p <= price (p_current_tick_index p + pk_spacing k);
  po_max : ~ valid_tick (p_current_tick_index p + pk_spacing k) ->
           p_sqrt_price p = price (p_current_tick_index p);
  po_gx : u128 (p_fee_growth_global_x p);
  po_gy : u128 (p_fee_growth_global_y p);
  po_fx : u256 (p_fee_protocol_token_x p);
  po_fy : u256 (p_fee_protocol_token_y p);
}.

Record tick_ok (s : state) (k : pool_key) (i : Z) (t : tick) : Prop := {
  to_index : t_index t = i;
  to_okt : okt (pk_spacing k) i;
  to_price : t_sqrt_price t = price i;
  to_ox : u128 (t_fee_growth_outside_x t);
  to_oy : u128 (t_fee_growth_outside_y t);
  to_change : u256 (t_liquidity_change t);
  to_gross : t_liquidity_gross t = gross_at s k i;
  to_net : t_net t = net_at s k i;
}.

Record pos_ok (s : state) (pos : position) : Prop := {
  so_pool : is_Some (s_pools s !! pos_pool_key pos);
  so_lt : pos_lower pos < pos_upper pos;
  so_liq : 0 < pos_liquidity pos < M256;
  so_fx : u128 (pos_fee_growth_inside_x pos);
  so_fy : u128 (pos_fee_growth_inside_y pos);
  so_ox : pos_tokens_owed_x pos = 0;
  so_oy : pos_tokens_owed_y pos = 0;
}.

Record Inv (s : state) : Prop := {
  I_fee : u128 (s_protocol_fee s);
  I_tiers : forall ft, ft ∈ s_fee_tiers s -> tier_ok ft;
  I_dense : dense s;
  I_pool : forall k p, s_pools s !! k = Some p -> pool_ok k p;
  I_pos : forall a i pos, s_positions s !! (a, i) = Some pos -> pos_ok s pos;
  I_wf : wf_bitmap (s_bitmap s);
  I_bit1 : forall k n, mem (s_bitmap s) k n = true ->
             exists i, is_Some (s_ticks s !! (k, i)) /\ n = tidx (pk_spacing k) i;
  I_bit2 : forall k i, is_Some (s_ticks s !! (k, i)) -> mem (s_bitmap s) k (tidx (pk_spacing k) i) = true;
  I_tick : forall k i t, s_ticks s !! (k, i) = Some t -> is_Some (s_pools s !! k) /\ tick_ok s k i t;
  I_exists : forall k i, is_Some (s_ticks s !! (k, i)) <-> 0 < gross_at s k i;
}.

(** ** Consequences *)

Lemma pool_spacing k p : pool_ok k p -> 1 <= pk_spacing k <= 100.
Proof. intros H. apply (po_tier _ _ H). Qed.

Lemma tidx_inj s i j : 1 <= s -> okt s i -> okt s j -> tidx s i = tidx s j -> i = j.
Proof. intros Hs [_ Hi] [_ Hj] E. rewrite <- (tidx_ticki s i), <- (tidx_ticki s j) by auto. congruence. Qed.

Lemma Inv_init s k p i : Inv s -> s_pools s !! k = Some p ->
  (init (s_bitmap s) k (pk_spacing k) i <-> is_Some (s_ticks s !! (k, i))).
Proof.
  intros I Hp. pose proof (pool_spacing _ _ (I_pool _ I _ _ Hp)) as Hs. split.
  - intros [Ho Hm]. apply (I_bit1 _ I) in Hm as (j & [t Hj] & E).
    destruct (I_tick _ I _ _ _ Hj) as [_ TO]. pose proof (to_okt _ _ _ _ TO) as Hoj.
    apply tidx_inj in E; auto; [|lia]. subst j. eauto.
  - intros [t Ht]. split; [|apply (I_bit2 _ I); eauto].
    destruct (I_tick _ I _ _ _ Ht) as [_ TO]. apply (to_okt _ _ _ _ TO).
Qed.

Lemma gross_of_nonneg k i pos : 0 <= pos_liquidity pos -> 0 <= gross_of k i pos.
Proof. intros. unfold gross_of. destruct (_ && _); lia. Qed.

Lemma pos_nonneg s a i pos : Inv s -> s_positions s !! (a, i) = Some pos -> 0 < pos_liquidity pos < M256.
Proof. intros I H. apply (so_liq _ _ (I_pos _ I _ _ _ H)). Qed.

Lemma gross_at_ge s k i a n pos : Inv s -> s_positions s !! (a, n) = Some pos ->
  pos_pool_key pos = k -> pos_lower pos = i \/ pos_upper pos = i -> pos_liquidity pos <= gross_at s k i.
Proof.
  intros I H <- Hi. unfold gross_at.
  assert (E : pos_liquidity pos = gross_of (pos_pool_key pos) i pos).
  { unfold gross_of. rewrite bool_decide_eq_true_2 by reflexivity.
    destruct (Z.eqb_spec (pos_lower pos) i), (Z.eqb_spec (pos_upper pos) i); cbn; auto; lia. }
  rewrite E at 1. apply (msum_ge_one _ _ (a, n)); [|exact H].
  intros [b m] q Hq. apply gross_of_nonneg. pose proof (pos_nonneg _ _ _ _ I Hq). lia.
Qed.

Lemma gross_at_nonneg s k i : Inv s -> 0 <= gross_at s k i.
Proof.
  intros I. apply msum_nonneg. intros [b m] q Hq. apply gross_of_nonneg. pose proof (pos_nonneg _ _ _ _ I Hq). lia.
Qed.

Lemma pos_ticks s a n pos : Inv s -> s_positions s !! (a, n) = Some pos ->
  exists p tl tu, s_pools s !! pos_pool_key pos = Some p /\
    s_ticks s !! (pos_pool_key pos, pos_lower pos) = Some tl /\
    s_ticks s !! (pos_pool_key pos, pos_upper pos) = Some tu /\
    tick_ok s (pos_pool_key pos) (pos_lower pos) tl /\ tick_ok s (pos_pool_key pos) (pos_upper pos) tu.
Proof.
  intros I H. pose proof (I_pos _ I _ _ _ H) as PO. destruct (so_pool _ _ PO) as [p Hp].
  assert (G : forall i, pos_lower pos = i \/ pos_upper pos = i ->
    exists t, s_ticks s !! (pos_pool_key pos, i) = Some t /\ tick_ok s (pos_pool_key pos) i t).
  { intros i Hi. destruct (proj2 (I_exists _ I (pos_pool_key pos) i)) as [t Ht].
    - pose proof (gross_at_ge s _ i a n pos I H eq_refl Hi). pose proof (so_liq _ _ PO). lia.
    - exists t. split; [exact Ht|]. apply (I_tick _ I _ _ _ Ht). }
  destruct (G (pos_lower pos)) as (tl & H1 & H2); [auto|].
  destruct (G (pos_upper pos)) as (tu & H3 & H4); [auto|].
  exists p, tl, tu. auto.
Qed.

(** ** Frame *)

Lemma Inv_same s s' : Inv s ->
  u128 (s_protocol_fee s') -> (forall ft, ft ∈ s_fee_tiers s' -> tier_ok ft) ->
  s_pools s' = s_pools s -> same_pos s s' -> same_ticks s s' -> Inv s'.
Proof.
  intros I H1 H2 H3 SP [H5 H6]. pose proof (dense_ext _ _ SP (I_dense _ I)) as HD.
  destruct SP as [H4 H4'].
  constructor; auto.
  - rewrite H3. apply (I_pool _ I).
  - rewrite H4. intros a i pos Hp. destruct (I_pos _ I _ _ _ Hp). constructor; auto. rewrite H3. auto.
  - rewrite H6. apply (I_wf _ I).
  - rewrite H5, H6. apply (I_bit1 _ I).
  - rewrite H5, H6. apply (I_bit2 _ I).
  - rewrite H3, H5. intros k i t Ht. destruct (I_tick _ I _ _ _ Ht) as [Ha [? ? ? ? ? ? G N]].
    split; [auto|]. constructor; auto; unfold gross_at, net_at; rewrite H4; auto.
  - intros k i. unfold gross_at. rewrite H4, H5. apply (I_exists _ I).
Qed.

Lemma Inv_balances B s : Inv s -> Inv (set_balances B s).
Proof. intros I. apply (Inv_same s); [exact I|apply I|apply I|reflexivity|split; reflexivity|split; reflexivity]. Qed.
Lemma Inv_awaiting m s : Inv s -> Inv (set_awaiting m s).
Proof. intros I. apply (Inv_same s); [exact I|apply I|apply I|reflexivity|split; reflexivity|split; reflexivity]. Qed.
Lemma Inv_balances_inv B s : Inv (set_balances B s) -> Inv s.
Proof. intros I. apply (Inv_same (set_balances B s)); [exact I|apply I|apply I|reflexivity|split; reflexivity|split; reflexivity]. Qed.

(** Replacing or adding a pool. *)
Lemma Inv_set_pool s k p : Inv s -> pool_ok k p -> Inv (set_pools (<[k := p]> (s_pools s)) s).
Proof.
  intros I H.
  assert (M : forall k', is_Some (s_pools s !! k') -> is_Some (<[k := p]> (s_pools s) !! k')).
  { intros k' Hk. destruct (decide (k' = k)) as [->|Hne]; [rewrite lookup_insert; eauto|rewrite lookup_insert_ne by congruence; auto]. }
  constructor; cbn [set_pools s_protocol_fee s_fee_tiers s_pools s_positions s_bitmap s_ticks]; try apply I.
  - intros k' p' Hk. apply lookup_insert_Some in Hk as [[-> ->]|[_ Hk]]; [auto|]. apply (I_pool _ I _ _ Hk).
  - intros a i pos Hp. destruct (I_pos _ I _ _ _ Hp). constructor; cbn [set_pools s_pools]; auto.
  - intros k' i t Ht. destruct (I_tick _ I _ _ _ Ht) as [Ha [? ? ? ? ? ? G N]].
    split; [apply M; auto|]. constructor; auto.
Qed.

Lemma Inv_pool_keys s v w n : Inv s -> Inv (set_pool_keys v w n s).
Proof. intros I. apply (Inv_same s); [exact I|apply I|apply I|reflexivity|split; reflexivity|split; reflexivity]. Qed.

Lemma Inv_state_init admin fee : u128 fee -> Inv (init_state admin fee).
Proof.
  intros Hf. constructor; cbn [init_state s_protocol_fee s_fee_tiers s_pools s_positions s_bitmap s_ticks]; auto.
  - intros ft H. apply elem_of_nil in H as [].
  - apply dense_init.
  - intros k p H. rewrite lookup_empty in H. discriminate.
  - intros a i p H. rewrite lookup_empty in H. discriminate.
  - intros c k. unfold chunk_at. rewrite lookup_empty. cbn. lia.
  - intros k n H. unfold mem, chunk_at in H. rewrite lookup_empty in H. cbn [from_option] in H.
    unfold default, id in H. rewrite Z.bits_0 in H. discriminate.
  - intros k i [t H]. rewrite lookup_empty in H. discriminate.
  - intros k i t H. rewrite lookup_empty in H. discriminate.
  - intros k i. unfold gross_at. cbn [init_state s_positions]. rewrite msum_empty, lookup_empty. split; [intros [? [=]]|lia].
Qed.

(** ** Positions map *)

Lemma removed_msum f s a i lp pos :
  s_positions s !! (a, i) = Some pos ->
  (match lp with Some q => i < last_index s a /\ s_positions s !! (a, last_index s a) = Some q
               | None => last_index s a <= i end) ->
  msum f (removed_positions s a i lp) = msum f (s_positions s) - f pos.
Proof.
  intros H HL. unfold removed_positions. destruct lp as [q|].
  - destruct HL as [Hlt Hq].
    rewrite (msum_update _ _ _ pos), (msum_delete _ _ _ q) by
      (try rewrite lookup_delete_ne by (intros [= Hx]; lia); auto).
    lia.
  - rewrite (msum_delete _ _ _ pos) by auto. lia.
Qed.

Lemma removed_lookup s a i lp b j q :
  (match lp with Some q => i < last_index s a /\ s_positions s !! (a, last_index s a) = Some q
               | None => last_index s a <= i end) ->
  removed_positions s a i lp !! (b, j) = Some q ->
  exists j', s_positions s !! (b, j') = Some q.
Proof.
  unfold removed_positions. intros HL H. destruct lp as [r|].
  - destruct HL as [_ HL]. apply lookup_insert_Some in H as [[[= <- <-] <-]|[_ H]]; [eauto|].
    apply lookup_delete_Some in H as [_ H]. eauto.
  - apply lookup_delete_Some in H as [_ H]. eauto.
Qed.

Lemma dense_fresh s a : dense s -> s_positions s !! (a, positions_get_length s a) = None.
Proof.
  intros D. destruct (D a) as [_ HD]. apply eq_None_not_Some. intros H. apply HD in H. lia.
Qed.

(** Contribution of one position to the sums. *)
Lemma gross_of_pos k i pos : pos_lower pos < pos_upper pos ->
  gross_of k i pos = if bool_decide (pos_pool_key pos = k)
    then (if pos_lower pos =? i then pos_liquidity pos else 0) + (if pos_upper pos =? i then pos_liquidity pos else 0)
    else 0.
Proof.
  intros H. unfold gross_of. destruct (bool_decide _); cbn [andb]; [|reflexivity].
  destruct (Z.eqb_spec (pos_lower pos) i), (Z.eqb_spec (pos_upper pos) i); cbn [orb]; lia.
Qed.
