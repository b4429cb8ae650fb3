(** The structural invariant and swaps. *)
From Verif Require Import Base Decimal SqrtPriceM LogM ClammM FeeGrowthM Types TickmapM StorageM
  CollectionsM StateM ServiceM Arith SpecMath SpecFees SpecSum SpecState SpecHistory P_Clamm P_Delta P_Next P_Step
  P_StepProps P_TickPrice P_GetTick P_Tickmap P_Closer
  P_Fees P_Balance P_Effects P_Positions P_History P_Loop P_Check P_State P_Iter P_Inv P_InvPos.
From stdpp Require Import gmap list.
From Coq Require Import ZArith Lia Bool.
Open Scope Z_scope.

(** ** Small facts *)

Lemma okt_step s i j : 1 <= s -> okt s i -> okt s j -> i < j -> i + s <= j.
Proof. intros Hs [_ [a ->]] [_ [b ->]] H. assert (a < b) by nia. nia. Qed.
Lemma okt_between s c i : 1 <= s -> okt s c -> okt s i -> c - s < i <= c -> i = c.
Proof. intros Hs [_ [a ->]] [_ [b ->]] H. assert (a - 1 < b <= a) by nia. nia. Qed.

Lemma pool_price_max k p : pool_ok k p -> p_sqrt_price p <= price (maxt (pk_spacing k)).
Proof.
  intros PO. pose proof (pool_spacing _ _ PO) as Hs.
  pose proof (po_tick _ _ PO) as Ho. pose proof (proj1 (okt_bounds (pk_spacing k) _ ltac:(lia)) Ho) as [HB HD].
  assert (Hm : okt (pk_spacing k) (maxt (pk_spacing k))).
  { apply okt_bounds; [lia|]. unfold mint, maxt, MX. split; [|exists (221818 / pk_spacing k); lia].
    pose proof (div_nonneg 221818 (pk_spacing k) ltac:(lia) ltac:(lia)). nia. }
  destruct Ho as [Ho1 Ho2]. destruct Hm as [Hm1 Hm2].
  destruct (Z.le_gt_cases (p_current_tick_index p + pk_spacing k) 221818).
  - pose proof (po_up _ _ PO ltac:(unfold valid_tick; lia)) as HU.
    assert (p_current_tick_index p + pk_spacing k <= maxt (pk_spacing k)).
    { assert (okt (pk_spacing k) (p_current_tick_index p + pk_spacing k)) as Hx.
      { split; [lia|]. apply Z.divide_add_r; [auto|exists 1; lia]. }
      apply okt_bounds in Hx; [|lia]. lia. }
    eapply Z.le_trans; [exact HU|]. apply price_le; unfold valid_tick; lia.
  - pose proof (po_max _ _ PO ltac:(unfold valid_tick; lia)) as HU. rewrite HU. apply price_le; unfold valid_tick; lia.
Qed.

(** [if d then A else B] as a proposition. *)
Definition dirP (d : bool) (A B : Prop) : Prop := if d then A else B.

(** ** The target of a step *)

Lemma closer_facts s k p d lim target lt :
  Inv s -> s_pools s !! k = Some p ->
  dirP d (lim < p_sqrt_price p) (p_sqrt_price p < lim) ->
  get_closer_limit (s_bitmap s) lim d (p_current_tick_index p) (pk_spacing k) k = Ok (target, lt) ->
  price_in_range target /\
  dirP d (lim <= target <= p_sqrt_price p) (p_sqrt_price p <= target <= lim) /\
  match lt with
  | Some (i, b) =>
      target = price i /\ okt (pk_spacing k) i /\
      dirP d (i <= p_current_tick_index p) (p_current_tick_index p < i) /\
      (b = true -> is_Some (s_ticks s !! (k, i))) /\ (b = false -> s_ticks s !! (k, i) = None) /\
      (forall v, dirP d (i < v <= p_current_tick_index p) (p_current_tick_index p < v < i) -> s_ticks s !! (k, v) = None) /\
      target <> lim /\ (b = false -> i <> p_current_tick_index p)
  | None =>
      target = lim /\ exists j, okt (pk_spacing k) j /\
      dirP d (j <= p_current_tick_index p /\ price j <= lim) (p_current_tick_index p < j /\ lim <= price j) /\
      (forall v, dirP d (j < v <= p_current_tick_index p) (p_current_tick_index p < v < j) -> s_ticks s !! (k, v) = None)
  end.
Proof.
  intros I Hp Hlim H. pose proof (I_pool _ I _ _ Hp) as PO. pose proof (pool_spacing _ _ PO) as Hs.
  pose proof (po_tick _ _ PO) as Ho. set (c := p_current_tick_index p) in *. set (sp := pk_spacing k) in *.
  assert (NI : forall v, ~ init (s_bitmap s) k sp v -> s_ticks s !! (k, v) = None).
  { intros v Hv. destruct (s_ticks s !! (k, v)) eqn:E; [|reflexivity]. exfalso. apply Hv.
    apply (Inv_init s k p v I Hp). eauto. }
  assert (IN : forall v, init (s_bitmap s) k sp v -> is_Some (s_ticks s !! (k, v))).
  { intros v Hv. apply (Inv_init s k p v I Hp). auto. }
  pose proof (po_range _ _ PO) as HR. pose proof (po_lo _ _ PO) as Hlo. fold c in Hlo.
  pose proof (okt_valid _ _ Ho) as Hvc.
  destruct d; cbn [dirP] in *.
  - pose proof (get_closer_limit_down (s_bitmap s) k sp lim c (I_wf _ I) ltac:(lia) Ho) as HC.
    fold sp in H. rewrite H in HC.
    pose proof (okt_down sp c ltac:(lia) Ho) as Hol. fold (lo_lim sp c) in Hol.
    pose proof (okt_valid _ _ Hol) as Hvl.
    inversion HC as [u Hu Hi Hn Hl Eq|u Hu Hi Hn Hl Eq| |Hn Hc Hl Eq|Hn Hc Hl Eq]; subst target lt.
    + assert (Hvu : valid_tick u) by (apply (okt_valid sp); apply Hi).
      pose proof (price_le u c Hvu Hvc ltac:(lia)).
      split; [apply price_range; auto|]. split; [lia|]. split; [reflexivity|]. split; [apply Hi|]. split; [lia|].
      split; [auto|]. split; [discriminate|]. split; [intros v Hv; apply NI, Hn; auto|]. split; [lia|discriminate].
    + assert (Hvu : valid_tick u) by (apply (okt_valid sp); apply Hi).
      pose proof (price_range u Hvu) as Hru. unfold price_in_range in *.
      split; [lia|]. split; [lia|]. split; [reflexivity|]. exists u. split; [apply Hi|]. split; [lia|].
      intros v Hv; apply NI, Hn; auto.
    + pose proof (price_le _ c Hvl Hvc ltac:(lia)).
      split; [apply price_range; auto|]. split; [lia|]. split; [reflexivity|]. split; [auto|]. split; [lia|].
      split; [discriminate|]. split; [intros _; apply NI, Hn; lia|]. split; [intros v Hv; apply NI, Hn; lia|]. split; [lia|intros _; lia].
    + pose proof (price_range _ Hvl) as Hru. unfold price_in_range in *.
      split; [lia|]. split; [lia|]. split; [reflexivity|]. exists (lo_lim sp c). split; [auto|]. split; [lia|].
      intros v Hv; apply NI, Hn; lia.
  - pose proof (get_closer_limit_up (s_bitmap s) k sp lim c (I_wf _ I) ltac:(lia) Ho) as HC.
    fold sp in H. rewrite H in HC.
    pose proof (okt_up sp c ltac:(lia) Ho) as Hol. fold (hi_lim sp c) in Hol.
    pose proof (okt_valid _ _ Hol) as Hvl.
    assert (UP : forall u, okt sp u -> c < u -> p_sqrt_price p <= price u).
    { intros u Hu Hcu. pose proof (okt_step sp c u ltac:(lia) Ho Hu Hcu) as Hst.
      assert (Hvs : valid_tick (c + sp)) by (destruct Hu, Ho; unfold valid_tick; lia).
      pose proof (po_up _ _ PO Hvs) as HU. fold sp c in HU.
      eapply Z.le_trans; [exact HU|]. apply price_le; auto. apply (okt_valid sp); auto. }
    inversion HC as [u Hu Hi Hn Hl Eq|u Hu Hi Hn Hl Eq| |Hn Hc Hl Eq|Hn Hc Hl Eq]; subst target lt.
    + assert (Hvu : valid_tick u) by (apply (okt_valid sp); apply Hi).
      pose proof (UP u ltac:(apply Hi) ltac:(lia)).
      split; [apply price_range; auto|]. split; [lia|]. split; [reflexivity|]. split; [apply Hi|]. split; [lia|].
      split; [auto|]. split; [discriminate|]. split; [intros v Hv; apply NI, Hn; auto|]. split; [lia|discriminate].
    + assert (Hvu : valid_tick u) by (apply (okt_valid sp); apply Hi).
      pose proof (price_range u Hvu) as Hru. unfold price_in_range in *.
      split; [lia|]. split; [lia|]. split; [reflexivity|]. exists u. split; [apply Hi|]. split; [lia|].
      intros v Hv; apply NI, Hn; auto.
    + pose proof (UP _ Hol Hc).
      split; [apply price_range; auto|]. split; [lia|]. split; [reflexivity|]. split; [auto|]. split; [lia|].
      split; [discriminate|]. split; [intros _; apply NI, Hn; lia|]. split; [intros v Hv; apply NI, Hn; lia|]. split; [lia|intros _; lia].
    + pose proof (price_range _ Hvl) as Hru. unfold price_in_range in *.
      split; [lia|]. split; [lia|]. split; [reflexivity|]. exists (hi_lim sp c). split; [auto|]. split; [lia|].
      intros v Hv; apply NI, Hn; lia.
Qed.

(** ** The amounts of a step *)

Lemma step_amounts p t L a bi fee r :
  price_in_range p -> price_in_range t -> u256 L -> u256 a -> 0 <= fee <= E12 ->
  compute_swap_step p t L a bi fee = Ok r ->
  u256 (sr_amount_in r) /\ u256 (sr_amount_out r) /\ u256 (sr_fee_amount r) /\
  (L = 0 -> sr_amount_in r = 0 /\ sr_amount_out r = 0 /\ sr_fee_amount r = 0 /\ sr_next_sqrt_price r = t).
Proof.
  intros Hp Ht HL Ha Hf Hr.
  destruct (step_fields p t L a bi fee Hp Ht HL Ha Hf r Hr) as [(E0 & E1 & E2 & E3 & E4)|(H0 & E1 & E2 & E3 & E4 & E5)].
  - rewrite E2, E3, E4. unfold u256. repeat split; auto; lia.
  - pose proof (step_next_wide p t L a bi fee Hp Ht HL H0 Ha Hf) as (Hw & _).
    set (n := step_next p t L a bi fee) in *. clearbody n.
    pose proof (range_wide p Hp) as Hpw.
    assert (U1 : u256 (step_in p t L n)).
    { unfold step_in. destruct (t <=? p); [apply Xup_u256|apply Yup_u256]; auto. }
    assert (U2 : u256 (step_out p t L n)).
    { unfold step_out. destruct (t <=? p); [apply Ydn_u256|apply Xdn_u256]; auto. }
    split; [rewrite E2; auto|]. apply u256_M in U1, U2, Ha. split; [|split; [|lia]]; apply u256_I.
    + rewrite E3. destruct bi; lia.
    + rewrite E4. destruct (bi && negb (n =? t)) eqn:E.
      * apply andb_true_iff in E as [-> E]. apply negb_true_iff, Z.eqb_neq in E. specialize (E5 eq_refl E). lia.
      * pose proof (fee_up_bounds (step_in p t L n) fee ltac:(lia) Hf). lia.
Qed.

(** ** Collecting a fee *)

Lemma pool_add_fee_ok k p a d f p1 : pool_ok k p -> u256 a -> 0 <= f -> pool_add_fee p a d f = Ok p1 ->
  pool_ok k p1 /\ p_liquidity p1 = p_liquidity p /\ p_sqrt_price p1 = p_sqrt_price p /\
  p_current_tick_index p1 = p_current_tick_index p /\ p_start_timestamp p1 = p_start_timestamp p.
Proof.
  intros PO Ha Hf H. pose proof PO as [po_tier po_tokens HL po_range po_tick po_lo po_up po_max Gx Gy Fx Fy].
  destruct (pool_add_fee_spec p a d f p1 Ha Hf HL H) as (part & rest & E1 & E2 & E3 & _ & [[-> _]|(g & Eg & -> & Hb)]); [auto 10|].
  apply u256_M in Ha, Fx, Fy.
  apply from_fee_inv in Eg as (_ & _ & Hg); [|exact HL|apply u256_I; lia].
  pose proof (unchecked_add_u128 _ _ Gx Hg) as Ux. pose proof (unchecked_add_u128 _ _ Gy Hg) as Uy.
  change (2 ^ 256) with M256 in Hb.
  assert (V : forall v, 0 <= v < M256 -> u256 v) by apply u256_I.
  set (gx := unchecked_add (p_fee_growth_global_x p) g) in *. set (gy := unchecked_add (p_fee_growth_global_y p) g) in *.
  clearbody gx gy.
  destruct d; unfold set_fees_x, set_fees_y;
    (split; [constructor; cbn [p_liquidity p_sqrt_price p_current_tick_index p_fee_growth_global_x p_fee_growth_global_y
       p_fee_protocol_token_x p_fee_protocol_token_y];
       [exact po_tier|exact po_tokens|exact HL|exact po_range|exact po_tick|exact po_lo|exact po_up|exact po_max
       |first [exact Ux|exact Gx]|first [exact Uy|exact Gy]|apply V; lia|apply V; lia]|auto]).
Qed.

(** ** Ticks written back at the end of a swap *)

Lemma put_ticks_app k l t m : put_ticks k (l ++ [t]) m = <[(k, t_index t) := t]> (put_ticks k l m).
Proof. revert m. induction l as [|u l IH]; intros m; cbn [put_ticks app]; [reflexivity|apply IH]. Qed.

Lemma put_ticks_ne k l m k' i : (k' = k -> i ∉ map t_index l) -> put_ticks k l m !! (k', i) = m !! (k', i).
Proof.
  revert m. induction l as [|t l IH]; intros m H; cbn [put_ticks]; [reflexivity|].
  rewrite IH by (intros E Hi; apply (H E); cbn [map]; apply elem_of_cons; auto).
  apply lookup_insert_ne. intros [= E1 E2]. apply (H (eq_sym E1)). cbn [map]. apply elem_of_cons. auto.
Qed.

Lemma Inv_set_tick s k i t t' : Inv s -> s_ticks s !! (k, i) = Some t ->
  t_index t' = t_index t -> t_sqrt_price t' = t_sqrt_price t -> t_liquidity_gross t' = t_liquidity_gross t ->
  t_sign t' = t_sign t -> t_liquidity_change t' = t_liquidity_change t ->
  u128 (t_fee_growth_outside_x t') -> u128 (t_fee_growth_outside_y t') ->
  Inv (set_ticks (<[(k, i) := t']> (s_ticks s)) s).
Proof.
  intros I Ht E1 E2 E3 E4 E5 U1 U2.
  assert (TS : forall k' j, is_Some (<[(k, i) := t']> (s_ticks s) !! (k', j)) <-> is_Some (s_ticks s !! (k', j))).
  { intros k' j. rewrite lookup_insert_is_Some. split.
    - intros [[= <- <-]|[_ H]]; eauto.
    - intros H. destruct (decide ((k, i) = (k', j))); auto. }
  constructor; cbn [set_ticks s_protocol_fee s_fee_tiers s_pools s_positions s_bitmap s_ticks]; try apply I.
  - intros a n pos Hp. destruct (I_pos _ I _ _ _ Hp). constructor; auto.
  - intros k' n Hn. apply (I_bit1 _ I) in Hn as (j & Hj & ->). exists j. split; [apply TS; auto|auto].
  - intros k' j Hj. apply (I_bit2 _ I). apply TS. auto.
  - intros k' j u Hu. apply lookup_insert_Some in Hu as [[[= <- <-] <-]|[_ Hu]];
      [|destruct (I_tick _ I _ _ _ Hu) as [Hk []]; split; [exact Hk|constructor; assumption]].
    destruct (I_tick _ I _ _ _ Ht) as [Hk []]. split; [auto|].
    assert (E6 : t_net t' = t_net t) by (unfold t_net; rewrite E4, E5; reflexivity).
    constructor; try assumption; [congruence|congruence|rewrite E5; assumption|exact (eq_trans E3 to_gross)|exact (eq_trans E6 to_net)].
  - intros k' j. rewrite TS. apply (I_exists _ I).
Qed.

(** ** State in the middle of a swap *)

Definition mid (s : state) (k : pool_key) (l : swap_loop_state) : state :=
  set_pools (<[k := l_pool l]> (s_pools s)) (set_ticks (put_ticks k (l_ticks l) (s_ticks s)) s).

Lemma mid_pool s k l : s_pools (mid s k l) !! k = Some (l_pool l).
Proof. cbn. apply lookup_insert. Qed.

Lemma mid_stay s k l l' : l_ticks l' = l_ticks l ->
  mid s k l' = set_pools (<[k := l_pool l']> (s_pools (mid s k l))) (mid s k l).
Proof. intros E. unfold mid. rewrite E. cbn. rewrite insert_insert. reflexivity. Qed.

Lemma mid_cross s k l l' t : l_ticks l' = l_ticks l ++ [t] ->
  mid s k l' = set_pools (<[k := l_pool l']> (s_pools (mid s k l)))
                 (set_ticks (<[(k, t_index t) := t]> (s_ticks (mid s k l))) (mid s k l)).
Proof. intros E. unfold mid. rewrite E, put_ticks_app. cbn. rewrite insert_insert. reflexivity. Qed.

Lemma get_tick_Ok_range n sp c : get_tick_at_sqrt_price n sp = Ok c -> price_in_range n.
Proof.
  unfold get_tick_at_sqrt_price. destruct (Z.ltb_spec MAX_SQRT_PRICE n); [discriminate|].
  destruct (Z.ltb_spec n MIN_SQRT_PRICE); [discriminate|]. intros _.
  unfold price_in_range, MAX_SQRT_PRICE, MIN_SQRT_PRICE in *. lia.
Qed.

Lemma get_tick_aligned n sp c : 1 <= sp <= 100 -> get_tick_at_sqrt_price n sp = Ok c ->
  price_in_range n /\ (sp | c) /\ c <= 221818 /\
  (-221818 <= c -> price c <= n) /\ (-221818 <= c + sp <= 221818 -> n < price (c + sp)) /\
  (forall j, okt sp j -> price j <= n -> j <= c) /\ (forall j, okt sp j -> n < price j -> c < j).
Proof.
  intros Hs H. pose proof (get_tick_Ok_range _ _ _ H) as HR.
  destruct (get_tick_spec n sp HR Hs) as (T & HT & H1 & H2 & H3). rewrite H3 in H. injection H as <-.
  unfold valid_tick in HT. pose proof (div_bounds T sp ltac:(lia)) as HD.
  set (c := sp * (T / sp)) in *. assert (Hc : c <= T < c + sp) by (unfold c; lia).
  split; [auto|]. split; [exists (T / sp); unfold c; lia|]. split; [lia|].
  split; [intros Hx; eapply Z.le_trans; [|exact H1]; apply price_le; unfold valid_tick; lia|].
  split.
  { intros Hx. eapply Z.lt_le_trans; [apply H2; lia|]. apply price_le; unfold valid_tick; lia. }
  split.
  - intros j [Hj [q ->]] Hpj. assert (q * sp <= T).
    { destruct (Z.le_gt_cases (q * sp) T) as [|Hg]; [auto|].
      pose proof (price_le (T + 1) (q * sp) ltac:(unfold valid_tick; lia) ltac:(unfold valid_tick; lia) ltac:(lia)).
      specialize (H2 ltac:(lia)). lia. }
    unfold c. assert (q <= T / sp) by (apply div_le_lower; lia). nia.
  - intros j [Hj [q ->]] Hpj. assert (T < q * sp).
    { apply price_lt_iff; unfold valid_tick; lia. }
    lia.
Qed.
