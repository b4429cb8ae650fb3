(** Properties C48, C49 and C50: the liquidity map, the token order and the tick check of the SDK. *)
From Verif Require Import Base Decimal SqrtPriceM LogM Types TickmapM StorageM CollectionsM StateM ServiceM SdkM SdkFetchM SdkUtilM
  SpecMath SpecSum SpecState SpecHistory SpecSdk SpecUtil P_TickPrice P_GetTick P_Effects P_History P_Tickmap P_Check P_State P_Inv P_InvPos P_InvSwap P_InvHist
  P_Live P_Queries P_Sdk P_SdkView P_SdkBreak Prop_State Prop_Ticks Prop_Queries Prop_Liq Cases CasesClean.
From stdpp Require Import gmap list.
From Coq Require Import ZArith Lia Bool Sorting.Sorted.
Open Scope Z_scope.

(** ** C48: the liquidity map *)

(** The SDK can fetch the ticks of every pool; they come in strictly increasing order,
    are exactly the ticks that exist, and the map that the SDK computes from them shows
    at every tick the total liquidity of the positions whose range contains it. *)
Theorem C48_liquidity_map evs s k p : history room evs s -> pools_get s k = Ok p ->
  exists m ticks, get_tickmap s k = Ok m /\ sdk_get_all_liquidity_ticks s k m = Ok ticks /\
    StronglySorted Z.lt (map lt_index ticks) /\
    (forall i, In i (map lt_index ticks) <-> exists t, get_tick s k i = Ok t) /\
    map fst (liquidity_breakpoints ticks) = map lt_index ticks /\
    forall c, level_at (liquidity_breakpoints ticks) c = active_at s k c.
Proof.
  intros H Hp. destruct (facts _ _ _ _ H Hp) as (I & Hp' & PO). pose proof (pool_spacing _ _ PO) as Hs.
  unfold get_tickmap. rewrite max_chunk_ok by auto. cbn [bind]. eexists _, _. split; [reflexivity|].
  split; [exact (all_ticks_eq s k p I Hp')|].
  assert (E : map lt_index (map (tick_at s k) (all_indexes s k)) = all_indexes s k).
  { rewrite map_map. rewrite (map_ext _ (fun i => i)) by (apply (tick_at_index s k p I Hp')). apply map_id. }
  rewrite E. split; [exact (all_indexes_sorted s k p I Hp')|]. split.
  { intros i. rewrite (all_indexes_In s k p I Hp'). split; intros [t Ht]; exists t; apply ticks_get_Ok; auto. }
  split; [|intros c; exact (level_active s k p c I Hp')].
  rewrite <- E at 2. unfold liquidity_breakpoints. generalize 0. clear E.
  induction (map (tick_at s k) (all_indexes s k)) as [|t l IH]; intros v; [reflexivity|]. cbn. f_equal. apply IH.
Qed.

(** Five ticks of three positions; the level at the pool's tick is the pool's liquidity
    (as after every history of clean swaps, C23). *)
Definition map_of (s : state) (k : pool_key) : option (list (Z * Z)) :=
  match get_tickmap s k with
  | Ok m => match sdk_get_all_liquidity_ticks s k m with Ok l => Some (liquidity_breakpoints l) | _ => None end
  | _ => None
  end.
Example C48_case :
  history room evs_traded s_traded /\
  (match pools_get s_traded pool1 with Ok p => (p_current_tick_index p, p_liquidity p) | _ => (0, 0) end) = (-20, 300000000000) /\
  map_of s_traded pool1 =
    Some [(-30, 200000000000); (-20, 300000000000); (-10, 400000000000); (10, 100000000000); (30, 0)].
Proof. split; [apply s_traded_room|]. crunch. Qed.

(** ** C49: token order *)

Lemma hex_digit_lt a b : 0 <= a < 16 -> 0 <= b < 16 -> (hex_digit a <? hex_digit b) = (a <? b).
Proof.
  intros Ha Hb. unfold hex_digit. destruct (Z.ltb_spec a 10), (Z.ltb_spec b 10), (Z.ltb_spec a b);
    (apply Z.ltb_lt || apply Z.ltb_ge); lia.
Qed.

Lemma hex_split n v : v mod 16 ^ Z.of_nat (S n) = (v / 16 ^ Z.of_nat n mod 16) * 16 ^ Z.of_nat n + v mod 16 ^ Z.of_nat n.
Proof.
  rewrite Nat2Z.inj_succ, Z.pow_succ_r by lia. pose proof (Z.pow_pos_nonneg 16 (Z.of_nat n) ltac:(lia) ltac:(lia)).
  rewrite (Z.mul_comm 16). rewrite Z.rem_mul_r by lia. lia.
Qed.

Lemma hex_digits_lt n a b : str_ltb (hex_digits n a) (hex_digits n b) = (a mod 16 ^ Z.of_nat n <? b mod 16 ^ Z.of_nat n).
Proof.
  induction n as [|n IH]; [change (16 ^ Z.of_nat 0) with 1; rewrite !Z.mod_1_r; reflexivity|].
  cbn [hex_digits str_ltb]. rewrite IH, !hex_split.
  pose proof (Z.mod_pos_bound (a / 16 ^ Z.of_nat n) 16 ltac:(lia)) as Ba.
  pose proof (Z.mod_pos_bound (b / 16 ^ Z.of_nat n) 16 ltac:(lia)) as Bb.
  rewrite !hex_digit_lt by auto. pose proof (Z.pow_pos_nonneg 16 (Z.of_nat n) ltac:(lia) ltac:(lia)) as P.
  set (Q := 16 ^ Z.of_nat n) in *. pose proof (Z.mod_pos_bound a Q P) as Ca. pose proof (Z.mod_pos_bound b Q P) as Cb.
  set (da := a / Q mod 16) in *. set (db := b / Q mod 16) in *. set (ra := a mod Q) in *. set (rb := b mod Q) in *.
  clearbody da db ra rb Q.
  destruct (Z.ltb_spec da db); [symmetry; apply Z.ltb_lt; nia|].
  destruct (Z.ltb_spec db da); [symmetry; apply Z.ltb_ge; nia|].
  assert (da = db) by lia. subst db. destruct (Z.ltb_spec ra rb); symmetry; [apply Z.ltb_lt|apply Z.ltb_ge]; lia.
Qed.

Lemma hex_id_lt a b : 0 <= a < 2 ^ 256 -> 0 <= b < 2 ^ 256 -> str_ltb (hex_id a) (hex_id b) = (a <? b).
Proof.
  intros Ha Hb. unfold hex_id. cbn [str_ltb]. change (48 <? 48) with false. change (120 <? 120) with false.
  cbv iota. rewrite hex_digits_lt. change (16 ^ Z.of_nat 64) with (2 ^ 256). rewrite !Z.mod_small by auto. reflexivity.
Qed.

Lemma str_ltb_irrefl a : str_ltb a a = false.
Proof. induction a as [|x a IH]; [reflexivity|]. cbn [str_ltb]. rewrite Z.ltb_irrefl. exact IH. Qed.

Lemma str_eqb_eq a : forall b, str_eqb a b = true <-> a = b.
Proof.
  induction a as [|x a IH]; intros [|y b]; cbn [str_eqb]; try (split; [discriminate|discriminate]); [tauto|].
  rewrite andb_true_iff, IH, Z.eqb_eq. split; [intros [-> ->]; reflexivity|intros E; injection E as -> ->; auto].
Qed.

(** Different ids have different texts. *)
Lemma hex_id_inj a b : 0 <= a < 2 ^ 256 -> 0 <= b < 2 ^ 256 -> hex_id a = hex_id b -> a = b.
Proof.
  intros Ha Hb E. pose proof (hex_id_lt a b Ha Hb) as H1. pose proof (hex_id_lt b a Hb Ha) as H2. rewrite E in H1, H2.
  rewrite str_ltb_irrefl in H1, H2. symmetry in H1, H2. apply Z.ltb_ge in H1, H2. lia.
Qed.

(** isTokenX on the texts of two ids compares the ids. *)
Theorem C49_token_order a b : 0 <= a < 2 ^ 256 -> 0 <= b < 2 ^ 256 ->
  is_token_x (hex_id a) (hex_id b) = true <-> a < b.
Proof. intros Ha Hb. unfold is_token_x. rewrite hex_id_lt by auto. apply Z.ltb_lt. Qed.

(** newPoolKey of the SDK orders the tokens as the contract does, in both orders of the
    arguments, and fails exactly when the contract does, with the same error. *)
Theorem C49_same_pool_key a b ft : 0 <= a < 2 ^ 256 -> 0 <= b < 2 ^ 256 ->
  match pool_key_new a b ft with
  | Ok k => sdk_new_pool_key (hex_id a) (hex_id b) = Ok (hex_id (pk_token_x k), hex_id (pk_token_y k)) /\
            sdk_new_pool_key (hex_id b) (hex_id a) = Ok (hex_id (pk_token_x k), hex_id (pk_token_y k))
  | Err err => sdk_new_pool_key (hex_id a) (hex_id b) = Err err
  | _ => False
  end.
Proof.
  intros Ha Hb. unfold pool_key_new, sdk_new_pool_key, is_token_x. rewrite !hex_id_lt by auto.
  destruct (Z.eqb_spec a b) as [->|N].
  - replace (str_eqb (hex_id b) (hex_id b)) with true by (symmetry; apply str_eqb_eq; reflexivity). reflexivity.
  - assert (E : forall u v, 0 <= u < 2 ^ 256 -> 0 <= v < 2 ^ 256 -> u <> v -> str_eqb (hex_id u) (hex_id v) = false).
    { intros u v Hu Hv Huv. apply not_true_iff_false. rewrite str_eqb_eq. intros X. apply Huv, hex_id_inj; auto. }
    rewrite !E by auto. destruct (Z.ltb_spec a b), (Z.ltb_spec b a); try lia; cbn; auto.
Qed.

(** The agreement depends on the case of the letters: the order of the texts of two ids is
    wrong if one of them is written in upper case. *)
Theorem C49_upper_case_refuted : exists a b, 0 <= a < 2 ^ 256 /\ 0 <= b < 2 ^ 256 /\
  a < b /\ is_token_x (hex_id a) (upper_id b) = false.
Proof. exists 10, 11. split; [lia|]. split; [lia|]. split; [lia|]. vm_compute. reflexivity. Qed.

Example C49_case : is_token_x (hex_id tokA) (hex_id tokB) = true /\ is_token_x (hex_id (2 ^ 255)) (hex_id 255) = false /\
  sdk_new_pool_key (hex_id tokB) (hex_id tokA) = Ok (hex_id tokA, hex_id tokB) /\
  hex_id 171 = [48; 120] ++ repeat 48 62 ++ [97; 98].
Proof. vm_compute. auto. Qed.

(** ** C50: isValidTick *)

(** The SDK's check of a pool's tick against its price holds of every pool, at any time. *)
Theorem C50_pool_tick_valid evs s k p : history room evs s -> pools_get s k = Ok p ->
  is_valid_tick (p_current_tick_index p) (pk_spacing k) (p_sqrt_price p) = Ok true.
Proof.
  intros H Hp. destruct (C24_price_and_tick_agree evs s k p H Hp) as (Hc & Hd & _ & pc & E1 & L1 & L2 & L3). cbv zeta in *.
  destruct (facts _ _ _ _ H Hp) as (_ & _ & PO). pose proof (pool_spacing _ _ PO) as Hs.
  unfold is_valid_tick. change MAX_TICK with 221818.
  set (c := p_current_tick_index p) in *. set (sp := pk_spacing k) in *.
  destruct (Z.ltb_spec 221818 (c + sp)) as [Hx|Hx].
  - unfold get_max_tick, i32_div. rewrite (proj2 (Z.eqb_neq sp 0)) by lia. cbn [bind].
    change MAX_TICK with 221818. rewrite Z.quot_div_nonneg by lia. assert (E : 221818 / sp * sp = c).
    { destruct Hd as [z Hz]. replace (221818 / sp) with z; [lia|].
      apply (Z.div_unique_pos 221818 sp z (221818 - c)); lia. }
    rewrite E, E1. cbn [bind]. rewrite (L3 Hx), Z.eqb_refl. reflexivity.
  - rewrite E1. destruct (L2 Hx) as (pn & -> & Hpn). cbn [bind].
    replace (pn <=? p_sqrt_price p) with false by (symmetry; apply Z.leb_gt; lia).
    replace (p_sqrt_price p <? pc) with false by (symmetry; apply Z.ltb_ge; lia). reflexivity.
Qed.

(** The check is exact: it accepts a tick of the grid for a price exactly when the tick is
    the one that the price belongs to, except that of the prices above the last tick of the
    grid it accepts only the price of that tick. *)
Theorem C50_valid_tick_exact c sp price0 : 1 <= sp <= 100 -> price_in_range price0 ->
  -221818 <= c <= 221818 -> (sp | c) -> c + sp <= 221818 ->
  (is_valid_tick c sp price0 = Ok true <-> get_tick_at_sqrt_price price0 sp = Ok c) /\
  (is_valid_tick c sp price0 = Ok true \/ is_valid_tick c sp price0 = Ok false).
Proof.
  intros Hs Hr Hc Hd Hx. unfold is_valid_tick. change MAX_TICK with 221818. destruct (Z.ltb_spec 221818 (c + sp)); [lia|].
  assert (V1 : valid_tick c) by (unfold valid_tick; lia). assert (V2 : valid_tick (c + sp)) by (unfold valid_tick; lia).
  rewrite !calculate_sqrt_price_valid by auto. cbn [bind]. split; [|destruct (negb _); auto].
  destruct (get_tick_spec price0 sp Hr Hs) as (T & HT & H1 & H2 & H3).
  pose proof (get_tick_aligned _ _ _ Hs H3) as (_ & Hd' & _ & G1 & G2 & G3 & G4). set (c' := sp * (T / sp)) in *.
  assert (Oc : okt sp c) by (split; auto). assert (Oc' : okt sp (c + sp)).
  { split; [lia|]. apply Z.divide_add_r; [auto|apply Z.divide_refl]. }
  split.
  - intros E. injection E as E. apply negb_true_iff, orb_false_iff in E as [E4 E5]. apply Z.leb_gt in E4. apply Z.ltb_ge in E5.
    rewrite H3. f_equal. pose proof (G3 _ Oc E5). pose proof (G4 _ Oc' E4). destruct Hd as [z Hz], Hd' as [z' Hz'].
    assert (z <= z') by (apply (Zmult_le_reg_r _ _ sp); lia). assert (z' < z + 1) by (apply (Zmult_lt_reg_r _ _ sp); lia).
    assert (z = z') as -> by lia. lia.
  - rewrite H3. intros E. injection E as E. rewrite E in *. f_equal. apply negb_true_iff, orb_false_iff.
    split; [apply Z.leb_gt, G2; lia|apply Z.ltb_ge, G1; lia].
Qed.

Example C50_case :
  history room evs_traded s_traded /\
  match pools_get s_traded pool1 with
  | Ok p => Some (p_current_tick_index p, p_sqrt_price p) | _ => None end = Some (-20, 999211189370072007762822) /\
  is_valid_tick (-20) 10 999211189370072007762822 = Ok true /\
  is_valid_tick (-10) 10 999211189370072007762822 = Ok false /\ is_valid_tick (-30) 10 999211189370072007762822 = Ok false /\
  is_valid_tick (-30) 10 999000549780000000000000 = Ok false.
Proof. split; [apply s_traded_room|]. crunch. Qed.

(** ** Assumptions *)
Print Assumptions C48_liquidity_map.
Print Assumptions C49_token_order.
Print Assumptions C49_same_pool_key.
Print Assumptions C49_upper_case_refuted.
Print Assumptions C50_pool_tick_valid.
Print Assumptions C50_valid_tick_exact.
