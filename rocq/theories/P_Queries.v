(** Listings of positions and ticks (used by C36 and C37). *)
From Verif Require Import Base Decimal SqrtPriceM LogM ClammM FeeGrowthM Types TickmapM StorageM
  CollectionsM StateM ServiceM Arith SpecMath SpecFees SpecSum SpecState SpecHistory P_Clamm P_Delta P_TickPrice P_Tickmap
  P_Fees P_Balance P_Effects P_Positions P_History P_Loop P_Check P_State P_Iter P_Inv P_InvPos.
From stdpp Require Import gmap list.
From Coq Require Import ZArith Lia Bool.
Open Scope Z_scope.

(** ** Grouping positions by pool *)

Notation group := (pool * list (position * Z))%type.

(** A group shows the pool all of its positions belong to. *)
Definition group_of (s : state) (g : group) (k : pool_key) : Prop :=
  pools_get s k = Ok (fst g) /\ snd g <> [] /\ Forall (fun e => pos_pool_key (fst e) = k) (snd g).

Definition grouped (s : state) (gs : list group) (ks : list pool_key) (es : list (position * Z)) : Prop :=
  Forall2 (group_of s) gs ks /\ NoDup ks /\ concat (map snd gs) ≡ₚ es.

Lemma push_to_group_Some s gs : forall ks pos i gs',
  Forall2 (group_of s) gs ks -> push_to_group gs pos i = Some gs' ->
  Forall2 (group_of s) gs' ks /\ concat (map snd gs') ≡ₚ concat (map snd gs) ++ [(pos, i)].
Proof.
  induction gs as [|[p ps] gs IH]; intros ks pos i gs' F H; [discriminate|].
  apply Forall2_cons_inv_l in F as (k & ks' & G & F & ->). cbn [push_to_group] in H.
  destruct G as (G1 & G2 & G3). cbn [fst snd] in *.
  destruct ps as [|[q j] ps]; [congruence|].
  destruct (bool_decide_reflect (pos_pool_key q = pos_pool_key pos)) as [E|E].
  - injection H as <-. split.
    + constructor; [|exact F]. split; [exact G1|]. cbn [snd]. split; [discriminate|].
      apply (proj2 (Forall_app _ ((q, j) :: ps) [(pos, i)])). split; [exact G3|]. constructor; [|constructor]. cbn [fst].
      rewrite <- E. apply Forall_cons in G3 as [G3 _]. exact G3.
    + cbn [map snd concat app]. apply perm_skip. rewrite <- !app_assoc. apply Permutation_app_head. apply Permutation_app_comm.
  - destruct (push_to_group gs pos i) as [gs1|] eqn:EP; [|discriminate]. injection H as <-.
    destruct (IH _ _ _ _ F EP) as [F1 P1]. split.
    + constructor; [|exact F1]. split; [exact G1|]. split; [exact G2|exact G3].
    + cbn [map snd concat]. rewrite P1, <- app_assoc. reflexivity.
Qed.

Lemma push_to_group_None s gs : forall ks pos i,
  Forall2 (group_of s) gs ks -> push_to_group gs pos i = None -> pos_pool_key pos ∉ ks.
Proof.
  induction gs as [|[p ps] gs IH]; intros ks pos i F H.
  - apply Forall2_nil_inv_l in F as ->. apply not_elem_of_nil.
  - apply Forall2_cons_inv_l in F as (k & ks' & G & F & ->). cbn [push_to_group] in H.
    destruct G as (G1 & G2 & G3). cbn [fst snd] in *. destruct ps as [|[q j] ps]; [congruence|].
    destruct (bool_decide_reflect (pos_pool_key q = pos_pool_key pos)) as [E|E]; [discriminate|].
    destruct (push_to_group gs pos i) as [gs1|] eqn:EP; [discriminate|].
    apply not_elem_of_cons. split; [|eapply IH; eauto].
    apply Forall_cons in G3 as [G3 _]. cbn [fst] in G3. congruence.
Qed.

Lemma group_fold_ok s offset l : forall gs ks es i,
  (forall pos, pos ∈ l -> is_Some (s_pools s !! pos_pool_key pos)) -> grouped s gs ks es ->
  exists gs' ks', foldM_res (fun (acc : list group * Z) pos =>
                 let '(groups, i) := acc in
                 match push_to_group groups pos (offset + i) with
                 | Some groups' => Ok (groups', i + 1)
                 | None => let* p := pools_get s (pos_pool_key pos) in
                           Ok (groups ++ [(p, [(pos, offset + i)])], i + 1)
                 end) l (gs, i) = Ok (gs', i + Z.of_nat (length l)) /\
    grouped s gs' ks' (es ++ zip l (seqZ (offset + i) (Z.of_nat (length l)))).
Proof.
  induction l as [|pos l IH]; intros gs ks es i HP G; cbn [foldM_res length].
  - exists gs, ks. rewrite Z.add_0_r. split; [reflexivity|]. cbn [zip_with]. rewrite app_nil_r. exact G.
  - assert (HP' : forall q, q ∈ l -> is_Some (s_pools s !! pos_pool_key q)) by (intros q Hq; apply HP; apply elem_of_cons; auto).
    assert (EZ : zip (pos :: l) (seqZ (offset + i) (Z.of_nat (S (length l)))) =
                 (pos, offset + i) :: zip l (seqZ (offset + (i + 1)) (Z.of_nat (length l)))).
    { rewrite seqZ_cons by lia. cbn [zip_with]. replace (Z.pred (Z.of_nat (S (length l)))) with (Z.of_nat (length l)) by lia.
      replace (Z.succ (offset + i)) with (offset + (i + 1)) by lia. reflexivity. }
    rewrite EZ. replace (i + Z.of_nat (S (length l))) with (i + 1 + Z.of_nat (length l)) by lia.
    destruct G as (G1 & G2 & G3). destruct (push_to_group gs pos (offset + i)) as [gs1|] eqn:EP.
    + destruct (push_to_group_Some s gs ks pos (offset + i) gs1 G1 EP) as [F1 P1]. cbn [bind].
      destruct (IH gs1 ks (es ++ [(pos, offset + i)]) (i + 1) HP') as (gs' & ks' & E & G').
      { split; [exact F1|]. split; [exact G2|]. rewrite P1, G3. reflexivity. }
      exists gs', ks'. split; [exact E|]. rewrite <- app_assoc in G'. exact G'.
    + pose proof (push_to_group_None s gs ks pos (offset + i) G1 EP) as NK.
      destruct (HP pos) as [p Hp]; [apply elem_of_cons; auto|].
      unfold pools_get at 1. rewrite Hp. cbn [ok_or bind].
      destruct (IH (gs ++ [(p, [(pos, offset + i)])]) (ks ++ [pos_pool_key pos]) (es ++ [(pos, offset + i)]) (i + 1) HP') as (gs' & ks' & E & G').
      { split; [|split].
        - apply Forall2_app; [exact G1|]. constructor; [|constructor]. split; [apply pools_get_Ok; exact Hp|].
          cbn [snd]. split; [discriminate|]. constructor; [reflexivity|constructor].
        - apply NoDup_app. split; [exact G2|]. split; [|apply NoDup_singleton].
          intros x Hx Hx'. apply elem_of_list_singleton in Hx'. subst x. contradiction.
        - rewrite map_app, concat_app. cbn [map snd concat]. rewrite app_nil_r, G3. reflexivity. }
      exists gs', ks'. split; [exact E|]. rewrite <- app_assoc in G'. exact G'.
Qed.

(** The slice read from storage. *)
Lemma slice_ok s a offset size : dense s -> 0 <= offset -> 0 <= size -> offset + size < M32 ->
  exists l, get_all_positions s a = Ok l /\
    positions_get_slice s a offset size = Ok (take (Z.to_nat size) (drop (Z.to_nat offset) l)).
Proof.
  intros D Ho Hs Hm. destruct (dense_lists s a D) as (l & E & HL & Hlk). exists l. split; [exact E|].
  unfold positions_get_slice. rewrite checked_add_ok by lia. cbn [expect bind].
  set (n := positions_get_length s a) in *.
  set (mx := if n <? offset + size then n else offset + size).
  assert (Emx : mx = Z.min n (offset + size)) by (unfold mx; destruct (Z.ltb_spec n (offset + size)); lia).
  assert (Ln : n = Z.of_nat (length l)) by exact HL. clearbody mx. subst mx.
  destruct (mapM_res_ok (fun i => expect (s_positions s !! (a, i))) (range offset (Z.min n (offset + size)))) as (l' & E' & LEN & F').
  { intros i Hi. unfold range in Hi. apply elem_of_list_In, elem_of_seqZ in Hi.
    destruct (proj2 (proj2 (D a) i)) as [q Hq]; [fold n; lia|]. exists q. rewrite Hq. reflexivity. }
  rewrite E'. f_equal. apply list_eq. intros j.
  destruct (decide (j < length l')%nat) as [Hj|Hj].
  - assert (Hr : range offset (Z.min n (offset + size)) !! j = Some (offset + Z.of_nat j)).
    { rewrite LEN in Hj. apply lookup_lt_is_Some in Hj as [v Hv]. rewrite range_lookup in *.
      destruct (_ <? _); congruence. }
    assert (Hr2 := Hr). rewrite range_lookup in Hr2. destruct (Z.ltb_spec (Z.of_nat j) (Z.min n (offset + size) - offset)) as [Hb|]; [|discriminate].
    apply lookup_lt_is_Some in Hj as [q Hq]. rewrite Hq.
    apply F' in Hq as (v & Hv & Q). rewrite Hr in Hv. injection Hv as <-. apply expect_Ok in Q.
    apply Hlk in Q as [_ Q]. rewrite lookup_take by lia. rewrite lookup_drop.
    replace (Z.to_nat offset + j)%nat with (Z.to_nat (offset + Z.of_nat j)) by lia. symmetry. exact Q.
  - rewrite lookup_ge_None_2 by lia. symmetry. apply lookup_ge_None_2. rewrite take_length, drop_length.
    rewrite LEN in Hj. unfold range in Hj. rewrite seqZ_length in Hj. lia.
Qed.

(** ** Counting bits *)

Definition bits (v : Z) : list Z := filter (fun b => Z.testbit v b = true) (seqZ 0 64).

Lemma count_ones_filter n : forall v j, 0 <= j ->
  count_ones_n n (Z.shiftr v j) = Z.of_nat (length (filter (fun b => Z.testbit v b = true) (seqZ j (Z.of_nat n)))).
Proof.
  induction n as [|n IH]; intros v j Hj; [reflexivity|].
  cbn [count_ones_n]. rewrite Z.shiftr_shiftr by lia. rewrite IH by lia.
  rewrite (seqZ_cons j (Z.of_nat (S n))) by lia. replace (Z.pred (Z.of_nat (S n))) with (Z.of_nat n) by lia.
  rewrite filter_cons. change (Z.succ j) with (Z.succ j). replace (j + 1) with (Z.succ j) by lia.
  assert (EB : Z.shiftr v j mod 2 = Z.b2z (Z.testbit v j)).
  { rewrite <- Z.bit0_mod, Z.shiftr_spec by lia. rewrite Z.add_0_l. reflexivity. }
  rewrite EB. destruct (decide (Z.testbit v j = true)) as [E|E].
  - rewrite E. cbn [Z.b2z length]. lia.
  - apply not_true_is_false in E. rewrite E. cbn [Z.b2z]. lia.
Qed.

Lemma count_ones_bits v : count_ones v = Z.of_nat (length (bits v)).
Proof. unfold count_ones, bits. rewrite <- (Z.shiftr_0_r v) at 1. apply (count_ones_filter 64). lia. Qed.

Lemma max_chunk_ok sp : 1 <= sp <= 100 -> get_max_chunk sp = Ok (2 * (MX / sp) / 64).
Proof.
  intros H. unfold get_max_chunk, get_max_tick. unfold i32_div.
  assert (E1 : (sp =? 0) = false) by lia. assert (E2 : (sp =? -1) = false) by lia.
  rewrite ?E1, ?E2, ?andb_false_r. cbn [expect bind]. change MAX_TICK with MX.
  rewrite ?E1, ?E2, ?andb_false_r. cbn [bind].
  assert (Q1 : Z.quot MX sp = MX / sp) by (apply Z.quot_div_nonneg; unfold MX; lia).
  rewrite Q1. pose proof (div_bounds MX sp ltac:(lia)) as B.
  assert (0 <= MX / sp) by (apply div_nonneg; unfold MX; lia).
  assert (0 <= MX / sp * sp + MX) by (unfold MX in *; nia).
  rewrite (Z.quot_div_nonneg (MX / sp * sp + MX) sp) by lia.
  assert (Q2 : (MX / sp * sp + MX) / sp = 2 * (MX / sp)).
  { rewrite Z.div_add_l by lia. lia. }
  rewrite Q2. rewrite Z.quot_div_nonneg by (change CHUNK_SIZE with 64; lia). reflexivity.
Qed.

(** The bit indices counted by [liquidity_ticks_count] when it visits the chunks [cs]. *)
Definition counted (b : bitmap) (k : pool_key) (cs : list Z) : list Z :=
  flat_map (fun c => map (fun i => c * 64 + i) (bits (chunk_at b k c))) cs.

Lemma count_fold s k cs :
  foldr (fun c acc => (match s_bitmap s !! (c, k) with Some v => count_ones v | None => 0 end) + acc) 0 cs
  = Z.of_nat (length (counted (s_bitmap s) k cs)).
Proof.
  induction cs as [|c cs IH]; [reflexivity|]. cbn [foldr]. rewrite IH. unfold counted. cbn [flat_map].
  rewrite app_length, map_length. unfold chunk_at. destruct (s_bitmap s !! (c, k)) as [v|]; cbn [from_option id default].
  - rewrite count_ones_bits. lia.
  - reflexivity.
Qed.

Lemma elem_of_bits v i : i ∈ bits v <-> 0 <= i < 64 /\ Z.testbit v i = true.
Proof. unfold bits. rewrite elem_of_list_filter, elem_of_seqZ. intuition lia. Qed.

Lemma elem_of_counted b k m n : 0 <= m -> n ∈ counted b k (range 0 m) <-> 0 <= n < m * 64 /\ mem b k n = true.
Proof.
  intros Hm. unfold counted. rewrite elem_of_list_In, in_flat_map. split.
  - intros (c & Hc & Hn). apply elem_of_list_In in Hc. unfold range in Hc. apply elem_of_seqZ in Hc.
    apply in_map_iff in Hn as (i & <- & Hi). apply elem_of_list_In, elem_of_bits in Hi as [Hi Ht].
    rewrite mem_bit by lia. split; [lia|exact Ht].
  - intros [Hn Hmem]. exists (n / 64). split.
    + apply elem_of_list_In. unfold range. apply elem_of_seqZ. pose proof (Z.div_lt_upper_bound n 64 m). pose proof (Z.div_pos n 64). lia.
    + apply in_map_iff. exists (n mod 64). split; [pose proof (Z.div_mod n 64); lia|].
      apply elem_of_list_In, elem_of_bits. split; [apply Z.mod_pos_bound; lia|exact Hmem].
Qed.

Lemma NoDup_counted b k cs : NoDup cs -> NoDup (counted b k cs).
Proof.
  intros H. induction H as [|c cs Hc H IH]; [constructor|]. unfold counted. cbn [flat_map].
  apply NoDup_app. split; [|split; [|exact IH]].
  - apply NoDup_fmap_2; [intros x y E; lia|]. unfold bits. apply NoDup_filter, NoDup_seqZ.
  - intros n Hn Hn'. apply elem_of_list_In, in_map_iff in Hn as (i & <- & Hi).
    apply elem_of_list_In, in_flat_map in Hn' as (c' & Hc' & Hn'). apply in_map_iff in Hn' as (i' & E & Hi').
    apply elem_of_list_In, elem_of_bits in Hi as [Hi _]. apply elem_of_list_In, elem_of_bits in Hi' as [Hi' _].
    assert (c' = c) by lia. subst c'. apply Hc, elem_of_list_In, Hc'.
Qed.
