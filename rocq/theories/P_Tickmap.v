(** Tick bitmap: positions, flips and searches (C13, C14). *)
From Verif Require Import Base Decimal SqrtPriceM Types TickmapM Arith.
From stdpp Require Import gmap.
From Coq Require Import ZArith Lia Bool.
Open Scope Z_scope.

(** Bit index of a tick, and membership of an index in the bitmap of a pool. *)
Definition MX : Z := 221818.
Definition tidx (s t : Z) : Z := (t + MX) / s.
Definition ticki (s i : Z) : Z := (i - MX / s) * s.
Definition mem (b : bitmap) (k : pool_key) (i : Z) : bool := Z.testbit (chunk_at b k (i / 64)) (i mod 64).
Definition wf_bitmap (b : bitmap) : Prop := forall c k, 0 <= chunk_at b k c < 2 ^ 64.

(** A tick usable with spacing s. *)
Definition okt (s t : Z) : Prop := -221818 <= t <= 221818 /\ (s | t).

Lemma tidx_ticki s t : 1 <= s -> (s | t) -> ticki s (tidx s t) = t.
Proof.
  intros Hs [q ->]. unfold ticki, tidx, MX.
  replace (q * s + 221818) with (221818 + q * s) by lia. rewrite Z.div_add by lia. lia.
Qed.

Lemma tidx_eq s t : 1 <= s -> (s | t) -> tidx s t = t / s + MX / s.
Proof.
  intros Hs [q ->]. unfold tidx. replace (q * s + MX) with (MX + q * s) by lia.
  rewrite Z.div_add, Z.div_mul by lia. lia.
Qed.

Lemma ticki_tidx s i : 1 <= s -> tidx s (ticki s i) = i.
Proof.
  intros Hs. rewrite tidx_eq by (auto; exists (i - MX / s); reflexivity).
  unfold ticki. rewrite Z.div_mul by lia. lia.
Qed.

Lemma okt_tidx s t : 1 <= s -> okt s t -> 0 <= tidx s t <= 2 * (MX / s).
Proof.
  intros Hs [Ht Hd]. rewrite tidx_eq by auto. destruct Hd as [q ->]. rewrite Z.div_mul by lia. unfold MX in *.
  pose proof (div_bounds 221818 s ltac:(lia)). nia.
Qed.

Lemma okt_ticki s i : 1 <= s -> 0 <= i <= 2 * (MX / s) -> okt s (ticki s i).
Proof.
  intros Hs Hi. split; [|exists (i - MX / s); reflexivity]. unfold ticki, MX in *.
  pose proof (div_bounds 221818 s ltac:(lia)). nia.
Qed.

Lemma tidx_mono s t t' : 1 <= s -> (s | t) -> (s | t') -> (t < t' <-> tidx s t < tidx s t').
Proof.
  intros Hs [q ->] [q' ->]. rewrite !tidx_eq by (auto; eexists; reflexivity). rewrite !Z.div_mul by lia. nia.
Qed.

Lemma okt_quot s t : 1 <= s -> okt s t -> Z.quot (t + MX) s = tidx s t.
Proof. intros Hs [Ht _]. unfold tidx, MX. apply Z.quot_div_nonneg; lia. Qed.

Lemma tick_to_position_ok s t : 1 <= s -> okt s t ->
  tick_to_position t s = Ok (tidx s t / 64, tidx s t mod 64).
Proof.
  intros Hs H. pose proof (okt_quot s t Hs H) as HQ. pose proof (okt_tidx s t Hs H) as HI.
  destruct H as [Ht Hd]. unfold tick_to_position. change MAX_TICK with MX. unfold MX in *.
  destruct (Z.leb_spec (- (221818)) t); [|lia]. destruct (Z.leb_spec t 221818); [|lia]. cbn [andb assert bind].
  unfold i32_rem, i32_div. destruct (Z.eqb_spec s 0); [lia|]. cbn [bind].
  assert (Z.rem t s = 0) as -> by (apply Z.rem_divide; auto; lia). cbn [Z.eqb assert bind].
  rewrite HQ. unfold CHUNK_SIZE. rewrite Z.quot_div_nonneg, Z.rem_mod_nonneg by lia. reflexivity.
Qed.

Lemma tick_to_position_inv s t c : 1 <= s -> tick_to_position t s = Ok c -> okt s t.
Proof.
  intros Hs H. unfold tick_to_position in H. inv_res.
  match goal with H : (_ && _) = true |- _ => apply andb_true_iff in H; destruct H as [HA HB] end.
  apply Z.leb_le in HA, HB. unfold MAX_TICK in *.
  unfold i32_rem in *. destruct (Z.eqb_spec s 0); [lia|]. inv_res.
  match goal with H : (_ =? 0) = true |- _ => apply Z.eqb_eq in H; apply Z.rem_divide in H; [|lia] end.
  split; [lia|auto].
Qed.

Lemma mem_bit b k c i : 0 <= i < 64 -> mem b k (c * 64 + i) = Z.testbit (chunk_at b k c) i.
Proof.
  intros Hi. unfold mem. replace (c * 64 + i) with (i + c * 64) by lia.
  rewrite Z.div_add, Z.mod_add by lia. rewrite Z.div_small, Z.mod_small by lia. reflexivity.
Qed.

Lemma get_bit_testbit v i : 0 <= i -> get_bit_at_position v i = Z.b2z (Z.testbit v i).
Proof.
  intros Hi. unfold get_bit_at_position. rewrite Z.testbit_spec' by auto.
  rewrite Z.shiftr_div_pow2 by auto. change 1 with (Z.ones 1). rewrite Z.land_ones by lia. reflexivity.
Qed.

Lemma tickmap_get_ok b k s t : 1 <= s -> okt s t -> tickmap_get b t s k = Ok (mem b k (tidx s t)).
Proof.
  intros Hs H. unfold tickmap_get. rewrite tick_to_position_ok by auto. cbn [bind].
  rewrite get_bit_testbit by (apply Z.mod_pos_bound; lia). fold (mem b k (tidx s t)).
  destruct (mem b k (tidx s t)); reflexivity.
Qed.

Lemma chunk_at_insert b k c k' c' v :
  chunk_at (<[(c, k) := v]> b) k' c' = if decide (c' = c /\ k' = k) then v else chunk_at b k' c'.
Proof.
  unfold chunk_at. destruct (decide (c' = c /\ k' = k)) as [[-> ->]|N].
  - rewrite lookup_insert. reflexivity.
  - rewrite lookup_insert_ne by (intros [= -> ->]; apply N; auto). reflexivity.
Qed.

Lemma flip_testbit v i j : 0 <= i -> 0 <= j ->
  Z.testbit (flip_bit_at_position v i) j = xorb (Z.testbit v j) (i =? j).
Proof.
  intros. unfold flip_bit_at_position. rewrite Z.lxor_spec, Z.shiftl_1_l, Z.pow2_bits_eqb by auto. reflexivity.
Qed.

Lemma flip_range v i : 0 <= i < 64 -> 0 <= v < 2 ^ 64 -> 0 <= flip_bit_at_position v i < 2 ^ 64.
Proof.
  intros Hi Hv. unfold flip_bit_at_position. rewrite Z.shiftl_1_l.
  assert (0 <= 2 ^ i < 2 ^ 64) as Hp by (split; [apply Z.pow_nonneg; lia|apply Z.pow_lt_mono_r; lia]).
  assert (0 <= Z.lxor v (2 ^ i)) as Hn by (apply Z.lxor_nonneg; lia). split; [auto|].
  destruct (Z.eq_dec (Z.lxor v (2 ^ i)) 0) as [->|]; [reflexivity|].
  apply Z.log2_lt_pow2; [lia|].
  pose proof (Z.log2_lxor v (2 ^ i) ltac:(lia) ltac:(lia)).
  assert (Z.log2 v < 64) by (destruct (Z.eq_dec v 0) as [->|]; [reflexivity|apply Z.log2_lt_pow2; lia]).
  rewrite Z.log2_pow2 in * by lia. lia.
Qed.

Lemma tickmap_flip_spec b k s t v : 1 <= s -> okt s t ->
  if Bool.eqb (mem b k (tidx s t)) v then tickmap_flip b v t s k = Panic
  else exists b', tickmap_flip b v t s k = Ok b' /\ (wf_bitmap b -> wf_bitmap b') /\
       forall k' i, mem b' k' i = if decide (i = tidx s t /\ k' = k) then v else mem b k' i.
Proof.
  intros Hs H. unfold tickmap_flip. rewrite tick_to_position_ok by auto. cbn [bind].
  set (i := tidx s t) in *. pose proof (Z.mod_pos_bound i 64 ltac:(lia)) as Hm.
  rewrite get_bit_testbit by lia. fold (mem b k i).
  assert (E : Bool.eqb (Z.b2z (mem b k i) =? 0) v = negb (Bool.eqb (mem b k i) v)) by (destruct (mem b k i), v; reflexivity).
  rewrite E. destruct (Bool.eqb (mem b k i) v) eqn:Ev; cbn [negb assert bind]; [reflexivity|].
  eexists. split; [reflexivity|]. split.
  - intros W c' k'. rewrite chunk_at_insert. destruct (decide _); [|apply W]. apply flip_range; [lia|apply W].
  - intros k' j. unfold mem at 1. rewrite chunk_at_insert.
    pose proof (Z.mod_pos_bound j 64 ltac:(lia)) as Hmj.
    destruct (decide (j / 64 = i / 64 /\ k' = k)) as [[E1 ->]|N1].
    + rewrite flip_testbit by lia.
      destruct (decide (j = i /\ k = k)) as [[-> _]|N2].
      * fold (mem b k i). rewrite Z.eqb_refl. destruct (mem b k i), v; cbn in *; congruence.
      * destruct (Z.eqb_spec (i mod 64) (j mod 64)) as [E2|E2].
        -- exfalso. apply N2. split; auto. rewrite (Z.div_mod i 64), (Z.div_mod j 64) by lia. lia.
        -- rewrite xorb_false_r. unfold mem. rewrite E1. reflexivity.
    + destruct (decide (j = i /\ k' = k)) as [[-> ->]|]; [exfalso; apply N1; auto|reflexivity].
Qed.

Lemma tickmap_flip_inv b k s t v b' : 1 <= s -> tickmap_flip b v t s k = Ok b' ->
  okt s t /\ mem b k (tidx s t) = negb v /\ (wf_bitmap b -> wf_bitmap b') /\
  forall k' i, mem b' k' i = if decide (i = tidx s t /\ k' = k) then v else mem b k' i.
Proof.
  intros Hs H. assert (Ho : okt s t).
  { unfold tickmap_flip in H. inv_res. eapply tick_to_position_inv; eauto. }
  split; auto. pose proof (tickmap_flip_spec b k s t v Hs Ho) as HS.
  destruct (Bool.eqb (mem b k (tidx s t)) v) eqn:E; [congruence|].
  destruct HS as (b2 & E2 & HS). assert (b2 = b') as -> by congruence.
  split; [destruct (mem b k (tidx s t)), v; cbn in *; congruence|]. exact HS.
Qed.

(** ** Searching upwards *)
Lemma skip_up n : forall v bit, 0 < v < 2 ^ Z.of_nat n ->
  exists d, skip_zeros_up n v bit = bit + d /\ 0 <= d < Z.of_nat n /\ Z.testbit v d = true /\
            forall e, 0 <= e < d -> Z.testbit v e = false.
Proof.
  induction n as [|n IH]; intros v bit Hv; [cbn in Hv; lia|].
  cbn [skip_zeros_up]. rewrite Nat2Z.inj_succ, Z.pow_succ_r in Hv by lia.
  destruct (Z.eqb_spec (v mod 2) 0) as [E|E].
  - rewrite Z.shiftr_div_pow2 by lia. change (2 ^ 1) with 2.
    pose proof (Z.div_mod v 2 ltac:(lia)) as D.
    destruct (IH (v / 2) (bit + 1) ltac:(lia)) as (d & H1 & H2 & H3 & H4).
    exists (d + 1). split; [lia|]. split; [lia|].
    assert (T : forall e, 0 <= e -> Z.testbit v (e + 1) = Z.testbit (v / 2) e).
    { intros e He. change (v / 2) with (v / 2 ^ 1). rewrite Z.div_pow2_bits by lia. reflexivity. }
    split; [rewrite T by lia; auto|]. intros e He. destruct (Z.eq_dec e 0) as [->|].
    + rewrite Z.bit0_odd. rewrite Zmod_odd in E. destruct (Z.odd v); congruence.
    + replace e with (e - 1 + 1) by lia. rewrite T by lia. apply H4. lia.
  - exists 0. split; [lia|]. split; [lia|]. split; [|lia].
    rewrite Z.bit0_odd. rewrite Zmod_odd in E. destruct (Z.odd v); auto; lia.
Qed.

(** First member of an index interval. *)
Definition first_in (P : Z -> bool) (lo hi : Z) (r : option Z) : Prop :=
  match r with
  | Some i => lo <= i <= hi /\ P i = true /\ forall j, lo <= j < i -> P j = false
  | None => forall j, lo <= j <= hi -> P j = false
  end.
Definition last_in (P : Z -> bool) (lo hi : Z) (r : option Z) : Prop :=
  match r with
  | Some i => lo <= i <= hi /\ P i = true /\ forall j, i < j <= hi -> P j = false
  | None => forall j, lo <= j <= hi -> P j = false
  end.

Lemma index_to_tick_ok s c bit : 1 <= s -> index_to_tick c bit s = Ok (ticki s (c * 64 + bit)).
Proof.
  intros Hs. unfold index_to_tick, i32_div. destruct (Z.eqb_spec s 0); [lia|]. cbn [bind].
  unfold MAX_TICK, CHUNK_SIZE, ticki, MX. rewrite Z.quot_div_nonneg by lia. reflexivity.
Qed.

Lemma lex_le c bit lc lb : 0 <= bit < 64 -> 0 <= lb < 64 ->
  (c <? lc) || ((c =? lc) && (bit <=? lb)) = (c * 64 + bit <=? lc * 64 + lb).
Proof.
  intros. destruct (Z.ltb_spec c lc), (Z.eqb_spec c lc), (Z.leb_spec bit lb), (Z.leb_spec (c * 64 + bit) (lc * 64 + lb)); cbn; auto; lia.
Qed.

Lemma next_loop_spec b k s lc lb : wf_bitmap b -> 1 <= s -> 0 <= lb < 64 -> forall n c bit,
  0 <= bit < 64 -> lc - c + 1 <= Z.of_nat n ->
  exists r, next_loop b k s lc lb n c bit = Ok (option_map (ticki s) r) /\
            first_in (mem b k) (c * 64 + bit) (lc * 64 + lb) r.
Proof.
  intros W Hs Hlb. induction n as [|n IH]; intros c bit Hbit Hn; cbn [next_loop].
  - exists None. split; [reflexivity|]. intros j Hj. lia.
  - rewrite lex_le by auto. destruct (Z.leb_spec (c * 64 + bit) (lc * 64 + lb)) as [Hle|Hgt].
    2:{ exists None. split; [reflexivity|]. intros j Hj. lia. }
    pose proof (W c k) as HW.
    assert (TB : forall e, 0 <= e -> Z.testbit (Z.shiftr (chunk_at b k c) bit) e = Z.testbit (chunk_at b k c) (e + bit))
      by (intros; apply Z.shiftr_spec; auto).
    assert (HR : 0 <= Z.shiftr (chunk_at b k c) bit < 2 ^ 64).
    { rewrite Z.shiftr_div_pow2 by lia. pose proof (Z.pow_pos_nonneg 2 bit ltac:(lia) ltac:(lia)).
      split; [apply div_nonneg; lia|apply div_lt_upper; nia]. }
    destruct (Z.eqb_spec (Z.shiftr (chunk_at b k c) bit) 0) as [E|E]; cbn [negb].
    + destruct (IH (c + 1) 0 ltac:(lia) ltac:(lia)) as (r & H1 & H2).
      exists r. split; [exact H1|].
      assert (HZ : forall j, c * 64 + bit <= j < (c + 1) * 64 -> mem b k j = false).
      { intros j Hj. replace j with (c * 64 + (j - c * 64)) by lia. rewrite mem_bit by lia.
        replace (j - c * 64) with (j - c * 64 - bit + bit) by lia. rewrite <- TB by lia. rewrite E. apply Z.bits_0. }
      destruct r as [i|]; cbn [first_in] in *.
      * destruct H2 as (H2 & H3 & H4). split; [lia|]. split; auto. intros j Hj.
        destruct (Z.lt_ge_cases j ((c + 1) * 64)); [apply HZ; lia|apply H4; lia].
      * intros j Hj. destruct (Z.lt_ge_cases j ((c + 1) * 64)); [apply HZ; lia|apply H2; lia].
    + assert (HR' : 0 < Z.shiftr (chunk_at b k c) bit < 2 ^ Z.of_nat 64) by (change (Z.of_nat 64) with 64; lia).
      destruct (skip_up 64 _ bit HR') as (d & D1 & D2 & D3 & D4).
      rewrite D1. rewrite TB in D3 by lia.
      assert (Hd : bit + d < 64).
      { destruct (Z.lt_ge_cases (bit + d) 64); auto. exfalso.
        rewrite Z.bits_above_log2 in D3; [discriminate|lia|].
        destruct (Z.eq_dec (chunk_at b k c) 0) as [->|]; [cbn; lia|].
        pose proof (Z.log2_lt_pow2 (chunk_at b k c) 64 ltac:(lia)). lia. }
      rewrite lex_le by lia.
      assert (HM : forall j, c * 64 + bit <= j < c * 64 + (bit + d) -> mem b k j = false).
      { intros j Hj. replace j with (c * 64 + (j - c * 64)) by lia. rewrite mem_bit by lia.
        replace (j - c * 64) with (j - c * 64 - bit + bit) by lia. rewrite <- TB by lia. apply D4. lia. }
      destruct (Z.leb_spec (c * 64 + (bit + d)) (lc * 64 + lb)).
      * exists (Some (c * 64 + (bit + d))). rewrite index_to_tick_ok by auto. split; [reflexivity|].
        cbn [first_in]. split; [lia|]. split; auto. rewrite mem_bit by lia. rewrite <- D3. f_equal. lia.
      * exists None. split; [reflexivity|]. intros j Hj. apply HM. lia.
Qed.

(** ** Searching downwards *)
Lemma land_pow2 v i : 0 <= i -> (Z.land v (2 ^ i) =? 0) = negb (Z.testbit v i).
Proof.
  intros Hi. destruct (Z.eqb_spec (Z.land v (2 ^ i)) 0) as [E|E].
  - assert (Z.testbit (Z.land v (2 ^ i)) i = false) as H by (rewrite E; apply Z.bits_0).
    rewrite Z.land_spec, Z.pow2_bits_true, andb_true_r in H by auto. rewrite H. reflexivity.
  - destruct (Z.testbit v i) eqn:T; auto. exfalso. apply E. apply Z.bits_inj'. intros j Hj.
    rewrite Z.land_spec, Z.pow2_bits_eqb, Z.bits_0 by auto. destruct (Z.eqb_spec i j) as [->|]; [rewrite T; auto|apply andb_false_r].
Qed.

Lemma skip_down n : forall v bit, (exists e, 0 <= e <= bit /\ Z.testbit v e = true) -> bit < Z.of_nat n ->
  exists d, skip_zeros_down n v (2 ^ bit) bit = d /\ 0 <= d <= bit /\ Z.testbit v d = true /\
            forall e, d < e <= bit -> Z.testbit v e = false.
Proof.
  induction n as [|n IH]; intros v bit (e & He & Te) Hn; [lia|].
  cbn [skip_zeros_down]. rewrite land_pow2 by lia. destruct (Z.testbit v bit) eqn:T; cbn [negb].
  - exists bit. split; [auto|]. split; [lia|]. split; auto. lia.
  - assert (e < bit) by (destruct (Z.eq_dec e bit) as [->|]; [congruence|lia]).
    rewrite Z.shiftr_div_pow2 by lia.
    replace (2 ^ bit / 2 ^ 1) with (2 ^ (bit - 1)) by (rewrite <- Z.pow_sub_r by lia; reflexivity).
    destruct (IH v (bit - 1)) as (d & D1 & D2 & D3 & D4); [exists e; split; [lia|auto]|lia|].
    exists d. split; auto. split; [lia|]. split; auto. intros e' He'.
    destruct (Z.eq_dec e' bit) as [->|]; auto. apply D4. lia.
Qed.

Lemma mod_pow2_zero v n : 0 <= n -> (0 <? v mod 2 ^ n) = true -> exists e, 0 <= e < n /\ Z.testbit v e = true.
Proof.
  intros Hn H. apply Z.ltb_lt in H.
  exists (Z.log2 (v mod 2 ^ n)). pose proof (Z.log2_nonneg (v mod 2 ^ n)) as L0.
  pose proof (Z.mod_pos_bound v (2 ^ n) ltac:(apply Z.pow_pos_nonneg; lia)) as HB.
  assert (L1 : Z.log2 (v mod 2 ^ n) < n).
  { apply Z.log2_lt_pow2; lia. }
  split; [lia|].
  rewrite <- (Z.mod_pow2_bits_low v n) by lia. apply Z.bit_log2. auto.
Qed.

Lemma mod_pow2_none v n : 0 <= n -> 0 <= v -> (0 <? v mod 2 ^ n) = false -> forall e, 0 <= e < n -> Z.testbit v e = false.
Proof.
  intros Hn Hv H e He. apply Z.ltb_ge in H.
  pose proof (Z.mod_pos_bound v (2 ^ n) ltac:(apply Z.pow_pos_nonneg; lia)) as HB.
  rewrite <- (Z.mod_pow2_bits_low v n) by lia. replace (v mod 2 ^ n) with 0 by lia. apply Z.bits_0.
Qed.

Lemma lex_ge c bit lc lb : 0 <= bit < 64 -> 0 <= lb < 64 ->
  (lc <? c) || ((c =? lc) && (lb <=? bit)) = (lc * 64 + lb <=? c * 64 + bit).
Proof.
  intros. destruct (Z.ltb_spec lc c), (Z.eqb_spec c lc), (Z.leb_spec lb bit), (Z.leb_spec (lc * 64 + lb) (c * 64 + bit)); cbn; auto; lia.
Qed.

Lemma prev_loop_spec b k s lc lb : wf_bitmap b -> 1 <= s -> 0 <= lc -> 0 <= lb < 64 -> forall n c bit,
  0 <= c -> 0 <= bit < 64 -> c - lc + 1 <= Z.of_nat n ->
  exists r, prev_loop b k s lc lb n c bit = Ok (option_map (ticki s) r) /\
            last_in (mem b k) (lc * 64 + lb) (c * 64 + bit) r.
Proof.
  intros W Hs Hlc Hlb. induction n as [|n IH]; intros c bit Hc Hbit Hn; cbn [prev_loop].
  - exists None. split; [reflexivity|]. intros j Hj. lia.
  - rewrite lex_ge by auto. destruct (Z.leb_spec (lc * 64 + lb) (c * 64 + bit)) as [Hle|Hgt].
    2:{ exists None. split; [reflexivity|]. intros j Hj. lia. }
    pose proof (W c k) as HW. rewrite Z.shiftl_1_l.
    assert (Z.shiftl (2 ^ bit) 1 = 2 ^ (bit + 1)) as -> by (rewrite Z.shiftl_mul_pow2, Z.pow_add_r by lia; reflexivity).
    destruct (0 <? chunk_at b k c mod 2 ^ (bit + 1)) eqn:E.
    + apply mod_pow2_zero in E; [|lia]. destruct E as (e & He & Te).
      destruct (skip_down 64 (chunk_at b k c) bit) as (d & D1 & D2 & D3 & D4); [exists e; split; [lia|auto]|lia|].
      rewrite D1. rewrite lex_ge by lia.
      assert (HM : forall j, c * 64 + d < j <= c * 64 + bit -> mem b k j = false).
      { intros j Hj. replace j with (c * 64 + (j - c * 64)) by lia. rewrite mem_bit by lia. apply D4. lia. }
      destruct (Z.leb_spec (lc * 64 + lb) (c * 64 + d)).
      * exists (Some (c * 64 + d)). rewrite index_to_tick_ok by auto. split; [reflexivity|].
        cbn [last_in]. split; [lia|]. split; auto. rewrite mem_bit by lia. auto.
      * exists None. split; [reflexivity|]. intros j Hj. apply HM. lia.
    + pose proof (mod_pow2_none (chunk_at b k c) (bit + 1) ltac:(lia) (proj1 HW) E) as HN.
      assert (HZ : forall j, c * 64 <= j <= c * 64 + bit -> mem b k j = false).
      { intros j Hj. replace j with (c * 64 + (j - c * 64)) by lia. rewrite mem_bit by lia. apply HN. lia. }
      destruct (Z.eqb_spec c 0) as [->|Hc0].
      * exists None. split; [reflexivity|]. intros j Hj. apply HZ. lia.
      * unfold CHUNK_SIZE. destruct (IH (c - 1) (64 - 1) ltac:(lia) ltac:(lia) ltac:(lia)) as (r & H1 & H2).
        exists r. split; [exact H1|]. destruct r as [i|]; cbn [last_in] in *.
        -- destruct H2 as (H2 & H3 & H4). split; [lia|]. split; auto. intros j Hj.
           destruct (Z.lt_ge_cases j (c * 64)); [apply H4; lia|apply HZ; lia].
        -- intros j Hj. destruct (Z.lt_ge_cases j (c * 64)); [apply H2; lia|apply HZ; lia].
Qed.

(** ** The two searches *)
Definition mint (s : Z) : Z := - (MX / s) * s.
Definition maxt (s : Z) : Z := MX / s * s.

Lemma okt_bounds s t : 1 <= s -> okt s t <-> (mint s <= t <= maxt s /\ (s | t)).
Proof.
  intros Hs. unfold okt, mint, maxt, MX. pose proof (div_bounds 221818 s ltac:(lia)) as D. split; intros [H [q ->]].
  - split; [|exists q; auto].
    assert (q <= 221818 / s) by (apply div_le_lower; lia). assert (- q <= 221818 / s) by (apply div_le_lower; lia). nia.
  - split; [|exists q; auto]. nia.
Qed.

Lemma search_limit_up s t : 1 <= s -> okt s t -> get_search_limit t s true = Ok (Z.min (t + 256 * s) (maxt s)).
Proof.
  intros Hs [Ht [q ->]]. unfold get_search_limit, i32_div. destruct (Z.eqb_spec s 0); [lia|]. cbn [bind].
  unfold MAX_TICK, TICK_SEARCH_RANGE, maxt, MX. rewrite Z.quot_mul, (Z.quot_div_nonneg 221818) by lia. f_equal.
  rewrite <- Z.mul_min_distr_nonneg_r by lia. f_equal. lia.
Qed.

Lemma search_limit_down s t : 1 <= s -> okt s t -> get_search_limit t s false = Ok (Z.max (t - 256 * s) (mint s)).
Proof.
  intros Hs [Ht [q ->]]. unfold get_search_limit, i32_div. destruct (Z.eqb_spec s 0); [lia|]. cbn [bind].
  unfold MAX_TICK, TICK_SEARCH_RANGE, mint, MX. rewrite Z.quot_mul by lia.
  rewrite Z.quot_opp_l, (Z.quot_div_nonneg 221818) by lia. f_equal.
  rewrite <- Z.mul_max_distr_nonneg_r by lia. f_equal. lia.
Qed.

Lemma okt_up s t : 1 <= s -> okt s t -> okt s (Z.min (t + 256 * s) (maxt s)).
Proof.
  intros Hs H. apply okt_bounds in H; auto. apply okt_bounds; auto. destruct H as [H [q ->]]. unfold maxt, mint in *. split; [lia|].
  destruct (Z.min_spec (q * s + 256 * s) (MX / s * s)) as [[_ ->]|[_ ->]]; [exists (q + 256); lia|exists (MX / s); lia].
Qed.
Lemma okt_down s t : 1 <= s -> okt s t -> okt s (Z.max (t - 256 * s) (mint s)).
Proof.
  intros Hs H. apply okt_bounds in H; auto. apply okt_bounds; auto. destruct H as [H [q ->]]. unfold maxt, mint in *. split; [lia|].
  destruct (Z.max_spec (q * s - 256 * s) (- (MX / s) * s)) as [[_ ->]|[_ ->]]; [exists (- (MX / s)); lia|exists (q - 256); lia].
Qed.

(** Membership of a tick. *)
Definition init (b : bitmap) (k : pool_key) (s t : Z) : Prop := okt s t /\ mem b k (tidx s t) = true.

Lemma init_get b k s t : 1 <= s -> (init b k s t <-> tickmap_get b t s k = Ok true).
Proof.
  intros Hs. split.
  - intros [Ho Hm]. rewrite tickmap_get_ok by auto. congruence.
  - intros H. assert (Ho : okt s t).
    { unfold tickmap_get in H. inv_res. eapply tick_to_position_inv; eauto. }
    split; auto. rewrite tickmap_get_ok in H by auto. congruence.
Qed.

Lemma next_initialized_spec b k s t : wf_bitmap b -> 1 <= s -> okt s t ->
  exists r, next_initialized b t s k = Ok r /\
  match r with
  | Some u => t < u <= Z.min (t + 256 * s) (maxt s) /\ init b k s u /\ forall v, t < v < u -> ~ init b k s v
  | None => forall v, t < v <= Z.min (t + 256 * s) (maxt s) -> ~ init b k s v
  end.
Proof.
  intros W Hs Ho. unfold next_initialized. rewrite search_limit_up by auto. cbn [bind].
  destruct (Z.ltb_spec MAX_TICK (t + s)) as [Hm|Hm].
  - exists None. split; auto. intros v Hv [[Hv1 [q ->]] _]. destruct Ho as [Ho [q' ->]]. unfold MAX_TICK in *.
    assert (q' < q) by (apply Z.mul_lt_mono_pos_r with s; lia). assert ((q' + 1) * s <= q * s) by (apply Z.mul_le_mono_nonneg_r; lia). lia.
  - assert (Ho1 : okt s (t + s)).
    { destruct Ho as [Ho [q ->]]. unfold MAX_TICK in *. split; [lia|exists (q + 1); lia]. }
    pose proof (okt_up s t Hs Ho) as Ho2.
    rewrite !tick_to_position_ok by auto. cbn [bind].
    set (L := Z.min (t + 256 * s) (maxt s)) in *.
    pose proof (Z.mod_pos_bound (tidx s (t + s)) 64 ltac:(lia)). pose proof (Z.mod_pos_bound (tidx s L) 64 ltac:(lia)).
    destruct (next_loop_spec b k s (tidx s L / 64) (tidx s L mod 64) W Hs ltac:(lia)
       (Z.to_nat (tidx s L / 64 - tidx s (t + s) / 64 + 1)) (tidx s (t + s) / 64) (tidx s (t + s) mod 64) ltac:(lia) ltac:(lia)) as (r & H1 & H2).
    rewrite H1. exists (option_map (ticki s) r). split; auto.
    replace (tidx s (t + s) / 64 * 64 + tidx s (t + s) mod 64) with (tidx s (t + s)) in H2 by (rewrite (Z.div_mod (tidx s (t + s)) 64) at 1 by lia; lia).
    replace (tidx s L / 64 * 64 + tidx s L mod 64) with (tidx s L) in H2 by (rewrite (Z.div_mod (tidx s L) 64) at 1 by lia; lia).
    assert (HI : tidx s (t + s) = tidx s t + 1).
    { rewrite !tidx_eq by (auto; apply Ho1 || apply Ho). destruct Ho as [_ [q ->]].
      replace (q * s + s) with ((q + 1) * s) by lia. rewrite !Z.div_mul by lia. lia. }
    assert (MO : forall v v', okt s v -> okt s v' -> (v < v' <-> tidx s v < tidx s v')) by (intros v v' [_ ?] [_ ?]; apply tidx_mono; auto).
    destruct r as [i|]; cbn [option_map first_in] in *.
    + destruct H2 as (H2 & H3 & H4).
      pose proof (okt_tidx s t Hs Ho). pose proof (okt_tidx s L Hs Ho2).
      assert (Hoi : okt s (ticki s i)) by (apply okt_ticki; lia).
      pose proof (MO t (ticki s i) Ho Hoi) as M1. pose proof (MO L (ticki s i) Ho2 Hoi) as M2.
      rewrite ticki_tidx in M1, M2 by auto. split; [lia|]. split; [split; [auto|rewrite ticki_tidx by auto; auto]|].
      intros v Hv [Hov Hmv]. pose proof (MO t v Ho Hov). pose proof (MO v (ticki s i) Hov Hoi) as M3.
      rewrite ticki_tidx in M3 by auto. rewrite H4 in Hmv by lia. discriminate.
    + intros v Hv [Hov Hmv]. pose proof (MO t v Ho Hov). pose proof (MO L v Ho2 Hov).
      rewrite H2 in Hmv by lia. discriminate.
Qed.

Lemma prev_initialized_spec b k s t : wf_bitmap b -> 1 <= s -> okt s t ->
  exists r, prev_initialized b t s k = Ok r /\
  match r with
  | Some u => Z.max (t - 256 * s) (mint s) <= u <= t /\ init b k s u /\ forall v, u < v <= t -> ~ init b k s v
  | None => forall v, Z.max (t - 256 * s) (mint s) <= v <= t -> ~ init b k s v
  end.
Proof.
  intros W Hs Ho. unfold prev_initialized. rewrite search_limit_down by auto. cbn [bind].
  pose proof (okt_down s t Hs Ho) as Ho2.
  rewrite !tick_to_position_ok by auto. cbn [bind].
  set (L := Z.max (t - 256 * s) (mint s)) in *.
  pose proof (okt_tidx s t Hs Ho). pose proof (okt_tidx s L Hs Ho2).
  pose proof (Z.mod_pos_bound (tidx s t) 64 ltac:(lia)). pose proof (Z.mod_pos_bound (tidx s L) 64 ltac:(lia)).
  destruct (prev_loop_spec b k s (tidx s L / 64) (tidx s L mod 64) W Hs ltac:(apply div_nonneg; lia) ltac:(lia)
     (Z.to_nat (tidx s t / 64 - tidx s L / 64 + 1)) (tidx s t / 64) (tidx s t mod 64) ltac:(apply div_nonneg; lia) ltac:(lia) ltac:(lia)) as (r & H1' & H2').
  rewrite H1'. exists (option_map (ticki s) r). split; auto.
  replace (tidx s t / 64 * 64 + tidx s t mod 64) with (tidx s t) in H2' by (rewrite (Z.div_mod (tidx s t) 64) at 1 by lia; lia).
  replace (tidx s L / 64 * 64 + tidx s L mod 64) with (tidx s L) in H2' by (rewrite (Z.div_mod (tidx s L) 64) at 1 by lia; lia).
  assert (MO : forall v v', okt s v -> okt s v' -> (v < v' <-> tidx s v < tidx s v')) by (intros v v' [_ ?] [_ ?]; apply tidx_mono; auto).
  destruct r as [i|]; cbn [option_map last_in] in *.
  + destruct H2' as (H2' & H3 & H4).
    assert (Hoi : okt s (ticki s i)) by (apply okt_ticki; lia).
    pose proof (MO t (ticki s i) Ho Hoi) as M1. pose proof (MO (ticki s i) L Hoi Ho2) as M2.
    rewrite ticki_tidx in M1, M2 by auto. split; [lia|]. split; [split; [auto|rewrite ticki_tidx by auto; auto]|].
    intros v Hv [Hov Hmv]. pose proof (MO t v Ho Hov). pose proof (MO (ticki s i) v Hoi Hov) as M3.
    rewrite ticki_tidx in M3 by auto. rewrite H4 in Hmv by lia. discriminate.
  + intros v Hv [Hov Hmv]. pose proof (MO t v Ho Hov). pose proof (MO v L Hov Ho2).
    rewrite H2' in Hmv by lia. discriminate.
Qed.
