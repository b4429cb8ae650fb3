(** The price at which a swap is executed: what the segments of its walk add up to. *)
From Verif Require Import Base Decimal SqrtPriceM LogM ClammM FeeGrowthM Types TickmapM StorageM
  CollectionsM StateM ServiceM Arith SpecMath SpecFees SpecSum SpecState SpecHistory SpecPath SpecPrice P_Clamm P_Delta P_Next P_Step
  P_StepProps P_TickPrice P_GetTick P_Tickmap P_Closer
  P_Fees P_Balance P_Effects P_Positions P_History P_Loop P_Check P_State P_Iter P_Inv P_InvPos P_InvSwap P_Swap P_SwapLoop P_Path.
From stdpp Require Import gmap list.
From Coq Require Import ZArith Lia Bool.
Open Scope Z_scope.

(** ** One segment *)
Lemma x_num_above v a b L : 10 ^ 24 <= a * b -> x_rounded_up v a b L -> x_num a b L <= v * (a * b) + 2 * 10 ^ 24.
Proof.
  intros Hab (V & H & _). unfold x_den in H. set (den := a * b) in *. clearbody den. set (N := x_num a b L) in *. clearbody N.
  change (10 ^ 24) with E24 in *. pose proof (div_bounds den E24 eq_refl) as HQ. set (q := den / E24) in *. clearbody q.
  assert (1 <= q) by (unfold E24 in *; nia).
  destruct (Z.le_gt_cases N (v * den + 2 * E24)) as [|HH]; [auto|exfalso].
  assert ((v * den + 2 * E24) * q < N * q) by (apply Z.mul_lt_mono_pos_r; lia). unfold E24 in *. nia.
Qed.

Section Segment.
  Context (s : state) (k : pool_key) (d bi : bool) (rate : Z) (g : segment).
  Context (G : on_curve s k d bi rate g).
  Context (Rf : price_in_range (g_from g)) (Rt : price_in_range (g_to g)).

  Lemma seg_den : 10 ^ 24 <= g_from g * g_to g.
  Proof using Rf Rt. clear - Rf Rt. unfold price_in_range in *. nia. Qed.

  Lemma seg_at_most q : (if d then g_from g <= q else 0 <= q <= g_from g) -> 0 <= g_in g -> worth_at_most d q 1 (g_in g) (g_out g).
  Proof using G Rf Rt.
    intros Hq Hi. pose proof (oc_in _ _ _ _ _ _ G) as HI. destruct (oc_out _ _ _ _ _ _ G) as [HO0 HO].
    pose proof (oc_direction _ _ _ _ _ _ G) as HD. pose proof seg_den as HA. unfold worth_at_most.
    unfold price_in_range in Rf, Rt. destruct d.
    - apply (x_num_above _ _ _ _ HA) in HI. unfold x_num in HI. unfold y_num, y_den in HO.
      assert (g_in g * (g_from g * g_to g) <= g_in g * (q * q)) by (apply Z.mul_le_mono_nonneg_l; nia). lia.
    - unfold is_ceil, y_num, y_den in HI. unfold x_num, x_den in HO.
      assert (g_out g * (q * q) <= g_out g * (g_from g * g_to g)) by (apply Z.mul_le_mono_nonneg_l; nia). lia.
  Qed.

  Lemma seg_at_least q : full_output d g -> (if d then 10 ^ 12 <= q <= g_to g else g_to g <= q) -> 0 <= g_in g -> worth_at_least d q 1 (g_in g) (g_out g).
  Proof using G Rf Rt.
    intros HF Hq Hi. pose proof (oc_in _ _ _ _ _ _ G) as HI. destruct (oc_out _ _ _ _ _ _ G) as [HO0 _].
    pose proof (oc_direction _ _ _ _ _ _ G) as HD. pose proof seg_den as HA. unfold worth_at_least, full_output in *.
    unfold price_in_range in Rf, Rt. destruct d.
    - destruct HI as (_ & _ & _ & HI). unfold x_num, x_den in HI. unfold is_floor, y_num, y_den in HF.
      assert (HQ : 10 ^ 24 <= q * q <= g_from g * g_to g) by nia.
      destruct (Z.eq_dec (g_in g) 0) as [E|N]; [rewrite E; lia|].
      assert ((g_in g - 1) * (q * q - 10 ^ 24) <= (g_in g - 1) * (g_from g * g_to g - 10 ^ 24)) by (apply Z.mul_le_mono_nonneg_l; lia).
      lia.
    - destruct HF as (_ & _ & HF). unfold x_num, x_den in HF. unfold is_ceil, y_num, y_den in HI.
      assert ((g_out g + 1) * (g_from g * g_to g + 10 ^ 24) <= (g_out g + 1) * (q * q + 10 ^ 24)) by (apply Z.mul_le_mono_nonneg_l; nia).
      lia.
  Qed.

  (** The rate of all that is paid is hardly less than what goes into the price. *)
  Lemma seg_net_exact : exact_fee rate g -> 0 <= rate -> (g_in g + g_fee g) * (10 ^ 12 - rate) <= (g_in g + 1) * 10 ^ 12.
  Proof using G.
    intros HF Hr. unfold exact_fee, is_ceil in HF. destruct (oc_fee _ _ _ _ _ _ G) as [F0 _].
    assert (0 <= g_fee g * rate) by (apply Z.mul_nonneg_nonneg; auto). lia.
  Qed.
End Segment.

Lemma less_fee_above rate a : a * (10 ^ 12 - rate) < (less_fee rate a + 1) * 10 ^ 12.
Proof. unfold less_fee. pose proof (div_bounds (a * (10 ^ 12 - rate)) (10 ^ 12) eq_refl). lia. Qed.

Lemma worth_at_most_add d q n m i j o u : worth_at_most d q n i o -> worth_at_most d q m j u -> worth_at_most d q (n + m) (i + j) (o + u).
Proof. unfold worth_at_most. destruct d; lia. Qed.
Lemma worth_at_least_add d q n m i j o u : worth_at_least d q n i o -> worth_at_least d q m j u -> worth_at_least d q (n + m) (i + j) (o + u).
Proof. unfold worth_at_least. destruct d; lia. Qed.

(** ** All segments *)
Lemma connected_between s k d bi rate : forall l a b, Forall (on_curve s k d bi rate) l -> connected a l b ->
  (if d then b <= a else a <= b) /\ Forall (fun g => if d then b <= g_to g /\ g_from g <= a else a <= g_from g /\ g_to g <= b) l.
Proof.
  induction l as [|g l IH]; cbn [connected]; intros a b HF HC.
  - subst. split; [destruct d; lia|constructor].
  - inversion HF as [|? ? G HF']; subst. destruct HC as [<- HC]. destruct (IH _ _ HF' HC) as [D A].
    pose proof (oc_direction _ _ _ _ _ _ G) as DG. split; [destruct d; lia|]. constructor; [destruct d; lia|].
    eapply Forall_impl; [exact A|]. intros h Hh. cbn in Hh. destruct d; lia.
Qed.

Lemma connected_last l g : forall a b, connected a (l ++ [g]) b -> g_to g = b /\ connected a l (g_from g).
Proof.
  induction l as [|h l IH]; cbn [app connected]; intros a b H.
  - destruct H as [-> ->]. auto.
  - destruct H as [-> H]. destruct (IH _ _ H). auto.
Qed.

Section Whole.
  Context (s : state) (k : pool_key) (d bi : bool) (rate : Z) (P P' : Z).
  Context (RP : price_in_range P) (RP' : price_in_range P') (Hrate : 0 <= rate).

  Lemma segs_at_most l : Forall (on_curve s k d bi rate) l -> Forall (fun g => 0 <= g_in g) l -> connected P l P' ->
    worth_at_most d P (Z.of_nat (length l)) (sumZ g_in l) (sumZ g_out l).
  Proof using RP RP'.
    intros HF HN HC. destruct (connected_between _ _ _ _ _ _ _ _ HF HC) as [D A]. clear HC.
    induction l as [|g l IH]; cbn [length sumZ]; [unfold worth_at_most; destruct d; lia|].
    inversion HF; inversion HN; inversion A as [|? ? HA A']; subst. rewrite Nat2Z.inj_succ. unfold Z.succ. rewrite Z.add_comm.
    apply worth_at_most_add; [|apply IH; auto].
    assert (DG : if d then g_to g <= g_from g else g_from g <= g_to g) by (apply (oc_direction s k d bi rate); auto).
    apply (seg_at_most s k d bi rate g); auto; unfold price_in_range in *; destruct d; lia.
  Qed.

  Lemma segs_at_least l : bi = true -> Forall (on_curve s k d bi rate) l -> Forall (fun g => 0 <= g_in g) l -> connected P l P' ->
    worth_at_least d P' (Z.of_nat (length l)) (sumZ g_in l) (sumZ g_out l).
  Proof using RP RP'.
    intros Hbi HF HN HC. destruct (connected_between _ _ _ _ _ _ _ _ HF HC) as [D A]. clear HC.
    induction l as [|g l IH]; cbn [length sumZ].
    { unfold worth_at_least, price_in_range in *. destruct d; lia. }
    inversion HF as [|? ? G]; inversion HN; inversion A as [|? ? HA A']; subst. rewrite Nat2Z.inj_succ. unfold Z.succ. rewrite Z.add_comm.
    apply worth_at_least_add; [|apply IH; auto].
    pose proof (oc_direction _ _ _ _ _ _ G) as DG. pose proof (oc_mode _ _ _ _ _ _ G) as HM. cbn in HM.
    apply (seg_at_least s k d true rate g); auto; unfold price_in_range in *; destruct d; lia.
  Qed.

  Lemma segs_net l : Forall (on_curve s k d bi rate) l -> Forall (whole d rate) l ->
    sumZ (fun g => g_in g + g_fee g + g_left g) l * (10 ^ 12 - rate) <= (sumZ g_in l + Z.of_nat (length l)) * 10 ^ 12.
  Proof using Hrate.
    intros HF HW. induction l as [|g l IH]; cbn [length sumZ]; [lia|].
    inversion HF as [|? ? G]; inversion HW as [|? ? W]; subst. destruct W as (W1 & _ & W3).
    pose proof (seg_net_exact _ _ _ _ _ _ G W1 Hrate). specialize (IH ltac:(auto) ltac:(auto)). rewrite W3. lia.
  Qed.
End Whole.

Lemma too_little_0 d q L : 0 <= L -> too_little d 0 q L.
Proof. intros. unfold too_little. destruct d; lia. Qed.

Lemma curve_nonneg s k q : Inv s -> 0 <= curve s k q.
Proof.
  intros I. unfold curve. apply msum_nonneg. intros [u n] pos Hpos. pose proof (pos_nonneg _ _ _ _ I Hpos).
  destruct (_ && _); lia.
Qed.

Lemma on_curve_in s k d bi rate g : Inv s -> on_curve s k d bi rate g -> 0 <= g_liquidity g /\ 0 <= g_in g.
Proof.
  intros I G.
  assert (HL : 0 <= g_liquidity g).
  { destruct (oc_start _ _ _ _ _ _ G) as [-> | ->]; apply curve_nonneg; exact I. }
  split; [exact HL|]. pose proof (oc_in _ _ _ _ _ _ G) as H. destruct d; [apply H|]. unfold is_ceil, y_num, y_den in H.
  assert (0 <= g_liquidity g * Z.abs (g_from g - g_to g)) by (apply Z.mul_nonneg_nonneg; lia). lia.
Qed.

(** ** A whole walk *)
Section WalkPrice.
  Context (s : state) (I : Inv s) (k : pool_key) (d bi : bool) (p p' : pool) (a b fee : Z) (segs : list segment).
  Context (W : walk s k d bi p p' a b fee segs).
  Context (R : price_in_range (p_sqrt_price p)) (R' : price_in_range (p_sqrt_price p')) (Hrate : 0 <= ft_fee (pk_fee_tier k) <= 10 ^ 12).

  Lemma walk_ins : Forall (fun g => 0 <= g_in g) segs.
  Proof using I W.
    eapply Forall_impl; [exact (wk_segments _ _ _ _ _ _ _ _ _ _ W)|]. intros g G. apply (on_curve_in _ _ _ _ _ _ I G).
  Qed.

  Lemma sums_split : a = sumZ g_in segs + fee + sumZ g_left segs /\ 0 <= sumZ g_left segs.
  Proof using W.
    rewrite (wk_in _ _ _ _ _ _ _ _ _ _ W), (wk_fee _ _ _ _ _ _ _ _ _ _ W).
    pose proof (wk_segments _ _ _ _ _ _ _ _ _ _ W) as HF. clear - HF.
    induction segs as [|g l IH]; cbn [sumZ]; [lia|]. inversion HF as [|? ? G]; subst. specialize (IH ltac:(auto)).
    destruct (oc_left _ _ _ _ _ _ G) as [L0 _]. lia.
  Qed.

  Lemma walk_at_most : worth_at_most d (p_sqrt_price p) (Z.of_nat (length segs)) (a - fee) b.
  Proof using I W R R'.
    pose proof (segs_at_most s k d bi _ _ _ R R' segs (wk_segments _ _ _ _ _ _ _ _ _ _ W) walk_ins (wk_connected _ _ _ _ _ _ _ _ _ _ W)) as H.
    rewrite <- (wk_out _ _ _ _ _ _ _ _ _ _ W) in H. destruct sums_split as [E HL]. unfold worth_at_most in *. destruct d; [|lia].
    assert (0 <= sumZ g_left segs * (p_sqrt_price p * p_sqrt_price p)) by (apply Z.mul_nonneg_nonneg; [exact HL|apply Z.square_nonneg]).
    replace (a - fee) with (sumZ g_in segs + sumZ g_left segs) by lia. lia.
  Qed.

  Lemma walk_at_least : bi = true ->
    exists net g q, 0 <= net <= a - fee /\
      Z.min (p_sqrt_price p) (p_sqrt_price p') - 1 <= q <= Z.max (p_sqrt_price p) (p_sqrt_price p') /\
      0 <= g /\ too_little d g (p_sqrt_price p') (curve s k q) /\
      a * (10 ^ 12 - ft_fee (pk_fee_tier k)) <= (net + Z.of_nat (length segs) + 1 + 2 * g) * 10 ^ 12 /\
      worth_at_least d (p_sqrt_price p') (Z.of_nat (length segs)) net b.
  Proof using I W R R' Hrate.
    intros Hbi. set (P := p_sqrt_price p) in *. set (P' := p_sqrt_price p') in *. set (rate := ft_fee (pk_fee_tier k)) in *.
    pose proof (wk_segments _ _ _ _ _ _ _ _ _ _ W) as HF. fold rate in HF. pose proof walk_ins as HN.
    pose proof (wk_connected _ _ _ _ _ _ _ _ _ _ W) as HC. fold P P' in HC.
    pose proof (segs_at_least s k d bi rate P P' R R' segs Hbi HF HN HC) as HL. rewrite <- (wk_out _ _ _ _ _ _ _ _ _ _ W) in HL.
    destruct sums_split as [E HG]. exists (sumZ g_in segs).
    assert (HN0 : 0 <= sumZ g_in segs).
    { clear - HN. induction segs as [|g l IH]; cbn [sumZ]; [lia|]. inversion HN; subst. specialize (IH ltac:(auto)). lia. }
    assert (HNF : 0 <= sumZ g_in segs <= a - fee) by lia.
    pose proof (wk_in _ _ _ _ _ _ _ _ _ _ W) as EA. pose proof (wk_whole _ _ _ _ _ _ _ _ _ _ W) as HW. fold rate in HW.
    destruct (connected_between _ _ _ _ _ _ _ _ HF HC) as [D A]. clear E HG HN0.
    assert (CASES : segs = [] \/ exists l g, segs = l ++ [g]).
    { clear. induction segs as [|x y _] using rev_ind; [auto|right; eauto]. }
    destruct CASES as [ES|(l & g & ES)]; rewrite ES in *; clear ES.
    - cbn in *. exists 0, P. split; [lia|]. split; [lia|]. split; [lia|]. split; [apply too_little_0, curve_nonneg, I|]. split; [lia|exact HL].
    - apply Forall_app in HF as [HF1 HF2]. apply Forall_inv in HF2 as G. rewrite removelast_last in HW.
      apply Forall_app in A as [_ A2]. apply Forall_inv in A2 as AG. cbn in AG.
      destruct (connected_last _ _ _ _ HC) as [ET EFR]. 
      pose proof (segs_net s k d bi rate ltac:(lia) l HF1 HW) as HNet.
      rewrite sumZ_snoc in EA. rewrite !sumZ_snoc in *. rewrite app_length in *. cbn [length] in *.
      set (S1 := sumZ (fun g => g_in g + g_fee g + g_left g) l) in *. set (S2 := sumZ g_in l) in *. set (N := Z.of_nat (length l)) in *.
      replace (Z.of_nat (length l + 1)) with (N + 1) in * by (unfold N; lia).
      destruct (on_curve_in _ _ _ _ _ _ I G) as [L0 _].
      assert (HV : exists v, 0 <= v /\ too_little d v P' (g_liquidity g) /\ (g_in g + g_fee g) * (10 ^ 12 - rate) <= (g_in g + 1 + v) * 10 ^ 12).
      { destruct (oc_fee _ _ _ _ _ _ G) as [F0 [F|[_ F]]].
        - exists 0. split; [lia|]. split; [apply too_little_0; exact L0|]. pose proof (seg_net_exact _ _ _ _ _ _ G F ltac:(lia)). lia.
        - pose proof (less_fee_above rate (g_in g + g_fee g)) as LF. set (v := less_fee rate (g_in g + g_fee g) - g_in g) in *.
          exists (Z.max 0 v). split; [lia|]. split; [|lia].
          destruct (Z.max_spec 0 v) as [[_ ->]|[_ ->]]; [rewrite <- ET; exact F|apply too_little_0; exact L0]. }
      assert (HX : exists v, 0 <= v /\ too_little d v P' (g_liquidity g) /\ g_left g * (10 ^ 12 - rate) <= (1 + v) * 10 ^ 12).
      { destruct (oc_left _ _ _ _ _ _ G) as [F0 F]. destruct (Z.eq_dec (g_left g) 0) as [E0|NE0].
        - exists 0. split; [lia|]. split; [apply too_little_0; exact L0|]. lia.
        - destruct (F NE0) as (Ed & _ & _ & HT). pose proof (less_fee_above rate (g_left g)) as LF. set (v := less_fee rate (g_left g)) in *.
          exists v. assert (0 <= v) by (apply Z.div_pos; [apply Z.mul_nonneg_nonneg|]; lia). split; [lia|]. split; [|lia]. rewrite Ed, <- ET. exact HT. }
      destruct HV as (v & V0 & V1 & V2), HX as (w & W0 & W1 & W2).
      assert (HM : too_little d (Z.max v w) P' (g_liquidity g)) by (destruct (Z.max_spec v w) as [[_ ->]|[_ ->]]; auto).
      assert (HQ : exists q, Z.min P P' - 1 <= q <= Z.max P P' /\ g_liquidity g = curve s k q).
      { destruct (oc_start _ _ _ _ _ _ G) as [H|H]; [exists (g_from g)|exists (g_from g - 1)]; (split; [|exact H]);
          pose proof (oc_direction _ _ _ _ _ _ G); destruct d; lia. }
      destruct HQ as (q & Hq & Hq'). exists (Z.max v w), q. rewrite <- Hq'.
      split; [lia|]. split; [exact Hq|]. split; [lia|]. split; [exact HM|]. split; [|exact HL]. lia.
  Qed.
End WalkPrice.

(** ** The number of segments *)
Section Count.
  Context (s : state) (I : Inv s) (ts : Z) (k : pool_key) (d bi : bool) (a lim : Z) (p0 : pool).
  Context (Hp0 : s_pools s !! k = Some p0) (Ha : u256 a).
  Context (Hact : active_at s k (p_current_tick_index p0) = p_liquidity p0).

  Lemma iter_ticks l l' r p2 rem : linv s k d bi lim p0 l -> iend s k d bi lim ts l l' r p2 rem -> d = true \/ bi = true ->
    l_remaining l' <> 0 -> dirP d (p_current_tick_index (l_pool l') < p_current_tick_index (l_pool l)) (p_current_tick_index (l_pool l) < p_current_tick_index (l_pool l')).
  Proof using I.
    intros V E Hdb Hr. pose proof (I_pool _ (v_inv _ _ _ _ _ _ _ V) _ _ (mid_pool s k l)) as PO. pose proof (pool_spacing _ _ PO) as Hsp.
    inversion E as [c' EP ET ER EI NP DIR|c' v EP ET ER EZ EI Hv Hpv _ NM|i t0 Ht Hti Hi Hn Hcl Hst EP ET ER EI NP|i p3 Hd Hbi Hr3 Hfe EP ET ER EI Hi Hn NP];
      rewrite EP; cbn [set_current_tick_index p_current_tick_index] in *; destruct d; cbn [dirP] in *.
    - rewrite ER in Hr. specialize (DIR Hr). lia.
    - rewrite ER in Hr. destruct (DIR Hr) as (_ & _ & D). apply D. destruct Hdb; [discriminate|auto].
    - lia.
    - lia.
    - lia.
    - lia.
    - lia.
    - discriminate Hd.
  Qed.

  (** Two prices in order: the ticks are in order up to one spacing. *)
  Lemma ticks_order p p' : pool_ok k p -> pool_ok k p' -> p_sqrt_price p' <= p_sqrt_price p ->
    p_current_tick_index p' <= p_current_tick_index p + pk_spacing k.
  Proof.
    intros PO PO' Hle. pose proof (pool_spacing _ _ PO) as Hsp.
    pose proof (po_tick _ _ PO) as Hc. pose proof (po_tick _ _ PO') as Hc'. pose proof (okt_valid _ _ Hc) as Vc. pose proof (okt_valid _ _ Hc') as Vc'.
    destruct (Z.le_gt_cases (p_current_tick_index p') (p_current_tick_index p + pk_spacing k)) as [|HH]; [auto|exfalso].
    assert (Vs : valid_tick (p_current_tick_index p + pk_spacing k)) by (unfold valid_tick in *; lia).
    pose proof (po_up _ _ PO Vs) as H1. pose proof (po_lo _ _ PO') as H2. pose proof (price_lt _ _ Vs Vc' HH). lia.
  Qed.

  Lemma walk_count out : calculate_swap s ts k d a bi lim = Ok out ->
    exists segs, walk s k d bi p0 (cs_pool out) (cs_amount_in out) (cs_amount_out out) (cs_fee out) segs /\
      (d = true \/ bi = true ->
       Z.of_nat (length segs) <= Z.abs (p_current_tick_index (cs_pool out) - p_current_tick_index p0) + pk_spacing k + 1).
  Proof using I Hp0 Ha Hact.
    intros H.
    pose (Q := fun l => exists segs, pinv s k d bi p0 l segs /\
      (d = true \/ bi = true ->
       (l_remaining l <> 0 -> dirP d (Z.of_nat (length segs) <= p_current_tick_index p0 - p_current_tick_index (l_pool l))
                                     (Z.of_nat (length segs) <= p_current_tick_index (l_pool l) - p_current_tick_index p0)) /\
       Z.of_nat (length segs) <= Z.abs (p_current_tick_index (l_pool l) - p_current_tick_index p0) + pk_spacing k + 1)).
    pose proof (I_pool _ I _ _ Hp0) as PO0. pose proof (pool_spacing _ _ PO0) as Hsp.
    eapply (swap_induction s k d bi lim ts a p0 I Hp0 Ha Q) in H as (l & V & R0 & (segs & HQ & HN) & _ & _ & ->).
    - exists segs. cbn [cs_pool cs_amount_in cs_amount_out cs_fee]. split; [destruct HQ; constructor; auto|]. intros Hdb. apply (HN Hdb).
    - intros _. exists []. split.
      + unfold loop_start. constructor; cbn; auto; try (rewrite Z.add_0_r); auto.
        symmetry. apply Z.mod_small. unfold grow. destruct d; [apply (po_gx _ _ PO0)|apply (po_gy _ _ PO0)].
      + intros _. unfold loop_start. cbn. split; [intros _; destruct d; cbn [dirP]; lia|lia].
    - intros l l' target r p1 V Hr (segs & HQ & HN) S E PO1 Hpr V'.
      destruct (walk_step s I ts k d bi lim p0 Hp0 Hact l l' target r p1 segs V Hr HQ S E PO1 Hpr V') as (x & HQ' & _).
      eexists. split; [exact HQ'|]. intros Hdb. destruct (HN Hdb) as [HN1 _]. specialize (HN1 Hr).
      pose proof (iter_ticks l l' _ _ _ V E Hdb) as HM.
      pose proof (I_pool _ (v_inv _ _ _ _ _ _ _ V) _ _ (mid_pool s k l)) as PO.
      pose proof (I_pool _ (v_inv _ _ _ _ _ _ _ V') _ _ (mid_pool s k l')) as PO'.
      pose proof (is_dir _ _ _ _ _ _ _ _ _ _ S) as Hdir. rewrite <- Hpr in Hdir.
      rewrite app_length. cbn [length]. split.
      + intros Hr'. specialize (HM Hr'). destruct d; cbn [dirP] in *; lia.
      + destruct d; cbn [dirP] in *.
        * pose proof (ticks_order _ _ PO PO' Hdir). lia.
        * pose proof (ticks_order _ _ PO' PO (proj1 Hdir)). lia.
  Qed.
End Count.
