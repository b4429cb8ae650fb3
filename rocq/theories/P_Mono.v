(** Two swaps of the same pool in the same direction, one for more of token y than the
    other (C79). *)
From Verif Require Import Base Decimal SqrtPriceM LogM ClammM FeeGrowthM Types TickmapM StorageM
  CollectionsM StateM ServiceM Arith SpecMath SpecSum SpecState SpecHistory SpecLoop
  P_Clamm P_Delta P_Next P_Step P_StepProps P_TickPrice P_Balance P_Effects P_History P_Tickmap P_Loop P_Check P_State
  P_Iter P_Inv P_InvPos P_InvSwap P_Swap P_SwapLoop P_InvHist P_Limit.
From stdpp Require Import gmap list.
From Coq Require Import ZArith Lia Bool.
Open Scope Z_scope.

(** ** A loop that ends is a finite run *)

Section Runs.
  Context {S : Type} (finished : S -> bool) (body : S -> res S).
  Lemma iterate_run n : forall s,
    match iterate finished body n s with
    | Cont s' => forall j r, takes finished body j s' r -> exists i, takes finished body i s r
    | Stop (Ok s') => exists i, takes finished body i s (Ok s')
    | Stop _ => True
    end.
  Proof using.
    induction n as [|n IH]; intros s; cbn [iterate].
    - unfold loop_once. destruct (finished s) eqn:Ef; [exists O; constructor; auto|].
      destruct (body s) as [s'| | |] eqn:Eb; auto. intros j r T. exists (Datatypes.S j). econstructor; eauto.
    - pose proof (IH s) as H1. destruct (iterate finished body n s) as [s1|r1]; [|exact H1].
      pose proof (IH s1) as H2. destruct (iterate finished body n s1) as [s2|[r2| | |]]; auto.
      + intros j r T. destruct (H2 j r T) as [i T2]. exact (H1 i r T2).
      + destruct H2 as [i T2]. exact (H1 i _ T2).
  Qed.
  Lemma while_run s s' : while_loop finished body s = Ok s' -> exists i, takes finished body i s (Ok s').
  Proof using.
    unfold while_loop. intros H. pose proof (iterate_run 100 s) as R.
    destruct (iterate finished body 100 s) as [s1|r1]; [discriminate|]. subst r1. exact R.
  Qed.
End Runs.

(** ** One step *)

Lemma Xup_mono L p n n' : wide p -> wide n -> wide n' -> n' <= n -> n <= p -> u256 L -> Xup L n p <= Xup L n' p.
Proof. intros. apply Xup_anti; auto. Qed.

(** More price for the amount out of x: more x, up to the rounding. *)
Lemma Xdn_mono L p n n' : wide p -> wide n -> wide n' -> p <= n -> n <= n' -> u256 L ->
  (Xdn L p n - Xdn L p n' - 1) * 10 ^ 14 <= Xdn L p n.
Proof.
  intros Hp Hn Hn' H1 H2 HL. apply u256_M in HL. unfold Xdn.
  assert (HD : 10 ^ 14 <= dx_den_up p n /\ 10 ^ 14 <= dx_den_up p n').
  { change (10 ^ 14) with 100000000000000. split; apply dx_den_up_pos; auto. }
  destruct HD as [D1 D2].
  pose proof (dx_nom_nonneg p n L ltac:(lia)) as N1. pose proof (dx_nom_nonneg p n' L ltac:(lia)) as N2.
  pose proof (div_bounds (dx_nom p n L) (dx_den_up p n) ltac:(lia)) as Q1.
  pose proof (div_bounds (dx_nom p n' L) (dx_den_up p n') ltac:(lia)) as Q2.
  pose proof (div_nonneg (dx_nom p n L) (dx_den_up p n) ltac:(lia) N1) as Q3.
  pose proof (div_nonneg (dx_nom p n' L) (dx_den_up p n') ltac:(lia) N2) as Q4.
  assert (E1 : LIQUIDITY_ONE * dx_nom p n L <= (n - p) * L).
  { unfold dx_nom. replace (Z.abs (p - n)) with (n - p) by lia. apply Z.mul_div_le. reflexivity. }
  assert (E2 : (n' - p) * L < LIQUIDITY_ONE * dx_nom p n' L + LIQUIDITY_ONE).
  { unfold dx_nom. replace (Z.abs (p - n')) with (n' - p) by lia. pose proof (div_bounds ((n' - p) * L) LIQUIDITY_ONE eq_refl). lia. }
  assert (E3 : p * n <= SQRT_PRICE_ONE * dx_den_up p n).
  { unfold dx_den_up. pose proof (cdiv_bounds (p * n) SQRT_PRICE_ONE eq_refl). lia. }
  assert (E4 : SQRT_PRICE_ONE * (dx_den_up p n' - 1) <= p * n').
  { unfold dx_den_up. pose proof (cdiv_bounds (p * n') SQRT_PRICE_ONE eq_refl). lia. }
  set (q := dx_nom p n L / dx_den_up p n) in *. set (q' := dx_nom p n' L / dx_den_up p n') in *.
  set (N := dx_nom p n L) in *. set (N' := dx_nom p n' L) in *. set (D := dx_den_up p n) in *. set (D' := dx_den_up p n') in *.
  clearbody q q' N N' D D'.
  assert (P0 : 0 < p /\ 0 < n /\ 0 < n') by (unfold wide in *; lia). destruct P0 as (P1 & P2 & P3).
  assert (F1 : LIQUIDITY_ONE * (D * q) * n' <= (n - p) * L * n').
  { apply Z.mul_le_mono_nonneg_r; [lia|]. unfold LIQUIDITY_ONE in *. lia. }
  assert (F2 : (n' - p) * L * n <= LIQUIDITY_ONE * (D' * (q' + 1)) * n).
  { apply Z.mul_le_mono_nonneg_r; [lia|]. unfold LIQUIDITY_ONE in *. lia. }
  assert (F3 : (n - p) * L * n' <= (n' - p) * L * n).
  { assert (0 <= L * (p * (n' - n))) by (apply Z.mul_nonneg_nonneg; [lia|apply Z.mul_nonneg_nonneg; lia]). lia. }
  assert (F4 : D * q * n' <= D' * (q' + 1) * n) by (unfold LIQUIDITY_ONE in *; lia).
  assert (F5 : D * q * (p * n') <= D' * (q' + 1) * (p * n)).
  { replace (D * q * (p * n')) with (p * (D * q * n')) by ring. replace (D' * (q' + 1) * (p * n)) with (p * (D' * (q' + 1) * n)) by ring.
    apply Z.mul_le_mono_nonneg_l; lia. }
  assert (F6 : D * q * (SQRT_PRICE_ONE * (D' - 1)) <= D' * (q' + 1) * (SQRT_PRICE_ONE * D)).
  { eapply Z.le_trans; [apply Z.mul_le_mono_nonneg_l; [apply Z.mul_nonneg_nonneg; lia|exact E4]|].
    eapply Z.le_trans; [exact F5|]. apply Z.mul_le_mono_nonneg_l; [apply Z.mul_nonneg_nonneg; lia|exact E3]. }
  assert (F7 : q * (D' - 1) <= D' * (q' + 1)).
  { apply Z.mul_le_mono_pos_r with (SQRT_PRICE_ONE * D); [unfold SQRT_PRICE_ONE; lia|]. lia. }
  destruct (Z.le_gt_cases (q - q' - 1) 0); [lia|].
  assert ((q - q' - 1) * 10 ^ 14 <= (q - q' - 1) * D') by (apply Z.mul_le_mono_nonneg_l; lia). lia.
Qed.

Lemma after_fee_mono a a' fee : 0 <= fee <= E12 -> a <= a' -> after_fee a fee <= after_fee a' fee.
Proof. intros Hf H. unfold after_fee. apply Z.div_le_mono; [reflexivity|]. apply Z.mul_le_mono_nonneg_r; lia. Qed.
Lemma ny_in_mono p L y y' : 0 < L -> y <= y' -> ny_in p L y <= ny_in p L y'.
Proof. intros HL H. unfold ny_in. apply Z.add_le_mono_l, Z.div_le_mono; [lia|]. unfold E29. lia. Qed.
Lemma ny_out_mono p L y y' : 0 < L -> y <= y' -> ny_out p L y' <= ny_out p L y.
Proof. intros HL H. unfold ny_out. pose proof (cdiv_mono (y * E29) (y' * E29) L HL ltac:(unfold E29; lia)). lia. Qed.

Lemma step_next_mono p t L a a' (bi : bool) fee : price_in_range p -> price_in_range t -> u256 L -> 0 < L ->
  u256 a -> u256 a' -> a <= a' -> 0 <= fee <= E12 -> (if bi then p < t else t <= p) ->
  let n := step_next p t L a bi fee in let n' := step_next p t L a' bi fee in
  (if bi then p <= n /\ n <= n' /\ n' <= t else t <= n' /\ n' <= n /\ n <= p).
Proof.
  intros Hp Ht HL HL0 Ha Ha' Hle Hf Hd. cbv zeta.
  destruct (step_next_wide p t L a bi fee Hp Ht HL HL0 Ha Hf) as (_ & W1 & W2 & W3).
  destruct (step_next_wide p t L a' bi fee Hp Ht HL HL0 Ha' Hf) as (_ & W4 & W5 & W6).
  pose proof (after_fee_mono a a' fee Hf Hle) as HA. destruct bi.
  - split; [apply W2; exact Hd|]. split; [|apply W5; exact Hd]. specialize (W2 Hd). clear W1 W3 W4 W5 W6. revert W2. unfold step_next. cbv zeta.
    destruct (Z.leb_spec t p); [lia|]. intros W2.
    destruct (Z.leb_spec (Yup L p t) (after_fee a' fee)); [lia|].
    destruct (Z.leb_spec (Yup L p t) (after_fee a fee)); [lia|]. apply ny_in_mono; auto.
  - split; [apply W6; auto|]. split; [|apply W1; exact Hd]. specialize (W3 Hd eq_refl). clear W1 W2 W4 W5 W6. revert W3. unfold step_next.
    destruct (Z.leb_spec t p); [|lia]. intros W3.
    destruct (Z.leb_spec (Ydn L t p) a'); [lia|]. destruct (Z.leb_spec (Ydn L t p) a); [lia|]. apply ny_out_mono; auto.
Qed.

Definition spent (bi : bool) (r : swap_result) : Z := if bi then sr_amount_in r + sr_fee_amount r else sr_amount_out r.

(** The step for less either reaches the target, and then so does the step for more, at
    the same cost; or it uses up its amount. *)
Lemma step_two p t L a a' (bi : bool) fee r r' : price_in_range p -> price_in_range t -> u256 L ->
  u256 a -> u256 a' -> a <= a' -> 0 <= fee <= E12 -> (if bi then p <= t else t <= p) ->
  compute_swap_step p t L a bi fee = Ok r -> compute_swap_step p t L a' bi fee = Ok r' ->
  (sr_next_sqrt_price r = t /\ sr_next_sqrt_price r' = t /\ sr_amount_in r' = sr_amount_in r /\
   sr_fee_amount r' = sr_fee_amount r /\ (bi = true -> sr_amount_out r' = sr_amount_out r) /\
   a - spent bi r <= a' - spent bi r') \/
  (a - spent bi r = 0 /\
   if bi then sr_next_sqrt_price r <= sr_next_sqrt_price r' /\
     (sr_amount_out r - sr_amount_out r' - 1) * 10 ^ 14 <= sr_amount_out r
   else sr_next_sqrt_price r' <= sr_next_sqrt_price r /\ sr_amount_in r <= sr_amount_in r' /\ sr_fee_amount r <= sr_fee_amount r').
Proof.
  intros Hp Ht HL Ha Ha' Hle Hf Hd E E'. unfold spent.
  destruct (Z.eq_dec L 0) as [->|HL0].
  { left. unfold compute_swap_step in E, E'. cbn in E, E'. injection E as <-. injection E' as <-. cbn. destruct bi; repeat split; lia. }
  assert (H0 : 0 < L) by (apply u256_M in HL; lia).
  destruct (Z.eq_dec p t) as [<-|Hne].
  { left. destruct (step_same_price p L a bi fee r Hp HL Ha Hf E) as (-> & -> & -> & ->).
    destruct (step_same_price p L a' bi fee r' Hp HL Ha' Hf E') as (-> & -> & -> & ->). destruct bi; repeat split; lia. }
  pose proof (step_next_mono p t L a a' bi fee Hp Ht HL H0 Ha Ha' Hle Hf) as M. cbv zeta in M.
  specialize (M ltac:(destruct bi; lia)).
  destruct (step_next_wide p t L a bi fee Hp Ht HL H0 Ha Hf) as (W & _).
  destruct (step_next_wide p t L a' bi fee Hp Ht HL H0 Ha' Hf) as (W' & _).
  pose proof (step_exact_in_short p t L a bi fee Hp Ht HL Ha Hf r E) as SI.
  pose proof (step_exact_out_short_y p t L a bi fee Hp Ht HL Ha Hf r E) as SO.
  destruct (step_fields p t L a bi fee Hp Ht HL Ha Hf r E) as [(? & _)|(_ & F1 & F2 & F3 & F4 & F5)]; [lia|].
  destruct (step_fields p t L a' bi fee Hp Ht HL Ha' Hf r' E') as [(? & _)|(_ & G1 & G2 & G3 & G4 & G5)]; [lia|].
  rewrite F1 in *. rewrite G1 in *.
  set (n := step_next p t L a bi fee) in *. set (n' := step_next p t L a' bi fee) in *.
  destruct (Z.eq_dec n t) as [En|En].
  - left. assert (En' : n' = t) by (destruct bi; lia). rewrite F2, F3, F4, G2, G3, G4, En, En'. rewrite Z.eqb_refl. cbn [negb]. rewrite andb_false_r.
    destruct bi; repeat split; try lia; try discriminate.
  - right. pose proof (range_wide p Hp) as Hpw. destruct bi.
    + split; [specialize (SI eq_refl HL0 En); lia|]. split; [lia|]. rewrite F3, G3. unfold step_out. destruct (Z.leb_spec t p); [lia|].
      apply Xdn_mono; auto; lia.
    + split; [specialize (SO eq_refl HL0 ltac:(lia) En); lia|]. split; [lia|].
      assert (HI : sr_amount_in r <= sr_amount_in r').
      { rewrite F2, G2. unfold step_in. destruct (Z.leb_spec t p); [|lia]. apply Xup_anti; auto; lia. }
      split; [exact HI|]. rewrite F4, G4. cbn [andb]. rewrite <- F2, <- G2. unfold fee_up. apply cdiv_mono; [reflexivity|].
      apply Z.mul_le_mono_nonneg_r; lia.
Qed.

(** ** The loop *)

Section Two.
  Context (s : state) (k : pool_key) (bi : bool) (lim ts tl : Z) (p0 : pool).
  Local Notation d := (negb bi).
  Context (I : Inv s) (Hp0 : s_pools s !! k = Some p0).
  Context (Htl : (if d then get_min_tick (pk_spacing k) else get_max_tick (pk_spacing k)) = Ok tl).
  Local Notation body := (swap_iteration s k d bi lim tl ts).
  Local Notation fin := (fun l : swap_loop_state => l_remaining l =? 0).
  Local Notation inv := (linv s k d bi lim p0).

  Definition along (l l' : swap_loop_state) : Prop :=
    (if bi then p_sqrt_price (l_pool l) <= p_sqrt_price (l_pool l') else p_sqrt_price (l_pool l') <= p_sqrt_price (l_pool l)).

  Lemma body_mono l l' : inv l -> l_remaining l <> 0 -> body l = Ok l' ->
    inv l' /\ along l l' /\ l_in l <= l_in l' /\ l_out l <= l_out l' /\ l_fee l <= l_fee l'.
  Proof using I Hp0 Htl.
    intros V Hnz Hb.
    destruct (iteration_facts s k d bi lim tl ts p0 l l' I Hp0 (linv_ready _ _ _ _ _ _ l V Hnz) Hnz Htl Hb)
      as (target & r & p1 & S & E & PO1 & PO' & Hpr & Hl).
    split; [exact (linv_step s k d bi lim ts p0 I Hp0 l l' target r p1 V Hnz S E PO1 PO' Hpr Hl)|].
    split. { unfold along. rewrite Hpr. pose proof (is_dir _ _ _ _ _ _ _ _ _ _ S) as D. destruct bi; cbn [dirP negb] in D; lia. }
    pose proof (u256_M _ (is_in _ _ _ _ _ _ _ _ _ _ S)). pose proof (u256_M _ (is_out _ _ _ _ _ _ _ _ _ _ S)). pose proof (u256_M _ (is_fee _ _ _ _ _ _ _ _ _ _ S)).
    pose proof (is_l_out _ _ _ _ _ _ _ _ _ _ S). pose proof (is_l_fee _ _ _ _ _ _ _ _ _ _ S).
    split; [|lia]. pose proof (is_rem _ _ _ _ _ _ _ _ _ _ S). destruct E; lia.
  Qed.

  Lemma run_mono j l r : takes fin body j l r -> forall l', r = Ok l' -> inv l ->
    along l l' /\ l_in l <= l_in l' /\ l_out l <= l_out l' /\ l_fee l <= l_fee l'.
  Proof using I Hp0 Htl.
    induction 1 as [l Hf|l r Hf Hb Hn|j l l1 r Hf Hb T IH]; intros l' Hr V.
    - injection Hr as <-. unfold along. destruct bi; repeat split; lia.
    - edestruct Hn; eauto.
    - apply Z.eqb_neq in Hf. destruct (body_mono l l1 V Hf Hb) as (V1 & A1 & A2 & A3 & A4).
      destruct (IH l' Hr V1) as (B1 & B2 & B3 & B4). unfold along in *. destruct bi; repeat split; lia.
  Qed.

  (** Where one swap stands when the other, for less, is done. *)
  Definition at_least (l m : swap_loop_state) : Prop :=
    along l m /\
    (if bi then (l_out l - l_out m - 1) * 10 ^ 14 <= l_out l else l_in l <= l_in m /\ l_fee l <= l_fee m).

  Definition together (l m : swap_loop_state) : Prop :=
    l_pool m = l_pool l /\ l_remaining l <= l_remaining m /\ l_in m = l_in l /\ l_fee m = l_fee l /\
    (bi = true -> l_out m = l_out l).

  Lemma body_two l m l' m' : inv l -> inv m -> l_remaining l <> 0 -> together l m ->
    body l = Ok l' -> body m = Ok m' ->
    together l' m' \/ (l_remaining l' = 0 /\ at_least l' m').
  Proof using I Hp0 Htl.
    intros V V' Hnz (RP & RR & RI & RF & RO) Hb Hb'.
    pose proof (v_inv _ _ _ _ _ _ _ V) as I'. pose proof (I_pool _ I' _ _ (mid_pool s k l)) as PO.
    pose proof (po_range _ _ PO) as HR. pose proof (po_liq _ _ PO) as HL.
    pose proof (v_rem _ _ _ _ _ _ _ V) as Ha. pose proof (v_rem _ _ _ _ _ _ _ V') as Ha'.
    pose proof (u256_M _ (v_out _ _ _ _ _ _ _ V)) as HO.
    assert (Hfee : 0 <= pk_fee k <= E12).
    { pose proof (po_tier _ _ PO) as [_ Hf0]. unfold pk_fee in *. change (10 ^ 12) with E12 in Hf0. lia. }
    apply swap_iteration_inv in Hb as X. destruct X as (t & lt & r & p1 & E1 & E2 & E3 & X). cbv zeta in X.
    apply swap_iteration_inv in Hb' as X'. destruct X' as (t' & lt' & r' & p1' & E1' & E2' & E3' & X'). cbv zeta in X'.
    rewrite RP in E1'. rewrite E1 in E1'. injection E1' as <- <-. rewrite RP in E2'.
    pose proof (iteration_price _ _ _ _ _ _ _ _ _ _ _ _ Hb E1 E2) as Q.
    assert (Q' : p_sqrt_price (l_pool m') = sr_next_sqrt_price r').
    { apply (iteration_price _ _ _ _ _ _ _ _ _ t lt r' Hb'); rewrite RP; assumption. }
    destruct (closer_facts (mid s k l) k (l_pool l) d lim t lt I' (mid_pool s k l) (v_lim _ _ _ _ _ _ _ V Hnz) E1) as (T1 & T2 & _).
    destruct (step_amounts _ _ _ _ _ _ _ HR T1 HL Ha Hfee E2) as (U1 & U2 & U3 & U4).
    destruct (step_amounts _ _ _ _ _ _ _ HR T1 HL Ha' Hfee E2') as (U1' & U2' & U3' & U4').
    pose proof U3 as U3b. apply u256_M in U1. apply u256_M in U2. apply u256_M in U3. apply u256_M in U1'. apply u256_M in U2'. apply u256_M in U3'.
    assert (Hd : if bi then p_sqrt_price (l_pool l) <= t else t <= p_sqrt_price (l_pool l)) by (destruct bi; cbn [negb dirP] in T2; lia).
    pose proof (step_two _ t _ _ _ bi _ r r' HR T1 HL Ha Ha' RR Hfee Hd E2 E2') as ST. unfold spent in ST.
    destruct X as (X1 & X2 & X3 & _ & X5 & _ & _ & _ & _ & X). destruct X' as (X1' & X2' & X3' & _ & X5' & _ & _ & _ & _ & X').
    set (rem := l_remaining l - (if bi then sr_amount_in r + sr_fee_amount r else sr_amount_out r)) in *.
    set (rem' := l_remaining m - (if bi then sr_amount_in r' + sr_fee_amount r' else sr_amount_out r')) in *.
    (* what each iteration charges *)
    assert (Y : l_in l + (sr_amount_in r + sr_fee_amount r) <= l_in l' /\ l_remaining l' <= rem /\ 0 <= l_remaining l' /\
      (rem = 0 -> l_in l' = l_in l + (sr_amount_in r + sr_fee_amount r))).
    { clear - X X1. destruct X as [(_ & _ & _ & -> & ->)|(_ & i & b & en & _ & _ & [(_ & _ & _ & -> & ->)|(_ & tk & _ & [(_ & t' & p3 & _ & _ & _ & -> & ->)|(_ & _ & p3 & _ & [(_ & _ & _ & -> & ->)|(_ & _ & -> & ->)])])])]; repeat split; lia. }
    assert (Y' : l_in m + (sr_amount_in r' + sr_fee_amount r') <= l_in m').
    { clear - X' X1'. destruct X' as [(_ & _ & _ & _ & ->)|(_ & i & b & en & _ & _ & [(_ & _ & _ & _ & ->)|(_ & tk & _ & [(_ & t' & p3 & _ & _ & _ & _ & ->)|(_ & _ & p3 & _ & [(_ & _ & _ & _ & ->)|(_ & _ & _ & ->)])])])]; lia. }
    destruct Y as (Y1 & Y2 & Y3 & Y4).
    destruct ST as [(S1 & S2 & S3 & S4 & S5 & S6)|(S1 & S2)].
    2:{ right. fold rem in S1. split; [lia|]. specialize (Y4 S1). split; [unfold along; rewrite Q, Q'; destruct bi; lia|].
        destruct bi; [specialize (RO eq_refl); destruct S2 as [_ S2]; rewrite X5, X5', RO|lia]. lia. }
    fold rem rem' in S6. destruct (Z.eq_dec rem 0) as [Z0|Z0].
    { right. split; [lia|]. specialize (Y4 Z0). split; [unfold along; rewrite Q, Q', S1, S2; destruct bi; lia|].
      destruct bi; [specialize (RO eq_refl); specialize (S5 eq_refl); lia|lia]. }
    (* both go on *)
    left. clear Y1 Y2 Y3 Y4 Y'. rewrite RP, S4, X2 in X2'. injection X2' as <-.
    rewrite S1 in *. rewrite S2 in *.
    destruct (pool_add_fee_ok k (l_pool l) _ d (s_protocol_fee s) p1 PO U3b ltac:(pose proof (u128_M _ (I_fee _ I)); lia) X2) as (_ & HL1 & _).
    assert (EN : forall R en, u256 R -> R <> 0 ->
      is_enough_amount_to_change_price R t (p_liquidity (set_sqrt_price t p1)) (pk_fee k) bi d = Ok en -> d = true -> en = true).
    { intros R en HR0 HR1 He Hd0. assert (Hbi : bi = false) by (destruct bi; [discriminate|reflexivity]). rewrite Hbi in He.
      apply (is_enough_exact_out R t (p_liquidity (set_sqrt_price t p1)) (pk_fee k) en); auto using range_wide.
      cbn [set_sqrt_price p_liquidity]. rewrite HL1. exact HL. }
    assert (Urem : u256 rem) by (apply u256_I; apply u256_M in Ha; unfold rem in *; destruct bi; lia).
    assert (Urem' : u256 rem') by (apply u256_I; apply u256_M in Ha'; unfold rem' in *; destruct bi; lia).
    assert (Z0' : rem' <> 0) by lia.
    assert (G : l_pool m' = l_pool l' /\ l_remaining l' = rem /\ l_remaining m' = rem' /\
                l_in l' = l_in l + (sr_amount_in r + sr_fee_amount r) /\ l_in m' = l_in m + (sr_amount_in r' + sr_fee_amount r')).
    { destruct X as [(L1 & (c & L2 & L3) & _ & L4 & L5)|(L0 & i & b & en & L1 & L2 & X)].
      - destruct L1 as [->|]; [|contradiction].
        destruct X' as [(_ & (c' & M2 & M3) & _ & M4 & M5)|(_ & i & b & en & M1 & _)]; [|discriminate].
        rewrite L2 in M2. injection M2 as <-. rewrite L3, M3. auto.
      - subst lt. destruct X' as [([?|?] & _)|(_ & i' & b' & en' & M1 & M2 & X')]; [discriminate|contradiction|].
        injection M1 as <- <-. pose proof (EN rem en Urem Z0 L2) as D1. pose proof (EN rem' en' Urem' Z0' M2) as D2.
        assert (Hi : forall x : Z, (if d && en then x - pk_spacing k else x) = (if d && en' then x - pk_spacing k else x)).
        { intros x. destruct d; [rewrite D1, D2 by reflexivity; reflexivity|reflexivity]. }
        assert (Hn : negb d || en = true) by (destruct d; [rewrite D1 by reflexivity; reflexivity|reflexivity]).
        assert (Hn' : negb d || en' = true) by (destruct d; [rewrite D2 by reflexivity; reflexivity|reflexivity]).
        destruct X as [(-> & L3 & _ & L4 & L5)|(-> & tk & L3 & [(_ & t1 & p3 & L4 & L5 & _ & L6 & L7)|(Hc & _)])]; [..|congruence].
        + destruct X' as [(_ & M3 & _ & M4 & M5)|(? & _)]; [|discriminate]. rewrite L3, M3, Hi. auto.
        + destruct X' as [(? & _)|(_ & tk' & M3 & [(_ & t1' & p3' & M4 & M5 & _ & M6 & M7)|(Hc & _)])]; [discriminate| |congruence].
          rewrite L3 in M3. injection M3 as <-. rewrite L4 in M4. injection M4 as <- <-. rewrite L5, M5, Hi. auto. }
    destruct G as (G1 & G2 & G3 & G4 & G5). unfold together. rewrite G1, G2, G3, G4, G5, RI, S3, S4. split; [reflexivity|]. split; [exact S6|]. split; [reflexivity|].
    split; [lia|]. intros B. rewrite X5, X5', (RO B), (S5 B). reflexivity.
  Qed.

  Lemma run_two j l r : takes fin body j l r -> forall l', r = Ok l' -> inv l ->
    forall m, inv m -> together l m -> forall i m', takes fin body i m (Ok m') -> at_least l' m'.
  Proof using I Hp0 Htl.
    induction 1 as [l Hf|l r Hf Hb Hn|j l l1 r Hf Hb T IH]; intros l' Hr V m V' R i m' T'.
    - injection Hr as <-. destruct (run_mono i m _ T' m' eq_refl V') as (A1 & A2 & A3 & A4). pose proof (u256_M _ (v_out _ _ _ _ _ _ _ V)).
      destruct R as (R1 & R2 & R3 & R4 & R5). unfold at_least, along in *. rewrite R1 in A1. destruct bi; [specialize (R5 eq_refl)|]; lia.
    - edestruct Hn; eauto.
    - apply Z.eqb_neq in Hf. pose proof R as (R1 & R2 & R3 & R4 & R5).
      pose proof (u256_M _ (v_rem _ _ _ _ _ _ _ V)) as UR.
      inversion T' as [? Hf'|? ? Hf' Hb' Hn'|i0 ? m1 ? Hf' Hb' T1]; subst.
      + apply Z.eqb_eq in Hf'. lia.
      + edestruct Hn'; eauto.
      + apply Z.eqb_neq in Hf'. destruct (body_mono l l1 V Hf Hb) as (V1 & _). destruct (body_mono m m1 V' Hf' Hb') as (V1' & _).
        destruct (body_two l m l1 m1 V V' Hf R Hb Hb') as [R'|[Z0 A]].
        * exact (IH l' eq_refl V1 m1 V1' R' i0 m' T1).
        * inversion T as [? Hd|? ? Hd|? ? ? ? Hd]; subst; try (apply Z.eqb_neq in Hd; contradiction).
          destruct (run_mono i0 m1 _ T1 m' eq_refl V1') as (A1 & A2 & A3 & A4).
          unfold at_least, along in *. destruct bi; lia.
  Qed.
End Two.

Lemma calculate_swap_two s ts k (bi : bool) a a' lim r r' : Inv s -> u256 a -> u256 a' -> a <= a' ->
  calculate_swap s ts k (negb bi) a bi lim = Ok r -> calculate_swap s ts k (negb bi) a' bi lim = Ok r' ->
  if bi then p_sqrt_price (cs_pool r) <= p_sqrt_price (cs_pool r') /\
             (cs_amount_out r - cs_amount_out r' - 1) * 10 ^ 14 <= cs_amount_out r
  else p_sqrt_price (cs_pool r') <= p_sqrt_price (cs_pool r) /\ cs_amount_in r <= cs_amount_in r' /\ cs_fee r <= cs_fee r'.
Proof.
  intros I Ha Ha' Hle H H'.
  apply calculate_swap_inv in H as (p & tl & l & H1 & H2 & H3 & H4 & H5 & H6 & ->).
  apply calculate_swap_inv in H' as (p' & tl' & l' & H1' & H2' & H3' & H4' & H5' & H6' & ->).
  rewrite H2 in H2'. injection H2' as <-. rewrite H4 in H4'. injection H4' as <-.
  apply while_run in H5 as [i T]. apply while_run in H5' as [j T'].
  assert (Hlim : dirP (negb bi) (lim < p_sqrt_price p) (p_sqrt_price p < lim)) by (destruct bi; cbn in *; lia).
  pose proof (linv_start s k (negb bi) bi lim a p I H2 Ha Hlim) as V. pose proof (linv_start s k (negb bi) bi lim a' p I H2 Ha' Hlim) as V'.
  assert (R : together bi (mkLoop p a 0 0 0 []) (mkLoop p a' 0 0 0 [])) by (repeat split; cbn; lia).
  pose proof (run_two s k bi lim ts tl p I H2 H4 i _ _ T l eq_refl V _ V' R j l' T') as (A1 & A2).
  unfold along in A1. cbn [cs_pool cs_amount_out cs_amount_in cs_fee]. destruct bi; auto.
Qed.
