(** Exact amounts of tokens in positions, and how the rounded amounts compare. *)
From Verif Require Import Base Decimal SqrtPriceM LogM ClammM FeeGrowthM Types TickmapM StorageM
  CollectionsM StateM ServiceM Arith SpecMath SpecFees SpecSum SpecState SpecHistory SpecSolv P_Clamm P_Delta P_Next P_Step P_StepProps P_TickPrice P_GetTick P_Tickmap P_Closer
  P_Fees P_Balance P_Effects P_Positions P_History P_Loop P_Check P_State P_Iter P_Inv P_InvPos P_PosOps P_RSum.
From stdpp Require Import gmap list.
From Coq Require Import ZArith Lia Bool Reals Lra.
Open Scope Z_scope.

Definition eps : R := (/ (2 * 10 ^ 14))%R.

Lemma eps_pos : (0 < eps)%R.
Proof. unfold eps. apply Rinv_0_lt_compat. lra. Qed.

Lemma tick_price_valid i : valid_tick i -> tick_price i = price i.
Proof. intros H. unfold tick_price. rewrite calculate_sqrt_price_valid by auto. reflexivity. Qed.

Lemma IZR_pos a : 0 < a -> (0 < IZR a)%R.
Proof. intros. apply IZR_lt. auto. Qed.

(** ** Exact amounts as quotients of integers *)

Lemma x_exact a b L : 0 < a -> a <= b ->
  (IZR (x_num a b L) = IZR L * 10 ^ 19 * (/ IZR a - / IZR b) * IZR (x_den a b))%R.
Proof.
  intros Ha Hab. unfold x_num, x_den. rewrite Z.abs_neq by lia.
  rewrite !mult_IZR, opp_IZR, minus_IZR. change (IZR (10 ^ 19)) with (10000000000000000000%R).
  pose proof (IZR_pos a Ha). pose proof (IZR_pos b ltac:(lia)). field. split; lra.
Qed.

Lemma y_exact a b L : a <= b ->
  (IZR (y_num a b L) = IZR L * (IZR b - IZR a) / 10 ^ 29 * IZR y_den)%R.
Proof.
  intros Hab. unfold y_num, y_den. rewrite Z.abs_neq by lia.
  rewrite !mult_IZR, opp_IZR, minus_IZR. change (IZR (10 ^ 29)) with (100000000000000000000000000000%R).
  field.
Qed.

Lemma x_den_pos a b : 0 < a -> 0 < b -> (0 < IZR (x_den a b))%R.
Proof. intros. apply IZR_pos. unfold x_den. nia. Qed.
Lemma y_den_pos : (0 < IZR y_den)%R.
Proof. apply IZR_pos. reflexivity. Qed.

Lemma x_num_sym a b L : x_num a b L = x_num b a L.
Proof. unfold x_num. replace (Z.abs (a - b)) with (Z.abs (b - a)) by lia. reflexivity. Qed.
Lemma x_den_sym a b : x_den a b = x_den b a.
Proof. unfold x_den. lia. Qed.
Lemma y_num_sym a b L : y_num a b L = y_num b a L.
Proof. unfold y_num. replace (Z.abs (a - b)) with (Z.abs (b - a)) by lia. reflexivity. Qed.

(** An amount at most the exact one. *)
Lemma x_below a b L v : 0 < a -> a <= b -> v * x_den a b <= x_num a b L ->
  (IZR v <= IZR L * 10 ^ 19 * (/ IZR a - / IZR b))%R.
Proof.
  intros Ha Hab H. apply IZR_le in H. rewrite mult_IZR, x_exact in H by auto.
  pose proof (x_den_pos a b Ha ltac:(lia)). apply Rmult_le_reg_r in H; auto.
Qed.
Lemma y_below a b L v : a <= b -> v * y_den <= y_num a b L ->
  (IZR v <= IZR L * (IZR b - IZR a) / 10 ^ 29)%R.
Proof.
  intros Hab H. apply IZR_le in H. rewrite mult_IZR, y_exact in H by auto.
  apply Rmult_le_reg_r in H; auto using y_den_pos.
Qed.
Lemma y_above a b L v : a <= b -> y_num a b L <= v * y_den ->
  (IZR L * (IZR b - IZR a) / 10 ^ 29 <= IZR v)%R.
Proof.
  intros Hab H. apply IZR_le in H. rewrite mult_IZR, y_exact in H by auto.
  apply Rmult_le_reg_r in H; auto using y_den_pos.
Qed.

(** The denominators that occur are large. *)
Lemma den_large a b : price_in_range a -> price_in_range b -> 2 * 10 ^ 14 <= x_den a b / 10 ^ 24.
Proof.
  unfold price_in_range, x_den. intros Ha Hb. apply Z.div_le_lower_bound; [lia|].
  apply Z.le_trans with (15258932000000000000 * 15258932000000000000); [lia|]. apply Z.mul_le_mono_nonneg; lia.
Qed.

Lemma x_above a b L v : price_in_range a -> price_in_range b -> a <= b ->
  x_num a b L * (x_den a b / 10 ^ 24) < (v * (x_den a b / 10 ^ 24) + 1) * x_den a b ->
  (IZR L * 10 ^ 19 * (/ IZR a - / IZR b) <= IZR v + eps)%R.
Proof.
  intros Ra Rb Hab H. pose proof (den_large a b Ra Rb) as HD. set (D := x_den a b / 10 ^ 24) in *. clearbody D.
  assert (Ha : 0 < a) by (unfold price_in_range in *; lia).
  pose proof (x_den_pos a b Ha ltac:(lia)) as Hd. pose proof (x_exact a b L Ha Hab) as HX.
  set (d := x_den a b) in *. clearbody d.
  apply IZR_lt in H. rewrite !mult_IZR, plus_IZR, mult_IZR, HX in H. clear HX.
  set (X := (IZR L * 10 ^ 19 * (/ IZR a - / IZR b))%R) in *.
  replace (X * IZR d * IZR D)%R with (X * IZR D * IZR d)%R in H by ring.
  apply Rmult_lt_reg_r in H; auto. apply IZR_le in HD. change (IZR (2 * 10 ^ 14)) with 200000000000000%R in HD.
  assert (HX : (X < IZR v + / IZR D)%R).
  { apply (Rmult_lt_reg_r (IZR D)); [lra|]. rewrite Rmult_plus_distr_r, Rinv_l by lra. lra. }
  assert (/ IZR D <= eps)%R; [|lra]. unfold eps. apply Rinv_le_contravar; lra.
Qed.

(** ** Moving the price *)

(** Change of the amount in a unit of liquidity when the price goes from [p] to [n]. *)
Definition delta (x : bool) (p n : Z) : R :=
  if x then (10 ^ 19 * (/ IZR n - / IZR p))%R else ((IZR n - IZR p) / 10 ^ 29)%R.

Lemma principal_inside x L p n pl pu : pl <= p <= pu -> pl <= n <= pu ->
  principal x L n pl pu = (principal x L p pl pu + IZR L * delta x p n)%R.
Proof.
  intros Hp Hn. unfold principal, delta.
  rewrite (Z.min_l p), (Z.max_r pl p), (Z.min_l n), (Z.max_r pl n) by lia. destruct x; lra.
Qed.
Lemma principal_below x L p n pl pu : p <= pl -> n <= pl -> principal x L n pl pu = principal x L p pl pu.
Proof. intros Hp Hn. unfold principal. replace (Z.max pl (Z.min n pu)) with pl by lia. replace (Z.max pl (Z.min p pu)) with pl by lia. reflexivity. Qed.
Lemma principal_over x L p n pl pu : pl <= pu -> pu <= p -> pu <= n -> principal x L n pl pu = principal x L p pl pu.
Proof. intros H Hp Hn. unfold principal. replace (Z.max pl (Z.min n pu)) with pu by lia. replace (Z.max pl (Z.min p pu)) with pu by lia. reflexivity. Qed.

(** ** Amounts of a change of liquidity *)

(** A pool's price and a tick are on the same side as the current tick. *)
Lemma pool_side k p i : pool_ok k p -> okt (pk_spacing k) i ->
  (i <= p_current_tick_index p -> price i <= p_sqrt_price p) /\
  (p_current_tick_index p < i -> p_sqrt_price p <= price i).
Proof.
  intros PO Ho. pose proof (pool_spacing _ _ PO) as Hs. pose proof (po_tick _ _ PO) as Hc.
  pose proof (okt_valid _ _ Ho) as Hvi. pose proof (okt_valid _ _ Hc) as Hvc. split; intros H.
  - pose proof (po_lo _ _ PO). pose proof (price_le i _ Hvi Hvc H). lia.
  - assert (Hst : p_current_tick_index p + pk_spacing k <= i).
    { destruct Hc as [_ [a Ea]], Ho as [_ [b Eb]]. rewrite Ea, Eb in *. assert (a < b) by nia. nia. }
    assert (Hvs : valid_tick (p_current_tick_index p + pk_spacing k)) by (unfold valid_tick in *; lia).
    pose proof (po_up _ _ PO Hvs). pose proof (price_le _ i Hvs Hvi Hst). lia.
Qed.

Lemma amount_delta_cases cur p L sg up lo x y u : valid_tick lo -> valid_tick up ->
  calculate_amount_delta cur p L sg up lo = Ok (x, y, u) ->
  (cur < lo /\ get_delta_x (price lo) (price up) L sg = Ok x /\ y = 0) \/
  (lo <= cur < up /\ get_delta_x p (price up) L sg = Ok x /\ get_delta_y (price lo) p L sg = Ok y) \/
  (lo <= cur /\ up <= cur /\ x = 0 /\ get_delta_y (price lo) (price up) L sg = Ok y).
Proof.
  intros Hl Hu H. unfold calculate_amount_delta in H.
  destruct (Z.ltb_spec up lo); [discriminate|]. rewrite !calculate_sqrt_price_valid in H by auto. cbn [bind] in H.
  destruct (Z.ltb_spec cur lo).
  - apply bind_Ok in H as (v & E & H). injection H as <- <- <-. auto.
  - destruct (Z.ltb_spec cur up).
    + apply bind_Ok in H as (v & E & H). apply bind_Ok in H as (w & E2 & H). injection H as <- <- <-. right. left. auto with lia.
    + apply bind_Ok in H as (v & E & H). injection H as <- <- <-. right. right. auto.
Qed.

Section Amounts.
  Context (k : pool_key) (p : pool) (L lo up x y : Z) (u : bool).
  Context (PO : pool_ok k p) (Hlo : okt (pk_spacing k) lo) (Hup : okt (pk_spacing k) up) (Hlt : lo < up) (HL : u256 L).

  Let PX := principal true L (p_sqrt_price p) (price lo) (price up).
  Let PY := principal false L (p_sqrt_price p) (price lo) (price up).

  Lemma amounts_down : calculate_amount_delta (p_current_tick_index p) (p_sqrt_price p) L false up lo = Ok (x, y, u) ->
    (IZR x <= PX)%R /\ (IZR y <= PY)%R.
  Proof using PO Hlo Hup Hlt HL.
    intros H. pose proof (okt_valid _ _ Hlo) as Vl. pose proof (okt_valid _ _ Hup) as Vu.
    pose proof (price_range _ Vl) as Rl. pose proof (price_range _ Vu) as Ru. pose proof (po_range _ _ PO) as Rp.
    pose proof (price_lt _ _ Vl Vu Hlt) as Hpp.
    destruct (pool_side k p lo PO Hlo) as [S1 S2]. destruct (pool_side k p up PO Hup) as [S3 S4].
    assert (W : forall q, price_in_range q -> 0 < q /\ u128 q) by (intros q Hq; split; [unfold price_in_range in Hq; lia|apply range_u128; auto]).
    destruct (W _ Rl), (W _ Ru), (W _ Rp).
    unfold PX, PY, principal. apply amount_delta_cases in H as [(Hc & E & ->)|[(Hc & E1 & E2)|(Hc & Hc' & -> & E)]]; auto.
    - specialize (S2 Hc). replace (Z.max (price lo) (Z.min (p_sqrt_price p) (price up))) with (price lo) by lia. split.
      + apply delta_x_down_bounds in E as (_ & E & _); auto. apply x_below; auto; lia.
      + lra.
    - specialize (S1 ltac:(lia)). specialize (S4 ltac:(lia)).
      replace (Z.max (price lo) (Z.min (p_sqrt_price p) (price up))) with (p_sqrt_price p) by lia. split.
      + apply delta_x_down_bounds in E1 as (_ & E1 & _); auto. apply x_below; auto; lia.
      + apply delta_y_down_floor in E2 as ((E2 & _) & _); auto. apply y_below; auto; lia.
    - specialize (S3 Hc'). replace (Z.max (price lo) (Z.min (p_sqrt_price p) (price up))) with (price up) by lia. split.
      + lra.
      + apply delta_y_down_floor in E as ((E & _) & _); auto. apply y_below; auto; lia.
  Qed.

  Lemma amounts_up : calculate_amount_delta (p_current_tick_index p) (p_sqrt_price p) L true up lo = Ok (x, y, u) ->
    (PX <= IZR x + eps)%R /\ (PY <= IZR y)%R.
  Proof using PO Hlo Hup Hlt HL.
    intros H. pose proof (okt_valid _ _ Hlo) as Vl. pose proof (okt_valid _ _ Hup) as Vu.
    pose proof (price_range _ Vl) as Rl. pose proof (price_range _ Vu) as Ru. pose proof (po_range _ _ PO) as Rp.
    pose proof (price_lt _ _ Vl Vu Hlt) as Hpp. pose proof eps_pos.
    destruct (pool_side k p lo PO Hlo) as [S1 S2]. destruct (pool_side k p up PO Hup) as [S3 S4].
    assert (W : forall q, price_in_range q -> 0 < q /\ u128 q) by (intros q Hq; split; [unfold price_in_range in Hq; lia|apply range_u128; auto]).
    destruct (W _ Rl), (W _ Ru), (W _ Rp).
    unfold PX, PY, principal. apply amount_delta_cases in H as [(Hc & E & ->)|[(Hc & E1 & E2)|(Hc & Hc' & -> & E)]]; auto.
    - specialize (S2 Hc). replace (Z.max (price lo) (Z.min (p_sqrt_price p) (price up))) with (price lo) by lia. split.
      + apply delta_x_up_bounds in E as (_ & E & _); auto. apply x_above; auto; lia.
      + lra.
    - specialize (S1 ltac:(lia)). specialize (S4 ltac:(lia)).
      replace (Z.max (price lo) (Z.min (p_sqrt_price p) (price up))) with (p_sqrt_price p) by lia. split.
      + apply delta_x_up_bounds in E1 as (_ & E1 & _); auto. apply x_above; auto; lia.
      + apply delta_y_up_ceil in E2 as ((_ & E2) & _); auto. apply y_above; auto; lia.
    - specialize (S3 Hc'). replace (Z.max (price lo) (Z.min (p_sqrt_price p) (price up))) with (price up) by lia. split.
      + lra.
      + apply delta_y_up_ceil in E as ((_ & E) & _); auto. apply y_above; auto; lia.
  Qed.
End Amounts.
