(** * C67 – concentration of a range, and the SDK's fee tiers *)
From Verif Require Import Base Decimal SqrtPriceM LogM DecimalLibM ConcentrationM SpecConcentration P_Concentration.
From Coq Require Import ZArith Lia List Bool Reals Lra.
Import ListNotations.
Open Scope R_scope.

(** The concentration of the range of [tickSpacing * (minimumRange / 2 + n)] ticks on
    either side of the price, times the constant, is the worth of liquidity everywhere
    divided by its worth in the range – at every price, for every liquidity. *)
Theorem C67_meaning ts mr n L P : (0 < ts)%Z -> (0 < mr + 2 * n)%Z -> 0 < L -> 0 < P ->
  let t := IZR ts * (IZR mr / 2 + IZR n) in
  let w := worth_in_range L P (up_ticks P (- t)) (up_ticks P t) in
  exists c, calculate_concentration ts mr n = Some c /\ 0 < w /\ c * CONCENTRATION_FACTOR = worth_everywhere L P / w.
Proof.
  intros H1 H2 HL HP t w. exists (conc ts mr n). split; [apply conc_eq; auto|].
  pose proof (q_bounds ts mr n H1 H2) as Hq. pose proof F_pos as HF.
  assert (Et : IZR (- ts * (mr + 2 * n)) / 4 = - (t / 2)) by (unfold t; rewrite mult_IZR, plus_IZR, opp_IZR, mult_IZR; lra).
  assert (Eq : q ts mr n = Rpower b (- (t / 2))) by (unfold q; rewrite Et; reflexivity).
  assert (Hs : forall x, sqrt (up_ticks P x) = sqrt P * Rpower b (x / 2)).
  { intros x. unfold up_ticks. rewrite sqrt_mult by (first [lra|left; apply exp_pos]). f_equal.
    rewrite <- (Rpower_sqrt (Rpower _ x)) by apply exp_pos. rewrite Rpower_mult. reflexivity. }
  assert (Ew : w = 2 * L * sqrt P * (1 - q ts mr n)).
  { unfold w, worth_in_range. rewrite !Hs. replace (- t / 2) with (- (t / 2)) by lra. rewrite <- Eq.
    assert (E2 : Rpower b (t / 2) = / q ts mr n) by (rewrite Eq, <- Rpower_Ropp; f_equal; lra). rewrite E2.
    assert (S : sqrt P * sqrt P = P) by (apply sqrt_sqrt; lra). assert (S0 : 0 < sqrt P) by (apply sqrt_lt_R0; auto).
    rewrite <- S at 3. field. split; lra. }
  assert (S : sqrt P * sqrt P = P) by (apply sqrt_sqrt; lra). assert (S0 : 0 < sqrt P) by (apply sqrt_lt_R0; auto).
  assert (Hw : 0 < w) by (rewrite Ew; apply Rmult_lt_0_compat; [apply Rmult_lt_0_compat; lra|lra]).
  split; [auto|]. rewrite Ew. unfold conc, worth_everywhere. fold F. rewrite <- S at 2. field. repeat split; lra.
Qed.

(** Wider ranges are less concentrated, and none reaches the limit. *)
Theorem C67_decreasing ts mr n m : (0 < ts)%Z -> (0 < mr + 2 * n)%Z -> (n < m)%Z ->
  exists c c', calculate_concentration ts mr n = Some c /\ calculate_concentration ts mr m = Some c' /\
    1 / CONCENTRATION_FACTOR < c' < c.
Proof.
  intros H1 H2 H3. exists (conc ts mr n), (conc ts mr m). rewrite !conc_eq by lia. repeat split.
  - unfold Rdiv. rewrite Rmult_1_l. apply (conc_pos ts mr m); lia.
  - apply conc_mono; auto.
Qed.

(** [calculateTickDelta] returns the least step whose range is not more concentrated than
    asked for. *)
Theorem C67_tick_delta ts mr c : (0 < ts)%Z -> 1 / CONCENTRATION_FACTOR < c ->
  exists d, calculate_tick_delta ts mr c = Some d /\
    forall n, (0 < mr + 2 * n)%Z -> exists cn, calculate_concentration ts mr n = Some cn /\ (cn <= c <-> (d <= n)%Z).
Proof.
  intros H1 Hc. unfold Rdiv in Hc. rewrite Rmult_1_l in Hc. destruct (tick_delta_eq ts mr c H1 Hc) as (d & E & Hd).
  exists d. split; [auto|]. intros n Hn. exists (conc ts mr n). split; [apply conc_eq; auto|]. apply Hd; auto.
Qed.

(** It undoes [calculateConcentration]. *)
Theorem C67_inverse ts mr n : (0 < ts)%Z -> (0 < mr + 2 * n)%Z ->
  exists c, calculate_concentration ts mr n = Some c /\ calculate_tick_delta ts mr c = Some n.
Proof.
  intros H1 H2. exists (conc ts mr n). split; [apply conc_eq; auto|].
  destruct (tick_delta_q ts mr (conc ts mr n) H1 (conc_pos ts mr n H1 H2)) as (d & E & Hd). rewrite E. f_equal.
  rewrite conc_q in Hd by auto. assert (D1 : (d <= n)%Z) by (apply Hd; lra).
  destruct (Z_lt_le_dec d n) as [B|B]; [|lia]. exfalso.
  pose proof (q_mono ts mr (n - 1) n H1 ltac:(lia)). assert (q ts mr (n - 1) <= q ts mr n) by (apply Hd; lia). lra.
Qed.

(** At or below the limit there is no answer. *)
Theorem C67_tick_delta_none ts mr c : (0 < ts)%Z -> 0 < c <= 1 / CONCENTRATION_FACTOR -> calculate_tick_delta ts mr c = None.
Proof.
  intros H1 [Hc H]. unfold calculate_tick_delta. fold b F. fold F in H. pose proof F_pos as HF.
  destruct (Rle_dec _ 0) as [|G]; [reflexivity|exfalso]. apply G.
  assert (Hp : 0 < Rpower b (IZR (- ts * mr) / 4)) by apply exp_pos.
  assert (1 <= 1 / (c * F)).
  { assert (c * F <= 1). { apply (Rmult_le_compat_r F) in H; [|lra]. unfold Rdiv in H. rewrite Rmult_assoc, Rinv_l in H by lra. lra. }
    unfold Rdiv. rewrite Rmult_1_l. rewrite <- Rinv_1 at 1. apply Rinv_le_contravar; nra. }
  assert (I : 0 < / Rpower b (IZR (- ts * mr) / 4)) by (apply Rinv_0_lt_compat; auto). unfold Rdiv at 1. nra.
Qed.

(** [getConcentrationArray]: the concentrations of the narrowest ranges as long as they
    are at least 1 apart, and one more; then the whole numbers from the last one (rounded
    up) down to 2; of these, as many as there are steps between the narrowest range and
    the last tick.  It fails exactly if the narrowest range does not fit. *)
Theorem C67_array ts mr ct : (0 < ts)%Z -> (0 < mr)%Z ->
  exists (f : nat -> R) (k : nat) (w : Z),
    (forall i, calculate_concentration ts mr (Z.of_nat i) = Some (f i)) /\
    (2 <= k)%nat /\ (forall j, (0 < j < k - 1)%nat -> f (j - 1)%nat - f j >= 1) /\ f (k - 2)%nat - f (k - 1)%nat < 1 /\
    least_integer_above w (f (k - 1)%nat) /\
    let room := (221818 / ts * ts - Z.abs ct)%Z in
    ((2 * room < mr * ts)%Z /\ get_concentration_array ts mr ct = Err TickLimitReached \/
     exists lim, (0 <= lim)%Z /\ (ts * (mr + 2 * lim) <= 2 * room < ts * (mr + 2 * (lim + 1)))%Z /\
       get_concentration_array ts mr ct = Ok (firstn (Z.to_nat lim) (map f (seq 0 k) ++ countdown w))).
Proof.
  intros H1 H2. destruct (array_eq ts mr ct H1 H2) as (k & K1 & K2 & K3 & K4).
  exists (cz ts mr), k, (ceil (cz ts mr (k - 1))). split; [intros i; apply conc_eq; lia|]. split; [auto|].
  split; [intros j [J1 J2]; apply Rle_ge, K3; auto|]. split; [auto|]. split; [apply ceil_spec|].
  cbv zeta in *. destruct K4 as [K4|(lim & L1 & L2 & L3)]; [left; auto|right].
  exists lim. split; [auto|]. split; [lia|]. exact L3.
Qed.

(** With a minimum range of 0 it does not return. *)
Theorem C67_array_zero_refuted : ~ (forall ts mr ct, (0 < ts)%Z -> (0 <= mr)%Z -> get_concentration_array ts mr ct <> Loop).
Proof. intros H. apply (H 1 0 0)%Z; [lia|lia|]. unfold get_concentration_array. reflexivity. Qed.

(** ** A case computed exactly: spacing 100, minimum range 2 *)
(** [b^-50] lies between these numbers over 10^12. *)
Definition lo : Z := 995012727929%Z.
Definition hi : Z := 995012727930%Z.
Definition pw (x : Z) (n : nat) : Z := (x ^ (Z.of_nat n + 1))%Z.
Definition num (n : nat) : Z := (pw (10 ^ 12) n * 100000000000000)%Z.
Definition den (x : Z) (n : nat) : Z := ((pw (10 ^ 12) n - pw x n) * 100001526069123)%Z.

Lemma den_pos x n : (0 <= x < 10 ^ 12)%Z -> (0 < den x n)%Z.
Proof.
  intros H. unfold den, pw. pose proof (Z.pow_lt_mono_l x (10 ^ 12) (Z.of_nat n + 1) ltac:(lia) H). lia.
Qed.
Lemma q_pow n : q 100 2 (Z.of_nat n) = (q 100 2 0) ^ (n + 1).
Proof.
  unfold q. rewrite <- Rpower_pow by apply exp_pos. rewrite Rpower_mult. f_equal.
  rewrite INR_IZR_INZ, Nat2Z.inj_add. rewrite !mult_IZR, !plus_IZR, !mult_IZR. cbn [Z.of_nat Pos.of_succ_nat]. simpl. lra.
Qed.
Lemma power_frac m : Rpower b (- INR m) = IZR (10000 ^ Z.of_nat m) / IZR (10001 ^ Z.of_nat m).
Proof.
  rewrite Rpower_Ropp, Rpower_pow by (unfold b; lra).
  assert (Eb : b = IZR 10001 / IZR 10000) by (unfold b; lra). rewrite Eb. unfold Rdiv at 1.
  rewrite Rpow_mult_distr. rewrite pow_inv. rewrite !pow_IZR.
  assert (Hx : IZR (10001 ^ Z.of_nat m) <> 0) by (apply not_0_IZR, Z.pow_nonzero; lia).
  assert (Hy : IZR (10000 ^ Z.of_nat m) <> 0) by (apply not_0_IZR, Z.pow_nonzero; lia).
  revert Hx Hy. generalize (IZR (10001 ^ Z.of_nat m)) (IZR (10000 ^ Z.of_nat m)). intros x y Hx Hy. field. split; auto.
Qed.
Lemma frac_between l h d n m r : (0 < d)%Z -> (0 < m)%Z -> (l * m <= n * d)%Z -> (n * d <= h * m)%Z -> r = IZR n / IZR m ->
  IZR l / IZR d <= r <= IZR h / IZR d.
Proof.
  intros Hd Hm H1 H2 ->. apply IZR_lt in Hd, Hm. apply IZR_le in H1, H2. rewrite !mult_IZR in H1, H2.
  revert Hd Hm H1 H2. generalize (IZR d) (IZR l) (IZR h) (IZR n) (IZR m). intros D L H N M Hd Hm H1 H2.
  assert (R : forall x y z w, 0 < y -> 0 < w -> x * w <= z * y -> x / y <= z / w).
  { intros x y z w Hy Hw B. apply (Rmult_le_reg_r (y * w)); [apply Rmult_lt_0_compat; auto|].
    replace (x / y * (y * w)) with (x * w) by (field; lra). replace (z / w * (y * w)) with (z * y) by (field; lra). auto. }
  split; apply R; auto.
Qed.
Lemma q_first : IZR lo / IZR (10 ^ 12) <= q 100 2 0 <= IZR hi / IZR (10 ^ 12).
Proof.
  apply (frac_between _ _ _ (10000 ^ Z.of_nat 50) (10001 ^ Z.of_nat 50)); try (vm_compute; first [reflexivity|discriminate]).
  rewrite <- power_frac. unfold q. f_equal. rewrite INR_IZR_INZ. replace (Z.of_nat 50) with 50%Z by reflexivity. simpl. lra.
Qed.
Lemma case_bounds n : IZR (num n) / IZR (den lo n) <= cz 100 2 n <= IZR (num n) / IZR (den hi n).
Proof.
  assert (W : forall x, IZR (pw x n) / IZR (pw (10 ^ 12) n) = (IZR x / IZR (10 ^ 12)) ^ (n + 1)).
  { intros x. unfold pw, Rdiv. rewrite Rpow_mult_distr, pow_inv, !pow_IZR. rewrite Nat2Z.inj_add. reflexivity. }
  assert (Q0 : 0 <= IZR lo / IZR (10 ^ 12)) by (unfold lo; apply Rmult_le_pos; [lra|left; apply Rinv_0_lt_compat; lra]).
  destruct q_first as [B1 B2].
  assert (L : IZR (pw lo n) / IZR (pw (10 ^ 12) n) <= q 100 2 (Z.of_nat n)) by (rewrite W, q_pow; apply pow_incr; lra).
  assert (H : q 100 2 (Z.of_nat n) <= IZR (pw hi n) / IZR (pw (10 ^ 12) n)) by (rewrite W, q_pow; apply pow_incr; lra).
  clear W Q0 B1 B2. unfold cz, conc. set (x := q 100 2 (Z.of_nat n)) in *.
  assert (P : 0 < IZR (pw (10 ^ 12) n)) by (apply (IZR_lt 0); apply Z.pow_pos_nonneg; lia).
  pose proof (den_pos lo n ltac:(unfold lo; lia)) as D1. pose proof (den_pos hi n ltac:(unfold hi; lia)) as D2.
  unfold den in *. assert (D1' : (0 < pw (10 ^ 12) n - pw lo n)%Z) by lia. assert (D2' : (0 < pw (10 ^ 12) n - pw hi n)%Z) by lia. clear D1 D2.
  apply IZR_lt in D1', D2'. rewrite minus_IZR in D1', D2'. unfold num. rewrite !mult_IZR, !minus_IZR.
  set (d := IZR (pw (10 ^ 12) n)) in *. set (l := IZR (pw lo n)) in *. set (h := IZR (pw hi n)) in *. clearbody d l h.
  assert (El : d * 100000000000000 / ((d - l) * 100001526069123) = 1 / (1 - l / d) / F) by (unfold F, CONCENTRATION_FACTOR; field; repeat split; lra).
  assert (Eh : d * 100000000000000 / ((d - h) * 100001526069123) = 1 / (1 - h / d) / F) by (unfold F, CONCENTRATION_FACTOR; field; repeat split; lra).
  rewrite El, Eh. assert (h / d < 1) by (apply (Rmult_lt_reg_r d); [auto|]; unfold Rdiv; rewrite Rmult_assoc, Rinv_l by lra; lra).
  assert (I : 0 < / F) by (apply Rinv_0_lt_compat, F_pos).
  assert (K : forall u v, u <= v -> v < 1 -> 1 / (1 - u) / F <= 1 / (1 - v) / F).
  { intros u v Huv Hv. unfold Rdiv. apply Rmult_le_compat_r; [lra|]. rewrite !Rmult_1_l. apply Rinv_le_contravar; lra. }
  split; apply K; lra.
Qed.
Ltac dens n := pose proof (den_pos lo n ltac:(unfold lo; lia)); pose proof (den_pos hi n ltac:(unfold hi; lia)).

Lemma gap_ge n m : (den lo n * den hi m <=? num n * den hi m - num m * den lo n)%Z = true -> 1 <= cz 100 2 n - cz 100 2 m.
Proof.
  intros H. apply Z.leb_le in H. dens n. dens m. destruct (case_bounds n) as [A _]. destruct (case_bounds m) as [_ B].
  assert (P : 0 < IZR (den lo n)) by (apply (IZR_lt 0); auto). assert (Q : 0 < IZR (den hi m)) by (apply (IZR_lt 0); auto).
  apply IZR_le in H. rewrite minus_IZR, !mult_IZR in H.
  assert (1 <= IZR (num n) / IZR (den lo n) - IZR (num m) / IZR (den hi m)); [|lra].
  apply (Rmult_le_reg_r (IZR (den lo n) * IZR (den hi m))); [apply Rmult_lt_0_compat; auto|].
  match goal with |- _ <= ?r => replace r with (IZR (num n) * IZR (den hi m) - IZR (num m) * IZR (den lo n)) by (field; lra) end. lra.
Qed.
Lemma gap_lt n m : (num n * den lo m - num m * den hi n <? den hi n * den lo m)%Z = true -> cz 100 2 n - cz 100 2 m < 1.
Proof.
  intros H. apply Z.ltb_lt in H. dens n. dens m. destruct (case_bounds n) as [_ A]. destruct (case_bounds m) as [B _].
  assert (P : 0 < IZR (den hi n)) by (apply (IZR_lt 0); auto). assert (Q : 0 < IZR (den lo m)) by (apply (IZR_lt 0); auto).
  apply IZR_lt in H. rewrite minus_IZR, !mult_IZR in H.
  assert (IZR (num n) / IZR (den hi n) - IZR (num m) / IZR (den lo m) < 1); [|lra].
  apply (Rmult_lt_reg_r (IZR (den hi n) * IZR (den lo m))); [apply Rmult_lt_0_compat; auto|].
  match goal with |- ?r < _ => replace r with (IZR (num n) * IZR (den lo m) - IZR (num m) * IZR (den hi n)) by (field; lra) end. lra.
Qed.
Lemma case_lt n z : (num n <? z * den hi n)%Z = true -> cz 100 2 n < IZR z.
Proof.
  intros H. apply Z.ltb_lt in H. dens n. destruct (case_bounds n) as [_ A].
  assert (P : 0 < IZR (den hi n)) by (apply (IZR_lt 0); auto). apply IZR_lt in H. rewrite mult_IZR in H.
  assert (IZR (num n) / IZR (den hi n) < IZR z); [|lra].
  apply (Rmult_lt_reg_r (IZR (den hi n))); [auto|]. unfold Rdiv. rewrite Rmult_assoc, Rinv_l by lra. lra.
Qed.
Lemma case_gt n z : (z * den lo n <? num n)%Z = true -> IZR z < cz 100 2 n.
Proof.
  intros H. apply Z.ltb_lt in H. dens n. destruct (case_bounds n) as [A _].
  assert (P : 0 < IZR (den lo n)) by (apply (IZR_lt 0); auto). apply IZR_lt in H. rewrite mult_IZR in H.
  assert (IZR z < IZR (num n) / IZR (den lo n)); [|lra].
  apply (Rmult_lt_reg_r (IZR (den lo n))); [auto|]. unfold Rdiv. rewrite Rmult_assoc, Rinv_l by lra. lra.
Qed.

Lemma case_k k : (2 <= k)%nat -> cz 100 2 (k - 2) - cz 100 2 (k - 1) < 1 ->
  (forall j, (0 < j)%nat -> (j < k - 1)%nat -> 1 <= cz 100 2 (j - 1) - cz 100 2 j) -> k = 15%nat.
Proof.
  intros H1 H2 H3. destruct (Nat.lt_trichotomy k 15) as [L|[E|G]]; [exfalso|exact E|exfalso].
  - assert (A : forallb (fun n => (den lo n * den hi (S n) <=? num n * den hi (S n) - num (S n) * den lo n)%Z) (seq 0 13) = true) by (vm_compute; reflexivity).
    rewrite forallb_forall in A. specialize (A (k - 2)%nat). apply gap_ge in A; [|apply in_seq; lia].
    replace (S (k - 2)) with (k - 1)%nat in A by lia. lra.
  - specialize (H3 14%nat ltac:(lia) ltac:(lia)). cbn [Nat.sub] in H3.
    assert (C : cz 100 2 13 - cz 100 2 14 < 1) by (apply gap_lt; vm_compute; reflexivity). lra.
Qed.
Lemma case_array : get_concentration_array 100 2 216800 = Ok (map (cz 100 2) (seq 0 15) ++ countdown 14).
Proof.
  destruct (array_eq 100 2 216800 ltac:(lia) ltac:(lia)) as (k & K1 & K2 & K3 & K4). pose proof (case_k k K1 K2 K3) as ->.
  cbv zeta in K4. change (221818 / 100 * 100 - Z.abs 216800)%Z with 5000%Z in K4.
  destruct K4 as [[B _]|(lim & L1 & L2 & L3)]; [lia|]. assert (lim = 49)%Z by lia. subst lim. rewrite L3. f_equal.
  assert (W : ceil (cz 100 2 (15 - 1)) = 14%Z).
  { cbn [Nat.sub]. assert (A : cz 100 2 14 < IZR 14) by (apply case_lt; vm_compute; reflexivity).
    assert (B : IZR 13 < cz 100 2 14) by (apply case_gt; vm_compute; reflexivity). destruct (ceil_spec (cz 100 2 14)) as [C D].
    assert (Q1 : (13 < ceil (cz 100 2 14))%Z) by (apply lt_IZR; lra).
    assert (Q2 : (ceil (cz 100 2 14) - 1 < 14)%Z) by (apply lt_IZR; rewrite minus_IZR; lra). lia. }
  unfold full. rewrite W. fold (countdown 14). apply firstn_all2. rewrite app_length, !map_length, !seq_length. vm_compute. lia.
Qed.

(** The array is not decreasing: 13.8... is followed by 14. *)
Theorem C67_array_decreasing_refuted :
  ~ (forall ts mr ct l i x y, (0 < ts)%Z -> (0 < mr)%Z -> get_concentration_array ts mr ct = Ok l ->
       nth_error l i = Some x -> nth_error l (S i) = Some y -> y < x).
Proof.
  intros H. assert (A : cz 100 2 14 < IZR 14) by (apply case_lt; vm_compute; reflexivity).
  specialize (H 100%Z 2%Z 216800%Z _ 14%nat (cz 100 2 14) (IZR 14) ltac:(lia) ltac:(lia) case_array eq_refl eq_refl). lra.
Qed.

(** The range of a listed concentration of the first kind fits below the last tick. *)
Theorem C67_fits_guarded ts mr ct l : (0 < ts)%Z -> (0 < mr)%Z -> get_concentration_array ts mr ct = Ok l ->
  forall i c, nth_error l i = Some c -> calculate_concentration ts mr (Z.of_nat i) = Some c ->
  calculate_tick_delta ts mr c = Some (Z.of_nat i) /\ (ts * (mr + 2 * Z.of_nat i) <= 2 * (221818 / ts * ts - Z.abs ct))%Z.
Proof.
  intros H1 H2 E i c Hi Hc. destruct (C67_inverse ts mr (Z.of_nat i) H1 ltac:(lia)) as (c' & C1 & C2).
  assert (c' = c) by congruence. subst c'. split; [auto|].
  destruct (array_eq ts mr ct H1 H2) as (k & _ & _ & _ & K4). cbv zeta in K4.
  destruct K4 as [[_ B]|(lim & L1 & L2 & L3)]; [rewrite B in E; discriminate E|].
  rewrite L3 in E. assert (El : l = firstn (Z.to_nat lim) (full ts mr k)) by congruence. subst l.
  assert (Hl : (i < length (firstn (Z.to_nat lim) (full ts mr k)))%nat) by (apply nth_error_Some; congruence).
  rewrite firstn_length in Hl. assert (Z.of_nat i <= lim)%Z by lia. nia.
Qed.

(** But not the range of every listed concentration: with spacing 100, 5000 ticks below
    the last tick, concentration 2 is listed and needs a range that goes beyond it. *)
Theorem C67_fits_refuted :
  ~ (forall ts mr ct l i c d, (0 < ts)%Z -> (0 < mr)%Z -> get_concentration_array ts mr ct = Ok l ->
       nth_error l i = Some c -> calculate_tick_delta ts mr c = Some d ->
       (ts * (mr + 2 * d) <= 2 * (221818 / ts * ts - Z.abs ct))%Z).
Proof.
  intros H. pose proof F_pos as HF.
  assert (Hc : / F < 2).
  { unfold F, CONCENTRATION_FACTOR. rewrite <- (Rinv_inv 2). apply Rinv_lt_contravar; lra. }
  destruct (tick_delta_eq 100 2 2 ltac:(lia) Hc) as (d & Ed & Hd).
  specialize (H 100%Z 2%Z 216800%Z _ 27%nat (IZR 2) d ltac:(lia) ltac:(lia) case_array eq_refl Ed).
  change (221818 / 100 * 100 - Z.abs 216800)%Z with 5000%Z in H. assert (D : (d <= 49)%Z) by lia.
  apply (Hd 49%Z ltac:(lia)) in D. assert (G : IZR 2 < cz 100 2 49) by (apply case_gt; vm_compute; reflexivity).
  unfold cz in G. change (Z.of_nat 49) with 49%Z in G. lra.
Qed.

Open Scope Z_scope.

(** ** Fee tiers *)
(** [newFeeTier] accepts exactly fees up to 100% and, after cutting the spacing to 16
    bits, spacings from 1 to 100. *)
Theorem C67_new_fee_tier fee ts : 0 <= fee < 2 ^ 128 -> 0 <= ts < 2 ^ 64 ->
  (exists r, sdk_new_fee_tier fee ts = Ok r) <-> fee <= 10 ^ 12 /\ 1 <= ts mod 2 ^ 16 <= 100.
Proof.
  intros Hf Ht. unfold sdk_new_fee_tier. rewrite !(proj2 (Z.leb_le _ _)), !(proj2 (Z.ltb_lt _ _)) by lia. cbn [andb negb].
  change PERCENTAGE_ONE with (10 ^ 12). pose proof (Z.mod_pos_bound ts (2 ^ 16) ltac:(lia)).
  destruct (Z.eqb_spec (ts mod 2 ^ 16) 0), (Z.ltb_spec 100 (ts mod 2 ^ 16)), (Z.ltb_spec (10 ^ 12) fee); cbn [orb];
    (split; [intros [r Er]; first [discriminate Er|lia]|intros [? ?]; first [lia|eexists; reflexivity]]).
Qed.
Theorem C67_new_fee_tier_guarded fee ts : 0 <= fee < 2 ^ 128 -> 0 <= ts < 2 ^ 16 -> forall r,
  sdk_new_fee_tier fee ts = Ok r <-> r = (fee, ts) /\ fee <= 10 ^ 12 /\ 1 <= ts <= 100.
Proof.
  intros Hf Ht r. unfold sdk_new_fee_tier. rewrite !(proj2 (Z.leb_le _ _)), !(proj2 (Z.ltb_lt _ _)) by lia. cbn [andb negb].
  change PERCENTAGE_ONE with (10 ^ 12). rewrite Z.mod_small by lia.
  destruct (Z.eqb_spec ts 0), (Z.ltb_spec 100 ts), (Z.ltb_spec (10 ^ 12) fee); cbn [orb];
    (split; [intros Er; first [discriminate Er|split; [congruence|lia]]|intros (-> & ? & ?); first [lia|reflexivity]]).
Qed.
Theorem C67_new_fee_tier_refuted : ~ (forall fee ts r, 0 <= fee < 2 ^ 128 -> 0 <= ts < 2 ^ 64 ->
  sdk_new_fee_tier fee ts = Ok r -> r = (fee, ts)).
Proof. intros H. specialize (H 1 65537 (1, 1) ltac:(lia) ltac:(lia) eq_refl). discriminate H. Qed.

(** The linear fee tier of [n] ticks charges n hundredths of a percent and exists exactly
    for 1 to 100 ticks. *)
Theorem C67_linear n r : 0 <= n -> fee_tier_with_linear_ratio n = Ok r <-> r = (n * 10 ^ 12 / 10 ^ 4, n) /\ 1 <= n <= 100.
Proof.
  intros Hn. unfold fee_tier_with_linear_ratio. change (sdk_to T_Percentage 1 4) with (Ok 100000000). cbn [bind].
  assert (E : n * 10 ^ 12 / 10 ^ 4 = n * 100000000) by (replace (n * 10 ^ 12) with (n * 100000000 * 10 ^ 4) by lia; apply Z.div_mul; lia). rewrite E. clear E.
  destruct (Z_lt_le_dec n (2 ^ 16)) as [L|L].
  - rewrite C67_new_fee_tier_guarded by lia. split; intros (-> & B); (split; [reflexivity|lia]).
  - unfold sdk_new_fee_tier. change PERCENTAGE_ONE with (10 ^ 12).
    split; [|intros (_ & B); lia].
    destruct (negb _); [intros B; discriminate B|]. destruct (negb _); [intros B; discriminate B|].
    destruct (_ || _); [intros B; discriminate B|]. rewrite (proj2 (Z.ltb_lt _ _)) by lia. intros B; discriminate B.
Qed.

(** The array of the example: 28 entries, the sixteenth larger than the fifteenth. *)
Example C67_case : (exists l, get_concentration_array 100 2 216800 = Ok l /\ length l = 28%nat /\ nth_error l 15 = Some 14%R) /\
  (exists c, calculate_concentration 100 2 0 = Some c /\ (200 < c < 201)%R /\ calculate_tick_delta 100 2 c = Some 0) /\
  fee_tier_with_linear_ratio 10 = Ok (10 ^ 9, 10) /\ get_concentration_array 1 2 221818 = Err TickLimitReached.
Proof.
  split; [|split; [|split; [reflexivity|]]].
  - eexists. split; [apply case_array|]. split; [rewrite app_length, !map_length, !seq_length|]; reflexivity.
  - destruct (C67_inverse 100 2 0 ltac:(lia) ltac:(lia)) as (c & E1 & E2). exists c. split; [auto|]. split; [|auto].
    rewrite conc_eq in E1 by lia. injection E1 as <-. change (conc 100 2 0) with (cz 100 2 0).
    split; [apply case_gt; vm_compute; reflexivity|apply case_lt; vm_compute; reflexivity].
  - destruct (array_eq 1 2 221818 ltac:(lia) ltac:(lia)) as (k & _ & _ & _ & K). cbv zeta in K.
    change (221818 / 1 * 1 - Z.abs 221818) with 0 in K. destruct K as [[_ E]|(lim & L1 & L2 & _)]; [exact E|lia].
Qed.

(** ** Assumptions *)
Print Assumptions C67_meaning.
Print Assumptions C67_decreasing.
Print Assumptions C67_tick_delta.
Print Assumptions C67_inverse.
Print Assumptions C67_tick_delta_none.
Print Assumptions C67_array.
Print Assumptions C67_array_zero_refuted.
Print Assumptions C67_array_decreasing_refuted.
Print Assumptions C67_fits_guarded.
Print Assumptions C67_fits_refuted.
Print Assumptions C67_new_fee_tier.
Print Assumptions C67_new_fee_tier_guarded.
Print Assumptions C67_new_fee_tier_refuted.
Print Assumptions C67_linear.
