(** Lemmas for C67. *)
From Verif Require Import Base Decimal SqrtPriceM LogM DecimalLibM ConcentrationM.
From Coq Require Import ZArith Lia List Bool Reals Lra.
Import ListNotations.
Open Scope R_scope.

Definition F := CONCENTRATION_FACTOR.
Lemma F_pos : 0 < F.
Proof. unfold F, CONCENTRATION_FACTOR. lra. Qed.
Definition b := 1 + / 10000.
Lemma b_gt : 1 < b.
Proof. unfold b. lra. Qed.

Lemma ceil_spec x : IZR (ceil x) - 1 < x <= IZR (ceil x).
Proof.
  unfold ceil. destruct (base_Int_part (- x)) as [H1 H2]. rewrite opp_IZR. lra.
Qed.
Lemma ceil_le x n : (ceil x <= n)%Z <-> x <= IZR n.
Proof.
  destruct (ceil_spec x) as [H1 H2]. split; intros H.
  - apply IZR_le in H. lra.
  - assert (Q : IZR (ceil x - 1) < IZR n) by (rewrite minus_IZR; lra). apply lt_IZR in Q. lia.
Qed.

Lemma Rpower_lt1 y : y < 0 -> 0 < Rpower b y < 1.
Proof.
  intros H. split; [apply exp_pos|]. rewrite <- (Rpower_O b) by (pose proof b_gt; lra). apply Rpower_lt; [apply b_gt|auto].
Qed.

(** The share of the liquidity's value that a range does not need. *)
Definition q (ts mr n : Z) : R := Rpower b (IZR (- ts * (mr + 2 * n)) / 4).
Definition conc (ts mr n : Z) : R := 1 / (1 - q ts mr n) / F.

Lemma q_bounds ts mr n : (0 < ts)%Z -> (0 < mr + 2 * n)%Z -> 0 < q ts mr n < 1.
Proof.
  intros H1 H2. apply Rpower_lt1. assert (IZR (- ts * (mr + 2 * n)) < 0) by (apply (IZR_lt _ 0); nia). lra.
Qed.
Lemma conc_eq ts mr n : (0 < ts)%Z -> (0 < mr + 2 * n)%Z -> calculate_concentration ts mr n = Some (conc ts mr n).
Proof.
  intros H1 H2. unfold calculate_concentration. rewrite (proj2 (Z.eqb_neq _ _)) by nia. reflexivity.
Qed.
Lemma conc_pos ts mr n : (0 < ts)%Z -> (0 < mr + 2 * n)%Z -> / F < conc ts mr n.
Proof.
  intros H1 H2. pose proof (q_bounds ts mr n H1 H2). pose proof F_pos. unfold conc, Rdiv. rewrite !Rmult_1_l.
  assert (1 < / (1 - q ts mr n)) by (rewrite <- Rinv_1 at 1; apply Rinv_lt_contravar; lra).
  assert (0 < / F) by (apply Rinv_0_lt_compat; auto). nra.
Qed.

Lemma conc_le ts mr n c : (0 < ts)%Z -> (0 < mr + 2 * n)%Z -> / F < c -> (conc ts mr n <= c <-> q ts mr n <= 1 - 1 / (c * F)).
Proof.
  intros H1 H2 Hc. pose proof (q_bounds ts mr n H1 H2) as Hq. pose proof F_pos as HF. unfold conc. set (x := q ts mr n) in *.
  assert (Hi : 0 < / F) by (apply Rinv_0_lt_compat; auto).
  assert (HcF : 1 < c * F) by (apply (Rmult_lt_compat_r F) in Hc; [rewrite Rinv_l in Hc by lra; lra|auto]).
  assert (E : 1 / (1 - x) / F = / ((1 - x) * F)) by (field; lra). rewrite E.
  assert (E' : 1 / (c * F) = / (c * F)) by (field; nra). rewrite E'.
  assert (P : 0 < (1 - x) * F) by nra. assert (Pc : 0 < c) by lra.
  split; intros H.
  - assert (G : 1 <= c * F * (1 - x)).
    { apply (Rmult_le_compat_r ((1 - x) * F)) in H; [|lra]. rewrite Rinv_l in H by lra. nra. }
    assert (/ (c * F) <= 1 - x); [|lra]. apply (Rmult_le_reg_l (c * F)); [lra|]. rewrite Rinv_r by lra. lra.
  - assert (G : 1 <= c * F * (1 - x)).
    { assert (H' : / (c * F) <= 1 - x) by lra. apply (Rmult_le_compat_l (c * F)) in H'; [|lra]. rewrite Rinv_r in H' by lra. lra. }
    apply (Rmult_le_reg_r ((1 - x) * F)); [lra|]. rewrite Rinv_l by lra. nra.
Qed.

Lemma q_ln ts mr n y : (0 < ts)%Z -> 0 < y -> (q ts mr n <= y <-> ln y / ln b >= IZR (- ts * (mr + 2 * n)) / 4).
Proof.
  intros H1 Hy. assert (HL : 0 < ln b) by (rewrite <- ln_1; apply ln_increasing; [lra|apply b_gt]).
  unfold q. set (e := IZR (- ts * (mr + 2 * n)) / 4).
  assert (E : ln y / ln b >= e <-> e * ln b <= ln y).
  { split; intros H.
    - apply Rge_le in H. apply (Rmult_le_compat_r (ln b)) in H; [|lra]. unfold Rdiv in H. rewrite Rmult_assoc, Rinv_l in H by lra. lra.
    - apply Rle_ge. apply (Rmult_le_reg_r (ln b)); [lra|]. unfold Rdiv. rewrite Rmult_assoc, Rinv_l by lra. lra. }
  rewrite E. unfold Rpower. split; intros H.
  - destruct (Rle_lt_dec (e * ln b) (ln y)) as [|B]; [auto|]. apply exp_increasing in B. rewrite exp_ln in B by auto. lra.
  - rewrite <- (exp_ln y) by auto. destruct (Rle_lt_or_eq_dec _ _ H) as [B|B]; [left; apply exp_increasing; auto|rewrite B; lra].
Qed.

Lemma tick_delta_q ts mr c : (0 < ts)%Z -> / F < c ->
  exists d, calculate_tick_delta ts mr c = Some d /\ forall n, (q ts mr n <= 1 - 1 / (c * F) <-> (d <= n)%Z).
Proof.
  intros H1 Hc. pose proof F_pos as HF. assert (Hi : 0 < / F) by (apply Rinv_0_lt_compat; auto).
  assert (HcF : 1 < c * F) by (apply (Rmult_lt_compat_r F) in Hc; [rewrite Rinv_l in Hc by lra; lra|auto]).
  assert (HL : 0 < ln b) by (rewrite <- ln_1; apply ln_increasing; [lra|apply b_gt]).
  set (y := 1 - 1 / (c * F)).
  assert (Hy : 0 < y). { unfold y. assert (1 / (c * F) < 1); [|lra]. unfold Rdiv. rewrite Rmult_1_l, <- Rinv_1. apply Rinv_lt_contravar; lra. }
  unfold calculate_tick_delta. fold b F. fold y.
  set (p := Rpower b (IZR (- ts * mr) / 4)). assert (Hp : 0 < p) by apply exp_pos.
  assert (Hyp : 0 < y / p) by (apply Rdiv_lt_0_compat; auto).
  destruct (Rle_dec (y / p) 0) as [B|_]; [lra|]. eexists. split; [reflexivity|]. intros n.
  rewrite q_ln by auto. rewrite ceil_le.
  assert (E1 : ln (Rpower b (- (IZR ts / 4))) = - (IZR ts / 4) * ln b) by (unfold Rpower; apply ln_exp). rewrite E1.
  assert (E2 : ln (y / p) = ln y - IZR (- ts * mr) / 4 * ln b).
  { unfold Rdiv at 1. rewrite ln_mult by (auto using Rinv_0_lt_compat). rewrite ln_Rinv by auto. unfold p, Rpower. rewrite ln_exp. lra. }
  rewrite E2. rewrite !mult_IZR, !plus_IZR, !mult_IZR, !opp_IZR.
  assert (HT : 0 < IZR ts) by (apply (IZR_lt 0); auto).
  set (T := IZR ts) in *. set (M := IZR mr). set (N := IZR n). set (L := ln b) in *. set (Y := ln y).
  assert (E3 : (Y - - T * M / 4 * L) / (- (T / 4) * L) / 2 = - (2 / T) * (Y / L) - M / 2) by (field; lra). rewrite E3.
  set (Z := Y / L).
  assert (K : - (2 / T) * Z - M / 2 <= N <-> - T * (M + 2 * N) / 4 <= Z).
  { assert (R1 : (- (2 / T) * Z - M / 2) * (T / 2) = - Z - T * M / 4) by (field; lra).
    split; intros H.
    - apply (Rmult_le_compat_r (T / 2)) in H; [|lra]. rewrite R1 in H. lra.
    - apply (Rmult_le_reg_r (T / 2)); [lra|]. rewrite R1. lra. }
  rewrite K. split; intros H; lra.
Qed.

Lemma tick_delta_eq ts mr c : (0 < ts)%Z -> / F < c ->
  exists d, calculate_tick_delta ts mr c = Some d /\ forall n, (0 < mr + 2 * n)%Z -> (conc ts mr n <= c <-> (d <= n)%Z).
Proof.
  intros H1 Hc. destruct (tick_delta_q ts mr c H1 Hc) as (d & E & Hd). exists d. split; [auto|]. intros n Hn.
  rewrite conc_le by auto. apply Hd.
Qed.

Lemma q_mono ts mr n m : (0 < ts)%Z -> (n < m)%Z -> q ts mr m < q ts mr n.
Proof.
  intros H1 H3. unfold q. apply Rpower_lt; [apply b_gt|].
  assert (IZR (- ts * (mr + 2 * m)) < IZR (- ts * (mr + 2 * n))) by (apply IZR_lt; nia). lra.
Qed.
Lemma conc_q ts mr n : (0 < ts)%Z -> (0 < mr + 2 * n)%Z -> 1 - 1 / (conc ts mr n * F) = q ts mr n.
Proof.
  intros H1 H2. unfold conc. pose proof (q_bounds ts mr n H1 H2). pose proof F_pos. field. repeat split; lra.
Qed.

Lemma conc_mono ts mr n m : (0 < ts)%Z -> (0 < mr + 2 * n)%Z -> (n < m)%Z -> conc ts mr m < conc ts mr n.
Proof.
  intros H1 H2 H3.
  destruct (Rle_lt_dec (conc ts mr n) (conc ts mr m)) as [B|B]; [|auto]. exfalso.
  pose proof (q_mono ts mr n m H1 H3).
  apply conc_le in B; [|auto|auto|apply conc_pos; auto; lia]. rewrite conc_q in B by lia. lra.
Qed.

(** ** The two loops *)
Definition cz (ts mr : Z) (i : nat) : R := conc ts mr (Z.of_nat i).

Lemma conc_nonneg ts mr n : (0 < ts)%Z -> (0 < mr + 2 * n)%Z -> 0 < conc ts mr n.
Proof. intros H1 H2. pose proof (conc_pos ts mr n H1 H2). pose proof (Rinv_0_lt_compat _ F_pos). lra. Qed.

Lemma loop_eq ts mr : (0 < ts)%Z -> (0 < mr)%Z -> forall fuel i lst, 0 < lst <= INR fuel ->
  exists k, (1 <= k)%nat /\
    concentration_loop fuel ts mr (Z.of_nat i) lst = Ok (map (fun j => Some (cz ts mr j)) (seq i k)) /\
    (k = 1%nat -> lst - cz ts mr i < 1) /\
    ((1 < k)%nat -> 1 <= lst - cz ts mr i /\ cz ts mr (i + k - 2) - cz ts mr (i + k - 1) < 1) /\
    (forall j, (i < j)%nat -> (j < i + k - 1)%nat -> 1 <= cz ts mr (j - 1) - cz ts mr j).
Proof.
  intros H1 H2. induction fuel as [|fuel IH]; intros i lst Hl.
  - cbn in Hl. lra.
  - cbn [concentration_loop]. rewrite conc_eq by lia. fold (cz ts mr i).
    assert (Hc : 0 < cz ts mr i) by (apply conc_nonneg; lia).
    destruct (Rle_dec 1 (lst - cz ts mr i)) as [G|G].
    + rewrite S_INR in Hl. replace (Z.of_nat i + 1)%Z with (Z.of_nat (S i)) by lia.
      destruct (IH (S i) (cz ts mr i)) as (k & K1 & K2 & K3 & K4 & K5); [lra|].
      rewrite K2. cbn [bind]. exists (S k). repeat split; try lia.
      * intros. auto.
      * intros. destruct (Nat.eq_dec k 1) as [->|Hk].
        -- replace (i + 2 - 2)%nat with i by lia. replace (i + 2 - 1)%nat with (S i) by lia. auto.
        -- replace (i + S k - 2)%nat with (S i + k - 2)%nat by lia. replace (i + S k - 1)%nat with (S i + k - 1)%nat by lia. apply K4. lia.
      * intros j J1 J2. destruct (Nat.eq_dec j (S i)) as [->|Hj].
        -- replace (S i - 1)%nat with i by lia. apply K4. lia.
        -- apply K5; lia.
    + exists 1%nat. repeat split; try lia. intros. lra.
Qed.

Lemma descend_eq fuel : forall c, (c - 1 <= Z.of_nat fuel)%Z ->
  descend fuel c = Ok (map (fun j => IZR (c - Z.of_nat j)) (seq 0 (Z.to_nat (c - 1)))).
Proof.
  induction fuel as [|fuel IH]; intros c Hc; cbn [descend].
  - destruct (Z.ltb_spec 1 c); [lia|]. replace (Z.to_nat (c - 1)) with 0%nat by lia. reflexivity.
  - destruct (Z.ltb_spec 1 c).
    + rewrite IH by lia. cbn [bind]. replace (Z.to_nat (c - 1)) with (S (Z.to_nat (c - 1 - 1))) by lia.
      cbn [seq map]. replace (c - Z.of_nat 0)%Z with c by lia. do 2 f_equal. rewrite <- seq_shift, map_map.
      apply map_ext. intros j. f_equal. lia.
    + replace (Z.to_nat (c - 1)) with 0%nat by lia. reflexivity.
Qed.

Lemma last_map_seq {A} (f : nat -> A) k d : (1 <= k)%nat -> last (map f (seq 0 k)) d = f (k - 1)%nat.
Proof.
  intros H. destruct k as [|k]; [lia|]. rewrite seq_S, map_app. cbn [map]. rewrite last_last. f_equal. lia.
Qed.

Lemma Int_part_spec x : IZR (Int_part x) <= x < IZR (Int_part x) + 1.
Proof. destruct (base_Int_part x). lra. Qed.

Lemma max_tick_eq ts : (0 < ts)%Z -> exists m, get_max_tick 1 = Ok m /\ align_tick_to_spacing m ts = Ok (221818 / ts * ts)%Z.
Proof.
  intros H. exists 221818%Z. split; [reflexivity|]. unfold align_tick_to_spacing.
  rewrite (proj2 (Z.eqb_neq _ _)) by lia. change (Z.ltb 0 221818) with true. cbv iota. f_equal.
  rewrite Z.rem_mod_nonneg by lia. pose proof (Z.div_mod 221818 ts ltac:(lia)). lia.
Qed.

Definition full (ts mr : Z) (k : nat) : list R :=
  map (cz ts mr) (seq 0 k) ++
  map (fun j => IZR (ceil (cz ts mr (k - 1)) - Z.of_nat j)) (seq 0 (Z.to_nat (ceil (cz ts mr (k - 1)) - 1))).

Lemma array_eq ts mr ct : (0 < ts)%Z -> (0 < mr)%Z ->
  exists k, (2 <= k)%nat /\ cz ts mr (k - 2) - cz ts mr (k - 1) < 1 /\
    (forall j, (0 < j)%nat -> (j < k - 1)%nat -> 1 <= cz ts mr (j - 1) - cz ts mr j) /\
    let room := (221818 / ts * ts - Z.abs ct)%Z in
    ((2 * room < mr * ts)%Z /\ get_concentration_array ts mr ct = Err TickLimitReached \/
     exists lim, (0 <= lim)%Z /\ (ts * (mr + 2 * lim) <= 2 * room < ts * (mr + 2 * lim + 2))%Z /\
       get_concentration_array ts mr ct = Ok (firstn (Z.to_nat lim) (full ts mr k))).
Proof.
  intros H1 H2. pose proof (conc_nonneg ts mr 0 H1 ltac:(lia)) as Hc.
  destruct (loop_eq ts mr H1 H2 (Z.to_nat (ceil (conc ts mr 0)) + 3) 0 (conc ts mr 0 + 1)) as (k & K1 & K2 & K3 & K4 & K5).
  { split; [lra|]. rewrite plus_INR. destruct (ceil_spec (conc ts mr 0)) as [A B].
    assert (0 <= ceil (conc ts mr 0))%Z by (apply le_IZR; lra). rewrite INR_IZR_INZ, Z2Nat.id by auto. cbn [INR]. lra. }
  assert (Hk : (2 <= k)%nat).
  { destruct (Nat.eq_dec k 1) as [->|]; [|lia]. specialize (K3 eq_refl). unfold cz in K3. cbn [Z.of_nat] in K3. lra. }
  exists k. split; [auto|]. destruct (K4 ltac:(lia)) as [_ K4']. split; [exact K4'|]. split; [intros j J1 J2; apply K5; lia|].
  cbv zeta. unfold get_concentration_array. rewrite conc_eq by lia. change (concentration_loop (Z.to_nat (ceil (conc ts mr 0)) + 3) ts mr 0) with (concentration_loop (Z.to_nat (ceil (conc ts mr 0)) + 3) ts mr (Z.of_nat 0)). rewrite K2. cbn [bind].
  rewrite last_map_seq by auto. rewrite descend_eq by lia. cbn [bind].
  destruct (max_tick_eq ts H1) as (m & E1 & E2). rewrite E1. cbn [bind]. rewrite E2. cbn [bind].
  set (room := (221818 / ts * ts - Z.abs ct)%Z). rewrite map_map. fold (full ts mr k).
  assert (HT : 0 < IZR ts) by (apply (IZR_lt 0); auto).
  assert (HH : 2 * (IZR mr / 2 * IZR ts) = IZR (mr * ts)) by (rewrite mult_IZR; lra).
  destruct (Rlt_dec (IZR room) (IZR mr / 2 * IZR ts)) as [G|G].
  - left. split; [|reflexivity]. apply lt_IZR. rewrite mult_IZR. lra.
  - right. set (x := (IZR room - IZR mr / 2 * IZR ts) / IZR ts). destruct (Int_part_spec x) as [X1 X2].
    assert (Ex : x * IZR ts = IZR room - IZR mr / 2 * IZR ts) by (unfold x; field; lra).
    assert (X0 : 0 <= x) by (unfold x; apply Rmult_le_pos; [lra|left; apply Rinv_0_lt_compat; auto]).
    assert (L0 : (0 <= Int_part x)%Z). { assert (Q : (-1 < Int_part x)%Z) by (apply lt_IZR; lra). lia. }
    exists (Int_part x). split; [auto|]. split; [|reflexivity].
    apply (Rmult_le_compat_r (IZR ts)) in X1; [|lra]. apply (Rmult_lt_compat_r (IZR ts)) in X2; [|lra]. rewrite Ex in X1, X2.
    split; [apply le_IZR|apply lt_IZR]; repeat (rewrite mult_IZR || rewrite plus_IZR); repeat (rewrite mult_IZR in * || rewrite plus_IZR in * ); lra.
Qed.
