(** Lemmas about the fixed-point library (C63, C64, C65). *)
From Verif Require Import Base DecimalLibM SpecDecimal.
From Coq Require Import ZArith QArith Lia Bool List Qfield.
Import ListNotations.
Open Scope Z_scope.

Lemma pow10_pos s : 0 <= s -> 0 < 10 ^ s.
Proof. intros H. apply Z.pow_pos_nonneg; lia. Qed.

(** ** Rational comparisons by cross multiplication *)
Lemma inj_nz d : 0 < d -> ~ (inject_Z d == 0)%Q.
Proof. intros H E. unfold Qeq in E. cbn in E. lia. Qed.

Lemma inj_pos d : 0 < d -> (0 < inject_Z d)%Q.
Proof. intros H. unfold Qlt. cbn. lia. Qed.

Lemma frac_le n d m e : 0 < d -> 0 < e ->
  (inject_Z n / inject_Z d <= inject_Z m / inject_Z e)%Q <-> n * e <= m * d.
Proof.
  intros Hd He. pose proof (inj_pos d Hd) as Pd. pose proof (inj_pos e He) as Pe.
  assert (X : (inject_Z n / inject_Z d <= inject_Z m / inject_Z e <-> inject_Z (n * e) <= inject_Z (m * d))%Q).
  { rewrite !inject_Z_mult. split; intros H.
    - setoid_replace (inject_Z n * inject_Z e)%Q with ((inject_Z n / inject_Z d) * (inject_Z d * inject_Z e))%Q by (field; apply inj_nz; auto).
      setoid_replace (inject_Z m * inject_Z d)%Q with ((inject_Z m / inject_Z e) * (inject_Z d * inject_Z e))%Q by (field; apply inj_nz; auto).
      apply Qmult_le_compat_r; [exact H|]. apply Qlt_le_weak, Qmult_lt_0_compat; auto.
    - apply (Qmult_le_r _ _ (inject_Z d * inject_Z e)); [apply Qmult_lt_0_compat; auto|].
      setoid_replace ((inject_Z n / inject_Z d) * (inject_Z d * inject_Z e))%Q with (inject_Z n * inject_Z e)%Q by (field; apply inj_nz; auto).
      setoid_replace ((inject_Z m / inject_Z e) * (inject_Z d * inject_Z e))%Q with (inject_Z m * inject_Z d)%Q by (field; apply inj_nz; auto).
      exact H. }
  rewrite X, <- Zle_Qle. reflexivity.
Qed.

Lemma frac_lt n d m e : 0 < d -> 0 < e ->
  (inject_Z n / inject_Z d < inject_Z m / inject_Z e)%Q <-> n * e < m * d.
Proof.
  intros Hd He. pose proof (frac_le m e n d He Hd) as F. split; intros H.
  - apply Z.nle_gt. intros C. apply F in C. apply Qle_not_lt in C. auto.
  - apply Qnot_le_lt. intros C. apply F in C. lia.
Qed.

Lemma frac_eq n d m e : 0 < d -> 0 < e ->
  (inject_Z n / inject_Z d == inject_Z m / inject_Z e)%Q <-> n * e = m * d.
Proof.
  intros Hd He. pose proof (frac_le m e n d He Hd) as F1. pose proof (frac_le n d m e Hd He) as F2. split; intros H.
  - assert (n * e <= m * d) by (apply F2; rewrite H; apply Qle_refl).
    assert (m * d <= n * e) by (apply F1; rewrite H; apply Qle_refl). lia.
  - apply Qle_antisym; [apply F2|apply F1]; lia.
Qed.

Lemma value_mul s u a b : 0 <= s -> 0 <= u ->
  (value s a * value u b == inject_Z (a * b) / inject_Z (10 ^ s * 10 ^ u))%Q.
Proof.
  intros Hs Hu. unfold value. rewrite !inject_Z_mult. field. split; apply inj_nz, pow10_pos; auto.
Qed.
Lemma value_div s u a b : 0 <= s -> 0 <= u -> 0 < b ->
  (value s a / value u b == inject_Z (a * 10 ^ u) / inject_Z (10 ^ s * b))%Q.
Proof.
  intros Hs Hu Hb. unfold value. rewrite !inject_Z_mult. field. repeat split; apply inj_nz; auto using pow10_pos.
Qed.

Lemma down_mul s u r a b : 0 <= s -> 0 <= u ->
  r * 10 ^ u <= a * b < (r + 1) * 10 ^ u -> rounds_down s r (value s a * value u b).
Proof.
  intros Hs Hu [H1 H2]. pose proof (pow10_pos s Hs). pose proof (pow10_pos u Hu).
  unfold rounds_down. rewrite value_mul; auto. unfold value.
  rewrite frac_le, frac_lt by nia. set (S := 10 ^ s) in *. set (U := 10 ^ u) in *. clearbody S U. nia.
Qed.
Lemma up_mul s u r a b : 0 <= s -> 0 <= u ->
  (r - 1) * 10 ^ u < a * b <= r * 10 ^ u -> rounds_up s r (value s a * value u b).
Proof.
  intros Hs Hu [H1 H2]. pose proof (pow10_pos s Hs). pose proof (pow10_pos u Hu).
  unfold rounds_up. rewrite value_mul; auto. unfold value.
  rewrite frac_le, frac_lt by nia. set (S := 10 ^ s) in *. set (U := 10 ^ u) in *. clearbody S U. nia.
Qed.
Lemma down_div s u r a b : 0 <= s -> 0 <= u -> 0 < b ->
  r * b <= a * 10 ^ u < (r + 1) * b -> rounds_down s r (value s a / value u b).
Proof.
  intros Hs Hu Hb [H1 H2]. pose proof (pow10_pos s Hs). pose proof (pow10_pos u Hu).
  unfold rounds_down. rewrite value_div; auto. unfold value.
  rewrite frac_le, frac_lt by nia. set (S := 10 ^ s) in *. set (U := 10 ^ u) in *. clearbody S U. nia.
Qed.
Lemma up_div s u r a b : 0 <= s -> 0 <= u -> 0 < b ->
  (r - 1) * b < a * 10 ^ u <= r * b -> rounds_up s r (value s a / value u b).
Proof.
  intros Hs Hu Hb [H1 H2]. pose proof (pow10_pos s Hs). pose proof (pow10_pos u Hu).
  unfold rounds_up. rewrite value_div; auto. unfold value.
  rewrite frac_le, frac_lt by nia. set (S := 10 ^ s) in *. set (U := 10 ^ u) in *. clearbody S U. nia.
Qed.

(** Rounding is unique, and up exceeds down by at most one unit. *)
Lemma down_unique s r r' q : 0 <= s -> rounds_down s r q -> rounds_down s r' q -> r = r'.
Proof.
  intros Hs [A1 A2] [B1 B2]. pose proof (pow10_pos s Hs).
  assert (value s r < value s (r' + 1))%Q as C1 by (eapply Qle_lt_trans; eauto).
  assert (value s r' < value s (r + 1))%Q as C2 by (eapply Qle_lt_trans; eauto).
  unfold value in *. rewrite frac_lt in C1, C2 by auto. nia.
Qed.
Lemma up_down s d u q : 0 <= s -> rounds_down s d q -> rounds_up s u q -> d <= u <= d + 1.
Proof.
  intros Hs [A1 A2] [B1 B2]. pose proof (pow10_pos s Hs).
  assert (value s d <= value s u)%Q as C1 by (eapply Qle_trans; eauto).
  assert (value s (u - 1) < value s (d + 1))%Q as C2 by (eapply Qlt_trans; eauto).
  unfold value in *. rewrite frac_le in C1 by auto. rewrite frac_lt in C2 by auto. nia.
Qed.

(** ** Ones *)
Lemma one_Ok t : sound_type t -> d_one t = Ok (10 ^ t_scale t).
Proof. intros [S B]. unfold d_one, d_checked_one, checked_pow. rewrite (proj2 (Z.ltb_lt _ _)) by lia. reflexivity. Qed.
Lemma almost_one_Ok t : sound_type t -> d_almost_one t = Ok (10 ^ t_scale t - 1).
Proof.
  intros [S B]. pose proof (pow10_pos (t_scale t) ltac:(lia)).
  unfold d_almost_one, d_checked_almost_one, d_checked_one, checked_pow, checked_sub. rewrite (proj2 (Z.ltb_lt _ _)) by lia. cbn [ok_or bind].
  rewrite (proj2 (Z.leb_le _ _)) by lia. reflexivity.
Qed.

Lemma fl n d : 0 < d -> n / d * d <= n < (n / d + 1) * d.
Proof. intros H. pose proof (Z.mul_div_le n d H). pose proof (Z.mul_succ_div_gt n d H). nia. Qed.
Lemma ce n d : 0 < d -> ((n + (d - 1)) / d - 1) * d < n <= (n + (d - 1)) / d * d.
Proof. intros H. pose proof (fl (n + (d - 1)) d H). nia. Qed.
Lemma div_lt n d b : 0 < d -> n / d < b <-> n < b * d.
Proof. intros H. pose proof (fl n d H). nia. Qed.
Lemma ceil_lt n d b : 0 < d -> (n + (d - 1)) / d < b <-> n <= (b - 1) * d.
Proof. intros H. pose proof (ce n d H). nia. Qed.
Lemma fl_nonneg n d : 0 < d -> 0 <= n -> 0 <= n / d.
Proof. intros. apply Z.div_pos; lia. Qed.
Lemma fl_le n d : 0 < d -> 0 <= n -> n / d <= n.
Proof. intros. apply Z.div_le_upper_bound; nia. Qed.

(** ** Limbs *)
Lemma M64_eq : M64 = 2 ^ 64. Proof. reflexivity. Qed.

Lemma number_app l l' : number (l ++ l') = number l + 2 ^ (64 * Z.of_nat (length l)) * number l'.
Proof.
  induction l as [|x l IH]; cbn [app number length]; [change (64 * Z.of_nat 0) with 0; lia|].
  rewrite IH. replace (64 * Z.of_nat (S (length l))) with (64 + 64 * Z.of_nat (length l)) by lia.
  rewrite Z.pow_add_r by lia. ring.
Qed.

Lemma number_repeat n : number (repeat 0 n) = 0.
Proof. induction n as [|n IH]; cbn [repeat number]; lia. Qed.

Lemma number_range n l : limbs n l -> 0 <= number l < 2 ^ (64 * Z.of_nat n).
Proof.
  intros [<- H]. induction H as [|x l Hx H IH]; cbn [number length]; [cbn; lia|].
  replace (64 * Z.of_nat (S (length l))) with (64 + 64 * Z.of_nat (length l)) by lia.
  rewrite Z.pow_add_r by lia. set (P := 2 ^ (64 * Z.of_nat (length l))) in *. clearbody P. lia.
Qed.

Lemma lor_zero l : Forall (fun x => 0 <= x < 2 ^ 64) l -> forall acc, 0 <= acc ->
  fold_left Z.lor l acc = 0 <-> acc = 0 /\ number l = 0.
Proof.
  induction 1 as [|x l Hx H IH]; intros acc Hacc; cbn [fold_left number]; [tauto|].
  assert (N : 0 <= number l) by (apply (number_range (length l)); split; auto).
  rewrite IH by (apply Z.lor_nonneg; lia). rewrite Z.lor_eq_0_iff. lia.
Qed.

Lemma overflow_zero n l k : limbs n l -> (k <= n)%nat ->
  overflow_chunks l k = 0 <-> number l < 2 ^ (64 * Z.of_nat k).
Proof.
  intros [L H] Hk. unfold overflow_chunks.
  assert (F : Forall (fun x => 0 <= x < 2 ^ 64) (firstn k l) /\ Forall (fun x => 0 <= x < 2 ^ 64) (skipn k l))
    by (rewrite <- (firstn_skipn k l), Forall_app in H; exact H).
  rewrite lor_zero by (first [apply F|lia]).
  rewrite <- (firstn_skipn k l) at 2. rewrite number_app, firstn_length, Nat.min_l by lia.
  assert (N1 : 0 <= number (firstn k l) < 2 ^ (64 * Z.of_nat k)) by (apply number_range; split; [rewrite firstn_length; lia|apply F]).
  assert (N2 : 0 <= number (skipn k l)) by (apply (number_range (length (skipn k l))); split; [auto|apply F]).
  set (P := 2 ^ (64 * Z.of_nat k)) in *. clearbody P. nia.
Qed.

Lemma firstn_number n l k : limbs n l -> (k <= n)%nat -> overflow_chunks l k = 0 ->
  limbs k (firstn k l) /\ number (firstn k l) = number l.
Proof.
  intros HL Hk O. pose proof HL as [L H]. unfold overflow_chunks in O.
  assert (F : Forall (fun x => 0 <= x < 2 ^ 64) (firstn k l) /\ Forall (fun x => 0 <= x < 2 ^ 64) (skipn k l))
    by (rewrite <- (firstn_skipn k l), Forall_app in H; exact H).
  apply lor_zero in O; [|apply F|lia]. split; [split; [rewrite firstn_length; lia|apply F]|].
  rewrite <- (firstn_skipn k l) at 2. rewrite number_app. lia.
Qed.

Lemma low_limb l : Forall (fun x => 0 <= x < 2 ^ 64) l -> limb l 0 = number l mod 2 ^ 64.
Proof.
  intros [|x r Hx H]; [reflexivity|]. cbn [limb nth number]. unfold limb, nth.
  rewrite (Z.mul_comm (2 ^ 64)), Z.mod_add by lia. rewrite Z.mod_small; lia.
Qed.

(** ** Digits *)
Lemma read_cons d l : read_digits (d :: l) = d * 10 ^ Z.of_nat (length l) + read_digits l.
Proof.
  unfold read_digits. cbn [fold_left]. replace (10 * 0 + d) with d by lia.
  assert (X : forall l acc, fold_left (fun n d => 10 * n + d) l acc = acc * 10 ^ Z.of_nat (length l) + fold_left (fun n d => 10 * n + d) l 0).
  { clear. induction l as [|y l IH]; intros acc; cbn [fold_left length]; [cbn; lia|].
    rewrite (IH (10 * acc + y)), (IH (10 * 0 + y)). replace (Z.of_nat (S (length l))) with (1 + Z.of_nat (length l)) by lia.
    rewrite Z.pow_add_r by lia. ring. }
  apply X.
Qed.

Lemma read_zeros k l : read_digits (repeat 0 k ++ l) = read_digits l.
Proof. induction k as [|k IH]; cbn [repeat app]; [reflexivity|]. rewrite read_cons, IH. lia. Qed.

Lemma log2_div10 n : 10 <= n -> Z.log2 (n / 10) < Z.log2 n.
Proof.
  intros H. assert (0 < n / 10) by (apply Z.div_str_pos; lia).
  apply Z.log2_lt_pow2; [lia|]. apply Z.div_lt_upper_bound; [lia|].
  pose proof (Z.log2_spec n ltac:(lia)) as [_ L]. replace (Z.succ (Z.log2 n)) with (1 + Z.log2 n) in L by lia.
  rewrite Z.pow_add_r in L by (first [lia|apply Z.log2_nonneg]).
  assert (0 < 2 ^ Z.log2 n) by (apply Z.pow_pos_nonneg; [lia|apply Z.log2_nonneg]). lia.
Qed.

Lemma digits_fuel_spec f : forall n acc, 0 <= n -> Z.log2 n <= Z.of_nat f -> Forall digit acc ->
  exists k, 1 <= k /\ Z.of_nat (length (digits_fuel f n acc)) = Z.of_nat (length acc) + k /\ n < 10 ^ k /\ (0 < n -> 10 ^ (k - 1) <= n) /\
    Forall digit (digits_fuel f n acc) /\ read_digits (digits_fuel f n acc) = n * 10 ^ Z.of_nat (length acc) + read_digits acc.
Proof.
  induction f as [|f IH]; intros n acc Hn HL HA; cbn [digits_fuel].
  - assert (n < 2). { destruct (Z.eq_dec n 0); [lia|]. pose proof (Z.log2_spec n ltac:(lia)) as [_ X].
      replace (Z.log2 n) with 0 in X by (pose proof (Z.log2_nonneg n); lia). cbn in X. lia. }
    rewrite Z.mod_small by lia. exists 1. rewrite read_cons. cbn [length]. repeat split; try lia.
    constructor; [unfold digit; lia|auto].
  - destruct (Z.ltb_spec n 10).
    + exists 1. rewrite read_cons. cbn [length]. repeat split; try lia. constructor; [unfold digit; lia|auto].
    + pose proof (Z.mod_pos_bound n 10 ltac:(lia)). pose proof (Z.div_mod n 10 ltac:(lia)) as DM.
      assert (0 < n / 10) by (apply Z.div_str_pos; lia).
      destruct (IH (n / 10) (n mod 10 :: acc)) as (k & K1 & K2 & K3 & K4 & K5 & K6);
        [lia|pose proof (log2_div10 n ltac:(lia)); lia|constructor; [unfold digit; lia|auto]|].
      exists (k + 1). rewrite K6, read_cons, K2. cbn [length]. rewrite Nat2Z.inj_succ.
      replace (Z.succ (Z.of_nat (length acc))) with (1 + Z.of_nat (length acc)) by lia.
      rewrite (Z.pow_add_r 10 k 1), (Z.pow_add_r 10 1) by lia. replace (k + 1 - 1) with (k - 1 + 1) by lia. rewrite (Z.pow_add_r 10 (k - 1) 1) by lia.
      specialize (K4 ltac:(lia)). set (P := 10 ^ k) in *. set (P' := 10 ^ (k - 1)) in *. set (A := 10 ^ Z.of_nat (length acc)).
      clearbody P P' A. change (10 ^ 1) with 10. repeat split; auto; try lia; try nia.
Qed.

Lemma tail_spec f : forall n c, 0 < n -> Z.log2 n < Z.of_nat f ->
  exists k, 1 <= k /\ tail_fuel f n c = c + k /\ n < 10 ^ k /\ 10 ^ (k - 1) <= n.
Proof.
  induction f as [|f IH]; intros n c Hn HL; [pose proof (Z.log2_nonneg n); lia|]. cbn [tail_fuel].
  rewrite Z.gtb_ltb, (proj2 (Z.ltb_lt _ _)) by lia.
  pose proof (Z.mod_pos_bound n 10 ltac:(lia)). pose proof (Z.div_mod n 10 ltac:(lia)) as DM.
  destruct (Z.ltb_spec n 10).
  - rewrite Z.div_small by lia. exists 1. split; [lia|]. split; [|cbn; lia]. destruct f; reflexivity.
  - destruct (IH (n / 10) (c + 1)) as (k & K1 & K2 & K3 & K4); [apply Z.div_str_pos; lia|pose proof (log2_div10 n ltac:(lia)); lia|].
    exists (k + 1). rewrite K2. split; [lia|]. split; [lia|].
    rewrite (Z.pow_add_r 10 k 1) by lia. replace (k + 1 - 1) with (k - 1 + 1) by lia. rewrite (Z.pow_add_r 10 (k - 1) 1) by lia.
    set (P := 10 ^ k) in *. set (P' := 10 ^ (k - 1)) in *. clearbody P P'. change (10 ^ 1) with 10. nia.
Qed.

Lemma pow10_unique n k k' : 1 <= k -> 1 <= k' -> n < 10 ^ k -> 10 ^ (k - 1) <= n -> n < 10 ^ k' -> 10 ^ (k' - 1) <= n -> k = k'.
Proof.
  intros. assert (10 ^ (k - 1) < 10 ^ k') as A by lia. assert (10 ^ (k' - 1) < 10 ^ k) as B by lia.
  apply Z.pow_lt_mono_r_iff in A; [|lia..]. apply Z.pow_lt_mono_r_iff in B; lia.
Qed.

Lemma digits_spec n : 0 <= n -> exists k, 1 <= k /\ Z.of_nat (length (digits n)) = k /\ n < 10 ^ k /\ (0 < n -> 10 ^ (k - 1) <= n) /\
  Forall digit (digits n) /\ read_digits (digits n) = n.
Proof.
  intros H. destruct (digits_fuel_spec (Z.to_nat (Z.log2 n)) n [] H) as (k & K1 & K2 & K3 & K4 & K5 & K6); [pose proof (Z.log2_nonneg n); lia|constructor|].
  exists k. fold (digits n) in *. cbn [length] in *. repeat split; auto. rewrite K6. unfold read_digits. cbn. lia.
Qed.
