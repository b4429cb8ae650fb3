(** * C64 – conversions between integer sizes keep the value or are refused *)
From Verif Require Import Base DecimalLibM SpecDecimal P_Decimal.
From Coq Require Import ZArith Lia Bool List.
Import ListNotations.
Open Scope Z_scope.

(** A value of n limbs is a number below 2^(64n), and only one value is that number. *)
Theorem C64_representation n l l' : limbs n l -> limbs n l' ->
  0 <= number l < 2 ^ (64 * Z.of_nat n) /\ (number l = number l' -> l = l').
Proof.
  intros H H'. split; [apply number_range; auto|]. destruct H as [L F], H' as [L' F'].
  assert (E : length l = length l') by lia. clear L L' n. revert l' E F'. induction F as [|x l Hx F IH]; intros [|y l'] E F' EN; cbn in E; try lia; [reflexivity|].
  inversion F' as [|? ? Hy F'']; subst. cbn [number] in EN.
  assert (x = y /\ number l = number l') as [-> EN'] by lia. f_equal. apply IH; auto.
Qed.

(** To a wider type: always, with the same value. *)
Theorem C64_widen k n l : limbs k l -> (k <= n)%nat -> limbs n (l_cast_up n l) /\ number (l_cast_up n l) = number l.
Proof.
  intros [L F] H. unfold l_cast_up. split; [split|].
  - rewrite app_length, repeat_length. lia.
  - apply Forall_app. split; [auto|]. apply Forall_forall. intros x Hx. apply repeat_spec in Hx. subst x. lia.
  - rewrite number_app, number_repeat. lia.
Qed.

(** To a narrower type: exactly if the value fits, and then with the same value. *)
Theorem C64_narrow n k l : limbs n l -> (k <= n)%nat ->
  (number l < 2 ^ (64 * Z.of_nat k) /\ exists l', l_cast_down k l = Ok l' /\ limbs k l' /\ number l' = number l) \/
  (2 ^ (64 * Z.of_nat k) <= number l /\ l_cast_down k l = Err ETrack).
Proof.
  intros H Hk. unfold l_cast_down. pose proof (overflow_zero n l k H Hk) as O.
  destruct (Z.eqb_spec (overflow_chunks l k) 0) as [E|E].
  - left. split; [apply O; auto|]. eexists. split; [reflexivity|]. eapply firstn_number; eauto.
  - right. split; [|reflexivity]. apply Z.nlt_ge. intros X. apply O in X. auto.
Qed.

Theorem C64_to_u64_u128 n l : limbs n l -> (2 <= n)%nat ->
  ((number l < 2 ^ 64 /\ l_to_u64 l = Ok (number l)) \/ (2 ^ 64 <= number l /\ l_to_u64 l = Err ETrack)) /\
  ((number l < 2 ^ 128 /\ l_to_u128 l = Ok (number l)) \/ (2 ^ 128 <= number l /\ l_to_u128 l = Err ETrack)).
Proof.
  intros H Hn. unfold l_to_u64, l_to_u128.
  pose proof (overflow_zero n l 1 H ltac:(lia)) as O1. pose proof (overflow_zero n l 2 H ltac:(lia)) as O2.
  change (64 * Z.of_nat 1) with 64 in O1. change (64 * Z.of_nat 2) with 128 in O2. split.
  - destruct (Z.eqb_spec (overflow_chunks l 1) 0) as [E|E].
    + left. split; [apply O1; auto|]. apply (firstn_number n l 1 H ltac:(lia)) in E as [[L _] E].
      destruct l as [|x l]; [discriminate L|]. cbn [firstn number] in E. cbn [number]. unfold limb, nth. f_equal. lia.
    + right. split; [|reflexivity]. apply Z.nlt_ge. intros X. apply O1 in X. auto.
  - destruct (Z.eqb_spec (overflow_chunks l 2) 0) as [E|E].
    + left. split; [apply O2; auto|]. apply (firstn_number n l 2 H ltac:(lia)) in E as [[L _] E].
      destruct l as [|x [|y l]]; try discriminate L. cbn [firstn number] in E. cbn [number]. unfold limb, nth. rewrite M64_eq. f_equal. lia.
    + right. split; [|reflexivity]. apply Z.nlt_ge. intros X. apply O2 in X. auto.
Qed.

(** From u8 .. u128 and from i32. *)
Theorem C64_from_primitive n v : (2 <= n)%nat -> v < 2 ^ 128 ->
  (0 <= v -> limbs n (l_from_primitive n v) /\ number (l_from_primitive n v) = v) /\
  (0 <= v -> l_from_i32 n v = Ok (l_from_primitive n v)) /\ (v < 0 -> l_from_i32 n v = Panic).
Proof.
  intros Hn Hv. unfold l_from_i32, l_from_primitive. rewrite M64_eq. split; [|split].
  - intros H. pose proof (Z.mod_pos_bound v (2 ^ 64) ltac:(lia)). pose proof (Z.div_mod v (2 ^ 64) ltac:(lia)).
    assert (0 <= v / 2 ^ 64 < 2 ^ 64) by (split; [apply Z.div_pos; lia|apply Z.div_lt_upper_bound; [lia|]; change (2 ^ 64 * 2 ^ 64) with (2 ^ 128); lia]).
    cbn [number]. rewrite number_repeat. split; [split|lia].
    + cbn [length]. rewrite repeat_length. lia.
    + constructor; [lia|]. constructor; [lia|]. apply Forall_forall. intros x Hx. apply repeat_spec in Hx. subst x. lia.
  - intros H. destruct (Z.ltb_spec v 0); [lia|reflexivity].
  - intros H. destruct (Z.ltb_spec v 0); [reflexivity|lia].
Qed.

(** To u8, u16 and u32: the higher limbs are not looked at.  The conversion is right
    below 2^64, and wrong above. *)
Theorem C64_to_small_refuted : ~ (forall n m l, (2 <= n <= 8)%nat -> In m [2 ^ 8; 2 ^ 16; 2 ^ 32] -> limbs n l ->
  forall r, l_to_small m l = Ok r -> number l = r).
Proof.
  intros H. assert (X : number [0; 1; 0; 0] = 0); [|vm_compute in X; discriminate X].
  apply (H 4%nat (2 ^ 32)); [lia|cbn; tauto| |reflexivity]. split; [reflexivity|]. repeat constructor; lia.
Qed.

Theorem C64_to_small_guarded n m l : limbs n l -> (2 <= n)%nat -> In m [2 ^ 8; 2 ^ 16; 2 ^ 32] ->
  (number l < 2 ^ 64 -> (number l < m /\ l_to_small m l = Ok (number l)) \/ (m <= number l /\ l_to_small m l = Err ETrack)) /\
  forall r, l_to_small m l = Ok r -> r = number l mod 2 ^ 64 /\ r < m.
Proof.
  intros H Hn Hm. pose proof (number_range n l H) as R. destruct H as [L F].
  assert (1 < m <= 2 ^ 64) as Rm by (cbn in Hm; lia). unfold l_to_small. rewrite Z.gtb_ltb, (low_limb l F).
  pose proof (Z.mod_pos_bound (number l) (2 ^ 64) ltac:(lia)). set (x := number l mod 2 ^ 64) in *. split.
  - intros HN. assert (Ex : x = number l) by (apply Z.mod_small; lia).
    destruct (Z.ltb_spec (m - 1) x); [right|left]; split; try lia; [reflexivity|]. rewrite Z.mod_small by lia. congruence.
  - intros r. destruct (Z.ltb_spec (m - 1) x); intros E; [discriminate E|]. injection E as <-. rewrite Z.mod_small; lia.
Qed.

(** The conversions by shifts. *)
Lemma low_u64_mod n : low_u64 n = n mod 2 ^ 64.
Proof. unfold low_u64. change (M64 - 1) with (Z.ones 64). apply Z.land_ones. lia. Qed.

Theorem C64_shifts n : 0 <= n ->
  ((n < 2 ^ 256 /\ exists l, u320_to_u256 n = Some l /\ limbs 4 l /\ number l = n) \/ (2 ^ 256 <= n /\ u320_to_u256 n = None)) /\
  (n < 2 ^ 256 -> limbs 5 (u256_to_u320 n) /\ number (u256_to_u320 n) = n) /\
  (n < 2 ^ 128 -> limbs 4 (to_u256 n) /\ number (to_u256 n) = n).
Proof.
  intros Hn. unfold u320_to_u256, u256_to_u320, to_u256. rewrite !low_u64_mod, !Z.shiftr_div_pow2 by lia.
  assert (B : forall v, 0 <= v mod 2 ^ 64 < 2 ^ 64) by (intros v; apply Z.mod_pos_bound; lia).
  assert (S : forall i, 0 <= i -> n / 2 ^ i = (n / 2 ^ i) mod 2 ^ 64 + 2 ^ 64 * (n / 2 ^ (i + 64))).
  { intros i Hi. rewrite Z.pow_add_r, <- Z.div_div by (try lia; apply Z.pow_pos_nonneg; lia). rewrite Z.add_comm. apply Z.div_mod. lia. }
  pose proof (S 0 ltac:(lia)) as S0. change (2 ^ 0) with 1 in S0. rewrite Z.div_1_r in S0. change (0 + 64) with 64 in S0.
  pose proof (S 64 ltac:(lia)) as S1. change (64 + 64) with 128 in S1.
  pose proof (S 128 ltac:(lia)) as S2. change (128 + 64) with 192 in S2.
  pose proof (S 192 ltac:(lia)) as S3. change (192 + 64) with 256 in S3.
  assert (Z256 : n / 2 ^ 256 = 0 <-> n < 2 ^ 256) by (rewrite Z.div_small_iff by lia; lia).
  assert (Z128 : n / 2 ^ 128 = 0 <-> n < 2 ^ 128) by (rewrite Z.div_small_iff by lia; lia).
  assert (N : number [n mod 2 ^ 64; (n / 2 ^ 64) mod 2 ^ 64; (n / 2 ^ 128) mod 2 ^ 64; (n / 2 ^ 192) mod 2 ^ 64] = n - 2 ^ 256 * (n / 2 ^ 256)).
  { cbn [number]. change (2 ^ 256) with (2 ^ 64 * (2 ^ 64 * (2 ^ 64 * 2 ^ 64))) at 1. lia. }
  split; [|split].
  - destruct (Z.eqb_spec (n / 2 ^ 256) 0) as [E|E]; [left|right].
    + split; [apply Z256; auto|]. eexists. split; [reflexivity|]. split; [split; [reflexivity|repeat constructor; apply B]|]. rewrite N. lia.
    + split; [|reflexivity]. apply Z.nlt_ge. intros X. apply Z256 in X. auto.
  - intros HN. apply Z256 in HN. split; [split; [reflexivity|repeat constructor; first [apply B|lia]]|]. rewrite HN in N. rewrite Z.mul_0_r, Z.sub_0_r in N.
    rewrite <- N at 5. reflexivity.
  - intros HN. apply Z128 in HN. split; [split; [reflexivity|repeat constructor; first [apply B|lia]]|]. cbn [number]. lia.
Qed.

(** The integer handed to JavaScript is the value of the limbs. *)
Lemma lor_shift x N : 0 <= x < 2 ^ 64 -> Z.lor (Z.shiftl N 64) x = x + 2 ^ 64 * N.
Proof.
  intros Hx. assert (D : Z.land (Z.shiftl N 64) x = 0).
  { apply Z.bits_inj'. intros i Hi. rewrite Z.land_spec, Z.bits_0. destruct (Z.lt_ge_cases i 64) as [L|L].
    - rewrite Z.shiftl_spec_low by lia. reflexivity.
    - rewrite <- (Z.mod_small x (2 ^ 64) Hx), Z.mod_pow2_bits_high by lia. apply andb_false_r. }
  rewrite <- Z.lxor_lor, <- Z.add_nocarry_lxor by exact D. rewrite Z.shiftl_mul_pow2 by lia. lia.
Qed.

Theorem C64_bigint n l : limbs n l -> sdk_bigint l = number l.
Proof.
  intros [_ F]. unfold sdk_bigint. rewrite <- fold_left_rev_right, rev_involutive.
  induction F as [|x l Hx F IH]; cbn [fold_right number]; [reflexivity|]. rewrite IH. apply lor_shift. exact Hx.
Qed.

(** 10^30 as two limbs, widened, narrowed again, and too large for u64. *)
Example C64_case :
  let l := l_from_primitive 4 (10 ^ 30) in
  l = [5076944270305263616; 54210108624; 0; 0] /\ limbs 4 l /\ number l = 10 ^ 30 /\
  l_cast_up 8 l = [5076944270305263616; 54210108624; 0; 0; 0; 0; 0; 0] /\ l_cast_down 2 l = Ok [5076944270305263616; 54210108624] /\
  l_to_u128 l = Ok (10 ^ 30) /\ l_to_u64 l = Err ETrack /\ l_cast_down 3 [0; 0; 0; 1] = Err ETrack /\
  l_to_small (2 ^ 8) [200; 0; 0; 0] = Ok 200 /\ l_to_small (2 ^ 8) [300; 0; 0; 0] = Err ETrack /\ l_to_small (2 ^ 8) [200; 7; 0; 0] = Ok 200 /\
  sdk_bigint l = 10 ^ 30.
Proof. cbn zeta. repeat split; try reflexivity. repeat constructor; vm_compute; congruence. Qed.

(** ** Assumptions *)
Print Assumptions C64_representation.
Print Assumptions C64_widen.
Print Assumptions C64_narrow.
Print Assumptions C64_to_u64_u128.
Print Assumptions C64_from_primitive.
Print Assumptions C64_to_small_refuted.
Print Assumptions C64_to_small_guarded.
Print Assumptions C64_shifts.
Print Assumptions C64_bigint.
