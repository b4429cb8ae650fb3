(** Facts about the SDK's helpers: the square root, prices after slippage. *)
From Verif Require Import Base Decimal SqrtPriceM LogM ClammM FeeGrowthM Types CollectionsM StateM ServiceM
  SdkUtilM SpecMath.
From Coq Require Import ZArith Lia Bool List.
Open Scope Z_scope.

(** ** Newton's iteration *)

Lemma newton_step n r x : 0 < r -> r * r <= n < (r + 1) * (r + 1) -> r < x ->
  let x1 := Z.shiftr (Z.quot n x + x) 1 in r <= x1 /\ 2 * (x1 - r) <= x - r.
Proof.
  intros Hr Hn Hx. cbv zeta. rewrite Z.quot_div_nonneg by nia. rewrite Z.shiftr_div_pow2 by lia. change (2 ^ 1) with 2.
  pose proof (Z.div_mod n x ltac:(lia)) as D. pose proof (Z.mod_pos_bound n x ltac:(lia)) as B.
  set (q := n / x) in *. assert (q <= r) by nia.
  assert (2 * r <= q + x).
  { destruct (Z.le_gt_cases (2 * r) (q + x)); [auto|exfalso]. assert (n < (2 * r - x) * x) by nia. nia. }
  pose proof (Z.div_mod (q + x) 2 ltac:(lia)) as D2. pose proof (Z.mod_pos_bound (q + x) 2 ltac:(lia)) as B2. lia.
Qed.

Lemma newton_fix fuel n r : 0 < r -> r * r <= n < (r + 1) * (r + 1) -> newton_iteration fuel n r = Ok r.
Proof.
  intros Hr Hn.
  assert (E : (r =? Z.shiftr (Z.quot n r + r) 1) || (r =? Z.shiftr (Z.quot n r + r) 1 - 1) = true).
  { rewrite Z.quot_div_nonneg by nia. rewrite Z.shiftr_div_pow2 by lia. change (2 ^ 1) with 2.
    pose proof (Z.div_mod n r ltac:(lia)) as D. pose proof (Z.mod_pos_bound n r ltac:(lia)) as B.
    set (q := n / r) in *. assert (r <= q <= r + 2) by nia.
    pose proof (Z.div_mod (q + r) 2 ltac:(lia)) as D2. pose proof (Z.mod_pos_bound (q + r) 2 ltac:(lia)) as B2.
    apply orb_true_iff. rewrite !Z.eqb_eq. lia. }
  destruct fuel; cbn [newton_iteration]; rewrite E; reflexivity.
Qed.

Lemma newton_from fuel : forall n r x, 0 < r -> r * r <= n < (r + 1) * (r + 1) -> r <= x ->
  x - r < 2 ^ Z.of_nat fuel -> newton_iteration fuel n x = Ok r.
Proof.
  induction fuel as [|fuel IH]; intros n r x Hr Hn Hx Hf.
  - change (2 ^ Z.of_nat 0) with 1 in Hf. replace x with r by lia. apply newton_fix; auto.
  - destruct (Z.eq_dec x r) as [->|Hne]; [apply newton_fix; auto|].
    destruct (newton_step n r x Hr Hn ltac:(lia)) as [S1 S2]. cbn [newton_iteration].
    set (x1 := Z.shiftr (Z.quot n x + x) 1) in *.
    destruct (Z.eqb_spec x x1); [lia|]. destruct (Z.eqb_spec x (x1 - 1)); [lia|]. cbn [orb].
    apply IH; auto. rewrite Nat2Z.inj_succ, Z.pow_succ_r in Hf by lia. lia.
Qed.

Lemma sdk_sqrt_exact n : 0 <= n -> n <> 4 -> sdk_sqrt n = Ok (Z.sqrt n).
Proof.
  intros Hn H4. unfold sdk_sqrt. destruct (Z.ltb_spec n 0); [lia|].
  destruct (Z.ltb_spec n 2) as [H2|H2].
  { destruct (Z.eq_dec n 0) as [->|]; [reflexivity|]. replace n with 1 by lia. reflexivity. }
  pose proof (Z.sqrt_spec n Hn) as S. unfold Z.succ in S. set (r := Z.sqrt n) in *.
  destruct (Z.le_gt_cases n 3) as [H3|H3].
  { assert (E : r = 1) by (pose proof (Z.sqrt_nonneg n) as R0; fold r in R0; nia). rewrite E. apply newton_fix; lia. }
  assert (Hr : 2 <= r) by (pose proof (Z.sqrt_nonneg n) as R0; fold r in R0; nia).
  cbn [newton_iteration]. rewrite Z.quot_1_r. rewrite Z.shiftr_div_pow2 by lia. change (2 ^ 1) with 2.
  pose proof (Z.div_mod (n + 1) 2 ltac:(lia)) as D. pose proof (Z.mod_pos_bound (n + 1) 2 ltac:(lia)) as B.
  set (x1 := (n + 1) / 2) in *.
  destruct (Z.eqb_spec 1 x1); [lia|]. destruct (Z.eqb_spec 1 (x1 - 1)); [lia|]. cbn [orb].
  apply newton_from; [lia|auto|nia|].
  pose proof (Z.log2_spec n ltac:(lia)) as L. unfold Z.succ in L. rewrite Z.pow_add_r in L by (auto using Z.log2_nonneg; lia).
  rewrite Z2Nat.id by apply Z.log2_nonneg. lia.
Qed.

Lemma sqrt_scale n k : 0 <= n -> 0 < k -> Z.sqrt (n * (k * k)) / k = Z.sqrt n.
Proof.
  intros Hn Hk. pose proof (Z.sqrt_spec n Hn) as S. unfold Z.succ in S.
  pose proof (Z.sqrt_spec (n * (k * k)) ltac:(nia)) as T. unfold Z.succ in T.
  pose proof (Z.sqrt_nonneg n). pose proof (Z.sqrt_nonneg (n * (k * k))).
  set (r := Z.sqrt n) in *. set (q := Z.sqrt (n * (k * k))) in *.
  symmetry. apply Z.div_unique with (q - k * r); [|lia].
  assert (k * r < q + 1) by (apply Z.square_lt_simpl_nonneg; nia).
  assert (q < k * (r + 1)) by (apply Z.square_lt_simpl_nonneg; nia). lia.
Qed.

(** ** Prices after slippage *)

Definition slip (s : Z) (up : bool) : Z := 10 ^ 12 + (if up then s else - s).

Lemma after_slippage_eq p s up : 0 <= p -> 0 < s <= 10 ^ 12 ->
  sqrt_price_after_slippage p s up = Ok (Z.sqrt (p * p / 10 ^ 24 * slip s up * 10 ^ 12)).
Proof.
  intros Hp Hs. unfold sqrt_price_after_slippage. destruct (Z.eqb_spec s 0); [lia|].
  unfold sqrt_price_to_price, price_to_sqrt_price. change SQRT_PRICE_ONE with (10 ^ 24). change PERCENTAGE_ONE with (10 ^ 12).
  rewrite Z.quot_div_nonneg by nia. fold (slip s up). set (P := p * p / 10 ^ 24).
  assert (HP : 0 <= P) by (apply Z.div_pos; nia).
  assert (Hm : 0 <= slip s up) by (unfold slip; destruct up; lia).
  assert (HN : 0 <= P * slip s up * 10 ^ 12) by nia.
  assert (E : P * slip s up * 10 ^ 12 * 10 ^ 24 = P * slip s up * 10 ^ 12 * (10 ^ 12 * 10 ^ 12)) by ring.
  rewrite sdk_sqrt_exact; [|nia|].
  - cbn [bind]. rewrite Z.quot_div_nonneg by (auto using Z.sqrt_nonneg; lia). rewrite E, sqrt_scale by (auto; lia). reflexivity.
  - generalize (P * slip s up * 10 ^ 12). intros v. lia.
Qed.

(** The result, by its square. *)
Lemma after_slippage_spec p s up : price_in_range p -> 0 <= s <= 10 ^ 12 ->
  exists r, sqrt_price_after_slippage p s up = Ok r /\ 0 <= r < 2 ^ 128 /\
    r * r * 10 ^ 12 <= p * p * slip s up /\ (p * p - 10 ^ 24) * slip s up < (r + 1) * (r + 1) * 10 ^ 12 /\
    (0 < s -> if up then p + 10 ^ 6 < r else r < p - 10 ^ 6).
Proof.
  intros Hp Hs. unfold price_in_range in Hp.
  destruct (Z.eq_dec s 0) as [->|Hs0].
  { exists p. unfold slip. destruct up; (split; [reflexivity|]); (split; [lia|]); (split; [lia|]); (split; [nia|lia]). }
  rewrite after_slippage_eq by lia. eexists. split; [reflexivity|].
  set (P := p * p / 10 ^ 24).
  assert (HP : P * 10 ^ 24 <= p * p < (P + 1) * 10 ^ 24).
  { pose proof (Z.div_mod (p * p) (10 ^ 24) ltac:(lia)) as D. pose proof (Z.mod_pos_bound (p * p) (10 ^ 24) ltac:(lia)) as B.
    fold P in D. lia. }
  assert (Hm : 0 <= slip s up <= 2 * 10 ^ 12) by (unfold slip; destruct up; lia).
  assert (P0 : 0 <= P) by (apply Z.div_pos; nia).
  assert (HN : 0 <= P * slip s up * 10 ^ 12) by (apply Z.mul_nonneg_nonneg; [apply Z.mul_nonneg_nonneg; lia|lia]).
  pose proof (Z.sqrt_spec _ HN) as S. unfold Z.succ in S. pose proof (Z.sqrt_nonneg (P * slip s up * 10 ^ 12)) as R0.
  set (r := Z.sqrt (P * slip s up * 10 ^ 12)) in *.
  assert (U : r * r * 10 ^ 12 <= p * p * slip s up).
  { assert (P * 10 ^ 24 * slip s up <= p * p * slip s up) by (apply Z.mul_le_mono_nonneg_r; lia). lia. }
  assert (V : (p * p - 10 ^ 24) * slip s up < (r + 1) * (r + 1) * 10 ^ 12).
  { assert ((p * p - 10 ^ 24) * slip s up <= P * 10 ^ 24 * slip s up) by (apply Z.mul_le_mono_nonneg_r; lia). lia. }
  split; [|split; [exact U|split; [exact V|]]].
  - split; [auto|]. apply Z.square_lt_simpl_nonneg; [lia|]. assert (p * p * slip s up <= p * p * (2 * 10 ^ 12)) by (apply Z.mul_le_mono_nonneg_l; nia).
    assert (p * p <= 65535383934512647000000000000 * 65535383934512647000000000000) by (apply Z.mul_le_mono_nonneg; lia). lia.
  - intros Hs1. assert (Q : 15258932000000000000 * p <= p * p) by (apply Z.mul_le_mono_nonneg_r; lia).
    unfold slip in *. destruct up.
    + assert ((p + 10 ^ 6 + 1) < r + 1); [|lia]. apply Z.square_lt_simpl_nonneg; [lia|].
      assert (p * p * 1 <= p * p * s) by (apply Z.mul_le_mono_nonneg_l; nia). lia.
    + apply Z.square_lt_simpl_nonneg; [lia|].
      assert (p * p * 1 <= p * p * s) by (apply Z.mul_le_mono_nonneg_l; nia). lia.
Qed.
