(** Integer division facts: floors, ceilings, nested divisions. *)
From Coq Require Import ZArith Lia.
Open Scope Z_scope.

(** Ceiling division (d > 0). *)
Definition cdiv (n d : Z) : Z := (n + (d - 1)) / d.

Lemma div_bounds n d : 0 < d -> d * (n / d) <= n < d * (n / d) + d.
Proof. intros. pose proof (Z.mul_div_le n d). pose proof (Z.mul_succ_div_gt n d). lia. Qed.

Lemma cdiv_bounds n d : 0 < d -> d * cdiv n d - d < n <= d * cdiv n d.
Proof. intros. unfold cdiv. pose proof (div_bounds (n + (d - 1)) d). lia. Qed.

Lemma div_le_lower n d q : 0 < d -> d * q <= n -> q <= n / d.
Proof. intros. apply Z.div_le_lower_bound; lia. Qed.
Lemma div_lt_upper n d q : 0 < d -> n < d * q -> n / d < q.
Proof. intros. apply Z.div_lt_upper_bound; lia. Qed.
Lemma div_le_upper n d q : 0 < d -> n <= d * q -> n / d <= q.
Proof. intros. apply Z.div_le_upper_bound; lia. Qed.

Lemma cdiv_le n d q : 0 < d -> n <= d * q -> cdiv n d <= q.
Proof. intros. pose proof (cdiv_bounds n d). nia. Qed.
Lemma cdiv_ge n d q : 0 < d -> d * q < n + d -> q <= cdiv n d.
Proof. intros. pose proof (cdiv_bounds n d). nia. Qed.
Lemma cdiv_unique n d q : 0 < d -> d * q - d < n <= d * q -> cdiv n d = q.
Proof. intros. pose proof (cdiv_bounds n d). nia. Qed.
Lemma div_unique n d q : 0 < d -> d * q <= n < d * q + d -> n / d = q.
Proof. intros. pose proof (div_bounds n d). nia. Qed.

Lemma cdiv_nonneg n d : 0 < d -> 0 <= n -> 0 <= cdiv n d.
Proof. intros. unfold cdiv. apply Z.div_pos; lia. Qed.
Lemma div_nonneg n d : 0 < d -> 0 <= n -> 0 <= n / d.
Proof. intros. apply Z.div_pos; lia. Qed.

Lemma cdiv_mono n m d : 0 < d -> n <= m -> cdiv n d <= cdiv m d.
Proof. intros. unfold cdiv. apply Z.div_le_mono; lia. Qed.

Lemma div_le_cdiv n d : 0 < d -> n / d <= cdiv n d.
Proof. intros. unfold cdiv. apply Z.div_le_mono; lia. Qed.

Lemma div_div n a b : 0 < a -> 0 < b -> n / a / b = n / (a * b).
Proof. intros. apply Z.div_div; lia. Qed.

Lemma cdiv_cdiv n a b : 0 < a -> 0 < b -> cdiv (cdiv n a) b = cdiv n (a * b).
Proof.
  intros. symmetry. apply cdiv_unique. nia.
  pose proof (cdiv_bounds n a). pose proof (cdiv_bounds (cdiv n a) b). nia.
Qed.

(** Scaling a quotient up and down again does not change its rounding. *)
Lemma cdiv_scale n d k : 0 < d -> 0 < k -> cdiv (cdiv (n * k) d) k = cdiv n d.
Proof.
  intros. rewrite cdiv_cdiv by lia.
  apply cdiv_unique. nia. pose proof (cdiv_bounds n d). nia.
Qed.
Lemma div_scale n d k : 0 < d -> 0 < k -> n * k / d / k = n / d.
Proof.
  intros. rewrite div_div by lia. apply Z.div_mul_cancel_r; lia.
Qed.

Lemma cdiv_eq_div n d : 0 < d -> (n + (d - 1)) / d = cdiv n d.
Proof. reflexivity. Qed.
