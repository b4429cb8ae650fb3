(** Tick validity checks. *)
From Verif Require Import Base Decimal SqrtPriceM ClammM Arith SpecMath P_Clamm P_TickPrice P_Tickmap.
From Coq Require Import ZArith Lia Bool.
Open Scope Z_scope.

Lemma check_tick_inv t s : 1 <= s -> check_tick t s = Ok tt -> okt s t.
Proof.
  intros Hs. unfold check_tick, get_min_tick, get_max_tick, i32_div, i32_rem.
  rewrite (proj2 (Z.eqb_neq s 0)) by lia. cbn [bind]. intros H. apply bind_Ok in H as (u & H1 & H).
  apply fail_if_Ok, negb_false_iff, Z.eqb_eq in H1. apply fail_if_Ok, orb_false_iff in H as [H2 H3].
  apply Z.ltb_ge in H2, H3. apply Z.rem_divide in H1; [|lia]. split; [|exact H1].
  unfold MAX_TICK, MIN_TICK, valid_tick in *.
  pose proof (Z.quot_rem' 221818 s). pose proof (Z.rem_bound_pos 221818 s ltac:(lia) ltac:(lia)).
  change (-221818) with (- (221818)) in H3. rewrite Z.quot_opp_l in H3 by lia. nia.
Qed.

Lemma check_tick_ok t s : 1 <= s -> okt s t -> check_tick t s = Ok tt.
Proof.
  intros Hs [Hv Hd]. unfold check_tick, get_min_tick, get_max_tick, i32_div, i32_rem.
  rewrite (proj2 (Z.eqb_neq s 0)) by lia. cbn [bind].
  rewrite (proj2 (Z.rem_divide t s ltac:(lia)) Hd). cbn [Z.eqb negb fail_if bind].
  destruct Hd as [q ->]. unfold MAX_TICK, MIN_TICK, valid_tick in *.
  change (-221818) with (- (221818)). rewrite Z.quot_opp_l by lia.
  assert (- (221818 ÷ s) <= q <= 221818 ÷ s).
  { rewrite Z.quot_div_nonneg by lia. split.
    - assert (- q <= 221818 / s); [|lia]. apply Z.div_le_lower_bound; lia.
    - apply Z.div_le_lower_bound; lia. }
  destruct (Z.ltb_spec (221818 ÷ s * s) (q * s)); [nia|].
  destruct (Z.ltb_spec (q * s) (- (221818 ÷ s) * s)); [nia|]. reflexivity.
Qed.

Lemma relationship_inv t s p : 1 <= s <= 100 -> okt s t ->
  check_tick_to_sqrt_price_relationship t s p = Ok true ->
  price t <= p /\ (valid_tick (t + s) -> p < price (t + s)) /\ (~ valid_tick (t + s) -> p = price t).
Proof.
  intros Hs [Hv Hd]. unfold check_tick_to_sqrt_price_relationship. unfold valid_tick in Hv.
  unfold checked_add. destruct (Z.ltb_spec (t + s) (i32_max + 1)) as [_|Hx]; [|unfold i32_max in Hx; lia].
  cbn [expect bind]. destruct (Z.ltb_spec MAX_TICK (t + s)) as [Hm|Hm]; unfold MAX_TICK in Hm.
  - unfold get_max_tick, i32_div. rewrite (proj2 (Z.eqb_neq s 0)) by lia. cbn [bind].
    assert (E : MAX_TICK ÷ s * s = t).
    { unfold MAX_TICK. rewrite Z.quot_div_nonneg by lia. destruct Hd as [q ->].
      f_equal. symmetry. apply Z.div_unique with (221818 - q * s); lia. }
    rewrite E. rewrite calculate_sqrt_price_valid by (unfold valid_tick; lia). cbn [bind].
    intros [= H]. apply Z.eqb_eq in H. subst p. split; [lia|]. split; [unfold valid_tick; lia|auto].
  - rewrite !calculate_sqrt_price_valid by (unfold valid_tick; lia). cbn [bind].
    intros [= H]. apply negb_true_iff, orb_false_iff in H as [H1 H2].
    apply Z.leb_gt in H1. apply Z.ltb_ge in H2. split; [lia|]. split; [lia|]. unfold valid_tick. lia.
Qed.
