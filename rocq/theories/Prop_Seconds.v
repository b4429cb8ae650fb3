(** * C66 – seconds per unit of liquidity *)
From Verif Require Import Base SecondsM SpecMath.
From Coq Require Import ZArith Lia Bool.
Open Scope Z_scope.

(** Addition and subtraction are arithmetic modulo 2^128. *)
Theorem C66_modular a b : u128 a -> u128 b ->
  spl_unchecked_add a b = (a + b) mod 2 ^ 128 /\ spl_unchecked_sub a b = (a - b) mod 2 ^ 128 /\
  spl_unchecked_sub (spl_unchecked_add a b) b = a /\ spl_unchecked_add (spl_unchecked_sub a b) b = a.
Proof.
  unfold u128. intros Ha Hb. unfold spl_unchecked_add, spl_unchecked_sub, SPL_MAX. change M128 with (2 ^ 128). set (M := 2 ^ 128) in *.
  assert (HM : 0 < M) by reflexivity. clearbody M.
  assert (W : forall x k, 0 <= x < M -> (x + k * M) mod M = x) by (intros x k Hx; rewrite Z.mod_add by lia; apply Z.mod_small; auto).
  repeat apply conj.
  - destruct (Z.ltb_spec (M - 1 - a) b); symmetry.
    + replace (a + b) with ((b - (M - 1 - a) - 1) + 1 * M) by lia. apply W. lia.
    + apply Z.mod_small. lia.
  - destruct (Z.ltb_spec a b); symmetry.
    + replace (a - b) with ((M - 1 - (b - a) + 1) + (-1) * M) by lia. apply W. lia.
    + apply Z.mod_small. lia.
  - destruct (Z.ltb_spec (M - 1 - a) b); match goal with |- context [?x <? ?y] => destruct (Z.ltb_spec x y) end; lia.
  - destruct (Z.ltb_spec a b); match goal with |- context [?x <? ?y] => destruct (Z.ltb_spec x y) end; lia.
Qed.

(** The growth over an interval is the elapsed time divided by the liquidity, rounded
    down; it is refused if no time has passed, without liquidity, and if the time times
    10^30 does not fit into 128 bits. *)
Theorem C66_global L now last : u256 L -> 0 <= last < 2 ^ 64 -> 0 <= now < 2 ^ 64 ->
  (last < now /\ 0 < L /\ (now - last) * 10 ^ 30 < 2 ^ 128 /\
     exists r, spl_global L now last = Ok r /\ u128 r /\ is_floor r ((now - last) * 10 ^ 25 * 10 ^ 5) L) \/
  ((now <= last \/ L = 0 \/ 2 ^ 128 <= (now - last) * 10 ^ 30) /\ spl_global L now last = Err ETrack).
Proof.
  unfold u256, u128, is_floor. intros HL Hl Hn. unfold spl_global, checked_mul, checked_div, checked_cast.
  change M128 with (2 ^ 128). change SPL_ONE with (10 ^ 25). change Decimal.LIQUIDITY_ONE with (10 ^ 5).
  destruct (Z.leb_spec now last); [right; split; [lia|reflexivity]|].
  set (d := now - last) in *. assert (0 < d < 2 ^ 64) by lia. clearbody d.
  destruct (Z.ltb_spec (d * 10 ^ 25) (2 ^ 128)); cbn [ok_or bind]; [|right; split; [lia|reflexivity]].
  destruct (Z.ltb_spec (d * 10 ^ 25 * 10 ^ 5) (2 ^ 128)); cbn [ok_or bind]; [|right; split; [lia|reflexivity]].
  destruct (Z.eqb_spec L 0); cbn [ok_or bind]; [right; split; [lia|reflexivity]|].
  set (q := d * 10 ^ 25 * 10 ^ 5) in *. assert (0 < q) by lia.
  pose proof (Z.mul_div_le q L ltac:(lia)). pose proof (Z.mul_succ_div_gt q L ltac:(lia)).
  assert (0 <= q / L <= q) by (split; [apply Z.div_pos; lia|apply Z.div_le_upper_bound; nia]).
  left. repeat split; try lia. rewrite (proj2 (Z.ltb_lt _ _)) by lia. eexists. split; [reflexivity|]. split; lia.
Qed.

(** An interval of 340282367 seconds (under eleven years) is too long for any liquidity. *)
Theorem C66_global_refuted : ~ (forall L now last, u256 L -> 0 <= last < 2 ^ 64 -> 0 <= now < 2 ^ 64 -> last < now -> 0 < L ->
  exists r, spl_global L now last = Ok r).
Proof.
  intros H. destruct (H (2 ^ 255) 340282367 0) as [r E]; [split; [discriminate|reflexivity]|lia|lia|lia|reflexivity|]. vm_compute in E. discriminate E.
Qed.

Lemma sub_mod a b : u128 a -> u128 b -> spl_unchecked_sub a b = (a - b) mod 2 ^ 128.
Proof. intros. apply C66_modular; auto. Qed.
Lemma add_mod a b : u128 a -> u128 b -> spl_unchecked_add a b = (a + b) mod 2 ^ 128.
Proof. intros. apply C66_modular; auto. Qed.
Lemma mod_u128 a : u128 (a mod 2 ^ 128).
Proof. unfold u128. apply Z.mod_pos_bound. reflexivity. Qed.

(** What is inside a range: the total less what is below and above it. *)
Lemma inside_eq lo up cur ol ou g : u128 ol -> u128 ou -> u128 g -> spl_inside lo up cur ol ou g =
  (g - (if lo <=? cur then ol else g - ol) - (if cur <? up then ou else g - ou)) mod 2 ^ 128.
Proof.
  intros Hl Hu Hg. unfold spl_inside.
  assert (B : u128 (if lo <=? cur then ol else spl_unchecked_sub g ol)) by (destruct (lo <=? cur); [auto|rewrite sub_mod by auto; apply mod_u128]).
  assert (A : u128 (if cur <? up then ou else spl_unchecked_sub g ou)) by (destruct (cur <? up); [auto|rewrite sub_mod by auto; apply mod_u128]).
  cbv zeta. rewrite (sub_mod g) by auto. rewrite sub_mod by (first [apply mod_u128|exact A]). rewrite Zminus_mod_idemp_l.
  destruct (lo <=? cur), (cur <? up); rewrite ?(sub_mod g) by auto.
  - reflexivity.
  - rewrite Zminus_mod_idemp_r. reflexivity.
  - rewrite Zminus_mod, (Zminus_mod_idemp_r g), <- Zminus_mod. reflexivity.
  - rewrite Zminus_mod_idemp_r. rewrite Zminus_mod, (Zminus_mod_idemp_r g), <- Zminus_mod. reflexivity.
Qed.

(** Time counts for a range exactly while the current tick is in it. *)
Theorem C66_inside_grows lo up cur ol ou g x : u128 ol -> u128 ou -> u128 g -> u128 x -> lo < up ->
  spl_inside lo up cur ol ou (spl_unchecked_add g x) =
  if (lo <=? cur) && (cur <? up) then spl_unchecked_add (spl_inside lo up cur ol ou g) x else spl_inside lo up cur ol ou g.
Proof.
  intros Hl Hu Hg Hx Hr.
  assert (Ga : u128 (spl_unchecked_add g x)) by (rewrite add_mod by auto; apply mod_u128).
  rewrite !inside_eq by auto. rewrite (add_mod g) by auto.
  destruct (Z.leb_spec lo cur), (Z.ltb_spec cur up); cbn [andb].
  - rewrite add_mod by (first [exact Hx|apply mod_u128]). rewrite Zplus_mod_idemp_l.
    replace ((g + x) mod 2 ^ 128 - ol - ou) with ((g + x) mod 2 ^ 128 - (ol + ou)) by lia. rewrite Zminus_mod_idemp_l. f_equal. lia.
  - f_equal. lia.
  - f_equal. lia.
  - lia.
Qed.

(** Crossing a boundary – the current tick moves over it and the boundary's record is
    taken from the total – leaves what is inside unchanged: nothing is counted or lost by
    a move of the price. *)
Theorem C66_crossing lo up cur cur' ol ou g : u128 ol -> u128 ou -> u128 g -> lo < up ->
  spl_inside lo up cur' (if Bool.eqb (lo <=? cur) (lo <=? cur') then ol else spl_unchecked_sub g ol)
                        (if Bool.eqb (up <=? cur) (up <=? cur') then ou else spl_unchecked_sub g ou) g =
  spl_inside lo up cur ol ou g.
Proof.
  intros Hl Hu Hg Hr. rewrite !(sub_mod g) by auto.
  rewrite !inside_eq by (auto; match goal with |- u128 (if ?b then _ else _) => destruct b; auto using mod_u128 end).
  assert (R : forall a b k, a mod 2 ^ 128 = b mod 2 ^ 128 -> (a + k) mod 2 ^ 128 = (b + k) mod 2 ^ 128).
  { intros a b k E. rewrite <- Zplus_mod_idemp_l, E. apply Zplus_mod_idemp_l. }
  assert (Q : forall a b, exists k, a mod 2 ^ 128 = a + b * 0 + k * 2 ^ 128).
  { intros a b. exists (- (a / 2 ^ 128)). pose proof (Z.div_mod a (2 ^ 128) ltac:(discriminate)). lia. }
  assert (K : forall a b k, a = b + k * 2 ^ 128 -> a mod 2 ^ 128 = b mod 2 ^ 128).
  { intros a b k ->. apply Z.mod_add. discriminate. }
  destruct (Q (g - ol) 0) as [k1 E1]. destruct (Q (g - ou) 0) as [k2 E2]. rewrite E1, E2. clear E1 E2 R Q.
  destruct (Z.leb_spec lo cur), (Z.leb_spec lo cur'), (Z.leb_spec up cur), (Z.leb_spec up cur'), (Z.ltb_spec cur up), (Z.ltb_spec cur' up);
    try lia; cbn [Bool.eqb];
    first [apply (K _ _ 0); lia | apply (K _ _ k1); lia | apply (K _ _ (- k1)); lia | apply (K _ _ k2); lia | apply (K _ _ (- k2)); lia
          | apply (K _ _ (k1 + k2)); lia | apply (K _ _ (k1 - k2)); lia | apply (K _ _ (k2 - k1)); lia | apply (K _ _ (- k1 - k2)); lia].
Qed.

(** Two adjacent ranges together count what the range made of both counts. *)
Theorem C66_inside_adds lo mid up cur ol om ou g : u128 ol -> u128 om -> u128 ou -> u128 g -> lo < mid < up ->
  spl_unchecked_add (spl_inside lo mid cur ol om g) (spl_inside mid up cur om ou g) = spl_inside lo up cur ol ou g.
Proof.
  intros Hl Hm Hu Hg Hr. rewrite !inside_eq by auto. rewrite add_mod by apply mod_u128. rewrite <- Zplus_mod. f_equal.
  destruct (Z.leb_spec lo cur), (Z.leb_spec mid cur), (Z.ltb_spec cur mid), (Z.ltb_spec cur up); lia.
Qed.

(** One minute with a liquidity of 1 counts 60; a range around the price sees it. *)
Example C66_case : spl_global (10 ^ 5) 160 100 = Ok (60 * 10 ^ 25) /\
  spl_inside (-10) 10 0 7 5 (60 * 10 ^ 25) = 60 * 10 ^ 25 - 12 /\ spl_inside 10 20 0 7 5 100 = 2 /\
  spl_unchecked_add (2 ^ 128 - 1) 3 = 2 /\ spl_global (10 ^ 5) 100 100 = Err ETrack.
Proof. vm_compute. repeat split. Qed.

(** ** Assumptions *)
Print Assumptions C66_modular.
Print Assumptions C66_global.
Print Assumptions C66_global_refuted.
Print Assumptions C66_inside_grows.
Print Assumptions C66_crossing.
Print Assumptions C66_inside_adds.
