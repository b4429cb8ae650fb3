(** Amounts that the liquidity of the curve can take (proofs for C58). *)
From Verif Require Import Base SqrtPriceM LogM ClammM Types StateM SpecMath SpecFees SpecSum SpecState SpecPath SpecOutcome Arith P_Path.
From stdpp Require Import gmap list.
From Coq Require Import ZArith Lia Bool.
Open Scope Z_scope.

Section Capacity.
  Context (s : state) (k : pool_key) (bi : bool) (rate Lmin : Z) (HL : 0 < Lmin).

  (** Towards higher prices: the input covers the curve. *)
  Lemma input_up lo hi segs : forall p q, connected p segs q -> Forall (on_curve s k false bi rate) segs -> lo <= p -> q <= hi ->
    (forall x, lo - 1 <= x <= hi -> Lmin <= curve s k x) ->
    p <= q /\ Lmin * (q - p) <= sumZ (fun g => g_in g + g_fee g + g_left g) segs * 10 ^ 29 /\
    forall g, last segs = Some g -> Lmin <= g_liquidity g.
  Proof using HL.
    induction segs as [|g segs IH]; intros p q HC HF Hp Hq Hc; cbn [connected] in HC.
    - subst. split; [lia|]. split; [cbn; lia|]. discriminate.
    - destruct HC as [Hfrom HC]. inversion HF as [|? ? G HF']; subst.
      pose proof (oc_direction _ _ _ _ _ _ G) as D. cbn in D.
      destruct (IH _ _ HC HF' ltac:(lia) Hq Hc) as (I1 & I2 & I3).
      assert (LG : Lmin <= g_liquidity g).
      { destruct (oc_start _ _ _ _ _ _ G) as [->| ->]; apply Hc; lia. }
      pose proof (oc_in _ _ _ _ _ _ G) as [_ CI]. unfold y_num, y_den in CI. rewrite Z.abs_neq in CI by lia.
      pose proof (oc_fee _ _ _ _ _ _ G) as [F0 _]. pose proof (oc_left _ _ _ _ _ _ G) as [L0 _].
      assert (Lmin * (g_to g - g_from g) <= g_liquidity g * (g_to g - g_from g)) by (apply Z.mul_le_mono_nonneg_r; lia).
      split; [lia|]. split; [cbn [sumZ map foldr]; unfold sumZ in *; cbn; lia|].
      intros g' Hg'. destruct segs; [cbn in Hg'; injection Hg' as <-; exact LG|]. apply I3. exact Hg'.
  Qed.

  (** Towards lower prices: the output covers the curve, but for one unit on each segment. *)
  Lemma output_down lo hi segs : forall p q, connected p segs q -> Forall (on_curve s k true bi rate) segs ->
    Forall (whole true rate) segs -> p <= hi -> lo <= q ->
    (forall x, lo - 1 <= x <= hi -> Lmin <= curve s k x) ->
    q <= p /\ Lmin * (p - q) <= (sumZ g_out segs + Z.of_nat (length segs)) * 10 ^ 29 /\
    forall g, last segs = Some g -> Lmin <= g_liquidity g.
  Proof using HL.
    induction segs as [|g segs IH]; intros p q HC HF HW Hp Hq Hc; cbn [connected] in HC.
    - subst. split; [lia|]. split; [cbn; lia|]. discriminate.
    - destruct HC as [Hfrom HC]. inversion HF as [|? ? G HF']; subst. inversion HW as [|? ? W HW']; subst.
      pose proof (oc_direction _ _ _ _ _ _ G) as D. cbn in D.
      destruct (IH _ _ HC HF' HW' ltac:(lia) Hq Hc) as (I1 & I2 & I3).
      assert (LG : Lmin <= g_liquidity g).
      { destruct (oc_start _ _ _ _ _ _ G) as [->| ->]; apply Hc; lia. }
      destruct W as (_ & [_ CO] & _). unfold y_num, y_den in CO. rewrite Z.abs_eq in CO by lia.
      assert (Lmin * (g_from g - g_to g) <= g_liquidity g * (g_from g - g_to g)) by (apply Z.mul_le_mono_nonneg_r; lia).
      split; [lia|]. split; [cbn [length]; rewrite Nat2Z.inj_succ; unfold sumZ in *; cbn; lia|].
      intros g' Hg'. destruct segs; [cbn in Hg'; injection Hg' as <-; exact LG|]. apply I3. exact Hg'.
  Qed.

  (** Towards lower prices: the input covers the curve, but for one unit on each segment. *)
  Lemma input_down lo hi segs : forall p q, connected p segs q -> Forall (on_curve s k true bi rate) segs ->
    p <= hi -> lo <= q -> 10 ^ 12 <= lo ->
    (forall x, lo - 1 <= x <= hi -> Lmin <= curve s k x) ->
    q <= p /\ Lmin * 10 ^ 19 * (p - q) <= (sumZ (fun g => g_in g + g_fee g + g_left g) segs + Z.of_nat (length segs)) * (p * q).
  Proof using HL.
    induction segs as [|g segs IH]; intros p q HC HF Hp Hq Hlo Hc; cbn [connected] in HC.
    - subst. split; [lia|]. cbn. lia.
    - destruct HC as [Hfrom HC]. inversion HF as [|? ? G HF']; subst.
      pose proof (oc_direction _ _ _ _ _ _ G) as D. cbn in D.
      destruct (IH _ _ HC HF' ltac:(lia) Hq Hlo Hc) as (I1 & I2). split; [lia|].
      assert (LG : Lmin <= g_liquidity g).
      { destruct (oc_start _ _ _ _ _ _ G) as [->| ->]; apply Hc; lia. }
      pose proof (oc_in _ _ _ _ _ _ G) as (V0 & CI & _). pose proof (oc_fee _ _ _ _ _ _ G) as [F0 _]. pose proof (oc_left _ _ _ _ _ _ G) as [L0 _].
      set (f := g_from g) in *. set (t := g_to g) in *. set (v := g_in g) in *. set (L := g_liquidity g) in *.
      assert (X : L * (f - t) * 10 ^ 19 <= (v + 1) * (f * t)).
      { unfold x_num, x_den in CI. rewrite Z.abs_eq in CI by lia.
        assert (Hw : 1 <= f * t / 10 ^ 24).
        { apply Z.div_le_lower_bound; [lia|]. assert (10 ^ 12 * 10 ^ 12 <= f * t) by (apply Z.mul_le_mono_nonneg; lia). lia. }
        set (w := f * t / 10 ^ 24) in *. set (num := L * (f - t) * 10 ^ 19) in *. set (den := f * t) in *.
        assert (Hden : 0 < den) by (unfold den; apply Z.mul_pos_pos; lia).
        destruct (Z.le_gt_cases num ((v + 1) * den)) as [|Hgt]; [auto|exfalso].
        assert ((v + 1) * den * w <= num * w) by (apply Z.mul_le_mono_nonneg_r; lia).
        assert (den * 1 <= den * w) by (apply Z.mul_le_mono_nonneg_l; lia).
        lia. }
      assert (X' : Lmin * (f - t) * 10 ^ 19 <= (v + 1) * (f * t)).
      { eapply Z.le_trans; [|exact X]. apply Z.mul_le_mono_nonneg_r; [lia|]. apply Z.mul_le_mono_nonneg_r; lia. }
      set (S := sumZ (fun g => g_in g + g_fee g + g_left g) segs) in *. set (n := Z.of_nat (length segs)) in *.
      replace (sumZ (fun g0 => g_in g0 + g_fee g0 + g_left g0) (g :: segs) + Z.of_nat (length (g :: segs)))
        with (v + g_fee g + g_left g + S + n + 1) by (cbn [length]; rewrite Nat2Z.inj_succ; unfold S, n, v, sumZ; cbn; lia).
      assert (Y : Lmin * 10 ^ 19 * (f - q) * t <= (v + 1 + (S + n)) * (f * q) * t).
      { assert (A1 : Lmin * (f - t) * 10 ^ 19 * q <= (v + 1) * (f * t) * q) by (apply Z.mul_le_mono_nonneg_r; lia).
        assert (A2 : Lmin * 10 ^ 19 * (t - q) * f <= (S + n) * (t * q) * f) by (apply Z.mul_le_mono_nonneg_r; lia).
        replace (Lmin * 10 ^ 19 * (f - q) * t) with (Lmin * (f - t) * 10 ^ 19 * q + Lmin * 10 ^ 19 * (t - q) * f) by ring.
        replace ((v + 1 + (S + n)) * (f * q) * t) with ((v + 1) * (f * t) * q + (S + n) * (t * q) * f) by ring. lia. }
      apply (Z.mul_le_mono_pos_r _ _ t) in Y; [|lia]. eapply Z.le_trans; [exact Y|].
      apply Z.mul_le_mono_nonneg_r; [apply Z.mul_nonneg_nonneg; lia|lia].
  Qed.

  Lemma used_nonneg segs : Forall (on_curve s k true bi rate) segs ->
    0 <= sumZ (fun g => g_in g + g_fee g + g_left g) segs.
  Proof using.
    clear HL. intros HF. induction segs as [|g segs IH]; [cbn; lia|]. inversion HF as [|? ? G HF']; subst.
    pose proof (oc_fee _ _ _ _ _ _ G) as [F0 _]. pose proof (oc_left _ _ _ _ _ _ G) as [L0 _]. pose proof (oc_in _ _ _ _ _ _ G) as [V _].
    specialize (IH HF'). unfold sumZ in *. cbn. lia.
  Qed.
End Capacity.

(** The outcomes that remain if neither the limit nor the end is reached. *)
Lemma explained_ok {A} s k d bi p a lim (r : res A) : explained s k d bi p a lim r ->
  a <> 0 -> (if d then lim < p_sqrt_price p /\ lim <= 65535383934512647000000000000 else p_sqrt_price p < lim /\ 15258932000000000000 <= lim) ->
  (forall segs used paid, reaches s k d bi p lim lim used paid segs -> Forall (whole d (ft_fee (pk_fee_tier k))) segs -> left_of bi a used paid <= 0) ->
  (forall segs q used paid, reaches s k d bi p lim q used paid segs -> ~ past_end d (pk_spacing k) q) ->
  (exists x, r = Ok x) \/ (bi = true /\ r = Err NoGainSwap) \/ r = Panic.
Proof.
  intros HX Ha HL HP HT. destruct r as [x|e| |]; [left; eauto| |right; right; reflexivity|destruct HX].
  destruct e; try (exfalso; exact HX); cbn [explained] in HX.
  all: try (exfalso; congruence).
  all: try (exfalso; destruct d; lia).
  all: try (right; left; split; [apply HX|reflexivity]).
  - exfalso. destruct HX as (segs & used & paid & R & W & Hl). specialize (HP _ _ _ R W). lia.
  - exfalso. destruct HX as (segs & q & used & paid & R & _ & HE). exact (HT _ _ _ _ R HE).
Qed.
