(** What opening a position costs, in terms of prices only. *)
From Verif Require Import Base Decimal SqrtPriceM LogM ClammM FeeGrowthM Types TickmapM StorageM
  CollectionsM StateM ServiceM LiquidityM Arith SpecMath SpecSum SpecState SpecHistory
  P_Clamm P_Delta P_TickPrice P_Balance P_Effects P_Tickmap P_Check P_State P_Inv P_InvPos P_PosOps P_Liq.
From stdpp Require Import gmap list.
From Coq Require Import ZArith Lia Bool.
Open Scope Z_scope.

Lemma cdiv_zero d : 0 < d -> cdiv 0 d = 0.
Proof. intros. apply cdiv_unique; lia. Qed.

Lemma dx_nom_self a L : dx_nom a a L = 0.
Proof. unfold dx_nom. rewrite Z.sub_diag. reflexivity. Qed.

Lemma next_multiple s a b : 0 < s -> (s | a) -> (s | b) -> a < b -> a + s <= b.
Proof. intros Hs [m ->] [n ->] H. assert (m < n) by nia. nia. Qed.

Section Charge.
  Context (k : pool_key) (p : pool) (PO : pool_ok k p).
  Context (lo up : Z) (Vl : okt (pk_spacing k) lo) (Vu : okt (pk_spacing k) up) (Hlu : lo < up).
  Let c := p_current_tick_index p.
  Let q := p_sqrt_price p.

  Lemma charge_prices L x y i : u256 L ->
    calculate_amount_delta c q L true up lo = Ok (x, y, i) ->
    (q <= price up -> x = cdiv (dx_nom (Z.max (price lo) q) (price up) L) (dx_den (Z.max (price lo) q) (price up))) /\
    (price up <= q -> x = 0) /\
    (price lo <= q -> y = cdiv (Z.abs (price lo - Z.min (price up) q) * L) E29) /\
    (q <= price lo -> y = 0).
  Proof using PO Vl Vu Hlu.
    intros HL H. pose proof (pool_spacing _ _ PO) as Hs.
    destruct Vl as [Vl1 Vl2], Vu as [Vu1 Vu2].
    assert (V1 : valid_tick lo) by (unfold valid_tick; lia). assert (V2 : valid_tick up) by (unfold valid_tick; lia).
    destruct (po_tick _ _ PO) as [C1 C2]. fold c in C1, C2. assert (V3 : valid_tick c) by (unfold valid_tick; lia).
    pose proof (po_lo _ _ PO) as Q1. fold c q in Q1. pose proof (po_up _ _ PO) as Q2. fold c q in Q2.
    pose proof (po_range _ _ PO) as Q3. fold q in Q3.
    pose proof (price_lt _ _ V1 V2 Hlu) as PL.
    pose proof (range_wide _ (price_range _ V1)) as W1. pose proof (range_wide _ (price_range _ V2)) as W2.
    pose proof (range_wide _ Q3) as W3.
    pose proof (price_range _ V1) as R1. pose proof (price_range _ V2) as R2.
    assert (U : forall v, price_in_range v -> u128 v) by (intros v Hv; apply wide_u128, range_wide; auto).
    unfold calculate_amount_delta in H.
    destruct (Z.ltb_spec up lo); [lia|]. rewrite !calculate_sqrt_price_valid in H by auto. cbn [bind] in H.
    destruct (Z.ltb_spec c lo) as [G1|G1].
    - step H dx E. injection H as <- <- _.
      assert (Hq : q <= price lo).
      { assert (c + pk_spacing k <= lo).
        { apply next_multiple; auto; lia. }
        assert (valid_tick (c + pk_spacing k)) by (unfold valid_tick; lia).
        eapply Z.le_trans; [apply Q2; auto|]. apply price_le; auto. }
      apply get_delta_x_up_inv in E as [E _]; auto.
      rewrite Z.max_l by lia. split; [intros _; exact E|]. split; [lia|]. split; [|auto].
      intros Hq2. rewrite Z.min_r by lia. replace (price lo - q) with 0 by lia. symmetry. apply cdiv_zero. reflexivity.
    - destruct (Z.ltb_spec c up) as [G2|G2].
      + step H dx E. step H dy F. injection H as <- <- _.
        assert (Hq : price lo <= q) by (eapply Z.le_trans; [apply price_le; [| |exact G1]; auto|auto]).
        assert (Hq' : q <= price up).
        { assert (c + pk_spacing k <= up).
          { apply next_multiple; auto; lia. }
          assert (valid_tick (c + pk_spacing k)) by (unfold valid_tick; lia).
          eapply Z.le_trans; [apply Q2; auto|]. apply price_le; auto. }
        apply get_delta_x_up_inv in E as [E ED]; auto.
        rewrite get_delta_y_up_ok in F by auto. injection F as F.
        rewrite Z.max_r, Z.min_r by lia. split; [intros _; exact E|]. split.
        { intros Hu. replace q with (price up) in * by lia. rewrite E, dx_nom_self. apply cdiv_zero. auto. }
        split; [auto|]. intros Hq2. rewrite <- F. replace (price lo - q) with 0 by lia. apply cdiv_zero. reflexivity.
      + step H dy F. injection H as <- <- _.
        assert (Hq : price up <= q) by (eapply Z.le_trans; [apply price_le; [| |exact G2]; auto|auto]).
        rewrite get_delta_y_up_ok in F by auto. injection F as F.
        split.
        { intros Hq2. rewrite Z.max_r by lia. replace q with (price up) by lia. rewrite dx_nom_self. symmetry. apply cdiv_zero.
          pose proof (dx_den_pos (price up) (price up) W2 W2). lia. }
        split; [auto|]. rewrite Z.min_l by lia. split; [auto|lia].
  Qed.
End Charge.
