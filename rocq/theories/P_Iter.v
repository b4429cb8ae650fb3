(** One iteration of the swap loop, taken apart. *)
From Verif Require Import Base Decimal SqrtPriceM LogM ClammM FeeGrowthM Types TickmapM StorageM
  CollectionsM StateM ServiceM P_Clamm P_Effects P_Loop.
From stdpp Require Import gmap list.
From Coq Require Import ZArith Lia Bool.
Open Scope Z_scope.

Lemma dec_add_inv M a b c : dec_add M a b = Ok c -> c = a + b /\ c < M.
Proof. unfold dec_add. intros H. apply expect_Ok, checked_add_Some in H as [-> ?]. auto. Qed.
Lemma dec_sub_inv a b c : dec_sub a b = Ok c -> c = a - b /\ b <= a.
Proof. unfold dec_sub. intros H. apply expect_Ok, checked_sub_Some in H as [-> ?]. auto. Qed.

Definition crossed (t : tick) (p : pool) (ts : Z) : tick :=
  mkTick (t_index t) (t_sign t) (t_liquidity_change t) (t_liquidity_gross t) (t_sqrt_price t)
    (unchecked_sub (p_fee_growth_global_x p) (t_fee_growth_outside_x t))
    (unchecked_sub (p_fee_growth_global_y p) (t_fee_growth_outside_y t))
    ((ts - p_start_timestamp p - t_seconds_outside t) mod M64).

Definition cross_liquidity (t : tick) (p : pool) : Z :=
  if t_index t <=? p_current_tick_index p then p_liquidity p - t_net t else p_liquidity p + t_net t.

Lemma tick_cross_inv t p ts t' p' : tick_cross t p ts = Ok (t', p') ->
  0 <= t_liquidity_change t -> 0 <= p_liquidity p < M256 ->
  t' = crossed t p ts /\ p_start_timestamp p <= ts /\
  p' = set_liquidity (cross_liquidity t p) (set_last_timestamp ts p) /\
  0 <= cross_liquidity t p < M256.
Proof.
  unfold tick_cross. intros H Hc Hl. apply bind_Ok in H as (v & E & H).
  apply ok_or_Ok, checked_sub_Some in E as [-> E].
  unfold crossed, cross_liquidity, t_net. cbn [set_last_timestamp p_current_tick_index p_liquidity] in H.
  destruct (t_index t <=? p_current_tick_index p), (t_sign t); cbn [xorb] in H;
    apply bind_Ok in H as (l & El & H); injection H as <- <-;
    unfold dec_checked_add, dec_checked_sub in El; apply ok_or_Ok in El;
    first [apply checked_add_Some in El as [-> El] | apply checked_sub_Some in El as [-> El]];
    (split; [reflexivity|]); (split; [exact E|]); (split; [f_equal; lia|lia]).
Qed.

Lemma swap_iteration_inv s k d bi lim tl ts l l' :
  swap_iteration s k d bi lim tl ts l = Ok l' ->
  exists target lt r p1,
    get_closer_limit (s_bitmap s) lim d (p_current_tick_index (l_pool l)) (pk_spacing k) k = Ok (target, lt) /\
    compute_swap_step (p_sqrt_price (l_pool l)) target (p_liquidity (l_pool l)) (l_remaining l) bi (pk_fee k) = Ok r /\
    sr_amount_in r + sr_fee_amount r < M256 /\
    let rem1 := l_remaining l - (if bi then sr_amount_in r + sr_fee_amount r else sr_amount_out r) in
    let p2 := set_sqrt_price (sr_next_sqrt_price r) p1 in
    0 <= rem1 /\
    pool_add_fee (l_pool l) (sr_fee_amount r) d (s_protocol_fee s) = Ok p1 /\
    l_fee l' = l_fee l + sr_fee_amount r /\ l_fee l' < M256 /\
    l_out l' = l_out l + sr_amount_out r /\ l_out l' < M256 /\
    (sr_next_sqrt_price r = lim -> rem1 = 0) /\
    (if d then tl < p_current_tick_index (l_pool l') else p_current_tick_index (l_pool l') < tl) /\
    l_in l' < M256 /\
    (((lt = None \/ target <> sr_next_sqrt_price r) /\
      (exists c, get_tick_at_sqrt_price (sr_next_sqrt_price r) (pk_spacing k) = Ok c /\
                 l_pool l' = set_current_tick_index c p2) /\
      l_ticks l' = l_ticks l /\ l_remaining l' = rem1 /\
      l_in l' = l_in l + (sr_amount_in r + sr_fee_amount r))
     \/
     (target = sr_next_sqrt_price r /\
      exists i b en, lt = Some (i, b) /\
        is_enough_amount_to_change_price rem1 (sr_next_sqrt_price r) (p_liquidity p2) (pk_fee k) bi d = Ok en /\
        ((b = false /\ l_pool l' = set_current_tick_index (if d && en then i - pk_spacing k else i) p2 /\
          l_ticks l' = l_ticks l /\ l_remaining l' = rem1 /\
          l_in l' = l_in l + (sr_amount_in r + sr_fee_amount r))
         \/
         (b = true /\ exists t, s_ticks s !! (k, i) = Some t /\
           ((negb d || en = true /\ exists t' p3, tick_cross t p2 ts = Ok (t', p3) /\
             l_pool l' = set_current_tick_index (if d && en then t_index t' - pk_spacing k else t_index t') p3 /\
             l_ticks l' = l_ticks l ++ [t'] /\ l_remaining l' = rem1 /\
             l_in l' = l_in l + (sr_amount_in r + sr_fee_amount r))
            \/
            (negb d || en = false /\ l_ticks l' = l_ticks l /\
             exists p3, l_pool l' = set_current_tick_index (t_index t) p3 /\
              ((rem1 <> 0 /\ bi = true /\ pool_add_fee p2 rem1 d (s_protocol_fee s) = Ok p3 /\
                l_remaining l' = 0 /\ l_in l' = l_in l + (sr_amount_in r + sr_fee_amount r) + rem1) \/
               ((rem1 = 0 \/ bi = false) /\ p3 = p2 /\ l_remaining l' = 0 /\
                l_in l' = l_in l + (sr_amount_in r + sr_fee_amount r))))))))).
Proof.
  unfold swap_iteration. intros H.
  apply bind_Ok in H as ([target lt] & E1 & H). apply bind_Ok in H as (r & E2 & H).
  apply unwrap_inv in E2.
  apply bind_Ok in H as (ipf & E3 & H). apply dec_add_inv in E3 as [-> E3].
  apply bind_Ok in H as (rem & E4 & H).
  assert (E4' : rem = l_remaining l - (if bi then sr_amount_in r + sr_fee_amount r else sr_amount_out r) /\ 0 <= rem).
  { destruct bi; apply dec_sub_inv in E4 as [-> ?]; split; lia. }
  destruct E4' as [Erem Hrem]. clear E4.
  apply bind_Ok in H as (p1 & E5 & H). apply unwrap_inv in E5.
  apply bind_Ok in H as (ef & E6 & H). apply dec_add_inv in E6 as [-> E6].
  apply bind_Ok in H as (ti & E7 & H). apply dec_add_inv in E7 as [-> E7].
  apply bind_Ok in H as (tot & E8 & H). apply dec_add_inv in E8 as [-> E8].
  apply bind_Ok in H as (u & E9 & H). apply fail_if_Ok in E9.
  cbn [set_sqrt_price p_sqrt_price] in E9.
  apply bind_Ok in H as (tu & E10 & H).
  apply bind_Ok in H as ([[p3 tk3] [[aa rr] hc]] & E11 & H).
  apply bind_Ok in H as (ti2 & E12 & H). apply dec_add_inv in E12 as [-> E12].
  apply bind_Ok in H as (u2 & E13 & H). apply fail_if_Ok in E13. injection H as <-.
  exists target, lt, r, p1. cbv zeta. cbn [l_pool l_fee l_out l_in l_ticks l_remaining].
  split; [exact E1|]. split; [exact E2|]. split; [exact E3|]. rewrite <- Erem. split; [exact Hrem|].
  split; [exact E5|]. split; [reflexivity|]. split; [exact E6|]. split; [reflexivity|]. split; [exact E8|].
  split.
  { intros En. apply andb_false_iff in E9 as [E9|E9].
    - apply Z.eqb_neq in E9. contradiction.
    - apply negb_false_iff, Z.eqb_eq in E9. exact E9. }
  split.
  { destruct d; apply Z.leb_gt in E13; lia. }
  split; [exact E12|].
  unfold pool_update_tick in E11.
  destruct ((match tu with NoTick => true | _ => false end) || negb (target =? sr_next_sqrt_price r)) eqn:EB.
  - left. apply bind_Ok in E11 as (c & Ec & E11). apply unwrap_inv in Ec. injection E11 as <- <- <- <- <-.
    apply orb_true_iff in EB. split.
    { destruct EB as [EB|EB].
      - left. destruct lt as [[i [|]]|]; [| |reflexivity].
        + apply bind_Ok in E10 as (t & _ & E10). injection E10 as <-. discriminate.
        + injection E10 as <-. discriminate.
      - right. apply negb_true_iff, Z.eqb_neq in EB. exact EB. }
    split; [exists c; split; [exact Ec|reflexivity]|].
    split; [destruct tu; reflexivity|]. split; [reflexivity|]. lia.
  - right. apply orb_false_iff in EB as [EB1 EB2]. apply negb_false_iff, Z.eqb_eq in EB2.
    split; [exact EB2|].
    apply bind_Ok in E11 as (en & Een & E11). apply unwrap_inv in Een.
    apply bind_Ok in E11 as ([[[[[p4 tk4] ti4] ta4] ra4] hc4] & E14 & E11).
    injection E11 as <- <- <- <- <-.
    destruct lt as [[i [|]]|].
    + apply bind_Ok in E10 as (t & Et & E10). apply ticks_get_Ok in Et. injection E10 as <-.
      exists i, true, en. split; [reflexivity|]. split; [exact Een|]. right. split; [reflexivity|].
      exists t. split; [exact Et|].
      destruct (negb d || en) eqn:Ede.
      * left. split; [reflexivity|]. apply bind_Ok in E14 as ([t' p5] & E15 & E14).
        apply unwrap_inv in E15. injection E14 as <- <- <- <- <- <-.
        exists t', p5. split; [exact E15|]. split; [reflexivity|]. split; [reflexivity|]. split; [reflexivity|]. lia.
      * right. split; [reflexivity|].
        assert (Hde : d && en = false).
        { destruct d, en; cbn in *; congruence. }
        destruct (rem =? 0) eqn:Er; cbn [negb] in E14.
        -- injection E14 as <- <- <- <- <- <-. split; [reflexivity|]. eexists. rewrite Hde. split; [reflexivity|].
           right. split; [left; lia|]. split; [reflexivity|]. split; lia.
        -- destruct bi.
           ++ apply bind_Ok in E14 as (p5 & E15 & E14). apply unwrap_inv in E15.
              injection E14 as <- <- <- <- <- <-. split; [reflexivity|]. exists p5. rewrite Hde. split; [reflexivity|].
              left. split; [lia|]. split; [reflexivity|]. split; [exact E15|]. split; lia.
           ++ injection E14 as <- <- <- <- <- <-. split; [reflexivity|]. eexists. rewrite Hde. split; [reflexivity|].
              right. split; [right; reflexivity|]. split; [reflexivity|]. split; lia.
    + injection E10 as <-. injection E14 as <- <- <- <- <- <-.
      exists i, false, en. split; [reflexivity|]. split; [exact Een|]. left.
      split; [reflexivity|]. split; [reflexivity|]. split; [reflexivity|]. split; lia.
    + injection E10 as <-. discriminate.
Qed.
