(** The swap loop: induction principle and what it never touches. *)
From Verif Require Import Base Decimal SqrtPriceM LogM ClammM FeeGrowthM Types TickmapM StorageM
  CollectionsM StateM ServiceM P_Clamm P_Effects.
From stdpp Require Import gmap list.
From Coq Require Import ZArith Lia Bool.
Open Scope Z_scope.

Section Loop.
  Context {S : Type} (finished : S -> bool) (body : S -> res S) (P : S -> Prop).
  Hypothesis step : forall s s', P s -> finished s = false -> body s = Ok s' -> P s'.

  Lemma iterate_inv n : forall s, P s ->
    match iterate finished body n s with
    | Cont s' => P s'
    | Stop (Ok s') => P s' /\ finished s' = true
    | _ => True
    end.
  Proof using step.
    induction n as [|n IH]; intros s Hs; cbn [iterate].
    - unfold loop_once. destruct (finished s) eqn:Ef; [auto|].
      destruct (body s) eqn:Eb; auto. eapply step; eauto.
    - specialize (IH s Hs) as H. destruct (iterate finished body n s) as [s'|r]; [apply IH; exact H|exact H].
  Qed.

  Lemma while_loop_inv s s' : P s -> while_loop finished body s = Ok s' -> P s' /\ finished s' = true.
  Proof using step.
    intros Hs. unfold while_loop. pose proof (iterate_inv 100 s Hs) as H.
    destruct (iterate finished body 100 s) as [s1|r]; [discriminate|]. intros ->. exact H.
  Qed.
End Loop.

(** Fields of a pool that no swap changes. *)
Definition pool_frame (p p' : pool) : Prop :=
  p_fee_receiver p' = p_fee_receiver p /\ p_start_timestamp p' = p_start_timestamp p.

Lemma pool_frame_refl p : pool_frame p p.
Proof. split; reflexivity. Qed.
Lemma pool_frame_trans p1 p2 p3 : pool_frame p1 p2 -> pool_frame p2 p3 -> pool_frame p1 p3.
Proof. intros [] []. split; congruence. Qed.

Lemma pool_add_fee_frame p a d f p' : pool_add_fee p a d f = Ok p' -> pool_frame p p'.
Proof.
  unfold pool_add_fee. intros H. apply bind_Ok in H as (v & _ & H). apply bind_Ok in H as (w & _ & H).
  destruct ((w =? 0) && (v =? 0) || (p_liquidity p =? 0)).
  - injection H as <-. apply pool_frame_refl.
  - apply bind_Ok in H as (g & _ & H). destruct d; apply bind_Ok in H as (f1 & _ & H); injection H as <-; split; reflexivity.
Qed.

Lemma tick_cross_frame t p ts t' p' : tick_cross t p ts = Ok (t', p') -> pool_frame p p'.
Proof.
  unfold tick_cross. intros H. apply bind_Ok in H as (v & _ & H).
  destruct (xorb _ _); apply bind_Ok in H as (l & _ & H); injection H as _ <-; split; reflexivity.
Qed.

Lemma pool_update_tick_frame p r lim tk rem bi d ts pf ft p' tk' x :
  pool_update_tick p r lim tk rem bi d ts pf ft = Ok (p', tk', x) -> pool_frame p p'.
Proof.
  unfold pool_update_tick. destruct (_ || _).
  - intros H. apply bind_Ok in H as (c & _ & H). injection H as <- _ _. split; reflexivity.
  - intros H. apply bind_Ok in H as (en & _ & H).
    apply bind_Ok in H as ([[[[[p1 tk1] ti] ta] ra] hc] & E & H). injection H as <- _ _.
    assert (F : pool_frame p p1).
    { destruct tk as [|t|i].
      - discriminate.
      - destruct (negb d || en).
        + apply bind_Ok in E as ([t' p2] & E & H). injection H as <- _ _ _ _ _.
          apply unwrap_inv in E. eapply tick_cross_frame; eauto.
        + destruct (negb (rem =? 0)).
          * destruct bi.
            -- apply bind_Ok in E as (p2 & E & H). injection H as <- _ _ _ _ _.
               apply unwrap_inv in E. eapply pool_add_fee_frame; eauto.
            -- injection E as <- _ _ _ _ _. apply pool_frame_refl.
          * injection E as <- _ _ _ _ _. apply pool_frame_refl.
      - injection E as <- _ _ _ _ _. apply pool_frame_refl. }
    destruct F as [F1 F2]. split; [exact F1|exact F2].
Qed.

Lemma swap_iteration_frame s k d bi lim tl ts l l' :
  swap_iteration s k d bi lim tl ts l = Ok l' -> pool_frame (l_pool l) (l_pool l').
Proof.
  unfold swap_iteration. intros H.
  apply bind_Ok in H as ([sl lt] & _ & H). apply bind_Ok in H as (r & _ & H).
  apply bind_Ok in H as (ipf & _ & H). apply bind_Ok in H as (rem & _ & H).
  apply bind_Ok in H as (p1 & E1 & H). apply bind_Ok in H as (ef & _ & H).
  apply bind_Ok in H as (ti & _ & H). apply bind_Ok in H as (tot & _ & H).
  apply bind_Ok in H as (u & _ & H). apply bind_Ok in H as (tu & _ & H).
  apply bind_Ok in H as ([[p2 tk2] [[aa rr] hc]] & E2 & H).
  apply bind_Ok in H as (ti2 & _ & H). apply bind_Ok in H as (u2 & _ & H). injection H as <-.
  cbn [l_pool]. apply unwrap_inv in E1. apply pool_add_fee_frame in E1.
  apply pool_update_tick_frame in E2. eapply pool_frame_trans; [exact E1|].
  destruct E2 as [F1 F2]. split; [exact F1|exact F2].
Qed.

Lemma calculate_swap_inv s ts k d a bi lim r :
  calculate_swap s ts k d a bi lim = Ok r ->
  exists p tl l,
    a <> 0 /\ s_pools s !! k = Some p /\
    (if d then lim < p_sqrt_price p /\ lim <= MAX_SQRT_PRICE else p_sqrt_price p < lim /\ MIN_SQRT_PRICE <= lim) /\
    (if d then get_min_tick (pk_spacing k) else get_max_tick (pk_spacing k)) = Ok tl /\
    while_loop (fun l => l_remaining l =? 0) (swap_iteration s k d bi lim tl ts) (mkLoop p a 0 0 0 []) = Ok l /\
    l_out l <> 0 /\
    r = mkSwapOut (l_in l) (l_out l) (p_sqrt_price p) (p_sqrt_price (l_pool l)) (l_fee l) (l_pool l) (l_ticks l).
Proof.
  unfold calculate_swap. intros H. apply bind_Ok in H as (u & E1 & H). apply fail_if_Ok in E1.
  apply bind_Ok in H as (p & E2 & H). apply pools_get_Ok in E2.
  apply bind_Ok in H as (u2 & E3 & H). apply fail_if_Ok in E3.
  apply bind_Ok in H as (tl & E4 & H). apply bind_Ok in H as (l & E5 & H).
  apply bind_Ok in H as (u3 & E6 & H). apply fail_if_Ok in E6. injection H as <-.
  exists p, tl, l. split; [lia|]. split; [auto|]. split.
  { destruct d; apply orb_false_iff in E3 as [? ?]; lia. }
  split; [auto|]. split; [auto|]. split; [lia|reflexivity].
Qed.

Lemma calculate_swap_frame s ts k d a bi lim r :
  calculate_swap s ts k d a bi lim = Ok r ->
  exists p, s_pools s !! k = Some p /\ pool_frame p (cs_pool r).
Proof.
  intros H. apply calculate_swap_inv in H as (p & tl & l & _ & E2 & _ & _ & E5 & _ & ->).
  exists p. split; [auto|]. cbn [cs_pool].
  apply (while_loop_inv _ _ (fun l => pool_frame p (l_pool l))) in E5 as [E5 _]; [exact E5| |apply pool_frame_refl].
  intros l1 l2 H1 _ H2. apply swap_iteration_frame in H2. eapply pool_frame_trans; eauto.
Qed.
