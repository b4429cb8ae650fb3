(** Balances stay within 256 bits and never become negative (C31). *)
From Verif Require Import Base Decimal SqrtPriceM LogM ClammM FeeGrowthM Types TickmapM StorageM
  CollectionsM StateM ServiceM Arith SpecMath SpecFees SpecSum SpecState SpecHistory P_Clamm P_Delta P_TickPrice P_Tickmap
  P_Fees P_Balance P_Effects P_Positions P_History P_Loop P_Check P_State P_Iter P_Inv P_InvPos P_PosOps P_InvSwap P_Swap
  P_SwapLoop P_InvHist.
From stdpp Require Import gmap list.
From Coq Require Import ZArith Lia Bool.
Open Scope Z_scope.

Lemma increase_bals s token user amount s' : bals_ok s -> 0 <= amount ->
  increase_token_balance s token user amount = Ok s' -> bals_ok s'.
Proof.
  intros B Ha H. apply increase_spec in H as (_ & E & _ & F). intros u t.
  pose proof (u256_M _ (B u t)) as Hb. apply u256_I. rewrite E. unfold at_.
  destruct (Z.eqb_spec u user) as [->|]; cbn [andb]; [|lia].
  destruct (Z.eqb_spec t token) as [->|]; [|lia].
  rewrite E, at_same in F. lia.
Qed.

Lemma decrease_bals s token user amount s' v : bals_ok s -> (forall a, amount = Some a -> 0 <= a) ->
  decrease_token_balance s token user amount = Ok (s', v) -> bals_ok s' /\ 0 <= v.
Proof.
  intros B Ha H. apply decrease_spec in H as (_ & E & _ & F & K).
  assert (Hv : 0 <= v).
  { destruct amount as [a|]; subst v; [apply Ha; reflexivity|]. apply u256_M, B. }
  split; [|auto]. intros u t.
  pose proof (u256_M _ (B u t)) as Hb. apply u256_I. rewrite E. unfold at_.
  destruct (Z.eqb_spec u user) as [->|]; cbn [andb]; [|lia].
  destruct (Z.eqb_spec t token) as [->|]; [|lia].
  destruct (Z.eq_dec v 0) as [->|Hn]; [lia|]. specialize (F Hn). lia.
Qed.

Lemma bals_same s s' : s_balances s' = s_balances s -> bals_ok s -> bals_ok s'.
Proof. intros E B u t. unfold bal. rewrite E. apply B. Qed.

Lemma delta_x_nonneg a b L up v : wide a -> wide b -> u256 L -> get_delta_x a b L up = Ok v -> 0 <= v.
Proof.
  intros Ha Hb HL. pose proof (dx_nom_nonneg a b L) as HN. pose proof (u256_M _ HL).
  pose proof (dx_den_pos a b Ha Hb). pose proof (dx_den_up_pos a b Ha Hb). destruct up.
  - rewrite get_delta_x_up_eq by auto. intros [= <-]. apply cdiv_nonneg; lia.
  - rewrite get_delta_x_down_eq by auto. intros [= <-]. apply div_nonneg; lia.
Qed.
Lemma delta_y_nonneg a b L up v : wide a -> wide b -> u256 L -> get_delta_y a b L up = Ok v -> 0 <= v.
Proof.
  intros Ha Hb HL. pose proof (u256_M _ HL). assert (0 <= Z.abs (a - b) * L) by nia. destruct up.
  - rewrite get_delta_y_up_ok by auto. intros [= <-]. apply cdiv_nonneg; [reflexivity|lia].
  - rewrite get_delta_y_down_ok by auto. intros [= <-]. apply div_nonneg; [reflexivity|lia].
Qed.

Lemma amount_delta_nonneg cur p L sg up lo x y u : valid_tick lo -> valid_tick up -> price_in_range p -> u256 L ->
  calculate_amount_delta cur p L sg up lo = Ok (x, y, u) -> 0 <= x /\ 0 <= y.
Proof.
  intros Hl Hu Hp%range_wide HL. unfold calculate_amount_delta. rewrite !calculate_sqrt_price_valid by auto. cbn [bind].
  pose proof (range_wide _ (price_range _ Hl)). pose proof (range_wide _ (price_range _ Hu)).
  destruct (_ <? _); [discriminate|]. destruct (_ <? _); [|destruct (_ <? _)]; intros H1.
  - apply bind_Ok in H1 as (v & E & H1). injection H1 as <- <- _. split; [eapply (delta_x_nonneg (price lo) (price up)); eauto|lia].
  - apply bind_Ok in H1 as (v & E & H1). apply bind_Ok in H1 as (w & E2 & H1). injection H1 as <- <- _.
    split; [eapply (delta_x_nonneg p (price up)); eauto|eapply (delta_y_nonneg (price lo) p); eauto].
  - apply bind_Ok in H1 as (v & E & H1). injection H1 as <- <- _. split; [lia|eapply (delta_y_nonneg (price lo) (price up)); eauto].
Qed.

Lemma owed_nonneg s pos p tl tu v : tick_ok s (pos_pool_key pos) (pos_lower pos) tl ->
  tick_ok s (pos_pool_key pos) (pos_upper pos) tu -> pos_ok s pos -> pool_ok (pos_pool_key pos) p ->
  to_fee (unchecked_sub (inside_x p tl tu) (pos_fee_growth_inside_x pos)) (pos_liquidity pos) = Ok v \/
  to_fee (unchecked_sub (inside_y p tl tu) (pos_fee_growth_inside_y pos)) (pos_liquidity pos) = Ok v -> 0 <= v.
Proof.
  intros T1 T2 SO PO H.
  assert (u256 (pos_liquidity pos)) by (apply u256_I; pose proof (so_liq _ _ SO); lia).
  destruct H as [H|H]; apply to_fee_inv in H as [_ ?%u256_M]; auto; try lia;
    (apply unchecked_sub_u128; [apply inside_u128; [apply T1|apply T2|apply PO]|apply SO]).
Qed.

(** Invariants of the balances that survive a credit, a debit and every change
    of the rest of the state survive every call. *)
Section Gen.
Context (P : state -> Prop).
Context (Pinc : forall s token user amount s', P s -> 0 <= amount ->
  increase_token_balance s token user amount = Ok s' -> P s').
Context (Pdec : forall s token user amount s' v, P s -> (forall a, amount = Some a -> 0 <= a) ->
  decrease_token_balance s token user amount = Ok (s', v) -> P s' /\ 0 <= v).
Context (Psame : forall s s', s_balances s' = s_balances s -> P s -> P s').

(** Two credits, or two debits, with the net effect already known. *)
Lemma gen_create e s k lo up L sl su s' pos : Inv s -> u256 L -> P s ->
  create_position e s k lo up L sl su = Ok (s', pos) -> P s'.
Proof using Pinc Pdec Psame.
  intros I HL B H. destruct (create_summary _ _ _ _ _ _ _ _ _ _ I HL H) as (p & x & y & mx & C).
  pose proof (I_pool _ I _ _ (cr_pool _ _ _ _ _ _ _ _ _ _ _ _ _ _ C)) as PO.
  pose proof (cr_lo _ _ _ _ _ _ _ _ _ _ _ _ _ _ C) as [Hl _]. pose proof (cr_up _ _ _ _ _ _ _ _ _ _ _ _ _ _ C) as [Hu _].
  destruct (amount_delta_nonneg _ _ _ _ _ _ _ _ _ Hl Hu (po_range _ _ PO) HL (cr_amounts _ _ _ _ _ _ _ _ _ _ _ _ _ _ C)) as [Hx Hy].
  pose proof (cr_ledger _ _ _ _ _ _ _ _ _ _ _ _ _ _ C) as D.
  unfold create_position in H.
  apply bind_Ok in H as (u1 & C1 & H). apply bind_Ok in H as (u2 & C2 & H).
  apply bind_Ok in H as (p0 & E1 & H). apply bind_Ok in H as ([tl0 al] & E2 & H).
  apply bind_Ok in H as ([tu0 au] & E3 & H).
  apply bind_Ok in H as ([[[[pos1 p1] t1] t0] [z0 z]] & E4 & H).
  apply bind_Ok in H as ([s1 r1] & E5 & H). apply bind_Ok in H as ([s2 r2] & E6 & H).
  apply bind_Ok in H as (s3 & E7 & H). apply bind_Ok in H as (s4 & E8 & H).
  apply bind_Ok in H as (s5 & E9 & H). injection H as -> ->.
  pose proof (decrease_spec _ _ _ _ _ _ E5) as (_ & D1 & _ & _ & ->).
  pose proof (decrease_spec _ _ _ _ _ _ E6) as (_ & D2 & _ & _ & ->).
  assert (T : pk_token_x k <> pk_token_y k) by (pose proof (po_tokens _ _ PO); lia).
  assert (ES : s_balances s' = s_balances s2).
  { apply pools_update_Ok in E7. subst s3. unfold positions_add in E8.
    assert (s_balances s4 = s_balances s2).
    { destruct al.
      - unfold add_tick in E8. apply bind_Ok in E8 as (v0 & E & E8). apply bind_Ok in E8 as (v1 & _ & E8). injection E8 as <-.
        unfold ticks_add in E. destruct (s_ticks _ !! _); [discriminate|]. injection E as <-. reflexivity.
      - apply ticks_update_Ok in E8 as (-> & _). reflexivity. }
    destruct au.
    - unfold add_tick in E9. apply bind_Ok in E9 as (v0 & E & E9). apply bind_Ok in E9 as (v1 & _ & E9). injection E9 as <-.
      unfold ticks_add in E. destruct (s_ticks _ !! _); [discriminate|]. injection E as <-. auto.
    - apply ticks_update_Ok in E9 as (-> & _). auto. }
  assert (ZX : z0 = x /\ z = y).
  { assert (X : forall u t, bal s2 u t = bal s u t + both (at_ (e_caller e) (pk_token_x k) (- x)) (at_ (e_caller e) (pk_token_y k) (- y)) u t).
    { intros u t. rewrite <- D. unfold bal. rewrite ES. reflexivity. }
    pose proof (X (e_caller e) (pk_token_x k)) as X1. pose proof (X (e_caller e) (pk_token_y k)) as X2.
    rewrite D2, D1 in X1, X2. unfold both, at_ in X1, X2. rewrite !Z.eqb_refl in X1, X2.
    destruct (Z.eqb_spec (pk_token_x k) (pk_token_y k)); [contradiction|].
    destruct (Z.eqb_spec (pk_token_y k) (pk_token_x k)); [lia|]. cbn [andb] in X1, X2. lia. }
  destruct ZX as [-> ->].
  apply (Psame s2); [auto|]. assert (B1 : P s1) by (apply (Pdec _ _ _ _ _ _ B) in E5 as [? _]; [auto|intros a [= <-]; exact Hx]).
  apply (Pdec _ _ _ _ _ _ B1) in E6 as [? _]; [auto|intros a [= <-]; exact Hy].
Qed.

Lemma gen_remove e s i s' x y : Inv s -> P s -> remove_position e s i = Ok (s', (x, y)) -> P s'.
Proof using Pinc Pdec Psame.
  intros I B H. destruct (remove_summary _ _ _ _ _ _ I H) as (pos & p & tl & tu & dx & dy & ox & oy & C).
  pose proof (rm_pos _ _ _ _ _ _ _ _ _ _ _ _ _ _ C) as Hpos. pose proof (I_pos _ I _ _ _ Hpos) as SO.
  pose proof (I_pool _ I _ _ (rm_pool _ _ _ _ _ _ _ _ _ _ _ _ _ _ C)) as PO.
  destruct (I_tick _ I _ _ _ (rm_tl _ _ _ _ _ _ _ _ _ _ _ _ _ _ C)) as [_ T1].
  destruct (I_tick _ I _ _ _ (rm_tu _ _ _ _ _ _ _ _ _ _ _ _ _ _ C)) as [_ T2].
  assert (HL : u256 (pos_liquidity pos)) by (apply u256_I; pose proof (so_liq _ _ SO); lia).
  destruct (amount_delta_nonneg _ _ _ _ _ _ _ _ _ (proj1 (to_okt _ _ _ _ T1)) (proj1 (to_okt _ _ _ _ T2)) (po_range _ _ PO) HL
    (rm_amounts _ _ _ _ _ _ _ _ _ _ _ _ _ _ C)) as [Hdx Hdy].
  assert (0 <= ox) by (eapply owed_nonneg; eauto; left; apply C).
  assert (0 <= oy) by (eapply owed_nonneg; eauto; right; apply C).
  assert (Hx : 0 <= x) by (rewrite (rm_x _ _ _ _ _ _ _ _ _ _ _ _ _ _ C); lia).
  assert (Hy : 0 <= y) by (rewrite (rm_y _ _ _ _ _ _ _ _ _ _ _ _ _ _ C); lia).
  unfold remove_position in H.
  apply bind_Ok in H as (pos0 & E1 & H). apply bind_Ok in H as (tl0 & E2 & H).
  apply bind_Ok in H as (tu0 & E3 & H). apply bind_Ok in H as (p0 & E4 & H).
  apply bind_Ok in H as ([[[[[[pos' p'] tu'] tl'] [ax ay]] rl] ru] & E5 & H).
  apply bind_Ok in H as (s1 & E6 & H). apply bind_Ok in H as (s2 & E7 & H).
  apply bind_Ok in H as (s3 & E8 & H). apply bind_Ok in H as ([s4 q4] & E9 & H).
  apply bind_Ok in H as (s5 & E10 & H). apply bind_Ok in H as (s6 & E11 & H). injection H as -> -> ->.
  assert (R : forall sa k0 t0 sb, remove_tick sa k0 t0 = Ok sb -> s_balances sb = s_balances sa).
  { intros sa k0 t0 sb E. unfold remove_tick in E. apply bind_Ok in E as (v & _ & E). apply bind_Ok in E as (b & Eb & E).
    unfold ticks_remove in E. apply bind_Ok in E as (v2 & _ & E). injection E as <-. reflexivity. }
  assert (B4 : P s4).
  { apply positions_remove_inv in E9 as (_ & lp & HLp & ->). apply (Psame s); [|exact B].
    cbn [set_positions s_balances]. transitivity (s_balances s2).
    - destruct ru; [eapply R; eauto|]. apply ticks_update_Ok in E8 as (-> & _). reflexivity.
    - transitivity (s_balances s1); [|apply pools_update_Ok in E6; subst s1; reflexivity].
      destruct rl; [eapply R; eauto|]. apply ticks_update_Ok in E7 as (-> & _). reflexivity. }
  eapply Pinc; [|exact Hy|exact E11]. eapply Pinc; [exact B4|exact Hx|exact E10].
Qed.

Lemma gen_claim e s i s' x y : Inv s -> P s -> claim_fee e s i = Ok (s', (x, y)) -> P s'.
Proof using Pinc Pdec Psame.
  intros I B H. destruct (claim_summary _ _ _ _ _ _ I H) as (pos & p & tl & tu & mx & C).
  pose proof (cl_pos _ _ _ _ _ _ _ _ _ _ _ C) as Hpos. pose proof (I_pos _ I _ _ _ Hpos) as SO.
  pose proof (I_pool _ I _ _ (cl_pool _ _ _ _ _ _ _ _ _ _ _ C)) as PO.
  destruct (I_tick _ I _ _ _ (cl_tl _ _ _ _ _ _ _ _ _ _ _ C)) as [_ T1].
  destruct (I_tick _ I _ _ _ (cl_tu _ _ _ _ _ _ _ _ _ _ _ C)) as [_ T2].
  assert (Hx : 0 <= x) by (eapply owed_nonneg; eauto; left; apply C).
  assert (Hy : 0 <= y) by (eapply owed_nonneg; eauto; right; apply C).
  unfold claim_fee in H.
  apply bind_Ok in H as (pos0 & E1 & H). apply bind_Ok in H as (tl0 & E2 & H).
  apply bind_Ok in H as (tu0 & E3 & H). apply bind_Ok in H as (p0 & E4 & H).
  apply bind_Ok in H as ([[[[pos1 p'] tu'] tl'] [ax ay]] & E5 & H).
  apply bind_Ok in H as (s1 & E6 & H). apply bind_Ok in H as (s2 & E7 & H).
  apply bind_Ok in H as (s3 & E8 & H). apply bind_Ok in H as (s4 & E9 & H).
  apply bind_Ok in H as (s5 & E10 & H). apply bind_Ok in H as (s6 & E11 & H). injection H as -> -> ->.
  assert (B4 : P s4).
  { apply (Psame s); [|exact B]. apply ticks_update_Ok in E9 as (-> & _). apply ticks_update_Ok in E8 as (-> & _).
    apply pools_update_Ok in E7. subst s2. unfold positions_update in E6. apply bind_Ok in E6 as (v & _ & E6). injection E6 as <-. reflexivity. }
  eapply Pinc; [|exact Hy|exact E11]. eapply Pinc; [exact B4|exact Hx|exact E10].
Qed.

Lemma gen_swap e s k d a bi lim s' r : Inv s -> u256 a -> P s -> swap e s k d a bi lim = Ok (s', r) -> P s'.
Proof using Pinc Pdec Psame.
  intros I Ha B H. destruct (Inv_swap _ _ _ _ _ _ _ _ _ I Ha H) as (_ & Hi%u256_M & Ho%u256_M).
  unfold swap in H.
  apply bind_Ok in H as (r1 & E1 & H). apply bind_Ok in H as (s1 & E2 & H).
  apply put_ticks_fold in E2. subst s1.
  apply bind_Ok in H as (s2 & E3 & H). apply pools_update_Ok in E3. subst s2.
  destruct d; apply bind_Ok in H as ([s3 v] & E4 & H); apply bind_Ok in H as (s4 & E5 & H); injection H as -> ->;
    apply Pdec in E4 as [B1 _]; try (apply (Psame s); [reflexivity|exact B]);
    try (intros ? [= <-]; apply Hi); (eapply Pinc; [exact B1|apply Ho|exact E5]).
Qed.

Lemma gen_route e hops : forall s a s' out, Inv s -> u256 a -> P s -> route_swap e s a hops = Ok (s', out) -> P s'.
Proof using Pinc Pdec Psame.
  induction hops as [|h hops IH]; cbn [route_swap]; intros s a s' out I Ha B H.
  - injection H as <- _. auto.
  - apply bind_Ok in H as ([s1 r] & E & H). destruct (Inv_swap _ _ _ _ _ _ _ _ _ I Ha E) as (I1 & _ & Hr).
    apply (IH s1 (cs_amount_out r) s' out); auto. exact (gen_swap _ _ _ _ _ _ _ _ _ I Ha B E).
Qed.

Lemma gen_op s e o s' : Inv s -> env_wf e -> op_wf o -> P s -> run_op e s o = Ok s' -> P s'.
Proof using Pinc Pdec Psame.
  intros I (_ & _ & EV) W B HO.
  destruct o; cbn [run_op] in HO; apply drop_result_Ok in HO as [v H]; cbn [op_wf] in W.
  - apply change_protocol_fee_inv in H as [_ ->]. apply (Psame s); [reflexivity|exact B].
  - apply add_fee_tier_inv in H as (_ & _ & _ & _ & _ & ->). apply (Psame s); [reflexivity|exact B].
  - apply remove_fee_tier_inv in H as (_ & l & _ & ->). apply (Psame s); [reflexivity|exact B].
  - apply create_pool_inv in H as (k & p & HF & HT & HK & HN & _ & HC0 & ->). apply (Psame s); [reflexivity|exact B].
  - apply change_fee_receiver_inv in H as (_ & p & Hp & ->). apply (Psame s); [reflexivity|exact B].
  - exact (gen_create _ _ _ _ _ _ _ _ _ _ I (proj1 (proj2 (proj2 W))) B H).
  - destruct v as [x y]. exact (gen_remove _ _ _ _ _ _ I B H).
  - apply transfer_position_inv in H as (pos & lp & s1 & _ & _ & E1 & E2). subst s' s1. apply (Psame s); [reflexivity|exact B].
  - exact (gen_swap _ _ _ _ _ _ _ _ _ I (proj1 W) B H).
  - apply swap_route_inv in H. exact (gen_route _ _ _ _ _ _ I (proj1 W) B H).
  - destruct v as [x y]. exact (gen_claim _ _ _ _ _ _ I B H).
  - unfold withdraw_protocol_fee in H.
    apply bind_Ok in H as (p & E1 & H). apply pools_get_Ok in E1.
    apply bind_Ok in H as (w & E2 & H). cbn [pool_withdraw_protocol_fee] in H.
    apply bind_Ok in H as (s1 & E3 & H). apply bind_Ok in H as (s2 & E4 & H).
    apply bind_Ok in H as (s3 & E5 & H). injection H as -> _.
    pose proof (I_pool _ I _ _ E1) as PO.
    eapply Pinc; [|apply u256_M, (po_fy _ _ PO)|exact E5]. eapply Pinc; [|apply u256_M, (po_fx _ _ PO)|exact E4].
    apply pools_update_Ok in E3. subst s1. apply (Psame s); [reflexivity|exact B].
  - unfold deposit_vara in H. apply bind_Ok in H as (s1 & E & H). injection H as -> _.
    eapply Pinc; [exact B| |exact E]. unfold u128 in EV. lia.
  - unfold withdraw_vara in H. apply bind_Ok in H as ([s1 v1] & E & H).
    apply bind_Ok in H as (v2 & Ev & H). injection H as -> ->.
    destruct value as [a|].
    + apply bind_Ok in E as (? & _ & E). apply (Pdec _ _ _ _ _ _ B) in E as [? _]; [auto|].
      intros b [= <-]. apply u256_M in W. lia.
    + destruct (decrease_token_balance s VARA_ADDRESS (e_caller e) None) as [[s2 v2]| | |] eqn:ED; try discriminate.
      * injection E as -> ->. apply (Pdec _ _ _ _ _ _ B) in ED as [? _]; [auto|discriminate].
      * injection E as <- _. exact B.
Qed.

Lemma gen_history (G : state -> event -> Prop) evs s :
  (forall adm fee, P (init_state adm fee)) ->
  (forall s ev, G s ev -> room s ev) -> history G evs s -> P s.
Proof using Pinc Pdec Psame.
  intros P0 HG H. induction H as [adm fee Hf|evs s ev H IH W Hg].
  - apply P0.
  - pose proof (Inv_history G evs s HG H) as I.
    destruct ev as [e o|u t a|u t a|m]; cbn [exec_event event_wf] in *.
    + unfold exec_op. destruct (run_op e s o) as [s'| | |] eqn:E; auto. exact (gen_op _ _ _ _ I (proj1 W) (proj2 W) IH E).
    + destruct (increase_token_balance s t u a) as [s'| | |] eqn:E; auto.
      eapply Pinc; eauto. apply u256_M in W. lia.
    + destruct (decrease_token_balance s t u a) as [[s' v]| | |] eqn:E; auto.
      apply (Pdec _ _ _ _ _ _ IH) in E as [? _]; [auto|]. intros b ->. apply u256_M in W. lia.
    + apply (Psame s); auto.
Qed.
End Gen.

Definition bals_claim := gen_claim bals_ok increase_bals decrease_bals bals_same.

Lemma bals_history (G : state -> event -> Prop) evs s :
  (forall s ev, G s ev -> room s ev) -> history G evs s -> bals_ok s.
Proof.
  apply (gen_history bals_ok increase_bals decrease_bals bals_same).
  intros adm fee u t. unfold bal, balm, init_state. cbn. rewrite lookup_empty. cbn. rewrite lookup_empty. cbn. unfold u256. lia.
Qed.

(** No stored balance is zero. *)
Definition bals_pos (s : state) : Prop :=
  bals_ok s /\ forall u tokens t, s_balances s !! u = Some tokens -> tokens !! t <> Some 0.

Lemma increase_pos s token user amount s' : bals_pos s -> 0 <= amount ->
  increase_token_balance s token user amount = Ok s' -> bals_pos s'.
Proof.
  intros [B N] Ha H. split; [eapply increase_bals; eauto|]. unfold increase_token_balance in H.
  destruct (Z.eqb_spec amount 0) as [->|Hn]; [injection H as <-; auto|].
  apply bind_Ok in H as (b & Hb & H). injection H as <-. apply map_err_Ok in Hb. unfold dec_checked_add in Hb. inv_res.
  pose proof (u256_M _ (B user token)) as Hu. unfold bal, balm in Hu.
  intros u tokens t. cbn [set_balances s_balances]. destruct (Z.eq_dec u user) as [->|Hu'].
  - rewrite lookup_insert. intros [= <-]. destruct (Z.eq_dec t token) as [->|Ht].
    + rewrite lookup_insert. intros [= E]. lia.
    + rewrite lookup_insert_ne by congruence. destruct (s_balances s !! user) as [tk|] eqn:Eu; cbn.
      * eapply N; eauto.
      * rewrite lookup_empty. discriminate.
  - rewrite lookup_insert_ne by congruence. apply N.
Qed.

Lemma decrease_pos s token user amount s' v : bals_pos s -> (forall a, amount = Some a -> 0 <= a) ->
  decrease_token_balance s token user amount = Ok (s', v) -> bals_pos s' /\ 0 <= v.
Proof.
  intros [B N] Ha H. pose proof (decrease_bals _ _ _ _ _ _ B Ha H) as [B' Hv]. split; [|auto]. split; [auto|].
  unfold decrease_token_balance in H. destruct (bool_decide_reflect (amount = Some 0)); [injection H as <- _; auto|].
  apply bind_Ok in H as (tokens & Et & H). apply bind_Ok in H as (b & Eb & H).
  unfold ok_or in Et, Eb. destruct (s_balances s !! user) as [tk|] eqn:Eu; [|discriminate]. injection Et as <-.
  destruct (tk !! token) as [b0|] eqn:E0; [|discriminate]. injection Eb as <-.
  assert (R : (if bool_decide (delete token tk = ∅) then Ok (set_balances (delete user (s_balances s)) s, b0)
       else Ok (set_balances (<[user:=delete token tk]> (s_balances s)) s, b0)) = Ok (s', v) ->
       forall u tokens t, s_balances s' !! u = Some tokens -> tokens !! t <> Some 0).
  { intros E u tokens t. destruct (bool_decide _); injection E as <- _; cbn [set_balances s_balances].
    - intros [_ HS]%lookup_delete_Some. eapply N; eauto.
    - intros [[<- <-]|[Hn HS]]%lookup_insert_Some; [|eapply N; eauto].
      intros [_ HS]%lookup_delete_Some. eapply N in HS; eauto. }
  destruct amount as [a|]; [|exact (R H)]. destruct (Z.eqb_spec a b0) as [->|Hab]; cbn [negb] in H; [exact (R H)|].
  apply bind_Ok in H as (c & Ec & H). injection H as <- _. apply map_err_Ok in Ec. unfold dec_checked_sub in Ec. inv_res.
  intros u tokens t. cbn [set_balances s_balances]. intros [[<- <-]|[Hn HS]]%lookup_insert_Some; [|eapply N; eauto].
  intros [[<- E]|[_ HS]]%lookup_insert_Some; [lia|]. eapply N in HS; eauto.
Qed.

Lemma pos_same s s' : s_balances s' = s_balances s -> bals_pos s -> bals_pos s'.
Proof. intros E [B N]. split; [eapply bals_same; eauto|]. rewrite E. auto. Qed.

Lemma bals_pos_history (G : state -> event -> Prop) evs s :
  (forall s ev, G s ev -> room s ev) -> history G evs s -> bals_pos s.
Proof.
  apply (gen_history bals_pos increase_pos decrease_pos pos_same).
  intros adm fee. split.
  - intros u t. unfold bal, balm, init_state. cbn. rewrite lookup_empty. cbn. rewrite lookup_empty. cbn. unfold u256. lia.
  - intros u tokens t. cbn. rewrite lookup_empty. discriminate.
Qed.
