(** What the operations on positions do to a state that satisfies the structural invariant. *)
From Verif Require Import Base Decimal SqrtPriceM LogM ClammM FeeGrowthM Types TickmapM StorageM
  CollectionsM StateM ServiceM Arith SpecMath SpecFees SpecSum SpecState SpecHistory P_Clamm P_TickPrice P_Tickmap
  P_Fees P_Balance P_Effects P_Positions P_History P_Loop P_Check P_State P_Iter P_Inv P_InvPos.
From stdpp Require Import gmap list.
From Coq Require Import ZArith Lia Bool.
Open Scope Z_scope.

Definition in_range (lo up c : Z) : bool := (lo <=? c) && (c <? up).

(** Fee growth stored at a tick: the value already there, or the initial one. *)
Definition old_x (s : state) (k : pool_key) (p : pool) (i : Z) : Z :=
  match s_ticks s !! (k, i) with
  | Some t => t_fee_growth_outside_x t
  | None => if i <=? p_current_tick_index p then p_fee_growth_global_x p else 0
  end.
Definition old_y (s : state) (k : pool_key) (p : pool) (i : Z) : Z :=
  match s_ticks s !! (k, i) with
  | Some t => t_fee_growth_outside_y t
  | None => if i <=? p_current_tick_index p then p_fee_growth_global_y p else 0
  end.

(** The liquidity a pool has after a position is opened or closed. *)
Definition with_liq (p : pool) (lo up d ts : Z) : pool :=
  set_liquidity (if in_range lo up (p_current_tick_index p) then p_liquidity p + d else p_liquidity p)
    (set_last_timestamp ts p).

Record created (e : env) (s s' : state) (k : pool_key) (lo up L sl su : Z) (pos : position) (p : pool) (x y mx : Z) : Prop := {
  cr_pool : s_pools s !! k = Some p;
  cr_liq : 0 < L < M256;
  cr_lt : lo < up;
  cr_lo : okt (pk_spacing k) lo;
  cr_up : okt (pk_spacing k) up;
  cr_slip : sl <= p_sqrt_price p <= su;
  cr_pos : pos = mkPosition k L lo up
     (fee_growth_inside_one lo (old_x s k p lo) up (old_x s k p up) (p_current_tick_index p) (p_fee_growth_global_x p))
     (fee_growth_inside_one lo (old_y s k p lo) up (old_y s k p up) (p_current_tick_index p) (p_fee_growth_global_y p))
     (e_block e) 0 0;
  cr_fresh : s_positions s !! (e_caller e, positions_get_length s (e_caller e)) = None;
  cr_positions : s_positions s' = <[(e_caller e, positions_get_length s (e_caller e)) := pos]> (s_positions s);
  cr_pools : s_pools s' = <[k := with_liq p lo up L (e_timestamp e)]> (s_pools s);
  cr_fits : in_range lo up (p_current_tick_index p) = true -> p_liquidity p + L < M256;
  cr_ticks : exists tl tu, s_ticks s' = <[(k, up) := tu]> (<[(k, lo) := tl]> (s_ticks s)) /\
     t_fee_growth_outside_x tl = old_x s k p lo /\ t_fee_growth_outside_y tl = old_y s k p lo /\
     t_fee_growth_outside_x tu = old_x s k p up /\ t_fee_growth_outside_y tu = old_y s k p up;
  cr_amounts : calculate_amount_delta (p_current_tick_index p) (p_sqrt_price p) L true up lo
                 = Ok (x, y, in_range lo up (p_current_tick_index p));
  cr_max : calculate_max_liquidity_per_tick (pk_spacing k) = Ok mx;
  cr_gross_lo : gross_at s k lo + L < mx;
  cr_gross_up : gross_at s k up + L < mx;
  cr_cfg : same_cfg s s';
  cr_ledger : ledger s s' (both (at_ (e_caller e) (pk_token_x k) (- x)) (at_ (e_caller e) (pk_token_y k) (- y)));
  cr_total : ledger_total s s' (fun t => on (pk_token_x k) (- x) t + on (pk_token_y k) (- y) t);
}.

Lemma old_of s ts k p i t added : Inv s -> s_pools s !! k = Some p ->
  get_or_create_tick s ts k i = Ok (t, added) ->
  t_fee_growth_outside_x t = old_x s k p i /\ t_fee_growth_outside_y t = old_y s k p i.
Proof.
  intros I Hp H. destruct (get_or_create_ok _ _ _ _ _ _ _ I Hp H) as (_ & H1 & H2).
  unfold old_x, old_y. destruct added; rewrite H1; [|auto]. apply H2. reflexivity.
Qed.

Lemma create_summary e s k lo up L sl su s' pos : Inv s -> u256 L ->
  create_position e s k lo up L sl su = Ok (s', pos) ->
  exists p x y mx, created e s s' k lo up L sl su pos p x y mx.
Proof.
  intros I HL H. apply create_position_inv in H
    as (p & tl0 & al & tu0 & au & p' & tl & tu & x & y & b1 & L0 & Hne & Hp & G1 & G2 & PC & CF & SP & SPos & SLen & ST & _ & _ & Led & Tot & _).
  pose proof (I_pool _ I _ _ Hp) as PO.
  destruct (get_or_create_ok _ _ _ _ _ _ _ I Hp G1) as (TO1 & _ & _).
  destruct (get_or_create_ok _ _ _ _ _ _ _ I Hp G2) as (TO2 & _ & _).
  destruct (old_of _ _ _ _ _ _ _ I Hp G1) as [X1 Y1]. destruct (old_of _ _ _ _ _ _ _ I Hp G2) as [X2 Y2].
  destruct (position_create_facts s p k tl0 tu0 _ L sl su _ pos p' tu tl x y lo up TO1 TO2 PO L0 HL Hne PC)
    as (mx & u & Hsl & Hmx & U1 & U2 & EP & AD & EP' & Hu & Hlt & Eu).
  apply tick_update_inv in U1 as (I1 & _ & X3 & Y3 & _ & K1 & _). apply tick_update_inv in U2 as (I2 & _ & X4 & Y4 & _ & K2 & _).
  specialize (K1 eq_refl). specialize (K2 eq_refl).
  rewrite (to_gross _ _ _ _ TO1) in K1. rewrite (to_gross _ _ _ _ TO2) in K2.
  rewrite (to_index _ _ _ _ TO1) in I1. rewrite (to_index _ _ _ _ TO2) in I2. rewrite I1, I2 in *.
  rewrite X1, X2, Y1, Y2 in EP. apply u256_M in HL. fold (in_range lo up (p_current_tick_index p)) in Eu. subst u.
  exists p, x, y, mx. constructor; auto; try lia.
  - apply TO1.
  - apply TO2.
  - apply dense_fresh, I.
  - rewrite SP, EP'. reflexivity.
  - exists tl, tu. split; [exact ST|]. split; [congruence|]. split; [congruence|]. split; congruence.
Qed.

(** Closing a position. *)
Record removed (e : env) (s s' : state) (i x y : Z) (pos : position) (p : pool) (tl tu : tick) (dx dy ox oy : Z) : Prop := {
  rm_pos : s_positions s !! (e_caller e, i) = Some pos;
  rm_pool : s_pools s !! pos_pool_key pos = Some p;
  rm_tl : s_ticks s !! (pos_pool_key pos, pos_lower pos) = Some tl;
  rm_tu : s_ticks s !! (pos_pool_key pos, pos_upper pos) = Some tu;
  rm_fee_x : to_fee (unchecked_sub (inside_x p tl tu) (pos_fee_growth_inside_x pos)) (pos_liquidity pos) = Ok ox;
  rm_fee_y : to_fee (unchecked_sub (inside_y p tl tu) (pos_fee_growth_inside_y pos)) (pos_liquidity pos) = Ok oy;
  rm_amounts : calculate_amount_delta (p_current_tick_index p) (p_sqrt_price p) (pos_liquidity pos) false (pos_upper pos) (pos_lower pos)
     = Ok (dx, dy, in_range (pos_lower pos) (pos_upper pos) (p_current_tick_index p));
  rm_x : x = dx + ox;
  rm_y : y = dy + oy;
  rm_pools : s_pools s' = <[pos_pool_key pos := with_liq p (pos_lower pos) (pos_upper pos) (- pos_liquidity pos) (e_timestamp e)]> (s_pools s);
  rm_fits : in_range (pos_lower pos) (pos_upper pos) (p_current_tick_index p) = true -> pos_liquidity pos <= p_liquidity p;
  rm_positions : exists lp,
     match lp with Some q => i < last_index s (e_caller e) /\ s_positions s !! (e_caller e, last_index s (e_caller e)) = Some q
                 | None => last_index s (e_caller e) <= i end /\
     s_positions s' = removed_positions s (e_caller e) i lp;
  rm_msum : forall f, msum f (s_positions s') = msum f (s_positions s) - f pos;
  rm_sub : forall a n q, s_positions s' !! (a, n) = Some q -> exists n', s_positions s !! (a, n') = Some q;
  rm_ticks : forall k j t', s_ticks s' !! (k, j) = Some t' ->
     exists t, s_ticks s !! (k, j) = Some t /\ t_fee_growth_outside_x t' = t_fee_growth_outside_x t /\
       t_fee_growth_outside_y t' = t_fee_growth_outside_y t;
  rm_cfg : same_cfg s s';
  rm_ledger : ledger s s' (both (at_ (e_caller e) (pk_token_x (pos_pool_key pos)) x) (at_ (e_caller e) (pk_token_y (pos_pool_key pos)) y));
  rm_total : ledger_total s s' (fun t => on (pk_token_x (pos_pool_key pos)) x t + on (pk_token_y (pos_pool_key pos)) y t);
}.

Lemma remove_summary e s i s' x y : Inv s -> remove_position e s i = Ok (s', (x, y)) ->
  exists pos p tl tu dx dy ox oy, removed e s s' i x y pos p tl tu dx dy ox oy.
Proof.
  intros I H. apply remove_position_inv in H
    as (pos & tl0 & tu0 & p & pos' & p' & tu & tl & dx & dy & rl & ru & b1 & T1 & lp & H). cbv zeta in H.
  destruct H as (Hpos & Htl & Htu & Hp & PM & Ex & Ey & Erl & Eru & CF & SP & A1 & A2 & HLP & SPos & _ & Led & Tot).
  pose proof (I_pos _ I _ _ _ Hpos) as SO.
  pose proof (proj2 (I_tick _ I _ _ _ Htl)) as TO1. pose proof (proj2 (I_tick _ I _ _ _ Htu)) as TO2.
  destruct (position_modify_facts s pos p tu0 tl0 _ _ _ pos' p' tu tl dx dy TO1 TO2 SO PM)
    as (mx & u & ox & oy & _ & U1 & U2 & F1 & F2 & EP & AD & EP' & Hu & Eu & I1 & I2).
  fold (in_range (pos_lower pos) (pos_upper pos) (p_current_tick_index p)) in Eu. subst u.
  exists pos, p, tl0, tu0, dx, dy, ox, oy. subst pos'. cbn [pos_tokens_owed_x pos_tokens_owed_y] in Ex, Ey.
  apply tick_update_inv in U1 as (_ & _ & X1 & Y1 & _). apply tick_update_inv in U2 as (_ & _ & X2 & Y2 & _).
  constructor; auto.
  - rewrite SP, EP'. reflexivity.
  - exists lp. auto.
  - intros f. rewrite SPos. apply removed_msum; auto.
  - intros a n q Hq. rewrite SPos in Hq. eapply removed_lookup; eauto.
  - rewrite I1, I2 in *. intros k j t' Ht'.
    assert (S1 : forall k j t', T1 !! (k, j) = Some t' ->
       exists t, s_ticks s !! (k, j) = Some t /\ t_fee_growth_outside_x t' = t_fee_growth_outside_x t /\
       t_fee_growth_outside_y t' = t_fee_growth_outside_y t).
    { intros k1 j1 t1 H1. destruct rl; destruct A1 as [-> _].
      - apply lookup_delete_Some in H1 as [_ H1]. eauto.
      - apply lookup_insert_Some in H1 as [[[= <- <-] <-]|[_ H1]]; [exists tl0; auto|eauto]. }
    destruct ru; destruct A2 as [E2 _]; rewrite E2 in Ht'.
    + apply lookup_delete_Some in Ht' as [_ Ht']. auto.
    + apply lookup_insert_Some in Ht' as [[[= <- <-] <-]|[_ Ht']]; [exists tu0; auto|auto].
Qed.

(** Claiming. *)
Record claimed (e : env) (s s' : state) (i x y : Z) (pos : position) (p : pool) (tl tu : tick) (mx : Z) : Prop := {
  cl_pos : s_positions s !! (e_caller e, i) = Some pos;
  cl_pool : s_pools s !! pos_pool_key pos = Some p;
  cl_tl : s_ticks s !! (pos_pool_key pos, pos_lower pos) = Some tl;
  cl_tu : s_ticks s !! (pos_pool_key pos, pos_upper pos) = Some tu;
  cl_fee_x : to_fee (unchecked_sub (inside_x p tl tu) (pos_fee_growth_inside_x pos)) (pos_liquidity pos) = Ok x;
  cl_fee_y : to_fee (unchecked_sub (inside_y p tl tu) (pos_fee_growth_inside_y pos)) (pos_liquidity pos) = Ok y;
  cl_pools : s_pools s' = <[pos_pool_key pos := set_last_timestamp (e_timestamp e) p]> (s_pools s);
  cl_positions : s_positions s' = <[(e_caller e, i) := mkPosition (pos_pool_key pos) (pos_liquidity pos) (pos_lower pos) (pos_upper pos)
       (inside_x p tl tu) (inside_y p tl tu) (pos_last_block_number pos) 0 0]> (s_positions s);
  cl_ticks : exists tl' tu', s_ticks s' = <[(pos_pool_key pos, pos_lower pos) := tl']>
       (<[(pos_pool_key pos, pos_upper pos) := tu']> (s_ticks s)) /\
     t_fee_growth_outside_x tl' = t_fee_growth_outside_x tl /\ t_fee_growth_outside_y tl' = t_fee_growth_outside_y tl /\
     t_fee_growth_outside_x tu' = t_fee_growth_outside_x tu /\ t_fee_growth_outside_y tu' = t_fee_growth_outside_y tu;
  cl_max : calculate_max_liquidity_per_tick (pk_spacing (pos_pool_key pos)) = Ok mx;
  cl_cfg : same_cfg s s';
  cl_ledger : ledger s s' (both (at_ (e_caller e) (pk_token_x (pos_pool_key pos)) x) (at_ (e_caller e) (pk_token_y (pos_pool_key pos)) y));
  cl_total : ledger_total s s' (fun t => on (pk_token_x (pos_pool_key pos)) x t + on (pk_token_y (pos_pool_key pos)) y t);
}.

Lemma set_liquidity_same p : set_liquidity (p_liquidity p) p = p.
Proof. destruct p; reflexivity. Qed.

Lemma claim_summary e s i s' x y : Inv s -> claim_fee e s i = Ok (s', (x, y)) ->
  exists pos p tl tu mx, claimed e s s' i x y pos p tl tu mx.
Proof.
  intros I H. apply claim_fee_inv in H
    as (pos & tl0 & tu0 & p & pos' & p' & tu & tl & dx & dy & B & H). cbv zeta in H.
  destruct H as (Hpos & Htl & Htu & Hp & PM & Ex & Ey & _ & Es' & Led & Tot).
  pose proof (I_pos _ I _ _ _ Hpos) as SO.
  pose proof (proj2 (I_tick _ I _ _ _ Htl)) as TO1. pose proof (proj2 (I_tick _ I _ _ _ Htu)) as TO2.
  destruct (position_modify_facts s pos p tu0 tl0 _ _ _ pos' p' tu tl dx dy TO1 TO2 SO PM)
    as (mx & u & ox & oy & Hmx & U1 & U2 & F1 & F2 & EP & AD & EP' & Hu & Eu & I1 & I2).
  subst pos'. cbn [pos_tokens_owed_x pos_tokens_owed_y] in Ex, Ey. subst ox oy. cbv iota in Es'.
  rewrite Z.add_0_r in Es'. rewrite Z.add_0_r in EP'.
  replace (if u then p_liquidity p else p_liquidity p) with (p_liquidity (set_last_timestamp (e_timestamp e) p)) in EP'
    by (destruct u; reflexivity).
  rewrite set_liquidity_same in EP'. subst p'. rewrite I1, I2 in Es'.
  apply tick_update_inv in U1 as (_ & _ & X1 & Y1 & _). apply tick_update_inv in U2 as (_ & _ & X2 & Y2 & _).
  exists pos, p, tl0, tu0, mx. constructor; auto; try (rewrite Es'; reflexivity).
  - exists tl, tu. split; [rewrite Es'; reflexivity|]. auto.
  - rewrite Es'. repeat split.
Qed.
