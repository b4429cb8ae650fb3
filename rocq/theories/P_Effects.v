(** Effect of every successful entry point on every component of the state. *)
From Verif Require Import Base Decimal SqrtPriceM LogM ClammM FeeGrowthM Types TickmapM StorageM
  CollectionsM StateM ServiceM SpecMath SpecSum P_Clamm P_Balance.
From stdpp Require Import gmap list.
From Coq Require Import ZArith Lia Bool.
Open Scope Z_scope.

Ltac bind_in H :=
  apply bind_Ok in H;
  let x := fresh "v" in let E := fresh "E" in
  destruct H as (x & E & H);
  repeat match goal with v : prod _ _ |- _ => destruct v end;
  cbn beta iota in H.

Lemma unwrap_inv {A} (r : res A) v : unwrap r = Ok v -> r = Ok v.
Proof. apply unwrap_Ok. Qed.

(** Components that only administrative calls and pool creation change. *)
Definition same_cfg (s s' : state) : Prop :=
  s_admin s' = s_admin s /\ s_protocol_fee s' = s_protocol_fee s /\
  s_fee_tiers s' = s_fee_tiers s /\ s_pool_keys s' = s_pool_keys s /\
  s_pool_keys_by_index s' = s_pool_keys_by_index s /\
  s_pool_keys_length s' = s_pool_keys_length s /\ s_awaiting s' = s_awaiting s.

Definition same_pos (s s' : state) : Prop :=
  s_positions s' = s_positions s /\ s_positions_length s' = s_positions_length s.
Definition same_ticks (s s' : state) : Prop :=
  s_ticks s' = s_ticks s /\ s_bitmap s' = s_bitmap s.
Definition same_bal (s s' : state) : Prop := s_balances s' = s_balances s.

(** Everything but the balances, which change by [d]. *)
Definition ledger (s s' : state) (d : Z -> Z -> Z) : Prop :=
  forall u t, bal s' u t = bal s u t + d u t.
Definition ledger_total (s s' : state) (d : Z -> Z) : Prop :=
  forall t, bal_total s' t = bal_total s t + d t.

Definition on (t a : Z) : Z -> Z := fun t' => if t' =? t then a else 0.

Lemma same_cfg_refl s : same_cfg s s.
Proof. repeat split. Qed.

(** ** Pieces *)

Lemma pools_get_Ok s k p : pools_get s k = Ok p <-> s_pools s !! k = Some p.
Proof. apply ok_or_Ok. Qed.
Lemma ticks_get_Ok s k i t : ticks_get s k i = Ok t <-> s_ticks s !! (k, i) = Some t.
Proof. apply ok_or_Ok. Qed.
Lemma positions_get_Ok s a i p : positions_get s a i = Ok p <-> s_positions s !! (a, i) = Some p.
Proof. apply ok_or_Ok. Qed.

Lemma pools_update_Ok s k p s' : pools_update s k p = Ok s' ->
  s' = set_pools (<[k := p]> (s_pools s)) s.
Proof. unfold pools_update. intros H. inv_res. reflexivity. Qed.
Lemma ticks_update_Ok s k i t s' : ticks_update s k i t = Ok s' ->
  s' = set_ticks (<[(k, i) := t]> (s_ticks s)) s /\ exists t0, s_ticks s !! (k, i) = Some t0.
Proof. unfold ticks_update. intros H. bind_in H. inv_res. apply ticks_get_Ok in E. eauto. Qed.

Lemma tick_update_inv t d mx up dep t' :
  tick_update t d mx up dep = Ok t' ->
  t_index t' = t_index t /\ t_sqrt_price t' = t_sqrt_price t /\
  t_fee_growth_outside_x t' = t_fee_growth_outside_x t /\
  t_fee_growth_outside_y t' = t_fee_growth_outside_y t /\
  t_seconds_outside t' = t_seconds_outside t /\
  (dep = true -> t_liquidity_gross t' = t_liquidity_gross t + d /\ t_liquidity_gross t' < mx) /\
  (dep = false -> t_liquidity_gross t' = t_liquidity_gross t - d /\ d <= t_liquidity_gross t) /\
  tick_new_liquidity_change t d (xorb dep up) = Ok (t_sign t', t_liquidity_change t').
Proof.
  unfold tick_update. intros H. bind_in H. bind_in H. inv_res. cbn.
  repeat (split; [reflexivity|]).
  split; [|split; [|assumption]]; intros ->; unfold tick_new_liquidity_gross in E; cbn [negb andb] in E.
  - unfold dec_checked_add in E. inv_res. cbn [andb] in *. split; auto. lia.
  - unfold dec_checked_sub in E. inv_res. split; auto; lia.
Qed.

(** Signed net liquidity of a tick. *)
Definition t_net (t : tick) : Z := if t_sign t then t_liquidity_change t else - t_liquidity_change t.

Lemma tick_new_liquidity_change_net t d add sg c :
  tick_new_liquidity_change t d add = Ok (sg, c) -> 0 <= d -> 0 <= t_liquidity_change t < M256 ->
  d < M256 ->
  (if sg then c else - c) = t_net t + (if add then d else - d) /\ 0 <= c < M256.
Proof.
  unfold tick_new_liquidity_change, t_net, dec_sub, dec_add. intros H Hd Hc Hm.
  destruct (t_sign t), add; cbn [xorb] in H.
  - inv_res. subst. lia.
  - destruct (Z.ltb_spec d (t_liquidity_change t)); inv_res; cbn [negb]; lia.
  - destruct (Z.ltb_spec d (t_liquidity_change t)); inv_res; cbn [negb]; lia.
  - inv_res. subst. lia.
Qed.

Lemma pool_update_liquidity_inv p d sg up lo p' x y :
  pool_update_liquidity p d sg up lo = Ok (p', (x, y)) ->
  exists u, calculate_amount_delta (p_current_tick_index p) (p_sqrt_price p) d sg up lo = Ok (x, y, u) /\
    p' = set_liquidity (if u then (if sg then p_liquidity p + d else p_liquidity p - d) else p_liquidity p) p /\
    (u = true -> if sg then p_liquidity p + d < M256 else d <= p_liquidity p).
Proof.
  unfold pool_update_liquidity. intros H. bind_in H. destruct b; cbn [negb] in H.
  - destruct sg; unfold dec_checked_add, dec_checked_sub in H; inv_res; exists true; auto.
  - inv_res. exists false. split; auto. split; [destruct p'; reflexivity|discriminate].
Qed.

(** The tick range test that decides whether the pool's liquidity changes. *)
Lemma amount_delta_in_range cur p d sg up lo x y u :
  calculate_amount_delta cur p d sg up lo = Ok (x, y, u) ->
  lo <= up /\ u = (lo <=? cur) && (cur <? up).
Proof.
  unfold calculate_amount_delta. destruct (Z.ltb_spec up lo); [discriminate|].
  intros H'. split; [lia|]. destruct (Z.ltb_spec cur lo).
  - inv_res. destruct (Z.leb_spec lo cur); [lia|reflexivity].
  - destruct (Z.leb_spec lo cur); [|lia]. destruct (Z.ltb_spec cur up); inv_res; reflexivity.
Qed.

Lemma position_modify_inv pos p upper lower d add ts sp pos' p' upper' lower' x y :
  position_modify pos p upper lower d add ts sp = Ok (pos', p', upper', lower', (x, y)) ->
  exists mx fx fy,
    calculate_max_liquidity_per_tick sp = Ok mx /\
    tick_update lower d mx false add = Ok lower' /\
    tick_update upper d mx true add = Ok upper' /\
    fx = fee_growth_inside_one (t_index lower) (t_fee_growth_outside_x lower)
           (t_index upper) (t_fee_growth_outside_x upper) (p_current_tick_index p) (p_fee_growth_global_x p) /\
    fy = fee_growth_inside_one (t_index lower) (t_fee_growth_outside_y lower)
           (t_index upper) (t_fee_growth_outside_y upper) (p_current_tick_index p) (p_fee_growth_global_y p) /\
    position_update pos add d fx fy = Ok pos' /\
    exists u, calculate_amount_delta (p_current_tick_index p) (p_sqrt_price p) d add
                (t_index upper) (t_index lower) = Ok (x, y, u) /\
    p' = set_liquidity (if u then (if add then p_liquidity p + d else p_liquidity p - d) else p_liquidity p)
           (set_last_timestamp ts p) /\
    (u = true -> if add then p_liquidity p + d < M256 else d <= p_liquidity p).
Proof.
  unfold position_modify. intros H. bind_in H. bind_in H. bind_in H.
  unfold calculate_fee_growth_inside in H.
  pose proof (tick_update_inv _ _ _ _ _ _ E0) as (I1 & _ & I2 & I3 & _).
  pose proof (tick_update_inv _ _ _ _ _ _ E1) as (J1 & _ & J2 & J3 & _).
  rewrite I1, I2, I3, J1, J2, J3 in H.
  bind_in H. bind_in H. injection H as -> -> -> -> -> ->.
  apply pool_update_liquidity_inv in E3. destruct E3 as (u & E3 & -> & E4).
  cbn [set_last_timestamp p_current_tick_index p_sqrt_price p_liquidity] in *.
  exists v; eexists; eexists. split; [auto|]. split; [auto|]. split; [auto|]. split; [reflexivity|]. split; [reflexivity|].
  split; [exact E2|]. exists u. auto.
Qed.

Lemma position_update_inv pos sg d fx fy pos' :
  position_update pos sg d fx fy = Ok pos' ->
  exists ox oy,
    to_fee (unchecked_sub fx (pos_fee_growth_inside_x pos)) (pos_liquidity pos) = Ok ox /\
    to_fee (unchecked_sub fy (pos_fee_growth_inside_y pos)) (pos_liquidity pos) = Ok oy /\
    pos_tokens_owed_x pos + ox < M256 /\ pos_tokens_owed_y pos + oy < M256 /\
    (sg = true -> pos_liquidity pos + d < M256) /\ (sg = false -> d <= pos_liquidity pos) /\
    (d = 0 -> pos_liquidity pos <> 0) /\
    pos' = mkPosition (pos_pool_key pos) (if sg then pos_liquidity pos + d else pos_liquidity pos - d)
             (pos_lower pos) (pos_upper pos) fx fy (pos_last_block_number pos)
             (pos_tokens_owed_x pos + ox) (pos_tokens_owed_y pos + oy).
Proof.
  unfold position_update. intros H. bind_in H. bind_in H. bind_in H. bind_in H. bind_in H. bind_in H.
  unfold position_new_liquidity in E2. bind_in E2. unfold dec_add in *.
  apply fail_if_Ok in E. apply andb_false_iff in E.
  assert (Hd : d = 0 -> pos_liquidity pos <> 0).
  { intros ->. destruct E as [E|E]; [discriminate|]. apply Z.eqb_neq in E. exact E. }
  exists v0, v1. inv_res. subst.
  destruct sg; unfold dec_checked_add, dec_checked_sub in E2; inv_res; subst;
    repeat (split; [first [assumption|discriminate|intros; lia]|]); reflexivity.
Qed.

(** ** Administration *)

Lemma change_protocol_fee_inv e s f s' r : change_protocol_fee e s f = Ok (s', r) ->
  e_caller e = s_admin s /\ s' = set_protocol_fee f s.
Proof.
  unfold change_protocol_fee. intros H. bind_in H. inv_res. apply negb_false_iff in E.
  unfold is_caller_admin in E. split; auto. lia.
Qed.
Lemma add_fee_tier_inv e s ft s' r : add_fee_tier e s ft = Ok (s', r) ->
  e_caller e = s_admin s /\ ft_tick_spacing ft <> 0 /\ ft_tick_spacing ft <= 100 /\
  ft_fee ft < PERCENTAGE_ONE /\ fee_tiers_contains (s_fee_tiers s) ft = false /\
  s' = set_fee_tiers (s_fee_tiers s ++ [ft]) s.
Proof.
  unfold add_fee_tier. intros H. bind_in H. bind_in H. bind_in H. bind_in H. inv_res.
  apply negb_false_iff in E1. unfold is_caller_admin in E1.
  apply orb_false_iff in E as [Ea Eb]. unfold fee_tiers_add in E2.
  destruct (fee_tiers_contains (s_fee_tiers s) _) eqn:EC; inv_res.
  repeat split; auto; lia.
Qed.
Lemma remove_fee_tier_inv e s ft s' r : remove_fee_tier e s ft = Ok (s', r) ->
  e_caller e = s_admin s /\
  exists l, remove_first (s_fee_tiers s) ft = Some l /\ s' = set_fee_tiers l s.
Proof.
  unfold remove_fee_tier. intros H. bind_in H. bind_in H. unfold fee_tiers_remove in *. inv_res.
  apply negb_false_iff in E. unfold is_caller_admin in E.
  split; [lia|eauto].
Qed.

Lemma create_pool_inv e s x y ft ip it s' r : create_pool e s x y ft ip it = Ok (s', r) ->
  exists k p,
    fee_tiers_contains (s_fee_tiers s) ft = true /\
    check_tick it (ft_tick_spacing ft) = Ok tt /\
    pool_key_new x y ft = Ok k /\ s_pools s !! k = None /\ s_pool_keys s !! k = None /\
    pool_create ip it (e_timestamp e) (ft_tick_spacing ft) (s_admin s) = Ok p /\
    s' = set_pool_keys (<[k := s_pool_keys_length s]> (s_pool_keys s))
           (<[s_pool_keys_length s := k]> (s_pool_keys_by_index s))
           ((s_pool_keys_length s + 1) mod M16) (set_pools (<[k := p]> (s_pools s)) s).
Proof.
  unfold create_pool. intros H. bind_in H. bind_in H. bind_in H. bind_in H. bind_in H. bind_in H. bind_in H.
  inv_res. unfold pools_add in *. apply negb_false_iff in E.
  destruct (s_pools s !! v1) eqn:EP; [discriminate|]. inv_res.
  unfold pool_keys_add in *. cbn [set_pools s_pool_keys s_pool_keys_length s_pool_keys_by_index] in *.
  destruct (s_pool_keys s !! v1) eqn:EK; [discriminate|]. inv_res.
  destruct v0. eexists _, _. eauto 10.
Qed.

Lemma change_fee_receiver_inv e s k fr s' r : change_fee_receiver e s k fr = Ok (s', r) ->
  e_caller e = s_admin s /\
  exists p, s_pools s !! k = Some p /\ s' = set_pools (<[k := set_fee_receiver fr p]> (s_pools s)) s.
Proof.
  unfold change_fee_receiver. intros H. bind_in H. bind_in H. bind_in H.
  apply pools_get_Ok in E0. apply pools_update_Ok in E1. inv_res. apply negb_false_iff in E.
  unfold is_caller_admin in E. split; [lia|eauto].
Qed.

(** ** Positions *)

Definition both (f g : Z -> Z -> Z) : Z -> Z -> Z := fun u t => f u t + g u t.

Lemma create_position_inv e s k lo up L sl su s' pos :
  create_position e s k lo up L sl su = Ok (s', pos) ->
  exists p tl0 al tu0 au p' tl tu x y b1,
    L <> 0 /\ lo <> up /\ s_pools s !! k = Some p /\
    get_or_create_tick s (e_timestamp e) k lo = Ok (tl0, al) /\
    get_or_create_tick s (e_timestamp e) k up = Ok (tu0, au) /\
    position_create p k tl0 tu0 (e_timestamp e) L sl su (e_block e) (pk_spacing k)
      = Ok (pos, p', tu, tl, (x, y)) /\
    same_cfg s s' /\
    s_pools s' = <[k := p']> (s_pools s) /\
    s_positions s' = <[(e_caller e, positions_get_length s (e_caller e)) := pos]> (s_positions s) /\
    s_positions_length s' =
      <[e_caller e := (positions_get_length s (e_caller e) + 1) mod M32]> (s_positions_length s) /\
    s_ticks s' = <[(k, t_index tu) := tu]> (<[(k, t_index tl) := tl]> (s_ticks s)) /\
    (if al then s_ticks s !! (k, t_index tl) = None /\ tickmap_flip (s_bitmap s) true (t_index tl) (pk_spacing k) k = Ok b1
     else b1 = s_bitmap s /\ exists t, s_ticks s !! (k, t_index tl) = Some t) /\
    (if au then (<[(k, t_index tl) := tl]> (s_ticks s)) !! (k, t_index tu) = None /\
                tickmap_flip b1 true (t_index tu) (pk_spacing k) k = Ok (s_bitmap s')
     else s_bitmap s' = b1 /\ exists t, (<[(k, t_index tl) := tl]> (s_ticks s)) !! (k, t_index tu) = Some t) /\
    ledger s s' (both (at_ (e_caller e) (pk_token_x k) (- x)) (at_ (e_caller e) (pk_token_y k) (- y))) /\
    ledger_total s s' (fun t => on (pk_token_x k) (- x) t + on (pk_token_y k) (- y) t) /\
    (x <> 0 -> x <= bal s (e_caller e) (pk_token_x k)).
Proof.
  unfold create_position. intros H.
  apply bind_Ok in H as (u1 & C1 & H). apply bind_Ok in H as (u2 & C2 & H).
  apply bind_Ok in H as (p0 & E1 & H). apply bind_Ok in H as ([tl0 al] & E2 & H).
  apply bind_Ok in H as ([tu0 au] & E3 & H).
  apply bind_Ok in H as ([[[[pos1 p] t1] t0] [z0 z]] & E4 & H).
  apply bind_Ok in H as ([s1 r1] & E5 & H). apply bind_Ok in H as ([s2 r2] & E6 & H).
  apply bind_Ok in H as (s3 & E7 & H). apply bind_Ok in H as (s4 & E8 & H).
  apply bind_Ok in H as (s5 & E9 & H). injection H as -> ->.
  apply fail_if_Ok in C1, C2. apply pools_get_Ok in E1.
  apply decrease_spec in E5. destruct E5 as ((B1 & ->) & D1 & D2 & D3 & ->).
  apply decrease_spec in E6. destruct E6 as ((B2 & ->) & G1 & G2 & G3 & ->).
  apply pools_update_Ok in E7. subst s3. unfold positions_add in *.
  assert (T1 : exists b1, s4 = set_bitmap b1 (set_ticks (<[(k, t_index t0) := t0]> (s_ticks s))
      (set_positions (<[e_caller e := (positions_get_length s (e_caller e) + 1) mod M32]> (s_positions_length s))
         (<[(e_caller e, positions_get_length s (e_caller e)) := pos]> (s_positions s))
         (set_pools (<[k := p]> (s_pools s)) (set_balances B2 s)))) /\
     (if al then s_ticks s !! (k, t_index t0) = None /\ tickmap_flip (s_bitmap s) true (t_index t0) (pk_spacing k) k = Ok b1
     else b1 = s_bitmap s /\ exists t, s_ticks s !! (k, t_index t0) = Some t)).
  { destruct al.
    - unfold add_tick in E8. apply bind_Ok in E8 as (v0 & E5 & E8). apply bind_Ok in E8 as (v1 & E6 & E8). injection E8 as <-. unfold ticks_add in E5.
      cbn [set_positions set_pools set_balances s_ticks] in E5.
      destruct (s_ticks s !! (k, t_index t0)) eqn:ET; [discriminate|]. injection E5 as <-.
      cbn [set_positions set_pools set_balances set_ticks s_bitmap] in E6. exists v1. split; [reflexivity|]. auto.
    - apply ticks_update_Ok in E8. destruct E8 as (-> & t2 & Ht).
      exists (s_bitmap s). split; [reflexivity|]. eauto. }
  destruct T1 as (b1 & -> & T1).
  assert (T2 : exists b2, s' = set_bitmap b2 (set_ticks (<[(k, t_index t1) := t1]> (<[(k, t_index t0) := t0]> (s_ticks s)))
      (set_positions (<[e_caller e := (positions_get_length s (e_caller e) + 1) mod M32]> (s_positions_length s))
         (<[(e_caller e, positions_get_length s (e_caller e)) := pos]> (s_positions s))
         (set_pools (<[k := p]> (s_pools s)) (set_balances B2 s)))) /\
     (if au then (<[(k, t_index t0) := t0]> (s_ticks s)) !! (k, t_index t1) = None /\ tickmap_flip b1 true (t_index t1) (pk_spacing k) k = Ok b2
     else b2 = b1 /\ exists t, (<[(k, t_index t0) := t0]> (s_ticks s)) !! (k, t_index t1) = Some t)).
  { destruct au.
    - unfold add_tick in E9. apply bind_Ok in E9 as (v0 & E5 & E9). apply bind_Ok in E9 as (v1 & E6 & E9). injection E9 as <-. unfold ticks_add in E5.
      cbn [set_positions set_pools set_balances set_bitmap set_ticks s_ticks] in E5.
      destruct (<[(k, t_index t0) := t0]> (s_ticks s) !! (k, t_index t1)) eqn:ET; [discriminate|]. injection E5 as <-.
      cbn [set_positions set_pools set_balances set_ticks set_bitmap s_bitmap] in E6. exists v1. split; [reflexivity|]. auto.
    - apply ticks_update_Ok in E9. destruct E9 as (-> & t4 & Ht).
      exists b1. split; [reflexivity|]. eauto. }
  destruct T2 as (b2 & -> & T2).
  exists p0, tl0, al, tu0, au, p, t0, t1, z0, z, b1.
  assert (D : ledger s (set_balances B2 s)
    (both (at_ (e_caller e) (pk_token_x k) (- z0)) (at_ (e_caller e) (pk_token_y k) (- z)))).
  { intros u tt'. change (set_balances B2 s) with (set_balances B2 (set_balances B1 s)).
    rewrite G1, D1. unfold both, at_. repeat destruct (_ && _); lia. }
  assert (DT : ledger_total s (set_balances B2 s)
    (fun t => on (pk_token_x k) (- z0) t + on (pk_token_y k) (- z) t)).
  { intros tt'. change (set_balances B2 s) with (set_balances B2 (set_balances B1 s)).
    rewrite G2, D2. unfold on. repeat destruct (_ =? _); lia. }
  split; [lia|]. split; [lia|].
  repeat (split; [first [assumption | reflexivity | repeat split; reflexivity]|]).
  exact D3.
Qed.

Lemma two_increase s X Y u x y s2 s3 :
  increase_token_balance s X u x = Ok s2 -> increase_token_balance s2 Y u y = Ok s3 ->
  exists B, s3 = set_balances B s /\
    ledger s s3 (both (at_ u X x) (at_ u Y y)) /\
    ledger_total s s3 (fun t => on X x t + on Y y t).
Proof.
  intros H1 H2. apply increase_spec in H1 as ((B1 & ->) & D1 & D2 & _).
  apply increase_spec in H2 as ((B2 & ->) & G1 & G2 & _).
  exists B2. split; [reflexivity|]. split.
  - intros w t. rewrite G1, D1. unfold both. lia.
  - intros t. rewrite G2, D2. unfold on. lia.
Qed.

(** Index of the last position of an owner ([positions_length - 1] on u32). *)
Definition last_index (s : state) (a : Z) : Z := (positions_get_length s a - 1) mod M32.

Definition removed_positions (s : state) (a i : Z) (lp : option position) : gmap (Z * Z) position :=
  match lp with
  | Some q => <[(a, i) := q]> (delete (a, last_index s a) (s_positions s))
  | None => delete (a, i) (s_positions s)
  end.

Lemma positions_remove_inv s a i s' p : positions_remove s a i = Ok (s', p) ->
  s_positions s !! (a, i) = Some p /\
  exists lp,
    (match lp with Some q => i < last_index s a /\ s_positions s !! (a, last_index s a) = Some q
                 | None => last_index s a <= i end) /\
    s' = set_positions (<[a := last_index s a]> (s_positions_length s)) (removed_positions s a i lp) s.
Proof.
  unfold positions_remove. fold (last_index s a). intros H.
  apply bind_Ok in H as (q & E1 & H). apply positions_get_Ok in E1.
  apply bind_Ok in H as (m & E2 & H). injection H as <- <-. split; [auto|].
  destruct (Z.ltb_spec i (last_index s a)).
  - apply bind_Ok in E2 as (lp & E3 & E2). apply expect_Ok in E3. injection E2 as <-.
    exists (Some lp). auto.
  - injection E2 as <-. exists None. auto.
Qed.

Lemma remove_position_inv e s i s' x y : remove_position e s i = Ok (s', (x, y)) ->
  exists pos tl0 tu0 p pos' p' tu tl dx dy rl ru b1 T1 lp,
    let k := pos_pool_key pos in
    s_positions s !! (e_caller e, i) = Some pos /\
    s_ticks s !! (k, pos_lower pos) = Some tl0 /\
    s_ticks s !! (k, pos_upper pos) = Some tu0 /\
    s_pools s !! k = Some p /\
    position_modify pos p tu0 tl0 (pos_liquidity pos) false (e_timestamp e) (pk_spacing k)
      = Ok (pos', p', tu, tl, (dx, dy)) /\
    x = dx + pos_tokens_owed_x pos' /\ y = dy + pos_tokens_owed_y pos' /\
    rl = (t_liquidity_gross tl =? 0) /\ ru = (t_liquidity_gross tu =? 0) /\
    same_cfg s s' /\
    s_pools s' = <[k := p']> (s_pools s) /\
    (if rl then T1 = delete (k, t_index tl) (s_ticks s) /\
                tickmap_flip (s_bitmap s) false (t_index tl) (pk_spacing k) k = Ok b1
     else T1 = <[(k, pos_lower pos) := tl]> (s_ticks s) /\ b1 = s_bitmap s) /\
    (if ru then s_ticks s' = delete (k, t_index tu) T1 /\
                tickmap_flip b1 false (t_index tu) (pk_spacing k) k = Ok (s_bitmap s')
     else s_ticks s' = <[(k, pos_upper pos) := tu]> T1 /\ s_bitmap s' = b1) /\
    (match lp with Some q => i < last_index s (e_caller e) /\ s_positions s !! (e_caller e, last_index s (e_caller e)) = Some q
                 | None => last_index s (e_caller e) <= i end) /\
    s_positions s' = removed_positions s (e_caller e) i lp /\
    s_positions_length s' = <[e_caller e := last_index s (e_caller e)]> (s_positions_length s) /\
    ledger s s' (both (at_ (e_caller e) (pk_token_x k) x) (at_ (e_caller e) (pk_token_y k) y)) /\
    ledger_total s s' (fun t => on (pk_token_x k) x t + on (pk_token_y k) y t).
Proof.
  unfold remove_position. intros H.
  apply bind_Ok in H as (pos & E1 & H). apply positions_get_Ok in E1.
  apply bind_Ok in H as (tl0 & E2 & H). apply ticks_get_Ok in E2.
  apply bind_Ok in H as (tu0 & E3 & H). apply ticks_get_Ok in E3.
  apply bind_Ok in H as (p & E4 & H). apply pools_get_Ok in E4.
  apply bind_Ok in H as ([[[[[[pos' p'] tu] tl] [ax ay]] rl] ru] & E5 & H).
  apply bind_Ok in H as (s1 & E6 & H). apply bind_Ok in H as (s2 & E7 & H).
  apply bind_Ok in H as (s3 & E8 & H). apply bind_Ok in H as ([s4 q4] & E9 & H).
  apply bind_Ok in H as (s5 & E10 & H). apply bind_Ok in H as (s6 & E11 & H). injection H as -> -> ->.
  unfold position_remove in E5. apply bind_Ok in E5 as ([[[[pos1 p1] tu1] tl1] [dx dy]] & E5 & H).
  apply unwrap_inv in E5. apply bind_Ok in H as (x1 & X1 & H). apply bind_Ok in H as (y1 & Y1 & H).
  injection H as -> -> -> -> -> -> <- <-.
  apply expect_Ok, checked_add_Some in X1 as [-> _]. apply expect_Ok, checked_add_Some in Y1 as [-> _].
  apply pools_update_Ok in E6. subst s1. set (k := pos_pool_key pos) in *.
  assert (A1 : exists T1 b1, s2 = set_bitmap b1 (set_ticks T1 (set_pools (<[k := p']> (s_pools s)) s)) /\
     (if t_liquidity_gross tl =? 0 then T1 = delete (k, t_index tl) (s_ticks s) /\
                tickmap_flip (s_bitmap s) false (t_index tl) (pk_spacing k) k = Ok b1
     else T1 = <[(k, pos_lower pos) := tl]> (s_ticks s) /\ b1 = s_bitmap s)).
  { destruct (t_liquidity_gross tl =? 0) eqn:EG.
    - unfold remove_tick in E7. apply bind_Ok in E7 as (v & _ & E7). apply bind_Ok in E7 as (b & Eb & E7).
      unfold ticks_remove in E7. apply bind_Ok in E7 as (v2 & _ & E7). injection E7 as <-.
      exists (delete (k, t_index tl) (s_ticks s)), b. split; [reflexivity|]. auto.
    - apply ticks_update_Ok in E7 as (-> & _). exists (<[(k, pos_lower pos) := tl]> (s_ticks s)), (s_bitmap s). split; [reflexivity|]. auto. }
  destruct A1 as (T1 & b1 & -> & A1).
  assert (A2 : exists T2 b2, s3 = set_bitmap b2 (set_ticks T2 (set_pools (<[k := p']> (s_pools s)) s)) /\
     (if t_liquidity_gross tu =? 0 then T2 = delete (k, t_index tu) T1 /\
                tickmap_flip b1 false (t_index tu) (pk_spacing k) k = Ok b2
     else T2 = <[(k, pos_upper pos) := tu]> T1 /\ b2 = b1)).
  { destruct (t_liquidity_gross tu =? 0) eqn:EG.
    - unfold remove_tick in E8. apply bind_Ok in E8 as (v & _ & E8). apply bind_Ok in E8 as (b & Eb & E8).
      unfold ticks_remove in E8. apply bind_Ok in E8 as (v2 & _ & E8). injection E8 as <-.
      exists (delete (k, t_index tu) T1), b. split; [reflexivity|]. auto.
    - apply ticks_update_Ok in E8 as (-> & _). exists (<[(k, pos_upper pos) := tu]> T1), b1. split; [reflexivity|]. auto. }
  destruct A2 as (T2 & b2 & -> & A2).
  apply positions_remove_inv in E9 as (_ & lp & HL & ->).
  destruct (two_increase _ _ _ _ _ _ _ _ E10 E11) as (B & -> & D & DT). clear E10 E11.
  exists pos, tl0, tu0, p, pos', p', tu, tl, dx, dy, (t_liquidity_gross tl =? 0), (t_liquidity_gross tu =? 0), b1, T1, lp.
  cbv zeta. fold k.
  change (last_index (set_bitmap b2 _) (e_caller e)) with (last_index s (e_caller e)) in *.
  do 9 (split; [first [assumption|reflexivity]|]).
  split; [repeat split|]. split; [reflexivity|]. split; [exact A1|].
  split; [exact A2|]. split; [exact HL|].
  split; [destruct lp; reflexivity|]. split; [reflexivity|].
  split; [exact D|exact DT].
Qed.

Lemma transfer_position_inv e s i rc s' r : transfer_position e s i rc = Ok (s', r) ->
  exists pos lp s1,
    s_positions s !! (e_caller e, i) = Some pos /\
    (match lp with Some q => i < last_index s (e_caller e) /\ s_positions s !! (e_caller e, last_index s (e_caller e)) = Some q
                 | None => last_index s (e_caller e) <= i end) /\
    s1 = set_positions (<[e_caller e := last_index s (e_caller e)]> (s_positions_length s))
           (removed_positions s (e_caller e) i lp) s /\
    s' = positions_add s1 rc pos.
Proof.
  unfold transfer_position, positions_transfer. intros H.
  apply bind_Ok in H as (s1 & H & E). injection E as -> _.
  apply bind_Ok in H as ([s2 pos] & H & E). injection E as <-.
  apply positions_remove_inv in H as (H1 & lp & H2 & ->). exists pos, lp. eauto.
Qed.

Lemma claim_fee_inv e s i s' x y : claim_fee e s i = Ok (s', (x, y)) ->
  exists pos tl0 tu0 p pos' p' tu tl dx dy B,
    let k := pos_pool_key pos in
    s_positions s !! (e_caller e, i) = Some pos /\
    s_ticks s !! (k, pos_lower pos) = Some tl0 /\
    s_ticks s !! (k, pos_upper pos) = Some tu0 /\
    s_pools s !! k = Some p /\
    position_modify pos p tu0 tl0 0 true (e_timestamp e) (pk_spacing k)
      = Ok (pos', p', tu, tl, (dx, dy)) /\
    x = pos_tokens_owed_x pos' /\ y = pos_tokens_owed_y pos' /\
    i < positions_get_length s (e_caller e) /\
    s' = set_balances B (set_ticks (<[(k, t_index tl) := tl]> (<[(k, t_index tu) := tu]> (s_ticks s)))
           (set_pools (<[k := p']> (s_pools s))
             (set_positions (s_positions_length s)
               (<[(e_caller e, i) := mkPosition (pos_pool_key pos') (pos_liquidity pos') (pos_lower pos')
                   (pos_upper pos') (pos_fee_growth_inside_x pos') (pos_fee_growth_inside_y pos')
                   (pos_last_block_number pos') 0 0]> (s_positions s)) s))) /\
    ledger s s' (both (at_ (e_caller e) (pk_token_x k) x) (at_ (e_caller e) (pk_token_y k) y)) /\
    ledger_total s s' (fun t => on (pk_token_x k) x t + on (pk_token_y k) y t).
Proof.
  unfold claim_fee. intros H.
  apply bind_Ok in H as (pos & E1 & H). apply positions_get_Ok in E1.
  apply bind_Ok in H as (tl0 & E2 & H). apply ticks_get_Ok in E2.
  apply bind_Ok in H as (tu0 & E3 & H). apply ticks_get_Ok in E3.
  apply bind_Ok in H as (p & E4 & H). apply pools_get_Ok in E4.
  apply bind_Ok in H as ([[[[pos1 p'] tu] tl] [ax ay]] & E5 & H).
  apply bind_Ok in H as (s1 & E6 & H). apply bind_Ok in H as (s2 & E7 & H).
  apply bind_Ok in H as (s3 & E8 & H). apply bind_Ok in H as (s4 & E9 & H).
  apply bind_Ok in H as (s5 & E10 & H). apply bind_Ok in H as (s6 & E11 & H). injection H as -> -> ->.
  unfold position_claim_fee in E5. apply bind_Ok in E5 as ([[[[pos' p1] tu1] tl1] [dx dy]] & E5 & H).
  apply unwrap_inv in E5. injection H as <- -> -> -> <- <-.
  unfold positions_update in E6. apply bind_Ok in E6 as (v & E6a & E6). apply fail_if_Ok in E6a. injection E6 as <-.
  apply pools_update_Ok in E7. subst s2.
  apply ticks_update_Ok in E8 as (-> & _). apply ticks_update_Ok in E9 as (-> & _).
  destruct (two_increase _ _ _ _ _ _ _ _ E10 E11) as (B & -> & D & DT). clear E10 E11.
  exists pos, tl0, tu0, p, pos', p', tu, tl, dx, dy, B. cbv zeta.
  do 7 (split; [first [assumption|reflexivity]|]). split; [lia|]. split; [reflexivity|]. auto.
Qed.

Lemma withdraw_protocol_fee_inv e s k s' r : withdraw_protocol_fee e s k = Ok (s', r) ->
  exists p B,
    s_pools s !! k = Some p /\ p_fee_receiver p = e_caller e /\
    s' = set_balances B (set_pools (<[k := fst (pool_withdraw_protocol_fee p)]> (s_pools s)) s) /\
    ledger s s' (both (at_ (e_caller e) (pk_token_x k) (p_fee_protocol_token_x p))
                      (at_ (e_caller e) (pk_token_y k) (p_fee_protocol_token_y p))) /\
    ledger_total s s' (fun t => on (pk_token_x k) (p_fee_protocol_token_x p) t
                                + on (pk_token_y k) (p_fee_protocol_token_y p) t).
Proof.
  unfold withdraw_protocol_fee. intros H.
  apply bind_Ok in H as (p & E1 & H). apply pools_get_Ok in E1.
  apply bind_Ok in H as (v & E2 & H). apply fail_if_Ok, negb_false_iff in E2.
  cbn [pool_withdraw_protocol_fee] in H.
  apply bind_Ok in H as (s1 & E3 & H). apply bind_Ok in H as (s2 & E4 & H).
  apply bind_Ok in H as (s3 & E5 & H). injection H as -> _.
  apply pools_update_Ok in E3. subst s1.
  destruct (two_increase _ _ _ _ _ _ _ _ E4 E5) as (B & -> & D & DT).
  exists p, B. split; [auto|]. split; [lia|]. auto.
Qed.

(** ** Swaps *)

Fixpoint put_ticks (k : pool_key) (l : list tick) (m : gmap (pool_key * Z) tick) : gmap (pool_key * Z) tick :=
  match l with [] => m | t :: l' => put_ticks k l' (<[(k, t_index t) := t]> m) end.

Lemma put_ticks_fold k l : forall s s',
  foldM_res (fun s t => ticks_update s k (t_index t) t) l s = Ok s' ->
  s' = set_ticks (put_ticks k l (s_ticks s)) s.
Proof.
  induction l as [|t l IH]; cbn [foldM_res put_ticks]; intros s s' H.
  - injection H as <-. destruct s; reflexivity.
  - apply bind_Ok in H as (s1 & E & H). apply ticks_update_Ok in E as (-> & _).
    apply IH in H. subst s'. reflexivity.
Qed.

Lemma swap_inv e s k d a b lim s' r : swap e s k d a b lim = Ok (s', r) ->
  exists B,
    calculate_swap s (e_timestamp e) k d a b lim = Ok r /\
    s' = set_balances B (set_pools (<[k := cs_pool r]> (s_pools s))
           (set_ticks (put_ticks k (cs_ticks r) (s_ticks s)) s)) /\
    ledger s s' (both (at_ (e_caller e) (if d then pk_token_x k else pk_token_y k) (- cs_amount_in r))
                      (at_ (e_caller e) (if d then pk_token_y k else pk_token_x k) (cs_amount_out r))) /\
    ledger_total s s' (fun t => on (if d then pk_token_x k else pk_token_y k) (- cs_amount_in r) t
                                + on (if d then pk_token_y k else pk_token_x k) (cs_amount_out r) t) /\
    (cs_amount_in r <> 0 -> cs_amount_in r <= bal s (e_caller e) (if d then pk_token_x k else pk_token_y k)).
Proof.
  unfold swap. intros H.
  apply bind_Ok in H as (r1 & E1 & H). apply bind_Ok in H as (s1 & E2 & H).
  apply put_ticks_fold in E2. subst s1.
  apply bind_Ok in H as (s2 & E3 & H). apply pools_update_Ok in E3. subst s2.
  assert (G : exists s4, (exists s3 v, decrease_token_balance (set_pools (<[k := cs_pool r1]> (s_pools s))
           (set_ticks (put_ticks k (cs_ticks r1) (s_ticks s)) s)) (if d then pk_token_x k else pk_token_y k)
           (e_caller e) (Some (cs_amount_in r1)) = Ok (s3, v) /\
      increase_token_balance s3 (if d then pk_token_y k else pk_token_x k) (e_caller e) (cs_amount_out r1) = Ok s4) /\
      s4 = s' /\ r1 = r).
  { destruct d; apply bind_Ok in H as ([s3 v] & E4 & H); apply bind_Ok in H as (s4 & E5 & H);
      injection H as -> ->; exists s'; (split; [exists s3, v; split; assumption|auto]). }
  clear H. destruct G as (s4 & (s3 & v & E4 & E5) & -> & ->).
  apply decrease_spec in E4 as ((B1 & ->) & D1 & D2 & D3 & ->).
  apply increase_spec in E5 as ((B2 & ->) & G1 & G2 & _).
  exists B2. split; [auto|]. split; [reflexivity|]. split; [|split; [|exact D3]].
  - intros u t. rewrite G1, D1. unfold both, at_.
    change (bal (set_pools _ _) u t) with (bal s u t). repeat destruct (_ && _); lia.
  - intros t. rewrite G2, D2. change (bal_total (set_pools _ _) t) with (bal_total s t).
    unfold on. repeat destruct (_ =? _); lia.
Qed.

Lemma deposit_vara_inv e s s' v : deposit_vara e s = Ok (s', v) ->
  v = e_value e /\ (exists B, s' = set_balances B s) /\
  ledger s s' (at_ (e_caller e) VARA_ADDRESS v) /\ ledger_total s s' (on VARA_ADDRESS v).
Proof.
  unfold deposit_vara. intros H. apply bind_Ok in H as (s1 & E & H). injection H as -> <-.
  apply increase_spec in E as (H1 & H2 & H3 & _). auto.
Qed.
Lemma withdraw_vara_inv e s o s' v : withdraw_vara e s o = Ok (s', v) ->
  (exists B, s' = set_balances B s) /\
  ledger s s' (at_ (e_caller e) VARA_ADDRESS (- v)) /\ ledger_total s s' (on VARA_ADDRESS (- v)) /\
  v < M128 /\ (v <> 0 -> v <= bal s (e_caller e) VARA_ADDRESS) /\
  match o with Some a => v = a /\ a <> 0 | None => v = bal s (e_caller e) VARA_ADDRESS end.
Proof.
  unfold withdraw_vara. intros H. apply bind_Ok in H as ([s1 v1] & E & H).
  apply bind_Ok in H as (v2 & Ev & H). injection H as -> ->.
  apply expect_Ok, checked_cast_Some in Ev as [-> Ev].
  assert (G : forall o, decrease_token_balance s VARA_ADDRESS (e_caller e) o = Ok (s', v1) ->
    (exists B, s' = set_balances B s) /\ ledger s s' (at_ (e_caller e) VARA_ADDRESS (- v1)) /\
    ledger_total s s' (on VARA_ADDRESS (- v1)) /\ v1 < M128 /\
    (v1 <> 0 -> v1 <= bal s (e_caller e) VARA_ADDRESS) /\
    (match o with Some a => v1 = a | None => v1 = bal s (e_caller e) VARA_ADDRESS end)).
  { intros o1 Ho. apply decrease_spec in Ho as (H1 & H2 & H3 & H4 & H5).
    split; [auto|]. split; [|split; [|auto]].
    - intros u t. rewrite H2. unfold at_. destruct (_ && _); lia.
    - intros t. rewrite H3. unfold on. destruct (_ =? _); lia. }
  destruct o as [a|].
  - apply bind_Ok in E as (u & E1 & E2). apply fail_if_Ok in E1.
    apply G in E2 as (H1 & H2 & H3 & H4 & H5 & ->).
    do 5 (split; [assumption|]). split; [reflexivity|lia].
  - destruct (decrease_token_balance s VARA_ADDRESS (e_caller e) None) as [[s2 v2]| | |] eqn:ED; try discriminate.
    + injection E as -> ->. apply G in ED. exact ED.
    + injection E as <- <-. split; [exists (s_balances s); destruct s; reflexivity|].
      split; [intros u t; unfold at_; destruct (_ && _); lia|].
      split; [intros t; unfold on; destruct (_ =? _); lia|]. split; [reflexivity|]. split; [lia|].
      unfold decrease_token_balance in ED. cbn [bool_decide decide] in ED.
      unfold bal, balm. destruct (s_balances s !! e_caller e) as [m|]; cbn [from_option id] in *; [|rewrite lookup_empty; reflexivity].
      cbn [bind ok_or] in ED. destruct (m !! VARA_ADDRESS); [|reflexivity].
      cbn [bind ok_or] in ED. destruct (bool_decide (delete VARA_ADDRESS m = ∅)); discriminate.
Qed.
