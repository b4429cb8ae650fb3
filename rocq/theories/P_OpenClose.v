(** Opening and closing a position: proofs for C71. *)
From Verif Require Import Base Decimal SqrtPriceM LogM ClammM FeeGrowthM Types TickmapM StorageM
  CollectionsM StateM ServiceM Arith SpecMath SpecState SpecHistory P_Clamm P_Tickmap P_Effects P_Positions P_Inv P_InvPos P_InvHist P_PosOps
  SpecIndep SpecTrace P_Indep P_Trace.
From stdpp Require Import gmap list.
From Coq Require Import ZArith Lia Bool.
Open Scope Z_scope.

(** What position changes leave of a tick. *)
Definition kept (t t' : tick) : Prop :=
  t_fee_growth_outside_x t' = t_fee_growth_outside_x t /\ t_fee_growth_outside_y t' = t_fee_growth_outside_y t /\
  t_seconds_outside t' = t_seconds_outside t.

Lemma create_kept e s k lo up L sl su s' pos : Inv s -> u256 L ->
  create_position e s k lo up L sl su = Ok (s', pos) ->
  forall j t, s_ticks s !! j = Some t -> exists t', s_ticks s' !! j = Some t' /\ kept t t'.
Proof.
  intros I HL H. apply create_position_inv in H
    as (p & tl0 & al & tu0 & au & p' & tl & tu & x & y & b1 & L0 & Hne & Hp & G1 & G2 & PC & CF & SP & SPos & SLen & ST & _).
  pose proof (I_pool _ I _ _ Hp) as PO.
  destruct (get_or_create_ok _ _ _ _ _ _ _ I Hp G1) as (TO1 & X1 & _).
  destruct (get_or_create_ok _ _ _ _ _ _ _ I Hp G2) as (TO2 & X2 & _).
  destruct (position_create_facts s p k tl0 tu0 _ L sl su _ pos p' tu tl x y lo up TO1 TO2 PO L0 HL Hne PC)
    as (mx & u & Hsl & Hmx & U1 & U2 & EP & AD & EP' & Hu & Hlt & Eu).
  apply tick_update_inv in U1 as (I1 & _ & A1 & B1 & C1 & _). apply tick_update_inv in U2 as (I2 & _ & A2 & B2 & C2 & _).
  rewrite (to_index _ _ _ _ TO1) in I1. rewrite (to_index _ _ _ _ TO2) in I2. rewrite I1, I2 in ST.
  intros j t Hj. rewrite ST. destruct (decide ((k, up) = j)) as [<-|N1].
  - exists tu. rewrite lookup_insert. split; [reflexivity|]. destruct au; rewrite Hj in X2; [discriminate X2|]. injection X2 as ->. split; auto.
  - rewrite lookup_insert_ne by exact N1. destruct (decide ((k, lo) = j)) as [<-|N2].
    + exists tl. rewrite lookup_insert. split; [reflexivity|]. destruct al; rewrite Hj in X1; [discriminate X1|]. injection X1 as ->. split; auto.
    + exists t. rewrite lookup_insert_ne by exact N2. split; [exact Hj|split; auto].
Qed.

Lemma remove_kept e s i s' x y : Inv s -> remove_position e s i = Ok (s', (x, y)) ->
  (forall k j t', s_ticks s' !! (k, j) = Some t' -> exists t, s_ticks s !! (k, j) = Some t /\ kept t t') /\
  s_positions_length s' = <[e_caller e := last_index s (e_caller e)]> (s_positions_length s).
Proof.
  intros I H. apply remove_position_inv in H
    as (pos & tl0 & tu0 & p & pos' & p' & tu & tl & dx & dy & rl & ru & b1 & T1 & lp & H). cbv zeta in H.
  destruct H as (Hpos & Htl & Htu & Hp & PM & Ex & Ey & Erl & Eru & CF & SP & A1 & A2 & HLP & SPos & SLen & Led & Tot).
  split; [|exact SLen].
  pose proof (I_pos _ I _ _ _ Hpos) as SO.
  pose proof (proj2 (I_tick _ I _ _ _ Htl)) as TO1. pose proof (proj2 (I_tick _ I _ _ _ Htu)) as TO2.
  destruct (position_modify_facts s pos p tu0 tl0 _ _ _ pos' p' tu tl dx dy TO1 TO2 SO PM)
    as (mx & u & ox & oy & _ & U1 & U2 & F1 & F2 & EP & AD & EP' & Hu & Eu & I1 & I2).
  apply tick_update_inv in U1 as (_ & _ & X1 & Y1 & Z1 & _). apply tick_update_inv in U2 as (_ & _ & X2 & Y2 & Z2 & _).
  rewrite I1, I2 in *. intros k j t' Ht'.
  assert (S1 : forall k j t', T1 !! (k, j) = Some t' -> exists t, s_ticks s !! (k, j) = Some t /\ kept t t').
  { intros k1 j1 t1 H1. destruct rl; destruct A1 as [-> _].
    - apply lookup_delete_Some in H1 as [_ H1]. exists t1. split; [exact H1|split; auto].
    - apply lookup_insert_Some in H1 as [[[= <- <-] <-]|[_ H1]]; [exists tl0; split; [exact Htl|split; auto]|exists t1; split; [exact H1|split; auto]]. }
  destruct ru; destruct A2 as [E2 _]; rewrite E2 in Ht'.
  - apply lookup_delete_Some in Ht' as [_ Ht']. auto.
  - apply lookup_insert_Some in Ht' as [[[= <- <-] <-]|[_ Ht']]; [exists tu0; split; [exact Htu|split; auto]|auto].
Qed.

(** Two states with the same liquidity at the ticks have the same ticks and the same bitmap. *)
Lemma ticks_from_positions s s' : Inv s -> Inv s' ->
  (forall k j, gross_at s k j = gross_at s' k j) -> (forall k j, net_at s k j = net_at s' k j) ->
  (forall k j t t', s_ticks s !! (k, j) = Some t -> s_ticks s' !! (k, j) = Some t' -> kept t t') ->
  (forall j, orel tsame (s_ticks s !! j) (s_ticks s' !! j)) /\
  (forall k c, chunk_at (s_bitmap s) k c = chunk_at (s_bitmap s') k c).
Proof.
  intros I I' HG HN K.
  assert (EX : forall k j, is_Some (s_ticks s !! (k, j)) <-> is_Some (s_ticks s' !! (k, j))).
  { intros k j. now rewrite (I_exists _ I), (I_exists _ I'), HG. }
  split.
  - intros [k j]. specialize (EX k j).
    destruct (s_ticks s !! (k, j)) as [t|] eqn:E1, (s_ticks s' !! (k, j)) as [t'|] eqn:E2; cbn.
    + destruct (I_tick _ I _ _ _ E1) as [_ T]. destruct (I_tick _ I' _ _ _ E2) as [_ T']. apply tsame_spec.
      pose proof (u256_M _ (to_change _ _ _ _ T)) as C. pose proof (u256_M _ (to_change _ _ _ _ T')) as C'.
      destruct (K _ _ _ _ E1 E2) as (Kx & Ky & Ks).
      assert (EN : t_net t = t_net t').
      { now rewrite (to_net _ _ _ _ T), (to_net _ _ _ _ T'). }
      unfold t_net in EN. split; [|lia]. unfold same_tick.
      rewrite (to_index _ _ _ _ T), (to_index _ _ _ _ T'), (to_gross _ _ _ _ T), (to_gross _ _ _ _ T'), (to_price _ _ _ _ T), (to_price _ _ _ _ T').
      rewrite HG. split; [reflexivity|]. split; [destruct (t_sign t), (t_sign t'); lia|].
      repeat (split; [first [reflexivity|symmetry; assumption]|]). intros N. destruct (t_sign t), (t_sign t'); try reflexivity; lia.
    + destruct EX as [EX _]. destruct (EX ltac:(eauto)) as [? [=]].
    + destruct EX as [_ EX]. destruct (EX ltac:(eauto)) as [? [=]].
    + exact Logic.I.
  - assert (EM : forall k n, mem (s_bitmap s) k n = mem (s_bitmap s') k n).
    { assert (HH : forall s1 s2, Inv s1 -> Inv s2 -> (forall k j, is_Some (s_ticks s1 !! (k, j)) -> is_Some (s_ticks s2 !! (k, j))) ->
        forall k n, mem (s_bitmap s1) k n = true -> mem (s_bitmap s2) k n = true).
      { intros s1 s2 I1 I2 EE k n M. apply (I_bit1 _ I1) in M as (i & Hi & ->). apply (I_bit2 _ I2). auto. }
      intros k n. destruct (mem (s_bitmap s) k n) eqn:M1, (mem (s_bitmap s') k n) eqn:M2; auto.
      - rewrite (HH s s' I I' ltac:(intros; now apply EX) k n M1) in M2. discriminate M2.
      - rewrite (HH s' s I' I ltac:(intros; now apply EX) k n M2) in M1. discriminate M1. }
    intros k c. apply Z.bits_inj'. intros n Hn. destruct (Z_lt_le_dec n 64) as [L|G].
    + rewrite <- !mem_bit by lia. apply EM.
    + assert (Hb : forall s, Inv s -> Z.testbit (chunk_at (s_bitmap s) k c) n = false).
      { intros s0 I0. pose proof (I_wf _ I0 c k) as W. destruct (Z.eq_dec (chunk_at (s_bitmap s0) k c) 0) as [->|N0]; [apply Z.bits_0|].
        apply Z.bits_above_log2; [lia|]. apply Z.log2_lt_pow2; [lia|]. eapply Z.lt_le_trans; [apply W|]. apply Z.pow_le_mono_r; lia. }
      now rewrite !Hb.
Qed.

Lemma open_close e e' s k lo up L sl su s1 pos s2 x y : Inv s -> Inv s1 -> u256 L ->
  positions_get_length s (e_caller e) < M32 - 1 ->
  create_position e s k lo up L sl su = Ok (s1, pos) -> e_caller e' = e_caller e ->
  remove_position e' s1 (positions_get_length s (e_caller e)) = Ok (s2, (x, y)) ->
  sim true (e_caller e) s s2.
Proof.
  intros I I1 HL HR E1 EC E2.
  destruct (create_summary _ _ _ _ _ _ _ _ _ _ I HL E1) as (p & ax & ay & mx & C).
  destruct (remove_summary _ _ _ _ _ _ I1 E2) as (pos' & p' & tl & tu & dx & dy & ox & oy & R).
  set (u := e_caller e) in *. set (n := positions_get_length s u) in *.
  assert (Hn : 0 <= n) by (apply (I_dense _ I)).
  pose proof (rm_pos _ _ _ _ _ _ _ _ _ _ _ _ _ _ R) as Hpos. rewrite EC in Hpos. fold u in Hpos.
  rewrite (cr_positions _ _ _ _ _ _ _ _ _ _ _ _ _ _ C) in Hpos. fold u n in Hpos. rewrite lookup_insert in Hpos. injection Hpos as <-.
  assert (FP : pos_pool_key pos = k /\ pos_liquidity pos = L /\ pos_lower pos = lo /\ pos_upper pos = up)
    by (rewrite (cr_pos _ _ _ _ _ _ _ _ _ _ _ _ _ _ C); auto). destruct FP as (FK & FL & Flo & Fup).
  (* positions *)
  assert (EL1 : positions_get_length s1 u = n + 1).
  { apply create_position_inv in E1 as (? & ? & ? & ? & ? & ? & ? & ? & ? & ? & ? & _ & _ & _ & _ & _ & _ & _ & _ & _ & SLen & _).
    unfold positions_get_length. rewrite SLen. fold u. fold n. rewrite lookup_insert. cbn. rewrite Z.mod_small; [reflexivity|lia]. }
  assert (LI : last_index s1 u = n).
  { unfold last_index. rewrite EL1. rewrite Z.mod_small; lia. }
  destruct (remove_kept _ _ _ _ _ _ I1 E2) as [RK RL]. rewrite EC in RL. fold u in RL. rewrite LI in RL.
  assert (EPos : s_positions s = s_positions s2).
  { destruct (rm_positions _ _ _ _ _ _ _ _ _ _ _ _ _ _ R) as (lp & HLP & ->). rewrite EC in *. fold u in HLP |- *. rewrite LI in HLP.
    destruct lp as [q|]; [lia|]. unfold removed_positions. rewrite (cr_positions _ _ _ _ _ _ _ _ _ _ _ _ _ _ C). fold u n.
    rewrite delete_insert; [reflexivity|]. apply (cr_fresh _ _ _ _ _ _ _ _ _ _ _ _ _ _ C). }
  assert (ELen : forall v, positions_get_length s v = positions_get_length s2 v).
  { intros v. destruct (decide (u = v)) as [<-|N].
    + unfold positions_get_length at 2. rewrite RL. rewrite lookup_insert. reflexivity.
    + unfold positions_get_length at 2. rewrite RL. rewrite lookup_insert_ne by exact N.
      apply create_position_inv in E1 as (? & ? & ? & ? & ? & ? & ? & ? & ? & ? & ? & _ & _ & _ & _ & _ & _ & _ & _ & _ & SLen & _).
      rewrite SLen. fold u. rewrite lookup_insert_ne by exact N. reflexivity. }
  assert (I2 : Inv s2).
  { eapply Inv_remove_position; [exact I1|exact E2|]. intros v. rewrite <- ELen, <- EPos. apply (I_dense _ I). }
  (* pools *)
  assert (EPool : s_pools s2 = <[k := set_last_timestamp (e_timestamp e') p]> (s_pools s)).
  { rewrite (rm_pools _ _ _ _ _ _ _ _ _ _ _ _ _ _ R), FK, FL, Flo, Fup.
    pose proof (rm_pool _ _ _ _ _ _ _ _ _ _ _ _ _ _ R) as Hp'. rewrite FK in Hp'.
    rewrite (cr_pools _ _ _ _ _ _ _ _ _ _ _ _ _ _ C) in Hp' |- *. rewrite lookup_insert in Hp'. injection Hp' as <-.
    rewrite insert_insert. f_equal. unfold with_liq. destruct p. cbn. destruct (in_range lo up _); [|reflexivity]. unfold set_liquidity, set_last_timestamp. cbn.
    f_equal. lia. }
  assert (TK : forall k j t t', s_ticks s !! (k, j) = Some t -> s_ticks s2 !! (k, j) = Some t' -> kept t t').
  { intros k0 j t t' H1 H2. apply RK in H2 as (t1 & H3 & (A1 & A2 & A3)).
    destruct (create_kept _ _ _ _ _ _ _ _ _ _ I HL E1 _ _ H1) as (t1' & H4 & (B1 & B2 & B3)). rewrite H3 in H4. injection H4 as <-.
    split; [congruence|split; congruence]. }
  destruct (ticks_from_positions s s2 I I2) as [ET EB];
    [intros; unfold gross_at; now rewrite EPos|intros; unfold net_at; now rewrite EPos|exact TK|].
  pose proof (cr_cfg _ _ _ _ _ _ _ _ _ _ _ _ _ _ C) as (c1 & c2 & c3 & c4 & c5 & c6 & c7).
  pose proof (rm_cfg _ _ _ _ _ _ _ _ _ _ _ _ _ _ R) as (d1 & d2 & d3 & d4 & d5 & d6 & d7).
  constructor; try congruence.
  - split; [congruence|split; congruence].
  - intros k'. rewrite EPool. pose proof (I_pool _ I) as PO. destruct (decide (k = k')) as [<-|N].
    + rewrite lookup_insert. rewrite (cr_pool _ _ _ _ _ _ _ _ _ _ _ _ _ _ C). cbn. split; [eauto|].
      apply u256_M. apply (PO _ _ (cr_pool _ _ _ _ _ _ _ _ _ _ _ _ _ _ C)).
    + rewrite lookup_insert_ne by exact N. destruct (s_pools s !! k') as [q|] eqn:Eq; cbn; [|exact Logic.I].
      split; [exists (p_last_timestamp q); destruct q; reflexivity|]. apply u256_M. apply (PO _ _ Eq).
  - exact ET.
  - intros i _. rewrite <- EPos. destruct (s_positions s !! i) as [q|] eqn:Eq; cbn; [|exact Logic.I]. split; [reflexivity|].
    destruct i as [a i]. pose proof (so_liq _ _ (I_pos _ I _ _ _ Eq)). unfold posok. lia.
  - intros v Hv.
    assert (K1 := proj2 (call_keeps s (Call e (OpCreatePosition k lo up L sl su))) (UserPart v)).
    cbn [changes exec_event] in K1. unfold exec_op, run_op in K1. rewrite E1 in K1. cbn [drop_result bind] in K1.
    assert (K2 := proj2 (call_keeps s1 (Call e' (OpRemovePosition n))) (UserPart v)).
    cbn [changes exec_event] in K2. unfold exec_op, run_op in K2. rewrite E2 in K2. cbn [drop_result bind] in K2.
    destruct K1 as [K1 _]. { fold u. intros Q. apply elem_of_cons in Q as [Q|Q]; [congruence|]. apply elem_of_list_singleton in Q. discriminate Q. }
    destruct K2 as [K2 _].
    { rewrite EC. fold u. intros Q. apply elem_of_cons in Q as [Q|Q]; [congruence|]. unfold pool_of_position in Q.
      destruct (s_positions s1 !! (u, n)); [|now apply elem_of_nil in Q]. apply elem_of_list_singleton in Q. discriminate Q. }
    congruence.
Qed.
