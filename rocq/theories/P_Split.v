(** Splitting a position: proofs for C73. *)
From Verif Require Import Base Decimal SqrtPriceM LogM ClammM FeeGrowthM Types TickmapM StorageM
  CollectionsM StateM ServiceM Arith SpecMath SpecFees SpecSum SpecState SpecHistory SpecSolv SpecShare SpecCost SpecIndep SpecTrace SpecOften
  P_Clamm P_Fees P_Balance P_Tickmap P_Effects P_Positions P_History P_Inv P_InvPos P_InvHist P_PosOps P_Owed P_Share P_Indep P_Trace P_OpenClose P_Solv P_Often.
From stdpp Require Import gmap list.
From Coq Require Import ZArith Lia Bool.
Open Scope Z_scope.

Lemma kept_trans t t1 t2 t3 : kept t t1 -> kept t t2 -> kept t1 t3 -> kept t2 t3.
Proof. intros (A & B & C) (D & E & F) (G & H & J). split; [congruence|split; congruence]. Qed.
Lemma kept_refl t : kept t t.
Proof. split; [reflexivity|split; reflexivity]. Qed.

(** The ticks of a new position start from what [get_or_create_tick] finds or makes. *)
Lemma create_base e s k lo up L sl su s' pos : Inv s -> u256 L ->
  create_position e s k lo up L sl su = Ok (s', pos) ->
  exists tl0 al tu0 au tl tu, get_or_create_tick s (e_timestamp e) k lo = Ok (tl0, al) /\
    get_or_create_tick s (e_timestamp e) k up = Ok (tu0, au) /\
    s_ticks s' = <[(k, up) := tu]> (<[(k, lo) := tl]> (s_ticks s)) /\ kept tl0 tl /\ kept tu0 tu.
Proof.
  intros I HL H. apply create_position_inv in H
    as (p & tl0 & al & tu0 & au & p' & tl & tu & x & y & b1 & L0 & Hne & Hp & G1 & G2 & PC & CF & SP & SPos & SLen & ST & _).
  pose proof (I_pool _ I _ _ Hp) as PO.
  destruct (get_or_create_ok _ _ _ _ _ _ _ I Hp G1) as (TO1 & X1 & _).
  destruct (get_or_create_ok _ _ _ _ _ _ _ I Hp G2) as (TO2 & X2 & _).
  destruct (position_create_facts s p k tl0 tu0 _ L sl su _ pos p' tu tl x y lo up TO1 TO2 PO L0 HL Hne PC)
    as (mx & u & Hsl & Hmx & U1 & U2 & EP & AD & EP' & Hu & Hlt & Eu).
  apply tick_update_inv in U1 as (I1 & _ & A1 & B1 & C1 & _). apply tick_update_inv in U2 as (I2 & _ & A2 & B2 & C2 & _).
  rewrite (to_index _ _ _ _ TO1) in I1. rewrite (to_index _ _ _ _ TO2) in I2. rewrite I1, I2 in ST.
  exists tl0, al, tu0, au, tl, tu. split; [exact G1|]. split; [exact G2|]. split; [exact ST|]. split; split; auto.
Qed.

Lemma create_length e s k lo up L sl su s' pos : create_position e s k lo up L sl su = Ok (s', pos) ->
  s_positions_length s' = <[e_caller e := (positions_get_length s (e_caller e) + 1) mod M32]> (s_positions_length s).
Proof.
  intros E. apply create_position_inv in E as (? & ? & ? & ? & ? & ? & ? & ? & ? & ? & ? & _ & _ & _ & _ & _ & _ & _ & _ & _ & SLen & _). exact SLen.
Qed.

Lemma create_others e s k lo up L sl su s' pos : create_position e s k lo up L sl su = Ok (s', pos) ->
  forall v, v <> e_caller e -> same_part (UserPart v) s s'.
Proof.
  intros E v Hv. assert (K1 := proj2 (call_keeps s (Call e (OpCreatePosition k lo up L sl su))) (UserPart v)).
  cbn [changes exec_event] in K1. unfold exec_op, run_op in K1. rewrite E in K1. cbn [drop_result bind] in K1. apply K1.
  intros Q. apply elem_of_cons in Q as [Q|Q]; [congruence|]. apply elem_of_list_singleton in Q. discriminate Q.
Qed.

Lemma wrap_same B a b : wrap (B - a) = 0 -> wrap (B - b) = 0 -> wrap a = wrap b.
Proof.
  unfold wrap. intros H1 H2. pose proof (Z.div_mod (B - a) (2 ^ 128) ltac:(discriminate)) as D1.
  pose proof (Z.div_mod (B - b) (2 ^ 128) ltac:(discriminate)) as D2. rewrite H1 in D1. rewrite H2 in D2.
  set (q := (B - a) / 2 ^ 128) in *. set (r := (B - b) / 2 ^ 128) in *. replace a with (b + (r - q) * 2 ^ 128) by lia.
  apply Z_mod_plus_full.
Qed.
Lemma wrap_minus B a b : wrap a = wrap b -> wrap (B - a) = wrap (B - b).
Proof. unfold wrap. intros H. rewrite (Zminus_mod B a), (Zminus_mod B b), H. reflexivity. Qed.

Section split.
  Context (e e' : env) (s : state) (k : pool_key) (lo up L1 L2 sl su sl' su' sl'' su'' : Z)
    (s1 : state) (pos1 : position) (s2 : state) (pos2 : position) (sm : state) (pos : position).
  Hypothesis (I : Inv s) (I1 : Inv s1) (I2 : Inv s2) (Im : Inv sm) (HL1 : u256 L1) (HL2 : u256 L2) (HL : u256 (L1 + L2))
    (EC : e_caller e' = e_caller e)
    (E1 : create_position e s k lo up L1 sl su = Ok (s1, pos1))
    (E2 : create_position e' s1 k lo up L2 sl' su' = Ok (s2, pos2))
    (Em : create_position e s k lo up (L1 + L2) sl'' su'' = Ok (sm, pos)).

  Lemma split_sim : sim false (e_caller e) s2 sm.
  Proof using All.
    destruct (create_summary _ _ _ _ _ _ _ _ _ _ I HL1 E1) as (p & ax & ay & mx & C1).
    destruct (create_summary _ _ _ _ _ _ _ _ _ _ I1 HL2 E2) as (p1 & ax1 & ay1 & mx1 & C2).
    destruct (create_summary _ _ _ _ _ _ _ _ _ _ I HL Em) as (p0 & axm & aym & mxm & Cm).
    pose proof (cr_pool _ _ _ _ _ _ _ _ _ _ _ _ _ _ C1) as Hp.
    pose proof (cr_pool _ _ _ _ _ _ _ _ _ _ _ _ _ _ Cm) as Hp0. rewrite Hp in Hp0. injection Hp0 as <-.
    pose proof (cr_pool _ _ _ _ _ _ _ _ _ _ _ _ _ _ C2) as Hp1.
    rewrite (cr_pools _ _ _ _ _ _ _ _ _ _ _ _ _ _ C1), lookup_insert in Hp1. injection Hp1 as <-.
    assert (F1 : pos_pool_key pos1 = k /\ pos_liquidity pos1 = L1 /\ pos_lower pos1 = lo /\ pos_upper pos1 = up)
      by (rewrite (cr_pos _ _ _ _ _ _ _ _ _ _ _ _ _ _ C1); auto).
    assert (F2 : pos_pool_key pos2 = k /\ pos_liquidity pos2 = L2 /\ pos_lower pos2 = lo /\ pos_upper pos2 = up)
      by (rewrite (cr_pos _ _ _ _ _ _ _ _ _ _ _ _ _ _ C2); auto).
    assert (Fm : pos_pool_key pos = k /\ pos_liquidity pos = L1 + L2 /\ pos_lower pos = lo /\ pos_upper pos = up)
      by (rewrite (cr_pos _ _ _ _ _ _ _ _ _ _ _ _ _ _ Cm); auto).
    destruct F1 as (K1 & Q1 & Lo1 & Up1), F2 as (K2 & Q2 & Lo2 & Up2), Fm as (Km & Qm & Lom & Upm).
    assert (MS : forall f : position -> Z, f pos1 + f pos2 = f pos -> msum f (s_positions s2) = msum f (s_positions sm)).
    { intros f Hf. rewrite (cr_positions _ _ _ _ _ _ _ _ _ _ _ _ _ _ C2), (cr_positions _ _ _ _ _ _ _ _ _ _ _ _ _ _ Cm).
      rewrite msum_insert by apply (cr_fresh _ _ _ _ _ _ _ _ _ _ _ _ _ _ C2).
      rewrite (cr_positions _ _ _ _ _ _ _ _ _ _ _ _ _ _ C1). rewrite !msum_insert by apply (cr_fresh _ _ _ _ _ _ _ _ _ _ _ _ _ _ C1). lia. }
    destruct (create_base _ _ _ _ _ _ _ _ _ _ I HL1 E1) as (tl0 & al & tu0 & au & tl & tu & G1 & G2 & ET1 & Kl1 & Ku1).
    destruct (create_base _ _ _ _ _ _ _ _ _ _ I HL Em) as (tl0' & al' & tu0' & au' & tlm & tum & G1' & G2' & ETm & Klm & Kum).
    rewrite G1 in G1'. injection G1' as <- <-. rewrite G2 in G2'. injection G2' as <- <-.
    destruct (ticks_from_positions s2 sm I2 Im) as [ET EB].
    { intros k0 j. apply MS. unfold gross_of. rewrite K1, K2, Km, Q1, Q2, Qm, Lo1, Lo2, Lom, Up1, Up2, Upm. destruct (_ && _); lia. }
    { intros k0 j. apply MS. unfold net_of. rewrite K1, K2, Km, Q1, Q2, Qm, Lo1, Lo2, Lom, Up1, Up2, Upm.
      destruct (bool_decide _), (lo =? j), (up =? j); lia. }
    { intros k0 j t t' H2 Hm.
      assert (B : exists t0 t1, s_ticks s1 !! (k0, j) = Some t1 /\ kept t0 t1 /\ kept t0 t').
      { rewrite ETm in Hm. rewrite ET1. destruct (decide ((k, up) = (k0, j))) as [[= <- <-]|N1].
        - rewrite lookup_insert in Hm. rewrite lookup_insert. injection Hm as <-. eauto.
        - rewrite lookup_insert_ne in Hm by exact N1. rewrite lookup_insert_ne by exact N1. destruct (decide ((k, lo) = (k0, j))) as [[= <- <-]|N2].
          + rewrite lookup_insert in Hm. rewrite lookup_insert. injection Hm as <-. eauto.
          + rewrite lookup_insert_ne in Hm by exact N2. rewrite lookup_insert_ne by exact N2. exists t', t'. split; [exact Hm|split; apply kept_refl]. }
      destruct B as (t0 & t1 & B1 & B2 & B3).
      destruct (create_kept _ _ _ _ _ _ _ _ _ _ I1 HL2 E2 _ _ B1) as (t2 & H2' & B4). rewrite H2 in H2'. injection H2' as <-.
      destruct B2 as (A & B & C), B3 as (D & E & F), B4 as (G & H & J). split; [congruence|split; congruence]. }
    pose proof (cr_cfg _ _ _ _ _ _ _ _ _ _ _ _ _ _ C1) as (c1 & c2 & c3 & c4 & c5 & c6 & c7).
    pose proof (cr_cfg _ _ _ _ _ _ _ _ _ _ _ _ _ _ C2) as (d1 & d2 & d3 & d4 & d5 & d6 & d7).
    pose proof (cr_cfg _ _ _ _ _ _ _ _ _ _ _ _ _ _ Cm) as (f1 & f2 & f3 & f4 & f5 & f6 & f7).
    pose proof (create_others _ _ _ _ _ _ _ _ _ _ E1) as O1. pose proof (create_others _ _ _ _ _ _ _ _ _ _ E2) as O2. rewrite EC in O2.
    pose proof (create_others _ _ _ _ _ _ _ _ _ _ Em) as Om.
    constructor; try congruence.
    - split; [congruence|split; congruence].
    - pose proof (I_pool _ I2) as PO. intros k'. specialize (PO k'). revert PO.
      rewrite (cr_pools _ _ _ _ _ _ _ _ _ _ _ _ _ _ C2), (cr_pools _ _ _ _ _ _ _ _ _ _ _ _ _ _ C1), (cr_pools _ _ _ _ _ _ _ _ _ _ _ _ _ _ Cm).
      rewrite insert_insert. destruct (decide (k = k')) as [<-|N].
      + rewrite !lookup_insert. intros PO. specialize (PO _ eq_refl). cbn. split; [|apply u256_M; apply PO].
        exists (e_timestamp e). unfold with_liq. destruct p. cbn. destruct (in_range lo up _); unfold set_liquidity, set_last_timestamp; cbn; [|reflexivity].
        f_equal. lia.
      + rewrite !lookup_insert_ne by exact N. intros PO. destruct (s_pools s !! k') as [q|]; cbn; [|exact Logic.I].
        split; [exists (p_last_timestamp q); destruct q; reflexivity|]. apply u256_M. apply (PO _ eq_refl).
    - exact ET.
    - intros [v n] [S|N]; [discriminate S|]. cbn in N. destruct (O1 v N) as (_ & _ & A1). destruct (O2 v N) as (_ & _ & A2). destruct (Om v N) as (_ & _ & Am).
      rewrite <- Am, A1, A2. destruct (s_positions s2 !! (v, n)) as [q|] eqn:Eq; cbn; [|exact Logic.I]. split; [reflexivity|].
      pose proof (so_liq _ _ (I_pos _ I2 _ _ _ Eq)). unfold posok. lia.
    - intros v [S|N]; [discriminate S|]. destruct (O1 v N) as (_ & A1 & _). destruct (O2 v N) as (_ & A2 & _). destruct (Om v N) as (_ & Am & _).
      unfold positions_get_length. congruence.
    - intros v N. destruct (O1 v N) as (A1 & _ & _). destruct (O2 v N) as (A2 & _ & _). destruct (Om v N) as (Am & _ & _). congruence.
  Qed.

  (** The three positions have seen the same growth. *)
  Lemma split_seen x : wrap (seen_growth x pos1) = wrap (seen_growth x pos) /\ wrap (seen_growth x pos2) = wrap (seen_growth x pos).
  Proof using All.
    destruct (create_summary _ _ _ _ _ _ _ _ _ _ I HL1 E1) as (p & ax & ay & mx & C1).
    destruct (create_summary _ _ _ _ _ _ _ _ _ _ I1 HL2 E2) as (p1 & ax1 & ay1 & mx1 & C2).
    destruct (create_summary _ _ _ _ _ _ _ _ _ _ I HL Em) as (p0 & axm & aym & mxm & Cm).
    pose proof (cr_pool _ _ _ _ _ _ _ _ _ _ _ _ _ _ C1) as Hp.
    pose proof (cr_pool _ _ _ _ _ _ _ _ _ _ _ _ _ _ Cm) as Hp0. rewrite Hp in Hp0. injection Hp0 as <-.
    split.
    - rewrite (cr_pos _ _ _ _ _ _ _ _ _ _ _ _ _ _ C1), (cr_pos _ _ _ _ _ _ _ _ _ _ _ _ _ _ Cm). destruct x; reflexivity.
    - pose proof (created_zero _ _ _ _ _ _ _ _ _ _ _ _ _ _ I1 I2 C2 x) as Z2.
      pose proof (created_zero _ _ _ _ _ _ _ _ _ _ _ _ _ _ I Im Cm x) as Zm.
      rewrite <- (uncollected_sim _ _ x _ _ pos split_sim) in Zm.
      assert (F2 : pos_pool_key pos2 = k /\ pos_lower pos2 = lo /\ pos_upper pos2 = up)
        by (rewrite (cr_pos _ _ _ _ _ _ _ _ _ _ _ _ _ _ C2); auto).
      assert (Fm : pos_pool_key pos = k /\ pos_lower pos = lo /\ pos_upper pos = up)
        by (rewrite (cr_pos _ _ _ _ _ _ _ _ _ _ _ _ _ _ Cm); auto).
      destruct F2 as (K2 & Lo2 & Up2), Fm as (Km & Lom & Upm). unfold uncollected in Z2, Zm. rewrite K2, Lo2, Up2 in Z2. rewrite Km, Lom, Upm in Zm.
      set (B := below x s2 k up - below x s2 k lo) in *. clearbody B. exact (wrap_same B _ _ Z2 Zm).
  Qed.

  Lemma split_fields : pos_pool_key pos1 = k /\ pos_liquidity pos1 = L1 /\ pos_lower pos1 = lo /\ pos_upper pos1 = up /\
    pos_pool_key pos2 = k /\ pos_liquidity pos2 = L2 /\ pos_lower pos2 = lo /\ pos_upper pos2 = up /\
    pos_pool_key pos = k /\ pos_liquidity pos = L1 + L2 /\ pos_lower pos = lo /\ pos_upper pos = up.
  Proof using All.
    destruct (create_summary _ _ _ _ _ _ _ _ _ _ I HL1 E1) as (p & ax & ay & mx & C1).
    destruct (create_summary _ _ _ _ _ _ _ _ _ _ I1 HL2 E2) as (p1 & ax1 & ay1 & mx1 & C2).
    destruct (create_summary _ _ _ _ _ _ _ _ _ _ I HL Em) as (p0 & axm & aym & mxm & Cm).
    rewrite (cr_pos _ _ _ _ _ _ _ _ _ _ _ _ _ _ C1), (cr_pos _ _ _ _ _ _ _ _ _ _ _ _ _ _ C2), (cr_pos _ _ _ _ _ _ _ _ _ _ _ _ _ _ Cm). cbn.
    repeat (split; [reflexivity|]). reflexivity.
  Qed.

  Lemma split_uncollected f2 fm x : sim false (e_caller e) f2 fm ->
    uncollected x f2 pos1 = uncollected x fm pos /\ uncollected x f2 pos2 = uncollected x fm pos.
  Proof using All.
    intros S. rewrite <- (uncollected_sim _ _ x _ _ pos S). destruct (split_seen x) as [A B].
    unfold uncollected. destruct split_fields as (a1 & _ & a2 & a3 & b1 & _ & b2 & b3 & c1 & _ & c2 & c3).
    rewrite a1, a2, a3, b1, b2, b3, c1, c2, c3. split; now apply wrap_minus.
  Qed.

  Lemma split_places : positions_get_length s (e_caller e) + 1 < M32 ->
    let n := positions_get_length s (e_caller e) in
    s_positions s2 !! (e_caller e, n) = Some pos1 /\ s_positions s2 !! (e_caller e, n + 1) = Some pos2 /\
    s_positions sm !! (e_caller e, n) = Some pos.
  Proof using All.
    intros HR n.
    assert (Hn : 0 <= n) by (apply (I_dense _ I)).
    destruct (create_summary _ _ _ _ _ _ _ _ _ _ I HL1 E1) as (p & ax & ay & mx & C1).
    destruct (create_summary _ _ _ _ _ _ _ _ _ _ I1 HL2 E2) as (p1 & ax1 & ay1 & mx1 & C2).
    destruct (create_summary _ _ _ _ _ _ _ _ _ _ I HL Em) as (p0 & axm & aym & mxm & Cm).
    assert (EL : positions_get_length s1 (e_caller e) = n + 1).
    { unfold positions_get_length. rewrite (create_length _ _ _ _ _ _ _ _ _ _ E1), lookup_insert. cbn. fold n. rewrite Z.mod_small; lia. }
    rewrite (cr_positions _ _ _ _ _ _ _ _ _ _ _ _ _ _ C2), (cr_positions _ _ _ _ _ _ _ _ _ _ _ _ _ _ C1), (cr_positions _ _ _ _ _ _ _ _ _ _ _ _ _ _ Cm).
    rewrite EC, EL. fold n. split; [|split; apply lookup_insert].
    rewrite lookup_insert_ne by (intros [= X]; lia). apply lookup_insert.
  Qed.
End split.
