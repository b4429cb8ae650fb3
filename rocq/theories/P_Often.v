(** Claiming again and again: proofs for C72. *)
From Verif Require Import Base Decimal SqrtPriceM LogM ClammM FeeGrowthM Types TickmapM StorageM
  CollectionsM StateM ServiceM Arith SpecMath SpecFees SpecSum SpecState SpecHistory SpecSolv SpecShare SpecIndep SpecTrace SpecOften
  P_Clamm P_Fees P_Balance P_Tickmap P_Effects P_Positions P_History P_Inv P_InvPos P_InvHist P_PosOps P_Owed P_Share P_Indep P_Trace P_OpenClose P_Solv.
From stdpp Require Import gmap list.
From Coq Require Import ZArith Lia Bool.
Open Scope Z_scope.

Lemma sim_for_others u s s' : sim false u s s' -> same_for_others u s s'.
Proof.
  intros H. pose proof (fun v N => sm_length _ _ _ _ H v (or_intror N)) as HL.
  pose proof (fun v i (N : v <> u) => positions_lookup _ _ _ _ H (v, i) (or_intror N)) as HP.
  constructor; try apply H.
  - split; [apply H|split; apply H].
  - intros k. pose proof (sm_pools _ _ _ _ H k) as P. destruct (s_pools s !! k), (s_pools s' !! k); cbn in *; auto. now apply psame_spec in P as [? _].
  - intros k i. pose proof (sm_ticks _ _ _ _ H (k, i)) as P. destruct (s_ticks s !! (k, i)), (s_ticks s' !! (k, i)); cbn in *; auto. now apply tsame_spec in P as [? _].
  - intros v i N. unfold get_position, positions_get. now rewrite (proj1 (HP v i N)).
  - exact HL.
Qed.

Lemma others_sim u s s' : Inv s -> same_for_others u s s' -> sim false u s s'.
Proof.
  intros I [S1 S2 S3 S4 S5 S6 S7 S8 S9]. destruct S1 as (A1 & A2 & A3).
  constructor; auto.
  - intros k. specialize (S4 k). destruct (s_pools s !! k) as [p|] eqn:Ep, (s_pools s' !! k); cbn in *; auto.
    apply psame_spec. split; [exact S4|]. apply u256_M. apply (I_pool _ I _ _ Ep).
  - intros [k i]. specialize (S5 k i). destruct (s_ticks s !! (k, i)) as [t|] eqn:Et, (s_ticks s' !! (k, i)); cbn in *; auto.
    apply tsame_spec. split; [exact S5|]. apply (I_tick _ I _ _ _ Et).
  - intros [v i] [S|N]; [discriminate S|]. cbn in N. specialize (S7 v i N). unfold get_position, positions_get in S7.
    destruct (s_positions s !! (v, i)) as [q|] eqn:Eq, (s_positions s' !! (v, i)) as [q'|]; cbn in *; try discriminate S7; auto.
    injection S7 as <-. split; [reflexivity|]. pose proof (so_liq _ _ (I_pos _ I _ _ _ Eq)). unfold posok. lia.
  - intros v [S|N]; [discriminate S|]. exact (S8 v N).
Qed.

(** ** A claim is invisible to the others. *)
Lemma claim_sim e s i s' x y : Inv s -> Inv s' -> claim_fee e s i = Ok (s', (x, y)) -> sim false (e_caller e) s s'.
Proof.
  intros I I' H.
  assert (KU : forall v, v <> e_caller e -> same_part (UserPart v) s s').
  { intros v Hv. assert (K1 := proj2 (call_keeps s (Call e (OpClaimFee i))) (UserPart v)).
    cbn [changes exec_event] in K1. unfold exec_op, run_op in K1. rewrite H in K1. cbn [drop_result bind] in K1. apply K1.
    intros Q. apply elem_of_cons in Q as [Q|Q]; [congruence|]. unfold pool_of_position in Q.
    destruct (s_positions s !! (e_caller e, i)); [|now apply elem_of_nil in Q]. apply elem_of_list_singleton in Q. discriminate Q. }
  assert (KT : forall k j t t', s_ticks s !! (k, j) = Some t -> s_ticks s' !! (k, j) = Some t' -> kept t t').
  { clear KU. apply claim_fee_inv in H
      as (pos & tl0 & tu0 & p & pos' & p' & tu & tl & dx & dy & B & H). cbv zeta in H.
    destruct H as (Hpos & Htl & Htu & Hp & PM & _ & _ & _ & Es' & _).
    pose proof (I_pos _ I _ _ _ Hpos) as SO.
    pose proof (proj2 (I_tick _ I _ _ _ Htl)) as TO1. pose proof (proj2 (I_tick _ I _ _ _ Htu)) as TO2.
    destruct (position_modify_facts s pos p tu0 tl0 _ _ _ pos' p' tu tl dx dy TO1 TO2 SO PM)
      as (mx & u & ox & oy & Hmx & U1 & U2 & F1 & F2 & EP & AD & EP' & Hu & Eu & I1 & I2).
    apply tick_update_inv in U1 as (_ & _ & X1 & Y1 & Z1 & _). apply tick_update_inv in U2 as (_ & _ & X2 & Y2 & Z2 & _).
    intros k j t t' H1 H2. rewrite I1, I2 in Es'. subst s'. cbn in H2.
    apply lookup_insert_Some in H2 as [[[= <- <-] <-]|[_ H2]].
    { rewrite Htl in H1. injection H1 as <-. split; auto. }
    apply lookup_insert_Some in H2 as [[[= <- <-] <-]|[_ H2]].
    { rewrite Htu in H1. injection H1 as <-. split; auto. }
    rewrite H1 in H2. injection H2 as <-. split; auto. }
  assert (KL : s_positions_length s = s_positions_length s').
  { apply claim_fee_inv in H as (pos & tl0 & tu0 & p & pos' & p' & tu & tl & dx & dy & B & _ & _ & _ & _ & _ & _ & _ & _ & -> & _). reflexivity. }
  destruct (claim_summary _ _ _ _ _ _ I H) as (pos & p & tl & tu & mx & C).
  assert (MS : forall f, (forall q q', pos_pool_key q = pos_pool_key q' -> pos_liquidity q = pos_liquidity q' ->
      pos_lower q = pos_lower q' -> pos_upper q = pos_upper q' -> f q = f q') ->
    msum f (s_positions s) = msum f (s_positions s')).
  { intros f Hf. rewrite (cl_positions _ _ _ _ _ _ _ _ _ _ _ C), (msum_update _ _ _ pos) by apply C.
    match goal with |- _ = _ - f pos + f ?q => assert (f q = f pos) as -> by (apply Hf; reflexivity) end. lia. }
  destruct (ticks_from_positions s s' I I') as [ET EB].
  { intros k j. apply MS. intros q q' E1 E2 E3 E4. unfold gross_of. now rewrite E1, E2, E3, E4. }
  { intros k j. apply MS. intros q q' E1 E2 E3 E4. unfold net_of. now rewrite E1, E2, E3, E4. }
  { exact KT. }
  pose proof (cl_cfg _ _ _ _ _ _ _ _ _ _ _ C) as (c1 & c2 & c3 & c4 & c5 & c6 & c7).
  constructor; try congruence.
  - split; [congruence|split; congruence].
  - intros k'. rewrite (cl_pools _ _ _ _ _ _ _ _ _ _ _ C). pose proof (I_pool _ I) as PO. destruct (decide (pos_pool_key pos = k')) as [<-|N].
    + rewrite lookup_insert. rewrite (cl_pool _ _ _ _ _ _ _ _ _ _ _ C). cbn. split; [eauto|].
      apply u256_M. apply (PO _ _ (cl_pool _ _ _ _ _ _ _ _ _ _ _ C)).
    + rewrite lookup_insert_ne by exact N. destruct (s_pools s !! k') as [q|] eqn:Eq; cbn; [|exact Logic.I].
      split; [exists (p_last_timestamp q); destruct q; reflexivity|]. apply u256_M. apply (PO _ _ Eq).
  - exact ET.
  - intros [v n] [S|N]; [discriminate S|]. cbn in N. destruct (KU v N) as (_ & _ & K). rewrite <- K.
    destruct (s_positions s !! (v, n)) as [q|] eqn:Eq; cbn; [|exact Logic.I]. split; [reflexivity|].
    pose proof (so_liq _ _ (I_pos _ I _ _ _ Eq)). unfold posok. lia.
  - intros v _. unfold positions_get_length. now rewrite KL.
  - intros v N. apply (KU v N).
Qed.

(** ** Growth *)
Lemma below_sim ow u x s s' k i : sim ow u s s' -> below x s k i = below x s' k i.
Proof.
  intros H. unfold below. pose proof (sm_pools _ _ _ _ H k) as P. pose proof (sm_ticks _ _ _ _ H (k, i)) as T.
  destruct (s_pools s !! k), (s_pools s' !! k); cbn in P; try contradiction; [|reflexivity].
  destruct (s_ticks s !! (k, i)), (s_ticks s' !! (k, i)); cbn in T; try contradiction; [|reflexivity].
  destruct P as [[v ->] _]. apply tsame_spec in T as [(_ & _ & _ & _ & T1 & T2 & _) _].
  unfold outside_growth, global_growth. cbn. now rewrite T1, T2.
Qed.
Lemma uncollected_sim ow u x s s' pos : sim ow u s s' -> uncollected x s pos = uncollected x s' pos.
Proof. intros H. unfold uncollected. now rewrite !(below_sim ow u x s s' _ _ H). Qed.

Lemma run_app l : forall s l', run s (l ++ l') = run (run s l) l'.
Proof. induction l as [|ev l IH]; intros s l'; cbn; [reflexivity|apply IH]. Qed.

Lemma aside_keeps u l : Forall (aside u) l -> forall s i, s_positions (run s l) !! (u, i) = s_positions s !! (u, i).
Proof.
  induction 1 as [|ev l [N A] _ IH]; intros s i; cbn; [reflexivity|]. rewrite IH.
  destruct (proj2 (call_keeps s ev) (UserPart u)) as (_ & _ & K); [|now rewrite <- K].
  destruct ev as [e o|v t a|v t a|m]; cbn in N, A; cbn [changes].
  - assert (NP : forall w j, UserPart u ∉ pool_of_position s w j).
    { intros w j. unfold pool_of_position. destruct (s_positions s !! (w, j)); [|apply not_elem_of_nil].
      intros Q. apply elem_of_list_singleton in Q. discriminate Q. }
    destruct o; intros Q; repeat (apply elem_of_cons in Q as [Q|Q]; [congruence|]);
      try (now apply elem_of_nil in Q); try (now apply (NP _ _ Q)).
    apply elem_of_list_fmap in Q as (h & Q & _). discriminate Q.
  - intros Q. apply elem_of_list_singleton in Q. congruence.
  - intros Q. apply elem_of_list_singleton in Q. congruence.
  - intros Q. apply elem_of_list_singleton in Q. discriminate Q.
Qed.

(** ** Traces *)
Lemma trace_split G l1 : forall l2 s s', trace G s (l1 ++ l2) s' -> trace G s l1 (run s l1) /\ trace G (run s l1) l2 s'.
Proof.
  intros l2. induction l2 as [|ev l2 IH] using rev_ind; intros s s' H.
  - rewrite app_nil_r in H. pose proof (trace_run _ _ _ _ H) as ->.
    assert (E : fold_left exec_event l1 s = run s l1) by (clear; revert s; induction l1; intros s; cbn; auto).
    rewrite E in *. split; [exact H|constructor].
  - rewrite app_assoc in H. inversion H as [E|evs s1 ev1 H1 W1 G1 E E2]; subst; [now destruct (l1 ++ l2)|].
    apply app_inj_tail in E as [-> ->]. destruct (IH _ _ H1) as [A B]. split; [exact A|]. now constructor.
Qed.
Lemma trace_on (G : state -> event -> Prop) evs s l s' : history G evs s -> trace G s l s' -> history G (evs ++ l) s'.
Proof.
  intros H. induction 1 as [|l s' ev T IH W HG]; [rewrite app_nil_r; exact H|]. rewrite app_assoc. constructor; auto.
Qed.


(** ** The claims of all turns *)
Lemma claims_grow (x : bool) u i : forall ts evs s s' pos cs, history room evs s -> s_positions s !! (u, i) = Some pos ->
  Forall (turn_of u) ts -> trace room s (with_claims i ts) s' -> claims i s ts = Some cs -> ts <> [] ->
  exists Us, length Us = length ts /\ length cs = length ts /\ Forall (fun U => 0 <= U) Us /\ collected x u i cs = sumZ id Us /\
    paid_out x cs = sumZ (fun U => pos_liquidity pos * U / 10 ^ 33) Us /\
    uncollected x (run s (without_claims ts)) pos = wrap (sumZ id Us).
Proof.
  intros ts. induction ts as [|[a e] ts IH]; intros evs s s' pos cs H Hpos HT T C N; [congruence|]. clear N.
  apply Forall_cons in HT as [(HE & HW & HA) HT]. cbn [fst snd] in *. unfold with_claims in T. cbn [map concat fst snd] in T.
  rewrite <- app_assoc in T. apply trace_split in T as [T1 T]. apply trace_split in T as [T2 T].
  pose proof (trace_on _ _ _ _ _ H T1) as H1. pose proof (trace_on _ _ _ _ _ H1 T2) as H2.
  cbn [claims fst snd] in C. set (s1 := run s a) in *.
  destruct (claim_fee e s1 i) as [[s2 [px py]]| | |] eqn:EC; try discriminate C.
  destruct (claims i s2 ts) as [cs'|] eqn:ES; [|discriminate C]. injection C as <-.
  assert (E2 : run s1 [Call e (OpClaimFee i)] = s2).
  { cbn [run exec_event]. unfold exec_op. cbn [run_op]. rewrite EC. reflexivity. }
  rewrite E2 in *.
  assert (I1 : Inv s1) by (eapply Inv_history; [|exact H1]; auto). assert (I2 : Inv s2) by (eapply Inv_history; [|exact H2]; auto).
  pose proof (claim_sim _ _ _ _ _ _ I1 I2 EC) as SM. rewrite HE in SM.
  assert (HP1 : s_positions s1 !! (u, i) = Some pos) by (unfold s1; rewrite aside_keeps; auto).
  destruct (claim_summary _ _ _ _ _ _ I1 EC) as (pos0 & p & tl & tu & mx & C).
  pose proof (cl_pos _ _ _ _ _ _ _ _ _ _ _ C) as HP0. rewrite HE, HP1 in HP0. injection HP0 as <-.
  destruct (claimed_zero _ _ _ _ _ _ _ _ _ _ _ I1 I2 C) as (pos' & P' & F1 & F2 & F3 & F4 & U0). rewrite HE in P'.
  pose proof (I_pos _ I1 _ _ _ HP1) as SO.
  set (U := uncollected x s1 pos).
  assert (HU : 0 <= U) by (apply Z.mod_pos_bound; reflexivity).
  assert (HPaid : (if x then px else py) = pos_liquidity pos * U / 10 ^ 33).
  { destruct x; [exact (due_fee true s1 pos p tl tu px I1 SO (cl_pool _ _ _ _ _ _ _ _ _ _ _ C) (cl_tl _ _ _ _ _ _ _ _ _ _ _ C) (cl_tu _ _ _ _ _ _ _ _ _ _ _ C) (cl_fee_x _ _ _ _ _ _ _ _ _ _ _ C))
      |exact (due_fee false s1 pos p tl tu py I1 SO (cl_pool _ _ _ _ _ _ _ _ _ _ _ C) (cl_tl _ _ _ _ _ _ _ _ _ _ _ C) (cl_tu _ _ _ _ _ _ _ _ _ _ _ C) (cl_fee_y _ _ _ _ _ _ _ _ _ _ _ C))]. }
  unfold without_claims. cbn [map concat fst]. rewrite run_app. fold s1. fold (without_claims ts).
  assert (HC : collected x u i ((s1, (px, py)) :: cs') = U + collected x u i cs').
  { unfold collected. cbn [sumZ fold_right foldr fst]. unfold get_position, positions_get. rewrite HP1. reflexivity. }
  assert (HQ : paid_out x ((s1, (px, py)) :: cs') = pos_liquidity pos * U / 10 ^ 33 + paid_out x cs').
  { unfold paid_out. cbn [sumZ fold_right foldr fst snd]. now rewrite HPaid. }
  rewrite HC, HQ.
  destruct ts as [|t ts'].
  - cbn in ES. injection ES as <-. exists [U]. cbn.
    split; [reflexivity|]. split; [reflexivity|]. split; [repeat constructor; exact HU|]. split; [reflexivity|]. split; [reflexivity|].
    unfold U, uncollected. rewrite Z.add_0_r. unfold wrap. symmetry. apply Zmod_mod.
  - destruct (IH (((evs ++ a) ++ [Call e (OpClaimFee i)])) s2 s' pos' cs') as (Us & L1 & L2 & NN & EC1 & EP1 & EU); auto; try congruence.
    exists (U :: Us). cbn [length sumZ fold_right foldr]. rewrite EC1, EP1, F4.
    split; [now rewrite L1|]. split; [now rewrite L2|]. split; [constructor; auto|]. split; [reflexivity|]. split; [reflexivity|].
    set (rest := t :: ts') in *.
    assert (HW' : Forall event_wf (without_claims rest) /\ Forall (not_by u) (without_claims rest)).
    { clear - HT. unfold without_claims. induction rest as [|r rest IHr]; cbn; [split; constructor|].
      apply Forall_cons in HT as [(_ & W & A) HT]. destruct (IHr HT) as [B1 B2]. split; apply Forall_app; split; auto.
      eapply Forall_impl; [exact A|]. now intros ? [? _]. }
    destruct (run_sim false u _ (proj1 HW') (proj2 HW') _ _ SM) as [_ SF].
    rewrite (uncollected_sim _ _ x _ _ pos SF).
    set (fin := run s2 (without_claims rest)) in *.
    assert (EA : uncollected x fin pos = wrap (U + uncollected x fin pos')).
    { specialize (U0 x). unfold U. rewrite (uncollected_sim _ _ x _ _ pos SM). unfold uncollected in *. rewrite F1, F2, F3 in *.
      set (A := below x fin _ _ - below x fin _ _). set (B := below x s2 _ _ - below x s2 _ _) in *.
      unfold wrap in *. change M128 with (2 ^ 128) in *. rewrite <- Zplus_mod.
      replace (B - seen_growth x pos + (A - seen_growth x pos')) with ((A - seen_growth x pos) + (B - seen_growth x pos')) by lia.
      rewrite Zplus_mod, U0, Z.add_0_r. symmetry. apply Zmod_mod. }
    rewrite EA, EU. unfold wrap. now rewrite Zplus_mod_idemp_r.
Qed.
