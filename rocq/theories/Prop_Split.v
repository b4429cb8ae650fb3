(** C73: it makes no difference to anybody else whether liquidity is held in one
    position or in two, and two earn no more than one.

    [opens], [closes] and [split_at] are defined in SpecSplit.v, [same_for_others] and
    [aside] in SpecOften.v, [due] in SpecShare.v. *)
From Verif Require Import Base Decimal SqrtPriceM LogM ClammM FeeGrowthM Types TickmapM StorageM
  CollectionsM StateM ServiceM Arith SpecMath SpecFees SpecSum SpecState SpecHistory SpecSolv SpecShare SpecCost SpecIndep SpecTrace SpecOften SpecSplit
  P_Clamm P_Fees P_Bals P_Balance P_State P_TickPrice P_Effects P_History P_Inv P_InvPos P_PosOps P_InvHist P_Create P_Indep P_Share P_Trace P_OpenClose P_Solv P_Often P_Split
  Prop_State Prop_Cost Prop_Often Cases CasesClean.
From stdpp Require Import gmap list.
From Coq Require Import ZArith Lia Bool.
Open Scope Z_scope.

Local Lemma room_Inv evs s : history room evs s -> Inv s.
Proof. apply Inv_history. auto. Qed.
Local Lemma opens_on evs e s k lo up L s' pos : history room evs s -> opens e s k lo up L s' pos ->
  exists evs', history room evs' s'.
Proof.
  intros H (sl & su & W & R & E). exists (evs ++ [Call e (OpCreatePosition k lo up L sl su)]).
  replace s' with (exec_event s (Call e (OpCreatePosition k lo up L sl su))); [constructor; auto|].
  cbn [exec_event]. unfold exec_op. cbn [run_op]. rewrite E. reflexivity.
Qed.
Local Lemma closes_on evs e s i s' x y : history room evs s -> closes e s i s' x y -> exists evs', history room evs' s'.
Proof.
  intros H (W & R & E). exists (evs ++ [Call e (OpRemovePosition i)]).
  replace s' with (exec_event s (Call e (OpRemovePosition i))); [constructor; auto|].
  cbn [exec_event]. unfold exec_op. cbn [run_op]. rewrite E. reflexivity.
Qed.

(** Nobody else sees the difference; and the user holds what they asked for. *)
Theorem C73_unnoticed evs u s k lo up L1 L2 two p1 p2 one p :
  history room evs s -> split_at u s k lo up L1 L2 two p1 p2 one p ->
  same_for_others u two one /\
  let n := get_user_position_amount s u in
  get_position two u n = Ok p1 /\ get_position two u (n + 1) = Ok p2 /\ get_position one u n = Ok p /\
  (pos_liquidity p1, pos_liquidity p2, pos_liquidity p) = (L1, L2, L1 + L2).
Proof.
  intros H (e & e' & s1 & EC & EC' & O1 & O2 & Om).
  destruct (opens_on _ _ _ _ _ _ _ _ _ H O1) as [evs1 H1]. destruct (opens_on _ _ _ _ _ _ _ _ _ H1 O2) as [evs2 H2].
  destruct (opens_on _ _ _ _ _ _ _ _ _ H Om) as [evsm Hm].
  apply room_Inv in H, H1, H2, Hm. destruct O1 as (sl & su & W1 & R1 & E1), O2 as (sl' & su' & W2 & R2 & E2), Om as (sl'' & su'' & Wm & Rm & Em).
  assert (HL1 : u256 L1) by apply W1. assert (HL2 : u256 L2) by apply W2. assert (HL : u256 (L1 + L2)) by apply Wm. subst u.
  split; [apply sim_for_others; exact (split_sim e e' s k lo up L1 L2 sl su sl' su' sl'' su'' s1 p1 two p2 one p H H1 H2 Hm HL1 HL2 HL EC' E1 E2 Em)|].
  destruct (split_fields e e' s k lo up L1 L2 sl su sl' su' sl'' su'' s1 p1 two p2 one p H H1 H2 Hm HL1 HL2 HL EC' E1 E2 Em)
    as (_ & Q1 & _ & _ & _ & Q2 & _ & _ & _ & Qm & _).
  destruct (split_places e e' s k lo up L1 L2 sl su sl' su' sl'' su'' s1 p1 two p2 one p H H1 H2 Hm HL1 HL2 HL EC' E1 E2 Em)
    as (A & B & C).
  { specialize (R1 (e_caller e)). unfold get_user_position_amount in R1. unfold M32. lia. }
  cbn zeta. unfold get_user_position_amount. split; [apply positions_get_Ok, A|]. split; [apply positions_get_Ok, B|].
  split; [apply positions_get_Ok, C|]. now rewrite Q1, Q2, Qm.
Qed.

(** The cost differs by at most one unit of each token: of token y two positions
    never cost less than one; of token x they may cost one unit less. *)
Theorem C73_cost evs u s k lo up L1 L2 two p1 p2 one p :
  history room evs s -> split_at u s k lo up L1 L2 two p1 p2 one p ->
  bal two u (pk_token_y k) <= bal one u (pk_token_y k) <= bal two u (pk_token_y k) + 1 /\
  bal two u (pk_token_x k) - 1 <= bal one u (pk_token_x k) <= bal two u (pk_token_x k) + 1 /\
  forall t, t <> pk_token_x k -> t <> pk_token_y k -> bal one u t = bal two u t.
Proof.
  intros H (e & e' & s1 & EC & EC' & O1 & O2 & Om).
  destruct (opens_on _ _ _ _ _ _ _ _ _ H O1) as [evs1 H1].
  destruct O1 as (sl & su & W1 & R1 & E1), O2 as (sl' & su' & W2 & R2 & E2), Om as (sl'' & su'' & Wm & Rm & Em).
  assert (HL1 : u256 L1) by apply W1. assert (HL2 : u256 L2) by apply W2. assert (HL : u256 (L1 + L2)) by apply Wm.
  destruct (C61_cost _ _ _ _ _ _ _ _ _ _ _ H HL1 E1) as (q1 & pl & pu & G1 & Pl & Pu & Lt & M1).
  destruct (C61_cost _ _ _ _ _ _ _ _ _ _ _ H1 HL2 E2) as (q2 & pl2 & pu2 & G2 & Pl2 & Pu2 & _ & M2).
  destruct (C61_cost _ _ _ _ _ _ _ _ _ _ _ H HL Em) as (qm & plm & pum & Gm & Plm & Pum & _ & Mm).
  rewrite Pl in Pl2, Plm. injection Pl2 as <-. injection Plm as <-. rewrite Pu in Pu2, Pum. injection Pu2 as <-. injection Pum as <-.
  rewrite G1 in Gm. injection Gm as <-. apply pools_get_Ok in G1, G2.
  pose proof (room_Inv _ _ H) as I. destruct (create_summary _ _ _ _ _ _ _ _ _ _ I HL1 E1) as (p0 & x0 & y0 & mx & C).
  pose proof (cr_pool _ _ _ _ _ _ _ _ _ _ _ _ _ _ C) as G0. rewrite G1 in G0. injection G0 as <-.
  rewrite (cr_pools _ _ _ _ _ _ _ _ _ _ _ _ _ _ C), lookup_insert in G2. injection G2 as <-.
  change (p_sqrt_price (with_liq q1 lo up L1 (e_timestamp e))) with (p_sqrt_price q1) in M2.
  cbn zeta in *. pose proof (I_pool _ I _ _ G1) as PO.
  pose proof (cr_lo _ _ _ _ _ _ _ _ _ _ _ _ _ _ C) as Ol. pose proof (cr_up _ _ _ _ _ _ _ _ _ _ _ _ _ _ C) as Ou.
  destruct (place_facts k q1 PO lo up Ol Ou (cr_lt _ _ _ _ _ _ _ _ _ _ _ _ _ _ C)) as (_ & PR1 & PR2 & PR3 & PR4 & _).
  rewrite calculate_sqrt_price_valid in Pl by apply Ol. injection Pl as <-.
  rewrite calculate_sqrt_price_valid in Pu by apply Ou. injection Pu as <-.
  set (q := into_range _ _ _) in *.
  destruct (C61_split L1 L2 (price lo) q (price up)) as [SY SX]; auto; try (apply u256_M in HL1, HL2; lia).
  pose proof (po_tokens _ _ PO) as ND.
  assert (B : forall t, bal two u t = bal s u t + sum_on t [(pk_token_x k, - charge_x L1 q (price up)); (pk_token_y k, - charge_y L1 (price lo) q)]
      + sum_on t [(pk_token_x k, - charge_x L2 q (price up)); (pk_token_y k, - charge_y L2 (price lo) q)] /\
    bal one u t = bal s u t + sum_on t [(pk_token_x k, - charge_x (L1 + L2) q (price up)); (pk_token_y k, - charge_y (L1 + L2) (price lo) q)]).
  { intros t. rewrite (M2 u t), (M1 u t), (Mm u t), EC, EC', Z.eqb_refl. auto. }
  split; [|split].
  - destruct (B (pk_token_y k)) as [-> ->]. cbn [sum_on]. rewrite Z.eqb_refl. destruct (Z.eqb_spec (pk_token_y k) (pk_token_x k)); [lia|]. lia.
  - destruct (B (pk_token_x k)) as [-> ->]. cbn [sum_on]. rewrite Z.eqb_refl. destruct (Z.eqb_spec (pk_token_x k) (pk_token_y k)); [lia|]. lia.
  - intros t Nx Ny. destruct (B t) as [-> ->]. cbn [sum_on].
    destruct (Z.eqb_spec t (pk_token_x k)); [lia|]. destruct (Z.eqb_spec t (pk_token_y k)); [lia|]. lia.
Qed.

(** ** Fees *)
Lemma due_parts L1 L2 U : 0 <= L1 -> 0 <= L2 -> 0 <= U ->
  L1 * U / 10 ^ 33 + L2 * U / 10 ^ 33 <= (L1 + L2) * U / 10 ^ 33 <= L1 * U / 10 ^ 33 + L2 * U / 10 ^ 33 + 1.
Proof.
  intros H1 H2 HU. pose proof (Z.mul_div_le (L1 * U) (10 ^ 33) ltac:(lia)). pose proof (Z.mul_succ_div_gt (L1 * U) (10 ^ 33) ltac:(lia)).
  pose proof (Z.mul_div_le (L2 * U) (10 ^ 33) ltac:(lia)). pose proof (Z.mul_succ_div_gt (L2 * U) (10 ^ 33) ltac:(lia)).
  pose proof (Z.mul_div_le ((L1 + L2) * U) (10 ^ 33) ltac:(lia)). pose proof (Z.mul_succ_div_gt ((L1 + L2) * U) (10 ^ 33) ltac:(lia)). lia.
Qed.

(** Whatever the others do, the positions stay, the answers to the others are the
    same, and the fees due to the two are those due to the one, or one unit less. *)
Theorem C73_fees evs u s k lo up L1 L2 two p1 p2 one p later (x : bool) :
  history room evs s -> split_at u s k lo up L1 L2 two p1 p2 one p ->
  Forall event_wf later -> Forall (aside u) later ->
  let n := get_user_position_amount s u in let two' := run two later in let one' := run one later in
  Forall2 same_answer (answers two later) (answers one later) /\ same_for_others u two' one' /\
  get_position two' u n = Ok p1 /\ get_position two' u (n + 1) = Ok p2 /\ get_position one' u n = Ok p /\ due x two' p1 + due x two' p2 <= due x one' p <= due x two' p1 + due x two' p2 + 1.
Proof.
  intros H SP W A n two' one'. destruct (C73_unnoticed _ _ _ _ _ _ _ _ _ _ _ _ _ H SP) as (_ & P1 & P2 & Pm & QL). fold n in P1, P2, Pm.
  destruct SP as (e & e' & s1 & EC & EC' & O1 & O2 & Om).
  destruct (opens_on _ _ _ _ _ _ _ _ _ H O1) as [evs1 H1]. destruct (opens_on _ _ _ _ _ _ _ _ _ H1 O2) as [evs2 H2].
  destruct (opens_on _ _ _ _ _ _ _ _ _ H Om) as [evsm Hm].
  apply room_Inv in H, H1, H2, Hm. destruct O1 as (sl & su & W1 & R1 & E1), O2 as (sl' & su' & W2 & R2 & E2), Om as (sl'' & su'' & Wm & Rm & Em).
  assert (HL1 : u256 L1) by apply W1. assert (HL2 : u256 L2) by apply W2. assert (HL : u256 (L1 + L2)) by apply Wm. subst u.
  pose proof (split_sim e e' s k lo up L1 L2 sl su sl' su' sl'' su'' s1 p1 two p2 one p H H1 H2 Hm HL1 HL2 HL EC' E1 E2 Em) as S.
  assert (NB : Forall (not_by (e_caller e)) later) by (eapply Forall_impl; [exact A|]; now intros ? [? _]).
  destruct (run_sim false (e_caller e) later W NB _ _ S) as [SA SF]. fold two' one' in SF.
  split; [exact SA|]. split; [now apply sim_for_others|].
  apply positions_get_Ok in P1, P2, Pm.
  split; [apply positions_get_Ok; unfold two'; rewrite aside_keeps; auto|].
  split; [apply positions_get_Ok; unfold two'; rewrite aside_keeps; auto|].
  split; [apply positions_get_Ok; unfold one'; rewrite aside_keeps; auto|].
  destruct (split_uncollected e e' s k lo up L1 L2 sl su sl' su' sl'' su'' s1 p1 two p2 one p H H1 H2 Hm HL1 HL2 HL EC' E1 E2 Em two' one' x SF) as [U1 U2].
  injection QL as Q1 Q2 Qm. unfold due. rewrite U1, U2, Q1, Q2, Qm. apply u256_M in HL1, HL2.
  apply due_parts; try lia. unfold uncollected, wrap. apply Z.mod_pos_bound. reflexivity.
Qed.

(** ** Closing *)
Lemma worth_parts L1 L2 lo q up : 0 <= L1 -> 0 <= L2 -> price_in_range q -> price_in_range up -> lo <= q <= up ->
  (worth_y L1 lo q + worth_y L2 lo q <= worth_y (L1 + L2) lo q <= worth_y L1 lo q + worth_y L2 lo q + 1) /\
  (worth_x L1 q up + worth_x L2 q up <= worth_x (L1 + L2) q up <= worth_x L1 q up + worth_x L2 q up + 1).
Proof.
  intros H1 H2 Hq Hu Hr. unfold price_in_range in *. unfold worth_x, worth_y.
  assert (Hm : 10 ^ 24 <= q * up) by nia.
  assert (Hd : 0 < up_div (q * up) (10 ^ 24)) by (pose proof (up_div_bounds (q * up) (10 ^ 24) ltac:(lia)); lia).
  set (d := up_div (q * up) (10 ^ 24)) in *. clearbody d.
  assert (S : forall a b c d, 0 < d -> a + b <= c <= a + b + 1 -> a / d + b / d <= c / d <= a / d + b / d + 1).
  { intros a b c f Hf Hc. pose proof (Z.mul_div_le a f Hf). pose proof (Z.mul_succ_div_gt a f Hf).
    pose proof (Z.mul_div_le b f Hf). pose proof (Z.mul_succ_div_gt b f Hf).
    pose proof (Z.mul_div_le c f Hf). pose proof (Z.mul_succ_div_gt c f Hf). nia. }
  split; [apply S; lia|]. apply S; [exact Hd|]. apply S; lia.
Qed.

(** What closing pays: the worth of the liquidity and the fees due. *)
Lemma closing_pays evs e s i s' x y : history room evs s -> remove_position e s i = Ok (s', (x, y)) ->
  exists pos p, s_positions s !! (e_caller e, i) = Some pos /\ s_pools s !! pos_pool_key pos = Some p /\   let q := into_range (price (pos_lower pos)) (price (pos_upper pos)) (p_sqrt_price p) in
    price_in_range q /\ price_in_range (price (pos_upper pos)) /\ price (pos_lower pos) <= q <= price (pos_upper pos) /\
    x = worth_x (pos_liquidity pos) q (price (pos_upper pos)) + due true s pos /\   y = worth_y (pos_liquidity pos) (price (pos_lower pos)) q + due false s pos.
Proof.
  intros H E. apply room_Inv in H as I. apply remove_summary in E as (pos & p & tl & tu & dx & dy & ox & oy & C); auto.
  pose proof (rm_pos _ _ _ _ _ _ _ _ _ _ _ _ _ _ C) as Hpos. pose proof (I_pos _ I _ _ _ Hpos) as SO.
  pose proof (rm_pool _ _ _ _ _ _ _ _ _ _ _ _ _ _ C) as Hp. pose proof (I_pool _ I _ _ Hp) as PO.
  pose proof (rm_tl _ _ _ _ _ _ _ _ _ _ _ _ _ _ C) as Tl. pose proof (rm_tu _ _ _ _ _ _ _ _ _ _ _ _ _ _ C) as Tu.
  destruct (I_tick _ I _ _ _ Tl) as [_ T1]. destruct (I_tick _ I _ _ _ Tu) as [_ T2].
  pose proof (to_okt _ _ _ _ T1) as Ol. pose proof (to_okt _ _ _ _ T2) as Ou. pose proof (so_lt _ _ SO) as Lt.
  assert (HL : u256 (pos_liquidity pos)) by (apply u256_I; pose proof (so_liq _ _ SO); lia).
  pose proof (rm_amounts _ _ _ _ _ _ _ _ _ _ _ _ _ _ C) as Am. rewrite (amounts_returned _ p PO _ _ Ol Ou Lt _ HL) in Am.
  injection Am as Ax Ay. exists pos, p. split; [exact Hpos|]. split; [exact Hp|]. cbn zeta.
  destruct (place_facts _ p PO _ _ Ol Ou Lt) as (_ & PR1 & PR2 & PR3 & PR4 & _).
  split; [exact PR3|]. split; [exact PR2|]. split; [exact PR4|].
  pose proof (due_fee true s pos p tl tu ox I SO Hp Tl Tu (rm_fee_x _ _ _ _ _ _ _ _ _ _ _ _ _ _ C)) as DX.
  pose proof (due_fee false s pos p tl tu oy I SO Hp Tl Tu (rm_fee_y _ _ _ _ _ _ _ _ _ _ _ _ _ _ C)) as DY.
  unfold due. rewrite <- DX, <- DY, Ax, Ay. split; apply C.
Qed.

(** Closing one position leaves the fees due to another one as they are. *)
Lemma due_other e s i s' x y pos p (b : bool) : Inv s -> Inv s' -> remove_position e s i = Ok (s', (x, y)) ->
  (exists v j, s_positions s' !! (v, j) = Some pos) -> s_pools s !! pos_pool_key pos = Some p ->
  (exists p', s_pools s' !! pos_pool_key pos = Some p' /\ p_sqrt_price p' = p_sqrt_price p) /\ due b s' pos = due b s pos.
Proof.
  intros I I' E (v & j & HP) Hp. destruct (remove_kept _ _ _ _ _ _ I E) as [RK _].
  apply remove_summary in E as (pos0 & p0 & tl & tu & dx & dy & ox & oy & C); auto.
  assert (HP' : exists p', s_pools s' !! pos_pool_key pos = Some p' /\ p_sqrt_price p' = p_sqrt_price p /\
     p_current_tick_index p' = p_current_tick_index p /\ p_fee_growth_global_x p' = p_fee_growth_global_x p /\ p_fee_growth_global_y p' = p_fee_growth_global_y p).
  { rewrite (rm_pools _ _ _ _ _ _ _ _ _ _ _ _ _ _ C). destruct (decide (pos_pool_key pos0 = pos_pool_key pos)) as [EK|N].
    - rewrite EK, lookup_insert. eexists. split; [reflexivity|].
      pose proof (rm_pool _ _ _ _ _ _ _ _ _ _ _ _ _ _ C) as Hp0. rewrite EK, Hp in Hp0. injection Hp0 as <-. repeat split.
    - rewrite lookup_insert_ne by exact N. exists p. repeat split; auto. }
  destruct HP' as (p' & HP' & A1 & A2 & A3 & A4). split; [eauto|].
  pose proof (I_pos _ I' _ _ _ HP) as SO.
  assert (B : forall j, is_Some (s_ticks s' !! (pos_pool_key pos, j)) -> below b s' (pos_pool_key pos) j = below b s (pos_pool_key pos) j).
  { intros m [t Ht]. destruct (RK _ _ _ Ht) as (t0 & Ht0 & K1 & K2 & K3). unfold below. rewrite HP', Hp, Ht, Ht0, A2.
    unfold global_growth, outside_growth. now rewrite A3, A4, K1, K2. }
  destruct (pos_ticks _ _ _ _ I' HP) as (p1 & tl1 & tu1 & _ & T1 & T2 & _ & _).
  unfold due, uncollected. rewrite !B; eauto.
Qed.

Lemma run_of G l : forall s s', trace G s l s' -> s' = run s l.
Proof. intros s s' T. rewrite <- (app_nil_r l) in T. apply trace_split in T as [_ T]. pose proof (trace_run _ _ _ _ T) as ->. reflexivity. Qed.
Lemma trace_wf G s l s' : trace G s l s' -> Forall event_wf l.
Proof. induction 1; [constructor|]. apply Forall_app. split; auto. Qed.

(** Closing the two pays what closing the one pays, or up to two units of each token less. *)
Theorem C73_closing evs u s k lo up L1 L2 two p1 p2 one p later two' one' e2 two1 x2 y2 e1 two2 x1 y1 e one1 x y :
  history room evs s -> split_at u s k lo up L1 L2 two p1 p2 one p ->
  Forall (aside u) later -> trace room two later two' -> trace room one later one' ->
  e_caller e2 = u -> e_caller e1 = u -> e_caller e = u ->
  let n := get_user_position_amount s u in
  closes e2 two' (n + 1) two1 x2 y2 -> closes e1 two1 n two2 x1 y1 -> closes e one' n one1 x y ->
  x1 + x2 <= x <= x1 + x2 + 2 /\ y1 + y2 <= y <= y1 + y2 + 2.
Proof.
  intros H SP A T2 T1 C2 C1 C n K2 K1 K.
  pose proof (run_of _ _ _ _ T2) as E2. pose proof (run_of _ _ _ _ T1) as E1.
  pose proof (trace_wf _ _ _ _ T2) as W.
  destruct (C73_fees _ _ _ _ _ _ _ _ _ _ _ _ _ later true H SP W A) as (_ & _ & P1 & P2 & P & DX).
  destruct (C73_fees _ _ _ _ _ _ _ _ _ _ _ _ _ later false H SP W A) as (_ & SO & _ & _ & _ & DY).
  destruct (C73_unnoticed _ _ _ _ _ _ _ _ _ _ _ _ _ H SP) as (_ & _ & _ & _ & QL). injection QL as Q1 Q2 Q.
  fold n in P1, P2, P. rewrite <- E2, <- E1 in *. clear E1 E2. apply positions_get_Ok in P1, P2, P.
  assert (HH : (exists ev, history room ev two) /\ (exists ev, history room ev one) /\ 0 <= L1 /\ 0 <= L2 /\
    pos_pool_key p1 = k /\ pos_lower p1 = lo /\ pos_upper p1 = up /\
    pos_pool_key p2 = k /\ pos_lower p2 = lo /\ pos_upper p2 = up /\
    pos_pool_key p = k /\ pos_lower p = lo /\ pos_upper p = up).
  { destruct SP as (f & f' & s1 & EC & EC' & O1 & O2 & Om).
    destruct (opens_on _ _ _ _ _ _ _ _ _ H O1) as [evs1 H1]. destruct (opens_on _ _ _ _ _ _ _ _ _ H1 O2) as [evs2 H2].
    destruct (opens_on _ _ _ _ _ _ _ _ _ H Om) as [evsm Hm]. split; [eauto|]. split; [eauto|].
    apply room_Inv in H, H1, H2, Hm. destruct O1 as (sl & su & W1 & R1 & E1), O2 as (sl' & su' & W2 & R2 & E2), Om as (sl'' & su'' & Wm & Rm & Em).
    assert (HL1 : u256 L1) by apply W1. assert (HL2 : u256 L2) by apply W2. assert (HL : u256 (L1 + L2)) by apply Wm. subst u.
    destruct (split_fields f f' s k lo up L1 L2 sl su sl' su' sl'' su'' s1 p1 two p2 one p H H1 H2 Hm HL1 HL2 HL EC' E1 E2 Em)
      as (a1 & _ & a2 & a3 & b1 & _ & b2 & b3 & c1 & _ & c2 & c3). apply u256_M in HL1, HL2. repeat split; auto; lia. }
  destruct HH as ((ev2 & H2) & (ev1 & H1) & HL1 & HL2 & a1 & a2 & a3 & b1 & b2 & b3 & c1 & c2 & c3).
  pose proof (trace_on _ _ _ _ _ H2 T2) as H2'. pose proof (trace_on _ _ _ _ _ H1 T1) as H1'.
  destruct (closes_on _ _ _ _ _ _ _ H2' K2) as [ev3 H3].
  destruct K2 as (_ & _ & K2), K1 as (_ & _ & K1), K as (_ & _ & K).
  destruct (closing_pays _ _ _ _ _ _ _ H2' K2) as (r2 & pl2 & R2 & PL2 & PX2 & PX2' & PX2'' & X2 & Y2).
  rewrite C2, P2 in R2. injection R2 as <-. rewrite b1, b2, b3, Q2 in *.
  destruct (closing_pays _ _ _ _ _ _ _ H3 K1) as (r1 & pl1 & R1 & PL1 & _ & _ & _ & X1 & Y1).
  destruct (closing_pays _ _ _ _ _ _ _ H1' K) as (r & pl & R & PL & _ & _ & _ & X & Y).
  rewrite C, P in R. injection R as <-. rewrite c1, c2, c3, Q in *.
  assert (R1' : s_positions two1 !! (u, n) = Some p1).
  { destruct (remove_summary _ _ _ _ _ _ (room_Inv _ _ H2') K2) as (q & q' & tl & tu & dx & dy & ox & oy & D).
    destruct (rm_positions _ _ _ _ _ _ _ _ _ _ _ _ _ _ D) as (lp & HLP & ->). rewrite C2 in *. unfold removed_positions. destruct lp as [q0|].
    - rewrite lookup_insert_ne by (intros [= Z0]; lia). rewrite lookup_delete_ne by (intros [= Z0]; lia). exact P1.
    - rewrite lookup_delete_ne by (intros [= Z0]; lia). exact P1. }
  rewrite C1, R1' in R1. injection R1 as <-. rewrite a1, a2, a3, Q1 in *.
  assert (HPp : s_pools two' !! pos_pool_key p1 = Some pl2) by (rewrite a1; exact PL2).
  destruct (due_other _ _ _ _ _ _ p1 pl2 true (room_Inv _ _ H2') (room_Inv _ _ H3) K2 ltac:(eauto) HPp) as [(pq & PQ & EQ) DX1].
  destruct (due_other _ _ _ _ _ _ p1 pl2 false (room_Inv _ _ H2') (room_Inv _ _ H3) K2 ltac:(eauto) HPp) as [_ DY1].
  rewrite a1, PL1 in PQ. injection PQ as <-. rewrite DX1, EQ in X1. rewrite DY1, EQ in Y1.
  pose proof (sf_pools _ _ _ SO k) as SPk. rewrite PL2, PL in SPk. cbn in SPk.
  assert (ES : p_sqrt_price pl = p_sqrt_price pl2) by (symmetry; apply SPk).
  rewrite ES in X, Y. cbn zeta in *. set (q := into_range _ _ _) in *.
  destruct (worth_parts L1 L2 (price lo) q (price up)) as [SY SX]; auto. lia.
Qed.

Definition open73 (lo up L : Z) : event := Call (by_ alice) (OpCreatePosition pool1 lo up L 0 any_price).
Definition after73 (evs : list event) : state := run_events admin 10000000000 evs.
Definition new73 (s : state) (lo up L : Z) : position :=
  match create_position (by_ alice) s pool1 lo up L 0 any_price with Ok (_, pos) => pos | _ => position_at s alice 0 end.
Definition closing73 (s : state) (i : Z) : Z * Z :=
  match remove_position (by_ alice) s i with Ok (_, xy) => xy | _ => (-1, -1) end.

Lemma opens73 evs lo up L : event_wf (open73 lo up L) -> Forall event_wf evs -> Z.of_nat (length evs) < 2 ^ 32 - 1 ->
  is_Ok (create_position (by_ alice) (after73 evs) pool1 lo up L 0 any_price) = true ->
  opens (by_ alice) (after73 evs) pool1 lo up L (after73 (evs ++ [open73 lo up L])) (new73 (after73 evs) lo up L).
Proof.
  intros HL HW HN HO. exists 0, any_price. cbn zeta. split; [exact HL|]. split.
  - intros a. pose proof (run_events_history admin 10000000000 _ ltac:(unfold u128; lia) HW) as HR.
    apply history_room in HR as [_ HR]; [|exact HN]. specialize (HR a). fold (after73 evs) in HR. lia.
  - unfold after73 at 2. unfold run_events. rewrite (fold_left_app _ _ [_]). cbn [fold_left].
    fold (run_events admin 10000000000 evs). fold (after73 evs). unfold open73, exec_event, exec_op, new73. cbn [run_op].
    destruct (create_position (by_ alice) (after73 evs) pool1 lo up L 0 any_price) as [[s' pos]| | |]; try discriminate HO. reflexivity.
Qed.

Lemma splits73 evs lo up L1 L2 : Forall event_wf evs -> event_wf (open73 lo up L1) -> event_wf (open73 lo up L2) -> event_wf (open73 lo up (L1 + L2)) ->
  Z.of_nat (length (evs ++ [open73 lo up L1])) < 2 ^ 32 - 1 ->
  is_Ok (create_position (by_ alice) (after73 evs) pool1 lo up L1 0 any_price) = true ->
  is_Ok (create_position (by_ alice) (after73 (evs ++ [open73 lo up L1])) pool1 lo up L2 0 any_price) = true ->
  is_Ok (create_position (by_ alice) (after73 evs) pool1 lo up (L1 + L2) 0 any_price) = true ->
  split_at alice (after73 evs) pool1 lo up L1 L2 (after73 ((evs ++ [open73 lo up L1]) ++ [open73 lo up L2])) (new73 (after73 evs) lo up L1)
    (new73 (after73 (evs ++ [open73 lo up L1])) lo up L2) (after73 (evs ++ [open73 lo up (L1 + L2)])) (new73 (after73 evs) lo up (L1 + L2)).
Proof.
  intros W W1 W2 W3 N O1 O2 O3. rewrite app_length in N. cbn [length] in N.
  exists (by_ alice), (by_ alice), (after73 (evs ++ [open73 lo up L1])). split; [reflexivity|]. split; [reflexivity|].
  split; [|split]; apply opens73; auto; try lia.
  - apply Forall_app. auto.
  - rewrite app_length. cbn [length]. lia.
Qed.

(** Two positions may indeed cost one unit of token x less than one: here the price is
    one step below the end of the range. *)
Definition setup73 : list event := [
  Call (by_ admin) (OpAddFeeTier tier1);
  Call (by_ bob) (OpCreatePool tokA tokB tier1 1000000000000000000000000 0);
  Credit bob tokA 1000000; Credit bob tokB 1000000; Credit carol tokB 1000000;
  Credit alice tokA 1000000; Credit alice tokB 1000000000000000000000000;
  Call (by_ bob) (OpCreatePosition pool1 0 10 100000000000 0 any_price);
  Call (by_ carol) (OpSwap pool1 false 507 true 1000500100009999999999999) ].
Definition liq73 : Z := 100100045012002000200009850000.

Theorem C73_cheaper_refuted :
  exists evs u s k lo up L1 L2 two p1 p2 one p,
    history room evs s /\ split_at u s k lo up L1 L2 two p1 p2 one p /\
    bal two u (pk_token_x k) = bal one u (pk_token_x k) + 1.
Proof.
  exists setup73, alice, (after73 setup73), pool1, 0, 10, liq73, liq73, (after73 ((setup73 ++ [open73 0 10 liq73]) ++ [open73 0 10 liq73])),
    (new73 (after73 setup73) 0 10 liq73), (new73 (after73 (setup73 ++ [open73 0 10 liq73])) 0 10 liq73),
    (after73 (setup73 ++ [open73 0 10 (liq73 + liq73)])), (new73 (after73 setup73) 0 10 (liq73 + liq73)).
  assert (W : Forall event_wf (setup73 ++ [open73 0 10 liq73; open73 0 10 (liq73 + liq73)])).
  { unfold setup73, open73, liq73. cbn [app]. wf_events. }
  apply Forall_app in W as [W W']. apply Forall_cons in W' as [W1 W']. apply Forall_cons in W' as [W2 _].
  split; [|split].
  - apply history_room; [|reflexivity]. apply run_events_history; [unfold u128; lia|exact W].
  - refine (splits73 setup73 0 10 liq73 liq73 W W1 W1 W2 _ _ _ _); [reflexivity|vm_compute; reflexivity..].
  - vm_compute. reflexivity.
Qed.

(** A concrete case: Alice opens 100007777777 and 70031234567 over [-50, 50), or both in
    one; then Carol and Bob trade.  The two cost one unit of each token more, have
    5 + 3 = 8 of token y in fees due where the one has 9, and pay 5031 and 3470 on
    closing where the one pays 5031 and 3471. *)
Definition la73 : Z := 100007777777.
Definition lb73 : Z := 70031234567.
Definition before73 : list event := evs_traded ++ [open73 (-50) 50 la73].
Definition two73 : list event := before73 ++ [open73 (-50) 50 lb73].
Definition one73 : list event := evs_traded ++ [open73 (-50) 50 (la73 + lb73)].
Definition later73 : list event := [
  Call (by_ carol) (OpSwap pool1 false 3000 true any_price);
  Call (by_ bob) (OpSwap pool1 true 1400 true 15258932000000000000) ].

Lemma traded73 : history room evs_traded (after73 evs_traded).
Proof.
  apply history_room; [|reflexivity]. unfold after73. apply run_events_history; [unfold u128; lia|].
  unfold evs_traded, setup, positions3, swaps. wf_events.
Qed.

Example C73_case :
  let pa := new73 (after73 evs_traded) (-50) 50 la73 in let pb := new73 (after73 before73) (-50) 50 lb73 in
  let pc := new73 (after73 evs_traded) (-50) 50 (la73 + lb73) in
  history room evs_traded (after73 evs_traded) /\
  split_at alice (after73 evs_traded) pool1 (-50) 50 la73 lb73 (after73 two73) pa pb (after73 one73) pc /\
  Forall event_wf later73 /\ Forall (aside alice) later73 /\ forallb is_Ok (answers (after73 two73) later73) = true /\
  (bal (after73 one73) alice tokA - bal (after73 two73) alice tokA, bal (after73 one73) alice tokB - bal (after73 two73) alice tokB) = (1, 1) /\
  (due false (after73 (two73 ++ later73)) pa, due false (after73 (two73 ++ later73)) pb, due false (after73 (one73 ++ later73)) pc) = (5, 3, 9) /\
  (closing73 (after73 (two73 ++ later73)) 3, closing73 (after73 (two73 ++ later73 ++ [Call (by_ alice) (OpRemovePosition 3)])) 2,
   closing73 (after73 (one73 ++ later73)) 2) = ((2072, 1429), (2959, 2041), (5031, 3471)).
Proof.
  intros pa pb pc. split; [exact traded73|].
  split.
  { assert (W : Forall event_wf (evs_traded ++ [open73 (-50) 50 la73; open73 (-50) 50 lb73; open73 (-50) 50 (la73 + lb73)])).
    { unfold evs_traded, setup, positions3, swaps, open73, la73, lb73. cbn [app]. wf_events. }
    apply Forall_app in W as [W W']. apply Forall_cons in W' as [W1 W']. apply Forall_cons in W' as [W2 W']. apply Forall_cons in W' as [W3 _].
    refine (splits73 evs_traded (-50) 50 la73 lb73 W W1 W2 W3 _ _ _ _); [reflexivity|vm_compute; reflexivity..]. }
  split; [unfold later73; wf_events|].
  split; [unfold later73, aside; repeat constructor; intros E; vm_compute in E; discriminate E|].
  split; [vm_compute; reflexivity|]. split; [vm_compute; reflexivity|]. split; vm_compute; reflexivity.
Qed.

(** ** Assumptions *)
Print Assumptions C73_unnoticed.
Print Assumptions C73_cost.
Print Assumptions C73_fees.
Print Assumptions C73_closing.
Print Assumptions C73_cheaper_refuted.
