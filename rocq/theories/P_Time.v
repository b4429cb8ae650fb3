(** Time accounting. *)
From Verif Require Import Base Decimal SqrtPriceM LogM ClammM FeeGrowthM Types TickmapM StorageM
  CollectionsM StateM ServiceM Arith SpecMath SpecFees SpecSum SpecState SpecHistory SpecClean SpecTime SpecRecords P_Clamm P_TickPrice P_Tickmap
  P_Fees P_Balance P_Effects P_Positions P_History P_Loop P_Check P_State P_Iter P_Inv P_InvPos P_PosOps P_InvSwap P_Swap
  P_SwapLoop P_InvHist P_Active  Prop_Records.
From stdpp Require Import gmap list.
From Coq Require Import ZArith Lia Bool.
Open Scope Z_scope.

(** ** Ticks after each kind of call *)

Lemma put_ticks_in k i l : forall m, i ∈ map t_index l -> exists t', t' ∈ l /\ t_index t' = i /\ put_ticks k l m !! (k, i) = Some t'.
Proof.
  induction l as [|t l IH] using rev_ind; intros m; cbn [map]; [intros H; apply elem_of_nil in H; contradiction|].
  rewrite map_app. cbn [map]. intros H. rewrite put_ticks_app.
  destruct (Z.eq_dec (t_index t) i) as [<-|Hn].
  - exists t. split; [apply elem_of_app; right; apply elem_of_list_singleton; reflexivity|]. split; [reflexivity|]. apply lookup_insert.
  - apply elem_of_app in H as [H|H]; [|apply elem_of_list_singleton in H; congruence].
    destruct (IH m H) as (t' & H1 & H2 & H3). exists t'. split; [apply elem_of_app; auto|]. split; [auto|].
    rewrite lookup_insert_ne; [exact H3|]. congruence.
Qed.

Lemma add_fee_times p fee d pf p' : pool_add_fee p fee d pf = Ok p' ->
  p_start_timestamp p' = p_start_timestamp p /\ p_last_timestamp p' = p_last_timestamp p.
Proof.
  unfold pool_add_fee. intros H. apply bind_Ok in H as (pp & _ & H). apply bind_Ok in H as (f & _ & H).
  destruct (_ || _); [injection H as <-; auto|]. apply bind_Ok in H as (g & _ & H).
  destruct d; apply bind_Ok in H as (q & _ & H); injection H as <-; auto.
Qed.

(** What a swap does to the times of its pool and its ticks. *)
Lemma swap_times s ts k d a bi lim p0 r : Inv s -> s_pools s !! k = Some p0 -> u256 a ->
  calculate_swap s ts k d a bi lim = Ok r ->
  p_start_timestamp (cs_pool r) = p_start_timestamp p0 /\
  (cs_ticks r = [] /\ p_last_timestamp (cs_pool r) = p_last_timestamp p0 \/ cs_ticks r <> [] /\ p_last_timestamp (cs_pool r) = ts) /\
  forall t', t' ∈ cs_ticks r -> exists t, s_ticks s !! (k, t_index t') = Some t /\ p_start_timestamp p0 <= ts /\
    t_seconds_outside t' = (ts - p_start_timestamp p0 - t_seconds_outside t) mod M64.
Proof.
  intros I Hp0 Ha H.
  eapply (swap_induction s k d bi lim ts a p0 I Hp0 Ha (fun l =>
    p_start_timestamp (l_pool l) = p_start_timestamp p0 /\
    (l_ticks l = [] /\ p_last_timestamp (l_pool l) = p_last_timestamp p0 \/ l_ticks l <> [] /\ p_last_timestamp (l_pool l) = ts) /\
    forall t', t' ∈ l_ticks l -> exists t, s_ticks s !! (k, t_index t') = Some t /\ p_start_timestamp p0 <= ts /\
      t_seconds_outside t' = (ts - p_start_timestamp p0 - t_seconds_outside t) mod M64)) in H as (l & V & _ & Q & _ & _ & ->).
  - exact Q.
  - intros _. unfold loop_start. cbn. split; [auto|]. split; [auto|]. intros t' Ht. apply elem_of_nil in Ht. contradiction.
  - intros l l' target r0 p1 V Hr (Q1 & Q2 & Q3) S E PO1 Hpr V'.
    pose proof (add_fee_times _ _ _ _ _ (is_add_fee _ _ _ _ _ _ _ _ _ _ S)) as F.
    destruct F as [F1 F2].
    destruct E as [c E1 E2 E3 E4 E5 E6|c v E1 E2 E3 E3' E4 E5 E6 E7 E8|i t E1 E2 E3 E4 E5 E6 E7 E8 E9 E10 E11|i p3 E1 E1' E2 E3 E4 E5 E6 E7 E8 E9 E10 E11].
    + rewrite E1, E2. cbn [set_current_tick_index set_sqrt_price p_start_timestamp p_last_timestamp]. rewrite F1, F2. auto.
    + rewrite E1, E2. cbn [set_current_tick_index set_sqrt_price p_start_timestamp p_last_timestamp]. rewrite F1, F2. auto.
    + rewrite E7, E8. cbn [set_current_tick_index set_sqrt_price set_liquidity set_last_timestamp p_start_timestamp p_last_timestamp] in *.
      rewrite F1 in *. split; [auto|]. split; [right; split; [destruct (l_ticks l); discriminate|reflexivity]|].
      intros t' Ht'. apply elem_of_app in Ht' as [Ht'|Ht']; [auto|]. apply elem_of_list_singleton in Ht'. subst t'.
      exists t. cbn [crossed t_index t_seconds_outside set_sqrt_price p_start_timestamp]. rewrite E2, F1, <- Q1. auto.
    + pose proof (add_fee_times _ _ _ _ _ E3) as G. cbn [set_sqrt_price p_start_timestamp p_last_timestamp] in G.
      destruct G as [G1 G2]. rewrite E4, E5. cbn [set_current_tick_index p_start_timestamp p_last_timestamp].
      rewrite G1, G2, F1, F2. auto.
Qed.

Lemma removed_seconds e s i s' x y : Inv s -> remove_position e s i = Ok (s', (x, y)) ->
  forall k j t', s_ticks s' !! (k, j) = Some t' -> exists t, s_ticks s !! (k, j) = Some t /\ t_seconds_outside t' = t_seconds_outside t.
Proof.
  intros I H. apply remove_position_inv in H
    as (pos & tl0 & tu0 & p & pos' & p' & tu & tl & dx & dy & rl & ru & b1 & T1 & lp & H). cbv zeta in H.
  destruct H as (_ & Htl & Htu & _ & PM & _ & _ & _ & _ & _ & _ & A1 & A2 & _).
  apply position_modify_inv in PM as (mx & fx & fy & _ & M2 & M3 & _).
  apply tick_update_inv in M2 as (_ & _ & _ & _ & Sl & _). apply tick_update_inv in M3 as (_ & _ & _ & _ & Su & _).
  assert (X : forall k j t', T1 !! (k, j) = Some t' -> exists t, s_ticks s !! (k, j) = Some t /\ t_seconds_outside t' = t_seconds_outside t).
  { intros k j t' Ht. destruct rl; destruct A1 as [-> _].
    - apply lookup_delete_Some in Ht as [_ Ht]. eauto.
    - apply lookup_insert_Some in Ht as [[E <-]|[_ Ht]]; [|eauto]. injection E as <- <-. eauto. }
  intros k j t' Ht. destruct ru; destruct A2 as [A2 _]; rewrite A2 in Ht.
  - apply lookup_delete_Some in Ht as [_ Ht]. eauto.
  - apply lookup_insert_Some in Ht as [[E <-]|[_ Ht]]; [|eauto]. injection E as <- <-. eauto.
Qed.

Lemma claimed_seconds e s i s' x y : Inv s -> claim_fee e s i = Ok (s', (x, y)) ->
  forall k j t', s_ticks s' !! (k, j) = Some t' -> exists t, s_ticks s !! (k, j) = Some t /\ t_seconds_outside t' = t_seconds_outside t.
Proof.
  intros I H. apply claim_fee_inv in H as (pos & tl0 & tu0 & p & pos' & p' & tu & tl & dx & dy & B & H). cbv zeta in H.
  destruct H as (_ & Htl & Htu & _ & PM & _ & _ & _ & -> & _).
  apply position_modify_inv in PM as (mx & fx & fy & _ & M2 & M3 & _).
  apply tick_update_inv in M2 as (Il & _ & _ & _ & Sl & _). apply tick_update_inv in M3 as (Iu & _ & _ & _ & Su & _).
  rewrite Il, Iu, (to_index _ _ _ _ (proj2 (I_tick _ I _ _ _ Htl))), (to_index _ _ _ _ (proj2 (I_tick _ I _ _ _ Htu))).
  cbn [set_balances set_ticks s_ticks]. intros k j t' Ht.
  apply lookup_insert_Some in Ht as [[E <-]|[_ Ht]]; [injection E as <- <-; eauto|].
  apply lookup_insert_Some in Ht as [[E <-]|[_ Ht]]; [injection E as <- <-; eauto|]. eauto.
Qed.

(** ** The invariant *)

Definition tick_time (w : stopwatches) (now : Z) (k : pool_key) (p : pool) (i : Z) (t : tick) : Prop :=
  0 <= w k i <= now - p_start_timestamp p /\
  t_seconds_outside t = if i <=? p_current_tick_index p then w k i else now - p_start_timestamp p - w k i.

Definition pool_time (now : Z) (p : pool) : Prop :=
  0 <= p_start_timestamp p <= p_last_timestamp p /\ p_last_timestamp p <= now.

Definition TI (s : state) (now : Z) (w : stopwatches) : Prop :=
  u64 now /\
  (forall k p, s_pools s !! k = Some p -> pool_time now p) /\
  (forall k p i t, s_pools s !! k = Some p -> s_ticks s !! (k, i) = Some t -> tick_time w now k p i t).

Lemma TI_ext s now w w' : (forall k i, is_Some (s_ticks s !! (k, i)) -> w k i = w' k i) -> TI s now w -> TI s now w'.
Proof.
  intros E (T0 & T1 & T2). split; [auto|]. split; [auto|]. intros k p i t Hp Ht. specialize (T2 _ _ _ _ Hp Ht).
  unfold tick_time in *. rewrite <- E by eauto. auto.
Qed.

(** Calls after which every tick was there before. *)
Lemma TI_old s s' now w : (forall k i, is_Some (s_ticks s' !! (k, i)) -> is_Some (s_ticks s !! (k, i))) ->
  TI s' now w -> TI s' now (after_event s s' now w).
Proof.
  intros E. apply TI_ext. intros k i H. apply E in H as [t Ht]. unfold after_event, get_tick, ticks_get. rewrite Ht. reflexivity.
Qed.

(** Calls that keep the current tick and the seconds of every tick. *)
Lemma TI_keep s s' now w :
  (forall k p', s_pools s' !! k = Some p' -> exists p, s_pools s !! k = Some p /\
     p_start_timestamp p' = p_start_timestamp p /\ p_current_tick_index p' = p_current_tick_index p /\
     (p_last_timestamp p' = p_last_timestamp p \/ p_last_timestamp p' = now)) ->
  (forall k i t', s_ticks s' !! (k, i) = Some t' -> exists t, s_ticks s !! (k, i) = Some t /\ t_seconds_outside t' = t_seconds_outside t) ->
  TI s now w -> TI s' now w.
Proof.
  intros EP ET (T0 & T1 & T2). split; [auto|]. split.
  - intros k p' Hp'. destruct (EP _ _ Hp') as (p & Hp & E1 & _ & E3). specialize (T1 _ _ Hp). unfold pool_time in *. lia.
  - intros k p' i t' Hp' Ht'. destruct (EP _ _ Hp') as (p & Hp & E1 & E2 & _). destruct (ET _ _ _ Ht') as (t & Ht & E).
    specialize (T2 _ _ _ _ Hp Ht). unfold tick_time in *. rewrite E1, E2, E. auto.
Qed.

Lemma TI_same s s' now w : s_pools s' = s_pools s -> s_ticks s' = s_ticks s -> TI s now w -> TI s' now (after_event s s' now w).
Proof.
  intros E1 E2 T. apply TI_old; [rewrite E2; auto|]. apply (TI_keep s); [| |auto].
  - rewrite E1. eauto 10.
  - rewrite E2. eauto.
Qed.

Lemma TI_wait s now w now' : now <= now' -> u64 now' -> TI s now w -> TI s now' (after_wait s (now' - now) w).
Proof.
  intros Hn Hu (T0 & T1 & T2). split; [auto|]. split.
  - intros k p Hp. specialize (T1 _ _ Hp). unfold pool_time in *. lia.
  - intros k p i t Hp Ht. destruct (T2 _ _ _ _ Hp Ht) as [B E]. unfold tick_time, after_wait, is_below, pools_get. rewrite Hp. cbn [ok_or].
    rewrite E. destruct (Z.ltb_spec (p_current_tick_index p) i), (Z.leb_spec i (p_current_tick_index p)); lia.
Qed.

Lemma mod64 v : 0 <= v < 2 ^ 64 -> v mod M64 = v.
Proof. intros H. apply Z.mod_small. exact H. Qed.

(** ** Swaps *)

Lemma TI_swap e s k d a bi lim s' r w : Inv s -> u256 a -> swap e s k d a bi lim = Ok (s', r) ->
  clean_result s k r -> TI s (e_timestamp e) w ->
  TI s' (e_timestamp e) w /\ (forall k i, is_Some (s_ticks s' !! (k, i)) -> is_Some (s_ticks s !! (k, i))).
Proof.
  intros I Ha H HC (T0 & T1 & T2). apply swap_inv in H as (B & H & -> & _). set (now := e_timestamp e) in *.
  destruct (calculate_swap_pool _ _ _ _ _ _ _ _ H) as [p0 Hp0].
  destruct (swap_times _ _ _ _ _ _ _ _ _ I Hp0 Ha H) as (S1 & S2 & S3).
  assert (TK : forall k' i t', put_ticks k (cs_ticks r) (s_ticks s) !! (k', i) = Some t' ->
    (k' = k /\ i ∈ map t_index (cs_ticks r) /\ exists t, s_ticks s !! (k, i) = Some t /\
       t_seconds_outside t' = (now - p_start_timestamp p0 - t_seconds_outside t) mod M64) \/
    (~ (k' = k /\ i ∈ map t_index (cs_ticks r)) /\ s_ticks s !! (k', i) = Some t')).
  { intros k' i t' Ht'. destruct (decide (k' = k /\ i ∈ map t_index (cs_ticks r))) as [[-> Hi]|Hn].
    - left. destruct (put_ticks_in k i _ (s_ticks s) Hi) as (t1 & Hin & Hix & Hl). rewrite Hl in Ht'. injection Ht' as <-.
      destruct (S3 _ Hin) as (t & Ht & _ & E). rewrite Hix in Ht. eauto 10.
    - right. split; [auto|]. rewrite put_ticks_ne in Ht'; auto. }
  split; [split; [auto|split]|]; cbn [set_balances set_pools set_ticks s_pools s_ticks].
  - intros k' p' Hp'. apply lookup_insert_Some in Hp' as [[<- <-]|[_ Hp']]; [|exact (T1 _ _ Hp')].
    specialize (T1 _ _ Hp0). unfold pool_time in *. rewrite S1. destruct S2 as [[_ ->]|[_ ->]]; lia.
  - intros k' p' i t' Hp' Ht'. apply lookup_insert_Some in Hp' as [[<- <-]|[Hne Hp']].
    + unfold tick_time. rewrite S1. destruct (T1 _ _ Hp0) as [P1 P2].
      destruct (TK _ _ _ Ht') as [(_ & Hi & t & Ht & E)|[Hn Ht]].
      * destruct (T2 _ _ _ _ Hp0 Ht) as [B1 E1]. split; [auto|]. apply (HC p0 i Hp0 ltac:(eauto)) in Hi. unfold passes in Hi.
        rewrite E, E1, mod64; unfold u64 in *;
          destruct (Z.leb_spec i (p_current_tick_index p0)), (Z.leb_spec i (p_current_tick_index (cs_pool r))); lia.
      * destruct (T2 _ _ _ _ Hp0 Ht) as [B1 E1]. split; [auto|].
        assert (NP : ~ passes (p_current_tick_index p0) (p_current_tick_index (cs_pool r)) i).
        { intros X. apply Hn. split; [auto|]. apply (HC p0 i Hp0 ltac:(eauto)), X. }
        unfold passes in NP. rewrite E1.
        destruct (Z.leb_spec i (p_current_tick_index p0)), (Z.leb_spec i (p_current_tick_index (cs_pool r))); lia.
    + destruct (TK _ _ _ Ht') as [(E & _)|[_ Ht]]; [congruence|]. exact (T2 _ _ _ _ Hp' Ht).
  - intros k' i [t' Ht']. destruct (TK _ _ _ Ht') as [(-> & _ & t & Ht & _)|[_ Ht]]; eauto.
Qed.

Lemma TI_route e hops w : forall s a s' out, Inv s -> u256 a -> route_swap e s a hops = Ok (s', out) ->
  clean_route e s a hops -> TI s (e_timestamp e) w ->
  TI s' (e_timestamp e) w /\ (forall k i, is_Some (s_ticks s' !! (k, i)) -> is_Some (s_ticks s !! (k, i))).
Proof.
  induction hops as [|h hops IH]; cbn [route_swap clean_route]; intros s a s' out I Ha H HC T.
  - injection H as <- _. auto.
  - apply bind_Ok in H as ([s1 r] & E & H). destruct (HC _ _ E) as [C1 C2].
    destruct (Inv_swap _ _ _ _ _ _ _ _ _ I Ha E) as (I1 & _ & Hr).
    destruct (TI_swap e s _ _ a true _ s1 r w I Ha E C1 T) as [T' D1].
    destruct (IH s1 (cs_amount_out r) s' out I1 Hr H C2 T') as [T'' D2]. auto.
Qed.

(** ** All calls *)

Lemma pool_create_times ip it ts sp adm p : pool_create ip it ts sp adm = Ok p -> p_start_timestamp p = ts /\ p_last_timestamp p = ts.
Proof.
  unfold pool_create. intros H. apply bind_Ok in H as (b & _ & H). apply bind_Ok in H as (u & _ & H).
  apply bind_Ok in H as (pr & _ & H). injection H as <-. auto.
Qed.

Lemma get_tick_Some s k i t : get_tick s k i = Ok t <-> s_ticks s !! (k, i) = Some t.
Proof. unfold get_tick, ticks_get. destruct (s_ticks s !! (k, i)); cbn; split; intros H; try discriminate; injection H as ->; auto. Qed.

Lemma created_times s s' k now w p lo up L tl tu : s_pools s !! k = Some p ->
  s_pools s' = <[k := with_liq p lo up L now]> (s_pools s) ->
  get_tick s' k lo = Ok tl -> opened_tick s k p now lo tl ->
  get_tick s' k up = Ok tu -> opened_tick s k p now up tu ->
  (forall k' i, (k', i) <> (k, lo) -> (k', i) <> (k, up) -> get_tick s' k' i = get_tick s k' i) ->
  TI s now w -> TI s' now (after_event s s' now w).
Proof.
  intros Hp EP Gl Ol Gu Ou Rest (T0 & T1 & T2).
  assert (PP : forall k' p', s_pools s' !! k' = Some p' -> exists q, s_pools s !! k' = Some q /\
     p_start_timestamp p' = p_start_timestamp q /\ p_current_tick_index p' = p_current_tick_index q /\
     (p_last_timestamp p' = p_last_timestamp q \/ p_last_timestamp p' = now)).
  { intros k' p' Hp'. rewrite EP in Hp'. apply lookup_insert_Some in Hp' as [[<- <-]|[_ Hp']]; [|eauto 10]. exists p. cbn. auto. }
  assert (OO : forall i t, opened_tick s k p now i t -> tick_time (after_event s s' now w) now k p i t).
  { intros i t [_ O]. unfold tick_time, after_event. destruct (T1 _ _ Hp) as [P1 P2]. unfold u64 in T0.
    destruct (get_tick s k i) as [t0| | |] eqn:E.
    1: { apply get_tick_Some in E. destruct O as (_ & _ & ->). exact (T2 _ _ _ _ Hp E). }
    all: assert (EA : age s' k now = now - p_start_timestamp p)
      by (unfold age, pools_get; rewrite EP, lookup_insert; reflexivity).
    all: rewrite EA; split; [lia|]; destruct O as [O1 O2]; destruct (Z.leb_spec i (p_current_tick_index p)) as [Hi|Hi].
    all: try (destruct (O1 Hi) as (_ & _ & ->); rewrite Z.mod_small by lia; lia).
    all: destruct (O2 Hi) as (_ & _ & ->); lia. }
  split; [auto|]. split.
  - intros k' p' Hp'. destruct (PP _ _ Hp') as (q & Hq & E1 & _ & E3). specialize (T1 _ _ Hq). unfold pool_time in *. lia.
  - intros k' p' i t Hp' Ht. destruct (PP _ _ Hp') as (q & Hq & E1 & E2 & _). apply get_tick_Some in Ht.
    assert (G : tick_time (after_event s s' now w) now k' q i t).
    { destruct (decide ((k', i) = (k, lo))) as [E|N1].
      - injection E as -> ->. rewrite Gl in Ht. injection Ht as <-. rewrite Hp in Hq. injection Hq as <-. auto.
      - destruct (decide ((k', i) = (k, up))) as [E|N2].
        + injection E as -> ->. rewrite Gu in Ht. injection Ht as <-. rewrite Hp in Hq. injection Hq as <-. auto.
        + rewrite (Rest _ _ N1 N2) in Ht. pose proof Ht as Ht0. apply get_tick_Some in Ht0. specialize (T2 _ _ _ _ Hq Ht0).
          unfold tick_time, after_event in *. rewrite Ht. exact T2. }
    unfold tick_time in *. rewrite E1, E2. exact G.
Qed.

Lemma TI_op evs s e o s' w : history room evs s -> op_wf o -> clean s (Call e o) -> run_op e s o = Ok s' ->
  TI s (e_timestamp e) w -> TI s' (e_timestamp e) (after_event s s' (e_timestamp e) w).
Proof.
  intros HH W HC HO T. apply (Inv_history room) in HH as I; [|auto].
  destruct o; cbn [run_op] in HO; apply drop_result_Ok in HO as [v H]; cbn [op_wf] in W; cbn [clean] in HC.
  - apply change_protocol_fee_inv in H as [_ ->]. apply TI_same; auto.
  - apply add_fee_tier_inv in H as (_ & _ & _ & _ & _ & ->). apply TI_same; auto.
  - apply remove_fee_tier_inv in H as (_ & l & _ & ->). apply TI_same; auto.
  - apply create_pool_inv in H as (k & p & HF & HT & HK & HN & _ & HC0 & ->).
    apply pool_create_times in HC0 as [E1 E2]. apply TI_old; [auto|]. destruct T as (T0 & T1 & T2). split; [auto|].
    cbn [set_pool_keys set_pools s_pools s_ticks]. split.
    + intros k' p' Hp'. apply lookup_insert_Some in Hp' as [[<- <-]|[_ Hp']]; [|exact (T1 _ _ Hp')]. unfold pool_time, u64 in *. lia.
    + intros k' p' i t Hp' Ht. apply lookup_insert_Some in Hp' as [[<- <-]|[_ Hp']]; [|eauto].
      destruct (I_tick _ I _ _ _ Ht) as [[q Hq] _]. congruence.
  - apply change_fee_receiver_inv in H as (_ & p & Hp & ->). apply TI_old; [auto|]. apply (TI_keep s); [|eauto|auto].
    intros k' q Hq. cbn [set_pools s_pools] in Hq. apply lookup_insert_Some in Hq as [[<- <-]|[_ Hq]]; [|eauto 10]. exists p. cbn. auto.
  - pose proof H as H0. apply create_summary in H0 as (p & x & y & mx & C); [|auto|apply W].
    destruct (C51_boundary_ticks evs s e _ _ _ _ _ _ s' v p HH ltac:(apply W) H) as ((tl & Gl & Ol) & (tu & Gu & Ou) & Rest).
    { unfold pools_get. rewrite (cr_pool _ _ _ _ _ _ _ _ _ _ _ _ _ _ C). reflexivity. }
    apply (created_times s s' _ _ w p _ _ _ _ _ (cr_pool _ _ _ _ _ _ _ _ _ _ _ _ _ _ C) (cr_pools _ _ _ _ _ _ _ _ _ _ _ _ _ _ C) Gl Ol Gu Ou Rest T).
  - destruct v as [x y]. pose proof (removed_seconds _ _ _ _ _ _ I H) as SE.
    apply remove_summary in H as (pos & p & tl & tu & dx & dy & ox & oy & C); [|auto].
    apply TI_old; [intros k j [t' Ht']; destruct (SE _ _ _ Ht') as (t & Ht & _); eauto|].
    apply (TI_keep s); [|auto|auto]. intros k' q Hq. rewrite (rm_pools _ _ _ _ _ _ _ _ _ _ _ _ _ _ C) in Hq.
    apply lookup_insert_Some in Hq as [[<- <-]|[_ Hq]]; [|eauto 10]. exists p. split; [apply C|]. cbn. auto.
  - apply transfer_position_inv in H as (pos & lp & s1 & _ & _ & E1 & E2). subst s' s1. apply TI_same; auto.
  - destruct (TI_swap e s _ _ _ _ _ s' v w I ltac:(apply W) H (HC _ _ H) T). apply TI_old; auto.
  - apply swap_route_inv in H. destruct (TI_route e _ w s _ s' _ I (proj1 W) H HC T). apply TI_old; auto.
  - destruct v as [x y]. pose proof (claimed_seconds _ _ _ _ _ _ I H) as SE.
    apply claim_summary in H as (pos & p & tl & tu & mx & C); [|auto].
    apply TI_old; [intros k j [t' Ht']; destruct (SE _ _ _ Ht') as (t & Ht & _); eauto|].
    apply (TI_keep s); [|auto|auto]. intros k' q Hq. rewrite (cl_pools _ _ _ _ _ _ _ _ _ _ _ C) in Hq.
    apply lookup_insert_Some in Hq as [[<- <-]|[_ Hq]]; [|eauto 10]. exists p. split; [apply C|]. cbn. auto.
  - apply withdraw_protocol_fee_inv in H as (p & B & Hp & _ & -> & _). apply TI_old; [auto|]. apply (TI_keep s); [|eauto|auto].
    intros k' q Hq. cbn [set_balances set_pools s_pools] in Hq. apply lookup_insert_Some in Hq as [[<- <-]|[_ Hq]]; [|eauto 10]. exists p. cbn. auto.
  - apply deposit_vara_inv in H as (_ & [B ->] & _). apply TI_same; auto.
  - apply withdraw_vara_inv in H as ([B ->] & _). apply TI_same; auto.
Qed.

Lemma timed_history (G : state -> event -> Prop) evs s now w : timed G evs s now w -> history G evs s.
Proof. induction 1; auto; constructor; auto. Qed.

Lemma timed_TI evs s now w : timed regular evs s now w -> TI s now w.
Proof.
  induction 1 as [adm fee now Hf Hn|evs s now w now' H IH Hle Hu|evs s now w ev H IH W [R C] Et].
  - split; [auto|]. split; intros; cbn in *; rewrite lookup_empty in *; discriminate.
  - apply TI_wait; auto.
  - apply timed_history in H. assert (HR : history room evs s) by (eapply history_weaken; [|exact H]; intros ? ? [? _]; auto).
    destruct ev as [e o|u t a|u t a|m]; cbn [exec_event event_wf] in *.
    + subst now. unfold exec_op. destruct (run_op e s o) as [s'| | |] eqn:E; [|apply TI_same; auto..].
      apply (TI_op evs s e o s' w HR (proj2 W) C E IH).
    + destruct (increase_token_balance s t u a) eqn:E; [|apply TI_same; auto..].
      apply increase_spec in E as ((B & ->) & _). apply TI_same; auto.
    + destruct (decrease_token_balance s t u a) as [[s1 v]| | |] eqn:E; [|apply TI_same; auto..].
      apply decrease_spec in E as ((B & ->) & _). apply TI_same; auto.
    + apply TI_same; auto.
Qed.

(** ** The timestamps of a pool after any call *)

Definition same_start (now : Z) (s s' : state) : Prop :=
  forall k p, s_pools s !! k = Some p -> exists p', s_pools s' !! k = Some p' /\
    p_start_timestamp p' = p_start_timestamp p /\ (p_last_timestamp p' = p_last_timestamp p \/ p_last_timestamp p' = now).

Lemma same_start_refl now s s' : s_pools s' = s_pools s -> same_start now s s'.
Proof. intros E k p Hp. rewrite E. eauto. Qed.
Lemma same_start_insert now s s' k q q' : s_pools s !! k = Some q -> s_pools s' = <[k := q']> (s_pools s) ->
  p_start_timestamp q' = p_start_timestamp q -> (p_last_timestamp q' = p_last_timestamp q \/ p_last_timestamp q' = now) -> same_start now s s'.
Proof.
  intros Hq E E1 E2 k' p Hp. rewrite E. destruct (decide (k' = k)) as [->|N].
  - rewrite lookup_insert. rewrite Hq in Hp. injection Hp as <-. eauto.
  - rewrite lookup_insert_ne by congruence. eauto.
Qed.
Lemma same_start_trans now s s1 s2 : same_start now s s1 -> same_start now s1 s2 -> same_start now s s2.
Proof.
  intros H1 H2 k p Hp. destruct (H1 _ _ Hp) as (p1 & Hp1 & A1 & B1). destruct (H2 _ _ Hp1) as (p2 & Hp2 & A2 & B2).
  exists p2. split; [auto|]. split; [congruence|]. destruct B2 as [->| ->]; auto.
Qed.
Lemma same_start_swap e s k d a bi lim s' r : Inv s -> u256 a -> swap e s k d a bi lim = Ok (s', r) -> same_start (e_timestamp e) s s'.
Proof.
  intros I Ha H. apply swap_inv in H as (B & H & -> & _). destruct (calculate_swap_pool _ _ _ _ _ _ _ _ H) as [p0 Hp0].
  destruct (swap_times _ _ _ _ _ _ _ _ _ I Hp0 Ha H) as (S1 & S2 & _).
  apply (same_start_insert _ s _ k p0 (cs_pool r)); auto. destruct S2 as [[_ ->]|[_ ->]]; auto.
Qed.
Lemma same_start_route e hops : forall s a s' out, Inv s -> u256 a -> route_swap e s a hops = Ok (s', out) -> same_start (e_timestamp e) s s'.
Proof.
  induction hops as [|h hops IH]; cbn [route_swap]; intros s a s' out I Ha H.
  - injection H as <- _. apply same_start_refl. reflexivity.
  - apply bind_Ok in H as ([s1 r] & E & H). destruct (Inv_swap _ _ _ _ _ _ _ _ _ I Ha E) as (I1 & _ & Hr).
    eapply same_start_trans; [exact (same_start_swap _ _ _ _ _ _ _ _ _ I Ha E)|exact (IH s1 _ s' out I1 Hr H)].
Qed.

Lemma same_start_op e s o s' : Inv s -> op_wf o -> run_op e s o = Ok s' -> same_start (e_timestamp e) s s'.
Proof.
  intros I W HO. destruct o; cbn [run_op] in HO; apply drop_result_Ok in HO as [v H]; cbn [op_wf] in W.
  - apply change_protocol_fee_inv in H as [_ ->]. apply same_start_refl; auto.
  - apply add_fee_tier_inv in H as (_ & _ & _ & _ & _ & ->). apply same_start_refl; auto.
  - apply remove_fee_tier_inv in H as (_ & l & _ & ->). apply same_start_refl; auto.
  - apply create_pool_inv in H as (k & p & _ & _ & _ & HN & _ & _ & ->). intros k' q Hq.
    cbn [set_pool_keys set_pools s_pools]. rewrite lookup_insert_ne by congruence. eauto.
  - apply change_fee_receiver_inv in H as (_ & p & Hp & ->). eapply same_start_insert; [exact Hp|reflexivity|reflexivity|auto].
  - apply create_summary in H as (p & x & y & mx & C); [|auto|apply W].
    eapply same_start_insert; [apply C|apply C|reflexivity|auto].
  - destruct v as [x y]. apply remove_summary in H as (pos & p & tl & tu & dx & dy & ox & oy & C); [|auto].
    eapply same_start_insert; [apply C|apply C|reflexivity|auto].
  - apply transfer_position_inv in H as (pos & lp & s1 & _ & _ & E1 & E2). subst s' s1. apply same_start_refl; auto.
  - eapply same_start_swap; [auto| |exact H]. apply W.
  - apply swap_route_inv in H. exact (same_start_route _ _ _ _ _ _ I (proj1 W) H).
  - destruct v as [x y]. apply claim_summary in H as (pos & p & tl & tu & mx & C); [|auto].
    eapply same_start_insert; [apply C|apply C|reflexivity|auto].
  - apply withdraw_protocol_fee_inv in H as (p & B & Hp & _ & -> & _). eapply same_start_insert; [exact Hp|reflexivity|reflexivity|auto].
  - apply deposit_vara_inv in H as (_ & [B ->] & _). apply same_start_refl; auto.
  - apply withdraw_vara_inv in H as ([B ->] & _). apply same_start_refl; auto.
Qed.
