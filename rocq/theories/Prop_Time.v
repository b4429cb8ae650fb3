(** Theorems: time accounting of pools and ticks (C53). *)
From Verif Require Import Base Decimal SqrtPriceM LogM Types CollectionsM StorageM StateM ServiceM Arith SpecMath SpecState SpecHistory SpecClean
  SpecTime P_Effects P_History P_Inv P_InvPos P_PosOps P_SwapLoop P_InvHist P_Time Cases CasesClean Prop_Ticks.
From stdpp Require Import gmap list.
From Coq Require Import ZArith Lia Bool.
Open Scope Z_scope.

(** ** C53 *)

(** Every tick stores the seconds spent on the other side of it: those below it
    while the current tick is at or above it, the others while it is below. *)
Theorem C53_seconds_outside evs s now w k p i t :
  timed regular evs s now w -> pools_get s k = Ok p -> get_tick s k i = Ok t ->
  0 <= w k i <= now - p_start_timestamp p /\
  t_seconds_outside t = (if i <=? p_current_tick_index p then w k i else now - p_start_timestamp p - w k i).
Proof.
  intros H Hp Ht. apply timed_TI in H as (_ & _ & T). apply pools_get_Ok in Hp. apply get_tick_Some in Ht. exact (T _ _ _ _ Hp Ht).
Qed.

(** So the time spent on either side of a tick, and between two ticks, can be read off. *)
Theorem C53_time_read_off evs s now w k p lo up tl tu :
  timed regular evs s now w -> pools_get s k = Ok p -> get_tick s k lo = Ok tl -> get_tick s k up = Ok tu ->
  seconds_below now p tl = w k lo /\
  seconds_below now p tl + seconds_above now p tl = now - p_start_timestamp p /\
  now - p_start_timestamp p - seconds_below now p tl - seconds_above now p tu = w k up - w k lo.
Proof.
  intros H Hp Hl Hu.
  assert (I : Inv s) by (eapply (Inv_history regular); [|exact (timed_history _ _ _ _ _ H)]; intros ? ? [? _]; auto).
  destruct (C53_seconds_outside _ _ _ _ _ _ _ _ H Hp Hl) as [B1 E1]. destruct (C53_seconds_outside _ _ _ _ _ _ _ _ H Hp Hu) as [B2 E2].
  apply get_tick_Some in Hl, Hu. unfold seconds_below, seconds_above.
  rewrite (to_index _ _ _ _ (proj2 (I_tick _ I _ _ _ Hl))), (to_index _ _ _ _ (proj2 (I_tick _ I _ _ _ Hu))), E1, E2.
  destruct (lo <=? _), (up <=? _); lia.
Qed.

(** What the difference of two stopwatches counts: it runs while the current tick
    is at or above the one and below the other, and no event changes it. *)
Theorem C53_time_in_range s k p lo up dt w : pools_get s k = Ok p -> lo <= up ->
  after_wait s dt w k up - after_wait s dt w k lo =
    w k up - w k lo + (if (lo <=? p_current_tick_index p) && (p_current_tick_index p <? up) then dt else 0) /\
  forall s' now t1 t2, get_tick s k lo = Ok t1 -> get_tick s k up = Ok t2 ->
    after_event s s' now w k up - after_event s s' now w k lo = w k up - w k lo.
Proof.
  intros Hp Hl. split.
  - unfold after_wait, is_below. rewrite Hp.
    destruct (Z.ltb_spec (p_current_tick_index p) up), (Z.ltb_spec (p_current_tick_index p) lo), (Z.leb_spec lo (p_current_tick_index p)); cbn [andb]; lia.
  - intros s' now t1 t2 H1 H2. unfold after_event. rewrite H1, H2. reflexivity.
Qed.

(** The timestamps of a pool. *)
Theorem C53_timestamps evs s now w k p : timed regular evs s now w -> pools_get s k = Ok p ->
  0 <= p_start_timestamp p <= p_last_timestamp p /\ p_last_timestamp p <= now.
Proof. intros H Hp. apply timed_TI in H as (_ & T & _). apply pools_get_Ok in Hp. exact (T _ _ Hp). Qed.

Theorem C53_new_pool e s x y ft ip it s' r k p : create_pool e s x y ft ip it = Ok (s', r) -> pool_key_new x y ft = Ok k ->
  pools_get s' k = Ok p -> p_start_timestamp p = e_timestamp e /\ p_last_timestamp p = e_timestamp e.
Proof.
  intros H Hk Hp. apply create_pool_inv in H as (k' & p' & _ & _ & E & _ & _ & HC & ->). rewrite Hk in E. injection E as <-.
  apply pool_create_times in HC. unfold pools_get in Hp. cbn [set_pool_keys set_pools s_pools] in Hp. rewrite lookup_insert in Hp. injection Hp as <-. exact HC.
Qed.

(** The calls that touch a pool set its last timestamp; a swap does so if it crosses a tick. *)
Theorem C53_last_timestamp evs s e : history room evs s ->
  (forall k lo up L sl su s' pos p p', u256 L -> create_position e s k lo up L sl su = Ok (s', pos) ->
     pools_get s k = Ok p -> pools_get s' k = Ok p' ->
     p_last_timestamp p' = e_timestamp e /\ p_start_timestamp p' = p_start_timestamp p) /\
  (forall i s' x y pos p p', get_position s (e_caller e) i = Ok pos -> remove_position e s i = Ok (s', (x, y)) ->
     pools_get s (pos_pool_key pos) = Ok p -> pools_get s' (pos_pool_key pos) = Ok p' ->
     p_last_timestamp p' = e_timestamp e /\ p_start_timestamp p' = p_start_timestamp p) /\
  (forall i s' x y pos p p', get_position s (e_caller e) i = Ok pos -> claim_fee e s i = Ok (s', (x, y)) ->
     pools_get s (pos_pool_key pos) = Ok p -> pools_get s' (pos_pool_key pos) = Ok p' ->
     p_last_timestamp p' = e_timestamp e /\ p_start_timestamp p' = p_start_timestamp p) /\
  (forall k d a bi lim s' r p p', u256 a -> swap e s k d a bi lim = Ok (s', r) ->
     pools_get s k = Ok p -> pools_get s' k = Ok p' ->
     p_last_timestamp p' = (match cs_ticks r with [] => p_last_timestamp p | _ => e_timestamp e end) /\
     p_start_timestamp p' = p_start_timestamp p).
Proof.
  intros H. apply (Inv_history room) in H as I; [|auto]. repeat apply conj.
  - intros k lo up L sl su s' pos p p' HL HC Hp Hp'. apply pools_get_Ok in Hp, Hp'.
    apply create_summary in HC as (q & x & y & mx & C); [|auto|auto].
    rewrite (cr_pools _ _ _ _ _ _ _ _ _ _ _ _ _ _ C), lookup_insert in Hp'. injection Hp' as <-.
    pose proof (cr_pool _ _ _ _ _ _ _ _ _ _ _ _ _ _ C) as E. rewrite Hp in E. injection E as <-. auto.
  - intros i s' x y pos p p' Hg HC Hp Hp'. apply pools_get_Ok in Hp, Hp'.
    apply remove_summary in HC as (pos' & q & tl & tu & dx & dy & ox & oy & C); [|auto].
    pose proof (rm_pos _ _ _ _ _ _ _ _ _ _ _ _ _ _ C) as E. unfold get_position, positions_get in Hg. rewrite E in Hg. injection Hg as <-.
    rewrite (rm_pools _ _ _ _ _ _ _ _ _ _ _ _ _ _ C), lookup_insert in Hp'. injection Hp' as <-.
    pose proof (rm_pool _ _ _ _ _ _ _ _ _ _ _ _ _ _ C) as E'. rewrite Hp in E'. injection E' as <-. auto.
  - intros i s' x y pos p p' Hg HC Hp Hp'. apply pools_get_Ok in Hp, Hp'.
    apply claim_summary in HC as (pos' & q & tl & tu & mx & C); [|auto].
    pose proof (cl_pos _ _ _ _ _ _ _ _ _ _ _ C) as E. unfold get_position, positions_get in Hg. rewrite E in Hg. injection Hg as <-.
    rewrite (cl_pools _ _ _ _ _ _ _ _ _ _ _ C), lookup_insert in Hp'. injection Hp' as <-.
    pose proof (cl_pool _ _ _ _ _ _ _ _ _ _ _ C) as E'. rewrite Hp in E'. injection E' as <-. auto.
  - intros k d a bi lim s' r p p' Ha HC Hp Hp'. apply pools_get_Ok in Hp, Hp'.
    apply swap_inv in HC as (B & HC & -> & _). cbn [set_balances set_pools s_pools] in Hp'. rewrite lookup_insert in Hp'. injection Hp' as <-.
    destruct (swap_times _ _ _ _ _ _ _ _ _ I Hp Ha HC) as (S1 & S2 & _). split; [|auto].
    destruct S2 as [[-> E]|[N E]]; [auto|]. destruct (cs_ticks r); [congruence|auto].
Qed.

(** No call changes the start of a pool, or sets its last timestamp to anything but the present time. *)
Theorem C53_start_is_fixed evs s e o k p : history room evs s -> event_wf (Call e o) -> pools_get s k = Ok p ->
  exists p', pools_get (exec_event s (Call e o)) k = Ok p' /\ p_start_timestamp p' = p_start_timestamp p /\
    (p_last_timestamp p' = p_last_timestamp p \/ p_last_timestamp p' = e_timestamp e).
Proof.
  intros H [_ W] Hp. apply (Inv_history room) in H as I; [|auto]. apply pools_get_Ok in Hp. cbn [exec_event]. unfold exec_op.
  destruct (run_op e s o) as [s'| | |] eqn:E.
  - destruct (same_start_op e s o s' I W E _ _ Hp) as (p' & Hp' & R). exists p'. split; [apply pools_get_Ok; auto|auto].
  - exists p. split; [apply pools_get_Ok; auto|auto].
  - exists p. split; [apply pools_get_Ok; auto|auto].
  - exists p. split; [apply pools_get_Ok; auto|auto].
Qed.

(** *** A concrete case *)

(** Steps of a run: wait until a time, or an event. *)
Inductive step : Type := Until (t : Z) | Do (ev : event).
Definition time_ok (now : Z) (ev : event) : bool := match ev with Call e _ => e_timestamp e =? now | _ => true end.
Fixpoint run_timed (check : state -> event -> bool) (l : list step) (x : state * Z * stopwatches) : option (state * Z * stopwatches) :=
  match l with
  | [] => Some x
  | Until t :: l => let '(s, now, w) := x in
      if (now <=? t) && (t <? 2 ^ 64) then run_timed check l (s, t, after_wait s (t - now) w) else None
  | Do ev :: l => let '(s, now, w) := x in
      if time_ok now ev && check s ev
      then let s' := exec_event s ev in run_timed check l (s', now, after_event s s' now w) else None
  end.
Definition events_of (l : list step) : list event := omap (fun x => match x with Do ev => Some ev | _ => None end) l.

Lemma timed_weaken (G G' : state -> event -> Prop) evs s now w : (forall s ev, G s ev -> G' s ev) -> timed G evs s now w -> timed G' evs s now w.
Proof. intros HG. induction 1; econstructor; eauto. Qed.

Lemma run_timed_spec (check : state -> event -> bool) (G : state -> event -> Prop) l :
  (forall s ev, check s ev = true -> room s ev -> G s ev) ->
  forall evs s now w s' now' w', timed G evs s now w -> Forall event_wf (evs ++ events_of l) ->
  Z.of_nat (length (evs ++ events_of l)) < 2 ^ 32 - 1 ->
  run_timed check l (s, now, w) = Some (s', now', w') -> timed G (evs ++ events_of l) s' now' w'.
Proof.
  intros HG. induction l as [|[t|ev] l IH]; intros evs s now w s' now' w' H W L R; cbn [run_timed] in R.
  - injection R as <- <- <-. cbn [events_of omap list_omap]. rewrite app_nil_r. exact H.
  - destruct (_ && _) eqn:E; [|discriminate]. apply andb_true_iff in E as [E1 E2].
    change (events_of (Until t :: l)) with (events_of l) in *. apply (IH evs s t (after_wait s (t - now) w)); auto. constructor; [exact H|lia|].
    assert (0 <= now) by (clear -H; induction H; unfold u64 in *; lia). unfold u64. lia.
  - destruct (_ && _) eqn:E; [|discriminate]. apply andb_true_iff in E as [E1 E2].
    assert (EV : evs ++ events_of (Do ev :: l) = (evs ++ [ev]) ++ events_of l) by (rewrite <- app_assoc; reflexivity). rewrite EV in *.
    assert (W' := W). apply Forall_app in W' as [W' _]. apply Forall_app in W' as [_ W']. inversion W'; subst.
    apply (IH (evs ++ [ev]) (exec_event s ev) now (after_event s (exec_event s ev) now w)); auto. constructor; auto.
    + apply HG; [auto|]. apply timed_history in H. assert (H0 : history anything evs s) by (eapply history_weaken; [|exact H]; unfold anything; auto).
      assert (Z.of_nat (length evs) < 2 ^ 32 - 1) by (rewrite !app_length in L; lia).
      apply history_room in H0 as [_ H0]; [|auto]. intros a. specialize (H0 a). lia.
    + destruct ev; cbn [time_ok] in E1; auto. apply Z.eqb_eq. exact E1.
Qed.

Definition at_time (now caller : Z) : env := mkEnv caller now 5 0 1000000000000 99.
(** A pool opened at 1000; positions opened at 1100 and 1200; a swap at 1500 crosses
    tick -10 downwards, another one at 1700 crosses it upwards; now it is 2000. *)
Definition steps_time : list step := [
  Do (Call (at_time 1000 admin) (OpAddFeeTier tier1));
  Do (Call (at_time 1000 bob) (OpCreatePool tokB tokA tier1 1000000000000000000000000 0));
  Do (Credit alice tokA 1000000); Do (Credit alice tokB 1000000); Do (Credit bob tokA 1000000); Do (Credit bob tokB 1000000);
  Do (Credit carol tokA 1000000); Do (Credit carol tokB 1000000);
  Until 1100; Do (Call (at_time 1100 alice) (OpCreatePosition pool1 (-20) 30 100000000000 0 any_price));
  Until 1200; Do (Call (at_time 1200 bob) (OpCreatePosition pool1 (-30) (-10) 200000000000 0 any_price));
  Until 1500; Do (Call (at_time 1500 carol) (OpSwap pool1 true 1000 true 15258932000000000000));
  Until 1700; Do (Call (at_time 1700 carol) (OpSwap pool1 false 900 true any_price));
  Until 2000 ].
Definition x_time (check : state -> event -> bool) (l : list step) := run_timed check l (init_state admin 10000000000, 1000, fun _ _ => 0).
Definition time_view (x : option (state * Z * stopwatches)) (l : list Z) : option (Z * Z * Z * Z * list (Z * Z)) :=
  match x with
  | Some (s, now, w) =>
      match pools_get s pool1 with
      | Ok p => Some (now, p_current_tick_index p, p_start_timestamp p, p_last_timestamp p,
                  map (fun i => (match get_tick s pool1 i with Ok t => t_seconds_outside t | _ => -1 end, w pool1 i)) l)
      | _ => None
      end
  | None => None
  end.
Lemma time_view_spec x l c n sa la ts : time_view x l = Some (n, c, sa, la, ts) ->
  exists s w p, x = Some (s, n, w) /\ pools_get s pool1 = Ok p /\ p_current_tick_index p = c /\ p_start_timestamp p = sa /\ p_last_timestamp p = la /\
    map (fun i => (match get_tick s pool1 i with Ok t => t_seconds_outside t | _ => -1 end, w pool1 i)) l = ts.
Proof.
  unfold time_view. destruct x as [[[s n'] w]|]; [|discriminate]. destruct (pools_get s pool1) as [p| | |] eqn:E; try discriminate.
  intros H. injection H as -> <- <- <- <-. exists s, w, p. auto 10.
Qed.

Lemma x_time_spec (check : state -> event -> bool) (G : state -> event -> Prop) l s now w :
  (forall s ev, check s ev = true -> room s ev -> G s ev) -> Forall event_wf (events_of l) ->
  Z.of_nat (length (events_of l)) < 2 ^ 32 - 1 -> x_time check l = Some (s, now, w) -> timed G (events_of l) s now w.
Proof.
  intros HG W L H. unfold x_time in H. apply (run_timed_spec check G l HG [] _ _ _ _ _ _) in H; auto.
  constructor; unfold u128, u64; lia.
Qed.

Example C53_case :
  exists s w p, timed regular (events_of steps_time) s 2000 w /\ pools_get s pool1 = Ok p /\
    p_current_tick_index p = -10 /\ p_start_timestamp p = 1000 /\ p_last_timestamp p = 1700 /\
    map (fun i => (match get_tick s pool1 i with Ok t => t_seconds_outside t | _ => -1 end, w pool1 i)) [-30; -20; -10; 30]
      = [(200, 200); (100, 100); (400, 400); (0, 1000)].
Proof.
  destruct (time_view_spec (x_time cleanb steps_time) [-30; -20; -10; 30] (-10) 2000 1000 1700 [(200, 200); (100, 100); (400, 400); (0, 1000)])
    as (s & w & p & H & V); [vm_compute; reflexivity|].
  exists s, w, p. split; [|exact V].
  apply (x_time_spec cleanb); [|unfold steps_time; cbn [events_of omap list_omap]; wf_events|reflexivity|exact H].
  intros s0 ev C R. split; [exact R|apply cleanb_spec; exact C].
Qed.

(** Without the side condition it fails: a swap stops at a price limit equal to the
    price of tick 10 and does not cross it (C23); tick 10 then claims that the pool
    has never been below it. *)
Definition steps_limit : list step := [
  Do (Call (at_time 1000 admin) (OpAddFeeTier tier1));
  Do (Call (at_time 1000 bob) (OpCreatePool tokB tokA tier1 1000000000000000000000000 0));
  Do (Credit alice tokA 1000000); Do (Credit alice tokB 1000000); Do (Credit bob tokA 1000000); Do (Credit bob tokB 1000000);
  Do (Credit carol tokA 1000000); Do (Credit carol tokB 1000000);
  Do (Call (at_time 1000 alice) (OpCreatePosition pool1 (-10) 10 300000000000 0 any_price));
  Do (Call (at_time 1000 bob) (OpCreatePosition pool1 10 30 100000000000 0 any_price));
  Until 1500; Do (Call (at_time 1500 carol) (OpSwap pool1 false 1517 true 1000500100010000000000000)) ].
Lemma seconds_of (s : state) k i v : v <> -1 -> match get_tick s k i with Ok t => t_seconds_outside t | _ => -1 end = v ->
  exists t, get_tick s k i = Ok t /\ t_seconds_outside t = v.
Proof. intros N H. destruct (get_tick s k i) as [t| | |]; try congruence. eauto. Qed.

Theorem C53_seconds_outside_refuted :
  exists evs s now w k p i t,
    timed room evs s now w /\ pools_get s k = Ok p /\ get_tick s k i = Ok t /\
    i <= p_current_tick_index p /\ t_seconds_outside t = 0 /\ w k i = 500.
Proof.
  destruct (time_view_spec (x_time (fun _ _ => true) steps_limit) [10] 10 1500 1000 1000 [(0, 500)])
    as (s & w & p & H & Hp & Hc & _ & _ & V); [vm_compute; reflexivity|].
  cbn [map] in V. injection V as V1 V2. destruct (seconds_of s pool1 10 0) as (t & Ht & Es); [lia|exact V1|].
  exists (events_of steps_limit), s, 1500, w, pool1, p, 10, t.
  split; [|split; [exact Hp|split; [exact Ht|split; [lia|split; [exact Es|exact V2]]]]].
  apply (x_time_spec (fun _ _ => true)); [auto|unfold steps_limit; cbn [events_of omap list_omap]; wf_events|reflexivity|exact H].
Qed.

(** ** Assumptions *)
Print Assumptions C53_seconds_outside.
Print Assumptions C53_time_read_off.
Print Assumptions C53_time_in_range.
Print Assumptions C53_timestamps.
Print Assumptions C53_new_pool.
Print Assumptions C53_last_timestamp.
Print Assumptions C53_start_is_fixed.
Print Assumptions C53_seconds_outside_refuted.
