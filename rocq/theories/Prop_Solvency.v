(** Properties C25 and C26: positions can be closed, and the exchange is solvent. *)
From Verif Require Import Base Decimal SqrtPriceM LogM ClammM FeeGrowthM Types TickmapM StorageM
  CollectionsM StateM ServiceM AsyncM Arith SpecMath SpecFees SpecSum SpecState SpecHistory SpecClean SpecSolv SpecAsync SpecHeld
  P_Balance P_Effects P_Positions P_History P_Inv P_PosOps P_InvHist P_Active P_Live P_Bals P_RSum P_Claims P_Owed P_OwedSwap P_Solv
  P_Payout P_Exit P_Async P_AsyncRuns P_Held Prop_Async Cases CasesClean.
From stdpp Require Import gmap list.
From Coq Require Import ZArith Lia Bool Reals Lra.
Open Scope Z_scope.

(** ** C26 *)

(** The exact form: balances and claims exceed the deposits by at most 1/(2*10^14)
    per rounding in favour of a user. *)
Theorem C26_exact admin fee evs s t : u128 fee -> trace regular (init_state admin fee) evs s ->
  (owed s t + IZR (bal_total s t) <= IZR (net_deposits (init_state admin fee) evs t) + IZR (all_roundings evs) / (2 * 10 ^ 14))%R.
Proof. intros Hf HT. exact (owed_balances admin fee evs s Hf HT t). Qed.

(** Whole tokens: while fewer than 2*10^14 roundings have been made (at least
    450 million swaps), everything that can be paid out is covered. *)
Theorem C26_solvent admin fee evs s t timestamp : u128 fee -> trace regular (init_state admin fee) evs s ->
  all_roundings evs < 2 * 10 ^ 14 ->
  payable timestamp s t + bal_total s t <= net_deposits (init_state admin fee) evs t.
Proof.
  intros Hf HT HR. destruct (active_history evs s (trace_history _ _ _ _ _ Hf HT)) as (I & _ & _).
  pose proof (owed_balances admin fee evs s Hf HT t) as O. pose proof (payable_le timestamp s t I) as P.
  apply (whole_le _ _ (IZR (all_roundings evs) * eps)); [rewrite plus_IZR; lra|].
  apply small_roundings. pose proof (all_roundings_nonneg evs). lia.
Qed.

(** Nobody's balance, nor all of them together, can exceed what was deposited. *)
Theorem C26_balances_covered admin fee evs s t : u128 fee -> trace regular (init_state admin fee) evs s ->
  all_roundings evs < 2 * 10 ^ 14 ->
  bal_total s t <= net_deposits (init_state admin fee) evs t.
Proof.
  intros Hf HT HR. destruct (active_history evs s (trace_history _ _ _ _ _ Hf HT)) as (I & _ & _).
  pose proof (owed_balances admin fee evs s Hf HT t) as O.
  assert (0 <= owed s t)%R.
  { unfold owed. assert (0 <= IZR (zsum (protocol_in t) (s_pools s)))%R.
    { apply IZR_le, zsum_nonneg. intros k p Hk. eapply protocol_nonneg; eauto. }
    assert (0 <= rsum (fun _ pos => claim_in t s pos) (s_positions s))%R; [|lra].
    apply rsum_nonneg. intros [b m] q Hq. eapply claim_in_nonneg; eauto. }
  apply (whole_le _ _ (IZR (all_roundings evs) * eps)); [lra|].
  apply small_roundings. pose proof (all_roundings_nonneg evs). lia.
Qed.

(** Closing a position pays at most its claim, and leaves every other claim alone. *)
Theorem C26_closing evs s e i s' x y pos : history regular evs s -> room s (Call e (OpRemovePosition i)) -> u32 i -> env_wf e ->
  get_position s (e_caller e) i = Ok pos -> remove_position e s i = Ok (s', (x, y)) ->
  (IZR x <= claim true s pos)%R /\ (IZR y <= claim false s pos)%R /\
  forall owner j q, get_position s' owner j = Ok q -> forall b, claim b s' q = claim b s q.
Proof.
  intros H HR Hi HW Hp HC. destruct (active_history evs s H) as (I & _ & _).
  assert (H' : history regular (evs ++ [Call e (OpRemovePosition i)]) s').
  { replace s' with (exec_event s (Call e (OpRemovePosition i))); [constructor; auto; split; cbn; auto|].
    cbn [exec_event]. unfold exec_op. cbn [run_op]. rewrite HC. reflexivity. }
  destruct (active_history _ s' H') as (I' & _ & _).
  destruct (remove_summary _ _ _ _ _ _ I HC) as (pos' & p & tl & tu & dx & dy & ox & oy & C).
  apply positions_get_Ok in Hp. pose proof (rm_pos _ _ _ _ _ _ _ _ _ _ _ _ _ _ C) as Hp'.
  assert (pos' = pos) by congruence. subst pos'.
  destruct (removed_claim _ _ _ _ _ _ _ _ _ _ _ _ _ _ I C) as [A1 A2]. split; [exact A1|]. split; [exact A2|].
  intros owner j q Hq b. apply positions_get_Ok in Hq. eapply removed_others; eauto.
Qed.

(** With tokens in flight: in every interleaving of calls, replies, timeouts and
    resumptions, if the contract of token [t] replies truthfully then the exchange
    holds enough of [t] to pay every balance, every position and every fee. *)
Theorem C26_held w0 acts w t timestamp : is_init w0 ->
  interleaving (fun w a => wregular w a /\ truthful t w a) w0 acts w -> wroundings acts < 2 * 10 ^ 14 ->
  payable timestamp (w_state w) t + wtotal w t <= w_held w t.
Proof.
  intros H0 H HR.
  assert (H1 : interleaving wregular w0 acts w).
  { clear HR. induction H as [|acts w a H IH HW [Hg _]]; constructor; auto. }
  assert (H2 : interleaving (fun w a => wroom w a /\ truthful t w a) w0 acts w).
  { clear HR H1. induction H as [|acts w a H IH HW [[Hr _] Ht]]; constructor; auto. }
  pose proof (C33_custody w0 acts w t H0 H2) as C. pose proof (owed_interleaving w0 acts w t H0 H1) as O.
  destruct (interleaving_regular w0 acts w H0 H1) as (_ & evs & HE). destruct (active_history evs _ HE) as (I & _ & _).
  pose proof (payable_le timestamp (w_state w) t I) as P.
  enough (payable timestamp (w_state w) t <= reserves w0 acts t) by lia.
  apply (whole_le _ _ (IZR (wroundings acts) * eps)); [lra|].
  apply small_roundings. pose proof (wroundings_nonneg acts). lia.
Qed.

(** The same for VARA, whatever token contracts answer. *)
Theorem C26_held_vara w0 acts w timestamp : is_init w0 -> interleaving wregular w0 acts w -> wroundings acts < 2 * 10 ^ 14 ->
  payable timestamp (w_state w) VARA_ADDRESS + wtotal w VARA_ADDRESS <= w_held w VARA_ADDRESS.
Proof.
  intros H0 H HR.
  assert (H2 : interleaving wroom w0 acts w).
  { clear HR. induction H as [|acts w a H IH HW [Hg _]]; constructor; auto. }
  pose proof (C33_custody_vara w0 acts w H0 H2) as C. pose proof (owed_interleaving w0 acts w VARA_ADDRESS H0 H) as O.
  destruct (interleaving_regular w0 acts w H0 H) as (_ & evs & HE). destruct (active_history evs _ HE) as (I & _ & _).
  pose proof (payable_le timestamp (w_state w) VARA_ADDRESS I) as P.
  enough (payable timestamp (w_state w) VARA_ADDRESS <= reserves w0 acts VARA_ADDRESS) by lia.
  apply (whole_le _ _ (IZR (wroundings acts) * eps)); [lra|].
  apply small_roundings. pose proof (wroundings_nonneg acts). lia.
Qed.

(** Concrete runs. *)
Lemma run_trace adm fee evs : u128 fee -> Forall event_wf evs -> Z.of_nat (length evs) < 2 ^ 32 - 1 ->
  clean_run (init_state adm fee) evs = true -> trace regular (init_state adm fee) evs (run_events adm fee evs).
Proof.
  intros Hf. induction evs as [|ev evs IH] using rev_ind; intros HW HL HC; [constructor|].
  apply clean_run_app in HC as [C1 C2]. rewrite app_length in HL. cbn [length] in HL.
  apply Forall_app in HW as [W1 W2]. inversion W2; subst.
  pose proof (run_events_history adm fee evs Hf W1) as HR. apply history_room in HR as [_ HR]; [|lia].
  unfold run_events in *. rewrite fold_left_app. cbn [fold_left]. constructor; [apply IH; auto; lia|auto|].
  split; [|apply cleanb_spec; auto]. intros a. specialize (HR a). lia.
Qed.

Lemma s_traded_trace : trace regular (init_state admin 10000000000) evs_traded s_traded.
Proof.
  apply run_trace; [unfold u128; lia| |reflexivity|vm_compute; reflexivity].
  unfold evs_traded, setup, positions3, swaps. wf_events.
Qed.

(** Three positions and two swaps: of 3000000 deposited, 2994101 are in balances
    and all but 3 of the rest is paid out when everything is closed. *)
Example C26_case :
  trace regular (init_state admin 10000000000) evs_traded s_traded /\
  all_roundings evs_traded = 887277 /\
  net_deposits (init_state admin 10000000000) evs_traded tokA = 3000000 /\
  bal_total s_traded tokA = 2994101 /\ payable 5 s_traded tokA = 5896.
Proof.
  split; [exact s_traded_trace|]. repeat (match goal with |- _ /\ _ => split end); vm_compute; reflexivity.
Qed.

(** A run with tokens in flight: alice deposits and opens a position, carol deposits
    and swaps, alice's withdrawal of 100 is on its way. *)
Fixpoint honest_run (t : actor_id) (w : world) (acts : list action) : bool :=
  match acts with
  | [] => true
  | a :: acts =>
      match a with
      | ACall e o => cleanb (w_state w) (Call e o)
      | AProcess _ mv r =>
          match r_payload r with
          | PTransfer true b => Bool.eqb mv b
          | PText => negb mv
          | _ => true
          end
      | _ => true
      end && honest_run t (wexec w a) acts
  end.
Lemma honest_run_app t a acts : forall w, honest_run t w (acts ++ [a]) = true ->
  honest_run t w acts = true /\ honest_run t (fold_left wexec acts w) [a] = true.
Proof.
  induction acts as [|b acts IH]; intros w; cbn [app fold_left].
  - intros H. split; [reflexivity|exact H].
  - cbn [honest_run]. intros [H1 H2]%andb_true_iff. apply IH in H2 as [H2 H3]. rewrite H1, H2. auto.
Qed.
Lemma run_honest t w0 acts w : interleaving wroom w0 acts w -> honest_run t w0 acts = true ->
  interleaving (fun w a => wregular w a /\ truthful t w a) w0 acts w.
Proof.
  induction 1 as [|acts w a H IH HW Hg]; intros HH; [constructor|].
  apply honest_run_app in HH as [H1 H2]. rewrite (interleaving_fold _ _ _ _ H) in H2.
  cbn [honest_run] in H2. rewrite andb_true_r in H2. constructor; auto. split; [split; [exact Hg|]|].
  - destruct a; cbn [wclean]; auto. apply cleanb_spec. exact H2.
  - destruct a as [| |id mv r| | |]; cbn [truthful]; auto. intros m _ _. unfold says_moved, says_not_moved.
    destruct (r_payload r) as [[] b| |]; split; intros E; try (destruct E as [E|E]); try discriminate; try (injection E as ->); destruct mv; cbn in H2; congruence.
Qed.

Definition acts_swap : list action := acts_trade ++ [
  AStart (by_ carol) true true (DepositSingleToken tokB 500);
  AProcess 4 true (says true); ADeliver 4 true; AResume 1;
  ACall (by_ carol) (OpSwap pool1 false 300 true any_price) ].
Example C26_held_case :
  interleaving (fun w a => wregular w a /\ truthful tokA w a) w_start acts_swap (run_acts acts_swap) /\
  wroundings acts_swap = 443638 /\
  w_held (run_acts acts_swap) tokA = 900 /\ wtotal (run_acts acts_swap) tokA = 696 /\ payable 0 (w_state (run_acts acts_swap)) tokA = 202.
Proof.
  split.
  - apply run_honest; [|vm_compute; reflexivity]. apply run_room; [|cbn; lia]. unfold acts_swap, acts_trade. cbn [app].
    repeat first [apply Forall_cons; split | apply Forall_nil]; cbn; auto; unfold env_wf, tier_wf, any_price, i32, u16, u64, u32, u128, u256; cbn; repeat split; try lia; discriminate.
  - repeat (match goal with |- _ /\ _ => split end); vm_compute; reflexivity.
Qed.

(** Without the exclusion of C23 the exchange is insolvent: a swap that stops at the
    price of an initialized tick leaves active liquidity that nobody provides, the
    next swap is paid too much, and after everybody has closed their positions the
    balances exceed the deposits by 1316. *)
Definition price10 : Z := 1000500100010000000000000.
Definition evs_unclean : list event := setup ++ [
  Call (by_ alice) (OpCreatePosition pool1 (-10) 10 300000000000 0 any_price);
  Call (by_ bob) (OpCreatePosition pool1 10 30 100000000000 0 any_price);
  Call (by_ carol) (OpSwap pool1 false 1517 true price10);
  Call (by_ carol) (OpSwap pool1 false 2000 true any_price);
  Call (by_ alice) (OpRemovePosition 0);
  Call (by_ bob) (OpRemovePosition 0) ].

Theorem C26_unclean_refuted :
  exists evs s, history room evs s /\ s = run_events admin 10000000000 evs /\
    (forall user, get_user_position_amount s user = 0) /\
    net_deposits (init_state admin 10000000000) evs tokA = 3000000 /\
    bal_total s tokA = 3001316.
Proof.
  exists evs_unclean, (run_events admin 10000000000 evs_unclean). split.
  { apply history_room; [|reflexivity]. apply run_events_history; [unfold u128; lia|]. unfold evs_unclean, setup, price10, any_price. wf_events. }
  split; [reflexivity|]. split.
  - intros user. unfold get_user_position_amount, positions_get_length.
    assert (E : snd <$> map_to_list (s_positions_length (run_events admin 10000000000 evs_unclean)) = [0; 0]) by (vm_compute; reflexivity).
    destruct (s_positions_length (run_events admin 10000000000 evs_unclean) !! user) as [n|] eqn:El; [|reflexivity].
    apply elem_of_map_to_list in El. apply (elem_of_list_fmap_1 snd) in El. cbn [snd] in El. rewrite E in El.
    rewrite !elem_of_cons, elem_of_nil in El. cbn. destruct El as [->|[->|[]]]; reflexivity.
  - split; vm_compute; reflexivity.
Qed.

(** ** C25 *)

Theorem C25_remove_position adm fee evs s e i pos : u128 fee -> trace regular (init_state adm fee) evs s ->
  all_roundings evs < 2 * 10 ^ 14 -> get_position s (e_caller e) i = Ok pos ->
  net_deposits (init_state adm fee) evs (pk_token_x (pos_pool_key pos)) < 2 ^ 256 ->
  net_deposits (init_state adm fee) evs (pk_token_y (pos_pool_key pos)) < 2 ^ 256 ->
  exists s' x y, remove_position e s i = Ok (s', (x, y)).
Proof.
  intros Hf HT HR Hp NX NY. apply positions_get_Ok in Hp.
  destruct (remove_position_succeeds adm fee evs s Hf HT HR e i pos Hp NX NY) as (s' & [x y] & E). eauto.
Qed.

Theorem C25_claim_fee adm fee evs s e i pos : u128 fee -> trace regular (init_state adm fee) evs s ->
  all_roundings evs < 2 * 10 ^ 14 -> get_position s (e_caller e) i = Ok pos ->
  net_deposits (init_state adm fee) evs (pk_token_x (pos_pool_key pos)) < 2 ^ 256 ->
  net_deposits (init_state adm fee) evs (pk_token_y (pos_pool_key pos)) < 2 ^ 256 ->
  exists s' x y, claim_fee e s i = Ok (s', (x, y)).
Proof.
  intros Hf HT HR Hp NX NY. apply positions_get_Ok in Hp.
  destruct (claim_fee_succeeds adm fee evs s Hf HT HR e i pos Hp NX NY) as (s' & [x y] & E). eauto.
Qed.

(** The fee receiver of a pool can always withdraw. *)
Theorem C25_withdraw_protocol_fee adm fee evs s e tx ty tier p : u128 fee -> trace regular (init_state adm fee) evs s ->
  all_roundings evs < 2 * 10 ^ 14 -> get_pool s tx ty tier = Ok p -> p_fee_receiver p = e_caller e ->
  net_deposits (init_state adm fee) evs tx < 2 ^ 256 ->
  net_deposits (init_state adm fee) evs ty < 2 ^ 256 ->
  exists k s', pool_key_new tx ty tier = Ok k /\ withdraw_protocol_fee e s k = Ok (s', tt).
Proof.
  intros Hf HT HR Hp HRc NX NY. unfold get_pool in Hp. destruct (pool_key_new tx ty tier) as [k| | |] eqn:Ek; try discriminate.
  cbn [bind] in Hp. unfold pools_get in Hp. destruct (s_pools s !! k) as [p'|] eqn:Hk; [|discriminate]. injection Hp as ->.
  assert (HK : (pk_token_x k = tx /\ pk_token_y k = ty) \/ (pk_token_x k = ty /\ pk_token_y k = tx)).
  { unfold pool_key_new in Ek. destruct (tx =? ty); [discriminate|]. cbn [fail_if bind] in Ek. destruct (tx <? ty); injection Ek as <-; auto. }
  destruct (withdraw_fee_succeeds adm fee evs s Hf HT HR e k p Hk HRc) as [s' E]; [destruct HK as [[-> _]|[-> _]]; auto|destruct HK as [[_ ->]|[_ ->]]; auto|].
  eauto.
Qed.

(** Everybody can leave: some sequence of remove_position and
    withdraw_protocol_fee calls, all of which succeed, leaves no position and no
    protocol fee, and the balances are then still covered by the deposits. *)
Theorem C25_everybody_can_leave adm fee evs s : u128 fee -> trace regular (init_state adm fee) evs s ->
  all_roundings evs < 2 * 10 ^ 14 -> (forall t, net_deposits (init_state adm fee) evs t < 2 ^ 256) ->
  (forall owner, get_user_position_amount s owner < 2 ^ 32 - 1) ->
  exists calls s',
    Forall (fun ev => (exists e i, ev = Call e (OpRemovePosition i)) \/ (exists e k, ev = Call e (OpWithdrawProtocolFee k))) calls /\
    trace regular (init_state adm fee) (evs ++ calls) s' /\
    (forall owner, get_all_positions s' owner = Ok []) /\
    (forall k p, s_pools s' !! k = Some p -> p_fee_protocol_token_x p = 0 /\ p_fee_protocol_token_y p = 0) /\
    (forall t, bal_total s' t <= net_deposits (init_state adm fee) evs t).
Proof.
  intros Hf HT HR HN RM. destruct (exit_all adm fee Hf evs s HT HR HN RM) as (l & s' & L1 & L2 & L3 & L4).
  exists l, s'. split.
  { eapply Forall_impl; [exact L1|]. intros [e []| | |]; cbn; try contradiction; eauto. }
  split; [auto|]. destruct (close_nothing (init_state adm fee) _ L1 evs) as [C1 C2]. split; [|split; [auto|]].
  - intros owner. destruct (active_history _ s' (trace_history _ _ _ _ _ Hf L2)) as (I' & _ & _).
    destruct (dense_lists s' owner (I_dense _ I')) as (l' & E & HL & Hlk). rewrite E. f_equal.
    destruct l' as [|q l']; [reflexivity|]. exfalso. specialize (Hlk 0 q). rewrite L3, lookup_empty in Hlk.
    destruct Hlk as [_ Hlk]. specialize (Hlk (conj (Z.le_refl 0) eq_refl)). discriminate.
  - intros t. rewrite <- C2. apply C26_balances_covered; auto. rewrite C1. auto.
Qed.

Example C25_case :
  trace regular (init_state admin 10000000000) evs_traded s_traded /\
  all_roundings evs_traded < 2 * 10 ^ 14 /\
  net_deposits (init_state admin 10000000000) evs_traded tokA < 2 ^ 256 /\
  net_deposits (init_state admin 10000000000) evs_traded tokB < 2 ^ 256 /\
  (exists pos, get_position s_traded alice 1 = Ok pos /\ pos_liquidity pos = 300000000000) /\
  match remove_position (by_ alice) s_traded 1 with Ok (_, xy) => xy = (3014, 0) | _ => False end.
Proof.
  split; [exact s_traded_trace|]. split; [vm_compute; reflexivity|]. split; [vm_compute; reflexivity|]. split; [vm_compute; reflexivity|].
  split.
  - destruct (get_position s_traded alice 1) as [pos| | |] eqn:E; [|exfalso; vm_compute in E; discriminate..].
    exists pos. split; [auto|].
    assert (E' : match get_position s_traded alice 1 with Ok q => pos_liquidity q | _ => 0 end = 300000000000) by (vm_compute; reflexivity).
    rewrite E in E'. exact E'.
  - vm_compute. reflexivity.
Qed.

(** ** Assumptions *)
Print Assumptions C26_exact.
Print Assumptions C26_solvent.
Print Assumptions C26_balances_covered.
Print Assumptions C26_closing.
Print Assumptions C26_held.
Print Assumptions C26_held_vara.
Print Assumptions C26_unclean_refuted.
Print Assumptions C25_remove_position.
Print Assumptions C25_claim_fee.
Print Assumptions C25_withdraw_protocol_fee.
Print Assumptions C25_everybody_can_leave.
