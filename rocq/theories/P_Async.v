(** The asynchronous protocol: each execution, invariants, settlement, custody (C32, C33). *)
From Verif Require Import Base Decimal SqrtPriceM LogM ClammM FeeGrowthM Types TickmapM StorageM
  CollectionsM StateM ServiceM AsyncM Arith SpecMath SpecFees SpecSum SpecState SpecHistory P_Clamm P_Delta P_TickPrice P_Tickmap
  P_Fees P_Balance P_Effects P_Positions P_History P_Loop P_Check P_State P_Iter P_Inv P_InvPos P_PosOps P_InvSwap P_Swap
  P_SwapLoop P_InvHist P_Bals SpecAsync.
From stdpp Require Import gmap list.
From Coq Require Import ZArith Lia Bool.
Open Scope Z_scope.

Lemma fail_if_Ok b e v : fail_if b e = Ok v -> b = false.
Proof. destruct b; [discriminate|reflexivity]. Qed.

(** ** The first execution *)

Definition entry_of (ty : transfer_type) (q : request) : awaiting_transfer :=
  mkAwaiting (account_of ty q) (q_amount q) ty.
Definition await_all (ty : transfer_type) (qs : list request) (m : gmap (message_id * actor_id) awaiting_transfer) :=
  foldl (fun m q => <[(q_id q, q_token q) := entry_of ty q]> m) m qs.

Definition sum_to (u t : Z) (qs : list request) : Z :=
  foldr (fun q acc => at_ (q_to q) (q_token q) (q_amount q) u t + acc) 0 qs.
Definition sum_tok (t : Z) (qs : list request) : Z :=
  foldr (fun q acc => on (q_token q) (q_amount q) t + acc) 0 qs.

Record sent_ok (e : env) (n : send_env) (ty : transfer_type) (qs : list request) : Prop := mkSentOk {
  st_ids : map q_id qs = take (length qs) [n_id1 n; n_id2 n];
  st_vara : Forall (fun q => q_token q <> VARA_ADDRESS) qs;
  st_amount : Forall (fun q => q_amount q <> 0) qs;
  st_account : Forall (fun q => account_of ty q = e_caller e) qs;
}.

Lemma single_send_spec e n s token a ty s' qs : transfer_single_send e n s token a ty = Ok (s', qs) ->
  sent_ok e n ty qs /\ s' = set_awaiting (await_all ty qs (s_awaiting s)) s /\
  map (fun q => (q_token q, q_amount q)) qs = [(token, a)].
Proof.
  unfold transfer_single_send. intros H. apply bind_Ok in H as (v1 & E1 & H). apply bind_Ok in H as (v2 & E2 & H).
  apply fail_if_Ok in E1, E2. destruct ty; cbn [endpoints] in H.
  all: apply bind_Ok in H as ([s1 q] & E & H); injection H as -> <-; apply map_err_Ok in E;
    unfold send_transfer_token_message in E; apply bind_Ok in E as (v3 & E3 & E); apply bind_Ok in E as (v4 & E4 & E);
    apply bind_Ok in E as (v5 & E5 & E); injection E as <- <-; apply fail_if_Ok in E3.
  all: split; [|split; reflexivity]; constructor; repeat constructor; cbn; try lia.
Qed.

Lemma pair_send_spec e n s tx ty_ ty s' qs : transfer_pair_send e n s tx ty_ ty = Ok (s', qs) ->
  sent_ok e n ty qs /\ s' = set_awaiting (await_all ty qs (s_awaiting s)) s /\
  map (fun q => (q_token q, q_amount q)) qs = [tx; ty_].
Proof.
  unfold transfer_pair_send. intros H. apply bind_Ok in H as (v1 & E1 & H). apply bind_Ok in H as (v2 & E2 & H).
  apply fail_if_Ok in E1, E2. apply orb_false_iff in E1 as [E1 E1']. destruct tx as [X x], ty_ as [Y y]. cbn [fst snd] in *.
  destruct ty; cbn [endpoints] in H.
  all: apply bind_Ok in H as ([s1 q] & E & H); apply bind_Ok in H as ([s2 q2] & E0 & H); injection H as -> <-;
    unfold send_transfer_token_message in E; apply bind_Ok in E as (v3 & E3 & E); apply bind_Ok in E as (v4 & E4 & E);
    apply bind_Ok in E as (v5 & E5 & E); injection E as <- <-; apply fail_if_Ok in E3;
    unfold send_transfer_token_message in E0; apply bind_Ok in E0 as (v6 & E6 & E0); apply bind_Ok in E0 as (v7 & E7 & E0);
    apply bind_Ok in E0 as (v8 & E8 & E0); injection E0 as <- <-; apply fail_if_Ok in E6.
  all: split; [|split; reflexivity]; constructor; repeat constructor; cbn; try lia.
Qed.

Lemma pair_or_single_spec e n s tx ty_ ty s' qs : transfer_pair_or_single e n s tx ty_ ty = Ok (s', qs) ->
  sent_ok e n ty qs /\ s' = set_awaiting (await_all ty qs (s_awaiting s)) s /\
  (forall t, sum_tok t qs = on (fst tx) (snd tx) t + on (fst ty_) (snd ty_) t) /\
  (u256 (snd tx) -> u256 (snd ty_) -> Forall (fun q => u256 (q_amount q)) qs).
Proof.
  unfold transfer_pair_or_single. destruct tx as [X x], ty_ as [Y y]. cbn [fst snd].
  assert (Z0 : forall X t, on X 0 t = 0) by (intros; unfold on; destruct (_ =? _); reflexivity).
  destruct (Z.eqb_spec x 0) as [-> |Hx]; cbn [negb andb]; [|destruct (Z.eqb_spec y 0) as [-> |Hy]; cbn [negb]].
  - destruct (Z.eqb_spec y 0) as [-> |Hy]; cbn [negb].
    + intros [= <- <-]. split; [constructor; constructor|]. split; [destruct s; reflexivity|]. split; [|constructor]. intros t. cbn. rewrite !Z0. reflexivity.
    + intros H. apply single_send_spec in H as (H1 & H2 & H3). split; [auto|]. split; [auto|].
      destruct qs as [|q [|]]; try discriminate. injection H3 as E1 E2. split; [|intros; repeat (constructor; [congruence|]); constructor]. intros t. cbn. rewrite E1, E2, Z0. lia.
  - intros H. apply single_send_spec in H as (H1 & H2 & H3). split; [auto|]. split; [auto|].
    destruct qs as [|q [|]]; try discriminate. injection H3 as E1 E2. split; [|intros; repeat (constructor; [congruence|]); constructor]. intros t. cbn. rewrite E1, E2, Z0. lia.
  - intros H. apply pair_send_spec in H as (H1 & H2 & H3). split; [auto|]. split; [auto|].
    destruct qs as [|q [|q2 [|]]]; try discriminate. injection H3 as E1 E2 E3 E4. split; [|intros; repeat (constructor; [congruence|]); constructor]. intros t. cbn. rewrite E1, E2, E3, E4. lia.
Qed.

(** Running a list of events. *)
Definition exec_events (s : state) (evs : list event) : state := fold_left exec_event evs s.

(** What the first execution does: it debits withdrawals and registers the messages. *)
Record started (e : env) (n : send_env) (s : state) (s' : state) (ty : transfer_type) (qs : list request) : Prop := mkStarted {
  sd_sent : sent_ok e n ty qs;
  sd_state : exists s1 evs, s' = set_awaiting (await_all ty qs (s_awaiting s)) s1 /\
     s1 = exec_events s evs /\ Forall event_wf evs /\ (exists B, s1 = set_balances B s) /\
     Forall (fun ev => match ev with Debit _ _ _ => True | _ => False end) evs;
  sd_ledger : ledger s s' (fun u t => match ty with Deposit => 0 | Withdrawal => - (if u =? e_caller e then sum_tok t qs else 0) end);
  sd_total : ledger_total s s' (fun t => match ty with Deposit => 0 | Withdrawal => - sum_tok t qs end);
  sd_pos : bals_ok s -> Forall (fun q => u256 (q_amount q)) qs;
}.

Lemma decrease_u256 s token user o s' v : bals_ok s -> opt_u256 o ->
  decrease_token_balance s token user o = Ok (s', v) -> bals_ok s' /\ u256 v.
Proof.
  intros B W D. split.
  - apply (decrease_bals _ _ _ _ _ _ B) in D as [? _]; [auto|]. intros b ->. apply u256_M in W. lia.
  - apply decrease_spec in D as (_ & _ & _ & _ & D). destruct o; subst v; [exact W|apply B].
Qed.

Lemma set_balances_self s : set_balances (s_balances s) s = s.
Proof. destruct s; reflexivity. Qed.

Lemma sent_nil e n ty : sent_ok e n ty [].
Proof. constructor; constructor. Qed.

Lemma start_spec e n s o s' ty qs : async_wf o -> async_start e n s o = Ok (s', ty, qs) -> started e n s s' ty qs.
Proof.
  intros W H. destruct o as [token a|token a|tx ty_|tx ty_]; cbn [async_start async_wf] in *.
  - apply bind_Ok in H as (v1 & E1 & H). apply bind_Ok in H as ([s1 q] & E & H). injection H as -> <- ->.
    apply single_send_spec in E as (H1 & H2 & H3). subst s'. constructor; [auto| | | |].
    + exists s, []. split; [auto|]. split; [reflexivity|]. split; [constructor|]. split; [|constructor]. exists (s_balances s). symmetry. apply set_balances_self.
    + intros u t. unfold bal. cbn. lia.
    + intros t. unfold bal_total. cbn. lia.
    + intros _. destruct qs as [|q [|]]; try discriminate. injection H3 as _ E2. constructor; [congruence|constructor].
  - apply bind_Ok in H as ([s1 v] & E & H).
    assert (D : (v = 0 /\ s1 = s) \/ decrease_token_balance s token (e_caller e) a = Ok (s1, v)).
    { destruct a as [a|].
      - apply bind_Ok in E as (v1 & _ & E). right. exact E.
      - destruct (decrease_token_balance s token (e_caller e) None) as [[s2 v2]| | |] eqn:ED; try discriminate.
        + injection E as -> ->. right. reflexivity.
        + injection E as <- <-. left. auto. }
    assert (VP : bals_ok s -> u256 v).
    { intros B. destruct D as [[-> _]|D]; [unfold u256; lia|]. exact (proj2 (decrease_u256 _ _ _ _ _ _ B W D)). }
    assert (SP : exists evs, s1 = exec_events s evs /\ Forall event_wf evs /\ (exists B, s1 = set_balances B s) /\
       Forall (fun ev => match ev with Debit _ _ _ => True | _ => False end) evs /\
       ledger s s1 (fun u t => - (if u =? e_caller e then on token v t else 0)) /\ ledger_total s s1 (fun t => - on token v t)).
    { destruct D as [[-> ->]|D].
      - exists []. split; [reflexivity|]. split; [constructor|]. split; [exists (s_balances s); symmetry; apply set_balances_self|].
        split; [constructor|]. split.
        + intros u t. unfold on. destruct (u =? e_caller e); [destruct (t =? _)|]; lia.
        + intros t. unfold on. destruct (t =? _); lia.
      - exists [Debit (e_caller e) token a]. cbn [exec_events fold_left exec_event]. rewrite D. split; [reflexivity|].
        split; [constructor; [exact W|constructor]|].
        apply decrease_spec in D as (H1 & H2 & H3 & _). split; [auto|]. split; [repeat constructor|]. split.
        + intros u t. rewrite H2. unfold at_, on. destruct (u =? e_caller e); cbn [andb]; [destruct (t =? _)|]; lia.
        + intros t. rewrite H3. unfold on. destruct (t =? _); lia. }
    destruct SP as (evs & S1 & S2 & [B S3] & S4 & S5 & S6).
    destruct (Z.eqb_spec v 0) as [-> |Hv]; cbn [negb] in H.
    + injection H as <- <- <-. constructor; [apply sent_nil| | | |constructor].
      * exists s1, evs. split; [rewrite S3; reflexivity|]. eauto 10.
      * intros u t. rewrite S5. unfold on. cbn. destruct (u =? e_caller e); [destruct (t =? _)|]; reflexivity.
      * intros t. rewrite S6. unfold on. cbn. destruct (t =? _); reflexivity.
    + apply bind_Ok in H as ([s2 q] & E2 & H). injection H as -> <- ->. apply single_send_spec in E2 as (H1 & -> & H3).
      destruct qs as [|q [|]]; try discriminate. injection H3 as Q1 Q2.
      constructor; [auto| | | |intros B0; constructor; [rewrite Q2; auto|constructor]].
      * exists s1, evs. split; [rewrite S3; reflexivity|]. eauto 10.
      * intros u t. transitivity (bal s1 u t); [reflexivity|]. rewrite S5. cbn. rewrite Q1, Q2. destruct (_ =? _); lia.
      * intros t. transitivity (bal_total s1 t); [reflexivity|]. rewrite S6. cbn. rewrite Q1, Q2. lia.
  - apply bind_Ok in H as (v1 & E1 & H). apply bind_Ok in H as (v2 & E2 & H). apply bind_Ok in H as ([s1 q] & E & H). injection H as -> <- ->.
    apply pair_or_single_spec in E as (H1 & -> & _ & H4). constructor; [auto| | | |intros _; apply H4; apply W].
    + exists s, []. split; [auto|]. split; [reflexivity|]. split; [constructor|]. split; [|constructor]. exists (s_balances s). symmetry. apply set_balances_self.
    + intros u t. unfold bal. cbn. lia.
    + intros t. unfold bal_total. cbn. lia.
  - apply bind_Ok in H as (v1 & E1 & H). destruct tx as [X xo], ty_ as [Y yo]. cbn [fst snd] in *.
    apply bind_Ok in H as ([s1 x] & EX & H). apply bind_Ok in H as ([s2 y] & EY & H).
    assert (DD : forall sa T o sb v, opt_u256 o -> amount_or_zero o (decrease_token_balance sa T (e_caller e) o) sa = Ok (sb, v) ->
      exists evs, sb = exec_events sa evs /\ Forall event_wf evs /\ (exists B, sb = set_balances B sa) /\
       Forall (fun ev => match ev with Debit _ _ _ => True | _ => False end) evs /\
       ledger sa sb (fun u t => - (if u =? e_caller e then on T v t else 0)) /\ ledger_total sa sb (fun t => - on T v t) /\
       (bals_ok sa -> bals_ok sb /\ u256 v)).
    { clear. intros s T o s1 v W E.
      assert (D : (v = 0 /\ s1 = s) \/ decrease_token_balance s T (e_caller e) o = Ok (s1, v)).
      { unfold amount_or_zero in E. destruct (decrease_token_balance s T (e_caller e) o) as [[s2 v2]|er| |] eqn:ED; try discriminate.
        - right. destruct o; congruence.
        - destruct er, o; try discriminate. injection E as <- <-. left. auto. }
      destruct D as [[-> ->]|D].
      - exists []. split; [reflexivity|]. split; [constructor|]. split; [exists (s_balances s); symmetry; apply set_balances_self|].
        split; [constructor|]. split.
        + intros u t. unfold on. destruct (u =? e_caller e); [destruct (t =? _)|]; lia.
        + split; [|split; [auto|unfold u256; lia]]. intros t. unfold on. destruct (t =? _); lia.
      - exists [Debit (e_caller e) T o]. cbn [exec_events fold_left exec_event]. rewrite D. split; [reflexivity|].
        split; [constructor; [exact W|constructor]|]. pose proof D as D0.
        apply decrease_spec in D as (H1 & H2 & H3 & _). split; [auto|]. split; [repeat constructor|]. split.
        + intros u t. rewrite H2. unfold at_, on. destruct (u =? e_caller e); cbn [andb]; [destruct (t =? _)|]; lia.
        + split; [intros t; rewrite H3; unfold on; destruct (t =? _); lia|].
          intros B. exact (decrease_u256 _ _ _ _ _ _ B W D0). }
    destruct (DD _ _ _ _ _ (proj1 W) EX) as (ex & S1 & S2 & [B S3] & S4 & S5 & S6 & S7).
    destruct (DD _ _ _ _ _ (proj2 W) EY) as (ey & T1 & T2 & [B' T3] & T4 & T5 & T6 & T7).
    apply bind_Ok in H as ([s3 q] & E & H). injection H as -> <- ->.
    apply pair_or_single_spec in E as (H1 & -> & H3 & H4). cbn [fst snd] in H3, H4.
    constructor; [auto| | | |intros B0; destruct (S7 B0) as [B1 ?]; destruct (T7 B1) as [_ ?]; auto].
    + exists s2, (ex ++ ey). split; [rewrite T3, S3; reflexivity|]. split; [unfold exec_events; rewrite fold_left_app; fold (exec_events s ex); rewrite <- S1; exact T1|].
      split; [apply Forall_app; auto|]. split; [exists B'; rewrite T3, S3; reflexivity|]. apply Forall_app; auto.
    + intros u t. transitivity (bal s2 u t); [reflexivity|]. rewrite T5, S5, H3. cbv beta. destruct (u =? e_caller e); lia.
    + intros t. transitivity (bal_total s2 t); [reflexivity|]. rewrite T6, S6, H3. cbv beta. lia.
Qed.

(** ** The other executions *)

Lemma run_op_awaiting e s o s' : run_op e s o = Ok s' -> s_awaiting s' = s_awaiting s.
Proof.
  intros H. destruct o; cbn [run_op] in H; apply drop_result_Ok in H as [r H].
  - apply change_protocol_fee_inv in H as [_ ->]. reflexivity.
  - apply add_fee_tier_inv in H as (_ & _ & _ & _ & _ & ->). reflexivity.
  - apply remove_fee_tier_inv in H as (_ & l & _ & ->). reflexivity.
  - apply create_pool_inv in H as (k & p & HF & HT & HK & HN & _ & HC0 & ->). reflexivity.
  - apply change_fee_receiver_inv in H as (_ & p & Hp & ->). reflexivity.
  - pose proof H as H0. unfold create_position in H.
    apply bind_Ok in H as (u1 & C1 & H). apply bind_Ok in H as (u2 & C2 & H).
    apply bind_Ok in H as (p0 & E1 & H). apply bind_Ok in H as ([tl0 al] & E2 & H).
    apply bind_Ok in H as ([tu0 au] & E3 & H).
    apply bind_Ok in H as ([[[[pos1 p1] t1] t0] [z0 z]] & E4 & H).
    apply bind_Ok in H as ([s1 r1] & E5 & H). apply bind_Ok in H as ([s2 r2] & E6 & H).
    apply bind_Ok in H as (s3 & E7 & H). apply bind_Ok in H as (s4 & E8 & H).
    apply bind_Ok in H as (s5 & E9 & H). injection H as -> ->.
    apply decrease_spec in E5 as ((B1 & ->) & _). apply decrease_spec in E6 as ((B2 & ->) & _).
    assert (A : forall sa t (b : bool) sb kk ii, (if b then add_tick sa kk t else ticks_update sa kk ii t) = Ok sb -> s_awaiting sb = s_awaiting sa).
    { intros sa t b sb kk ii E. destruct b.
      - unfold add_tick in E. apply bind_Ok in E as (v0 & E & E'). apply bind_Ok in E' as (v1 & _ & E'). injection E' as <-.
        unfold ticks_add in E. destruct (s_ticks _ !! _); [discriminate|]. injection E as <-. reflexivity.
      - apply ticks_update_Ok in E as (-> & _). reflexivity. }
    apply A in E9. apply A in E8. apply pools_update_Ok in E7. subst s3. rewrite E9, E8. reflexivity.
  - destruct r as [x y]. pose proof H as H0. unfold remove_position in H.
    apply bind_Ok in H as (pos0 & E1 & H). apply bind_Ok in H as (tl0 & E2 & H).
    apply bind_Ok in H as (tu0 & E3 & H). apply bind_Ok in H as (p0 & E4 & H).
    apply bind_Ok in H as ([[[[[[pos' p'] tu'] tl'] [ax ay]] rl] ru] & E5 & H).
    apply bind_Ok in H as (s1 & E6 & H). apply bind_Ok in H as (s2 & E7 & H).
    apply bind_Ok in H as (s3 & E8 & H). apply bind_Ok in H as ([s4 q4] & E9 & H).
    apply bind_Ok in H as (s5 & E10 & H). apply bind_Ok in H as (s6 & E11 & H). injection H as -> -> ->.
    apply increase_spec in E11 as ((B1 & ->) & _). apply increase_spec in E10 as ((B2 & ->) & _).
    assert (R : forall sa t (b : bool) sb kk ii, (if b then remove_tick sa kk t else ticks_update sa kk ii t) = Ok sb -> s_awaiting sb = s_awaiting sa).
    { intros sa t b sb kk ii E. destruct b.
      - unfold remove_tick in E. apply bind_Ok in E as (v & _ & E). apply bind_Ok in E as (b & Eb & E).
        unfold ticks_remove in E. apply bind_Ok in E as (v2 & _ & E). injection E as <-. reflexivity.
      - apply ticks_update_Ok in E as (-> & _). reflexivity. }
    apply R in E8. apply R in E7. apply pools_update_Ok in E6. subst s1.
    apply positions_remove_inv in E9 as (_ & lp & HLp & ->). cbn [set_balances set_positions s_awaiting]. rewrite E8, E7. reflexivity.
  - apply transfer_position_inv in H as (pos & lp & s1 & _ & _ & E1 & E2). subst s' s1. reflexivity.
  - apply swap_inv in H as (B & _ & -> & _). reflexivity.
  - apply swap_route_inv in H. revert H. apply (route_swap_rel (fun s s' => s_awaiting s' = s_awaiting s)); [auto|congruence|].
    intros s1 k d a lim s2 r0 H. apply swap_inv in H as (B & _ & -> & _). reflexivity.
  - destruct r as [x y]. apply claim_fee_inv in H as (pos1 & tl0 & tu0 & p0 & pos' & p' & tu1 & tl1 & dx & dy & B & Hpos & _ & _ & _ & _ & _ & _ & _ & -> & _). reflexivity.
  - apply withdraw_protocol_fee_inv in H as (p & B & _ & _ & -> & _). reflexivity.
  - apply deposit_vara_inv in H as (_ & (B & ->) & _). reflexivity.
  - apply withdraw_vara_inv in H as ((B & ->) & _). reflexivity.
Qed.

(** The reply says nothing about the transfer. *)
Definition says_nothing (r : reply) : bool :=
  match r_payload r with PTransfer false _ | POther => true | _ => false end.
Definition settles (ty : transfer_type) (r : reply) : bool :=
  match ty, r_payload r with
  | Deposit, PTransfer true true | Withdrawal, PTransfer true false | Withdrawal, PText => true
  | _, _ => false
  end.
Lemma settles_iff ty r : settles ty r = true <-> says_settle ty r.
Proof.
  unfold settles, says_settle, says_moved, says_not_moved. destruct ty, (r_payload r) as [[] []| |]; split; intros H; try discriminate; auto;
    try (destruct H; discriminate).
Qed.
Lemma settles_something ty r : settles ty r = true -> says_nothing r = false.
Proof. unfold settles, says_nothing. destruct ty, (r_payload r) as [[] []| |]; intros; try discriminate; auto. Qed.

Lemma handler_spec s token id r : reply_handler s token id r =
  match s_awaiting s !! (id, token) with
  | Some a => if says_nothing r then s
      else forget_transfer (if settles (aw_type a) r then credit_or_log s token (aw_account a) (aw_amount a) else s) id token
  | None => s
  end.
Proof.
  unfold reply_handler, says_nothing, settles, handle_valid_reply, handle_panic.
  destruct (s_awaiting s !! (id, token)) as [a|].
  - destruct (r_payload r) as [[] b| |]; auto.
    + destruct (aw_type a), b; reflexivity.
    + destruct (aw_type a); reflexivity.
  - destruct (r_payload r) as [[] b| |]; auto.
Qed.

Lemma credit_spec s token a v : credit_or_log s token a v = exec_event s (Credit a token v).
Proof. reflexivity. Qed.
Lemma credit_awaiting s token a v : s_awaiting (credit_or_log s token a v) = s_awaiting s.
Proof. unfold credit_or_log. destruct (increase_token_balance s token a v) eqn:E; auto. apply increase_spec in E as ((B & ->) & _). reflexivity. Qed.

(** Resuming only forgets transfers. *)
Lemma result_spec s m id token ty s' r : handle_transfer_result s m id token ty = (s', r) ->
  (s' = s /\ s_awaiting s !! (id, token) = None /\ is_handling_failed r = false /\ (r = Ok tt <-> m = Some true)) \/
  (s' = forget_transfer s id token /\ r = Err ReplyHandlingFailed /\ is_Some (s_awaiting s !! (id, token))).
Proof.
  unfold handle_transfer_result. destruct (s_awaiting s !! (id, token)) eqn:E; intros [= <- <-]; [right; eauto|left].
  split; [auto|]. split; [auto|]. split; [destruct m as [[]|], ty; reflexivity|].
  destruct m as [[]|], ty; split; intros; congruence.
Qed.

Lemma resume_spec s ty awaits s' c : async_resume s ty awaits = (s', c) ->
  exists A, s' = set_awaiting A s /\ (forall i a, A !! i = Some a -> s_awaiting s !! i = Some a) /\
  (forall id t, Forall (fun q => q_id (fst q) <> id) awaits -> A !! (id, t) = s_awaiting s !! (id, t)).
Proof.
  assert (SELF : exists A, s = set_awaiting A s /\ (forall i a, A !! i = Some a -> s_awaiting s !! i = Some a) /\
    (forall id t, Forall (fun q : request * option bool => q_id (fst q) <> id) awaits -> A !! (id, t) = s_awaiting s !! (id, t))).
  { exists (s_awaiting s). split; [destruct s; reflexivity|]. auto. }
  assert (ONE : forall s m q, let s' := fst (handle_transfer_result s m (q_id q) (q_token q) ty) in
     exists A, s' = set_awaiting A s /\ (forall i a, A !! i = Some a -> s_awaiting s !! i = Some a) /\
      (forall id t, q_id q <> id -> A !! (id, t) = s_awaiting s !! (id, t))).
  { clear. intros s m q. cbv zeta. destruct (handle_transfer_result s m (q_id q) (q_token q) ty) as [s' r] eqn:E.
    apply result_spec in E as [[-> _]|[-> _]]; cbn [fst].
    - exists (s_awaiting s). split; [destruct s; reflexivity|]. auto.
    - eexists. split; [reflexivity|]. split; [intros i a H; apply lookup_delete_Some in H as [_ H]; exact H|].
      intros id t Hn. apply lookup_delete_ne. intros [= ? ?]. congruence. }
  unfold async_resume. destruct awaits as [|[q m] [|[q2 m2] l]].
  - intros [= <- _]. auto.
  - specialize (ONE s m q). cbv zeta in ONE. destruct (handle_transfer_result s m (q_id q) (q_token q) ty) as [s1 r]. cbn [fst] in ONE.
    destruct ONE as (A & H1 & H2 & H3).
    assert (Y : exists A, s1 = set_awaiting A s /\ (forall i a, A !! i = Some a -> s_awaiting s !! i = Some a) /\
      (forall id t, Forall (fun q : request * option bool => q_id (fst q) <> id) [(q, m)] -> A !! (id, t) = s_awaiting s !! (id, t))).
    { exists A. split; [auto|]. split; [auto|]. intros id t HF. inversion HF; subst. auto. }
    destruct (is_handling_failed r); [intros [= <- _]; exact Y|].
    destruct r; intros [= <- _]; auto.
  - pose proof (ONE s m q) as O1. cbv zeta in O1. destruct (handle_transfer_result s m (q_id q) (q_token q) ty) as [s1 r]. cbn [fst] in O1.
    pose proof (ONE s1 m2 q2) as O2. cbv zeta in O2. destruct (handle_transfer_result s1 m2 (q_id q2) (q_token q2) ty) as [s2 r2]. cbn [fst] in O2.
    destruct O1 as (A & -> & H2 & H3). destruct O2 as (A' & -> & H2' & H3'). cbn [set_awaiting s_awaiting] in *.
    assert (Y : exists A0, set_awaiting A' (set_awaiting A s) = set_awaiting A0 s /\ (forall i a, A0 !! i = Some a -> s_awaiting s !! i = Some a) /\
      (forall id t, Forall (fun q : request * option bool => q_id (fst q) <> id) ((q, m) :: (q2, m2) :: l) -> A0 !! (id, t) = s_awaiting s !! (id, t))).
    { exists A'. split; [reflexivity|]. split; [auto|]. intros id t HF. inversion HF; subst. inversion H4; subst. cbn in *. rewrite H3', H3; auto. }
    destruct (is_handling_failed r || is_handling_failed r2); [intros [= <- _]; exact Y|].
    destruct r, r2; intros [= <- _]; auto.
Qed.

(** ** Each step is a sequence of events of the contract's history *)

Definition quiet (s s' : state) : Prop := s_positions_length s' = s_positions_length s.

Lemma exec_events_app s l1 l2 : exec_events s (l1 ++ l2) = exec_events (exec_events s l1) l2.
Proof. apply fold_left_app. Qed.

Lemma history_app G evs s l : history G evs s -> Forall event_wf l ->
  (forall l1 ev l2, l = l1 ++ ev :: l2 -> G (exec_events s l1) ev) -> history G (evs ++ l) (exec_events s l).
Proof.
  revert evs s. induction l as [|ev l IH]; intros evs s H W HG.
  - rewrite app_nil_r. exact H.
  - replace (evs ++ ev :: l) with ((evs ++ [ev]) ++ l) by (rewrite <- app_assoc; reflexivity).
    inversion W; subst. cbn [exec_events fold_left]. apply IH; auto.
    + constructor; auto. apply (HG [] ev l). reflexivity.
    + intros l1 ev' l2 ->. apply (HG (ev :: l1) ev' l2). reflexivity.
Qed.

(** Events other than calls do not touch the positions. *)
Definition no_call (ev : event) : Prop := match ev with Call _ _ => False | _ => True end.
Lemma no_call_quiet s ev : no_call ev -> quiet s (exec_event s ev).
Proof.
  unfold quiet. destruct ev; cbn [no_call exec_event]; intros H; [contradiction| | |reflexivity].
  - destruct (increase_token_balance s token user amount) eqn:E; auto. apply increase_spec in E as ((B & ->) & _). reflexivity.
  - destruct (decrease_token_balance s token user amount) as [[s' v]| | |] eqn:E; auto. apply decrease_spec in E as ((B & ->) & _). reflexivity.
Qed.
Lemma no_calls_quiet l : forall s, Forall no_call l -> quiet s (exec_events s l).
Proof.
  induction l as [|ev l IH]; intros s H; [reflexivity|]. inversion H; subst. cbn [exec_events fold_left].
  specialize (IH (exec_event s ev) H3). unfold quiet, exec_events in *. rewrite IH. apply no_call_quiet; auto.
Qed.

Lemma quiet_room s s' ev ev' : quiet s s' -> room s ev -> room s' ev'.
Proof. unfold quiet, room, get_user_position_amount, positions_get_length. intros ->. auto. Qed.

(** ** Invariant of the world *)

Lemma add_messages_other ty qs : forall ms id, id ∉ map q_id qs -> add_messages ty qs ms !! id = ms !! id.
Proof.
  unfold add_messages. induction qs as [|q qs IH]; intros ms id H; [reflexivity|]. cbn [foldl map] in *.
  apply not_elem_of_cons in H as [H1 H2]. rewrite IH by auto. apply lookup_insert_ne. auto.
Qed.
Lemma add_messages_in ty qs : forall ms q, NoDup (map q_id qs) -> q ∈ qs ->
  add_messages ty qs ms !! q_id q = Some (mkMessage q ty Sent).
Proof.
  induction qs as [|q0 qs IH]; intros ms q N H; [inversion H|]. cbn [map] in N. apply NoDup_cons in N as [N1 N2].
  apply elem_of_cons in H as [-> |H].
  - change (add_messages ty (q0 :: qs) ms) with (add_messages ty qs (<[q_id q0 := mkMessage q0 ty Sent]> ms)).
    rewrite add_messages_other by auto. apply lookup_insert.
  - apply (IH (<[q_id q0 := mkMessage q0 ty Sent]> ms) q N2 H).
Qed.
Lemma add_messages_inv ty qs : forall ms id m, add_messages ty qs ms !! id = Some m ->
  (exists q, q ∈ qs /\ id = q_id q /\ m = mkMessage q ty Sent) \/ (id ∉ map q_id qs /\ ms !! id = Some m).
Proof.
  induction qs as [|q qs IH]; intros ms id m H; [right; split; [apply not_elem_of_nil|exact H]|].
  change (add_messages ty (q :: qs) ms) with (add_messages ty qs (<[q_id q := mkMessage q ty Sent]> ms)) in H.
  apply IH in H as [(q' & H1 & H2 & H3)|[H1 H2]].
  - left. exists q'. split; [right; auto|]. auto.
  - apply lookup_insert_Some in H2 as [[<- <-]|[H2 H3]].
    + left. exists q. split; [left; auto|]. auto.
    + right. cbn [map]. split; [apply not_elem_of_cons; auto|exact H3].
Qed.
Lemma await_all_inv ty qs : forall m i a, await_all ty qs m !! i = Some a ->
  (exists q, q ∈ qs /\ i = (q_id q, q_token q) /\ a = entry_of ty q) \/ (m !! i = Some a).
Proof.
  induction qs as [|q qs IH]; intros m i a H; [right; exact H|].
  change (await_all ty (q :: qs) m) with (await_all ty qs (<[(q_id q, q_token q) := entry_of ty q]> m)) in H.
  apply IH in H as [(q' & H1 & H2 & H3)|H2].
  - left. exists q'. split; [right; auto|]. auto.
  - apply lookup_insert_Some in H2 as [[<- <-]|[H2 H3]]; [|auto]. left. exists q. split; [left; auto|]. auto.
Qed.
Lemma await_all_in ty qs : forall m q, NoDup (map q_id qs) -> q ∈ qs -> await_all ty qs m !! (q_id q, q_token q) = Some (entry_of ty q).
Proof.
  assert (O : forall qs m q, q_id q ∉ map q_id qs -> await_all ty qs m !! (q_id q, q_token q) = m !! (q_id q, q_token q)).
  { clear. induction qs as [|q0 qs IH]; intros m q H; [reflexivity|].
    change (await_all ty (q0 :: qs) m) with (await_all ty qs (<[(q_id q0, q_token q0) := entry_of ty q0]> m)).
    cbn [map] in H. apply not_elem_of_cons in H as [H1 H2]. rewrite IH by auto. apply lookup_insert_ne. intros [= ? ?]. congruence. }
  induction qs as [|q0 qs IH]; intros m q N H; [inversion H|]. cbn [map] in N. apply NoDup_cons in N as [N1 N2].
  change (await_all ty (q0 :: qs) m) with (await_all ty qs (<[(q_id q0, q_token q0) := entry_of ty q0]> m)).
  apply elem_of_cons in H as [-> |H]; [|apply IH; auto]. rewrite O by auto. apply lookup_insert.
Qed.
Lemma await_all_other ty qs : forall m id t, id ∉ map q_id qs -> await_all ty qs m !! (id, t) = m !! (id, t).
Proof.
  induction qs as [|q0 qs IH]; intros m id t H; [reflexivity|].
  change (await_all ty (q0 :: qs) m) with (await_all ty qs (<[(q_id q0, q_token q0) := entry_of ty q0]> m)).
  cbn [map] in H. apply not_elem_of_cons in H as [H1 H2]. rewrite IH by auto. apply lookup_insert_ne. intros [= ? ?]. congruence.
Qed.

Record msg_ok (w : world) (id : message_id) (m : message) : Prop := mkMsgOk {
  mo_id : q_id (m_request m) = id;
  mo_fresh : 0 <= id < w_next w;
  mo_token : q_token (m_request m) <> VARA_ADDRESS;
  mo_amount : u256 (q_amount (m_request m)) /\ q_amount (m_request m) <> 0;
}.

Record WI (w : world) : Prop := mkWI {
  wi_next : 0 <= w_next w;
  wi_msg : forall id m, w_messages w !! id = Some m -> msg_ok w id m;
  wi_await : forall id t a, s_awaiting (w_state w) !! (id, t) = Some a ->
    exists m, w_messages w !! id = Some m /\ q_token (m_request m) = t /\ a = entry_of (m_type m) (m_request m);
  wi_task : forall t q, t ∈ w_tasks w -> q ∈ k_requests t ->
    exists m, w_messages w !! q_id q = Some m /\ m_request m = q /\ m_type m = k_type t;
}.

Lemma sent_ids e n ty qs : sent_ok e n ty qs -> n_id2 n = n_id1 n + 1 ->
  NoDup (map q_id qs) /\ forall q, q ∈ qs -> n_id1 n <= q_id q <= n_id1 n + 1.
Proof.
  intros S E. pose proof (st_ids _ _ _ _ S) as I. rewrite E in I.
  destruct qs as [|qa [|qb [|qc qs]]]; cbn in I |- *.
  - split; [constructor|]. intros q Hq. inversion Hq.
  - injection I as I1. split; [apply NoDup_singleton|]. intros q Hq. apply elem_of_list_singleton in Hq as ->. lia.
  - injection I as I1 I2. split; [apply NoDup_cons; split; [|apply NoDup_singleton]; rewrite elem_of_list_singleton; lia|].
    intros q Hq. rewrite !elem_of_cons, elem_of_nil in Hq. destruct Hq as [-> |[-> |[]]]; lia.
  - destruct (length qs); discriminate.
Qed.

(** Status changes that keep the request and the type of every message. *)
Definition same_requests (ms ms' : gmap message_id message) : Prop :=
  (forall id m', ms' !! id = Some m' -> exists m, ms !! id = Some m /\ m_request m' = m_request m /\ m_type m' = m_type m) /\
  (forall id m, ms !! id = Some m -> exists m', ms' !! id = Some m' /\ m_request m' = m_request m /\ m_type m' = m_type m).

Lemma same_requests_refl ms : same_requests ms ms.
Proof. split; eauto. Qed.
Lemma same_requests_put ms id q ty st st' : ms !! id = Some (mkMessage q ty st) -> same_requests ms (<[id := mkMessage q ty st']> ms).
Proof.
  intros E. split; intros i m H.
  - apply lookup_insert_Some in H as [[<- <-]|[_ H]]; eauto.
  - destruct (decide (id = i)) as [<-|Hn].
    + rewrite lookup_insert. assert (m = mkMessage q ty st) by congruence. subst m. eauto.
    + rewrite lookup_insert_ne by auto. eauto.
Qed.

Lemma WI_change w w' : WI w -> w_next w' = w_next w -> same_requests (w_messages w) (w_messages w') ->
  (forall t, t ∈ w_tasks w' -> t ∈ w_tasks w) ->
  (forall i a, s_awaiting (w_state w') !! i = Some a -> s_awaiting (w_state w) !! i = Some a) -> WI w'.
Proof.
  intros W EN [S1 S2] ET EA. constructor.
  - rewrite EN. apply W.
  - intros id m H. apply S1 in H as (m0 & H & E1 & E2). apply (wi_msg _ W) in H as [A B C D]. constructor; try rewrite E1; auto. rewrite EN. auto.
  - intros id t a H. apply EA in H. apply (wi_await _ W) in H as (m & H & E1 & ->). apply S2 in H as (m' & H & E2 & E3).
    exists m'. rewrite E2, E3. auto.
  - intros t q Ht Hq. apply ET in Ht. destruct (wi_task _ W _ _ Ht Hq) as (m & H & E1 & E2).
    apply S2 in H as (m' & H & E3 & E4). exists m'. rewrite E3, E4. auto.
Qed.

Lemma handler_awaiting s token id r i a : s_awaiting (reply_handler s token id r) !! i = Some a -> s_awaiting s !! i = Some a.
Proof.
  rewrite handler_spec. destruct (s_awaiting s !! (id, token)) as [en|]; [|auto]. destruct (says_nothing r); [auto|].
  cbn [forget_transfer set_awaiting s_awaiting]. intros H. apply lookup_delete_Some in H as [_ H].
  destruct (settles _ _); [rewrite credit_awaiting in H|]; exact H.
Qed.

Lemma call_state w e o : (call w e o = w) \/
  (exists s', run_op e (w_state w) o = Ok s' /\ w_state (call w e o) = s' /\ w_next (call w e o) = w_next w /\
     w_messages (call w e o) = w_messages w /\ w_tasks (call w e o) = w_tasks w).
Proof.
  assert (D : (exists v, o = OpWithdrawVara v) \/ call w e o =
        match run_op e (w_state w) o with
        | Ok s' => mkWorld s' (w_next w) (w_messages w) (w_tasks w) (add_held VARA_ADDRESS (e_value e) (w_held w))
        | _ => w end).
  { destruct o; try (right; reflexivity). left. eauto. }
  destruct D as [[v ->]| ->].
  - unfold call. destruct (withdraw_vara e (w_state w) v) as [[s' paid]| | |] eqn:E; auto.
    destruct (paid <=? _); auto. right. exists s'. cbn [run_op]. rewrite E. auto.
  - destruct (run_op e (w_state w) o) eqn:E; auto. right. eauto 10.
Qed.

Lemma WI_step w a : WI w -> bals_ok (w_state w) -> action_wf a -> WI (wexec w a).
Proof.
  intros W B HW. destruct a as [e o|e ok1 ok2 o|id moved r|id hook|n|t a]; cbn [wexec].
  - destruct (call_state w e o) as [-> |(s' & H1 & H2 & H3 & H4 & H5)]; [auto|].
    apply (WI_change w); auto; [rewrite H4; apply same_requests_refl|rewrite H5; auto|].
    intros i a. rewrite H2, (run_op_awaiting _ _ _ _ H1). auto.
  - destruct (async_start e _ (w_state w) o) as [[[s' ty] qs]| | |] eqn:E; auto.
    apply start_spec in E; [|apply HW]. pose proof (sd_sent _ _ _ _ _ _ E) as S.
    destruct (sent_ids _ _ _ _ S eq_refl) as [ND ID]. cbn [n_id1 n_id2] in ID.
    destruct (sd_state _ _ _ _ _ _ E) as (s1 & evs & -> & _).
    assert (NEW : forall q, q ∈ qs -> msg_ok (mkWorld (set_awaiting (await_all ty qs (s_awaiting (w_state w))) s1) (w_next w + 2)
        (add_messages ty qs (w_messages w)) (match qs with [] => w_tasks w | _ => w_tasks w ++ [mkTask ty qs] end)
        (add_held VARA_ADDRESS (e_value e) (w_held w))) (q_id q) (mkMessage q ty Sent)).
    { intros q Hq. constructor; cbn [m_request].
      - reflexivity.
      - cbn [w_next]. specialize (ID q Hq). pose proof (wi_next _ W). lia.
      - exact (proj1 (Forall_forall _ _) (st_vara _ _ _ _ S) q Hq).
      - split; [exact (proj1 (Forall_forall _ _) (sd_pos _ _ _ _ _ _ E B) q Hq)|exact (proj1 (Forall_forall _ _) (st_amount _ _ _ _ S) q Hq)]. }
    assert (OLD : forall id, id < w_next w -> id ∉ map q_id qs).
    { intros id Hid Hin. apply elem_of_list_fmap in Hin as (q & -> & Hq). specialize (ID q Hq). lia. }
    constructor.
    + cbn. pose proof (wi_next _ W). lia.
    + cbn [w_messages]. intros id m H. apply add_messages_inv in H as [(q & Hq & -> & ->)|[_ H]]; [auto|].
      apply (wi_msg _ W) in H as [A1 A2 A3 A4]. constructor; auto. cbn [w_next]. lia.
    + cbn [w_state set_awaiting s_awaiting w_messages]. intros id t a H. apply await_all_inv in H as [(q & Hq & [= -> ->] & ->)|H].
      * exists (mkMessage q ty Sent). split; [apply add_messages_in; auto|]. auto.
      * apply (wi_await _ W) in H as (m & H & E1 & E2). exists m. split; [|auto].
        rewrite add_messages_other; [auto|]. apply OLD. apply (wi_msg _ W) in H. apply H.
    + cbn [w_tasks w_messages]. intros t q Ht Hq.
      assert (D : t ∈ w_tasks w \/ t = mkTask ty qs).
      { destruct qs; [auto|]. apply elem_of_app in Ht as [?|Ht]; [auto|]. apply elem_of_list_singleton in Ht. auto. }
      destruct D as [D| ->].
      * destruct (wi_task _ W _ _ D Hq) as (m & H & E1 & E2). exists m. split; [|auto].
        rewrite add_messages_other; [auto|]. apply OLD. apply (wi_msg _ W) in H. apply H.
      * cbn [k_requests k_type] in *. exists (mkMessage q ty Sent). split; [apply add_messages_in; auto|]. auto.
  - destruct (w_messages w !! id) as [[q ty []]|] eqn:E; auto.
    apply (WI_change w); auto. cbn [w_messages]. eapply same_requests_put; eauto.
  - destruct (w_messages w !! id) as [[q ty []]|] eqn:E; auto; (apply (WI_change w); auto; [cbn [w_messages]; eapply same_requests_put; eauto|]);
      cbn [w_state]; intros i a; (destruct hook; [apply handler_awaiting|auto]).
  - destruct (w_tasks w !! n) as [t|] eqn:E; auto.
    destruct (async_resume _ _ _) as [s' c] eqn:ER. apply resume_spec in ER as (A & -> & H1 & H2).
    apply (WI_change w); auto; [apply same_requests_refl|]. cbn [w_tasks]. intros t' Ht'. apply elem_of_list_lookup in Ht' as [j Hj].
    apply elem_of_list_lookup. destruct (decide (j < n)%nat); [rewrite lookup_delete_lt in Hj by auto|rewrite lookup_delete_ge in Hj by lia]; eauto.
  - apply (WI_change w); auto. apply same_requests_refl.
Qed.

(** Withdrawals of VARA that cannot be paid leave no trace; everything else is a list of events. *)
Lemma step_events w a : WI w -> action_wf a ->
  (exists e o, a = ACall e o /\ w_state (wexec w a) = exec_event (w_state w) (Call e o)) \/
  (exists l, Forall event_wf l /\ Forall no_call l /\ w_state (wexec w a) = exec_events (w_state w) l).
Proof.
  intros I W. destruct a as [e o|e ok1 ok2 o|id moved r|id hook|n|t a]; cbn [wexec].
  - assert (D : (exists v, o = OpWithdrawVara v) \/ call w e o =
        match run_op e (w_state w) o with
        | Ok s' => mkWorld s' (w_next w) (w_messages w) (w_tasks w) (add_held VARA_ADDRESS (e_value e) (w_held w))
        | _ => w end).
    { destruct o; try (right; reflexivity). left. eauto. }
    destruct D as [[v ->]| ->].
    + unfold call. destruct (withdraw_vara e (w_state w) v) as [[s' paid]| | |] eqn:E.
      * destruct (paid <=? _).
        -- left. exists e, (OpWithdrawVara v). split; [auto|]. cbn [w_state exec_event]. unfold exec_op. cbn [run_op]. rewrite E. reflexivity.
        -- right. exists []. split; [constructor|]. split; [constructor|]. reflexivity.
      * right. exists []. split; [constructor|]. split; [constructor|]. reflexivity.
      * right. exists []. split; [constructor|]. split; [constructor|]. reflexivity.
      * right. exists []. split; [constructor|]. split; [constructor|]. reflexivity.
    + left. exists e, o. split; [auto|]. cbn [exec_event]. unfold exec_op. destruct (run_op e (w_state w) o); reflexivity.
  - right. destruct (async_start e _ (w_state w) o) as [[[s' ty] qs]| | |] eqn:E;
      try (exists []; split; [constructor|]; split; [constructor|]; reflexivity).
    apply start_spec in E; [|apply W]. destruct (sd_state _ _ _ _ _ _ E) as (s1 & evs & -> & H2 & H3 & _ & H5).
    exists (evs ++ [Awaiting (await_all ty qs (s_awaiting (w_state w)))]). split; [apply Forall_app; split; auto; repeat constructor|].
    split; [apply Forall_app; split; [|repeat constructor]; eapply Forall_impl; [exact H5|]; intros [] ?; cbn; tauto|].
    cbn [w_state]. rewrite exec_events_app, <- H2. reflexivity.
  - right. exists []. split; [constructor|]. split; [constructor|].
    destruct (w_messages w !! id) as [[q ty []]|]; reflexivity.
  - right. assert (D : w_state (wexec w (ADeliver id hook)) = w_state w \/ exists q r, w_state (wexec w (ADeliver id hook)) = reply_handler (w_state w) (q_token q) id r
       /\ exists m, w_messages w !! id = Some m /\ m_request m = q).
    { cbn [wexec]. destruct (w_messages w !! id) as [[q ty []]|]; auto; destruct hook; eauto 10. }
    cbn [wexec] in D. destruct D as [-> |(q & r & -> & _)].
    + exists []. split; [constructor|]. split; [constructor|]. reflexivity.
    + rewrite handler_spec. destruct (s_awaiting (w_state w) !! (id, q_token q)) as [en|] eqn:EA; [|exists []; split; [constructor|]; split; [constructor|]; reflexivity].
      destruct (says_nothing r); [exists []; split; [constructor|]; split; [constructor|]; reflexivity|].
      destruct (settles _ _).
      * assert (U : u256 (aw_amount en)).
        { apply (wi_await _ I) in EA as (m & HM & _ & ->). apply (mo_amount _ _ _ (wi_msg _ I _ _ HM)). }
        exists [Credit (aw_account en) (q_token q) (aw_amount en); Awaiting (delete (id, q_token q) (s_awaiting (w_state w)))].
           split; [repeat constructor; apply U|]. split; [repeat constructor|]. cbn [exec_events fold_left exec_event].
           unfold forget_transfer. rewrite credit_awaiting. reflexivity.
      * exists [Awaiting (delete (id, q_token q) (s_awaiting (w_state w)))].
        split; [repeat constructor|]. split; [repeat constructor|]. reflexivity.
  - right. destruct (w_tasks w !! n) as [t|] eqn:E; [|exists []; split; [constructor|]; split; [constructor|]; reflexivity].
    destruct (async_resume _ _ _) as [s' c] eqn:ER. apply resume_spec in ER as (A & -> & _).
    exists [Awaiting A]. split; [repeat constructor|]. split; [repeat constructor|]. reflexivity.
  - right. exists []. split; [constructor|]. split; [constructor|]. reflexivity.
Qed.

Lemma WI_init w : is_init w -> WI w /\ exists evs, history room evs (w_state w).
Proof.
  intros (admin & fee & held & Hf & _ & ->). split; [|exists []; constructor; auto].
  constructor; cbn.
  - lia.
  - intros id m H. rewrite lookup_empty in H. discriminate.
  - intros id t a H. rewrite lookup_empty in H. discriminate.
  - intros t q H. inversion H.
Qed.

(** Every interleaving leaves the contract in a state reached by a history. *)
Lemma interleaving_inv (G : world -> action -> Prop) w0 acts w : (forall w a, G w a -> wroom w a) -> is_init w0 -> interleaving G w0 acts w ->
  WI w /\ exists evs, history room evs (w_state w).
Proof.
  intros HG H0. induction 1 as [|acts w a H [W [evs HE]] HW Hg]; [apply WI_init; auto|].
  assert (B : bals_ok (w_state w)) by (eapply bals_history; [|exact HE]; auto).
  split; [apply WI_step; auto|]. apply HG in Hg.
  destruct (step_events w a W HW) as [(e & o & -> & E)|(l & L1 & L2 & E)].
  - exists (evs ++ [Call e o]). rewrite E. constructor; auto.
  - exists (evs ++ l). rewrite E. apply history_app; auto. intros l1 ev l2 ->. apply Forall_app in L2 as [L2 _].
    eapply (quiet_room (w_state w)); [apply no_calls_quiet; auto|exact (Hg)]. Unshelve. exact ev.
Qed.

(** ** Settlement *)

Definition answered (m : message) : option (bool * reply) :=
  match m_status m with Sent => None | Answered mv r | Delivered mv r => Some (mv, r) end.

Lemma deliver_state w id hook : w_state (wexec w (ADeliver id hook)) =
  match w_messages w !! id with
  | Some m => match answered m with
      | Some (_, r) => if hook then reply_handler (w_state w) (q_token (m_request m)) id r else w_state w
      | None => w_state w end
  | None => w_state w
  end.
Proof. cbn [wexec]. destruct (w_messages w !! id) as [[q ty []]|]; reflexivity. Qed.

Lemma forget_bal s id t u v : bal (forget_transfer s id t) u v = bal s u v.
Proof. reflexivity. Qed.

Lemma credit_effect s token a v : u256 (bal s a token) ->
  (bal s a token + v < M256 /\ forall u t, bal (credit_or_log s token a v) u t = bal s u t + at_ a token v u t) \/
  (M256 <= bal s a token + v /\ forall u t, bal (credit_or_log s token a v) u t = bal s u t).
Proof.
  intros U%u256_M. unfold credit_or_log. destruct (Z.lt_ge_cases (bal s a token + v) M256) as [H|H].
  - left. split; [auto|]. destruct (increase_ok _ _ _ _ H) as [s' E]. rewrite E. apply increase_spec in E as (_ & E & _). auto.
  - right. split; [auto|]. intros u t. destruct (increase_token_balance s token a v) as [s'| | |] eqn:E; auto.
    apply increase_spec in E as (_ & E & _ & F). destruct F as [F|F]; [rewrite E, at_same in F; lia|]. subst v. lia.
Qed.

(** The hook has dealt with the reply to [q]. *)
Definition dealt (w : world) (q : request) (ty : transfer_type) : Prop :=
  exists m mv r, w_messages w !! q_id q = Some m /\ m_request m = q /\ m_type m = ty /\ answered m = Some (mv, r) /\
    says_nothing r = false /\
    s_awaiting (w_state w) !! (q_id q, q_token q) = Some (entry_of ty q) /\
    let w' := wexec w (ADeliver (q_id q) true) in
    s_awaiting (w_state w') !! (q_id q, q_token q) = None /\
    if settles ty r
    then (wbal w (account_of ty q) (q_token q) + q_amount q < M256 /\
           forall u t, wbal w' u t = wbal w u t + at_ (account_of ty q) (q_token q) (q_amount q) u t) \/
         (M256 <= wbal w (account_of ty q) (q_token q) + q_amount q /\ forall u t, wbal w' u t = wbal w u t)
    else forall u t, wbal w' u t = wbal w u t.

Lemma deliver_effect w id hook : WI w -> bals_ok (w_state w) ->
  (forall u t, wbal (wexec w (ADeliver id hook)) u t = wbal w u t) /\
    s_awaiting (w_state (wexec w (ADeliver id hook))) = s_awaiting (w_state w) \/
  exists m, w_messages w !! id = Some m /\ hook = true /\ dealt w (m_request m) (m_type m).
Proof.
  intros W B. unfold wbal. rewrite deliver_state. destruct (w_messages w !! id) as [m|] eqn:E; auto.
  pose proof (wi_msg _ W _ _ E) as MO. destruct (answered m) as [[mv r]|] eqn:EA; auto. destruct hook; auto.
  rewrite handler_spec. destruct (s_awaiting (w_state w) !! (id, q_token (m_request m))) as [a|] eqn:EW; auto.
  destruct (says_nothing r) eqn:EN; auto. right. exists m. split; [auto|]. split; [auto|].
  pose proof (wi_await _ W _ _ _ EW) as (m' & E' & _ & Ea). assert (m' = m) by congruence. subst m' a.
  pose proof (mo_id _ _ _ MO) as HI. exists m, mv, r. rewrite HI.
  do 6 (split; [auto|]). cbv zeta. unfold wbal. rewrite deliver_state, E, EA, handler_spec, EW, EN.
  split.
  - cbn [forget_transfer set_awaiting s_awaiting entry_of aw_type aw_account aw_amount]. apply lookup_delete.
  - cbn [entry_of aw_type aw_account aw_amount]. destruct (settles (m_type m) r).
    + apply credit_effect. apply B.
    + intros u t. reflexivity.
Qed.

(** Other steps do not credit: they leave the balances alone, or debit a withdrawal. *)
Lemma start_effect w e ok1 ok2 o : action_wf (AStart e ok1 ok2 o) ->
  let w' := wexec w (AStart e ok1 ok2 o) in
  exists ty qs, w_messages w' = add_messages ty qs (w_messages w) /\ NoDup (map q_id qs) /\
    (forall q, q ∈ qs -> w_next w <= q_id q <= w_next w + 1 /\ account_of ty q = e_caller e) /\
    (forall u t, wbal w' u t = wbal w u t - match ty with Deposit => 0 | Withdrawal => if u =? e_caller e then sum_tok t qs else 0 end).
Proof.
  intros [_ HW]. cbv zeta. unfold wbal. cbn [wexec].
  destruct (async_start e _ (w_state w) o) as [[[s' ty] qs]| | |] eqn:E;
    try (exists Deposit, []; split; [reflexivity|]; split; [constructor|]; split; [intros q Hq; inversion Hq|]; intros; lia).
  apply start_spec in E; [|exact HW]. pose proof (sd_sent _ _ _ _ _ _ E) as S. destruct (sent_ids _ _ _ _ S eq_refl) as [ND ID].
  exists ty, qs. split; [reflexivity|]. split; [auto|]. split.
  - intros q Hq. split; [apply ID; auto|]. exact (proj1 (Forall_forall _ _) (st_account _ _ _ _ S) q Hq).
  - intros u t. cbn [w_state]. rewrite (sd_ledger _ _ _ _ _ _ E). destruct ty; lia.
Qed.

Lemma resume_bal w n u t : wbal (wexec w (AResume n)) u t = wbal w u t.
Proof.
  unfold wbal. cbn [wexec]. destruct (w_tasks w !! n); auto. destruct (async_resume _ _ _) as [s' c] eqn:ER.
  apply resume_spec in ER as (A & -> & _). reflexivity.
Qed.
Lemma process_bal w id mv r u t : wbal (wexec w (AProcess id mv r)) u t = wbal w u t.
Proof. unfold wbal. cbn [wexec]. destruct (w_messages w !! id) as [[q ty []]|]; reflexivity. Qed.

(** What was delivered or answered stays. *)
Lemma answered_stays w a id m x : WI w -> action_wf a -> w_messages w !! id = Some m -> answered m = Some x ->
  exists m', w_messages (wexec w a) !! id = Some m' /\ m_request m' = m_request m /\ m_type m' = m_type m /\ answered m' = Some x.
Proof.
  intros W HW E EA. destruct a as [e o|e ok1 ok2 o|id' moved r|id' hook|n|t a].
  - cbn [wexec]. destruct (call_state w e o) as [-> |(s' & _ & _ & _ & -> & _)]; eauto.
  - destruct (start_effect w e ok1 ok2 o HW) as (ty & qs & H1 & _ & H2 & _). cbv zeta in H1. rewrite H1.
    rewrite add_messages_other; [eauto|]. intros Hin. apply elem_of_list_fmap in Hin as (q & -> & Hq).
    apply H2 in Hq as [Hq _]. pose proof (mo_fresh _ _ _ (wi_msg _ W _ _ E)). lia.
  - cbn [wexec]. destruct (w_messages w !! id') as [[q ty []]|] eqn:E'; eauto. cbn [w_messages].
    destruct (decide (id' = id)) as [-> |Hn]; [|rewrite lookup_insert_ne by auto; eauto].
    assert (m = mkMessage q ty Sent) by congruence. subst m. discriminate.
  - cbn [wexec]. destruct (w_messages w !! id') as [[q ty []]|] eqn:E'; eauto; cbn [w_messages];
      (destruct (decide (id' = id)) as [-> |Hn]; [|rewrite lookup_insert_ne by auto; eauto]);
      rewrite lookup_insert; (eexists; split; [reflexivity|]);
      match goal with E' : w_messages w !! id = Some ?mm |- _ => assert (m = mm) by congruence; subst m end; cbn in *; auto.
  - cbn [wexec]. destruct (w_tasks w !! n); eauto. destruct (async_resume _ _ _); eauto.
  - cbn [wexec]. eauto.
Qed.

Lemma next_grows w a : w_next w <= w_next (wexec w a).
Proof.
  destruct a as [e o|e ok1 ok2 o|id' moved r|id' hook|n|t a]; cbn [wexec].
  - destruct (call_state w e o) as [-> |(s' & _ & _ & -> & _)]; lia.
  - destruct (async_start _ _ _ _) as [[[s' ty] qs]| | |]; cbn [w_next]; lia.
  - destruct (w_messages w !! id') as [[q ty []]|]; cbn [w_next]; lia.
  - destruct (w_messages w !! id') as [[q ty []]|]; cbn [w_next]; lia.
  - destruct (w_tasks w !! n); [|lia]. destruct (async_resume _ _ _); cbn [w_next]; lia.
  - cbn [w_next]. lia.
Qed.

(** A transfer once forgotten is never awaited again. *)
Lemma forgotten_stays w a id t : action_wf a -> id < w_next w -> s_awaiting (w_state w) !! (id, t) = None ->
  s_awaiting (w_state (wexec w a)) !! (id, t) = None.
Proof.
  intros HW HN E. destruct a as [e o|e ok1 ok2 o|id' moved r|id' hook|n|t' a]; cbn [wexec].
  - destruct (call_state w e o) as [-> |(s' & H1 & -> & _)]; [auto|]. rewrite (run_op_awaiting _ _ _ _ H1). auto.
  - destruct (async_start e _ (w_state w) o) as [[[s' ty] qs]| | |] eqn:ES; auto.
    apply start_spec in ES; [|apply HW]. destruct (sent_ids _ _ _ _ (sd_sent _ _ _ _ _ _ ES) eq_refl) as [ND ID].
    destruct (sd_state _ _ _ _ _ _ ES) as (s1 & evs & -> & _). cbn [w_state set_awaiting s_awaiting].
    rewrite await_all_other; [auto|]. intros Hin. apply elem_of_list_fmap in Hin as (q & -> & Hq). specialize (ID q Hq). cbn in ID. lia.
  - destruct (w_messages w !! id') as [[q ty []]|]; auto.
  - destruct (w_messages w !! id') as [[q ty []]|]; auto; cbn [w_state]; destruct hook; auto;
      destruct (s_awaiting (reply_handler (w_state w) (q_token q) id' r) !! (id, t)) eqn:EE; auto; apply handler_awaiting in EE; congruence.
  - destruct (w_tasks w !! n); auto. destruct (async_resume _ _ _) as [s' c] eqn:ER. cbn [w_state].
    apply resume_spec in ER as (A & -> & H1 & H2). cbn [set_awaiting s_awaiting]. destruct (A !! (id, t)) eqn:EE; auto. apply H1 in EE. congruence.
  - auto.
Qed.

(** Suspended calls: at most two requests each, ids all different; every request is
    awaited or its reply has been dealt with. *)
Definition task_ids (l : list task) : list message_id := concat (map (fun t => map q_id (k_requests t)) l).

Definition dealt_in (G : world -> action -> Prop) (w0 : world) (acts : list action) (q : request) (ty : transfer_type) : Prop :=
  exists acts1 acts2 w1, acts = acts1 ++ ADeliver (q_id q) true :: acts2 /\ interleaving G w0 acts1 w1 /\ dealt w1 q ty.

Record TI (G : world -> action -> Prop) (w0 : world) (acts : list action) (w : world) : Prop := mkTI {
  ti_ids : NoDup (task_ids (w_tasks w));
  ti_two : forall t, t ∈ w_tasks w -> (length (k_requests t) <= 2)%nat;
  ti_state : forall t q, t ∈ w_tasks w -> q ∈ k_requests t ->
     s_awaiting (w_state w) !! (q_id q, q_token q) = Some (entry_of (k_type t) q) \/ dealt_in G w0 acts q (k_type t);
}.

Lemma dealt_in_snoc G w0 acts a q ty : dealt_in G w0 acts q ty -> dealt_in G w0 (acts ++ [a]) q ty.
Proof. intros (a1 & a2 & w1 & -> & H). exists a1, (a2 ++ [a]), w1. split; [rewrite <- app_assoc; reflexivity|exact H]. Qed.

Lemma task_ids_app l1 l2 : task_ids (l1 ++ l2) = task_ids l1 ++ task_ids l2.
Proof. unfold task_ids. rewrite map_app, concat_app. reflexivity. Qed.
Lemma elem_of_task_ids l id : id ∈ task_ids l <-> exists t q, t ∈ l /\ q ∈ k_requests t /\ q_id q = id.
Proof.
  unfold task_ids. induction l as [|t l IH]; cbn [map concat].
  - split; [intros H; inversion H|]. intros (t & q & H & _). inversion H.
  - rewrite elem_of_app, IH. split.
    + intros [H|(t' & q & H1 & H2)]; [|exists t', q; split; [right; auto|auto]].
      apply elem_of_list_fmap in H as (q & -> & Hq). exists t, q. split; [left; auto|auto].
    + intros (t' & q & H1 & H2 & <-). apply elem_of_cons in H1 as [-> |H1]; [left|right; eauto].
      apply elem_of_list_fmap. eauto.
Qed.

Lemma TI_keep (G : world -> action -> Prop) w0 acts w a : TI G w0 acts w -> w_tasks (wexec w a) = w_tasks w ->
  (forall t q, t ∈ w_tasks w -> q ∈ k_requests t -> s_awaiting (w_state w) !! (q_id q, q_token q) = Some (entry_of (k_type t) q) ->
     s_awaiting (w_state (wexec w a)) !! (q_id q, q_token q) = Some (entry_of (k_type t) q) \/ dealt_in G w0 (acts ++ [a]) q (k_type t)) ->
  TI G w0 (acts ++ [a]) (wexec w a).
Proof.
  intros T ET H. constructor; rewrite ET; try apply T. intros t q Ht Hq.
  destruct (ti_state _ _ _ _ T t q Ht Hq) as [E|E]; [auto|right; apply dealt_in_snoc; auto].
Qed.

Lemma TI_step G w0 acts w a : interleaving G w0 acts w -> WI w -> bals_ok (w_state w) -> action_wf a ->
  TI G w0 acts w -> TI G w0 (acts ++ [a]) (wexec w a).
Proof.
  intros HI W B HW T. destruct a as [e o|e ok1 ok2 o|id moved r|id hook|n|t a].
  - apply TI_keep; auto; cbn [wexec].
    + destruct (call_state w e o) as [-> |(s' & _ & _ & _ & _ & ->)]; auto.
    + intros t q _ _ E. left. destruct (call_state w e o) as [-> |(s' & H1 & -> & _)]; [auto|]. rewrite (run_op_awaiting _ _ _ _ H1). auto.
  - cbn [wexec]. destruct (async_start e _ (w_state w) o) as [[[s' ty] qs]| | |] eqn:ES.
    2-4: apply (TI_keep G w0 acts w (AStart e ok1 ok2 o)) in T; [|cbn [wexec]; rewrite ES; auto|cbn [wexec]; rewrite ES; auto];
         cbn [wexec] in T; rewrite ES in T; exact T.
    apply start_spec in ES; [|apply HW]. pose proof (sd_sent _ _ _ _ _ _ ES) as S. destruct (sent_ids _ _ _ _ S eq_refl) as [ND ID]. cbn [n_id1] in ID.
    destruct (sd_state _ _ _ _ _ _ ES) as (s1 & evs & -> & _).
    assert (ET : forall t, t ∈ match qs with [] => w_tasks w | _ => w_tasks w ++ [mkTask ty qs] end -> t ∈ w_tasks w \/ t = mkTask ty qs).
    { intros t Ht. destruct qs; [auto|]. apply elem_of_app in Ht as [?|Ht]; [auto|]. apply elem_of_list_singleton in Ht. auto. }
    assert (OLD : forall t q, t ∈ w_tasks w -> q ∈ k_requests t -> 0 <= q_id q < w_next w).
    { intros t q Ht Hq. destruct (wi_task _ W _ _ Ht Hq) as (m & Hm & _). apply (mo_fresh _ _ _ (wi_msg _ W _ _ Hm)). }
    constructor; cbn [w_tasks w_state set_awaiting s_awaiting].
    + assert (NN : NoDup (task_ids (w_tasks w ++ [mkTask ty qs]))).
      { rewrite task_ids_app. apply NoDup_app. split; [apply T|]. split.
        - intros i Hi. apply elem_of_task_ids in Hi as (t & q & Ht & Hq & <-). unfold task_ids. cbn [map concat k_requests]. rewrite app_nil_r.
          intros Hin. apply elem_of_list_fmap in Hin as (q' & E & Hq'). specialize (ID q' Hq'). specialize (OLD t q Ht Hq). lia.
        - unfold task_ids. cbn [map concat k_requests]. rewrite app_nil_r. exact ND. }
      destruct qs; [apply T|exact NN].
    + intros t Ht. apply ET in Ht as [Ht| ->]; [eapply ti_two; eauto|]. cbn [k_requests].
      pose proof (f_equal length (st_ids _ _ _ _ S)) as L. rewrite map_length, take_length in L. cbn in L. lia.
    + intros t q Ht Hq. apply ET in Ht as [Ht| ->].
      * destruct (ti_state _ _ _ _ T t q Ht Hq) as [E|E]; [|right; apply dealt_in_snoc; auto]. left.
        rewrite await_all_other; [auto|]. intros Hin. apply elem_of_list_fmap in Hin as (q' & EE & Hq'). specialize (ID q' Hq'). specialize (OLD t q Ht Hq). lia.
      * left. cbn [k_requests k_type] in *. apply await_all_in; auto.
  - apply TI_keep; auto; cbn [wexec]; destruct (w_messages w !! id) as [[q ty []]|]; auto.
  - apply TI_keep; auto.
    + cbn [wexec]. destruct (w_messages w !! id) as [[q ty []]|]; auto.
    + intros t q Ht Hq E. destruct (deliver_effect w id hook W B) as [[_ EA]|(m & Hm & -> & D)].
      * rewrite EA. auto.
      * destruct (decide (q_id q = id)) as [EI|EI].
        -- right. destruct (wi_task _ W _ _ Ht Hq) as (m' & Hm' & R1 & R2). rewrite EI in Hm'. assert (m' = m) by congruence. subst m'.
           rewrite R1, R2 in D. exists acts, [], w. rewrite EI. split; [reflexivity|]. split; [exact HI|exact D].
        -- left. rewrite deliver_state, Hm. destruct (answered m) as [[mv r]|]; [|exact E]. rewrite handler_spec.
           destruct (s_awaiting (w_state w) !! (id, q_token (m_request m))); [|exact E]. destruct (says_nothing r); [exact E|].
           cbn [forget_transfer set_awaiting s_awaiting]. rewrite lookup_delete_ne by congruence.
           destruct (settles _ _); [rewrite credit_awaiting|]; exact E.
  - cbn [wexec]. destruct (w_tasks w !! n) as [t|] eqn:EN.
    2: { apply (TI_keep G w0 acts w (AResume n)) in T; [|cbn [wexec]; rewrite EN; auto|cbn [wexec]; rewrite EN; auto];
         cbn [wexec] in T; rewrite EN in T; exact T. }
    destruct (async_resume _ _ _) as [s' c] eqn:ER. apply resume_spec in ER as (A & -> & H1 & H2).
    pose proof (take_drop_middle _ _ _ EN) as EL.
    assert (ED : delete n (w_tasks w) = take n (w_tasks w) ++ drop (S n) (w_tasks w)) by apply delete_take_drop.
    assert (SUB : forall x, x ∈ delete n (w_tasks w) -> x ∈ w_tasks w).
    { intros x Hx. rewrite ED in Hx. rewrite <- EL. apply elem_of_app in Hx as [Hx|Hx]; apply elem_of_app; [left|right; right]; auto. }
    pose proof (ti_ids _ _ _ _ T) as ND. rewrite <- EL, task_ids_app in ND. unfold task_ids in ND at 2. cbn [map concat] in ND.
    fold (task_ids (drop (S n) (w_tasks w))) in ND.
    constructor; cbn [w_tasks w_state set_awaiting s_awaiting].
    + rewrite ED, task_ids_app. apply NoDup_app in ND as (N1 & N2 & N3). apply NoDup_app in N3 as (N3 & N4 & N5).
      apply NoDup_app. split; [auto|]. split; [|auto]. intros x Hx Hy. apply (N2 x Hx). apply elem_of_app. auto.
    + intros t' Ht'. eapply ti_two; eauto.
    + intros t' q Ht' Hq. destruct (ti_state _ _ _ _ T t' q (SUB _ Ht') Hq) as [E|E]; [|right; apply dealt_in_snoc; auto].
      left. rewrite H2; [exact E|]. apply Forall_forall. intros [q' m'] Hin. apply elem_of_list_fmap in Hin as (q2 & [= -> ->] & Hq2). cbn [fst].
      intros EI. rewrite ED in Ht'. apply NoDup_app in ND as (N1 & N2 & N3). apply NoDup_app in N3 as (N3 & N4 & N5).
      apply elem_of_app in Ht' as [Ht'|Ht'].
      * apply (N2 (q_id q)); [apply elem_of_task_ids; eauto|]. apply elem_of_app. left. rewrite <- EI. apply elem_of_list_fmap. eauto.
      * apply (N4 (q_id q)); [rewrite <- EI; apply elem_of_list_fmap; eauto|]. apply elem_of_task_ids. eauto.
  - apply (TI_keep G w0 acts w (AGift t a)); auto.
Qed.

Lemma interleaving_all (G : world -> action -> Prop) w0 acts w : (forall w a, G w a -> wroom w a) -> is_init w0 -> interleaving G w0 acts w ->
  WI w /\ bals_ok (w_state w) /\ TI G w0 acts w.
Proof.
  intros HG H0 H. assert (X : forall acts w, interleaving G w0 acts w -> WI w /\ bals_ok (w_state w)).
  { intros acts' w' H'. destruct (interleaving_inv G w0 acts' w' HG H0 H') as [W [evs HE]]. split; [auto|]. eapply bals_history; [|exact HE]; auto. }
  destruct (X _ _ H). split; [auto|]. split; [auto|]. clear H1 H2.
  induction H as [|acts w a H IH HW Hg].
  - destruct H0 as (admin & fee & held & _ & _ & ->). constructor; cbn.
    + constructor.
    + intros t Ht. inversion Ht.
    + intros t q Ht. inversion Ht.
  - destruct (X _ _ H). apply TI_step; auto.
Qed.

(** ** Custody *)

Definition awaits (A : gmap (message_id * actor_id) awaiting_transfer) (q : request) : bool :=
  match A !! (q_id q, q_token q) with Some _ => true | None => false end.

(** What the exchange may still have to give out, or has received without having
    credited it, because of message [m]. *)
Definition pend (A : gmap (message_id * actor_id) awaiting_transfer) (t : actor_id) (m : message) : Z :=
  let q := m_request m in
  if q_token q =? t then
    match m_type m, answered m with
    | Deposit, None => 0
    | Deposit, Some (mv, _) => if mv && awaits A q then q_amount q else 0
    | Withdrawal, None => q_amount q
    | Withdrawal, Some (mv, _) => if negb mv && awaits A q then q_amount q else 0
    end
  else 0.

Definition truths (t : actor_id) (w : world) : Prop :=
  forall id m mv r, w_messages w !! id = Some m -> q_token (m_request m) = t -> answered m = Some (mv, r) ->
    (says_moved r -> mv = true) /\ (says_not_moved r -> mv = false).

Lemma pend_mono A A' t m : 0 <= q_amount (m_request m) -> (forall i a, A' !! i = Some a -> A !! i = Some a) -> pend A' t m <= pend A t m.
Proof.
  intros Ha HS. unfold pend. destruct (_ =? _); [|lia].
  assert (X : awaits A' (m_request m) = true -> awaits A (m_request m) = true).
  { unfold awaits. destruct (A' !! _) eqn:E; [|discriminate]. rewrite (HS _ _ E). auto. }
  destruct (m_type m), (answered m) as [[[] r]|]; cbn [negb andb]; try lia;
    destruct (awaits A' (m_request m)), (awaits A (m_request m)); try lia; discriminate (X eq_refl).
Qed.

Lemma msum_add_messages f ty qs : forall ms, NoDup (map q_id qs) -> (forall q, q ∈ qs -> ms !! q_id q = None) ->
  msum f (add_messages ty qs ms) = msum f ms + foldr (fun q acc => f (mkMessage q ty Sent) + acc) 0 qs.
Proof.
  induction qs as [|q qs IH]; intros ms ND HN; [cbn; lia|]. cbn [map] in ND. apply NoDup_cons in ND as [N1 N2].
  change (add_messages ty (q :: qs) ms) with (add_messages ty qs (<[q_id q := mkMessage q ty Sent]> ms)).
  rewrite IH; [|auto|].
  - rewrite msum_insert by (apply HN; left). cbn [foldr]. lia.
  - intros q' Hq'. rewrite lookup_insert_ne; [apply HN; right; auto|]. intros E. apply N1. rewrite E. apply elem_of_list_fmap. eauto.
Qed.

Lemma add_held_spec t a h t' : add_held t a h t' = h t' + on t a t'.
Proof. unfold add_held, on. destruct (_ =? _); lia. Qed.

Lemma increase_fail_total s token user v t : bal_total (credit_or_log s token user v) t = bal_total s t \/
  bal_total (credit_or_log s token user v) t = bal_total s t + on token v t.
Proof.
  unfold credit_or_log. destruct (increase_token_balance s token user v) eqn:E; auto. right.
  apply increase_spec in E as (_ & _ & E & _). apply E.
Qed.

Definition covered (t : actor_id) (w : world) (R : Z) : Prop :=
  wtotal w t + R + msum (pend (s_awaiting (w_state w)) t) (w_messages w) <= w_held w t.

Lemma covered_step t w a R : WI w -> bals_ok (w_state w) -> action_wf a -> truthful t w a -> truths t w ->
  covered t w R -> covered t (wexec w a) (R + paid_in w a t) /\ truths t (wexec w a).
Proof.
  intros W B HW HT TR C. unfold covered in *.
  assert (AM : forall id m, w_messages w !! id = Some m -> 0 <= q_amount (m_request m)).
  { intros id m Hm. pose proof (mo_amount _ _ _ (wi_msg _ W _ _ Hm)) as [U _]. apply u256_M in U. lia. }
  assert (PM : forall A', (forall i x, A' !! i = Some x -> s_awaiting (w_state w) !! i = Some x) ->
     msum (pend A' t) (w_messages w) <= msum (pend (s_awaiting (w_state w)) t) (w_messages w)).
  { intros A' HS. apply msum_le. intros id m Hm. apply pend_mono; auto. eapply AM; eauto. }
  destruct a as [e o|e ok1 ok2 o|id moved r|id hook|n|t' a].
  - assert (EV : 0 <= e_value e) by (destruct HW as [(_ & _ & U) _]; unfold u128 in U; lia).
    assert (D : wexec w (ACall e o) = w \/ (exists s', run_op e (w_state w) o = Ok s' /\
        wexec w (ACall e o) = mkWorld s' (w_next w) (w_messages w) (w_tasks w) (w_held (wexec w (ACall e o))) /\
        match o with
        | OpWithdrawVara v => exists paid, withdraw_vara e (w_state w) v = Ok (s', paid) /\
            w_held (wexec w (ACall e o)) t = w_held w t + on VARA_ADDRESS (e_value e) t + on VARA_ADDRESS (- paid) t
        | _ => w_held (wexec w (ACall e o)) t = w_held w t + on VARA_ADDRESS (e_value e) t end)).
    { cbn [wexec]. destruct o; cbn [call].
      all: try (destruct (run_op e (w_state w) _) eqn:E; auto; right; eexists; split; [reflexivity|];
        split; [reflexivity|]; cbn [w_held]; apply add_held_spec).
      destruct (withdraw_vara e (w_state w) value) as [[s' paid]| | |] eqn:E; auto. destruct (paid <=? _); auto. right.
      exists s'. cbn [run_op w_held]. rewrite E. split; [reflexivity|]. split; [reflexivity|]. exists paid. split; [auto|]. rewrite !add_held_spec. lia. }
    destruct D as [D|(s' & H1 & H2 & H3)].
    + rewrite D. split; [|auto]. unfold paid_in. rewrite D. destruct o; lia.
    + assert (EA : s_awaiting (w_state (wexec w (ACall e o))) = s_awaiting (w_state w)).
      { rewrite H2. cbn [w_state]. apply (run_op_awaiting _ _ _ _ H1). }
      assert (EM : w_messages (wexec w (ACall e o)) = w_messages w) by (rewrite H2; reflexivity).
      split; [|unfold truths; rewrite EM; exact TR].
      rewrite EA, EM. assert (ON : 0 <= on VARA_ADDRESS (e_value e) t) by (unfold on; destruct (_ =? _); lia).
      assert (ES : w_state (wexec w (ACall e o)) = s') by (rewrite H2; reflexivity).
      assert (DD : (exists v, o = OpWithdrawVara v) \/ o = OpDepositVara \/
         (paid_in w (ACall e o) t = wtotal w t - wtotal (wexec w (ACall e o)) t /\ w_held (wexec w (ACall e o)) t = w_held w t + on VARA_ADDRESS (e_value e) t)).
      { destruct o; eauto 10. }
      destruct DD as [[v ->]|[-> |[P1 P2]]].
      * destruct H3 as (paid & H3 & ->). apply withdraw_vara_inv in H3 as (_ & _ & LT & _). cbn [paid_in].
        unfold wtotal at 1. rewrite ES, LT. fold (wtotal w t). unfold on. destruct (_ =? _); lia.
      * cbn [run_op] in H1. apply drop_result_Ok in H1 as [v H1]. apply deposit_vara_inv in H1 as (-> & _ & _ & LT).
        rewrite H3. cbn [paid_in]. unfold wtotal at 1. rewrite ES, LT. fold (wtotal w t). lia.
      * rewrite P1, P2. lia.
  - assert (EV : 0 <= on VARA_ADDRESS (e_value e) t) by (destruct HW as [(_ & _ & U) _]; unfold u128 in U; unfold on; destruct (_ =? _); lia).
    cbn [wexec paid_in]. destruct (async_start e _ (w_state w) o) as [[[s' ty] qs]| | |] eqn:ES; try (split; [lia|auto]).
    apply start_spec in ES; [|apply HW]. destruct (sent_ids _ _ _ _ (sd_sent _ _ _ _ _ _ ES) eq_refl) as [ND ID]. cbn [n_id1] in ID.
    assert (NEW : forall q, q ∈ qs -> w_messages w !! q_id q = None).
    { intros q Hq. destruct (w_messages w !! q_id q) eqn:E; auto. apply (wi_msg _ W) in E. pose proof (mo_fresh _ _ _ E). specialize (ID q Hq). lia. }
    split.
    + unfold wtotal. cbn [w_state w_messages w_held]. rewrite (sd_total _ _ _ _ _ _ ES t), add_held_spec.
      destruct (sd_state _ _ _ _ _ _ ES) as (s1 & evs & -> & _). cbn [set_awaiting s_awaiting].
      rewrite msum_add_messages by auto.
      assert (E1 : msum (pend (await_all ty qs (s_awaiting (w_state w))) t) (w_messages w) = msum (pend (s_awaiting (w_state w)) t) (w_messages w)).
      { apply msum_ext. intros id m Hm. pose proof (wi_msg _ W _ _ Hm) as MO. unfold pend, awaits. rewrite (mo_id _ _ _ MO).
        rewrite await_all_other; [reflexivity|]. intros Hin. apply elem_of_list_fmap in Hin as (q & -> & Hq). specialize (ID q Hq).
        pose proof (mo_fresh _ _ _ MO). lia. }
      rewrite E1. unfold wtotal in C.
      assert (E2 : forall l A, foldr (fun q acc => pend A t (mkMessage q ty Sent) + acc) 0 l = match ty with Deposit => 0 | Withdrawal => sum_tok t l end).
      { intros l A. induction l as [|q l IH]; cbn [foldr sum_tok]; [destruct ty; reflexivity|]. rewrite IH. unfold pend, on. cbn.
        rewrite (Z.eqb_sym t). destruct ty, (q_token q =? t); cbn; try lia; unfold sum_tok, on; lia. }
      rewrite E2. destruct ty; lia.
    + intros id m mv r Hm Ht Ha. cbn [w_messages] in Hm. apply add_messages_inv in Hm as [(q & _ & _ & ->)|[_ Hm]]; [discriminate|].
      eapply TR; eauto.
  - cbn [wexec paid_in]. destruct (w_messages w !! id) as [[q ty st]|] eqn:E; [|split; [lia|auto]].
    destruct st; try (split; [lia|auto]; fail). cbn [truthful] in HT. specialize (HT _ E). cbn [m_request] in HT.
    pose proof (AM _ _ E) as HA. cbn [m_request] in HA. split.
    + unfold wtotal. cbn [w_state w_messages w_held]. rewrite (msum_update _ _ _ _ _ E). unfold wtotal in C.
      assert (X : pend (s_awaiting (w_state w)) t (mkMessage q ty (Answered moved r)) - pend (s_awaiting (w_state w)) t (mkMessage q ty Sent)
         <= (if moved then move ty q (w_held w) else w_held w) t - w_held w t).
      { unfold pend, move. cbn [m_request m_type m_status answered]. destruct moved; [rewrite add_held_spec; unfold on; rewrite (Z.eqb_sym t)|];
          destruct (q_token q =? t), ty, (awaits (s_awaiting (w_state w)) q); cbn [negb andb]; lia. }
      lia.
    + intros id' m mv r' Hm Ht Ha. cbn [w_messages] in Hm. apply lookup_insert_Some in Hm as [[<- <-]|[_ Hm]]; [|eapply TR; eauto].
      cbn in Ht, Ha. injection Ha as <- <-. auto.
  - cbn [paid_in].
    assert (MS : forall A, msum (pend A t) (w_messages (wexec w (ADeliver id hook))) = msum (pend A t) (w_messages w) /\
       w_held (wexec w (ADeliver id hook)) t = w_held w t).
    { intros A. cbn [wexec]. destruct (w_messages w !! id) as [[q ty []]|] eqn:E; auto; cbn [w_messages w_held]; (split; [|reflexivity]);
        rewrite (msum_update _ _ _ _ _ E); unfold pend; cbn [m_request m_type m_status answered]; lia. }
    destruct (MS (s_awaiting (w_state (wexec w (ADeliver id hook))))) as [-> ->]. split.
    + unfold wtotal in *. rewrite deliver_state. destruct (w_messages w !! id) as [m|] eqn:E; [|lia].
      destruct (answered m) as [[mv r]|] eqn:EA; [|lia]. destruct hook; [|lia]. rewrite handler_spec.
      destruct (s_awaiting (w_state w) !! (id, q_token (m_request m))) as [a|] eqn:EW; [|lia]. destruct (says_nothing r) eqn:EN; [lia|].
      pose proof (wi_msg _ W _ _ E) as MO. pose proof (mo_id _ _ _ MO) as HI.
      pose proof (wi_await _ W _ _ _ EW) as (m' & E' & _ & Ea). assert (m' = m) by congruence. subst m' a. clear E'.
      cbn [entry_of aw_type aw_account aw_amount].
      set (A' := s_awaiting (forget_transfer (if settles (m_type m) r then credit_or_log (w_state w) (q_token (m_request m)) (account_of (m_type m) (m_request m)) (q_amount (m_request m)) else w_state w) id (q_token (m_request m)))).
      assert (EA' : A' = delete (id, q_token (m_request m)) (s_awaiting (w_state w))).
      { unfold A'. cbn [forget_transfer set_awaiting s_awaiting]. destruct (settles _ _); [rewrite credit_awaiting|]; reflexivity. }
      rewrite EA'.
      destruct (settles (m_type m) r) eqn:ST.
      * set (s1 := credit_or_log _ _ _ _). change (bal_total (forget_transfer s1 id (q_token (m_request m))) t) with (bal_total s1 t).
        assert (X : msum (pend (delete (id, q_token (m_request m)) (s_awaiting (w_state w))) t) (w_messages w) + on (q_token (m_request m)) (q_amount (m_request m)) t
           <= msum (pend (s_awaiting (w_state w)) t) (w_messages w)).
        { rewrite <- (insert_delete _ _ _ E), !msum_insert by apply lookup_delete.
          assert (msum (pend (delete (id, q_token (m_request m)) (s_awaiting (w_state w))) t) (delete id (w_messages w)) <= msum (pend (s_awaiting (w_state w)) t) (delete id (w_messages w))).
          { apply msum_le. intros i m0 Hm0. apply lookup_delete_Some in Hm0 as [_ Hm0]. apply pend_mono; [eapply AM; eauto|].
            intros j x Hj. apply lookup_delete_Some in Hj as [_ Hj]. exact Hj. }
          assert (pend (delete (id, q_token (m_request m)) (s_awaiting (w_state w))) t m + on (q_token (m_request m)) (q_amount (m_request m)) t <= pend (s_awaiting (w_state w)) t m); [|lia].
          unfold pend, awaits, on. rewrite HI, lookup_delete, EW, EA, (Z.eqb_sym t). destruct (Z.eqb_spec (q_token (m_request m)) t) as [Et|]; [|lia].
          destruct (TR _ _ _ _ E Et EA) as [T1 T2]. apply settles_iff in ST. unfold says_settle in ST.
          destruct (m_type m); [rewrite (T1 ST)|rewrite (T2 ST)]; cbn; lia. }
        pose proof (AM _ _ E). assert (0 <= on (q_token (m_request m)) (q_amount (m_request m)) t) by (unfold on; destruct (_ =? _); lia).
        destruct (increase_fail_total (w_state w) (q_token (m_request m)) (account_of (m_type m) (m_request m)) (q_amount (m_request m)) t) as [EI|EI];
          fold s1 in EI; rewrite EI; lia.
      * change (bal_total (forget_transfer (w_state w) id (q_token (m_request m))) t) with (bal_total (w_state w) t).
        assert (msum (pend (delete (id, q_token (m_request m)) (s_awaiting (w_state w))) t) (w_messages w) <= msum (pend (s_awaiting (w_state w)) t) (w_messages w)); [|lia].
        apply PM. intros j x Hj. apply lookup_delete_Some in Hj as [_ Hj]. exact Hj.
    + intros i m mv r Hm Ht Ha. cbn [wexec] in Hm. destruct (w_messages w !! id) as [[q ty []]|] eqn:E; try (eapply TR; eauto; fail);
        cbn [w_messages] in Hm; (apply lookup_insert_Some in Hm as [[<- <-]|[_ Hm]]; [|eapply TR; eauto]);
        cbn in Ht, Ha; injection Ha as <- <-; eapply TR; eauto; reflexivity.
  - cbn [wexec paid_in]. destruct (w_tasks w !! n) as [k|]; [|split; [lia|auto]].
    destruct (async_resume _ _ _) as [s' c] eqn:ER. apply resume_spec in ER as (A & -> & H1 & H2). split; [|exact TR].
    unfold wtotal. cbn [w_state w_messages w_held set_awaiting s_awaiting]. specialize (PM A H1). unfold wtotal in C.
    change (bal_total (set_awaiting A (w_state w)) t) with (bal_total (w_state w) t). lia.
  - cbn [wexec paid_in]. split; [|exact TR]. unfold wtotal. cbn [w_state w_messages w_held]. rewrite add_held_spec. unfold wtotal in C.
    cbn in HW. assert (0 <= on t' a t) by (unfold on; destruct (_ =? _); lia). lia.
Qed.

Lemma reserves_snoc acts : forall w0 a t, reserves w0 (acts ++ [a]) t =
  reserves w0 acts t + paid_in (fold_left wexec acts w0) a t.
Proof. induction acts as [|b acts IH]; intros w0 a t; cbn [app reserves fold_left]; [lia|]. rewrite IH. lia. Qed.

Lemma interleaving_fold G w0 acts w : interleaving G w0 acts w -> fold_left wexec acts w0 = w.
Proof. induction 1 as [|acts w a H IH _ _]; [reflexivity|]. rewrite fold_left_app, IH. reflexivity. Qed.

Lemma covered_run t w0 acts w : is_init w0 -> interleaving (fun w a => wroom w a /\ truthful t w a) w0 acts w ->
  covered t w (reserves w0 acts t) /\ truths t w.
Proof.
  intros H0 H. pose proof (fun acts w h => interleaving_all _ w0 acts w (fun w a (h : wroom w a /\ truthful t w a) => proj1 h) H0 h) as X.
  induction H as [|acts w a H IH HW [_ HT]].
  - destruct H0 as (admin & fee & held & _ & Hh & ->). split.
    + unfold covered, wtotal, bal_total. cbn [init_world w_state w_messages w_held reserves]. rewrite msum_empty.
      cbn [init_state s_balances]. rewrite msum_empty. specialize (Hh t). lia.
    + intros id m mv r Hm. cbn in Hm. rewrite lookup_empty in Hm. discriminate.
  - destruct (X _ _ H) as (W & B & _). destruct IH as [C TR]. rewrite reserves_snoc, (interleaving_fold _ _ _ _ H). apply covered_step; auto.
Qed.
