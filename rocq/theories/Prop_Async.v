(** Properties C32, C33: deposits and withdrawals of tokens through asynchronous
    transfers. *)
From Verif Require Import Base Decimal Types CollectionsM StateM ServiceM AsyncM Arith SpecMath SpecSum SpecHistory SpecAsync
  P_Clamm P_Balance P_Effects P_Positions P_History P_Bals P_Async P_AsyncRuns Cases.
From stdpp Require Import gmap list.
From Coq Require Import ZArith Lia Bool.
Open Scope Z_scope.

(** ** C32 *)

(** A delivered reply that changes any balance adds the amount of its own request
    to the account that made the request, changes nothing else, and is a reply that
    the token contract gave to this very message: "moved" for a deposit, "not moved"
    for a withdrawal. *)
Theorem C32_settlement w0 acts w id hook user token : is_init w0 -> interleaving wroom w0 acts w ->
  wbal (wexec w (ADeliver id hook)) user token <> wbal w user token ->
  exists ty q r moved, request_of w id = Some (ty, q) /\ reply_to w id = Some r /\ AProcess id moved r ∈ acts /\
    says_settle ty r /\ hook = true /\ user = account_of ty q /\ token = q_token q /\ deliver_pays w id ty q.
Proof.
  intros H0 H HC. destruct (interleaving_all wroom w0 acts w (fun _ _ h => h) H0 H) as (W & B & _).
  destruct (deliver_effect w id hook W B) as [[H1 _]|(m & Hm & -> & D)]; [specialize (H1 user token); congruence|].
  destruct D as (m' & mv & r & Hm' & _ & _ & HA & _ & _ & _ & HS). pose proof (mo_id _ _ _ (wi_msg _ W _ _ Hm)) as HI. rewrite HI in *.
  assert (m' = m) by congruence. subst m'. destruct (settles (m_type m) r) eqn:ES; [|specialize (HS user token); congruence].
  destruct HS as [[_ HS]|[_ HS]]; [|specialize (HS user token); congruence].
  exists (m_type m), (m_request m), r, mv. unfold request_of, reply_to. rewrite Hm.
  split; [reflexivity|]. split; [unfold answered in HA; destruct (m_status m); congruence|].
  split; [eapply reply_origin; eauto|]. split; [apply settles_iff; auto|]. split; [auto|].
  assert (P : forall u t, wbal (wexec w (ADeliver id true)) u t = wbal w u t + at_ (account_of (m_type m) (m_request m)) (q_token (m_request m)) (q_amount (m_request m)) u t) by exact HS.
  specialize (P user token) as P1. unfold at_ in P1.
  destruct (Z.eqb_spec user (account_of (m_type m) (m_request m))) as [Eu|]; [|cbn [andb] in P1; lia].
  destruct (Z.eqb_spec token (q_token (m_request m))) as [Et|]; [|cbn [andb] in P1; lia].
  split; [exact Eu|]. split; [exact Et|]. intros u t. rewrite P. unfold at_. reflexivity.
Qed.

(** Once the reply to a message has changed a balance, delivering a reply to it
    again, at any later time and after any other actions, changes nothing. *)
Theorem C32_at_most_once w0 acts w id hook user token acts' w' hook' : is_init w0 -> interleaving wroom w0 acts w ->
  wroom w (ADeliver id hook) -> wbal (wexec w (ADeliver id hook)) user token <> wbal w user token ->
  interleaving wroom (wexec w (ADeliver id hook)) acts' w' -> deliver_silent w' id hook'.
Proof.
  intros H0 H HR HC H'. destruct (interleaving_all wroom w0 acts w (fun _ _ h => h) H0 H) as (W & B & _).
  apply (silent_later wroom w0 (acts ++ [ADeliver id hook]) (wexec w (ADeliver id hook)) acts' w'); auto.
  - constructor; auto. exact I.
  - destruct (deliver_effect w id hook W B) as [[H1 _]|(m & Hm & -> & D)]; [specialize (H1 user token); congruence|].
    pose proof (mo_id _ _ _ (wi_msg _ W _ _ Hm)) as HI. rewrite <- HI. eapply dealt_closed; eauto.
Qed.

(** When the suspended call of a request has been resumed (all replies have come,
    or the deadline has passed), late replies change nothing. *)
Theorem C32_no_late_settlement w0 acts w n k q acts' w' hook : is_init w0 -> interleaving wroom w0 acts w ->
  wroom w (AResume n) -> w_tasks w !! n = Some k -> q ∈ k_requests k ->
  interleaving wroom (wexec w (AResume n)) acts' w' -> deliver_silent w' (q_id q) hook.
Proof.
  intros H0 H HR HK Hq H'. destruct (interleaving_all wroom w0 acts w (fun _ _ h => h) H0 H) as (W & B & T).
  apply (silent_later wroom w0 (acts ++ [AResume n]) (wexec w (AResume n)) acts' w'); auto.
  - constructor; auto. exact I.
  - assert (HI : k ∈ w_tasks w) by (eapply elem_of_list_lookup_2; eauto). destruct (wi_task _ W _ _ HI Hq) as (m & Hm & E1 & E2).
    exists (m_type m), q. split; [apply request_stays; [exact W|exact I|]; unfold request_of; rewrite Hm, E1; reflexivity|].
    cbn [wexec]. rewrite HK.
    pose proof (resume_none (w_state w) (k_type k) (map (fun q => (q, awaited (reply_of w q))) (k_requests k))) as R.
    destruct (async_resume _ _ _) as [s' c]. cbn [fst w_state] in *. eapply R; [rewrite map_length; eapply ti_two; eauto|].
    apply elem_of_list_fmap. exists q. split; [reflexivity|exact Hq].
Qed.

(** The other steps of the protocol: starting a call sends exactly the transfers it
    asks for and debits exactly the withdrawals among them; processing a message,
    resuming a call and gifts change no balance. *)
Theorem C32_start w e ok1 ok2 o : action_wf (AStart e ok1 ok2 o) ->
  let w' := wexec w (AStart e ok1 ok2 o) in
  w' = w \/
  exists ty qs, transfers_asked w (e_caller e) o = (ty, map (fun q => (q_token q, q_amount q)) qs) /\
    w_messages w' = add_messages ty qs (w_messages w) /\ Forall (fun q => account_of ty q = e_caller e) qs /\
    forall u t, wbal w' u t = wbal w u t -
      match ty with
      | Deposit => 0
      | Withdrawal => if u =? e_caller e then total_of t (snd (transfers_asked w (e_caller e) o)) else 0
      end.
Proof.
  intros HW. cbv zeta. destruct (start_summary w e ok1 ok2 o HW) as [E|(ty & qs & H1 & _ & H2 & H3 & H4)]; [auto|]. right.
  exists ty, qs. split; [exact H2|]. split; [exact H1|]. split.
  - apply Forall_forall. intros q Hq. apply H3; auto.
  - intros u t. rewrite H4, H2. cbn [snd]. rewrite total_of_sum. reflexivity.
Qed.

Theorem C32_other_steps w a user token :
  match a with AProcess _ _ _ | AResume _ | AGift _ _ => wbal (wexec w a) user token = wbal w user token | _ => True end.
Proof.
  destruct a as [e o|e ok1 ok2 o|id moved r|id hook|n|t a]; auto; first [apply process_bal|apply resume_bal].
Qed.

(** A call whose end is not "left with an error" has had every reply handled: each
    request has been settled by its reply when the reply says so (unless the balance
    would exceed 2^256 - 1), and it returns normally exactly when all replies say
    that the tokens were moved. *)
Theorem C32_completed w0 acts w n k c : is_init w0 -> interleaving wroom w0 acts w ->
  w_tasks w !! n = Some k -> resume_end w n = Some c -> c <> Left ->
  (forall q, q ∈ k_requests k -> exists acts1 acts2 w1 r,
     acts = acts1 ++ ADeliver (q_id q) true :: acts2 /\ interleaving wroom w0 acts1 w1 /\
     request_of w1 (q_id q) = Some (k_type k, q) /\ reply_to w1 (q_id q) = Some r /\
     (says_moved r \/ says_not_moved r) /\ (c = Returned -> says_moved r) /\
     (says_settle (k_type k) r -> wbal w1 (account_of (k_type k) q) (q_token q) + q_amount q < 2 ^ 256 ->
        deliver_pays w1 (q_id q) (k_type k) q) /\
     (~ says_settle (k_type k) r -> deliver_silent w1 (q_id q) true)).
Proof.
  intros H0 H HK HE HC q Hq. destruct (interleaving_all wroom w0 acts w (fun _ _ h => h) H0 H) as (W & B & T).
  unfold resume_end in HE. rewrite HK in HE. injection HE as HE.
  destruct (async_resume (w_state w) (k_type k) (map (fun q => (q, awaited (reply_of w q))) (k_requests k))) as [s' c'] eqn:ER. cbn [snd] in HE. subst c'.
  assert (KI : k ∈ w_tasks w) by (eapply elem_of_list_lookup_2; eauto).
  assert (ND : NoDup (map q_id (k_requests k))).
  { pose proof (ti_ids _ _ _ _ T) as ND. pose proof (take_drop_middle _ _ _ HK) as EL. rewrite <- EL, task_ids_app in ND.
    apply NoDup_app in ND as (_ & _ & ND). unfold task_ids in ND. cbn [map concat] in ND. apply NoDup_app in ND as (ND & _). exact ND. }
  apply resume_end_spec in ER as [R1 R2]; auto.
  2: { rewrite map_map. cbn. exact ND. }
  2: { rewrite map_length. eapply ti_two; eauto. }
  assert (HIN : (q, awaited (reply_of w q)) ∈ map (fun q => (q, awaited (reply_of w q))) (k_requests k)) by (apply elem_of_list_fmap; eauto).
  specialize (R1 _ _ HIN). destruct (ti_state _ _ _ _ T k q KI Hq) as [E|(a1 & a2 & w1 & EA & H1 & D)]; [congruence|].
  destruct D as (m & mv & r & Hm & E1 & E2 & HA & HN & _ & _ & HS). subst acts.
  assert (RR : reply_to w1 (q_id q) = Some r) by (unfold reply_to; rewrite Hm; unfold answered in HA; destruct (m_status m); congruence).
  exists a1, a2, w1, r. split; [auto|]. split; [auto|]. split; [unfold request_of; rewrite Hm, E1, E2; reflexivity|]. split; [exact RR|].
  assert (SN : says_moved r \/ says_not_moved r).
  { unfold says_nothing in HN. unfold says_moved, says_not_moved. destruct (r_payload r) as [[] []| |]; try discriminate; auto. }
  split; [exact SN|]. split.
  - intros ->. apply R2 with (q := q) in HIN; [|reflexivity].
    assert (RW : reply_to w (q_id q) = Some r).
    { destruct (interleaving_split wroom w0 _ _ H a1 (ADeliver (q_id q) true :: a2) eq_refl) as (w1' & I1 & I2).
      assert (w1' = w1) by (apply interleaving_fold in I1, H1; congruence). subst w1'.
      assert (X : reply_to w (q_id q) = Some r /\ True); [|apply X].
      assert (Y : forall acts' w', interleaving wroom w1 acts' w' -> reply_to w' (q_id q) = Some r).
      { intros acts' w' HY. induction HY as [|acts' w' a HY IH HW Hg]; [exact RR|]. apply reply_stays; auto.
        assert (Z1 : interleaving wroom w0 (a1 ++ acts') w') by (eapply interleaving_trans; eauto).
        apply (interleaving_all wroom w0 _ _ (fun _ _ h => h) H0 Z1). }
      split; [eapply Y; eauto|auto]. }
    unfold reply_of in HIN. unfold reply_to in RW. destruct (w_messages w !! q_id q) as [[q' ty' st]|]; [|discriminate].
    cbn [m_status] in RW. destruct st; try discriminate. injection RW as ->. unfold awaited in HIN.
    destruct (r_success r); [|discriminate]. destruct SN as [SN|[SN|SN]]; [exact SN| |]; rewrite SN in HIN; discriminate.
  - split.
    + intros ST HB. apply settles_iff in ST. rewrite ST in HS. unfold deliver_pays. destruct HS as [[_ HS]|[HS _]].
      * intros u t. rewrite HS. unfold at_. reflexivity.
      * unfold M256 in HS. lia.
    + intros ST. destruct (settles (k_type k) r) eqn:EQ; [apply settles_iff in EQ; contradiction|]. exact HS.
Qed.

(** ** C33 *)

(** If the contract of token [t] answers truthfully, the exchange holds at least
    what it owes to users plus what users have paid into the pools. *)
Theorem C33_custody w0 acts w t : is_init w0 -> interleaving (fun w a => wroom w a /\ truthful t w a) w0 acts w ->
  wtotal w t + reserves w0 acts t <= w_held w t.
Proof.
  intros H0 H. destruct (covered_run t w0 acts w H0 H) as [C _]. unfold covered in C.
  destruct (interleaving_all _ w0 acts w (fun w a (h : wroom w a /\ truthful t w a) => proj1 h) H0 H) as (W & _).
  assert (0 <= msum (pend (s_awaiting (w_state w)) t) (w_messages w)); [|lia].
  apply msum_nonneg. intros id m Hm. pose proof (mo_amount _ _ _ (wi_msg _ W _ _ Hm)) as [U _]. apply u256_M in U.
  unfold pend. destruct (_ =? _), (m_type m), (answered m) as [[[] r]|]; cbn [negb andb]; try lia; destruct (awaits _ _); lia.
Qed.

(** VARA, the native token, is never moved by token contracts: no assumption. *)
Theorem C33_custody_vara w0 acts w : is_init w0 -> interleaving wroom w0 acts w ->
  wtotal w VARA_ADDRESS + reserves w0 acts VARA_ADDRESS <= w_held w VARA_ADDRESS.
Proof.
  intros H0 H. apply C33_custody; [auto|]. 
  assert (X : forall acts w, interleaving wroom w0 acts w -> WI w) by (intros a' w' H'; apply (interleaving_all wroom w0 a' w' (fun _ _ h => h) H0 H')).
  induction H as [|acts w a H IH HW Hg]; constructor; auto. split; [auto|].
  destruct a; cbn; auto. intros m Hm Ht. exfalso. exact (mo_token _ _ _ (wi_msg _ (X _ _ H) _ _ Hm) Ht).
Qed.

(** Whatever other token contracts answer, only balances in the message's own token
    can change. *)
Theorem C33_token_isolation w0 acts w id hook ty q user token : is_init w0 -> interleaving wroom w0 acts w ->
  request_of w id = Some (ty, q) -> token <> q_token q ->
  wbal (wexec w (ADeliver id hook)) user token = wbal w user token.
Proof.
  intros H0 H HQ HT. destruct (Z.eq_dec (wbal (wexec w (ADeliver id hook)) user token) (wbal w user token)) as [|HC]; [auto|].
  apply (C32_settlement w0 acts) in HC as (ty' & q' & r & mv & E & _ & _ & _ & _ & _ & -> & _); auto. congruence.
Qed.

(** The contract's state after any interleaving is reached by a history of
    synchronous calls, credits and debits, so that the theorems about histories
    hold in it. *)
Theorem C33_interleavings_are_histories w0 acts w : is_init w0 -> interleaving wroom w0 acts w ->
  exists evs, history room evs (w_state w).
Proof. intros H0 H. exact (proj2 (interleaving_inv wroom w0 acts w (fun _ _ h => h) H0 H)). Qed.

(** [wroom] always holds in runs of fewer than 2^32 - 1 actions. *)
Theorem C33_room (G : world -> action -> Prop) w0 acts w : is_init w0 -> interleaving G w0 acts w -> Z.of_nat (length acts) < 2 ^ 32 - 1 ->
  interleaving (fun w a => wroom w a /\ G w a) w0 acts w.
Proof. intros H0 H HN. exact (proj1 (interleaving_room G w0 acts w H0 H HN)). Qed.

(** ** A run with two deposits, a lying reply, a duplicate, a refused withdrawal and
    a deposit that times out *)

Definition says (b : bool) : reply := mkReply (PTransfer true b) true.
Definition w_start : world := init_world admin 10000000000 (fun _ => 0).
Definition run_acts (acts : list action) : world := fold_left wexec acts w_start.
Definition acts_pair : list action := [
  AStart (by_ alice) true true (DepositTokenPair (tokA, 500) (tokB, 400));     (* messages 0 and 1 *)
  AProcess 0 true (says true); AProcess 1 false (says false);
  ADeliver 1 true ].
Definition acts_more : list action := acts_pair ++ [
  ADeliver 0 true; ADeliver 0 true;
  AResume 0;                                                                  (* ends in a panic *)
  AStart (by_ alice) true true (WithdrawSingleToken tokA (Some 200));          (* message 2 *)
  AStart (by_ bob) true true (DepositSingleToken tokA 70);                     (* message 4 *)
  AProcess 2 false (mkReply PText false);
  ADeliver 2 true ].
Definition acts_late : list action := acts_more ++ [
  AResume 1;                                                                  (* bob's call times out *)
  AProcess 4 true (says true);
  ADeliver 4 true ].

Lemma fold_interleaving acts : Forall action_wf acts -> interleaving any_action w_start acts (run_acts acts).
Proof.
  unfold run_acts. induction acts as [|a acts IH] using rev_ind; intros HF; [constructor|].
  apply Forall_app in HF as [HF HA]. inversion HA; subst. rewrite fold_left_app. cbn [fold_left]. constructor; auto. exact I.
Qed.
Lemma w_start_init : is_init w_start.
Proof. exists admin, 10000000000, (fun _ => 0). split; [unfold u128; lia|]. split; [intros; lia|reflexivity]. Qed.
Lemma late_wf : Forall action_wf acts_late.
Proof.
  unfold acts_late, acts_more, acts_pair. cbn [app].
  repeat first [apply Forall_cons; split | apply Forall_nil]; cbn; auto; unfold env_wf, u64, u32, u128, u256; cbn; repeat split; lia.
Qed.
Lemma run_room acts : Forall action_wf acts -> (length acts < 100)%nat -> interleaving wroom w_start acts (run_acts acts).
Proof.
  intros HF HL. pose proof (C33_room any_action w_start acts _ w_start_init (fold_interleaving acts HF) ltac:(lia)) as H.
  clear HF HL. induction H as [|acts w a H IH HW Hg]; constructor; auto. apply Hg.
Qed.

Definition books (acts : list action) : list Z :=
  let w := run_acts acts in
  [wbal w alice tokA; wbal w alice tokB; wbal w bob tokA; wtotal w tokA; w_held w tokA; w_held w tokB; Z.of_nat (length (w_tasks w))].

Example C32_case :
  interleaving wroom w_start acts_late (run_acts acts_late) /\
  books acts_pair = [0; 0; 0; 0; 500; 0; 1] /\
  books (acts_pair ++ [ADeliver 0 true]) = [500; 0; 0; 500; 500; 0; 1] /\
  books (acts_pair ++ [ADeliver 0 true; ADeliver 0 true]) = [500; 0; 0; 500; 500; 0; 1] /\
  match resume_end (run_acts (acts_pair ++ [ADeliver 0 true])) 0 with Some Panicked => True | _ => False end /\
  match resume_end (run_acts acts_pair) 0 with Some Left => True | _ => False end /\
  books acts_more = [500; 0; 0; 500; 500; 0; 2] /\
  match resume_end (run_acts acts_more) 0 with Some Panicked => True | _ => False end.
Proof.
  split; [apply run_room; [apply late_wf|cbn; lia]|].
  repeat (match goal with |- _ /\ _ => split end); vm_compute; first [reflexivity|exact I].
Qed.

(** The withdrawn 200 are debited until the refusal arrives. *)
Example C32_case_debit : books (acts_pair ++ [ADeliver 0 true; AStart (by_ alice) true true (WithdrawSingleToken tokA (Some 200))])
  = [300; 0; 0; 300; 500; 0; 2].
Proof. vm_compute. reflexivity. Qed.

(** A deposit whose reply comes after the deadline is never credited although the
    token contract answered truthfully and moved the tokens: 70 tokens of bob stay
    with the exchange and appear in nobody's balance. *)
Theorem C32_every_moved_deposit_credited_refuted :
  exists acts w, interleaving (fun w a => wroom w a /\ truthful tokA w a) w_start acts w /\
    (exists ty q, request_of w 4 = Some (ty, q) /\ ty = Deposit /\ q_from q = bob /\ q_amount q = 70 /\ q_token q = tokA) /\
    AProcess 4 true (says true) ∈ acts /\ ADeliver 4 true ∈ acts /\
    wbal w bob tokA = 0 /\ wtotal w tokA + 70 = w_held w tokA.
Proof.
  exists acts_late, (run_acts acts_late). split.
  - assert (T : forall acts, (forall id mv r, AProcess id mv r ∈ acts -> (says_moved r -> mv = true) /\ (says_not_moved r -> mv = false)) ->
       forall w, interleaving wroom w_start acts w -> interleaving (fun w a => wroom w a /\ truthful tokA w a) w_start acts w).
    { intros acts HT w H. induction H as [|acts w a H IH HW Hg]; constructor; auto.
      - apply IH. intros id mv r Hin. apply (HT id). apply elem_of_app. auto.
      - split; [auto|]. destruct a; cbn; auto. intros m _ _. apply (HT id). apply elem_of_app. right. left. }
    apply T; [|apply run_room; [apply late_wf|cbn; lia]].
    intros id mv r Hin. unfold acts_late, acts_more, acts_pair in Hin. cbn [app] in Hin.
    rewrite !elem_of_cons, elem_of_nil in Hin.
    repeat (destruct Hin as [Hin|Hin]; [first [discriminate Hin|injection Hin as -> -> ->;
      unfold says_moved, says_not_moved, says; cbn; split; [intros Hs; first [discriminate Hs|reflexivity]|intros [Hs|Hs]; first [discriminate Hs|reflexivity]]]|]).
    destruct Hin.
  - split.
    + eexists _, _. split; [vm_compute; reflexivity|]. vm_compute. auto.
    + split; [unfold acts_late; apply elem_of_app; right; right; left|]. split; [unfold acts_late; apply elem_of_app; right; right; right; left|].
      split; vm_compute; reflexivity.
Qed.

(** Custody in a run with trading: alice deposits both tokens, opens a position and
    withdraws half of what is left; the reserves are what the position took. *)
Definition acts_trade : list action := [
  ACall (by_ admin) (OpAddFeeTier tier1);
  ACall (by_ bob) (OpCreatePool tokB tokA tier1 1000000000000000000000000 0);
  AStart (by_ alice) true true (DepositTokenPair (tokA, 1000) (tokB, 1000));
  AProcess 0 true (says true); AProcess 1 true (says true); ADeliver 0 true; ADeliver 1 true; AResume 0;
  ACall (by_ alice) (OpCreatePosition pool1 (-10) 10 100000000000 0 any_price);
  AStart (by_ alice) true true (WithdrawSingleToken tokA (Some 100));
  AProcess 2 true (says true) ].
Example C33_case :
  interleaving wroom w_start acts_trade (run_acts acts_trade) /\ reserves w_start acts_trade tokA = 500 /\ wtotal (run_acts acts_trade) tokA = 400 /\ w_held (run_acts acts_trade) tokA = 900.
Proof.
  split.
  - apply run_room; [|cbn; lia]. unfold acts_trade.
    repeat first [apply Forall_cons; split | apply Forall_nil]; cbn; auto; unfold env_wf, tier_wf, any_price, i32, u16, u64, u32, u128, u256; cbn; repeat split; try lia; discriminate.
  - repeat (match goal with |- _ /\ _ => split end); vm_compute; reflexivity.
Qed.

(** ** Assumptions *)
Print Assumptions C32_settlement.
Print Assumptions C32_at_most_once.
Print Assumptions C32_no_late_settlement.
Print Assumptions C32_start.
Print Assumptions C32_other_steps.
Print Assumptions C32_completed.
Print Assumptions C33_custody.
Print Assumptions C33_custody_vara.
Print Assumptions C33_token_isolation.
Print Assumptions C33_interleavings_are_histories.
Print Assumptions C33_room.
Print Assumptions C32_every_moved_deposit_credited_refuted.
