(** Facts about interleavings used by the properties C32 and C33. *)
From Verif Require Import Base Decimal Types CollectionsM StateM ServiceM AsyncM Arith SpecMath SpecSum SpecHistory SpecAsync
  P_Balance P_Effects P_Positions P_History P_Bals P_Async.
From stdpp Require Import gmap list.
From Coq Require Import ZArith Lia Bool.
Open Scope Z_scope.

Lemma pair_or_single_list e n s tx ty_ ty s' qs : transfer_pair_or_single e n s tx ty_ ty = Ok (s', qs) ->
  map (fun q => (q_token q, q_amount q)) qs = nonzero [tx; ty_].
Proof.
  unfold transfer_pair_or_single, nonzero. destruct tx as [X x], ty_ as [Y y]. cbn [fst snd List.filter].
  destruct (Z.eqb_spec x 0) as [-> |Hx]; cbn [negb andb]; [|destruct (Z.eqb_spec y 0) as [-> |Hy]; cbn [negb]].
  - destruct (Z.eqb_spec y 0) as [-> |Hy]; cbn [negb]; [intros [= <- <-]; reflexivity|].
    intros H. apply single_send_spec in H as (_ & _ & H). exact H.
  - intros H. apply single_send_spec in H as (_ & _ & H). exact H.
  - intros H. apply pair_send_spec in H as (_ & _ & H). exact H.
Qed.

Lemma decrease_err s token user : forall er, decrease_token_balance s token user None = Err er -> bal s user token = 0.
Proof.
  intros er. unfold decrease_token_balance, bal, balm. rewrite bool_decide_eq_false_2 by discriminate.
  destruct (s_balances s !! user) as [m|]; cbn; [|intros _; reflexivity]. destruct (m !! token); cbn; [|intros _; reflexivity].
  intros H. exfalso. destruct (bool_decide (delete token m = ∅)); discriminate.
Qed.

Lemma start_asked e n w o s' ty qs : async_start e n (w_state w) o = Ok (s', ty, qs) ->
  transfers_asked w (e_caller e) o = (ty, map (fun q => (q_token q, q_amount q)) qs).
Proof.
  destruct o as [token a|token a|tx ty_|tx ty_]; cbn [async_start transfers_asked]; intros H.
  - apply bind_Ok in H as (v1 & E1 & H). apply bind_Ok in H as ([s1 q] & E & H). injection H as -> <- ->.
    apply single_send_spec in E as (HS & _ & E). rewrite E. unfold nonzero. cbn.
    pose proof (st_amount _ _ _ _ HS) as SA. destruct qs as [|q [|]]; try discriminate. injection E as _ <-.
    inversion SA as [|? ? S1]; subst. apply Z.eqb_neq in S1. rewrite S1. reflexivity.
  - apply bind_Ok in H as ([s1 v] & E & H).
    assert (V : asked w (e_caller e) token a = (token, v)).
    { unfold asked, wbal. destruct a as [a|].
      - apply bind_Ok in E as (v1 & _ & E). apply decrease_spec in E as (_ & _ & _ & _ & ->). reflexivity.
      - destruct (decrease_token_balance (w_state w) token (e_caller e) None) as [[s2 v2]| | |] eqn:ED; try discriminate.
        + injection E as -> ->. apply decrease_spec in ED as (_ & _ & _ & _ & ->). reflexivity.
        + injection E as <- <-. apply decrease_err in ED as ->. reflexivity. }
    rewrite V. unfold nonzero. cbn [List.filter snd]. destruct (Z.eqb_spec v 0) as [-> |Hv]; cbn [negb] in H |- *.
    + injection H as <- <- <-. reflexivity.
    + apply bind_Ok in H as ([s2 q] & E2 & H). injection H as -> <- ->. apply single_send_spec in E2 as (_ & _ & ->). reflexivity.
  - apply bind_Ok in H as (v1 & E1 & H). apply bind_Ok in H as (v2 & E2 & H). apply bind_Ok in H as ([s1 q] & E & H). injection H as -> <- ->.
    apply pair_or_single_list in E as ->. reflexivity.
  - apply bind_Ok in H as (v1 & E1 & H). apply fail_if_Ok in E1. destruct tx as [X xo], ty_ as [Y yo]. cbn [fst snd] in *.
    apply bind_Ok in H as ([s1 x] & EX & H). apply bind_Ok in H as ([s2 y] & EY & H). apply bind_Ok in H as ([s3 q] & E & H). injection H as -> <- ->.
    assert (DD : forall sa T o sb v, amount_or_zero o (decrease_token_balance sa T (e_caller e) o) sa = Ok (sb, v) ->
      (v = match o with Some a => a | None => bal sa (e_caller e) T end) /\
      forall u t, t <> T -> bal sb u t = bal sa u t).
    { clear. intros s T o s1 v E. unfold amount_or_zero in E.
      destruct (decrease_token_balance s T (e_caller e) o) as [[s2 v2]|er| |] eqn:ED; try discriminate.
      - assert (s2 = s1 /\ v2 = v) as [-> ->] by (destruct o; split; congruence).
        apply decrease_spec in ED as (_ & E1 & _ & _ & E2). split; [destruct o; exact E2|]. intros u t Ht. rewrite E1. unfold at_.
        apply Z.eqb_neq in Ht. rewrite Ht, andb_false_r. lia.
      - destruct er, o; try discriminate. injection E as <- <-. apply decrease_err in ED. auto. }
    apply DD in EX as [-> EX], EY as [-> EY]. apply pair_or_single_list in E as ->.
    unfold asked, wbal. destruct yo; [reflexivity|]. rewrite EX by lia. reflexivity.
Qed.

Lemma total_of_sum t qs : total_of t (map (fun q => (q_token q, q_amount q)) qs) = sum_tok t qs.
Proof. unfold total_of, sum_tok, on. induction qs as [|q qs IH]; [reflexivity|]. cbn [map foldr fst snd]. rewrite IH. reflexivity. Qed.

(** A call that starts: fails without a trace, or sends what was asked for. *)
Lemma start_summary w e ok1 ok2 o : action_wf (AStart e ok1 ok2 o) ->
  let w' := wexec w (AStart e ok1 ok2 o) in
  w' = w \/ exists ty qs, w_messages w' = add_messages ty qs (w_messages w) /\ NoDup (map q_id qs) /\
    transfers_asked w (e_caller e) o = (ty, map (fun q => (q_token q, q_amount q)) qs) /\
    (forall q, q ∈ qs -> w_next w <= q_id q <= w_next w + 1 /\ account_of ty q = e_caller e) /\
    (forall u t, wbal w' u t = wbal w u t - match ty with Deposit => 0 | Withdrawal => if u =? e_caller e then sum_tok t qs else 0 end).
Proof.
  intros [_ HW]. cbv zeta. unfold wbal. cbn [wexec].
  destruct (async_start e _ (w_state w) o) as [[[s' ty] qs]| | |] eqn:E; auto. right. exists ty, qs.
  pose proof (start_asked _ _ _ _ _ _ _ E) as EA.
  apply start_spec in E; [|exact HW]. pose proof (sd_sent _ _ _ _ _ _ E) as S. destruct (sent_ids _ _ _ _ S eq_refl) as [ND ID].
  split; [reflexivity|]. split; [auto|]. split; [auto|]. split.
  - intros q Hq. split; [apply ID; auto|]. exact (proj1 (Forall_forall _ _) (st_account _ _ _ _ S) q Hq).
  - intros u t. cbn [w_state]. rewrite (sd_ledger _ _ _ _ _ _ E). destruct ty; lia.
Qed.

Lemma request_stays w a id x : WI w -> action_wf a -> request_of w id = Some x -> request_of (wexec w a) id = Some x.
Proof.
  unfold request_of. intros W HW. destruct (w_messages w !! id) as [m|] eqn:E; [|discriminate]. intros [= <-].
  destruct a as [e o|e ok1 ok2 o|id' moved r|id' hook|n|t a].
  - cbn [wexec]. destruct (call_state w e o) as [-> |(s' & _ & _ & _ & -> & _)]; rewrite E; reflexivity.
  - destruct (start_effect w e ok1 ok2 o HW) as (ty & qs & H1 & _ & H2 & _). cbv zeta in H1. rewrite H1.
    rewrite add_messages_other; [rewrite E; reflexivity|]. intros Hin. apply elem_of_list_fmap in Hin as (q & -> & Hq).
    apply H2 in Hq as [Hq _]. pose proof (mo_fresh _ _ _ (wi_msg _ W _ _ E)). lia.
  - cbn [wexec]. destruct (w_messages w !! id') as [[q ty []]|] eqn:E'; rewrite ?E; auto. cbn [w_messages].
    destruct (decide (id' = id)) as [-> |Hn]; [|rewrite lookup_insert_ne, E by auto; auto]. rewrite lookup_insert. cbn.
    assert (m = mkMessage q ty Sent) by congruence. subst m. reflexivity.
  - cbn [wexec]. destruct (w_messages w !! id') as [[q ty []]|] eqn:E'; rewrite ?E; auto; cbn [w_messages];
      (destruct (decide (id' = id)) as [-> |Hn]; [|rewrite lookup_insert_ne, E by auto; auto]); rewrite lookup_insert; cbn;
      match goal with E' : w_messages w !! id = Some ?mm |- _ => assert (m = mm) by congruence; subst m end; reflexivity.
  - cbn [wexec]. destruct (w_tasks w !! n); rewrite ?E; auto. destruct (async_resume _ _ _); cbn; rewrite E; auto.
  - cbn [wexec w_messages]. rewrite E. reflexivity.
Qed.

Lemma reply_stays w a id r : WI w -> action_wf a -> reply_to w id = Some r -> reply_to (wexec w a) id = Some r.
Proof.
  unfold reply_to. intros W HW. destruct (w_messages w !! id) as [m|] eqn:E; [|discriminate]. intros H.
  assert (exists mv, answered m = Some (mv, r)) as [mv EA] by (unfold answered; destruct (m_status m); try discriminate; injection H as ->; eauto).
  destruct (answered_stays w a id m (mv, r) W HW E EA) as (m' & -> & _ & _ & EA'). unfold answered in EA'.
  destruct (m_status m'); try discriminate; congruence.
Qed.

(** Continuations. *)
Lemma interleaving_trans (G : world -> action -> Prop) w0 a1 w1 : interleaving G w0 a1 w1 -> forall a2 w2, interleaving G w1 a2 w2 -> interleaving G w0 (a1 ++ a2) w2.
Proof.
  intros H1 a2 w2 H2. induction H2 as [|a2 w a H IH HW Hg]; [rewrite app_nil_r; auto|].
  rewrite app_assoc. constructor; auto.
Qed.
Lemma interleaving_one (G : world -> action -> Prop) w a : action_wf a -> G w a -> interleaving G w [a] (wexec w a).
Proof. intros. apply (interleaving_snoc G w [] w a); auto. constructor. Qed.

Lemma interleaving_split (G : world -> action -> Prop) w0 acts w : interleaving G w0 acts w -> forall a1 a2, acts = a1 ++ a2 ->
  exists w1, interleaving G w0 a1 w1 /\ interleaving G w1 a2 w.
Proof.
  induction 1 as [|acts w a H IH HW Hg]; intros a1 a2 E.
  - destruct a1, a2; try discriminate. exists w0. split; constructor.
  - destruct a2 as [|x b _] using rev_ind.
    + rewrite app_nil_r in E. subst a1. eexists. split; [|constructor]. constructor; auto.
    + rewrite app_assoc in E. apply app_inj_tail in E as [E1 ->]. destruct (IH _ _ E1) as (w1 & H1 & H2).
      exists w1. split; [auto|]. constructor; auto.
Qed.

(** A transfer that is not awaited any more is never settled. *)
Definition closed (w : world) (id : message_id) : Prop :=
  exists ty q, request_of w id = Some (ty, q) /\ s_awaiting (w_state w) !! (id, q_token q) = None.

Lemma closed_silent w id hook : WI w -> bals_ok (w_state w) -> closed w id -> deliver_silent w id hook.
Proof.
  intros W B (ty & q & H1 & H2). destruct (deliver_effect w id hook W B) as [[H _]|(m & Hm & -> & m' & mv & r & Hm' & _ & _ & _ & _ & HA & _)]; [exact H|].
  exfalso. pose proof (mo_id _ _ _ (wi_msg _ W _ _ Hm)) as HI. rewrite HI in *. unfold request_of in H1. rewrite Hm in H1. injection H1 as _ <-. congruence.
Qed.

Lemma closed_stays (G : world -> action -> Prop) w acts w' id : (forall w a, G w a -> wroom w a) -> interleaving G w acts w' -> forall w0 acts0,
  is_init w0 -> interleaving G w0 acts0 w -> closed w id -> closed w' id /\ WI w' /\ bals_ok (w_state w').
Proof.
  intros HG H w0 acts0 H0 HP HC. induction H as [|acts w' a H IH HW Hg].
  - split; [auto|]. destruct (interleaving_all G w0 acts0 w HG H0 HP) as (? & ? & _). auto.
  - destruct IH as ((ty & q & H1 & H2) & W & B). split.
    + exists ty, q. split; [apply request_stays; auto|]. apply forgotten_stays; auto. unfold request_of in H1.
      destruct (w_messages w' !! id) eqn:E; [|discriminate]. apply (mo_fresh _ _ _ (wi_msg _ W _ _ E)).
    + assert (HR : interleaving G w0 (acts0 ++ acts ++ [a]) (wexec w' a)).
      { eapply interleaving_trans; [exact HP|]. constructor; auto. }
      destruct (interleaving_all G w0 _ _ HG H0 HR) as (? & ? & _). auto.
Qed.

Lemma silent_later (G : world -> action -> Prop) w0 acts0 w acts w' id hook : (forall w a, G w a -> wroom w a) -> is_init w0 ->
  interleaving G w0 acts0 w -> interleaving G w acts w' -> closed w id -> deliver_silent w' id hook.
Proof. intros HG H0 H1 H2 C. destruct (closed_stays G w acts w' id HG H2 w0 acts0 H0 H1 C) as (C' & W & B). apply closed_silent; auto. Qed.

Lemma dealt_closed w q ty hook : WI w -> dealt w q ty -> hook = true -> closed (wexec w (ADeliver (q_id q) hook)) (q_id q).
Proof.
  intros W (m & mv & r & Hm & E1 & E2 & _ & _ & _ & HN & _) ->. exists ty, q. split; [|exact HN].
  apply request_stays; [exact W|exact I|]. unfold request_of. rewrite Hm, E1, E2. reflexivity.
Qed.

(** Resumption forgets every transfer of the call. *)
Lemma result_none s m id t ty : s_awaiting (fst (handle_transfer_result s m id t ty)) !! (id, t) = None /\
  (is_handling_failed (snd (handle_transfer_result s m id t ty)) = false -> s_awaiting s !! (id, t) = None) /\
  forall i, s_awaiting s !! i = None -> s_awaiting (fst (handle_transfer_result s m id t ty)) !! i = None.
Proof.
  destruct (handle_transfer_result s m id t ty) as [s' r] eqn:E. cbn [fst snd].
  apply result_spec in E as [(-> & H & _)|(-> & -> & _)]; [auto|].
  cbn [forget_transfer set_awaiting s_awaiting]. split; [apply lookup_delete|]. split; [discriminate|].
  intros i Hi. apply lookup_delete_None. auto.
Qed.

Lemma resume_none s ty l : (length l <= 2)%nat -> forall q m, (q, m) ∈ l ->
  s_awaiting (fst (async_resume s ty l)) !! (q_id q, q_token q) = None.
Proof.
  intros HL q m Hq. unfold async_resume. destruct l as [|[q1 m1] [|[q2 m2] [|]]]; [inversion Hq| | |cbn in HL; lia].
  - apply elem_of_list_singleton in Hq as [= -> ->]. pose proof (result_none s m1 (q_id q1) (q_token q1) ty) as (R1 & R2 & _).
    destruct (handle_transfer_result s m1 (q_id q1) (q_token q1) ty) as [s1 c] eqn:E. cbn [fst snd] in *.
    destruct (is_handling_failed c); [exact R1|]. destruct c; cbn [fst]; auto.
  - pose proof (result_none s m1 (q_id q1) (q_token q1) ty) as (R1 & R2 & R3).
    destruct (handle_transfer_result s m1 (q_id q1) (q_token q1) ty) as [s1 c1] eqn:E1. cbn [fst snd] in *.
    pose proof (result_none s1 m2 (q_id q2) (q_token q2) ty) as (S1 & S2 & S3).
    destruct (handle_transfer_result s1 m2 (q_id q2) (q_token q2) ty) as [s2 c2] eqn:E2. cbn [fst snd] in *.
    rewrite !elem_of_cons, elem_of_nil in Hq.
    assert (B : s_awaiting s2 !! (q_id q, q_token q) = None) by (destruct Hq as [[= -> ->]|[[= -> ->]|[]]]; auto).
    destruct (is_handling_failed c1) eqn:F1; cbn [orb]; [exact B|]. destruct (is_handling_failed c2) eqn:F2; [exact B|].
    assert (N : s_awaiting s !! (q_id q, q_token q) = None).
    { destruct Hq as [[= -> ->]|[[= -> ->]|[]]]; auto. specialize (S2 eq_refl).
      apply result_spec in E1 as [(-> & _)|(_ & -> & _)]; [auto|discriminate]. }
    destruct c1, c2; cbn [fst]; auto.
Qed.

Lemma resume_end_spec s ty l s' c : NoDup (map (fun x => q_id (fst x)) l) -> (length l <= 2)%nat -> async_resume s ty l = (s', c) -> c <> Left ->
  (forall q m, (q, m) ∈ l -> s_awaiting s !! (q_id q, q_token q) = None) /\
  (c = Returned <-> forall q m, (q, m) ∈ l -> m = Some true).
Proof.
  intros ND HL. unfold async_resume. destruct l as [|[q1 m1] [|[q2 m2] [|]]]; [| | |cbn in HL; lia].
  - intros [= <- <-] _. split; [intros q m Hq; inversion Hq|]. split; [intros _ q m Hq; inversion Hq|auto].
  - destruct (handle_transfer_result s m1 (q_id q1) (q_token q1) ty) as [s1 c1] eqn:E. apply result_spec in E as [(-> & H & F & EQ)|(-> & -> & _)].
    2: { cbn. intros [= _ <-]. congruence. }
    rewrite F. intros HR HC. split; [intros q m Hq; apply elem_of_list_singleton in Hq as [= -> ->]; auto|].
    split.
    + intros -> q m Hq. apply elem_of_list_singleton in Hq as [= -> ->]. apply EQ. destruct c1 as [[]| | |]; congruence.
    + intros Hq. specialize (Hq q1 m1 ltac:(left)). apply EQ in Hq. rewrite Hq in HR. congruence.
  - destruct (handle_transfer_result s m1 (q_id q1) (q_token q1) ty) as [s1 c1] eqn:E. apply result_spec in E as [(-> & H & F & EQ)|(-> & -> & _)].
    2: { cbn. destruct (handle_transfer_result _ _ _ _ _). intros [= _ <-]. congruence. }
    destruct (handle_transfer_result s m2 (q_id q2) (q_token q2) ty) as [s2 c2] eqn:E2. apply result_spec in E2 as [(-> & H2 & F2 & EQ2)|(-> & -> & _)].
    2: { rewrite F. cbn. intros [= _ <-]. congruence. }
    rewrite F, F2. cbn [orb]. intros HR HC. split; [intros q m Hq; rewrite !elem_of_cons, elem_of_nil in Hq; destruct Hq as [[= -> ->]|[[= -> ->]|[]]]; auto|].
    split.
    + intros -> q m Hq. rewrite !elem_of_cons, elem_of_nil in Hq. destruct Hq as [[= -> ->]|[[= -> ->]|[]]]; [apply EQ|apply EQ2];
      destruct c1 as [[]| | |]; try congruence; destruct c2 as [[]| | |]; congruence.
    + intros Hq. pose proof (Hq q1 m1 ltac:(left)) as A1. pose proof (Hq q2 m2 ltac:(right; left)) as A2. apply EQ in A1. apply EQ2 in A2. rewrite A1, A2 in HR. congruence.
Qed.

(** Provenance of replies and requests. *)
Lemma reply_origin (G : world -> action -> Prop) w0 acts w : (forall w a, G w a -> wroom w a) -> is_init w0 -> interleaving G w0 acts w ->
  forall id m mv r, w_messages w !! id = Some m -> answered m = Some (mv, r) -> AProcess id mv r ∈ acts.
Proof.
  intros HG H0 H. induction H as [|acts w a H IH HW Hg]; intros id m mv r Hm HA.
  { destruct H0 as (admin & fee & held & _ & _ & ->). cbn in Hm. rewrite lookup_empty in Hm. discriminate. }
  apply elem_of_app. destruct a as [e o|e ok1 ok2 o|id' moved r'|id' hook|n|t a].
  - left. cbn [wexec] in Hm. destruct (call_state w e o) as [EE|(s' & _ & _ & _ & EE & _)]; rewrite EE in Hm; eauto.
  - left. destruct (start_effect w e ok1 ok2 o HW) as (ty & qs & H1 & _ & H2 & _). cbv zeta in H1. rewrite H1 in Hm.
    apply add_messages_inv in Hm as [(q & _ & _ & ->)|[_ Hm]]; [discriminate|]. eauto.
  - cbn [wexec] in Hm. destruct (w_messages w !! id') as [[q ty []]|] eqn:E'; eauto. cbn [w_messages] in Hm.
    apply lookup_insert_Some in Hm as [[<- <-]|[_ Hm]]; [|eauto]. right. cbn in HA. injection HA as -> ->. left.
  - left. cbn [wexec] in Hm. destruct (w_messages w !! id') as [[q ty []]|] eqn:E'; eauto; cbn [w_messages] in Hm;
      (apply lookup_insert_Some in Hm as [[<- <-]|[_ Hm]]; [|eauto]); eapply IH; eauto.
  - left. cbn [wexec] in Hm. destruct (w_tasks w !! n); [|eauto]. destruct (async_resume _ _ _); eauto.
  - left. eauto.
Qed.

(** Every interleaving of fewer than 2^32 - 1 actions is one in which no owner
    reaches 2^32 - 1 positions. *)
Lemma interleaving_room (G : world -> action -> Prop) w0 acts w : is_init w0 -> interleaving G w0 acts w -> Z.of_nat (length acts) < 2 ^ 32 - 1 ->
  interleaving (fun w a => wroom w a /\ G w a) w0 acts w /\ forall o, get_user_position_amount (w_state w) o <= Z.of_nat (length acts).
Proof.
  intros H0 H. induction H as [|acts w a H IH HW Hg]; intros HN.
  - split; [constructor|]. destruct H0 as (admin & fee & held & _ & _ & ->). intros o. cbn. unfold get_user_position_amount, positions_get_length.
    cbn. rewrite lookup_empty. cbn. lia.
  - rewrite app_length in *. cbn [length] in *. destruct IH as [IH1 IH2]; [lia|].
    assert (R : wroom w a). { intros o. specialize (IH2 o). lia. }
    split; [constructor; auto|]. intros o. specialize (IH2 o) as HA.
    destruct (interleaving_inv (fun w a => wroom w a /\ G w a) w0 acts w (fun _ _ h => proj1 h) H0 IH1) as [W [evs HE]].
    destruct (step_events w a W HW) as [(e & op & -> & E)|(l & L1 & L2 & E)]; rewrite E.
    + cbn [exec_event]. unfold exec_op. destruct (run_op e (w_state w) op) eqn:ER; try lia.
      assert (D : dense (w_state w)) by (eapply dense_history; eauto).
      pose proof (op_position_count _ _ _ _ o D R ER). unfold get_user_position_amount in *. lia.
    + pose proof (no_calls_quiet l (w_state w) L2) as Q. unfold quiet in Q. unfold get_user_position_amount, positions_get_length in *. rewrite Q. lia.
Qed.
