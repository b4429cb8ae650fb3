(** Induction over histories; density of the position lists. *)
From Verif Require Import Base Decimal Types CollectionsM StateM ServiceM SpecMath SpecHistory P_Clamm P_Balance
  P_Effects P_Positions.
From stdpp Require Import gmap list.
From Coq Require Import ZArith Lia Bool.
Open Scope Z_scope.

Lemma drop_result_Ok {A} (r : res (state * A)) s' : drop_result r = Ok s' -> exists a, r = Ok (s', a).
Proof. unfold drop_result. intros H. apply bind_Ok in H as ([s a] & -> & [= ->]). eauto. Qed.

(** A relation between states preserved by each swap is preserved by a route. *)
Lemma route_swap_rel (R : state -> state -> Prop) e :
  (forall s, R s s) -> (forall s1 s2 s3, R s1 s2 -> R s2 s3 -> R s1 s3) ->
  (forall s k d a lim s' r, swap e s k d a true lim = Ok (s', r) -> R s s') ->
  forall hops s a s' out, route_swap e s a hops = Ok (s', out) -> R s s'.
Proof.
  intros Hr Ht Hs. induction hops as [|h hops IH]; cbn [route_swap]; intros s a s' out H.
  - injection H as <- _. apply Hr.
  - apply bind_Ok in H as ([s1 r] & E & H). eauto.
Qed.

Lemma swap_route_inv e s a x sl hops s' out : swap_route e s a x sl hops = Ok (s', out) ->
  route_swap e s a hops = Ok (s', out).
Proof.
  unfold swap_route. intros H. apply bind_Ok in H as ([s1 o1] & E & H).
  apply bind_Ok in H as (m & _ & H). apply bind_Ok in H as (v & _ & H). injection H as -> ->. exact E.
Qed.

(** Invariants of histories. *)
Lemma history_invariant (P : state -> Prop) (G : state -> event -> Prop) :
  (forall admin fee, u128 fee -> P (init_state admin fee)) ->
  (forall s e o s', P s -> event_wf (Call e o) -> G s (Call e o) -> run_op e s o = Ok s' -> P s') ->
  (forall s B, P s -> (exists ev, event_wf ev /\ set_balances B s = exec_event s ev) -> P (set_balances B s)) ->
  (forall s m, P s -> P (set_awaiting m s)) ->
  forall evs s, history G evs s -> P s.
Proof.
  intros Hi Hc Hb Ha. induction 1 as [|evs s ev H IH Hw HG]; [auto|].
  destruct ev as [e o|u t a|u t a|m]; cbn [exec_event].
  - unfold exec_op. destruct (run_op e s o) eqn:E; eauto.
  - destruct (increase_token_balance s t u a) eqn:E; auto.
    pose proof E as E'. apply increase_spec in E as ((B & ->) & _). apply Hb; [auto|].
    exists (Credit u t a). split; [auto|]. cbn [exec_event]. rewrite E'. reflexivity.
  - destruct (decrease_token_balance s t u a) as [[s1 v]| | |] eqn:E; auto.
    pose proof E as E'. apply decrease_spec in E as ((B & ->) & _). apply Hb; [auto|].
    exists (Debit u t a). split; [auto|]. cbn [exec_event]. rewrite E'. reflexivity.
  - auto.
Qed.

(** Calls that leave the positions alone. *)
Definition keeps_positions (o : op) : bool :=
  match o with
  | OpCreatePosition _ _ _ _ _ _ | OpRemovePosition _ | OpTransferPosition _ _ | OpClaimFee _ => false
  | _ => true
  end.

Lemma swap_keeps_positions e s k d a b lim s' r : swap e s k d a b lim = Ok (s', r) -> same_pos s s'.
Proof. intros H. apply swap_inv in H as (B & _ & -> & _). split; reflexivity. Qed.

Lemma route_keeps_positions e hops s a s' out : route_swap e s a hops = Ok (s', out) -> same_pos s s'.
Proof.
  apply (route_swap_rel same_pos); [split; reflexivity| |].
  - intros s1 s2 s3 [H1 H2] [H3 H4]. split; congruence.
  - intros. eapply swap_keeps_positions; eauto.
Qed.

Lemma keeps_positions_spec e s o s' : keeps_positions o = true -> run_op e s o = Ok s' -> same_pos s s'.
Proof.
  intros Hk H. destruct o; try discriminate Hk; cbn [run_op] in H; apply drop_result_Ok in H as [r H].
  - apply change_protocol_fee_inv in H as (_ & ->). split; reflexivity.
  - apply add_fee_tier_inv in H as (_ & _ & _ & _ & _ & ->). split; reflexivity.
  - apply remove_fee_tier_inv in H as (_ & l & _ & ->). split; reflexivity.
  - apply create_pool_inv in H as (k & p & _ & _ & _ & _ & _ & _ & ->). split; reflexivity.
  - apply change_fee_receiver_inv in H as (_ & p & _ & ->). split; reflexivity.
  - eapply swap_keeps_positions; eauto.
  - apply swap_route_inv in H. eapply route_keeps_positions; eauto.
  - apply withdraw_protocol_fee_inv in H as (p & B & _ & _ & -> & _). split; reflexivity.
  - apply deposit_vara_inv in H as (_ & (B & ->) & _). split; reflexivity.
  - apply withdraw_vara_inv in H as ((B & ->) & _). split; reflexivity.
Qed.

(** What each call does to the position lists of owner [n]. *)
Lemma create_position_lists e s k lo up L sl su s' pos n l :
  positions_get_length s (e_caller e) < M32 - 1 ->
  create_position e s k lo up L sl su = Ok (s', pos) ->
  lists s n l -> lists s' n (if decide (n = e_caller e) then l ++ [pos] else l).
Proof.
  intros HB H. apply create_position_inv in H
    as (p & tl0 & al & tu0 & au & p' & tl & tu & x & y & b1 & _ & _ & _ & _ & _ & _ & _ & _ & H1 & H2 & _).
  apply lists_add; auto.
Qed.
Lemma remove_position_lists e s i s' xy n l :
  positions_get_length s (e_caller e) < M32 ->
  remove_position e s i = Ok (s', xy) ->
  lists s n l -> lists s' n (if decide (n = e_caller e) then swap_remove (Z.to_nat i) l else l).
Proof.
  intros HB H. destruct xy as [x y]. apply remove_position_inv in H
    as (pos & tl0 & tu0 & p & pos' & p' & tu & tl & dx & dy & rl & ru & b1 & T1 & lp & H).
  cbv zeta in H. destruct H as (H0 & _ & _ & _ & _ & _ & _ & _ & _ & _ & _ & _ & _ & H1 & H2 & H3 & _).
  apply lists_remove with (lp := lp); eauto.
Qed.
Lemma transfer_position_lists e s i rc s' r n l :
  positions_get_length s (e_caller e) < M32 -> positions_get_length s rc < M32 - 1 ->
  transfer_position e s i rc = Ok (s', r) ->
  exists pos, s_positions s !! (e_caller e, i) = Some pos /\
  (lists s n l -> (exists lc, lists s (e_caller e) lc) ->
   lists s' n (let l1 := if decide (n = e_caller e) then swap_remove (Z.to_nat i) l else l in
               if decide (n = rc) then l1 ++ [pos] else l1)).
Proof.
  intros HB HR H. apply transfer_position_inv in H as (pos & lp & s1 & H1 & H2 & -> & ->).
  exists pos. split; [auto|]. intros HL [lc HC].
  set (s1 := set_positions _ _ s).
  assert (G : forall n l, lists s n l -> lists s1 n (if decide (n = e_caller e) then swap_remove (Z.to_nat i) l else l)).
  { intros n0 l0 H0. apply lists_remove with (s := s) (lp := lp); eauto. }
  assert (HR1 : positions_get_length s1 rc < M32 - 1).
  { unfold positions_get_length, s1. cbn [set_positions s_positions_length].
    destruct (decide (rc = e_caller e)) as [->|Hn].
    - rewrite lookup_insert. cbn [from_option id]. unfold last_index.
      destruct HC as [E1 E2]. apply E2 in H1 as [_ H1]. apply lookup_lt_Some in H1.
      rewrite Z.mod_small by lia. lia.
    - rewrite lookup_insert_ne by congruence. exact HR. }
  cbv zeta. specialize (G n l HL).
  pose proof (lists_add s1 (positions_add s1 rc pos) rc pos _ n eq_refl eq_refl HR1 G) as G2.
  exact G2.
Qed.
Lemma claim_fee_lists e s i s' xy n l :
  claim_fee e s i = Ok (s', xy) ->
  exists pos pos', s_positions s !! (e_caller e, i) = Some pos /\
    pos_pool_key pos' = pos_pool_key pos /\ pos_liquidity pos' = pos_liquidity pos /\
    pos_lower pos' = pos_lower pos /\ pos_upper pos' = pos_upper pos /\
    pos_last_block_number pos' = pos_last_block_number pos /\
  (lists s n l -> lists s' n (if decide (n = e_caller e) then <[Z.to_nat i := pos']> l else l)).
Proof.
  intros H. destruct xy as [x y].
  apply claim_fee_inv in H as (pos & tl0 & tu0 & p & pos' & p' & tu & tl & dx & dy & B & H).
  cbv zeta in H. destruct H as (H1 & _ & _ & _ & H2 & _ & _ & _ & -> & _).
  apply position_modify_inv in H2 as (mx & fx & fy & _ & _ & _ & _ & _ & H2 & _).
  apply position_update_inv in H2 as (ox & oy & _ & _ & _ & _ & _ & _ & _ & ->).
  exists pos, (mkPosition (pos_pool_key pos) (pos_liquidity pos + 0) (pos_lower pos) (pos_upper pos) fx fy
                (pos_last_block_number pos) 0 0).
  split; [exact H1|]. split; [reflexivity|]. split; [cbn; lia|]. do 3 (split; [reflexivity|]).
  apply lists_update; eauto; reflexivity.
Qed.

Lemma dense_init admin fee : dense (init_state admin fee).
Proof.
  intros a. unfold positions_get_length. cbn [init_state s_positions_length s_positions].
  rewrite lookup_empty. cbn [from_option]. split; [unfold M32; lia|]. intros i. rewrite lookup_empty.
  split; [intros [? [=]]|lia].
Qed.

Lemma dense_ext s s' : same_pos s s' -> dense s -> dense s'.
Proof.
  intros [H1 H2] D a. unfold positions_get_length. rewrite H1, H2. apply D.
Qed.

Lemma dense_step (P : list position -> list position) s s' :
  dense s -> (forall n l, lists s n l -> exists l', lists s' n l' /\ Z.of_nat (length l') < M32) -> dense s'.
Proof.
  intros D H. apply lists_dense. intros a. destruct (dense_lists s a D) as (l & _ & HL). eauto.
Qed.

Lemma dense_op s e o s' : dense s -> (forall a, positions_get_length s a < M32 - 1) ->
  run_op e s o = Ok s' -> dense s'.
Proof.
  intros D R H. destruct (keeps_positions o) eqn:EK.
  { eapply dense_ext; [eapply keeps_positions_spec; eauto|auto]. }
  assert (LB : forall n l, lists s n l -> Z.of_nat (length l) < M32 - 1).
  { intros n l [HL _]. specialize (R n). lia. }
  apply (dense_step (fun l => l) s); auto. intros n l HL. pose proof (LB n l HL) as HB.
  destruct o; try discriminate EK; cbn [run_op] in H; apply drop_result_Ok in H as [r H].
  - eexists. split; [eapply create_position_lists; eauto|].
    destruct (decide _); [rewrite app_length; cbn [length]|]; lia.
  - eexists. split; [eapply remove_position_lists; eauto|].
    + specialize (R (e_caller e)). lia.
    + pose proof (swap_remove_le (Z.to_nat index) l). destruct (decide (n = e_caller e)) as [->|]; lia.
  - destruct (dense_lists s (e_caller e) D) as (lc & _ & HC).
    destruct (transfer_position_lists e s index receiver s' r n l) as (pos & _ & G); auto.
    { specialize (R (e_caller e)). lia. }
    eexists. split; [apply G; eauto|]. cbv zeta.
    assert (length (if decide (n = e_caller e) then swap_remove (Z.to_nat index) l else l) <= length l)%nat.
    { pose proof (swap_remove_le (Z.to_nat index) l). destruct (decide (n = e_caller e)) as [->|]; lia. }
    destruct (decide (n = receiver)); [rewrite app_length; cbn [length]|]; lia.
  - destruct (claim_fee_lists e s index s' r n l H) as (pos & pos' & _ & _ & _ & _ & _ & _ & G).
    eexists. split; [apply G; auto|]. destruct (decide _); rewrite ?insert_length; lia.
Qed.

Lemma dense_history (G : state -> event -> Prop) evs s :
  (forall s ev, G s ev -> room s ev) -> history G evs s -> dense s.
Proof.
  intros HG. apply history_invariant.
  - intros. apply dense_init.
  - intros s1 e o s' D _ Hg H. eapply dense_op; eauto. intros a. apply HG in Hg. specialize (Hg a).
    unfold get_user_position_amount in Hg. change M32 with (2 ^ 32). lia.
  - intros s1 B D _. eapply dense_ext; [|eauto]. split; reflexivity.
  - intros s1 m D. eapply dense_ext; [|eauto]. split; reflexivity.
Qed.

(** Every history of fewer than 2^32 - 1 events has room for its positions. *)
Lemma op_position_count s e o s' a : dense s -> (forall a, positions_get_length s a < M32 - 1) ->
  run_op e s o = Ok s' -> positions_get_length s' a <= positions_get_length s a + 1.
Proof.
  intros D R H. destruct (keeps_positions o) eqn:EK.
  { apply keeps_positions_spec in H as [_ H2]; auto. unfold positions_get_length. rewrite H2. lia. }
  destruct (dense_lists s a D) as (l & _ & HL). pose proof (R a) as HR.
  assert (G : exists l', lists s' a l' /\ (length l' <= length l + 1)%nat).
  { destruct o; try discriminate EK; cbn [run_op] in H; apply drop_result_Ok in H as [r H].
    - eexists. split; [eapply create_position_lists; eauto|].
      destruct (decide _); [rewrite app_length; cbn [length]|]; lia.
    - eexists. split; [eapply remove_position_lists; eauto|].
      + specialize (R (e_caller e)). lia.
      + pose proof (swap_remove_le (Z.to_nat index) l). destruct (decide (a = e_caller e)) as [->|]; lia.
    - destruct (dense_lists s (e_caller e) D) as (lc & _ & HC).
      destruct (transfer_position_lists e s index receiver s' r a l) as (pos & _ & G); auto.
      { specialize (R (e_caller e)). lia. }
      eexists. split; [apply G; eauto|]. cbv zeta.
      assert (length (if decide (a = e_caller e) then swap_remove (Z.to_nat index) l else l) <= length l)%nat.
      { pose proof (swap_remove_le (Z.to_nat index) l). destruct (decide (a = e_caller e)) as [->|]; lia. }
      destruct (decide (a = receiver)); [rewrite app_length; cbn [length]|]; lia.
    - destruct (claim_fee_lists e s index s' r a l H) as (pos & pos' & _ & _ & _ & _ & _ & _ & G).
      eexists. split; [apply G; auto|]. destruct (decide _); rewrite ?insert_length; lia. }
  destruct G as (l' & [G1 _] & G2). destruct HL as [HL _]. lia.
Qed.

Lemma history_room evs s : history anything evs s -> Z.of_nat (length evs) < 2 ^ 32 - 1 ->
  history room evs s /\ forall a, get_user_position_amount s a <= Z.of_nat (length evs).
Proof.
  unfold get_user_position_amount.
  induction 1 as [admin fee Hf|evs s ev H IH Hw _]; intros HN.
  - split; [constructor; auto|]. intros a. unfold positions_get_length.
    cbn [init_state s_positions_length]. rewrite lookup_empty. cbn. lia.
  - rewrite app_length in *. cbn [length] in *. destruct IH as [IH1 IH2]; [lia|].
    assert (R : room s ev).
    { intros a. unfold get_user_position_amount. specialize (IH2 a). lia. }
    split; [constructor; auto|]. intros a. specialize (IH2 a) as HA.
    assert (Hsame : forall s', same_pos s s' -> positions_get_length s' a = positions_get_length s a).
    { intros s' [_ E]. unfold positions_get_length. rewrite E. reflexivity. }
    destruct ev as [e o|u t x|u t x|m]; cbn [exec_event].
    + unfold exec_op. destruct (run_op e s o) as [s'| | |] eqn:E; try lia.
      assert (D : dense s) by (eapply (dense_history room); [|eauto]; auto).
      assert (R' : forall b, positions_get_length s b < M32 - 1) by (intros b; apply R).
      pose proof (op_position_count s e o s' a D R' E). lia.
    + destruct (increase_token_balance s t u x) as [s'| | |] eqn:E; try lia.
      apply increase_spec in E as ((B & ->) & _). rewrite Hsame; [lia|split; reflexivity].
    + destruct (decrease_token_balance s t u x) as [[s' v]| | |] eqn:E; try lia.
      apply decrease_spec in E as ((B & ->) & _). rewrite Hsame; [lia|split; reflexivity].
    + rewrite Hsame; [lia|split; reflexivity].
Qed.

(** Running a list of well-formed events is a history. *)
Definition run_events (admin fee : Z) (evs : list event) : state :=
  fold_left exec_event evs (init_state admin fee).

Lemma run_events_history admin fee evs : u128 fee -> Forall event_wf evs ->
  history anything evs (run_events admin fee evs).
Proof.
  intros Hf. unfold run_events. induction evs as [|ev evs IH] using rev_ind; intros H.
  - constructor. auto.
  - apply Forall_app in H as [H1 H2]. inversion H2; subst.
    rewrite fold_left_app. cbn [fold_left]. constructor; auto. exact I.
Qed.
