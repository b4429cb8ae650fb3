(** C75: a position is worth as much to whoever it is transferred to.

    [involves], [happening], [owned_by], [by_others], [claims_paid], [sent_by] and
    [same_for_others] are defined in SpecSale.v; [answers] and [run] in SpecIndep.v. *)
From Verif Require Import Base Decimal SqrtPriceM LogM ClammM FeeGrowthM Types TickmapM StorageM
  CollectionsM StateM ServiceM SpecMath SpecState SpecHistory SpecIndep SpecOrder SpecSale
  P_Clamm P_Balance P_Effects P_Bals P_State P_Positions P_History P_Inv P_InvHist P_Indep P_Sale Prop_State Cases.
From stdpp Require Import gmap list.
From Coq Require Import ZArith Lia Bool.
Open Scope Z_scope.

(** A transfer concerns nobody but the giver and the receiver, and moves no tokens. *)
Theorem C75_nobody_else e s i v s' r : transfer_position e s i v = Ok (s', r) ->
  same_for_others (e_caller e) v s s' /\ forall w t, bal s' w t = bal s w t.
Proof.
  intros E. split; [eapply transfer_others; eauto|]. intros w t. unfold bal, balm. now rewrite (transfer_balances _ _ _ _ _ _ E).
Qed.

Local Lemma sale evs s e i v s' r : history room evs s -> (forall owner, get_user_position_amount s owner < 2 ^ 32 - 1) ->
  transfer_position e s i v = Ok (s', r) -> e_caller e <> v ->
  sold (e_caller e) i v (get_user_position_amount s v) s s' /\ holds_u256 s' v.
Proof.
  intros H R E N. assert (I : Inv s) by (eapply Inv_history; eauto).
  assert (B : bals_ok s) by (eapply bals_history; [|exact H]; auto).
  split.
  - pose proof E as E'. apply transfer_position_inv in E' as (pos & lp & s1 & P & _ & E1 & E2).
    pose proof (I_dense _ I) as D. destruct (D (e_caller e)) as [_ Du]. destruct (D v) as [Dv _].
    assert (LV : positions_get_length s1 v = get_user_position_amount s v).
    { subst s1. unfold get_user_position_amount, positions_get_length. cbn [set_positions s_positions_length].
      now rewrite lookup_insert_ne by exact N. }
    pose proof (R v) as Rv. unfold get_user_position_amount in *.
    constructor.
    + eapply transfer_others; eauto.
    + exists pos. split; [exact P|]. split.
      * subst s'. unfold positions_add. rewrite LV. cbn [set_positions s_positions]. apply lookup_insert.
      * destruct (so_pool _ _ (I_pos _ I _ _ _ P)) as [p Hp]. pose proof (po_tokens _ _ (I_pool _ I _ _ Hp)). lia.
    + apply Du. eauto.
    + subst s'. unfold positions_get_length at 1, positions_add. cbn [set_positions s_positions_length].
      rewrite lookup_insert, LV. cbn [from_option id]. change M32 with (2 ^ 32). rewrite Z.mod_small by lia. lia.
  - intros t. unfold bal, balm. rewrite (transfer_balances _ _ _ _ _ _ E). apply (u256_M _ (B v t)).
Qed.

(** Somebody transfers a position.  Whatever others do afterwards and whenever the
    owner claims fees: compared with the course of events without the transfer, all
    answers are the same (the new owner is paid what the old one would have been
    paid), everything but these two users' belongings is the same, and so is the
    position. *)
Theorem C75_same_worth evs s e i v s' r story :
  history room evs s -> (forall owner, get_user_position_amount s owner < 2 ^ 32 - 1) ->
  transfer_position e s i v = Ok (s', r) -> e_caller e <> v ->
  let u := e_caller e in
  let j := get_user_position_amount s v in
  let kept := map (owned_by u i) story in
  let sold := map (owned_by v j) story in
  Forall (by_others u v) story ->
  Forall2 claims_paid story (answers s kept) -> Forall2 claims_paid story (answers s' sold) ->
  answers s' sold = answers s kept /\
  same_for_others u v (run s kept) (run s' sold) /\
  get_position_with_associates (run s' sold) v j = get_position_with_associates (run s kept) u i /\
  exists pos, get_position (run s' sold) v j = Ok pos.
Proof.
  intros H R E N u j kept sld F C C'. destruct (sale evs s e i v s' r H R E N) as [M B]. fold u in M. fold j in M.
  destruct (sold_story u i v j story N F s s' M B C C') as (EA & M' & _). split; [now symmetry|]. fold kept in M'. fold sld in M'.
  destruct M' as [O (pos & P1 & P2 & _) _ _]. split; [exact O|]. split.
  - unfold get_position_with_associates, positions_get. rewrite P1, P2. cbn [ok_or bind].
    assert (HE : eqon [PoolPart (pos_pool_key pos)] (run s kept) (run s' sld)).
    { eapply same_for_others_eqon; [exact O|]. intros c. rewrite elem_of_list_singleton. intros ->. split; discriminate. }
    rewrite (pools_get_same _ _ _ HE) by left. rewrite !(ticks_get_same _ _ _ HE) by left. reflexivity.
  - exists pos. unfold get_position, positions_get. now rewrite P2.
Qed.

(** And closing it in the end pays the new owner exactly what closing it would have
    paid the old one, provided the new owner's balances can hold the amounts. *)
Theorem C75_same_closing evs s e i v s' r story close t x y pos :
  history room evs s -> (forall owner, get_user_position_amount s owner < 2 ^ 32 - 1) ->
  transfer_position e s i v = Ok (s', r) -> e_caller e <> v ->
  let u := e_caller e in
  let j := get_user_position_amount s v in
  let kept := map (owned_by u i) story in
  let sold := map (owned_by v j) story in
  Forall (by_others u v) story ->
  Forall2 claims_paid story (answers s kept) -> Forall2 claims_paid story (answers s' sold) ->
  remove_position (sent_by u close) (run s kept) i = Ok (t, (x, y)) ->
  get_position (run s' sold) v j = Ok pos ->
  bal (run s' sold) v (pk_token_x (pos_pool_key pos)) + x < 2 ^ 256 ->
  bal (run s' sold) v (pk_token_y (pos_pool_key pos)) + y < 2 ^ 256 ->
  exists t', remove_position (sent_by v close) (run s' sold) j = Ok (t', (x, y)) /\ same_for_others u v t t'.
Proof.
  intros H R E N u j kept sld F C C' ER EP B1 B2. destruct (sale evs s e i v s' r H R E N) as [M B]. fold u in M. fold j in M.
  destruct (sold_story u i v j story N F s s' M B C C') as (EA & M' & _). fold kept in M'. fold sld in M'.
  apply (sold_close u i v j _ _ close t x y M' N ER). intros q Hq. destruct M' as [_ (pos' & P1 & P2 & _) _ _].
  unfold get_position in EP. apply positions_get_Ok in EP. assert (q = pos) by congruence. subst q. split; assumption.
Qed.

(** Nobody else ever notices: as long as neither of the two acts or is acted upon,
    everything is answered as if there had been no transfer. *)
Theorem C75_never_noticed u v s s' later : same_for_others u v s s' ->
  Forall (fun ev => ~ involves u ev /\ ~ involves v ev) later ->
  answers s later = answers s' later /\ same_for_others u v (run s later) (run s' later).
Proof.
  intros H F. revert s s' H. induction F as [|ev later [Nu Nv] _ IH]; intros s s' H; cbn [answers run]; [auto|].
  destruct (other_event u v s s' ev H Nu Nv) as [E H']. destruct (IH _ _ H') as [E1 H1]. rewrite E, E1. auto.
Qed.

(** Giving a position back restores everybody's positions, but for the order of the
    original owner's list. *)
Theorem C75_giving_back evs s e i v s1 r e' s2 r' :
  history room evs s -> (forall owner, get_user_position_amount s owner < 2 ^ 32 - 2) ->
  event_wf (Call e (OpTransferPosition i v)) ->
  transfer_position e s i v = Ok (s1, r) -> e_caller e <> v -> e_caller e' = v ->
  transfer_position e' s1 (get_user_position_amount s v) (e_caller e) = Ok (s2, r') ->
  (forall w t, bal s2 w t = bal s w t) /\
  (forall owner, owner <> e_caller e -> get_all_positions s2 owner = get_all_positions s owner) /\
  exists l l', get_all_positions s (e_caller e) = Ok l /\ get_all_positions s2 (e_caller e) = Ok l' /\ Permutation l l'.
Proof.
  intros H R W E N EC E'. subst v.
  assert (R0 : forall owner, get_user_position_amount s owner < 2 ^ 32 - 1) by (intros w; specialize (R w); lia).
  assert (X : exec_event s (Call e (OpTransferPosition i (e_caller e'))) = s1).
  { cbn [exec_event]. unfold exec_op, run_op. rewrite E. reflexivity. }
  assert (H1 : history room (evs ++ [Call e (OpTransferPosition i (e_caller e'))]) s1).
  { rewrite <- X. constructor; auto. }
  pose proof (room_dense _ _ H) as D. pose proof (room_dense _ _ H1) as D1.
  destruct (C16_transfer evs s e i (e_caller e') s1 r H R0 E) as (pos & P & L1).
  assert (LEN : forall owner l, get_all_positions s owner = Ok l -> get_user_position_amount s owner = Z.of_nat (length l)).
  { intros owner l G. apply lists_get_all in G; [|exact D]. apply G. }
  assert (LEN1 : forall owner l, get_all_positions s1 owner = Ok l -> get_user_position_amount s1 owner = Z.of_nat (length l)).
  { intros owner l G. apply lists_get_all in G; [|exact D1]. apply G. }
  assert (ALL : forall owner, exists l, get_all_positions s owner = Ok l).
  { intros owner. destruct (dense_lists s owner D) as (l & _ & G). exists l. now apply lists_get_all. }
  destruct (ALL (e_caller e)) as [lu Gu]. destruct (ALL (e_caller e')) as [lv Gv].
  assert (Pi : lu !! Z.to_nat i = Some pos).
  { apply lists_get_all in Gu; [|exact D]. unfold get_position in P. apply positions_get_Ok in P. apply Gu in P. apply P. }
  assert (R1 : forall owner, get_user_position_amount s1 owner < 2 ^ 32 - 1).
  { intros w. destruct (ALL w) as [lw GW]. pose proof (L1 w lw GW) as G1. apply LEN1 in G1. pose proof (LEN _ _ GW) as Gw. specialize (R w). rewrite G1. rewrite Gw in R.
    cbv zeta. destruct (decide (w = e_caller e)); destruct (decide (w = e_caller e')); rewrite ?app_length; cbn [length]; try lia.
    - assert (length (swap_remove (Z.to_nat i) lw) <= length lw)%nat.
      { subst w. assert (lw = lu) as -> by (rewrite Gu in GW; now injection GW). rewrite swap_remove_length; [lia|]. eapply lookup_lt_Some; eauto. } lia. }
  destruct (C16_transfer _ s1 e' (get_user_position_amount s (e_caller e')) (e_caller e) s2 r' H1 R1 E') as (pos' & P' & L2).
  assert (Gv1 : get_all_positions s1 (e_caller e') = Ok (lv ++ [pos])).
  { rewrite (L1 _ _ Gv). cbv zeta. destruct (decide (e_caller e' = e_caller e)); [congruence|]. now destruct (decide (e_caller e' = e_caller e')). }
  assert (Gu1 : get_all_positions s1 (e_caller e) = Ok (swap_remove (Z.to_nat i) lu)).
  { rewrite (L1 _ _ Gu). cbv zeta. destruct (decide (e_caller e = e_caller e')); [congruence|]. now destruct (decide (e_caller e = e_caller e)). }
  rewrite (LEN _ _ Gv) in *.
  assert (pos' = pos).
  { unfold get_position in P'. apply positions_get_Ok in P'. apply lists_get_all in Gv1; [|exact D1]. apply Gv1 in P' as [_ P'].
    rewrite Nat2Z.id, lookup_app_r, Nat.sub_diag in P' by lia. cbn in P'. congruence. }
  subst pos'. split; [|split].
  - intros w t. rewrite (proj2 (C75_nobody_else _ _ _ _ _ _ E')). apply (C75_nobody_else _ _ _ _ _ _ E).
  - intros w Hw. destruct (decide (w = e_caller e')) as [->|Hv].
    + rewrite (L2 _ _ Gv1), Gv. cbv zeta. destruct (decide (e_caller e' = e_caller e)); [congruence|].
      destruct (decide (e_caller e' = e_caller e')); [|congruence]. f_equal. rewrite Nat2Z.id. unfold swap_remove.
      rewrite last_snoc, app_length. cbn [length]. destruct (decide _); [|lia]. apply take_app.
    + destruct (ALL w) as [lw Gw]. pose proof (L1 _ _ Gw) as G1. cbv zeta in G1.
      destruct (decide (w = e_caller e)); [congruence|]. destruct (decide (w = e_caller e')); [congruence|].
      rewrite (L2 _ _ G1), Gw. cbv zeta. destruct (decide (w = e_caller e')); [congruence|]. destruct (decide (w = e_caller e)); [congruence|reflexivity].
  - exists lu, (swap_remove (Z.to_nat i) lu ++ [pos]). split; [exact Gu|]. split.
    + rewrite (L2 _ _ Gu1). cbv zeta. destruct (decide (e_caller e = e_caller e')); [congruence|]. now destruct (decide (e_caller e = e_caller e)).
    + rewrite <- Permutation_cons_append. symmetry. now apply swap_remove_perm.
Qed.

Local Lemma Ok_inj {A} (a b : A) : Ok a = Ok b -> a = b.
Proof. intros H. now injection H. Qed.

(** Transferring a position to oneself is not without effect: the list is renumbered. *)
Theorem C75_to_oneself_refuted :
  exists evs s e i s' r, history room evs s /\ transfer_position e s i (e_caller e) = Ok (s', r) /\
    get_position s' (e_caller e) i <> get_position s (e_caller e) i /\
    get_user_position_amount s' (e_caller e) = get_user_position_amount s (e_caller e).
Proof.
  destruct (transfer_position (by_ alice) s_traded 0 alice) as [[s' r]| | |] eqn:E.
  2-4: apply (f_equal is_Ok) in E; vm_compute in E; discriminate E.
  exists evs_traded, s_traded, (by_ alice), 0, s', r. split; [exact s_traded_room|]. split; [exact E|].
  split.
  - intros X. assert (X1 : (let* (t, _) := transfer_position (by_ alice) s_traded 0 alice in let* q := get_position t alice 0 in Ok (pos_liquidity q))
      = (let* q := get_position s_traded alice 0 in Ok (pos_liquidity q))) by (rewrite E; cbn [bind]; change alice with (e_caller (by_ alice)) at 1; now rewrite X).
    vm_compute in X1. discriminate X1.
  - assert (X1 : (let* (t, _) := transfer_position (by_ alice) s_traded 0 alice in Ok (get_user_position_amount t alice))
      = Ok (get_user_position_amount s_traded alice)) by (vm_compute; reflexivity).
    rewrite E in X1. cbn [bind] in X1. exact (Ok_inj _ _ X1).
Qed.

(** Alice gives a position to Bob; Carol trades, the owner claims, Carol trades again,
    the owner claims again and closes. *)
Definition c75_sold : state := match transfer_position (by_ alice) s_traded 1 bob with Ok (t, _) => t | _ => s_traded end.
Definition c75_story : list happening := [
  Others (Call (by_ carol) (OpSwap pool1 false 5000 true any_price));
  OwnerClaims (by_ alice);
  Others (Call (by_ carol) (OpSwap pool1 true 4000 true 15258932000000000000));
  OwnerClaims (by_ alice) ].
Definition paid_at (a : res reply) : Z := match a with Ok (RAmounts x y) => x + y | _ => 0 end.
Example C75_case :
  history room evs_traded s_traded /\
  (forall owner, get_user_position_amount s_traded owner < 2 ^ 32 - 2) /\
  transfer_position (by_ alice) s_traded 1 bob = Ok (c75_sold, tt) /\ alice <> bob /\
  get_user_position_amount s_traded bob = 1 /\
  Forall (by_others alice bob) c75_story /\
  Forall2 claims_paid c75_story (answers s_traded (map (owned_by alice 1) c75_story)) /\
  Forall2 claims_paid c75_story (answers c75_sold (map (owned_by bob 1) c75_story)) /\
  0 < paid_at (nth 1 (answers s_traded (map (owned_by alice 1) c75_story)) (Ok RUnit)) /\
  0 < paid_at (nth 3 (answers s_traded (map (owned_by alice 1) c75_story)) (Ok RUnit)) /\
  is_Ok (remove_position (by_ alice) (run s_traded (map (owned_by alice 1) c75_story)) 1) = true /\
  is_Ok (transfer_position (by_ bob) c75_sold 1 alice) = true.
Proof.
  split; [exact s_traded_room|]. split.
  { intros w. destruct (history_room _ _ s_traded_history eq_refl) as [_ HA]. specialize (HA w).
    change (Z.of_nat (length evs_traded)) with 14 in HA. lia. }
  split.
  { unfold c75_sold. destruct (transfer_position (by_ alice) s_traded 1 bob) as [[t []]| | |] eqn:E; [reflexivity|..];
      apply (f_equal is_Ok) in E; vm_compute in E; discriminate E. }
  split; [discriminate|]. split; [vm_compute; reflexivity|]. split.
  { repeat (apply Forall_cons; split; [cbn; auto|]); [..|constructor]; split; discriminate. }
  assert (P : forall s u i, forallb is_Ok (answers s (map (owned_by u i) c75_story)) = true -> Forall2 claims_paid c75_story (answers s (map (owned_by u i) c75_story))).
  { intros s u i H. unfold c75_story in *. cbn [map answers] in *. cbn [forallb] in H.
    repeat (apply andb_prop in H as [? H]). 
    repeat (apply Forall2_cons; split; [cbn [claims_paid]; auto; match goal with |- went_through ?a => destruct a eqn:?; try discriminate; eexists; reflexivity end|]). constructor. }
  split; [apply P; vm_compute; reflexivity|]. split; [apply P; vm_compute; reflexivity|].
  split; [vm_compute; reflexivity|]. split; [vm_compute; reflexivity|]. split; [vm_compute; reflexivity|]. vm_compute; reflexivity.
Qed.

(** ** Assumptions *)
Print Assumptions C75_nobody_else.
Print Assumptions C75_same_worth.
Print Assumptions C75_same_closing.
Print Assumptions C75_never_noticed.
Print Assumptions C75_giving_back.
Print Assumptions C75_to_oneself_refuted.
