(** Lemmas about the state-level properties (C16-C21, C31, C35, C39). *)
From Verif Require Import Base Decimal SqrtPriceM LogM Types TickmapM StorageM CollectionsM StateM ServiceM
  SpecMath SpecHistory P_Clamm P_Balance P_Effects P_Positions P_History P_Loop.
From stdpp Require Import gmap list.
From Coq Require Import ZArith Lia Bool.
Open Scope Z_scope.

(** ** Fee tiers *)

Lemma fee_tiers_contains_spec l ft : fee_tiers_contains l ft = true <-> ft ∈ l.
Proof.
  unfold fee_tiers_contains. rewrite existsb_exists. split.
  - intros (u & Hu & E). apply bool_decide_eq_true in E as ->. apply elem_of_list_In. auto.
  - intros H. exists ft. split; [apply elem_of_list_In; auto|]. apply bool_decide_eq_true. reflexivity.
Qed.
Lemma fee_tiers_contains_false l ft : fee_tiers_contains l ft = false <-> ft ∉ l.
Proof. rewrite <- fee_tiers_contains_spec. destruct (fee_tiers_contains l ft); split; congruence. Qed.

Lemma remove_first_spec l ft l' : remove_first l ft = Some l' ->
  exists l1 l2, l = l1 ++ ft :: l2 /\ l' = l1 ++ l2 /\ ft ∉ l1.
Proof.
  revert l'. induction l as [|u l IH]; cbn [remove_first]; intros l' H; [discriminate|].
  destruct (bool_decide_reflect (u = ft)) as [->|Hn].
  - injection H as <-. exists [], l. split; [reflexivity|]. split; [reflexivity|]. apply not_elem_of_nil.
  - destruct (remove_first l ft) as [r|]; [|discriminate]. injection H as <-.
    destruct (IH r eq_refl) as (l1 & l2 & -> & -> & H). exists (u :: l1), l2.
    split; [reflexivity|]. split; [reflexivity|]. rewrite not_elem_of_cons. auto.
Qed.
Lemma remove_first_Some l ft : ft ∈ l -> exists l', remove_first l ft = Some l'.
Proof.
  induction l as [|u l IH]; cbn [remove_first]; intros H; [apply elem_of_nil in H as []|].
  destruct (bool_decide_reflect (u = ft)) as [->|Hn]; [eauto|].
  apply elem_of_cons in H as [->|H]; [congruence|]. destruct (IH H) as [r ->]. eauto.
Qed.

(** ** Parts of the state a call can change *)

(** Calls that change neither the configuration nor the list of pools. *)
Definition admin_or_pool (o : op) : bool :=
  match o with
  | OpChangeProtocolFee _ | OpAddFeeTier _ | OpRemoveFeeTier _ | OpCreatePool _ _ _ _ _ => true
  | _ => false
  end.

Lemma swap_cfg e s k d a b lim s' r : swap e s k d a b lim = Ok (s', r) -> same_cfg s s'.
Proof. intros H. apply swap_inv in H as (B & _ & -> & _). repeat split. Qed.
Lemma same_cfg_trans s1 s2 s3 : same_cfg s1 s2 -> same_cfg s2 s3 -> same_cfg s1 s3.
Proof. unfold same_cfg. intuition congruence. Qed.
Lemma route_cfg e hops s a s' out : route_swap e s a hops = Ok (s', out) -> same_cfg s s'.
Proof.
  apply (route_swap_rel same_cfg); [apply same_cfg_refl|apply same_cfg_trans|].
  intros. eapply swap_cfg; eauto.
Qed.
Lemma create_position_cfg e s k lo up L sl su s' pos :
  create_position e s k lo up L sl su = Ok (s', pos) -> same_cfg s s'.
Proof.
  intros H. apply create_position_inv in H
    as (p & tl0 & al & tu0 & au & p' & tl & tu & x & y & b1 & _ & _ & _ & _ & _ & _ & H & _). exact H.
Qed.
Lemma remove_position_cfg e s i s' xy : remove_position e s i = Ok (s', xy) -> same_cfg s s'.
Proof.
  intros H. destruct xy as [x y]. apply remove_position_inv in H
    as (pos & tl0 & tu0 & p & pos' & p' & tu & tl & dx & dy & rl & ru & b1 & T1 & lp & H).
  cbv zeta in H. destruct H as (_ & _ & _ & _ & _ & _ & _ & _ & _ & H & _). exact H.
Qed.
Lemma claim_fee_cfg e s i s' xy : claim_fee e s i = Ok (s', xy) -> same_cfg s s'.
Proof.
  intros H. destruct xy as [x y].
  apply claim_fee_inv in H as (pos & tl0 & tu0 & p & pos' & p' & tu & tl & dx & dy & B & H).
  cbv zeta in H. destruct H as (_ & _ & _ & _ & _ & _ & _ & _ & -> & _). repeat split.
Qed.
Lemma transfer_position_cfg e s i rc s' r : transfer_position e s i rc = Ok (s', r) -> same_cfg s s'.
Proof. intros H. apply transfer_position_inv in H as (pos & lp & s1 & _ & _ & -> & ->). repeat split. Qed.

Lemma run_op_cfg e s o s' : admin_or_pool o = false -> run_op e s o = Ok s' -> same_cfg s s'.
Proof.
  intros Hk H. destruct o; try discriminate Hk; cbn [run_op] in H; apply drop_result_Ok in H as [r H].
  - apply change_fee_receiver_inv in H as (_ & p & _ & ->). repeat split.
  - eapply create_position_cfg; eauto.
  - eapply remove_position_cfg; eauto.
  - eapply transfer_position_cfg; eauto.
  - eapply swap_cfg; eauto.
  - apply swap_route_inv in H. eapply route_cfg; eauto.
  - eapply claim_fee_cfg; eauto.
  - apply withdraw_protocol_fee_inv in H as (p & B & _ & _ & -> & _). repeat split.
  - apply deposit_vara_inv in H as (_ & (B & ->) & _). repeat split.
  - apply withdraw_vara_inv in H as ((B & ->) & _). repeat split.
Qed.

(** ** Pools *)

(** Every pool of [s] is still there in [s'], with the same fee receiver, and
    there are no others. *)
Definition pools_kept (s s' : state) : Prop :=
  forall k, match s_pools s !! k with
            | Some p => exists p', s_pools s' !! k = Some p' /\ pool_frame p p'
            | None => s_pools s' !! k = None
            end.

Lemma pools_kept_refl s : pools_kept s s.
Proof. intros k. destruct (s_pools s !! k) eqn:E; [|auto]. eexists. split; [eauto|]. apply pool_frame_refl. Qed.
Lemma pools_kept_trans s1 s2 s3 : pools_kept s1 s2 -> pools_kept s2 s3 -> pools_kept s1 s3.
Proof.
  intros H1 H2 k. specialize (H1 k). specialize (H2 k). destruct (s_pools s1 !! k).
  - destruct H1 as (p' & H1 & F1). rewrite H1 in H2. destruct H2 as (p'' & H2 & F2).
    exists p''. split; [auto|]. eapply pool_frame_trans; eauto.
  - rewrite H1 in H2. auto.
Qed.
Lemma pools_kept_same s s' : s_pools s' = s_pools s -> pools_kept s s'.
Proof. intros E k. rewrite E. apply pools_kept_refl. Qed.
Lemma pools_kept_insert s s' k p p' :
  s_pools s !! k = Some p -> s_pools s' = <[k := p']> (s_pools s) -> pool_frame p p' -> pools_kept s s'.
Proof.
  intros E E' F k0. rewrite E'. destruct (decide (k = k0)) as [<-|Hn].
  - rewrite E, lookup_insert. eauto.
  - rewrite lookup_insert_ne by auto. destruct (s_pools s !! k0) eqn:E0; [|auto].
    eexists. split; [eauto|]. apply pool_frame_refl.
Qed.

Lemma swap_pools_kept e s k d a b lim s' r : swap e s k d a b lim = Ok (s', r) -> pools_kept s s'.
Proof.
  intros H. apply swap_inv in H as (B & H & -> & _). apply calculate_swap_frame in H as (p & E & F).
  eapply pools_kept_insert; [exact E|reflexivity|exact F].
Qed.
Lemma route_pools_kept e hops s a s' out : route_swap e s a hops = Ok (s', out) -> pools_kept s s'.
Proof.
  apply (route_swap_rel pools_kept); [apply pools_kept_refl|apply pools_kept_trans|].
  intros. eapply swap_pools_kept; eauto.
Qed.

Lemma position_modify_frame pos p upper lower d add ts sp pos' p' upper' lower' xy :
  position_modify pos p upper lower d add ts sp = Ok (pos', p', upper', lower', xy) -> pool_frame p p'.
Proof.
  intros H. destruct xy as [x y]. apply position_modify_inv in H as (mx & fx & fy & _ & _ & _ & _ & _ & _ & u & _ & -> & _).
  split; reflexivity.
Qed.

Lemma create_position_pools_kept e s k lo up L sl su s' pos :
  create_position e s k lo up L sl su = Ok (s', pos) -> pools_kept s s'.
Proof.
  intros H. apply create_position_inv in H
    as (p & tl0 & al & tu0 & au & p' & tl & tu & x & y & b1 & _ & _ & H1 & _ & _ & H2 & _ & H3 & _).
  eapply pools_kept_insert; eauto. unfold position_create in H2.
  apply bind_Ok in H2 as (u & _ & H2). apply unwrap_inv in H2. eapply position_modify_frame; eauto.
Qed.
Lemma remove_position_pools_kept e s i s' xy : remove_position e s i = Ok (s', xy) -> pools_kept s s'.
Proof.
  intros H. destruct xy as [x y]. apply remove_position_inv in H
    as (pos & tl0 & tu0 & p & pos' & p' & tu & tl & dx & dy & rl & ru & b1 & T1 & lp & H).
  cbv zeta in H. destruct H as (_ & _ & _ & H1 & H2 & _ & _ & _ & _ & _ & H3 & _).
  eapply pools_kept_insert; eauto. eapply position_modify_frame; eauto.
Qed.
Lemma claim_fee_pools_kept e s i s' xy : claim_fee e s i = Ok (s', xy) -> pools_kept s s'.
Proof.
  intros H. destruct xy as [x y].
  apply claim_fee_inv in H as (pos & tl0 & tu0 & p & pos' & p' & tu & tl & dx & dy & B & H).
  cbv zeta in H. destruct H as (_ & _ & _ & H1 & H2 & _ & _ & _ & -> & _).
  eapply pools_kept_insert; [eauto|reflexivity|]. eapply position_modify_frame; eauto.
Qed.

Definition changes_pools (o : op) : bool :=
  match o with OpCreatePool _ _ _ _ _ | OpChangeFeeReceiver _ _ => true | _ => false end.

Lemma run_op_pools_kept e s o s' : changes_pools o = false -> run_op e s o = Ok s' -> pools_kept s s'.
Proof.
  intros Hk H. destruct o; try discriminate Hk; cbn [run_op] in H; apply drop_result_Ok in H as [r H].
  - apply change_protocol_fee_inv in H as (_ & ->). apply pools_kept_same; reflexivity.
  - apply add_fee_tier_inv in H as (_ & _ & _ & _ & _ & ->). apply pools_kept_same; reflexivity.
  - apply remove_fee_tier_inv in H as (_ & l & _ & ->). apply pools_kept_same; reflexivity.
  - eapply create_position_pools_kept; eauto.
  - eapply remove_position_pools_kept; eauto.
  - apply transfer_position_inv in H as (pos & lp & s1 & _ & _ & -> & ->). apply pools_kept_same; reflexivity.
  - eapply swap_pools_kept; eauto.
  - apply swap_route_inv in H. eapply route_pools_kept; eauto.
  - eapply claim_fee_pools_kept; eauto.
  - apply withdraw_protocol_fee_inv in H as (p & B & H1 & _ & -> & _).
    eapply pools_kept_insert; [eauto|reflexivity|]. split; reflexivity.
  - apply deposit_vara_inv in H as (_ & (B & ->) & _). apply pools_kept_same; reflexivity.
  - apply withdraw_vara_inv in H as ((B & ->) & _). apply pools_kept_same; reflexivity.
Qed.

Lemma pool_key_new_swap x y ft : pool_key_new y x ft = pool_key_new x y ft.
Proof.
  unfold pool_key_new. destruct (Z.eqb_spec x y), (Z.eqb_spec y x); try lia; [reflexivity|].
  destruct (Z.ltb_spec x y), (Z.ltb_spec y x); try lia; reflexivity.
Qed.
Lemma pool_key_new_inv x y ft k : pool_key_new x y ft = Ok k ->
  pk_token_x k < pk_token_y k /\ pk_fee_tier k = ft /\
  ((pk_token_x k = x /\ pk_token_y k = y) \/ (pk_token_x k = y /\ pk_token_y k = x)).
Proof.
  unfold pool_key_new. destruct (Z.eqb_spec x y); [discriminate|].
  destruct (Z.ltb_spec x y); intros [= <-]; cbn; (split; [lia|]); auto.
Qed.
Lemma pool_key_new_self k : pk_token_x k < pk_token_y k ->
  pool_key_new (pk_token_x k) (pk_token_y k) (pk_fee_tier k) = Ok k.
Proof.
  intros H. unfold pool_key_new. destruct (Z.eqb_spec (pk_token_x k) (pk_token_y k)); [lia|].
  destruct (Z.ltb_spec (pk_token_x k) (pk_token_y k)); [|lia]. destruct k; reflexivity.
Qed.

(** ** Balances of others *)

Definition others_kept (c : Z) (s s' : state) : Prop := forall u t, u <> c -> bal s' u t = bal s u t.
Lemma others_kept_refl c s : others_kept c s s.
Proof. intros u t _. reflexivity. Qed.
Lemma others_kept_trans c s1 s2 s3 : others_kept c s1 s2 -> others_kept c s2 s3 -> others_kept c s1 s3.
Proof. intros H1 H2 u t Hu. rewrite H2, H1; auto. Qed.
Lemma others_kept_same c s s' : s_balances s' = s_balances s -> others_kept c s s'.
Proof. intros E u t _. unfold bal. rewrite E. reflexivity. Qed.
Lemma at_other u t a u' t' : u' <> u -> at_ u t a u' t' = 0.
Proof. intros H. unfold at_. destruct (Z.eqb_spec u' u); [contradiction|]. reflexivity. Qed.
Lemma ledger_others c s s' x a y b : ledger s s' (both (at_ c x a) (at_ c y b)) -> others_kept c s s'.
Proof. intros H u t Hu. rewrite H. unfold both. rewrite !at_other by auto. lia. Qed.
Lemma ledger_others1 c s s' x a : ledger s s' (at_ c x a) -> others_kept c s s'.
Proof. intros H u t Hu. rewrite H. rewrite !at_other by auto. lia. Qed.

Lemma swap_others e s k d a b lim s' r : swap e s k d a b lim = Ok (s', r) -> others_kept (e_caller e) s s'.
Proof. intros H. apply swap_inv in H as (B & _ & _ & H & _). eapply ledger_others; eauto. Qed.
Lemma route_others e hops s a s' out : route_swap e s a hops = Ok (s', out) -> others_kept (e_caller e) s s'.
Proof.
  apply (route_swap_rel (others_kept (e_caller e))); [apply others_kept_refl|apply others_kept_trans|].
  intros. eapply swap_others; eauto.
Qed.

Lemma run_op_others e s o s' : run_op e s o = Ok s' -> others_kept (e_caller e) s s'.
Proof.
  intros H. destruct o; cbn [run_op] in H; apply drop_result_Ok in H as [r H].
  - apply change_protocol_fee_inv in H as (_ & ->). apply others_kept_same; reflexivity.
  - apply add_fee_tier_inv in H as (_ & _ & _ & _ & _ & ->). apply others_kept_same; reflexivity.
  - apply remove_fee_tier_inv in H as (_ & l & _ & ->). apply others_kept_same; reflexivity.
  - apply create_pool_inv in H as (k & p & _ & _ & _ & _ & _ & _ & ->). apply others_kept_same; reflexivity.
  - apply change_fee_receiver_inv in H as (_ & p & _ & ->). apply others_kept_same; reflexivity.
  - apply create_position_inv in H
      as (p & tl0 & al & tu0 & au & p' & tl & tu & x & y & b1 & H).
    destruct H as (_ & _ & _ & _ & _ & _ & _ & _ & _ & _ & _ & _ & _ & H & _). eapply ledger_others; eauto.
  - destruct r as [x y]. apply remove_position_inv in H
      as (pos & tl0 & tu0 & p & pos' & p' & tu & tl & dx & dy & rl & ru & b1 & T1 & lp & H).
    cbv zeta in H. destruct H as (_ & _ & _ & _ & _ & _ & _ & _ & _ & _ & _ & _ & _ & _ & _ & _ & H & _).
    eapply ledger_others; eauto.
  - apply transfer_position_inv in H as (pos & lp & s1 & _ & _ & -> & ->). apply others_kept_same; reflexivity.
  - eapply swap_others; eauto.
  - apply swap_route_inv in H. eapply route_others; eauto.
  - destruct r as [x y].
    apply claim_fee_inv in H as (pos & tl0 & tu0 & p & pos' & p' & tu & tl & dx & dy & B & H).
    cbv zeta in H. destruct H as (_ & _ & _ & _ & _ & _ & _ & _ & _ & H & _). eapply ledger_others; eauto.
  - apply withdraw_protocol_fee_inv in H as (p & B & _ & _ & _ & H & _). eapply ledger_others; eauto.
  - apply deposit_vara_inv in H as (_ & _ & H & _). eapply ledger_others1; eauto.
  - apply withdraw_vara_inv in H as (_ & H & _). eapply ledger_others1; eauto.
Qed.

(** The balance of a user as the query reports it: absent means zero. *)
Lemma bal_query s u t v : bal s u t = v <->
  (t, v) ∈ get_user_balances s u \/ (v = 0 /\ forall w, (t, w) ∉ get_user_balances s u).
Proof.
  unfold get_user_balances, bal, balm. setoid_rewrite elem_of_map_to_list.
  destruct (default ∅ (s_balances s !! u) !! t) as [w|] eqn:E; cbn [from_option id]; split.
  - intros ->. auto.
  - intros [H|[_ H]]; [congruence|]. exfalso. apply (H w). reflexivity.
  - intros <-. right. split; [reflexivity|]. congruence.
  - intros [H|[-> _]]; congruence.
Qed.

(** ** Pool keys *)

(** The stored pools are exactly the listed ones, [ks] in order of creation. *)
Definition listed (s : state) (ks : list pool_key) : Prop :=
  NoDup ks /\ s_pool_keys_length s = Z.of_nat (length ks) /\ Z.of_nat (length ks) < M16 /\
  (forall k, k ∈ ks <-> is_Some (s_pools s !! k)) /\
  (forall k, k ∈ ks <-> is_Some (s_pool_keys s !! k)) /\
  (forall i k, s_pool_keys_by_index s !! i = Some k <-> 0 <= i /\ ks !! Z.to_nat i = Some k).

Lemma listed_init admin fee : listed (init_state admin fee) [].
Proof.
  unfold listed. cbn [init_state s_pool_keys_by_index s_pools s_pool_keys s_pool_keys_length length].
  split; [constructor|]. split; [reflexivity|]. split; [reflexivity|].
  split; [|split]; intros; rewrite lookup_empty.
  - rewrite elem_of_nil. split; [intros []|intros [? [=]]].
  - rewrite elem_of_nil. split; [intros []|intros [? [=]]].
  - split; [intros [=]|]. intros [_ H]. rewrite lookup_nil in H. discriminate.
Qed.

Lemma listed_kept s s' ks : pools_kept s s' -> same_cfg s s' -> listed s ks -> listed s' ks.
Proof.
  intros HP (_ & _ & _ & E1 & E2 & E3 & _) (H1 & H2 & H3 & H4 & H5 & H6).
  unfold listed. rewrite E1, E2, E3. do 3 (split; [auto|]). split; [|auto].
  intros k. rewrite H4. specialize (HP k). destruct (s_pools s !! k) eqn:E.
  - destruct HP as (p' & -> & _). split; eauto.
  - rewrite HP. reflexivity.
Qed.

Lemma listed_same_cfg_but s s' ks :
  s_pools s' = s_pools s -> s_pool_keys s' = s_pool_keys s ->
  s_pool_keys_by_index s' = s_pool_keys_by_index s -> s_pool_keys_length s' = s_pool_keys_length s ->
  listed s ks -> listed s' ks.
Proof. intros E1 E2 E3 E4. unfold listed. rewrite E1, E2, E3, E4. auto. Qed.

Lemma listed_create e s x y ft ip it s' r ks :
  listed s ks -> Z.of_nat (length ks) < M16 - 1 -> create_pool e s x y ft ip it = Ok (s', r) ->
  exists k, pool_key_new x y ft = Ok k /\ listed s' (ks ++ [k]).
Proof.
  intros (H1 & H2 & H3 & H4 & H5 & H6) HB H.
  apply create_pool_inv in H as (k & p & _ & _ & Hk & Hp & Hpk & _ & ->).
  exists k. split; [auto|].
  assert (Hn : k ∉ ks). { rewrite H4, Hp. intros [? [=]]. }
  unfold listed. cbn [set_pool_keys set_pools s_pool_keys_length s_pools s_pool_keys s_pool_keys_by_index].
  rewrite app_length. cbn [length]. split.
  { apply NoDup_app. split; [auto|]. split; [|apply NoDup_singleton].
    intros z Hz Hz'. apply elem_of_list_singleton in Hz'. subst. contradiction. }
  split. { rewrite Z.mod_small by lia. lia. }
  split; [lia|]. split; [|split].
  - intros q. rewrite elem_of_app, elem_of_list_singleton, H4. destruct (decide (k = q)) as [<-|Hd].
    + rewrite lookup_insert. split; eauto.
    + rewrite lookup_insert_ne by auto. split; [intros [H|H]; [auto|congruence]|auto].
  - intros q. rewrite elem_of_app, elem_of_list_singleton, H5. destruct (decide (k = q)) as [<-|Hd].
    + rewrite lookup_insert. split; eauto.
    + rewrite lookup_insert_ne by auto. split; [intros [H|H]; [auto|congruence]|auto].
  - intros i q. destruct (decide (s_pool_keys_length s = i)) as [<-|Hd].
    + rewrite lookup_insert, H2, Nat2Z.id, lookup_app_r, Nat.sub_diag by lia. cbn.
      split; [intros [= ->]; split; [lia|auto]|intros [_ H]; exact H].
    + rewrite lookup_insert_ne by auto. rewrite H6. split; intros [Hi H]; (split; [auto|]).
      * apply lookup_app_l_Some. auto.
      * apply lookup_app_Some in H as [H|[Hl H]]; [auto|].
        apply list_lookup_singleton_Some in H as [H _]. lia.
Qed.

Lemma listed_get_pool_keys s ks size offset : listed s ks -> 0 <= size -> 0 <= offset -> offset + size < M16 ->
  get_pool_keys s size offset
  = Ok (take (Z.to_nat size) (drop (Z.to_nat offset) ks), Z.of_nat (length ks)).
Proof.
  intros (H1 & H2 & H3 & H4 & H5 & H6) Hs Ho Hso.
  unfold get_pool_keys, pool_keys_get_all. rewrite checked_add_ok by lia. cbn [expect bind].
  rewrite H2. set (mx := if _ <? _ then _ else _).
  assert (Hmx : mx = Z.min (Z.of_nat (length ks)) (offset + size)).
  { unfold mx. destruct (Z.ltb_spec (Z.of_nat (length ks)) (offset + size)); lia. }
  destruct (mapM_res_ok (fun i => expect (s_pool_keys_by_index s !! i)) (range offset mx)) as (l & El & Hl & Hlk).
  { intros i Hi. apply elem_of_list_In, elem_of_list_lookup in Hi as [j Hj].
    rewrite range_lookup in Hj. destruct (Z.ltb_spec (Z.of_nat j) (mx - offset)); [|discriminate].
    injection Hj as <-. destruct (lookup_lt_is_Some_2 ks (Z.to_nat (offset + Z.of_nat j))) as [k Hk]; [lia|].
    exists k. apply expect_Ok. apply H6. auto with lia. }
  rewrite El. cbn [bind]. f_equal. f_equal. apply list_eq. intros j. apply option_eq. intros k.
  rewrite Hlk. setoid_rewrite range_lookup.
  destruct (Z.ltb_spec (Z.of_nat j) (mx - offset)).
  - rewrite lookup_take by lia. rewrite lookup_drop.
    split.
    + intros (a & [= <-] & H'). apply expect_Ok in H'. apply H6 in H' as [_ H'].
      replace (Z.to_nat offset + j)%nat with (Z.to_nat (offset + Z.of_nat j)) by lia. auto.
    + intros H'. eexists. split; [reflexivity|]. apply expect_Ok. apply H6. split; [lia|].
      replace (Z.to_nat (offset + Z.of_nat j)) with (Z.to_nat offset + j)%nat by lia. auto.
  - split; [intros (a & [=] & _)|]. intros H'. exfalso.
    apply lookup_take_Some in H' as [H' Hj]. rewrite lookup_drop in H'. apply lookup_lt_Some in H'. lia.
Qed.
