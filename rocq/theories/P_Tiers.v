(** The offer of fee tiers matters only to the opening of pools (C81). *)
From Verif Require Import Base Decimal SqrtPriceM LogM ClammM FeeGrowthM Types TickmapM StorageM
  CollectionsM StateM ServiceM SpecHistory SpecIndep SpecTiers P_Loop P_Effects P_Timeless.
From stdpp Require Import gmap list.
From Coq Require Import ZArith Lia Bool.
Open Scope Z_scope.

Definition off (l : list fee_tier) (s s' : state) : Prop := s' = set_fee_tiers l s.
Definition offp {A} (l : list fee_tier) (a b : state * A) : Prop := off l (fst a) (fst b) /\ snd a = snd b.

Lemma same_but_off s s' : same_but_tiers s s' <-> off (s_fee_tiers s') s s'.
Proof.
  unfold off. split.
  - intros [? ? ? ? ? ? ? ? ? ? ? ?]. destruct s, s'; cbn in *; subst; reflexivity.
  - intros ->. split; reflexivity.
Qed.

Section T.
  Context (l : list fee_tier).
  Notation T := (set_fee_tiers l).

  Lemma calculate_swap_off s ts k d a b lim : calculate_swap (T s) ts k d a b lim = calculate_swap s ts k d a b lim.
  Proof. unfold calculate_swap, swap_iteration, pools_get, ticks_get. cbn [set_fee_tiers s_pools s_bitmap s_ticks s_protocol_fee]. reflexivity. Qed.
  Lemma pools_update_off s k p : rsim (off l) (pools_update s k p) (pools_update (T s) k p).
  Proof. unfold pools_update, pools_get. cbn [set_fee_tiers s_pools]. apply rsim_same. intros _ _. reflexivity. Qed.
  Lemma ticks_update_off s k i t : rsim (off l) (ticks_update s k i t) (ticks_update (T s) k i t).
  Proof. unfold ticks_update, ticks_get. cbn [set_fee_tiers s_ticks]. apply rsim_same. intros _ _. reflexivity. Qed.
  Lemma put_off k ts : forall s,
    rsim (off l) (foldM_res (fun s t => ticks_update s k (t_index t) t) ts s) (foldM_res (fun s t => ticks_update s k (t_index t) t) ts (T s)).
  Proof.
    induction ts as [|t ts IH]; intros s; cbn [foldM_res]; [reflexivity|].
    eapply rsim_bind; [apply ticks_update_off|]. intros a b ->. apply IH.
  Qed.
  Lemma increase_off s t u a : rsim (off l) (increase_token_balance s t u a) (increase_token_balance (T s) t u a).
  Proof.
    unfold increase_token_balance. destruct (a =? 0); [reflexivity|]. cbv zeta. cbn [set_fee_tiers s_balances].
    apply rsim_same. intros b _. reflexivity.
  Qed.
  Lemma decrease_off s t u a : rsim (offp l) (decrease_token_balance s t u a) (decrease_token_balance (T s) t u a).
  Proof.
    unfold decrease_token_balance. destruct (bool_decide (a = Some 0)); [split; reflexivity|]. cbn [set_fee_tiers s_balances].
    apply rsim_same. intros toks _. apply rsim_same. intros b _.
    destruct a as [a|]; [destruct (negb (a =? b)); [apply rsim_same; intros; split; reflexivity|]|]; cbv zeta;
      (destruct (bool_decide (delete t toks = ∅)); split; reflexivity).
  Qed.
  Lemma swap_off e s k d a b lim : rsim (offp l) (swap e s k d a b lim) (swap e (T s) k d a b lim).
  Proof.
    unfold swap. cbv zeta. rewrite calculate_swap_off. apply rsim_same. intros r _.
    eapply rsim_bind; [apply put_off|]. clear s. intros s ? ->.
    eapply rsim_bind; [apply pools_update_off|]. clear s. intros s ? ->.
    destruct d; (eapply rsim_bind; [apply decrease_off|]); clear s; intros [s z] [s' z'] [H _]; red in H; cbn [fst snd] in H; subst s';
      (eapply rsim_bind; [apply increase_off|]); clear; intros s ? ->; split; reflexivity.
  Qed.
  Lemma route_off e hops : forall s a, rsim (offp l) (route_swap e s a hops) (route_swap e (T s) a hops).
  Proof.
    induction hops as [|h hops IH]; intros s a; cbn [route_swap]; [split; reflexivity|].
    eapply rsim_bind; [apply swap_off|]. clear s. intros [s r] [s' r'] [H K]. red in H. cbn [fst snd] in H, K. subst. apply IH.
  Qed.
  Lemma route_quote_off e s hops : forall a, route_quote e (T s) a hops = route_quote e s a hops.
  Proof.
    induction hops as [|h hops IH]; intros a; cbn [route_quote]; [reflexivity|]. rewrite calculate_swap_off.
    destruct (calculate_swap s _ _ _ _ _ _); cbn [bind]; auto.
  Qed.
  Lemma swap_route_off e s a x sl hops : rsim (offp l) (swap_route e s a x sl hops) (swap_route e (T s) a x sl hops).
  Proof.
    unfold swap_route. eapply rsim_bind; [apply route_off|]. clear s. intros [s z] [s' z'] [H K]. red in H. cbn [fst snd] in H, K. subst.
    apply rsim_same. intros m _. apply rsim_same. intros _ _. split; reflexivity.
  Qed.
  Lemma add_tick_off s k t : rsim (off l) (add_tick s k t) (add_tick (T s) k t).
  Proof.
    unfold add_tick, ticks_add. cbn [set_fee_tiers s_ticks]. destruct (s_ticks s !! _); [reflexivity|]. cbn [bind set_ticks s_bitmap].
    apply rsim_same. intros b _. reflexivity.
  Qed.
  Lemma remove_tick_off s k t : rsim (off l) (remove_tick s k t) (remove_tick (T s) k t).
  Proof.
    unfold remove_tick, ticks_remove, ticks_get. cbn [set_fee_tiers s_bitmap]. apply rsim_same. intros _ _. apply rsim_same. intros b _.
    cbn [set_bitmap s_ticks]. apply rsim_same. intros _ _. reflexivity.
  Qed.
  Lemma positions_remove_off s u i : rsim (offp l) (positions_remove s u i) (positions_remove (T s) u i).
  Proof.
    unfold positions_remove, positions_get, positions_get_length. cbv zeta. cbn [set_fee_tiers s_positions s_positions_length].
    apply rsim_same. intros p _. apply rsim_same. intros m _. split; reflexivity.
  Qed.
  Lemma create_position_off e s k lo up li sl su : rsim (offp l) (create_position e s k lo up li sl su) (create_position e (T s) k lo up li sl su).
  Proof.
    unfold create_position, get_or_create_tick, create_tick. cbv zeta.
    change (pools_get (T s) k) with (pools_get s k). cbn [set_fee_tiers s_ticks].
    do 3 (apply rsim_same; intros ? _). apply rsim_same. intros [t1 b1] _. apply rsim_same. intros [t2 b2] _. apply rsim_same. intros [[[[po p1] u1] l1] [x y]] _.
    eapply rsim_bind; [apply decrease_off|]. clear. intros [s ?] [? ?] [H _]. red in H. cbn [fst snd] in H. subst.
    eapply rsim_bind; [apply decrease_off|]. clear. intros [s ?] [? ?] [H _]. red in H. cbn [fst snd] in H. subst.
    eapply rsim_bind; [apply pools_update_off|]. clear. intros s ? ->.
    change (positions_add (T s) (e_caller e) po) with (T (positions_add s (e_caller e) po)). generalize (positions_add s (e_caller e) po). clear s. intros s.
    eapply rsim_bind; [destruct b1; [apply add_tick_off|apply ticks_update_off]|]. clear s. intros s ? ->.
    eapply rsim_bind; [destruct b2; [apply add_tick_off|apply ticks_update_off]|]. clear s. intros s ? ->. split; reflexivity.
  Qed.
  Lemma remove_position_off e s i : rsim (offp l) (remove_position e s i) (remove_position e (T s) i).
  Proof.
    unfold remove_position. cbv zeta. change (positions_get (T s) (e_caller e) i) with (positions_get s (e_caller e) i).
    apply rsim_same. intros pos _. change (ticks_get (T s)) with (ticks_get s). change (pools_get (T s)) with (pools_get s).
    do 3 (apply rsim_same; intros ? _). apply rsim_same. intros [[[[[[po p1] u1] l1] [x y]] rl] ru] _.
    eapply rsim_bind; [apply pools_update_off|]. clear s. intros s ? ->.
    eapply rsim_bind; [destruct rl; [apply remove_tick_off|apply ticks_update_off]|]. clear s. intros s ? ->.
    eapply rsim_bind; [destruct ru; [apply remove_tick_off|apply ticks_update_off]|]. clear s. intros s ? ->.
    eapply rsim_bind; [apply positions_remove_off|]. clear s. intros [s ?] [? ?] [H _]. red in H. cbn [fst snd] in H. subst.
    eapply rsim_bind; [apply increase_off|]. clear s. intros s ? ->.
    eapply rsim_bind; [apply increase_off|]. clear s. intros s ? ->. split; reflexivity.
  Qed.
  Lemma claim_fee_off e s i : rsim (offp l) (claim_fee e s i) (claim_fee e (T s) i).
  Proof.
    unfold claim_fee. cbv zeta. change (positions_get (T s) (e_caller e) i) with (positions_get s (e_caller e) i).
    apply rsim_same. intros pos _. change (ticks_get (T s)) with (ticks_get s). change (pools_get (T s)) with (pools_get s).
    do 3 (apply rsim_same; intros ? _). apply rsim_same. intros [[[[po p1] u1] l1] [x y]] _.
    unfold positions_update. change (positions_get_length (T s)) with (positions_get_length s).
    apply (rsim_bind (off l)); [apply rsim_same; intros; reflexivity|]. clear s. intros s ? ->.
    eapply rsim_bind; [apply pools_update_off|]. clear s. intros s ? ->.
    eapply rsim_bind; [apply ticks_update_off|]. clear s. intros s ? ->.
    eapply rsim_bind; [apply ticks_update_off|]. clear s. intros s ? ->.
    eapply rsim_bind; [apply increase_off|]. clear s. intros s ? ->.
    eapply rsim_bind; [apply increase_off|]. clear s. intros s ? ->. split; reflexivity.
  Qed.
  Lemma withdraw_protocol_fee_off e s k : rsim (offp l) (withdraw_protocol_fee e s k) (withdraw_protocol_fee e (T s) k).
  Proof.
    unfold withdraw_protocol_fee. cbv zeta. change (pools_get (T s)) with (pools_get s). do 2 (apply rsim_same; intros ? _).
    destruct (pool_withdraw_protocol_fee _) as [p [x y]].
    eapply rsim_bind; [apply pools_update_off|]. clear s. intros s ? ->.
    eapply rsim_bind; [apply increase_off|]. clear s. intros s ? ->.
    eapply rsim_bind; [apply increase_off|]. clear s. intros s ? ->. split; reflexivity.
  Qed.
  Lemma contains_elem (m : list fee_tier) ft : fee_tiers_contains m ft = true <-> ft ∈ m.
  Proof.
    unfold fee_tiers_contains. rewrite existsb_exists, elem_of_list_In. split.
    - intros (u & H & E). apply bool_decide_eq_true in E. now subst.
    - intros H. exists ft. split; [exact H|]. now apply bool_decide_eq_true.
  Qed.
  Lemma create_pool_off e s x y ft p t : (ft ∈ s_fee_tiers s <-> ft ∈ l) ->
    rsim (offp l) (create_pool e s x y ft p t) (create_pool e (T s) x y ft p t).
  Proof.
    intros H. unfold create_pool. cbn [set_fee_tiers s_fee_tiers s_admin].
    assert (E : fee_tiers_contains l ft = fee_tiers_contains (s_fee_tiers s) ft).
    { apply eq_true_iff_eq. rewrite !contains_elem. tauto. }
    rewrite E. do 3 (apply rsim_same; intros ? _). change (pools_get (T s)) with (pools_get s). do 2 (apply rsim_same; intros ? _).
    apply (rsim_bind (off l)).
    - unfold pools_add. cbn [set_fee_tiers s_pools]. destruct (s_pools s !! _); reflexivity.
    - clear s H E. intros s ? ->. unfold pool_keys_add. cbn [set_fee_tiers s_pool_keys]. destruct (s_pool_keys s !! _); [reflexivity|].
      cbv zeta. cbn. split; reflexivity.
  Qed.
  Lemma withdraw_vara_off e s v : rsim (offp l) (withdraw_vara e s v) (withdraw_vara e (T s) v).
  Proof.
    unfold withdraw_vara. apply (rsim_bind (offp l)).
    - destruct v as [v|]; [apply rsim_same; intros _ _; apply decrease_off|].
      pose proof (decrease_off s VARA_ADDRESS (e_caller e) None) as X.
      destruct (decrease_token_balance s _ _ _), (decrease_token_balance (T s) _ _ _); cbn in X |- *; auto; try contradiction. split; reflexivity.
    - clear. intros [s z] [s' z'] [M E]. red in M. cbn [fst snd] in M, E. subst. apply rsim_same. intros w _. split; reflexivity.
  Qed.

  Lemma event_off s ev : for_both (s_fee_tiers s) l ev ->
    answer (T s) ev = answer s ev /\ exec_event (T s) ev = T (exec_event s ev).
  Proof.
    intros F.
    assert (K : forall A (f : A -> reply) (x y : res (state * A)), rsim (offp l) x y ->
      told f y = told f x /\
      match drop_result y with Ok t => t | _ => T s end = T (match drop_result x with Ok t => t | _ => s end)).
    { intros A f [[t a]|?| |] [[t' b]|?| |]; cbn; try contradiction; auto.
      - intros [H1 H2]. red in H1. cbn [fst snd] in H1, H2. now subst.
      - intros ->. auto. }
    destruct ev as [e o|u t a|u t a|m]; cbn [for_both] in F; [destruct o; try contradiction|..];
      cbn [answer exec_event]; unfold exec_op; cbn [run_op].
    - apply K. unfold change_protocol_fee, is_caller_admin. cbn [set_fee_tiers s_admin]. apply rsim_same. intros _ _. split; reflexivity.
    - apply (K _ (fun _ => RUnit)). now apply create_pool_off.
    - apply (K _ (fun _ => RUnit)). unfold change_fee_receiver, is_caller_admin. change (s_admin (T s)) with (s_admin s). change (pools_get (T s)) with (pools_get s).
      do 2 (apply rsim_same; intros ? _). eapply rsim_bind; [apply pools_update_off|]. clear. intros s ? ->. split; reflexivity.
    - apply K. apply create_position_off.
    - apply K. apply remove_position_off.
    - apply (K _ (fun _ => RUnit)). unfold transfer_position, positions_transfer. apply (rsim_bind (off l)).
      + eapply rsim_bind; [apply positions_remove_off|]. clear. intros [s p] [s' q] [M E]. red in M. cbn [fst snd] in M, E. subst. reflexivity.
      + clear. intros s ? ->. split; reflexivity.
    - apply K. apply swap_off.
    - apply K. apply swap_route_off.
    - apply K. apply claim_fee_off.
    - apply (K _ (fun _ => RUnit)). apply withdraw_protocol_fee_off.
    - apply K. unfold deposit_vara. eapply rsim_bind; [apply increase_off|]. clear. intros s ? ->. split; reflexivity.
    - apply K. apply withdraw_vara_off.
    - pose proof (increase_off s t u a) as X.
      destruct (increase_token_balance s t u a), (increase_token_balance (T s) t u a); cbn in *; try contradiction; subst; auto.
    - pose proof (decrease_off s t u a) as X.
      destruct (decrease_token_balance s t u a) as [[? ?]| | |], (decrease_token_balance (T s) t u a) as [[? ?]| | |]; cbn in *; try contradiction; auto.
      + destruct X as [X1 X2]. red in X1. cbn [fst snd] in X1, X2. now subst.
      + subst. auto.
    - split; reflexivity.
  Qed.
End T.

Lemma event_tiers s ev l l' : for_both l l' ev -> s_fee_tiers (exec_event s ev) = s_fee_tiers s.
Proof.
  intros F. assert (F' : for_both (s_fee_tiers s) (s_fee_tiers s) ev).
  { destruct ev as [e o| | |]; cbn in F |- *; auto. destruct o; auto. }
  destruct (event_off (s_fee_tiers s) s ev F') as [_ E]. 
  assert (X : set_fee_tiers (s_fee_tiers s) s = s) by (destruct s; reflexivity). rewrite X in E.
  exact (f_equal s_fee_tiers E).
Qed.
Lemma run_off l evs : forall s, Forall (for_both (s_fee_tiers s) l) evs ->
  answers (set_fee_tiers l s) evs = answers s evs /\ run (set_fee_tiers l s) evs = set_fee_tiers l (run s evs).
Proof.
  induction evs as [|ev evs IH]; intros s F; cbn [answers run]; [auto|]. apply Forall_cons in F as [F0 F].
  destruct (event_off l s ev F0) as [A E]. rewrite A, E. rewrite <- (event_tiers s ev _ _ F0) in F. destruct (IH _ F) as [B R].
  rewrite B, R. auto.
Qed.
