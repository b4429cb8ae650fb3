(** The fee accounting influences nothing but itself and the calls that pay fees out (C80). *)
From Verif Require Import Base Decimal SqrtPriceM LogM ClammM FeeGrowthM Types TickmapM StorageM
  CollectionsM StateM ServiceM SpecHistory SpecIndep SpecFeeless P_Loop P_Effects.
From stdpp Require Import gmap list.
From Coq Require Import ZArith Lia Bool.
Open Scope Z_scope.

(** Equal up to [R] unless one of the two panics. *)
Definition qsim {A B} (R : A -> B -> Prop) (x : res A) (y : res B) : Prop :=
  match x, y with
  | Ok a, Ok b => R a b
  | Err e, Err f => e = f
  | Ok _, Err _ | Err _, Ok _ => False
  | _, _ => True
  end.
Lemma qsim_bind {A A' B B'} (R : A -> A' -> Prop) (Q : B -> B' -> Prop) x y f g :
  qsim R x y -> (forall a b, R a b -> qsim Q (f a) (g b)) -> qsim Q (bind x f) (bind y g).
Proof.
  destruct x, y; cbn; intros H K; subst; auto; try contradiction.
  - destruct (f a); cbn; auto.
  - destruct (f a); cbn; auto.
Qed.
Lemma qsim_same {A B B'} (Q : B -> B' -> Prop) (x : res A) f g :
  (forall a, x = Ok a -> qsim Q (f a) (g a)) -> qsim Q (bind x f) (bind x g).
Proof. destruct x; cbn; auto. Qed.
Lemma qsim_unwrap {A B} (R : A -> B -> Prop) x y :
  (forall a b, x = Ok a -> y = Ok b -> R a b) -> qsim R (unwrap x) (unwrap y).
Proof. destruct x, y; cbn; auto. Qed.
Lemma qsim_refl {A} (R : A -> A -> Prop) x : (forall a, x = Ok a -> R a a) -> qsim R x x.
Proof. destruct x; cbn; auto. Qed.

Definition psim (p q : pool) : Prop := feeless_pool q = feeless_pool p.
Definition tsim (t u : tick) : Prop := feeless_tick u = feeless_tick t.
Definition usim (t u : update_pool_tick) : Prop :=
  match t, u with
  | TickInitialized t, TickInitialized u => tsim t u
  | TickUninitialized i, TickUninitialized j => i = j
  | NoTick, NoTick => True
  | _, _ => False
  end.
Definition lsim (l m : swap_loop_state) : Prop :=
  psim (l_pool l) (l_pool m) /\ l_remaining m = l_remaining l /\ l_in m = l_in l /\ l_out m = l_out l /\
  l_fee m = l_fee l /\ Forall2 tsim (l_ticks l) (l_ticks m).

Lemma psim_inv p q : psim p q -> p_liquidity q = p_liquidity p /\ p_sqrt_price q = p_sqrt_price p /\
  p_current_tick_index q = p_current_tick_index p /\ p_start_timestamp q = p_start_timestamp p /\
  p_last_timestamp q = p_last_timestamp p /\ p_fee_receiver q = p_fee_receiver p.
Proof. unfold psim, feeless_pool. intros [=]. auto 10. Qed.
Lemma psim_I p q : p_liquidity q = p_liquidity p -> p_sqrt_price q = p_sqrt_price p ->
  p_current_tick_index q = p_current_tick_index p -> p_start_timestamp q = p_start_timestamp p ->
  p_last_timestamp q = p_last_timestamp p -> p_fee_receiver q = p_fee_receiver p -> psim p q.
Proof. unfold psim, feeless_pool. intros. congruence. Qed.
Lemma tsim_inv t u : tsim t u -> t_index u = t_index t /\ t_sign u = t_sign t /\ t_liquidity_change u = t_liquidity_change t /\
  t_liquidity_gross u = t_liquidity_gross t /\ t_sqrt_price u = t_sqrt_price t /\ t_seconds_outside u = t_seconds_outside t.
Proof. unfold tsim, feeless_tick. intros [=]. auto 10. Qed.

Lemma add_fee_feeless p a b f p' : pool_add_fee p a b f = Ok p' -> psim p p'.
Proof.
  unfold pool_add_fee. intros H. apply bind_Ok in H as (x & _ & H). apply bind_Ok in H as (y & _ & H).
  destruct (_ || _); [injection H as <-; reflexivity|]. apply bind_Ok in H as (z & _ & H).
  destruct b; apply bind_Ok in H as (w & _ & H); injection H as <-; reflexivity.
Qed.
Lemma add_fee_sim p q a b f g : psim p q -> qsim psim (unwrap (pool_add_fee p a b f)) (unwrap (pool_add_fee q a b g)).
Proof.
  intros P. apply qsim_unwrap. intros p' q' E E'. apply add_fee_feeless in E. apply add_fee_feeless in E'.
  unfold psim in *. congruence.
Qed.

Lemma cross_sim t u p q ts : tsim t u -> psim p q ->
  qsim (fun a b => tsim (fst a) (fst b) /\ psim (snd a) (snd b)) (tick_cross t p ts) (tick_cross u q ts).
Proof.
  intros T P. apply tsim_inv in T as (T1 & T2 & T3 & T4 & T5 & T6). apply psim_inv in P as (P1 & P2 & P3 & P4 & P5 & P6).
  unfold tick_cross. cbn [set_last_timestamp p_liquidity p_current_tick_index]. rewrite T1, T2, T3, T4, T5, T6, P1, P3, P4.
  apply qsim_same. intros v _. destruct (xorb _ _); apply qsim_same; intros l _; cbn; (split; [reflexivity|]); apply psim_I; cbn; auto.
Qed.

Lemma update_tick_sim p q r lim t u rem bi d ts pf pf' ft : psim p q -> usim t u ->
  qsim (fun a b => psim (fst (fst a)) (fst (fst b)) /\ usim (snd (fst a)) (snd (fst b)) /\ snd a = snd b)
    (pool_update_tick p r lim t rem bi d ts pf ft) (pool_update_tick q r lim u rem bi d ts pf' ft).
Proof.
  intros P U. unfold pool_update_tick.
  assert (SC : forall c p q, psim p q -> psim (set_current_tick_index c p) (set_current_tick_index c q)).
  { intros c p1 q1 H. apply psim_inv in H as (P1 & P2 & P3 & P4 & P5 & P6). apply psim_I; cbn; auto. }
  assert (EN : match u with NoTick => true | _ => false end = match t with NoTick => true | _ => false end).
  { destruct t, u; cbn in U; try contradiction; reflexivity. }
  rewrite EN. destruct (_ || _).
  - apply qsim_same. intros c _. cbn. auto.
  - pose proof (psim_inv _ _ P) as (EL & _). rewrite EL. apply qsim_same. intros enough _.
    apply (qsim_bind (fun a b : pool * update_pool_tick * Z * Z * Z * bool =>
      let '(p1, t1, i1, a1, r1, h1) := a in let '(p2, t2, i2, a2, r2, h2) := b in
      psim p1 p2 /\ usim t1 t2 /\ i1 = i2 /\ a1 = a2 /\ r1 = r2 /\ h1 = h2)).
    + destruct t as [|t|i], u as [|u|j]; cbn in U; try contradiction; cbn [qsim].
      * exact Logic.I.
      * pose proof (tsim_inv _ _ U) as (EI & _).
        destruct (negb d || enough).
        { eapply qsim_bind; [apply qsim_unwrap|].
          - intros a b Ea Eb. pose proof (cross_sim t u p q ts U P) as C. rewrite Ea, Eb in C. exact C.
          - intros [t1 p1] [t2 p2] [T Q]. cbn in T, Q. cbn. split; [auto|]. split; [auto|].
            apply tsim_inv in T as (-> & _). auto. }
        destruct (negb (rem =? 0)); [|cbn; auto 10]. destruct bi; [|cbn; auto 10].
        eapply qsim_bind; [apply add_fee_sim; exact P|]. intros p1 p2 Q. cbn. auto 10.
      * subst j. cbn. auto 10.
    + intros [[[[[p1 t1] i1] a1] r1] h1] [[[[[p2 t2] i2] a2] r2] h2] (Q & T & -> & -> & -> & ->). cbn. auto.
Qed.

Lemma lookup_sim {K} `{Countable K} {A B} (f : A -> B) (m m' : gmap K A) k : f <$> m' = f <$> m ->
  match m !! k, m' !! k with Some a, Some b => f b = f a | None, None => True | _, _ => False end.
Proof.
  intros E. assert (L : (f <$> m') !! k = (f <$> m) !! k) by (rewrite E; reflexivity). rewrite !lookup_fmap in L.
  destruct (m !! k), (m' !! k); cbn in L; try discriminate; auto. congruence.
Qed.
Lemma get_pool_sim s s' k : same_market s s' -> qsim psim (pools_get s k) (pools_get s' k).
Proof.
  intros M. pose proof (lookup_sim _ _ _ k (sm_pools _ _ M)) as L. unfold pools_get.
  destruct (s_pools s !! k), (s_pools s' !! k); cbn; auto; contradiction.
Qed.
Lemma get_tick_sim s s' k i : same_market s s' -> qsim tsim (ticks_get s k i) (ticks_get s' k i).
Proof.
  intros M. pose proof (lookup_sim _ _ _ (k, i) (sm_ticks _ _ M)) as L. unfold ticks_get.
  destruct (s_ticks s !! (k, i)), (s_ticks s' !! (k, i)); cbn; auto; contradiction.
Qed.

Lemma iteration_sim s s' k d bi lim tl ts l m : same_market s s' -> lsim l m ->
  qsim lsim (swap_iteration s k d bi lim tl ts l) (swap_iteration s' k d bi lim tl ts m).
Proof.
  intros M (P & E1 & E2 & E3 & E4 & F). unfold swap_iteration.
  pose proof (psim_inv _ _ P) as (P1 & P2 & P3 & _). rewrite P1, P2, P3, E1, E2, E3, E4, (sm_bitmap _ _ M).
  apply qsim_same. intros [sl lt] _. apply qsim_same. intros r _. apply qsim_same. intros ipf _. apply qsim_same. intros rem _.
  eapply qsim_bind; [apply add_fee_sim; exact P|]. intros p1 p2 Q1.
  apply qsim_same. intros ef _. apply qsim_same. intros ti _. apply qsim_same. intros to_ _.
  cbn [set_sqrt_price p_sqrt_price]. apply qsim_same. intros _ _.
  apply (qsim_bind usim).
  { destruct lt as [[i []]|]; [|cbn; reflexivity|exact Logic.I].
    eapply qsim_bind; [apply get_tick_sim; exact M|]. intros a b T. exact T. }
  intros tk tk' U. eapply qsim_bind.
  { apply (update_tick_sim (set_sqrt_price (sr_next_sqrt_price r) p1) (set_sqrt_price (sr_next_sqrt_price r) p2) r sl tk tk' rem bi d ts
      (s_protocol_fee s) (s_protocol_fee s') (pk_fee_tier k)); [|exact U].
    apply psim_inv in Q1 as (? & ? & ? & ? & ? & ?). apply psim_I; cbn; auto. }
  intros [[p3 tk3] z] [[p4 tk4] z'] (Q3 & T3 & EZ). cbn [fst snd] in Q3, T3, EZ. subst z'. destruct z as [[add rem'] hc].
  apply qsim_same. intros ti' _. pose proof (psim_inv _ _ Q3) as (_ & _ & EC & _). rewrite EC. apply qsim_same. intros _ _.
  cbn. unfold lsim. cbn [l_pool l_remaining l_in l_out l_fee l_ticks]. repeat (split; [auto; fail|]).
  destruct tk3, tk4; cbn in T3; try contradiction; auto. destruct hc; [|auto]. apply Forall2_app; auto.
Qed.

Section Two.
  Context {S : Type} (fin : S -> bool) (b0 b1 : S -> res S) (R : S -> S -> Prop).
  Hypothesis fin_R : forall l m, R l m -> fin m = fin l.
  Hypothesis step : forall l m, R l m -> qsim R (b0 l) (b1 m).
  Definition stuck (x : progress S) : Prop := match x with Stop Panic | Stop Loop => True | _ => False end.
  Definition prog_qsim (x y : progress S) : Prop :=
    stuck x \/ stuck y \/
    match x, y with Cont a, Cont b => R a b | Stop a, Stop b => qsim R a b | _, _ => False end.
  Lemma iterate_qsim n : forall l m, R l m -> prog_qsim (iterate fin b0 n l) (iterate fin b1 n m).
  Proof using fin_R step.
    induction n as [|n IH]; intros l m H; cbn [iterate].
    - unfold loop_once. rewrite (fin_R _ _ H). destruct (fin l); [right; right; exact H|]. pose proof (step _ _ H) as K.
      destruct (b0 l), (b1 m); cbn in K; unfold prog_qsim; cbn; auto; try contradiction.
    - specialize (IH l m H) as K. destruct (iterate fin b0 n l) as [x|x], (iterate fin b1 n m) as [y|y].
      + destruct K as [K|[K|K]]; [contradiction|contradiction|]. exact (IH x y K).
      + destruct K as [K|[K|K]]; [contradiction|right; left; exact K|contradiction].
      + destruct K as [K|[K|K]]; [left; exact K|contradiction|contradiction].
      + exact K.
  Qed.
  Lemma while_qsim l m : R l m -> qsim R (while_loop fin b0 l) (while_loop fin b1 m).
  Proof using fin_R step.
    unfold while_loop. generalize 100%nat. intros n H. pose proof (iterate_qsim n l m H) as K.
    destruct (iterate fin b0 n l) as [x|x], (iterate fin b1 n m) as [y|y]; destruct K as [K|[K|K]]; try contradiction;
      first [ destruct x as [x|?| |]; (contradiction || (destruct y as [y|?| |]; (contradiction || exact Logic.I)))
            | destruct x as [x|?| |]; (contradiction || exact Logic.I)
            | destruct y as [y|?| |]; (contradiction || exact Logic.I)
            | exact Logic.I | exact K
            | destruct y as [y|?| |]; try contradiction; destruct x as [x|?| |]; exact Logic.I
            | idtac ].
  Qed.
End Two.

Definition csim (a b : calculate_swap_result) : Prop := feeless_swap b = feeless_swap a.

Lemma ticks_sim l m : Forall2 tsim l m -> map feeless_tick m = map feeless_tick l.
Proof. induction 1 as [|t u l m T F IH]; cbn; [reflexivity|]. f_equal; auto. Qed.

Lemma calculate_swap_sim s s' ts k d a bi lim : same_market s s' ->
  qsim csim (calculate_swap s ts k d a bi lim) (calculate_swap s' ts k d a bi lim).
Proof.
  intros M. unfold calculate_swap. apply qsim_same. intros _ _. eapply qsim_bind; [apply get_pool_sim; exact M|]. intros p q P.
  pose proof (psim_inv _ _ P) as (_ & EP & _). rewrite EP. apply qsim_same. intros _ _. apply qsim_same. intros tl _.
  apply (qsim_bind lsim).
  - apply while_qsim with (R := lsim).
    + intros l m (_ & -> & _). reflexivity.
    + intros l m L. apply iteration_sim; auto.
    + unfold lsim. cbn. auto 10.
  - intros l m (Q & E1 & E2 & E3 & E4 & F). rewrite E3. apply qsim_same. intros _ _. cbn. unfold csim, feeless_swap. cbn.
    rewrite E2, E4, (ticks_sim _ _ F), Q. apply psim_inv in Q as (_ & -> & _). reflexivity.
Qed.

Lemma fmap_set {K} `{Countable K} {A B} (f : A -> B) (m m' : gmap K A) k a b :
  f <$> m' = f <$> m -> f b = f a -> f <$> <[k := b]> m' = f <$> <[k := a]> m.
Proof. intros E F. rewrite !fmap_insert. congruence. Qed.

Lemma ticks_update_sim s s' k i t u : same_market s s' -> tsim t u ->
  qsim same_market (ticks_update s k i t) (ticks_update s' k i u).
Proof.
  intros M T. unfold ticks_update. eapply qsim_bind; [apply get_tick_sim; exact M|]. intros _ _ _. cbn.
  destruct M. split; cbn; auto. now apply fmap_set.
Qed.
Lemma pools_update_sim s s' k p q : same_market s s' -> psim p q ->
  qsim same_market (pools_update s k p) (pools_update s' k q).
Proof.
  intros M T. unfold pools_update. eapply qsim_bind; [apply get_pool_sim; exact M|]. intros _ _ _. cbn.
  destruct M. split; cbn; auto. now apply fmap_set.
Qed.
Lemma put_sim k l m : map feeless_tick m = map feeless_tick l -> forall s s', same_market s s' ->
  qsim same_market (foldM_res (fun s t => ticks_update s k (t_index t) t) l s) (foldM_res (fun s t => ticks_update s k (t_index t) t) m s').
Proof.
  revert m. induction l as [|t l IH]; intros [|u m] E s s' M; cbn in E; try discriminate E; cbn [foldM_res]; [exact M|].
  injection E as E1 E2 E3 E4 E5 E6 E7.
  assert (T : tsim t u) by (unfold tsim, feeless_tick; congruence). rewrite E1.
  eapply qsim_bind; [apply ticks_update_sim; eauto|]. intros a b M'. now apply IH.
Qed.
Lemma balances_sim s s' B : same_market s s' -> same_market (set_balances B s) (set_balances B s').
Proof. intros M. destruct M. split; cbn; auto. Qed.
Lemma increase_sim s s' t u a : same_market s s' ->
  qsim same_market (increase_token_balance s t u a) (increase_token_balance s' t u a).
Proof.
  intros M. unfold increase_token_balance. destruct (a =? 0); [exact M|]. cbv zeta. rewrite (sm_balances _ _ M).
  apply qsim_same. intros b _. cbn. now apply balances_sim.
Qed.
Definition pair_sim {A} (Q : A -> A -> Prop) (a b : state * A) : Prop := same_market (fst a) (fst b) /\ Q (snd a) (snd b).
Lemma decrease_sim s s' t u a : same_market s s' ->
  qsim (pair_sim eq) (decrease_token_balance s t u a) (decrease_token_balance s' t u a).
Proof.
  intros M. unfold decrease_token_balance. destruct (bool_decide (a = Some 0)); [split; [exact M|reflexivity]|].
  rewrite (sm_balances _ _ M). apply qsim_same. intros toks _. apply qsim_same. intros b _.
  assert (R : forall B (z : Z), qsim (pair_sim eq) (Ok (set_balances B s, z)) (Ok (set_balances B s', z))).
  { intros B z. split; [now apply balances_sim|reflexivity]. }
  destruct a as [a|]; [destruct (negb (a =? b)); [apply qsim_same; intros; apply R|]|]; cbv zeta;
    (destruct (bool_decide (delete t toks = ∅)); apply R).
Qed.
Lemma swap_sim e s s' k d a bi lim : same_market s s' ->
  qsim (pair_sim csim) (swap e s k d a bi lim) (swap e s' k d a bi lim).
Proof.
  intros M. unfold swap. cbv zeta. eapply qsim_bind; [apply calculate_swap_sim; exact M|]. intros r r' C.
  unfold csim, feeless_swap in C.
  assert (C1 : cs_amount_in r' = cs_amount_in r) by congruence. assert (C2 : cs_amount_out r' = cs_amount_out r) by congruence.
  pose proof (f_equal cs_ticks C) as C3. pose proof (f_equal cs_pool C) as C4. cbn [cs_ticks cs_pool] in C3, C4. rewrite C1, C2.
  eapply qsim_bind; [apply put_sim; [exact C3|exact M]|]. clear s s' M. intros s s' M.
  eapply qsim_bind; [apply pools_update_sim; [exact M|exact C4]|]. clear s s' M. intros s s' M.
  destruct d; (eapply qsim_bind; [apply decrease_sim; exact M|]); clear s s' M; intros [s z] [s' z'] [M _]; cbn [fst] in M;
    (eapply qsim_bind; [apply increase_sim; exact M|]); clear s s' M z z'; intros s s' M; split; assumption.
Qed.
Lemma route_sim e hops : forall s s' a, same_market s s' -> qsim (pair_sim eq) (route_swap e s a hops) (route_swap e s' a hops).
Proof.
  induction hops as [|h hops IH]; intros s s' a M; cbn [route_swap]; [split; [exact M|reflexivity]|].
  eapply qsim_bind; [apply swap_sim; exact M|]. clear s s' M. intros [s r] [s' r'] [M C]. cbn [fst snd] in M, C.
  assert (E : cs_amount_out r' = cs_amount_out r) by (unfold csim, feeless_swap in C; congruence). rewrite E. now apply IH.
Qed.
Lemma swap_route_sim e s s' a x sl hops : same_market s s' ->
  qsim (pair_sim eq) (swap_route e s a x sl hops) (swap_route e s' a x sl hops).
Proof.
  intros M. unfold swap_route. eapply qsim_bind; [apply route_sim; exact M|]. clear s s' M. intros [s z] [s' z'] [M E]. cbn [fst snd] in M, E. subst z'.
  apply qsim_same. intros m _. apply qsim_same. intros _ _. split; [exact M|reflexivity].
Qed.
Lemma quote_sim e s s' k d a bi lim : same_market s s' ->
  qsim (fun q q' => feeless_quote q' = feeless_quote q) (quote e s k d a bi lim) (quote e s' k d a bi lim).
Proof.
  intros M. unfold quote. eapply qsim_bind; [apply calculate_swap_sim; exact M|]. intros r r' C. cbn.
  unfold csim, feeless_swap in C. injection C as C1 C2 C3 C4 C5 C6 C7. unfold feeless_quote. cbn. congruence.
Qed.
Lemma route_quote_sim e s s' hops : same_market s s' -> forall a, qsim eq (route_quote e s a hops) (route_quote e s' a hops).
Proof.
  intros M. induction hops as [|h hops IH]; intros a; cbn [route_quote]; [reflexivity|].
  eapply qsim_bind; [apply calculate_swap_sim; exact M|]. intros r r' C.
  assert (E : cs_amount_out r' = cs_amount_out r) by (unfold csim, feeless_swap in C; congruence). rewrite E. apply IH.
Qed.

Lemma pools_add_sim s s' k p : same_market s s' -> qsim same_market (pools_add s k p) (pools_add s' k p).
Proof.
  intros M. pose proof (lookup_sim _ _ _ k (sm_pools _ _ M)) as L. unfold pools_add.
  destruct (s_pools s !! k), (s_pools s' !! k); cbn; auto; try contradiction.
  destruct M. split; cbn; auto. now apply fmap_set.
Qed.
Lemma create_pool_sim e s s' x y ft p t : same_market s s' ->
  qsim (pair_sim eq) (create_pool e s x y ft p t) (create_pool e s' x y ft p t).
Proof.
  intros M. unfold create_pool. rewrite (sm_fee_tiers _ _ M), (sm_admin _ _ M).
  apply qsim_same. intros _ _. apply qsim_same. intros _ _. apply qsim_same. intros k _.
  assert (E : is_ok (pools_get s' k) = is_ok (pools_get s k)).
  { pose proof (lookup_sim _ _ _ k (sm_pools _ _ M)) as L. unfold pools_get.
    destruct (s_pools s !! k), (s_pools s' !! k); cbn; auto; contradiction. }
  rewrite E. apply qsim_same. intros _ _. apply qsim_same. intros q _.
  eapply qsim_bind; [apply pools_add_sim; exact M|]. clear. intros s s' M. unfold pool_keys_add. rewrite (sm_pool_keys _ _ M).
  destruct (s_pool_keys s !! k); [reflexivity|]. cbv zeta. cbn. split; [|reflexivity].
  destruct M. split; cbn; congruence.
Qed.
Lemma change_fee_receiver_sim e s s' k r : same_market s s' ->
  qsim (pair_sim eq) (change_fee_receiver e s k r) (change_fee_receiver e s' k r).
Proof.
  intros M. unfold change_fee_receiver, is_caller_admin. rewrite (sm_admin _ _ M). apply qsim_same. intros _ _.
  eapply qsim_bind; [apply get_pool_sim; exact M|]. intros p q P.
  eapply qsim_bind; [apply pools_update_sim; [exact M|]|].
  - apply psim_inv in P as (? & ? & ? & ? & ? & ?). apply psim_I; cbn; auto.
  - clear. intros s s' M. split; [exact M|reflexivity].
Qed.

Definition possim (p q : position) : Prop := feeless_position q = feeless_position p.
Lemma positions_add_sim s s' u p q : same_market s s' -> possim p q -> same_market (positions_add s u p) (positions_add s' u q).
Proof.
  intros M P. unfold positions_add, positions_get_length. cbv zeta. rewrite (sm_positions_length _ _ M).
  destruct M. split; cbn; auto. now apply fmap_set.
Qed.
Lemma positions_remove_sim s s' u i : same_market s s' ->
  qsim (pair_sim possim) (positions_remove s u i) (positions_remove s' u i).
Proof.
  intros M. unfold positions_remove, positions_get, positions_get_length. cbv zeta. rewrite (sm_positions_length _ _ M).
  eapply (qsim_bind possim).
  { pose proof (lookup_sim _ _ _ (u, i) (sm_positions _ _ M)) as L.
    destruct (s_positions s !! (u, i)), (s_positions s' !! (u, i)); cbn; auto; contradiction. }
  intros p q P. set (last := (_ - 1) mod M32).
  eapply (qsim_bind (fun m m' : gmap (actor_id * Z) position => feeless_position <$> m' = feeless_position <$> m)).
  - destruct (i <? last).
    + pose proof (lookup_sim _ _ _ (u, last) (sm_positions _ _ M)) as L.
      destruct (s_positions s !! (u, last)), (s_positions s' !! (u, last)); cbn; auto; try contradiction.
      apply fmap_set; [|exact L]. rewrite !fmap_delete. now rewrite (sm_positions _ _ M).
    + cbn. rewrite !fmap_delete. now rewrite (sm_positions _ _ M).
  - intros m m' E. split; [|exact P]. destruct M. split; cbn; auto.
Qed.
Lemma transfer_sim e s s' i r : same_market s s' -> qsim (pair_sim eq) (transfer_position e s i r) (transfer_position e s' i r).
Proof.
  intros M. unfold transfer_position, positions_transfer.
  eapply (qsim_bind same_market).
  - eapply qsim_bind; [apply positions_remove_sim; exact M|]. clear. intros [s p] [s' q] [M P]. cbn. now apply positions_add_sim.
  - clear. intros s s' M. split; [exact M|reflexivity].
Qed.

Lemma get_or_create_sim s s' ts k i : same_market s s' ->
  qsim (fun a b => tsim (fst a) (fst b) /\ snd a = snd b) (get_or_create_tick s ts k i) (get_or_create_tick s' ts k i).
Proof.
  intros M. unfold get_or_create_tick. pose proof (lookup_sim _ _ _ (k, i) (sm_ticks _ _ M)) as L.
  destruct (s_ticks s !! (k, i)) as [t|], (s_ticks s' !! (k, i)) as [t'|]; try contradiction; [split; [exact L|reflexivity]|].
  apply (qsim_bind tsim); [|intros a b T; split; [exact T|reflexivity]].
  apply qsim_unwrap. unfold create_tick. intros a b Ea Eb.
  apply bind_Ok in Ea as (? & _ & Ea). apply bind_Ok in Eb as (? & _ & Eb).
  apply bind_Ok in Ea as (p & Ep & Ea). apply bind_Ok in Eb as (q & Eq & Eb).
  pose proof (get_pool_sim _ _ k M) as G. rewrite Ep, Eq in G. cbn in G. apply psim_inv in G as (_ & _ & G3 & G4 & _).
  unfold tick_create in Ea, Eb. rewrite G3, G4 in Eb. destruct (unwrap (calculate_sqrt_price i)); try discriminate Ea. cbn [bind] in Ea, Eb.
  injection Ea as <-. injection Eb as <-. reflexivity.
Qed.
Lemma tick_update_sim t u l m up dep : tsim t u -> qsim tsim (tick_update t l m up dep) (tick_update u l m up dep).
Proof.
  intros T. apply tsim_inv in T as (T1 & T2 & T3 & T4 & T5 & T6).
  unfold tick_update, tick_new_liquidity_gross, tick_new_liquidity_change. rewrite T1, T2, T3, T4, T5, T6.
  apply qsim_same. intros g _. apply qsim_same. intros [sg c] _. reflexivity.
Qed.
Lemma update_liquidity_sim p q l sg up lo : psim p q ->
  qsim (fun a b => psim (fst a) (fst b) /\ snd a = snd b) (pool_update_liquidity p l sg up lo) (pool_update_liquidity q l sg up lo).
Proof.
  intros P. pose proof (psim_inv _ _ P) as (P1 & P2 & P3 & P4 & P5 & P6). unfold pool_update_liquidity. rewrite P1, P2, P3.
  apply qsim_same. intros [[x y] u] _. destruct (negb u); [split; [exact P|reflexivity]|].
  destruct sg; apply qsim_same; intros z _; (split; [apply psim_I; cbn; auto|reflexivity]).
Qed.
Definition modsim (a b : position * pool * tick * tick * (Z * Z)) : Prop :=
  let '(po, p, u, l, xy) := a in let '(po', p', u', l', xy') := b in
  possim po po' /\ psim p p' /\ tsim u u' /\ tsim l l' /\ xy = xy'.
Lemma position_create_sim p q k lo lo' up up' ts l sl su blk sp : psim p q -> tsim lo lo' -> tsim up up' ->
  qsim modsim (position_create p k lo up ts l sl su blk sp) (position_create q k lo' up' ts l sl su blk sp).
Proof.
  intros P L U. unfold position_create. cbv zeta. pose proof (psim_inv _ _ P) as (P1 & P2 & P3 & P4 & P5 & P6). rewrite P2.
  apply qsim_same. intros _ _. apply qsim_unwrap. intros a b Ea Eb. unfold position_modify in Ea, Eb. cbv zeta in Ea, Eb.
  apply bind_Ok in Ea as (m & Em & Ea). apply bind_Ok in Eb as (m' & Em' & Eb). rewrite Em in Em'. injection Em' as <-.
  apply bind_Ok in Ea as (l1 & E1 & Ea). apply bind_Ok in Eb as (l2 & E2 & Eb).
  pose proof (tick_update_sim _ _ l m false true L) as Q1. rewrite E1, E2 in Q1. cbn in Q1.
  apply bind_Ok in Ea as (u1 & E3 & Ea). apply bind_Ok in Eb as (u2 & E4 & Eb).
  pose proof (tick_update_sim _ _ l m true true U) as Q2. rewrite E3, E4 in Q2. cbn in Q2.
  unfold calculate_fee_growth_inside in Ea, Eb.
  apply bind_Ok in Ea as (o1 & E5 & Ea). apply bind_Ok in Eb as (o2 & E6 & Eb).
  apply bind_Ok in Ea as ([p1 xy1] & E7 & Ea). apply bind_Ok in Eb as ([p2 xy2] & E8 & Eb). injection Ea as <-. injection Eb as <-.
  pose proof (tsim_inv _ _ Q1) as (I1 & _). pose proof (tsim_inv _ _ Q2) as (I2 & _).
  pose proof (tsim_inv _ _ L) as (J1 & _). pose proof (tsim_inv _ _ U) as (J2 & _).
  rewrite I1, I2 in E8.
  assert (P' : psim (set_last_timestamp ts p) (set_last_timestamp ts q)) by (apply psim_I; cbn; auto).
  pose proof (update_liquidity_sim _ _ l true (t_index u1) (t_index l1) P') as Q3. rewrite E7, E8 in Q3. destruct Q3 as [Q3 Q4]. cbn in Q3, Q4.
  cbn. split; [|auto]. unfold position_update in E5, E6.
  apply bind_Ok in E5 as (_ & _ & E5). apply bind_Ok in E5 as (w1 & _ & E5). apply bind_Ok in E5 as (w2 & _ & E5).
  apply bind_Ok in E6 as (_ & _ & E6). apply bind_Ok in E6 as (w3 & _ & E6). apply bind_Ok in E6 as (w4 & _ & E6).
  apply bind_Ok in E5 as (z & Ez & E5). apply bind_Ok in E6 as (z' & Ez' & E6).
  unfold position_new_liquidity in Ez, Ez'. cbn [pos_liquidity] in Ez, Ez'. rewrite Ez in Ez'. injection Ez' as <-.
  apply bind_Ok in E5 as (w5 & _ & E5). apply bind_Ok in E5 as (w6 & _ & E5).
  apply bind_Ok in E6 as (w7 & _ & E6). apply bind_Ok in E6 as (w8 & _ & E6). injection E5 as <-. injection E6 as <-.
  unfold possim, feeless_position. cbn. now rewrite J1, J2.
Qed.
Lemma add_tick_sim s s' k t u : same_market s s' -> tsim t u -> qsim same_market (add_tick s k t) (add_tick s' k u).
Proof.
  intros M T. pose proof (tsim_inv _ _ T) as (I & _). unfold add_tick. rewrite I. apply (qsim_bind same_market).
  - unfold ticks_add. pose proof (lookup_sim _ _ _ (k, t_index t) (sm_ticks _ _ M)) as L.
    destruct (s_ticks s !! (k, t_index t)), (s_ticks s' !! (k, t_index t)); cbn; auto; try contradiction.
    destruct M. split; cbn; auto. now apply fmap_set.
  - clear s s' M. intros s s' M. rewrite (sm_bitmap _ _ M). apply qsim_same. intros b _. destruct M. split; cbn; auto.
Qed.
Lemma create_position_sim e s s' k lo up l sl su : same_market s s' ->
  qsim (pair_sim possim) (create_position e s k lo up l sl su) (create_position e s' k lo up l sl su).
Proof.
  intros M. unfold create_position. cbv zeta. apply qsim_same. intros _ _. apply qsim_same. intros _ _.
  eapply qsim_bind; [apply get_pool_sim; exact M|]. intros p q P.
  eapply qsim_bind; [apply get_or_create_sim; exact M|]. intros [t1 b1] [t2 b2] [T1 B1]. cbn in T1, B1. subst b2.
  eapply qsim_bind; [apply get_or_create_sim; exact M|]. intros [t3 b3] [t4 b4] [T2 B2]. cbn in T2, B2. subst b4.
  eapply qsim_bind; [apply position_create_sim; [exact P|exact T1|exact T2]|].
  intros [[[[po p1] u1] l1] [x y]] [[[[po' p2] u2] l2] [x' y']] (Q1 & Q2 & Q3 & Q4 & [= <- <-]).
  eapply qsim_bind; [apply decrease_sim; exact M|]. clear s s' M. intros [s ?] [s' ?] [M _]. cbn in M.
  eapply qsim_bind; [apply decrease_sim; exact M|]. clear s s' M. intros [s ?] [s' ?] [M _]. cbn in M.
  eapply qsim_bind; [apply pools_update_sim; [exact M|exact Q2]|]. clear s s' M. intros s s' M.
  apply (positions_add_sim _ _ (e_caller e) po po') in M; [|exact Q1].
  revert M. generalize (positions_add s (e_caller e) po) (positions_add s' (e_caller e) po'). clear s s'. intros s s' M.
  assert (X : forall (b : bool) s s' t t', same_market s s' -> tsim t t' ->
    qsim same_market (if b then add_tick s k t else ticks_update s k (t_index t) t)
                     (if b then add_tick s' k t' else ticks_update s' k (t_index t') t')).
  { clear. intros b s s' t t' M T. destruct b; [now apply add_tick_sim|]. pose proof (tsim_inv _ _ T) as (-> & _). now apply ticks_update_sim. }
  eapply qsim_bind; [apply X; [exact M|exact Q4]|]. clear s s' M. intros s s' M.
  eapply qsim_bind; [apply X; [exact M|exact Q3]|]. clear s s' M. intros s s' M. split; assumption.
Qed.
Lemma deposit_vara_sim e s s' : same_market s s' -> qsim (pair_sim eq) (deposit_vara e s) (deposit_vara e s').
Proof.
  intros M. unfold deposit_vara. eapply qsim_bind; [apply increase_sim; exact M|]. clear. intros s s' M. split; [exact M|reflexivity].
Qed.
Lemma withdraw_vara_sim e s s' v : same_market s s' -> qsim (pair_sim eq) (withdraw_vara e s v) (withdraw_vara e s' v).
Proof.
  intros M. unfold withdraw_vara. apply (qsim_bind (pair_sim eq)).
  - destruct v as [v|]; [apply qsim_same; intros _ _; now apply decrease_sim|].
    pose proof (decrease_sim s s' VARA_ADDRESS (e_caller e) None M) as X.
    destruct (decrease_token_balance s _ _ _), (decrease_token_balance s' _ _ _); cbn in X |- *; auto; try contradiction. split; [exact M|reflexivity].
  - clear. intros [s z] [s' z'] [M E]. cbn in M, E. subst z'. apply qsim_same. intros w _. split; [exact M|reflexivity].
Qed.
Lemma add_fee_tier_sim e s s' ft : same_market s s' -> qsim (pair_sim eq) (add_fee_tier e s ft) (add_fee_tier e s' ft).
Proof.
  intros M. unfold add_fee_tier, is_caller_admin. rewrite (sm_admin _ _ M), (sm_fee_tiers _ _ M). do 4 (apply qsim_same; intros ? _).
  split; [|reflexivity]. destruct M. split; cbn; auto.
Qed.
Lemma remove_fee_tier_sim e s s' ft : same_market s s' -> qsim (pair_sim eq) (remove_fee_tier e s ft) (remove_fee_tier e s' ft).
Proof.
  intros M. unfold remove_fee_tier, is_caller_admin. rewrite (sm_admin _ _ M), (sm_fee_tiers _ _ M). do 2 (apply qsim_same; intros ? _).
  split; [|reflexivity]. destruct M. split; cbn; auto.
Qed.

Lemma told_sim {A} (f : A -> reply) (Q : A -> A -> Prop) x y : qsim (pair_sim Q) x y ->
  (forall a b, Q a b -> feeless_reply (f b) = feeless_reply (f a)) ->
  ends (told f x) -> ends (told f y) -> feeless_answer (told f y) = feeless_answer (told f x).
Proof.
  destruct x as [[s a]|?| |], y as [[s' b]|?| |]; cbn; intros H K; try contradiction.
  - intros _ _. destruct H as [_ H]. apply K in H. cbn in H. now rewrite H.
  - intros _ _. now subst.
Qed.
Lemma state_sim {A} (f : A -> reply) (Q : A -> A -> Prop) s s' (x y : res (state * A)) : same_market s s' -> qsim (pair_sim Q) x y ->
  ends (told f x) -> ends (told f y) ->
  same_market (match drop_result x with Ok t => t | _ => s end) (match drop_result y with Ok t => t | _ => s' end).
Proof.
  destruct x as [[t a]|?| |], y as [[t' b]|?| |]; cbn; intros M H; try contradiction; auto. intros _ _. apply H.
Qed.
Lemma event_sim s s' ev ev' : same_market s s' -> same_trade ev ev' -> ends (answer s ev) -> ends (answer s' ev') ->
  feeless_answer (answer s' ev') = feeless_answer (answer s ev) /\ same_market (exec_event s ev) (exec_event s' ev').
Proof.
  intros M T.
  assert (K : forall A (f : A -> reply) (Q : A -> A -> Prop) (x y : res (state * A)), qsim (pair_sim Q) x y ->
    (forall a b, Q a b -> feeless_reply (f b) = feeless_reply (f a)) -> ends (told f x) -> ends (told f y) ->
    feeless_answer (told f y) = feeless_answer (told f x) /\
    same_market (match drop_result x with Ok t => t | _ => s end) (match drop_result y with Ok t => t | _ => s' end)).
  { intros A f Q x y X H E E'. split; [eapply told_sim; eauto|eapply state_sim; eauto]. }
  assert (EQ : forall A (f : A -> reply) (a b : A), a = b -> feeless_reply (f b) = feeless_reply (f a)) by (intros; now subst).
  destruct ev as [e o|u t a|u t a|m]; cbn [same_trade] in T; [destruct o; try contradiction; try subst ev'|..];
    cbn [answer exec_event]; unfold exec_op; cbn [run_op].
  - destruct T as [f' ->]. cbn [answer exec_event]. unfold exec_op. cbn [run_op]. apply (K _ RFee (fun _ _ => True)); [|reflexivity].
    unfold change_protocol_fee, is_caller_admin. rewrite (sm_admin _ _ M). apply qsim_same. intros _ _. split; [|exact Logic.I].
    destruct M. split; cbn; auto.
  - eapply K; [apply add_fee_tier_sim; exact M|apply EQ].
  - eapply K; [apply remove_fee_tier_sim; exact M|apply EQ].
  - eapply (K _ (fun _ => RUnit)); [apply create_pool_sim; exact M|reflexivity].
  - eapply (K _ (fun _ => RUnit)); [apply change_fee_receiver_sim; exact M|reflexivity].
  - eapply K; [apply create_position_sim; exact M|]. intros a b H. cbn. now rewrite H.
  - eapply (K _ (fun _ => RUnit)); [apply transfer_sim; exact M|reflexivity].
  - eapply K; [apply swap_sim; exact M|]. intros a b H. cbn. now rewrite H.
  - eapply K; [apply swap_route_sim; exact M|apply EQ].
  - eapply K; [apply deposit_vara_sim; exact M|apply EQ].
  - eapply K; [apply withdraw_vara_sim; exact M|apply EQ].
  - subst ev'. cbn [answer exec_event]. pose proof (increase_sim s s' t u a M) as X. intros E E'.
    destruct (increase_token_balance s t u a), (increase_token_balance s' t u a); cbn in *; try contradiction; subst; auto.
  - subst ev'. cbn [answer exec_event]. pose proof (decrease_sim s s' t u a M) as X. intros E E'.
    destruct (K _ RAmount _ _ _ X (EQ _ _) E E') as [A B]. split; [exact A|]. revert B. clear.
    destruct (decrease_token_balance s t u a) as [[? ?]| | |], (decrease_token_balance s' t u a) as [[? ?]| | |]; cbn; auto.
  - subst ev'. intros _ _. split; [reflexivity|]. cbn. destruct M. split; cbn; auto.
Qed.
Lemma run_sim evs evs' : Forall2 same_trade evs evs' -> forall s s', same_market s s' ->
  Forall ends (answers s evs) -> Forall ends (answers s' evs') ->
  map feeless_answer (answers s' evs') = map feeless_answer (answers s evs) /\ same_market (run s evs) (run s' evs').
Proof.
  induction 1 as [|ev ev' evs evs' T F IH]; intros s s' M E E'; cbn [answers run map] in *; [auto|].
  apply Forall_cons in E as [E0 E]. apply Forall_cons in E' as [E0' E'].
  destruct (event_sim s s' ev ev' M T E0 E0') as [A M']. destruct (IH _ _ M' E E') as [B N]. split; [|exact N]. now rewrite A, B.
Qed.
