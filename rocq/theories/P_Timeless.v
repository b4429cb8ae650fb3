(** What a swap does depends on the time only in the time accounting. *)
From Verif Require Import Base Decimal SqrtPriceM LogM ClammM FeeGrowthM Types TickmapM StorageM
  CollectionsM StateM ServiceM Arith SpecMath SpecState SpecHistory P_Loop P_Effects.
From stdpp Require Import gmap list.
From Coq Require Import ZArith Lia Bool.
Open Scope Z_scope.

Definition set_seconds (v : Z) (t : tick) : tick :=
  mkTick (t_index t) (t_sign t) (t_liquidity_change t) (t_liquidity_gross t) (t_sqrt_price t)
    (t_fee_growth_outside_x t) (t_fee_growth_outside_y t) v.

Definition psim (p q : pool) : Prop := exists v, q = set_last_timestamp v p.
Definition tsim (t u : tick) : Prop := exists v, u = set_seconds v t.
Definition usim (t u : update_pool_tick) : Prop :=
  match t, u with
  | TickInitialized t, TickInitialized u => tsim t u
  | TickUninitialized i, TickUninitialized j => i = j
  | NoTick, NoTick => True
  | _, _ => False
  end.
Definition lsim (l m : swap_loop_state) : Prop :=
  psim (l_pool l) (l_pool m) /\ l_remaining m = l_remaining l /\ l_in m = l_in l /\ l_out m = l_out l /\
  l_fee m = l_fee l /\ Forall2 tsim (l_ticks l) (l_ticks m).
Definition rsim {A} (R : A -> A -> Prop) (x y : res A) : Prop :=
  match x, y with
  | Ok a, Ok b => R a b
  | Err e, Err f => e = f
  | Panic, Panic => True
  | Loop, Loop => True
  | _, _ => False
  end.

Lemma psim_refl p : psim p p.
Proof. exists (p_last_timestamp p). destruct p; reflexivity. Qed.
Lemma tsim_refl t : tsim t t.
Proof. exists (t_seconds_outside t). destruct t; reflexivity. Qed.

Lemma rsim_bind {A B} (R : A -> A -> Prop) (Q : B -> B -> Prop) x y f g :
  rsim R x y -> (forall a b, R a b -> rsim Q (f a) (g b)) -> rsim Q (bind x f) (bind y g).
Proof. destruct x, y; cbn; intros H K; try contradiction; subst; auto. Qed.
Lemma rsim_same {A B} (Q : B -> B -> Prop) (x : res A) f g :
  (forall a, x = Ok a -> rsim Q (f a) (g a)) -> rsim Q (bind x f) (bind x g).
Proof. destruct x; cbn; auto. Qed.
Lemma rsim_unwrap {A} (R : A -> A -> Prop) x y : rsim R x y -> rsim R (unwrap x) (unwrap y).
Proof. destruct x, y; cbn; auto; contradiction. Qed.

Lemma add_fee_sim p q a b f : psim p q -> rsim psim (pool_add_fee p a b f) (pool_add_fee q a b f).
Proof.
  intros [v ->]. unfold pool_add_fee. cbn [set_last_timestamp p_liquidity p_fee_protocol_token_x p_fee_protocol_token_y p_fee_growth_global_x p_fee_growth_global_y].
  apply rsim_same. intros x _. apply rsim_same. intros y _.
  destruct (_ || _); [exists v; reflexivity|]. apply rsim_same. intros z _.
  destruct b; apply rsim_same; intros w _; exists v; reflexivity.
Qed.

Lemma cross_sim t u p q ts ts' : tsim t u -> psim p q -> p_start_timestamp p <= ts -> p_start_timestamp p <= ts' ->
  rsim (fun a b => tsim (fst a) (fst b) /\ psim (snd a) (snd b)) (tick_cross t p ts) (tick_cross u q ts').
Proof.
  intros [w ->] [v ->] H1 H2. unfold tick_cross.
  cbn [set_last_timestamp set_seconds p_liquidity p_start_timestamp p_current_tick_index p_fee_growth_global_x p_fee_growth_global_y
    t_index t_sign t_liquidity_change t_liquidity_gross t_sqrt_price t_fee_growth_outside_x t_fee_growth_outside_y t_seconds_outside].
  unfold checked_sub. replace (p_start_timestamp p <=? ts) with true by lia. replace (p_start_timestamp p <=? ts') with true by lia.
  cbn [ok_or bind]. destruct (xorb _ _); apply rsim_same; intros l _; cbn; (split; [eexists; reflexivity|eexists; reflexivity]).
Qed.

Lemma update_tick_sim p q r lim t u rem bi d ts ts' pf ft : psim p q -> usim t u ->
  p_start_timestamp p <= ts -> p_start_timestamp p <= ts' ->
  rsim (fun a b => psim (fst (fst a)) (fst (fst b)) /\ usim (snd (fst a)) (snd (fst b)) /\ snd a = snd b)
    (pool_update_tick p r lim t rem bi d ts pf ft) (pool_update_tick q r lim u rem bi d ts' pf ft).
Proof.
  intros P U H1 H2. unfold pool_update_tick.
  assert (EN : match u with NoTick => true | _ => false end = match t with NoTick => true | _ => false end).
  { destruct t, u; cbn in U; try contradiction; reflexivity. }
  rewrite EN. destruct (_ || _).
  - apply rsim_same. intros c _. cbn. split; [|auto]. destruct P as [v ->]. exists v. reflexivity.
  - assert (EL : p_liquidity q = p_liquidity p) by (destruct P as [v ->]; reflexivity). rewrite EL. apply rsim_same. intros enough _.
    apply (rsim_bind (fun a b : pool * update_pool_tick * Z * Z * Z * bool =>
      let '(p1, t1, i1, a1, r1, h1) := a in let '(p2, t2, i2, a2, r2, h2) := b in
      psim p1 p2 /\ usim t1 t2 /\ i1 = i2 /\ a1 = a2 /\ r1 = r2 /\ h1 = h2)).
    + destruct t as [|t|i], u as [|u|j]; cbn in U; try contradiction; cbn [rsim].
      * exact Logic.I.
      * assert (EI : t_index u = t_index t) by (destruct U as [w ->]; reflexivity).
        destruct (negb d || enough).
        { eapply rsim_bind; [apply rsim_unwrap; apply (cross_sim t u p q ts ts' U P H1 H2)|].
          intros [t1 p1] [t2 p2] [T Q]. cbn in T, Q. cbn. split; [auto|]. split; [auto|].
          split; [destruct T as [w' ->]; reflexivity|auto]. }
        destruct (negb (rem =? 0)); [|cbn; auto 10]. destruct bi; [|cbn; auto 10].
        eapply rsim_bind; [apply rsim_unwrap; apply add_fee_sim; exact P|]. intros p1 p2 Q. cbn. auto 10.
      * subst j. cbn. auto 10.
    + intros [[[[[p1 t1] i1] a1] r1] h1] [[[[[p2 t2] i2] a2] r2] h2] (Q & T & -> & -> & -> & ->). cbn.
      split; [|auto]. destruct Q as [v ->]. exists v. reflexivity.
Qed.

Lemma iteration_sim s k d bi lim tl ts ts' l m : lsim l m ->
  p_start_timestamp (l_pool l) <= ts -> p_start_timestamp (l_pool l) <= ts' ->
  rsim lsim (swap_iteration s k d bi lim tl ts l) (swap_iteration s k d bi lim tl ts' m).
Proof.
  intros (P & E1 & E2 & E3 & E4 & F) H1 H2. unfold swap_iteration.
  assert (EP : p_sqrt_price (l_pool m) = p_sqrt_price (l_pool l) /\ p_liquidity (l_pool m) = p_liquidity (l_pool l) /\
    p_current_tick_index (l_pool m) = p_current_tick_index (l_pool l)) by (destruct P as [v ->]; auto).
  destruct EP as (-> & -> & ->). rewrite E1, E2, E3, E4.
  apply rsim_same. intros [sl lt] _. apply rsim_same. intros r _. apply rsim_same. intros ipf _. apply rsim_same. intros rem _.
  apply (rsim_bind (fun a b => psim a b /\ p_start_timestamp a = p_start_timestamp (l_pool l))).
  { pose proof (add_fee_sim _ _ (sr_fee_amount r) d (s_protocol_fee s) P) as H. unfold unwrap.
    destruct (pool_add_fee (l_pool l) _ _ _) as [p1| | |] eqn:A, (pool_add_fee (l_pool m) _ _ _) as [p2| | |]; cbn in H |- *; auto; try contradiction.
    split; [exact H|]. unfold pool_add_fee in A. apply bind_Ok in A as (x & _ & A). apply bind_Ok in A as (y & _ & A).
    destruct (_ || _); [injection A as <-; reflexivity|]. apply bind_Ok in A as (z & _ & A).
    destruct d; apply bind_Ok in A as (w & _ & A); injection A as <-; reflexivity. }
  intros p1 p2 [P1 S1]. apply rsim_same. intros ef _. apply rsim_same. intros ti _. apply rsim_same. intros to_ _.
  cbn [set_sqrt_price p_sqrt_price]. apply rsim_same. intros _ _. apply rsim_same. intros tk _.
  eapply rsim_bind.
  { apply (update_tick_sim _ _ r sl tk tk rem bi d ts ts' (s_protocol_fee s) (pk_fee_tier k)).
    - destruct P1 as [v ->]. exists v. reflexivity.
    - destruct tk; cbn; auto using tsim_refl.
    - cbn. lia.
    - cbn. lia. }
  intros [[p3 tk3] z] [[p4 tk4] z'] (P3 & T3 & EZ). cbn [fst snd] in P3, T3, EZ. subst z'. destruct z as [[add rem'] hc].
  apply rsim_same. intros ti' _.
  assert (EC : p_current_tick_index p4 = p_current_tick_index p3) by (destruct P3 as [v ->]; reflexivity).
  rewrite EC. apply rsim_same. intros _ _. cbn. unfold lsim. cbn [l_pool l_remaining l_in l_out l_fee l_ticks].
  repeat (split; [auto; fail|]). destruct tk3, tk4; cbn in T3; try contradiction; auto.
  destruct hc; [|auto]. apply Forall2_app; auto.
Qed.

Section Two.
  Context {S : Type} (fin : S -> bool) (b0 b1 : S -> res S) (R : S -> S -> Prop).
  Hypothesis fin_R : forall l m, R l m -> fin m = fin l.
  Hypothesis step : forall l m, R l m -> rsim R (b0 l) (b1 m).
  Definition prog_sim (x y : progress S) : Prop :=
    match x, y with Cont a, Cont b => R a b | Stop a, Stop b => rsim R a b | _, _ => False end.
  Lemma iterate_two n : forall l m, R l m -> prog_sim (iterate fin b0 n l) (iterate fin b1 n m).
  Proof using fin_R step.
    induction n as [|n IH]; intros l m H; cbn [iterate].
    - unfold loop_once. rewrite (fin_R _ _ H). destruct (fin l); [exact H|]. pose proof (step _ _ H) as K.
      destruct (b0 l), (b1 m); cbn in K |- *; auto; contradiction.
    - specialize (IH l m H) as K. destruct (iterate fin b0 n l), (iterate fin b1 n m); cbn in K |- *; auto; contradiction.
  Qed.
  Lemma while_two l m : R l m -> rsim R (while_loop fin b0 l) (while_loop fin b1 m).
  Proof using fin_R step.
    unfold while_loop. generalize 100%nat. intros n H. pose proof (iterate_two n l m H) as K.
    destruct (iterate fin b0 n l), (iterate fin b1 n m); cbn in K |- *; auto; contradiction.
  Qed.
End Two.

Definition csim (a b : calculate_swap_result) : Prop :=
  cs_amount_in b = cs_amount_in a /\ cs_amount_out b = cs_amount_out a /\ cs_start_sqrt_price b = cs_start_sqrt_price a /\
  cs_target_sqrt_price b = cs_target_sqrt_price a /\ cs_fee b = cs_fee a /\ psim (cs_pool a) (cs_pool b) /\
  Forall2 tsim (cs_ticks a) (cs_ticks b).

Lemma calculate_swap_time s ts ts' k d a bi lim :
  (forall p, s_pools s !! k = Some p -> p_start_timestamp p <= ts /\ p_start_timestamp p <= ts') ->
  rsim csim (calculate_swap s ts k d a bi lim) (calculate_swap s ts' k d a bi lim).
Proof.
  intros H. unfold calculate_swap. apply rsim_same. intros _ _. apply rsim_same. intros p Ep. apply pools_get_Ok in Ep.
  destruct (H _ Ep) as [H1 H2]. apply rsim_same. intros _ _. apply rsim_same. intros tl _.
  apply (rsim_bind (fun l m => lsim l m /\ p_start_timestamp (l_pool l) = p_start_timestamp p)).
  - apply while_two with (R := fun l m => lsim l m /\ p_start_timestamp (l_pool l) = p_start_timestamp p).
    + intros l m [(_ & -> & _) _]. reflexivity.
    + intros l m [L S]. pose proof (iteration_sim s k d bi lim tl ts ts' l m L ltac:(lia) ltac:(lia)) as K.
      destruct (swap_iteration s k d bi lim tl ts l) as [l'| | |] eqn:E, (swap_iteration s k d bi lim tl ts' m) as [m'| | |]; cbn in K |- *; auto; try contradiction.
      split; [exact K|]. apply swap_iteration_frame in E as [_ E]. congruence.
    + split; [|reflexivity]. unfold lsim. cbn. auto 10 using psim_refl.
  - intros l m [(P & E1 & E2 & E3 & E4 & F) _]. rewrite E3. apply rsim_same. intros _ _. cbn. unfold csim. cbn.
    rewrite E2, E4. repeat (split; [auto; fail|]).
    split; [destruct P as [v ->]; reflexivity|]. auto.
Qed.
