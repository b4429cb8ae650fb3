(** States that cannot be told apart: proofs for C71. *)
From Verif Require Import Base Decimal SqrtPriceM LogM ClammM FeeGrowthM Types TickmapM StorageM
  CollectionsM StateM ServiceM Arith SpecMath SpecState SpecHistory P_Clamm SpecIndep SpecTrace P_Indep.
From stdpp Require Import gmap list.
From Coq Require Import ZArith Lia Bool.
Open Scope Z_scope.

(** ** Pools and ticks, with the bounds their numbers keep *)
Definition psame (p q : pool) : Prop := (exists v, q = set_last_timestamp v p) /\ 0 <= p_liquidity p < M256.
Definition with_sign (b : bool) (t : tick) : tick :=
  mkTick (t_index t) b (t_liquidity_change t) (t_liquidity_gross t) (t_sqrt_price t)
    (t_fee_growth_outside_x t) (t_fee_growth_outside_y t) (t_seconds_outside t).
Definition tsame (t u : tick) : Prop :=
  (exists b, u = with_sign b t /\ (b = t_sign t \/ t_liquidity_change t = 0)) /\ 0 <= t_liquidity_change t.
Definition usame (t u : update_pool_tick) : Prop :=
  match t, u with
  | TickInitialized t, TickInitialized u => tsame t u
  | TickUninitialized i, TickUninitialized j => i = j
  | NoTick, NoTick => True
  | _, _ => False
  end.
Definition posok (p : position) : Prop := 0 <= pos_liquidity p < M256.

Lemma psame_spec p q : psame p q <-> same_pool p q /\ 0 <= p_liquidity p < M256.
Proof.
  unfold psame, same_pool. split; intros [H B]; (split; [|exact B]).
  - destruct H as [v ->]. cbn. auto 20.
  - exists (p_last_timestamp q). destruct p, q; cbn in *. destruct H as (-> & -> & -> & -> & -> & -> & -> & -> & ->). reflexivity.
Qed.
Lemma tsame_spec t u : tsame t u <-> same_tick t u /\ 0 <= t_liquidity_change t.
Proof.
  unfold tsame, same_tick. split; intros [H B]; (split; [|exact B]).
  - destruct H as (b & -> & Hb). cbn. repeat (split; [reflexivity|]). intros N. destruct Hb; congruence.
  - exists (t_sign u). destruct t, u; cbn in *. destruct H as (-> & -> & -> & -> & -> & -> & -> & Hs). split; [reflexivity|].
    destruct (Z.eq_dec t_liquidity_change0 0) as [E|N]; [now right|left]. symmetry. auto.
Qed.

Lemma unwrap_rel {A B} (Q : A -> B -> Prop) x y : rrel Q x y -> rrel Q (unwrap x) (unwrap y).
Proof. destruct x, y; cbn; auto; contradiction. Qed.
Lemma checked_add_rel m a b : rrel (fun x y => x = y /\ x = a + b /\ x < m) (dec_checked_add m a b) (dec_checked_add m a b).
Proof. unfold dec_checked_add, checked_add. destruct (a + b <? m) eqn:E; cbn; auto. repeat split. lia. Qed.
Lemma checked_sub_rel a b : rrel (fun x y => x = y /\ x = a - b /\ b <= a) (dec_checked_sub a b) (dec_checked_sub a b).
Proof. unfold dec_checked_sub, checked_sub. destruct (b <=? a) eqn:E; cbn; auto. repeat split. lia. Qed.

Lemma add_fee_same p q a b f : psame p q -> rrel psame (pool_add_fee p a b f) (pool_add_fee q a b f).
Proof.
  intros [[v ->] B]. unfold pool_add_fee. cbn [set_last_timestamp p_liquidity p_fee_protocol_token_x p_fee_protocol_token_y p_fee_growth_global_x p_fee_growth_global_y].
  apply rrel_bind_same. intros x _. apply rrel_bind_same. intros y _.
  destruct (_ || _); [split; [exists v; reflexivity|exact B]|]. apply rrel_bind_same. intros z _.
  destruct b; apply rrel_bind_same; intros w _; (split; [exists v; reflexivity|exact B]).
Qed.

Lemma cross_same t u p q ts : tsame t u -> psame p q ->
  rrel (fun a b => tsame (fst a) (fst b) /\ psame (snd a) (snd b)) (tick_cross t p ts) (tick_cross u q ts).
Proof.
  intros [(b & -> & Hb) Ht] [[v ->] B]. unfold tick_cross.
  cbn [set_last_timestamp with_sign p_liquidity p_start_timestamp p_current_tick_index p_fee_growth_global_x p_fee_growth_global_y
    t_index t_sign t_liquidity_change t_liquidity_gross t_sqrt_price t_fee_growth_outside_x t_fee_growth_outside_y t_seconds_outside].
  apply rrel_bind_same. intros sec _.
  assert (T : forall ox oy sc l l', l = l' -> 0 <= l < M256 ->
    (fun a b : tick * pool => tsame (fst a) (fst b) /\ psame (snd a) (snd b))
    (mkTick (t_index t) (t_sign t) (t_liquidity_change t) (t_liquidity_gross t) (t_sqrt_price t) ox oy sc, set_liquidity l (set_last_timestamp ts p))
    (mkTick (t_index t) b (t_liquidity_change t) (t_liquidity_gross t) (t_sqrt_price t) ox oy sc, set_liquidity l' (set_last_timestamp ts (set_last_timestamp v p)))).
  { intros ox oy sc l l' <- Bl. cbn. split; [split; [exists b; split; [reflexivity|exact Hb]|exact Ht]|].
    split; [exists ts; reflexivity|exact Bl]. }
  destruct Hb as [Eb|E0].
  - rewrite Eb. destruct (xorb _ _).
    + eapply rrel_bind; [apply checked_add_rel|]. intros l l' (E1 & E2 & E3). cbn. subst b. apply T; [exact E1|lia].
    + eapply rrel_bind; [apply checked_sub_rel|]. intros l l' (E1 & E2 & E3). cbn. subst b. apply T; [exact E1|lia].
  - rewrite E0 in *. unfold dec_checked_add, dec_checked_sub, checked_add, checked_sub.
    replace (p_liquidity p + 0 <? M256) with true by lia. replace (0 <=? p_liquidity p) with true by lia. cbn [ok_or bind].
    destruct (xorb _ (t_sign t)), (xorb _ b); cbn [rrel]; apply T; lia.
Qed.

Lemma update_tick_same p q r lim t u rem bi d ts pf ft : psame p q -> usame t u ->
  rrel (fun a b => psame (fst (fst a)) (fst (fst b)) /\ usame (snd (fst a)) (snd (fst b)) /\ snd a = snd b)
    (pool_update_tick p r lim t rem bi d ts pf ft) (pool_update_tick q r lim u rem bi d ts pf ft).
Proof.
  intros P U. unfold pool_update_tick.
  assert (EN : match u with NoTick => true | _ => false end = match t with NoTick => true | _ => false end).
  { destruct t, u; cbn in U; try contradiction; reflexivity. }
  rewrite EN. destruct (_ || _).
  - apply rrel_bind_same. intros c _. cbn. split; [|auto]. destruct P as [[v ->] B]. split; [exists v; reflexivity|exact B].
  - assert (EL : p_liquidity q = p_liquidity p) by (destruct P as [[v ->] _]; reflexivity). rewrite EL. apply rrel_bind_same. intros enough _.
    apply (rrel_bind (fun a b : pool * update_pool_tick * Z * Z * Z * bool =>
      let '(p1, t1, i1, a1, r1, h1) := a in let '(p2, t2, i2, a2, r2, h2) := b in
      psame p1 p2 /\ usame t1 t2 /\ i1 = i2 /\ a1 = a2 /\ r1 = r2 /\ h1 = h2)).
    + destruct t as [|t|i], u as [|u|j]; cbn in U; try contradiction; cbn [rrel].
      * exact Logic.I.
      * assert (EI : t_index u = t_index t) by (destruct U as [(b & -> & _) _]; reflexivity).
        destruct (negb d || enough).
        { eapply rrel_bind; [apply unwrap_rel; apply (cross_same t u p q ts U P)|].
          intros [t1 p1] [t2 p2] [T Q]. cbn in T, Q. cbn. split; [auto|]. split; [auto|].
          split; [destruct T as [(b & -> & _) _]; reflexivity|auto]. }
        destruct (negb (rem =? 0)); [|cbn; auto 10]. destruct bi; [|cbn; auto 10].
        eapply rrel_bind; [apply unwrap_rel; apply add_fee_same; exact P|]. intros p1 p2 Q. cbn. auto 10.
      * subst j. cbn. auto 10.
    + intros [[[[[p1 t1] i1] a1] r1] h1] [[[[[p2 t2] i2] a2] r2] h2] (Q & T & -> & -> & -> & ->). cbn.
      split; [|auto]. destruct Q as [[v ->] B]. split; [exists v; reflexivity|exact B].
Qed.

(** ** States *)
Definition orel {A} (R : A -> A -> Prop) (x y : option A) : Prop := both_or_none R x y.

(** Whose positions the comparison includes: everybody's, or everybody's but [u]'s. *)
Definition seen (ow : bool) (u v : actor_id) : Prop := ow = true \/ v <> u.
Definition posrel (ow : bool) (u : actor_id) (M M' : gmap (actor_id * Z) position) : Prop :=
  forall i, seen ow u (fst i) -> orel (fun p q => p = q /\ posok p) (M !! i) (M' !! i).

Record sim (ow : bool) (u : actor_id) (s s' : state) : Prop := {
  sm_admin : s_admin s = s_admin s';
  sm_fee : s_protocol_fee s = s_protocol_fee s';
  sm_tiers : s_fee_tiers s = s_fee_tiers s';
  sm_keys : s_pool_keys s = s_pool_keys s' /\ s_pool_keys_by_index s = s_pool_keys_by_index s' /\
            s_pool_keys_length s = s_pool_keys_length s';
  sm_await : s_awaiting s = s_awaiting s';
  sm_pools : forall k, orel psame (s_pools s !! k) (s_pools s' !! k);
  sm_ticks : forall k, orel tsame (s_ticks s !! k) (s_ticks s' !! k);
  sm_bitmap : forall k c, chunk_at (s_bitmap s) k c = chunk_at (s_bitmap s') k c;
  sm_positions : posrel ow u (s_positions s) (s_positions s');
  sm_length : forall v, seen ow u v -> positions_get_length s v = positions_get_length s' v;
  sm_balances : forall v, v <> u -> s_balances s !! v = s_balances s' !! v;
}.

Section sim.
  Context (ow : bool) (u : actor_id) (s s' : state) (H : sim ow u s s').

  Lemma sim_pools k p q : psame p q -> sim ow u (set_pools (<[k := p]> (s_pools s)) s) (set_pools (<[k := q]> (s_pools s')) s').
  Proof.
    intros P. destruct H. constructor; cbn; auto. intros k'. destruct (decide (k = k')) as [->|N].
    - rewrite !lookup_insert. exact P.
    - rewrite !lookup_insert_ne by exact N. auto.
  Qed.
  Lemma sim_ticks k p q : tsame p q -> sim ow u (set_ticks (<[k := p]> (s_ticks s)) s) (set_ticks (<[k := q]> (s_ticks s')) s').
  Proof.
    intros P. destruct H. constructor; cbn; auto. intros k'. destruct (decide (k = k')) as [->|N].
    - rewrite !lookup_insert. exact P.
    - rewrite !lookup_insert_ne by exact N. auto.
  Qed.
  Lemma sim_ticks_delete k : sim ow u (set_ticks (delete k (s_ticks s)) s) (set_ticks (delete k (s_ticks s')) s').
  Proof.
    destruct H. constructor; cbn; auto. intros k'. destruct (decide (k = k')) as [->|N].
    - rewrite !lookup_delete. exact Logic.I.
    - rewrite !lookup_delete_ne by exact N. auto.
  Qed.
  Lemma sim_bitmap c k v : sim ow u (set_bitmap (<[(c, k) := v]> (s_bitmap s)) s) (set_bitmap (<[(c, k) := v]> (s_bitmap s')) s').
  Proof.
    destruct H. constructor; cbn; auto. intros k' c'. specialize (sm_bitmap0 k' c'). revert sm_bitmap0. unfold chunk_at.
    destruct (decide ((c, k) = (c', k'))) as [->|N].
    - rewrite !lookup_insert. auto.
    - rewrite !lookup_insert_ne by exact N. auto.
  Qed.
  Lemma sim_balances v B : v <> u -> sim ow u (set_balances (<[v := B]> (s_balances s)) s) (set_balances (<[v := B]> (s_balances s')) s').
  Proof.
    intros _. destruct H. constructor; cbn; auto. intros w Hw. destruct (decide (v = w)) as [->|N].
    - now rewrite !lookup_insert.
    - rewrite !lookup_insert_ne by exact N. auto.
  Qed.
  Lemma sim_balances_delete v : sim ow u (set_balances (delete v (s_balances s)) s) (set_balances (delete v (s_balances s')) s').
  Proof.
    destruct H. constructor; cbn; auto. intros w Hw. destruct (decide (v = w)) as [->|N].
    - now rewrite !lookup_delete.
    - rewrite !lookup_delete_ne by exact N. auto.
  Qed.
  Lemma sim_positions v n n' M M' : (seen ow u v -> n = n') -> posrel ow u M M' ->
    sim ow u (set_positions (<[v := n]> (s_positions_length s)) M s) (set_positions (<[v := n']> (s_positions_length s')) M' s').
  Proof.
    intros En P. destruct H. constructor; cbn; auto. intros w Hw. specialize (sm_length0 w Hw). revert sm_length0.
    unfold positions_get_length. cbn. destruct (decide (v = w)) as [->|N].
    - rewrite !lookup_insert. intros _. now rewrite (En Hw).
    - now rewrite !lookup_insert_ne by exact N.
  Qed.
  Lemma sim_positions0 M M' : posrel ow u M M' ->
    sim ow u (set_positions (s_positions_length s) M s) (set_positions (s_positions_length s') M' s').
  Proof. intros P. destruct H. constructor; cbn; auto. Qed.

  Lemma pools_get_sim k : rrel psame (pools_get s k) (pools_get s' k).
  Proof. unfold pools_get. pose proof (sm_pools _ _ _ _ H k) as P. destruct (s_pools s !! k), (s_pools s' !! k); cbn in *; auto; contradiction. Qed.
  Lemma ticks_get_sim k i : rrel tsame (ticks_get s k i) (ticks_get s' k i).
  Proof. unfold ticks_get. pose proof (sm_ticks _ _ _ _ H (k, i)) as P. destruct (s_ticks s !! (k, i)), (s_ticks s' !! (k, i)); cbn in *; auto; contradiction. Qed.
  Lemma positions_lookup i : seen ow u (fst i) ->
    s_positions s !! i = s_positions s' !! i /\ forall p, s_positions s !! i = Some p -> posok p.
  Proof.
    intros S. pose proof (sm_positions _ _ _ _ H i S) as P. destruct (s_positions s !! i), (s_positions s' !! i); cbn in *; try contradiction.
    - destruct P as [-> P]. split; [reflexivity|]. now intros ? [= <-].
    - split; [reflexivity|]. intros ? [=].
  Qed.
  Lemma positions_get_sim v i : v <> u -> rrel (fun p q => p = q /\ posok p) (positions_get s v i) (positions_get s' v i).
  Proof.
    intros S. unfold positions_get. destruct (positions_lookup (v, i) (or_intror S)) as [E P]. rewrite <- E. destruct (s_positions s !! (v, i)); cbn; auto.
  Qed.
  Lemma admin_sim e : is_caller_admin e s = is_caller_admin e s'.
  Proof. unfold is_caller_admin. now rewrite (sm_admin _ _ _ _ H). Qed.

  Lemma get_or_create_sim ts k i :
    rrel (fun a b => tsame (fst a) (fst b) /\ snd a = snd b) (get_or_create_tick s ts k i) (get_or_create_tick s' ts k i).
  Proof.
    unfold get_or_create_tick. pose proof (sm_ticks _ _ _ _ H (k, i)) as P.
    destruct (s_ticks s !! (k, i)), (s_ticks s' !! (k, i)); cbn in P; try contradiction; [cbn; auto|].
    apply (rrel_bind tsame); [|intros a b Hab; cbn; auto]. apply unwrap_rel. unfold create_tick.
    apply rrel_bind_same. intros _ _. eapply rrel_bind; [apply pools_get_sim|]. intros p q [[v ->] B]. unfold tick_create.
    apply rrel_bind_same. intros sp _. cbn. split; [exists true; split; [reflexivity|now left]|cbn; lia].
  Qed.

  Lemma pools_update_sim k p q : psame p q -> rrel (sim ow u) (pools_update s k p) (pools_update s' k q).
  Proof. intros P. unfold pools_update. eapply rrel_bind; [apply pools_get_sim|]. intros _ _ _. cbn. now apply sim_pools. Qed.
  Lemma pools_add_sim k p q : psame p q -> rrel (sim ow u) (pools_add s k p) (pools_add s' k q).
  Proof.
    intros P. unfold pools_add. pose proof (sm_pools _ _ _ _ H k) as Q.
    destruct (s_pools s !! k), (s_pools s' !! k); cbn in *; try contradiction; auto. now apply sim_pools.
  Qed.
  Lemma pool_keys_add_sim k : rrel (sim ow u) (pool_keys_add s k) (pool_keys_add s' k).
  Proof.
    unfold pool_keys_add. destruct (sm_keys _ _ _ _ H) as (E1 & E2 & E3). rewrite E1, E2, E3.
    destruct (s_pool_keys s' !! k); cbn; [reflexivity|]. destruct H. constructor; cbn; auto.
  Qed.
  Lemma ticks_update_sim k i t t' : tsame t t' -> rrel (sim ow u) (ticks_update s k i t) (ticks_update s' k i t').
  Proof. intros P. unfold ticks_update. eapply rrel_bind; [apply ticks_get_sim|]. intros _ _ _. cbn. now apply sim_ticks. Qed.
  Lemma ticks_add_sim k i t t' : tsame t t' -> rrel (sim ow u) (ticks_add s k i t) (ticks_add s' k i t').
  Proof.
    intros P. unfold ticks_add. pose proof (sm_ticks _ _ _ _ H (k, i)) as Q.
    destruct (s_ticks s !! (k, i)), (s_ticks s' !! (k, i)); cbn in *; try contradiction; auto. now apply sim_ticks.
  Qed.
  Lemma ticks_remove_sim k i : rrel (sim ow u) (ticks_remove s k i) (ticks_remove s' k i).
  Proof. unfold ticks_remove. eapply rrel_bind; [apply ticks_get_sim|]. intros _ _ _. cbn. now apply sim_ticks_delete. Qed.
  Lemma positions_insert_rel (M M' : gmap (actor_id * Z) position) j p :
    posrel ow u M M' -> posok p -> posrel ow u (<[j := p]> M) (<[j := p]> M').
  Proof.
    intros P Hp i S. destruct (decide (j = i)) as [->|N].
    - rewrite !lookup_insert. cbn. auto.
    - rewrite !lookup_insert_ne by exact N. auto.
  Qed.
  Lemma positions_delete_rel (M M' : gmap (actor_id * Z) position) j : posrel ow u M M' -> posrel ow u (delete j M) (delete j M').
  Proof.
    intros P i S. destruct (decide (j = i)) as [->|N].
    - rewrite !lookup_delete. exact Logic.I.
    - rewrite !lookup_delete_ne by exact N. auto.
  Qed.
  Lemma positions_add_sim v p : posok p -> sim ow u (positions_add s v p) (positions_add s' v p).
  Proof.
    intros P. unfold positions_add.
    assert (D : seen ow u v \/ ~ seen ow u v).
    { unfold seen. destruct ow; [auto|]. destruct (Z.eq_dec v u); [right|left]; intuition congruence. }
    destruct D as [S|S].
    - rewrite (sm_length _ _ _ _ H v S). apply sim_positions; [auto|]. apply positions_insert_rel; [apply H|exact P].
    - apply sim_positions; [contradiction|]. intros i Si.
      assert (N : forall n, (v, n) <> i) by (intros n <-; now apply S). rewrite !lookup_insert_ne by auto. now apply (sm_positions _ _ _ _ H).
  Qed.
  Lemma positions_update_sim v i p : v <> u -> posok p -> rrel (sim ow u) (positions_update s v i p) (positions_update s' v i p).
  Proof.
    intros N P. unfold positions_update. rewrite (sm_length _ _ _ _ H v (or_intror N)). apply rrel_bind_same. intros _ _. cbn.
    apply sim_positions0. apply positions_insert_rel; [apply H|exact P].
  Qed.
  Lemma positions_remove_sim v i : v <> u ->
    rrel (fun a b => sim ow u (fst a) (fst b) /\ snd a = snd b /\ posok (snd a)) (positions_remove s v i) (positions_remove s' v i).
  Proof.
    intros N. unfold positions_remove. rewrite (sm_length _ _ _ _ H v (or_intror N)). eapply rrel_bind; [now apply positions_get_sim|]. intros p q [<- P].
    destruct (i <? _) eqn:El; cbn [bind].
    - destruct (positions_lookup (v, (positions_get_length s' v - 1) mod M32) (or_intror N)) as [E Q]. rewrite <- E.
      destruct (s_positions s !! _) as [lp|]; cbn [expect bind rrel]; [|exact Logic.I]. cbn. split; [|auto].
      apply sim_positions; [auto|]. apply positions_insert_rel; [apply positions_delete_rel, H|auto].
    - cbn. split; [|auto]. apply sim_positions; [auto|]. apply positions_delete_rel, H.
  Qed.
  Lemma increase_sim t v a : v <> u -> rrel (sim ow u) (increase_token_balance s t v a) (increase_token_balance s' t v a).
  Proof.
    intros Hv. unfold increase_token_balance. destruct (a =? 0); [exact H|]. rewrite (sm_balances _ _ _ _ H v Hv).
    apply rrel_bind_same. intros b _. cbn. now apply sim_balances.
  Qed.
  Lemma decrease_sim t v a : v <> u ->
    rrel (fun x y => sim ow u (fst x) (fst y) /\ snd x = snd y) (decrease_token_balance s t v a) (decrease_token_balance s' t v a).
  Proof.
    intros Hv. unfold decrease_token_balance. destruct (bool_decide (a = Some 0)); [split; [exact H|reflexivity]|].
    rewrite (sm_balances _ _ _ _ H v Hv). apply rrel_bind_same. intros tk _. apply rrel_bind_same. intros bal _.
    assert (R : rrel (fun x y => sim ow u (fst x) (fst y) /\ snd x = snd y)
      (if bool_decide (delete t tk = ∅) then Ok (set_balances (delete v (s_balances s)) s, bal)
       else Ok (set_balances (<[v:=delete t tk]> (s_balances s)) s, bal))
      (if bool_decide (delete t tk = ∅) then Ok (set_balances (delete v (s_balances s')) s', bal)
       else Ok (set_balances (<[v:=delete t tk]> (s_balances s')) s', bal))).
    { destruct (bool_decide _); split; [apply sim_balances_delete|reflexivity|now apply sim_balances|reflexivity]. }
    destruct a as [a|]; [|exact R]. destruct (negb (a =? bal)); [|exact R].
    apply rrel_bind_same. intros b _. split; [|reflexivity]. now apply sim_balances.
  Qed.
  Lemma flip_sim v i sp k : rrel (fun b b' => sim ow u (set_bitmap b s) (set_bitmap b' s'))
      (tickmap_flip (s_bitmap s) v i sp k) (tickmap_flip (s_bitmap s') v i sp k).
  Proof.
    unfold tickmap_flip. apply rrel_bind_same. intros [c bit] _. cbv zeta.
    rewrite (sm_bitmap _ _ _ _ H k c). apply rrel_bind_same. intros _ _. cbn. now apply sim_bitmap.
  Qed.
End sim.

Lemma add_tick_sim ow u s s' k t t' : sim ow u s s' -> tsame t t' -> rrel (sim ow u) (add_tick s k t) (add_tick s' k t').
Proof.
  intros H T. assert (EI : t_index t' = t_index t) by (destruct T as [(b & -> & _) _]; reflexivity).
  unfold add_tick. rewrite EI. eapply rrel_bind; [exact (ticks_add_sim ow u _ _ H k _ _ _ T)|]. intros a b Hab.
  eapply rrel_bind; [exact (flip_sim ow u _ _ Hab _ _ _ _)|]. intros c d Hcd. exact Hcd.
Qed.
Lemma remove_tick_sim ow u s s' k t t' : sim ow u s s' -> tsame t t' -> rrel (sim ow u) (remove_tick s k t) (remove_tick s' k t').
Proof.
  intros H T. assert (EI : t_index t' = t_index t /\ t_liquidity_gross t' = t_liquidity_gross t) by (destruct T as [(b & -> & _) _]; auto).
  destruct EI as [E1 E2]. unfold remove_tick. rewrite E1, E2. apply rrel_bind_same. intros _ _.
  eapply rrel_bind; [exact (flip_sim ow u _ _ H _ _ _ _)|]. intros c d Hcd. exact (ticks_remove_sim ow u _ _ Hcd _ _).
Qed.
Lemma ticks_update_sim' ow u s s' k t t' : sim ow u s s' -> tsame t t' ->
  rrel (sim ow u) (ticks_update s k (t_index t) t) (ticks_update s' k (t_index t') t').
Proof.
  intros H T. assert (EI : t_index t' = t_index t) by (destruct T as [(b & -> & _) _]; reflexivity). rewrite EI. exact (ticks_update_sim ow u _ _ H k _ _ _ T).
Qed.
Lemma fold_ticks_sim ow u k ts ts' : Forall2 tsame ts ts' -> forall s s', sim ow u s s' ->
  rrel (sim ow u) (foldM_res (fun s t => ticks_update s k (t_index t) t) ts s)
               (foldM_res (fun s t => ticks_update s k (t_index t) t) ts' s').
Proof.
  induction 1 as [|t t' ts ts' T _ IH]; intros s s' H; cbn [foldM_res]; [exact H|].
  eapply rrel_bind; [exact (ticks_update_sim' ow u _ _ k _ _ H T)|]. intros a b Hab. now apply IH.
Qed.

(** ** Swaps *)
Definition lsame (l m : swap_loop_state) : Prop :=
  psame (l_pool l) (l_pool m) /\ l_remaining m = l_remaining l /\ l_in m = l_in l /\ l_out m = l_out l /\
  l_fee m = l_fee l /\ Forall2 tsame (l_ticks l) (l_ticks m).

Lemma iteration_same ow u s s' k d bi lim tl ts l m : sim ow u s s' -> lsame l m ->
  rrel lsame (swap_iteration s k d bi lim tl ts l) (swap_iteration s' k d bi lim tl ts m).
Proof.
  intros H (P & E1 & E2 & E3 & E4 & F). unfold swap_iteration.
  assert (EP : p_sqrt_price (l_pool m) = p_sqrt_price (l_pool l) /\ p_liquidity (l_pool m) = p_liquidity (l_pool l) /\
    p_current_tick_index (l_pool m) = p_current_tick_index (l_pool l)) by (destruct P as [[v ->] _]; auto).
  destruct EP as (-> & -> & ->). rewrite E1, E2, E3, E4.
  rewrite <- (sm_fee _ _ _ _ H). rewrite (closer_same (s_bitmap s) (s_bitmap s')) by (intros j; apply (sm_bitmap _ _ _ _ H)).
  apply rrel_bind_same. intros [sl lt] _. apply rrel_bind_same. intros r _. apply rrel_bind_same. intros ipf _. apply rrel_bind_same. intros rem _.
  eapply rrel_bind; [apply unwrap_rel; apply add_fee_same; exact P|].
  intros p1 p2 P1. apply rrel_bind_same. intros ef _. apply rrel_bind_same. intros ti _. apply rrel_bind_same. intros to_ _.
  cbn [set_sqrt_price p_sqrt_price]. apply rrel_bind_same. intros _ _.
  apply (rrel_bind usame).
  { destruct lt as [[i [|]]|]; [|cbn; reflexivity|exact Logic.I].
    eapply rrel_bind; [apply (ticks_get_sim _ _ _ _ H)|]. intros a b Hab. exact Hab. }
  intros tk tk' TK. eapply rrel_bind.
  { apply (update_tick_same _ _ r sl tk tk' rem bi d ts (s_protocol_fee s) (pk_fee_tier k)); [|exact TK].
    destruct P1 as [[v ->] B]. split; [exists v; reflexivity|exact B]. }
  intros [[p3 tk3] z] [[p4 tk4] z'] (P3 & T3 & EZ). cbn [fst snd] in P3, T3, EZ. subst z'. destruct z as [[add rem'] hc].
  apply rrel_bind_same. intros ti' _.
  assert (EC : p_current_tick_index p4 = p_current_tick_index p3) by (destruct P3 as [[v ->] _]; reflexivity).
  rewrite EC. apply rrel_bind_same. intros _ _. cbn. unfold lsame. cbn [l_pool l_remaining l_in l_out l_fee l_ticks].
  repeat (split; [auto; fail|]). destruct tk3, tk4; cbn in T3; try contradiction; auto.
  destruct hc; [|auto]. apply Forall2_app; auto.
Qed.

Section Two.
  Context {S : Type} (fin : S -> bool) (b0 b1 : S -> res S) (R : S -> S -> Prop).
  Hypothesis fin_R : forall l m, R l m -> fin m = fin l.
  Hypothesis step : forall l m, R l m -> rrel R (b0 l) (b1 m).
  Definition prog_rel (x y : progress S) : Prop :=
    match x, y with Cont a, Cont b => R a b | Stop a, Stop b => rrel R a b | _, _ => False end.
  Lemma iterate_rel n : forall l m, R l m -> prog_rel (iterate fin b0 n l) (iterate fin b1 n m).
  Proof using fin_R step.
    induction n as [|n IH]; intros l m H; cbn [iterate].
    - unfold loop_once. rewrite (fin_R _ _ H). destruct (fin l); [exact H|]. pose proof (step _ _ H) as K.
      destruct (b0 l), (b1 m); cbn in K |- *; auto; contradiction.
    - specialize (IH l m H) as K. destruct (iterate fin b0 n l), (iterate fin b1 n m); cbn in K |- *; auto; contradiction.
  Qed.
  Lemma while_rel l m : R l m -> rrel R (while_loop fin b0 l) (while_loop fin b1 m).
  Proof using fin_R step.
    unfold while_loop. generalize 100%nat. intros n H. pose proof (iterate_rel n l m H) as K.
    destruct (iterate fin b0 n l), (iterate fin b1 n m); cbn in K |- *; auto; contradiction.
  Qed.
End Two.

Definition csame (a b : calculate_swap_result) : Prop :=
  cs_amount_in b = cs_amount_in a /\ cs_amount_out b = cs_amount_out a /\ cs_start_sqrt_price b = cs_start_sqrt_price a /\
  cs_target_sqrt_price b = cs_target_sqrt_price a /\ cs_fee b = cs_fee a /\ psame (cs_pool a) (cs_pool b) /\
  Forall2 tsame (cs_ticks a) (cs_ticks b).

Lemma calculate_swap_sim ow u s s' ts k d a bi lim : sim ow u s s' ->
  rrel csame (calculate_swap s ts k d a bi lim) (calculate_swap s' ts k d a bi lim).
Proof.
  intros H. unfold calculate_swap. apply rrel_bind_same. intros _ _.
  eapply rrel_bind; [apply (pools_get_sim _ _ _ _ H)|]. intros p q P.
  assert (EP : p_sqrt_price q = p_sqrt_price p) by (destruct P as [[v ->] _]; reflexivity). rewrite EP.
  apply rrel_bind_same. intros _ _. apply rrel_bind_same. intros tl _.
  apply (rrel_bind lsame).
  - apply while_rel with (R := lsame).
    + intros l m (_ & -> & _). reflexivity.
    + intros l m L. exact (iteration_same ow u s s' k d bi lim tl ts l m H L).
    + unfold lsame. cbn. auto 10.
  - intros l m (P' & E1 & E2 & E3 & E4 & F). rewrite E3. apply rrel_bind_same. intros _ _. cbn. unfold csame. cbn.
    rewrite E2, E4. repeat (split; [auto; fail|]).
    split; [destruct P' as [[v ->] _]; reflexivity|]. auto.
Qed.

(** ** Positions *)
Lemma tick_update_same t t' d mx up dep : 0 <= d < M256 -> tsame t t' ->
  rrel tsame (tick_update t d mx up dep) (tick_update t' d mx up dep).
Proof.
  intros Hd [(b & -> & Hb) Ht]. unfold tick_update, tick_new_liquidity_gross, tick_new_liquidity_change.
  cbn [with_sign t_index t_sign t_liquidity_change t_liquidity_gross t_sqrt_price t_fee_growth_outside_x t_fee_growth_outside_y t_seconds_outside].
  apply rrel_bind_same. intros g _.
  assert (F : forall sg c, 0 <= c -> tsame
    (mkTick (t_index t) sg c g (t_sqrt_price t) (t_fee_growth_outside_x t) (t_fee_growth_outside_y t) (t_seconds_outside t))
    (mkTick (t_index t) sg c g (t_sqrt_price t) (t_fee_growth_outside_x t) (t_fee_growth_outside_y t) (t_seconds_outside t))).
  { intros sg c Hc. split; [exists sg; split; [reflexivity|now left]|exact Hc]. }
  destruct Hb as [->|E0].
  - unfold dec_sub, dec_add, checked_sub, checked_add.
    repeat match goal with |- context [if ?c then _ else _] => let E := fresh "C" in destruct c eqn:E end; cbn [bind expect rrel];
      first [exact Logic.I | apply F; lia].
  - rewrite E0. replace (d <? 0) with false by lia. unfold dec_sub, dec_add, checked_sub, checked_add.
    replace (0 <=? d) with true by lia. replace (0 + d <? M256) with true by lia. cbn [bind expect].
    replace (d - 0) with d by lia. replace (0 + d) with d by lia.
    destruct (t_sign t), b, (xorb dep up); cbn [xorb negb bind rrel]; apply F; lia.
Qed.

Definition msame (a b : position * pool * tick * tick * (Z * Z)) : Prop :=
  let '(pos, p, u, l, xy) := a in let '(pos', p', u', l', xy') := b in
  pos = pos' /\ posok pos /\ psame p p' /\ tsame u u' /\ tsame l l' /\ xy = xy'.

Lemma position_modify_same pos p q up up' lo lo' d add ts sp : posok pos -> 0 <= d < M256 -> psame p q -> tsame up up' -> tsame lo lo' ->
  rrel msame (position_modify pos p up lo d add ts sp) (position_modify pos q up' lo' d add ts sp).
Proof.
  intros HP Hd P U L. unfold position_modify. cbv zeta. apply rrel_bind_same. intros mx _.
  eapply rrel_bind; [now apply tick_update_same|]. intros l l' SL. eapply rrel_bind; [now apply tick_update_same|]. intros w w' SU.
  destruct P as [[v ->] B]. cbn [set_last_timestamp p_current_tick_index p_fee_growth_global_x p_fee_growth_global_y].
  assert (EL : t_index l' = t_index l /\ t_fee_growth_outside_x l' = t_fee_growth_outside_x l /\ t_fee_growth_outside_y l' = t_fee_growth_outside_y l)
    by (destruct SL as [(b & -> & _) _]; auto).
  assert (EU : t_index w' = t_index w /\ t_fee_growth_outside_x w' = t_fee_growth_outside_x w /\ t_fee_growth_outside_y w' = t_fee_growth_outside_y w)
    by (destruct SU as [(b & -> & _) _]; auto).
  destruct EL as (-> & -> & ->), EU as (-> & -> & ->). destruct (calculate_fee_growth_inside _ _ _ _ _ _ _ _ _) as [fx fy].
  apply (rrel_bind (fun a b => a = b /\ posok a)).
  { unfold position_update. apply rrel_bind_same. intros _ _. apply rrel_bind_same. intros ox _. apply rrel_bind_same. intros oy _.
    apply (rrel_bind (fun a b => a = b /\ 0 <= a < M256)).
    - unfold position_new_liquidity, posok in *. apply rrel_bind_same. intros _ _. destruct add.
      + unfold dec_checked_add, checked_add. destruct (_ <? _) eqn:E; cbn; auto. split; [reflexivity|lia].
      + unfold dec_checked_sub, checked_sub. destruct (_ <=? _) eqn:E; cbn; auto. split; [reflexivity|lia].
    - intros z ? [<- Hz]. apply rrel_bind_same. intros ox' _. apply rrel_bind_same. intros oy' _. cbn. split; [reflexivity|exact Hz]. }
  intros pos1 ? [<- HP1]. apply (rrel_bind (fun a b => psame (fst a) (fst b) /\ snd a = snd b)).
  { unfold pool_update_liquidity. cbn [set_last_timestamp p_current_tick_index p_sqrt_price p_liquidity].
    apply rrel_bind_same. intros [[x y] upd] _. destruct (negb upd).
    - cbn. split; [|reflexivity]. split; [exists ts; reflexivity|exact B].
    - destruct add.
      + eapply rrel_bind; [apply checked_add_rel|]. intros z ? (<- & E2 & E3). cbn. split; [|reflexivity].
        split; [exists ts; reflexivity|cbn; lia].
      + eapply rrel_bind; [apply checked_sub_rel|]. intros z ? (<- & E2 & E3). cbn. split; [|reflexivity].
        split; [exists ts; reflexivity|cbn; lia]. }
  intros [p1 xy] [p2 xy'] [P1 EX]. cbn in P1, EX. subst xy'. cbn. auto 10.
Qed.

(** ** Calls of other users *)
Definition srel {A} (ow : bool) (u : actor_id) (R : A -> A -> Prop) (x y : state * A) : Prop := sim ow u (fst x) (fst y) /\ R (snd x) (snd y).

Section calls.
  Context (ow : bool) (u : actor_id).

  Lemma create_position_sim e s s' k lo up l sl su : sim ow u s s' -> e_caller e <> u -> 0 <= l < M256 ->
    rrel (srel ow u eq) (create_position e s k lo up l sl su) (create_position e s' k lo up l sl su).
  Proof.
    intros H Hu Hl. unfold create_position. cbv zeta.
    apply rrel_bind_same. intros _ _. apply rrel_bind_same. intros _ _.
    eapply rrel_bind; [apply (pools_get_sim ow u _ _ H)|]. intros p q P.
    eapply rrel_bind; [apply (get_or_create_sim ow u _ _ H)|]. intros [lt b1] [lt' b1'] [TL E1]. cbn in TL, E1. subst b1'.
    eapply rrel_bind; [apply (get_or_create_sim ow u _ _ H)|]. intros [ut b2] [ut' b2'] [TU E2]. cbn in TU, E2. subst b2'.
    apply (rrel_bind msame).
    { unfold position_create. assert (EP : p_sqrt_price q = p_sqrt_price p) by (destruct P as [[v ->] _]; reflexivity).
      assert (EI : t_index lt' = t_index lt /\ t_index ut' = t_index ut) by (destruct TL as [(? & -> & _) _], TU as [(? & -> & _) _]; auto).
      destruct EI as [-> ->]. rewrite EP. apply rrel_bind_same. intros _ _. apply unwrap_rel. apply position_modify_same; auto.
      unfold posok. cbn. reflexivity || (vm_compute; split; [intros [=]|reflexivity]). }
    intros [[[[pos p'] u'] l'] [x y]] [[[[pos2 p2'] u2'] l2'] [x2 y2]] (<- & HP & P' & U' & L' & [= <- <-]).
    eapply rrel_bind; [exact (decrease_sim ow u _ _ H _ _ _ Hu)|]. intros [s1 v1] [s1' v1'] [H1 _]. cbn in H1.
    eapply rrel_bind; [exact (decrease_sim ow u _ _ H1 _ _ _ Hu)|]. intros [s2 v2] [s2' v2'] [H2 _]. cbn in H2.
    eapply rrel_bind; [exact (pools_update_sim ow u _ _ H2 _ _ _ P')|]. intros s3 s3' H3.
    pose proof (positions_add_sim ow u _ _ H3 (e_caller e) pos HP) as H4.
    eapply rrel_bind; [destruct b1; [exact (add_tick_sim ow u _ _ k _ _ H4 L')|exact (ticks_update_sim' ow u _ _ k _ _ H4 L')]|]. intros s5 s5' H5.
    eapply rrel_bind; [destruct b2; [exact (add_tick_sim ow u _ _ k _ _ H5 U')|exact (ticks_update_sim' ow u _ _ k _ _ H5 U')]|]. intros s6 s6' H6.
    split; [exact H6|reflexivity].
  Qed.

  Lemma pay_sim s s' k v x y (A : Type) (a : A) : sim ow u s s' -> v <> u ->
    rrel (srel ow u eq)
      (let* s := increase_token_balance s (pk_token_x k) v x in
       let* s := increase_token_balance s (pk_token_y k) v y in Ok (s, a))
      (let* s := increase_token_balance s' (pk_token_x k) v x in
       let* s := increase_token_balance s (pk_token_y k) v y in Ok (s, a)).
  Proof.
    intros H Hu. eapply rrel_bind; [exact (increase_sim ow u _ _ H _ _ _ Hu)|]. intros s1 s1' H1.
    eapply rrel_bind; [exact (increase_sim ow u _ _ H1 _ _ _ Hu)|]. intros s2 s2' H2. split; [exact H2|reflexivity].
  Qed.

  Lemma remove_position_sim e s s' i : sim ow u s s' -> e_caller e <> u ->
    rrel (srel ow u eq) (remove_position e s i) (remove_position e s' i).
  Proof.
    intros H Hu. unfold remove_position. cbv zeta.
    eapply rrel_bind; [exact (positions_get_sim ow u _ _ H _ _ Hu)|]. intros pos ? [<- HP].
    eapply rrel_bind; [apply (ticks_get_sim ow u _ _ H)|]. intros lt lt' TL.
    eapply rrel_bind; [apply (ticks_get_sim ow u _ _ H)|]. intros ut ut' TU.
    eapply rrel_bind; [apply (pools_get_sim ow u _ _ H)|]. intros p q P.
    apply (rrel_bind (fun a b : position * pool * tick * tick * (Z * Z) * bool * bool =>
      msame (fst (fst a)) (fst (fst b)) /\ snd (fst a) = snd (fst b) /\ snd a = snd b)).
    { unfold position_remove. eapply rrel_bind; [apply unwrap_rel; apply (position_modify_same _ _ _ _ _ _ _ _ _ _ _ HP HP P TU TL)|].
      intros [[[[pos1 p'] u'] l'] [x y]] [[[[pos2 p2'] u2'] l2'] [x2 y2]] (<- & HP1 & P' & U' & L' & [= <- <-]).
      apply rrel_bind_same. intros x1 _. apply rrel_bind_same. intros y1 _.
      assert (EG : t_liquidity_gross l2' = t_liquidity_gross l' /\ t_liquidity_gross u2' = t_liquidity_gross u')
        by (destruct L' as [(? & -> & _) _], U' as [(? & -> & _) _]; auto). destruct EG as [-> ->].
      cbn. auto 10. }
    intros [[[[[[pos1 p'] u'] l'] [x y]] b1] b2] [[[[[[pos2 p2'] u2'] l2'] [x2 y2]] b1'] b2'] (M & E1 & E2). cbn in M, E1, E2. subst b1' b2'.
    destruct M as (<- & HP1 & P' & U' & L' & [= <- <-]).
    eapply rrel_bind; [exact (pools_update_sim ow u _ _ H _ _ _ P')|]. intros s3 s3' H3.
    eapply rrel_bind; [destruct b1; [exact (remove_tick_sim ow u _ _ _ _ _ H3 L')|exact (ticks_update_sim ow u _ _ H3 _ _ _ _ L')]|]. intros s5 s5' H5.
    eapply rrel_bind; [destruct b2; [exact (remove_tick_sim ow u _ _ _ _ _ H5 U')|exact (ticks_update_sim ow u _ _ H5 _ _ _ _ U')]|]. intros s6 s6' H6.
    eapply rrel_bind; [exact (positions_remove_sim ow u _ _ H6 _ _ Hu)|]. intros [s7 v7] [s7' v7'] [H7 _]. cbn in H7.
    now apply pay_sim.
  Qed.

  Lemma claim_fee_sim e s s' i : sim ow u s s' -> e_caller e <> u ->
    rrel (srel ow u eq) (claim_fee e s i) (claim_fee e s' i).
  Proof.
    intros H Hu. unfold claim_fee. cbv zeta.
    eapply rrel_bind; [exact (positions_get_sim ow u _ _ H _ _ Hu)|]. intros pos ? [<- HP].
    eapply rrel_bind; [apply (ticks_get_sim ow u _ _ H)|]. intros lt lt' TL.
    eapply rrel_bind; [apply (ticks_get_sim ow u _ _ H)|]. intros ut ut' TU.
    eapply rrel_bind; [apply (pools_get_sim ow u _ _ H)|]. intros p q P.
    apply (rrel_bind msame).
    { unfold position_claim_fee. assert (H0 : 0 <= 0 < M256) by (split; [lia|reflexivity]).
      eapply rrel_bind; [apply unwrap_rel; apply (position_modify_same _ _ _ _ _ _ _ _ _ _ _ HP H0 P TU TL)|].
      intros [[[[pos1 p'] u'] l'] [x y]] [[[[pos2 p2'] u2'] l2'] [x2 y2]] (<- & HP1 & P' & U' & L' & [= <- <-]).
      cbn. auto 10. }
    intros [[[[pos1 p'] u'] l'] [x y]] [[[[pos2 p2'] u2'] l2'] [x2 y2]] (<- & HP1 & P' & U' & L' & [= <- <-]).
    eapply rrel_bind; [exact (positions_update_sim ow u _ _ H _ _ _ Hu HP1)|]. intros s2 s2' H2.
    eapply rrel_bind; [exact (pools_update_sim ow u _ _ H2 _ _ _ P')|]. intros s3 s3' H3.
    eapply rrel_bind; [exact (ticks_update_sim' ow u _ _ _ _ _ H3 U')|]. intros s5 s5' H5.
    eapply rrel_bind; [exact (ticks_update_sim' ow u _ _ _ _ _ H5 L')|]. intros s6 s6' H6.
    now apply pay_sim.
  Qed.

  Lemma swap_sim e s s' k d a b lim : sim ow u s s' -> e_caller e <> u ->
    rrel (srel ow u csame) (swap e s k d a b lim) (swap e s' k d a b lim).
  Proof.
    intros H Hu. unfold swap. cbv zeta. eapply rrel_bind; [exact (calculate_swap_sim ow u s s' _ k d a b lim H)|].
    intros r r' C. pose proof C as (E1 & E2 & E3 & E4 & E5 & P & F).
    eapply rrel_bind; [exact (fold_ticks_sim ow u k _ _ F _ _ H)|]. intros s2 s2' H2.
    eapply rrel_bind; [exact (pools_update_sim ow u _ _ H2 _ _ _ P)|]. intros s3 s3' H3.
    destruct (if d then _ else _) as [t1 t2]. rewrite E1, E2.
    eapply rrel_bind; [exact (decrease_sim ow u _ _ H3 _ _ _ Hu)|]. intros [s4 v4] [s4' v4'] [H4 _]. cbn in H4.
    eapply rrel_bind; [exact (increase_sim ow u _ _ H4 _ _ _ Hu)|]. intros s5 s5' H5. split; [exact H5|exact C].
  Qed.

  Lemma route_swap_sim e hops : e_caller e <> u -> forall a s s', sim ow u s s' ->
    rrel (srel ow u eq) (route_swap e s a hops) (route_swap e s' a hops).
  Proof.
    intros Hu. induction hops as [|h hops IH]; intros a s s' H; cbn [route_swap]; [split; [exact H|reflexivity]|].
    eapply rrel_bind; [apply swap_sim; [exact H|exact Hu]|]. intros [s1 r] [s1' r'] [H1 C]. cbn in H1, C.
    destruct C as (_ & -> & _). now apply IH.
  Qed.

  Lemma swap_route_sim e s s' a x sl hops : e_caller e <> u -> sim ow u s s' ->
    rrel (srel ow u eq) (swap_route e s a x sl hops) (swap_route e s' a x sl hops).
  Proof.
    intros Hu H. unfold swap_route. eapply rrel_bind; [now apply route_swap_sim|].
    intros [s1 r] [s1' r'] [H1 E]. cbn in E, H1. subst r'. apply rrel_bind_same. intros m _.
    apply rrel_bind_same. intros _ _. split; [exact H1|reflexivity].
  Qed.

  Lemma withdraw_protocol_fee_sim e s s' k : sim ow u s s' -> e_caller e <> u ->
    rrel (srel ow u eq) (withdraw_protocol_fee e s k) (withdraw_protocol_fee e s' k).
  Proof.
    intros H Hu. unfold withdraw_protocol_fee. cbv zeta.
    eapply rrel_bind; [apply (pools_get_sim ow u _ _ H)|]. intros p q [[v ->] B]. cbn [set_last_timestamp p_fee_receiver].
    apply rrel_bind_same. intros _ _. unfold pool_withdraw_protocol_fee. cbn [set_last_timestamp p_fee_protocol_token_x p_fee_protocol_token_y].
    apply (rrel_bind (sim ow u)); [|intros s3 s3' H3; exact (pay_sim s3 s3' k (e_caller e) _ _ unit tt H3 Hu)].
    apply (pools_update_sim ow u _ _ H). split; [exists v; reflexivity|exact B].
  Qed.

  Lemma withdraw_vara_sim e s s' v : sim ow u s s' -> e_caller e <> u ->
    rrel (srel ow u eq) (withdraw_vara e s v) (withdraw_vara e s' v).
  Proof.
    intros H Hu. unfold withdraw_vara. eapply (rrel_bind (srel ow u eq)).
    - destruct v as [v|].
      + apply rrel_bind_same. intros _ _. exact (decrease_sim ow u _ _ H _ _ _ Hu).
      + pose proof (decrease_sim ow u s s' H VARA_ADDRESS (e_caller e) None Hu) as R.
        destruct (decrease_token_balance s _ _ _) as [x| | |], (decrease_token_balance s' _ _ _) as [y| | |]; cbn in R |- *;
          try contradiction; auto. split; [exact H|reflexivity].
    - intros [s1 r] [s1' r'] [H1 E]. cbn in E, H1. subst r'. apply rrel_bind_same. intros m _. split; [exact H1|reflexivity].
  Qed.

  Lemma create_pool_sim e s s' x y ft p t : sim ow u s s' ->
    rrel (srel ow u eq) (create_pool e s x y ft p t) (create_pool e s' x y ft p t).
  Proof.
    intros H. unfold create_pool. rewrite <- (sm_tiers _ _ _ _ H), <- (sm_admin _ _ _ _ H).
    apply rrel_bind_same. intros _ _. apply rrel_bind_same. intros _ _. apply rrel_bind_same. intros k _.
    assert (E : is_ok (pools_get s' k) = is_ok (pools_get s k)).
    { pose proof (pools_get_sim ow u _ _ H k) as P. destruct (pools_get s k), (pools_get s' k); cbn in *; auto; contradiction. }
    rewrite E. apply rrel_bind_same. intros _ _. apply (rrel_bind psame).
    { unfold pool_create. apply rrel_bind_same. intros ok _. apply rrel_bind_same. intros _ _. apply rrel_bind_same. intros sp _.
      cbn. split; [exists (e_timestamp e); reflexivity|]. cbn. split; [lia|reflexivity]. }
    intros q q' P. eapply rrel_bind; [exact (pools_add_sim ow u _ _ H _ _ _ P)|]. intros s1 s1' H1.
    eapply rrel_bind; [exact (pool_keys_add_sim ow u _ _ H1 _)|]. intros s2 s2' H2. split; [exact H2|reflexivity].
  Qed.

  Lemma csame_swap r r' : csame r r' -> same_swap r r'.
  Proof.
    intros (E1 & E2 & E3 & E4 & E5 & P & F). unfold same_swap. rewrite E1, E2, E3, E4, E5. repeat (split; [reflexivity|]).
    split; [now apply psame_spec in P as [P _]|]. eapply Forall2_impl; [exact F|]. intros t t' T. now apply tsame_spec in T as [T _].
  Qed.

  Lemma same_answer_refl (a : res reply) : (forall r, a <> Ok (RSwap r)) -> same_answer a a.
  Proof. intros N. destruct a as [[]| | |]; cbn; try reflexivity. exfalso. eapply N. reflexivity. Qed.

  Lemma told_sim {A} (f : A -> reply) s s' (r r' : res (state * A)) : sim ow u s s' -> (forall a q, f a <> RSwap q) ->
    rrel (srel ow u eq) r r' ->
    same_answer (told f r) (told f r') /\
    sim ow u (match drop_result r with Ok t => t | _ => s end) (match drop_result r' with Ok t => t | _ => s' end).
  Proof.
    intros H N. destruct r as [[t a]| | |], r' as [[t' a']| | |]; cbn; intros E; try contradiction; try (split; [congruence|exact H]).
    destruct E as [E1 E2]. cbn in E1, E2. subst a'. split; [|exact E1].
    destruct (f a) eqn:Ef; try reflexivity. exfalso. eapply N; eauto.
  Qed.

  Lemma call_sim s s' ev : event_wf ev -> not_by u ev -> sim ow u s s' ->
    same_answer (answer s ev) (answer s' ev) /\ sim ow u (exec_event s ev) (exec_event s' ev).
  Proof.
    intros W N H. destruct ev as [e o|v t a|v t a|m]; cbn [answer exec_event not_by] in *.
    - unfold exec_op, run_op. destruct W as [_ W]. destruct o; cbn [op_wf] in W.
      + apply told_sim; [exact H|discriminate|]. unfold change_protocol_fee. rewrite (admin_sim ow u _ _ H).
        apply rrel_bind_same. intros _ _. split; [|reflexivity]. cbn. destruct H. constructor; cbn; auto.
      + apply told_sim; [exact H|discriminate|]. unfold add_fee_tier. rewrite (admin_sim ow u _ _ H), (sm_tiers _ _ _ _ H).
        do 3 (apply rrel_bind_same; intros _ _). apply rrel_bind_same. intros l _. split; [|reflexivity]. cbn. destruct H. constructor; cbn; auto.
      + apply told_sim; [exact H|discriminate|]. unfold remove_fee_tier. rewrite (admin_sim ow u _ _ H), (sm_tiers _ _ _ _ H).
        apply rrel_bind_same; intros _ _. apply rrel_bind_same. intros l _. split; [|reflexivity]. cbn. destruct H. constructor; cbn; auto.
      + apply told_sim; [exact H|discriminate|]. now apply create_pool_sim.
      + apply told_sim; [exact H|discriminate|]. unfold change_fee_receiver. rewrite (admin_sim ow u _ _ H).
        apply rrel_bind_same; intros _ _. eapply rrel_bind; [apply (pools_get_sim ow u _ _ H)|]. intros p q [[v ->] B].
        apply (rrel_bind (sim ow u)); [|intros s3 s3' H3; split; [exact H3|reflexivity]].
        apply (pools_update_sim ow u _ _ H). split; [exists v; reflexivity|exact B].
      + apply told_sim; [exact H|discriminate|]. apply create_position_sim; auto. apply u256_M. tauto.
      + apply told_sim; [exact H|discriminate|]. now apply remove_position_sim.
      + apply told_sim; [exact H|discriminate|]. unfold transfer_position, positions_transfer. eapply (rrel_bind (sim ow u)).
        * eapply rrel_bind; [exact (positions_remove_sim ow u _ _ H _ _ N)|]. intros [s1 p] [s1' p'] (H1 & E & HP). cbn in E, H1, HP. subst p'.
          exact (positions_add_sim ow u _ _ H1 _ _ HP).
        * intros s1 s1' H1. split; [exact H1|reflexivity].
      + pose proof (swap_sim e s s' k x_to_y amount by_amount_in sqrt_price_limit H N) as R.
        destruct (swap e s _ _ _ _ _) as [[t r]| | |], (swap e s' _ _ _ _ _) as [[t' r']| | |]; cbn in R |- *; try contradiction;
          try (split; [congruence|exact H]). destruct R as [R1 R2]. split; [now apply csame_swap|exact R1].
      + apply told_sim; [exact H|discriminate|]. now apply swap_route_sim.
      + apply told_sim; [exact H|discriminate|]. now apply claim_fee_sim.
      + apply told_sim; [exact H|discriminate|]. now apply withdraw_protocol_fee_sim.
      + apply told_sim; [exact H|discriminate|]. unfold deposit_vara.
        eapply rrel_bind; [exact (increase_sim ow u _ _ H _ _ _ N)|]. intros s1 s1' H1. split; [exact H1|reflexivity].
      + apply told_sim; [exact H|discriminate|]. now apply withdraw_vara_sim.
    - pose proof (increase_sim ow u s s' H t v a N) as R.
      destruct (increase_token_balance s t v a), (increase_token_balance s' t v a); cbn in R |- *; try contradiction;
        split; auto; congruence.
    - pose proof (decrease_sim ow u s s' H t v a N) as R.
      destruct (decrease_token_balance s t v a) as [[]| | |], (decrease_token_balance s' t v a) as [[]| | |];
        cbn in R |- *; try contradiction; try (split; [congruence|exact H]). destruct R as [R1 ->]. split; [reflexivity|exact R1].
    - split; [reflexivity|]. destruct H. constructor; cbn; auto.
  Qed.

  Lemma run_sim evs : Forall event_wf evs -> Forall (not_by u) evs -> forall s s', sim ow u s s' ->
    Forall2 same_answer (answers s evs) (answers s' evs) /\ sim ow u (run s evs) (run s' evs).
  Proof.
    induction evs as [|ev evs IH]; intros W N s s' H; cbn; [split; [constructor|exact H]|].
    apply Forall_cons in W as [W1 W2], N as [N1 N2]. destruct (call_sim s s' ev W1 N1 H) as [A E].
    destruct (IH W2 N2 _ _ E) as [B C]. split; [constructor; auto|exact C].
  Qed.
End calls.

Lemma sim_same_but_for u s s' : sim true u s s' -> same_but_for u s s'.
Proof.
  intros H. pose proof (fun v => sm_length _ _ _ _ H v (or_introl eq_refl)) as HL.
  pose proof (fun i => positions_lookup _ _ _ _ H i (or_introl eq_refl)) as HP. destruct H. constructor; auto.
  - intros k. specialize (sm_pools0 k). destruct (s_pools s !! k), (s_pools s' !! k); cbn in *; auto. now apply psame_spec in sm_pools0 as [? _].
  - intros k i. specialize (sm_ticks0 (k, i)). destruct (s_ticks s !! (k, i)), (s_ticks s' !! (k, i)); cbn in *; auto. now apply tsame_spec in sm_ticks0 as [? _].
  - intros v i. unfold get_position, positions_get. now rewrite (proj1 (HP (v, i))).
Qed.
