(** Locality of calls: proofs for C70. *)
From Verif Require Import Base Decimal SqrtPriceM LogM ClammM FeeGrowthM Types TickmapM StorageM
  CollectionsM StateM ServiceM SpecHistory SpecIndep.
From stdpp Require Import gmap list.
From Coq Require Import ZArith Lia Bool.
Open Scope Z_scope.

(** ** States that agree on a list of parts *)
Definition eqon (F : list part) (s s' : state) : Prop :=
  s_admin s = s_admin s' /\ forall c, c ∈ F -> same_part c s s'.

Lemma same_part_refl c s : same_part c s s.
Proof. destruct c; cbn; repeat split. Qed.
Lemma same_part_sym c s s' : same_part c s s' -> same_part c s' s.
Proof. destruct c; cbn; intros H; repeat match goal with H : _ /\ _ |- _ => destruct H end; repeat split; intros; symmetry; auto. Qed.
Lemma same_part_trans c s1 s2 s3 : same_part c s1 s2 -> same_part c s2 s3 -> same_part c s1 s3.
Proof.
  destruct c; cbn; intros H H'; repeat match goal with H : _ /\ _ |- _ => destruct H end; repeat split; intros;
    etransitivity; eauto.
Qed.

(** Two outcomes of the same kind, with related values. *)
Definition rrel {A B} (Q : A -> B -> Prop) (r : res A) (r' : res B) : Prop :=
  match r, r' with
  | Ok a, Ok b => Q a b
  | Err e, Err e' => e = e'
  | Panic, Panic => True
  | Loop, Loop => True
  | _, _ => False
  end.

Lemma rrel_bind {A B C D} (Q : A -> B -> Prop) (Q' : C -> D -> Prop) r r' f g :
  rrel Q r r' -> (forall a b, Q a b -> rrel Q' (f a) (g b)) -> rrel Q' (bind r f) (bind r' g).
Proof. destruct r, r'; cbn; intros H HQ; auto; try contradiction. Qed.
Lemma rrel_bind_same {A C D} (Q' : C -> D -> Prop) (r : res A) f g :
  (forall a, r = Ok a -> rrel Q' (f a) (g a)) -> rrel Q' (bind r f) (bind r g).
Proof. destruct r; cbn; intros HQ; auto. Qed.
Lemma rrel_eq {A} (r r' : res A) : r = r' -> rrel eq r r'.
Proof. intros ->. destruct r'; cbn; auto. Qed.

(** Values next to a state. *)
Definition st_eq {A} (F : list part) (x y : state * A) : Prop := x.2 = y.2 /\ eqon F x.1 y.1.

(** ** Equal writes keep agreement *)
Ltac ins :=
  let E := fresh in
  match goal with
  | |- context [<[?k := _]> _ !! ?k'] =>
      destruct (decide (k = k')) as [E|E];
      [ rewrite E, ?lookup_insert | rewrite ?(lookup_insert_ne _ _ _ _ E) ]
  | |- context [delete ?k _ !! ?k'] =>
      destruct (decide (k = k')) as [E|E];
      [ rewrite E, ?lookup_delete | rewrite ?(lookup_delete_ne _ _ _ E) ]
  end.
Ltac parts :=
  let A := fresh in let H := fresh in let c := fresh in let Hc := fresh in
  intros [A H]; split; [exact A|]; intros c Hc; specialize (H c Hc); destruct c; cbn in *; try exact H;
  repeat match goal with H : _ /\ _ |- _ => destruct H end; repeat split; intros; auto; repeat ins; auto.

Lemma eqon_pools F s s' k p : eqon F s s' ->
  eqon F (set_pools (<[k := p]> (s_pools s)) s) (set_pools (<[k := p]> (s_pools s')) s').
Proof. parts. Qed.
Lemma eqon_ticks F s s' k p : eqon F s s' ->
  eqon F (set_ticks (<[k := p]> (s_ticks s)) s) (set_ticks (<[k := p]> (s_ticks s')) s').
Proof. parts. Qed.
Lemma eqon_ticks_delete F s s' k : eqon F s s' ->
  eqon F (set_ticks (delete k (s_ticks s)) s) (set_ticks (delete k (s_ticks s')) s').
Proof. parts. Qed.
Lemma eqon_bitmap F s s' k p : eqon F s s' ->
  eqon F (set_bitmap (<[k := p]> (s_bitmap s)) s) (set_bitmap (<[k := p]> (s_bitmap s')) s').
Proof. parts. Qed.
Lemma eqon_balances F s s' k p : eqon F s s' ->
  eqon F (set_balances (<[k := p]> (s_balances s)) s) (set_balances (<[k := p]> (s_balances s')) s').
Proof. parts. Qed.
Lemma eqon_balances_delete F s s' k : eqon F s s' ->
  eqon F (set_balances (delete k (s_balances s)) s) (set_balances (delete k (s_balances s')) s').
Proof. parts. Qed.
Lemma eqon_positions F s s' u n k p : eqon F s s' ->
  eqon F (set_positions (<[u := n]> (s_positions_length s)) (<[k := p]> (s_positions s)) s)
         (set_positions (<[u := n]> (s_positions_length s')) (<[k := p]> (s_positions s')) s').
Proof. parts. Qed.
Lemma eqon_positions0 F s s' k p : eqon F s s' ->
  eqon F (set_positions (s_positions_length s) (<[k := p]> (s_positions s)) s)
         (set_positions (s_positions_length s') (<[k := p]> (s_positions s')) s').
Proof. parts. Qed.
Lemma eqon_positions_delete F s s' u n k : eqon F s s' ->
  eqon F (set_positions (<[u := n]> (s_positions_length s)) (delete k (s_positions s)) s)
         (set_positions (<[u := n]> (s_positions_length s')) (delete k (s_positions s')) s').
Proof. parts. Qed.
Lemma eqon_positions_move F s s' u n k k' p : eqon F s s' ->
  eqon F (set_positions (<[u := n]> (s_positions_length s)) (<[k := p]> (delete k' (s_positions s))) s)
         (set_positions (<[u := n]> (s_positions_length s')) (<[k := p]> (delete k' (s_positions s'))) s').
Proof. parts. Qed.

(** ** Reads *)
Section reads.
  Context (F : list part) (s s' : state) (H : eqon F s s').

  Lemma pools_get_same k : PoolPart k ∈ F -> pools_get s k = pools_get s' k.
  Proof. intros Hk. apply (proj2 H) in Hk as (E & _). unfold pools_get. now rewrite E. Qed.
  Lemma ticks_get_same k i : PoolPart k ∈ F -> ticks_get s k i = ticks_get s' k i.
  Proof. intros Hk. apply (proj2 H) in Hk as (_ & E & _). unfold ticks_get. now rewrite E. Qed.
  Lemma positions_get_same u i : UserPart u ∈ F -> positions_get s u i = positions_get s' u i.
  Proof. intros Hk. apply (proj2 H) in Hk as (_ & _ & E). unfold positions_get. now rewrite E. Qed.
  Lemma positions_get_length_same u : UserPart u ∈ F -> positions_get_length s u = positions_get_length s' u.
  Proof. intros Hk. apply (proj2 H) in Hk as (_ & E & _). unfold positions_get_length. now rewrite E. Qed.
  Lemma chunk_at_same k j : PoolPart k ∈ F -> chunk_at (s_bitmap s) k j = chunk_at (s_bitmap s') k j.
  Proof. intros Hk. apply (proj2 H) in Hk as (_ & _ & E). unfold chunk_at. now rewrite E. Qed.
  Lemma admin_same e : is_caller_admin e s = is_caller_admin e s'.
  Proof. unfold is_caller_admin. now rewrite (proj1 H). Qed.
  Lemma get_or_create_tick_same t k i : PoolPart k ∈ F -> get_or_create_tick s t k i = get_or_create_tick s' t k i.
  Proof.
    intros Hk. unfold get_or_create_tick, create_tick. rewrite (pools_get_same k Hk).
    apply (proj2 H) in Hk as (_ & E & _). now rewrite E.
  Qed.
  Lemma position_part_same u i : UserPart u ∈ F -> pool_of_position s u i = pool_of_position s' u i.
  Proof. intros Hk. apply (proj2 H) in Hk as (_ & _ & E). unfold pool_of_position. now rewrite E. Qed.
End reads.

Lemma next_loop_same b b' k sp lc lb n : (forall j, chunk_at b k j = chunk_at b' k j) -> forall c bit,
  next_loop b k sp lc lb n c bit = next_loop b' k sp lc lb n c bit.
Proof. intros E. induction n as [|n IH]; intros c bit; cbn [next_loop]; [reflexivity|]. now rewrite E, IH. Qed.
Lemma prev_loop_same b b' k sp lc lb n : (forall j, chunk_at b k j = chunk_at b' k j) -> forall c bit,
  prev_loop b k sp lc lb n c bit = prev_loop b' k sp lc lb n c bit.
Proof. intros E. induction n as [|n IH]; intros c bit; cbn [prev_loop]; [reflexivity|]. now rewrite E, IH. Qed.

Lemma bind_ext {A B} (r : res A) (f g : A -> res B) : (forall a, f a = g a) -> bind r f = bind r g.
Proof. intros E. destruct r; cbn; auto. Qed.

Lemma closer_same b b' lim d t sp k : (forall j, chunk_at b k j = chunk_at b' k j) ->
  get_closer_limit b lim d t sp k = get_closer_limit b' lim d t sp k.
Proof.
  intros E. unfold get_closer_limit.
  replace (if d then prev_initialized b t sp k else next_initialized b t sp k)
    with (if d then prev_initialized b' t sp k else next_initialized b' t sp k); [reflexivity|].
  destruct d; unfold prev_initialized, next_initialized.
  - apply bind_ext; intros l. apply bind_ext; intros [c bi]. apply bind_ext; intros [lc lb].
    symmetry. now apply prev_loop_same.
  - apply bind_ext; intros l. destruct (MAX_TICK <? t + sp); [reflexivity|]. apply bind_ext; intros [c bi].
    apply bind_ext; intros [lc lb]. symmetry. now apply next_loop_same.
Qed.

Lemma iterate_ext {S} (fin : S -> bool) f g : (forall x, f x = g x) -> forall n x,
  iterate fin f n x = iterate fin g n x.
Proof.
  intros E. induction n as [|n IH]; intros x; cbn [iterate].
  - unfold loop_once. now rewrite E.
  - rewrite IH. destruct (iterate fin g n x); auto.
Qed.
Lemma while_ext {S} (fin : S -> bool) f g x : (forall x, f x = g x) -> while_loop fin f x = while_loop fin g x.
Proof. intros E. unfold while_loop. now rewrite (iterate_ext fin f g E). Qed.

Lemma calculate_swap_same F s s' t k d a b lim : eqon F s s' -> PoolPart k ∈ F -> SettingsPart ∈ F ->
  calculate_swap s t k d a b lim = calculate_swap s' t k d a b lim.
Proof.
  intros H Hk HS. unfold calculate_swap. rewrite (pools_get_same F s s' H k Hk).
  apply bind_ext; intros _. apply bind_ext; intros p. apply bind_ext; intros _. apply bind_ext; intros tl.
  erewrite while_ext; [reflexivity|]. intros l. unfold swap_iteration.
  destruct (proj2 H _ HS) as [Ef _]. rewrite Ef.
  rewrite (closer_same (s_bitmap s) (s_bitmap s')) by (intros j; now apply (chunk_at_same F s s' H)).
  apply bind_ext; intros [sl lt]. apply bind_ext; intros r. apply bind_ext; intros ipf. apply bind_ext; intros rem.
  apply bind_ext; intros p'. apply bind_ext; intros ef. apply bind_ext; intros ti. apply bind_ext; intros to.
  apply bind_ext; intros _.
  replace (match lt with
           | Some (ti, true) => let* t0 := ticks_get s k ti in Ok (TickInitialized t0)
           | Some (ti, false) => Ok (TickUninitialized ti)
           | None => Ok NoTick end)
    with (match lt with
           | Some (ti, true) => let* t0 := ticks_get s' k ti in Ok (TickInitialized t0)
           | Some (ti, false) => Ok (TickUninitialized ti)
           | None => Ok NoTick end); [reflexivity|].
  destruct lt as [[ti' [|]]|]; auto. now rewrite (ticks_get_same F s s' H).
Qed.

(** ** Primitives *)
Section prims.
  Context (F : list part) (s s' : state) (H : eqon F s s').

  Lemma pools_update_same k p : PoolPart k ∈ F -> rrel (eqon F) (pools_update s k p) (pools_update s' k p).
  Proof.
    intros Hk. unfold pools_update. rewrite (pools_get_same F s s' H k Hk). apply rrel_bind_same. intros _ _.
    cbn. now apply eqon_pools.
  Qed.
  Lemma pools_add_same k p : PoolPart k ∈ F -> rrel (eqon F) (pools_add s k p) (pools_add s' k p).
  Proof.
    intros Hk. unfold pools_add. rewrite (proj1 (proj2 H _ Hk)). destruct (s_pools s' !! k); cbn; [reflexivity|].
    now apply eqon_pools.
  Qed.
  Lemma pool_keys_add_same k : RegistryPart ∈ F -> rrel (eqon F) (pool_keys_add s k) (pool_keys_add s' k).
  Proof.
    intros Hk. unfold pool_keys_add. destruct (proj2 H _ Hk) as (-> & -> & ->).
    destruct (s_pool_keys s' !! k); cbn; [reflexivity|]. revert H. unfold set_pool_keys. parts.
  Qed.
  Lemma ticks_update_same k i t : PoolPart k ∈ F -> rrel (eqon F) (ticks_update s k i t) (ticks_update s' k i t).
  Proof.
    intros Hk. unfold ticks_update. rewrite (ticks_get_same F s s' H k i Hk). apply rrel_bind_same. intros _ _.
    cbn. now apply eqon_ticks.
  Qed.
  Lemma ticks_add_same k i t : PoolPart k ∈ F -> rrel (eqon F) (ticks_add s k i t) (ticks_add s' k i t).
  Proof.
    intros Hk. unfold ticks_add. rewrite (proj1 (proj2 (proj2 H _ Hk))). destruct (s_ticks s' !! (k, i)); cbn; [reflexivity|].
    now apply eqon_ticks.
  Qed.
  Lemma ticks_remove_same k i : PoolPart k ∈ F -> rrel (eqon F) (ticks_remove s k i) (ticks_remove s' k i).
  Proof.
    intros Hk. unfold ticks_remove. rewrite (ticks_get_same F s s' H k i Hk). apply rrel_bind_same. intros _ _.
    cbn. now apply eqon_ticks_delete.
  Qed.
  Lemma positions_add_same u p : UserPart u ∈ F -> eqon F (positions_add s u p) (positions_add s' u p).
  Proof.
    intros Hk. unfold positions_add. rewrite (positions_get_length_same F s s' H u Hk). now apply eqon_positions.
  Qed.
  Lemma positions_update_same u i p : UserPart u ∈ F ->
    rrel (eqon F) (positions_update s u i p) (positions_update s' u i p).
  Proof.
    intros Hk. unfold positions_update. rewrite (positions_get_length_same F s s' H u Hk). apply rrel_bind_same.
    intros _ _. cbn. now apply eqon_positions0.
  Qed.
  Lemma positions_remove_same u i : UserPart u ∈ F ->
    rrel (st_eq F) (positions_remove s u i) (positions_remove s' u i).
  Proof.
    intros Hk. unfold positions_remove.
    rewrite (positions_get_length_same F s s' H u Hk), (positions_get_same F s s' H u i Hk).
    apply rrel_bind_same. intros p _. destruct (i <? _) eqn:El; cbn [bind].
    - rewrite (proj2 (proj2 (proj2 H _ Hk))). destruct (s_positions s' !! _); cbn [expect bind rrel]; [|exact I].
      split; [reflexivity|]. now apply eqon_positions_move.
    - split; [reflexivity|]. now apply eqon_positions_delete.
  Qed.
  Lemma increase_same t u a : UserPart u ∈ F ->
    rrel (eqon F) (increase_token_balance s t u a) (increase_token_balance s' t u a).
  Proof.
    intros Hk. unfold increase_token_balance. destruct (a =? 0); [exact H|]. rewrite (proj1 (proj2 H _ Hk)).
    apply rrel_bind_same. intros b _. cbn. now apply eqon_balances.
  Qed.
  Lemma decrease_same t u a : UserPart u ∈ F ->
    rrel (st_eq F) (decrease_token_balance s t u a) (decrease_token_balance s' t u a).
  Proof.
    intros Hk. unfold decrease_token_balance. destruct (bool_decide (a = Some 0)); [split; [reflexivity|exact H]|].
    rewrite (proj1 (proj2 H _ Hk)). apply rrel_bind_same. intros tk _. apply rrel_bind_same. intros bal _.
    assert (R : rrel (st_eq F)
      (if bool_decide (delete t tk = ∅) then Ok (set_balances (delete u (s_balances s)) s, bal)
       else Ok (set_balances (<[u:=delete t tk]> (s_balances s)) s, bal))
      (if bool_decide (delete t tk = ∅) then Ok (set_balances (delete u (s_balances s')) s', bal)
       else Ok (set_balances (<[u:=delete t tk]> (s_balances s')) s', bal))).
    { destruct (bool_decide _); split; [reflexivity|now apply eqon_balances_delete|reflexivity|now apply eqon_balances]. }
    destruct a as [a|]; [|exact R]. destruct (negb (a =? bal)); [|exact R].
    apply rrel_bind_same. intros b _. split; [reflexivity|]. now apply eqon_balances.
  Qed.
  Lemma flip_same v i sp k : PoolPart k ∈ F ->
    rrel (fun b b' => eqon F (set_bitmap b s) (set_bitmap b' s'))
      (tickmap_flip (s_bitmap s) v i sp k) (tickmap_flip (s_bitmap s') v i sp k).
  Proof.
    intros Hk. unfold tickmap_flip. apply rrel_bind_same. intros [c bit] _. cbv zeta.
    rewrite (chunk_at_same F s s' H k c Hk). apply rrel_bind_same. intros _ _. cbn. now apply eqon_bitmap.
  Qed.
End prims.

Section calls.
  Context (F : list part).

  Lemma add_tick_same s s' k t : eqon F s s' -> PoolPart k ∈ F -> rrel (eqon F) (add_tick s k t) (add_tick s' k t).
  Proof.
    intros H Hk. unfold add_tick. eapply rrel_bind; [now apply (ticks_add_same F)|]. intros a b Hab.
    eapply rrel_bind; [now apply (flip_same F)|]. intros c d Hcd. exact Hcd.
  Qed.
  Lemma remove_tick_same s s' k t : eqon F s s' -> PoolPart k ∈ F ->
    rrel (eqon F) (remove_tick s k t) (remove_tick s' k t).
  Proof.
    intros H Hk. unfold remove_tick. apply rrel_bind_same. intros _ _.
    eapply rrel_bind; [now apply (flip_same F)|]. intros c d Hcd. now apply (ticks_remove_same F).
  Qed.
  Lemma fold_ticks_same k ts : PoolPart k ∈ F -> forall s s', eqon F s s' ->
    rrel (eqon F) (foldM_res (fun s t => ticks_update s k (t_index t) t) ts s)
                  (foldM_res (fun s t => ticks_update s k (t_index t) t) ts s').
  Proof.
    intros Hk. induction ts as [|t ts IH]; intros s s' H; cbn [foldM_res]; [exact H|].
    eapply rrel_bind; [now apply (ticks_update_same F)|]. intros a b Hab. now apply IH.
  Qed.

  Lemma create_position_same e s s' k lo up l sl su : eqon F s s' -> PoolPart k ∈ F -> UserPart (e_caller e) ∈ F ->
    rrel (st_eq F) (create_position e s k lo up l sl su) (create_position e s' k lo up l sl su).
  Proof.
    intros H Hk Hu. unfold create_position. cbv zeta. rewrite (pools_get_same F s s' H k Hk).
    rewrite !(get_or_create_tick_same F s s' H _ k) by assumption.
    apply rrel_bind_same. intros _ _. apply rrel_bind_same. intros _ _. apply rrel_bind_same. intros p _.
    apply rrel_bind_same. intros [lot b1] _. apply rrel_bind_same. intros [upt b2] _.
    apply rrel_bind_same. intros [[[[pos p'] u'] l'] [x y]] _.
    eapply rrel_bind; [now apply (decrease_same F)|]. intros [s1 v1] [s1' v1'] [_ H1]. cbn in H1.
    eapply rrel_bind; [now apply (decrease_same F)|]. intros [s2 v2] [s2' v2'] [_ H2]. cbn in H2.
    eapply rrel_bind; [now apply (pools_update_same F)|]. intros s3 s3' H3.
    assert (H4 : eqon F (positions_add s3 (e_caller e) pos) (positions_add s3' (e_caller e) pos)) by now apply (positions_add_same F).
    eapply rrel_bind; [destruct b1; [now apply add_tick_same|now apply (ticks_update_same F)]|]. intros s5 s5' H5.
    eapply rrel_bind; [destruct b2; [now apply add_tick_same|now apply (ticks_update_same F)]|]. intros s6 s6' H6.
    split; [reflexivity|exact H6].
  Qed.

  Lemma pay_same s s' k u x y (A : Type) (v : A) : eqon F s s' -> UserPart u ∈ F ->
    rrel (st_eq F)
      (let* s := increase_token_balance s (pk_token_x k) u x in
       let* s := increase_token_balance s (pk_token_y k) u y in Ok (s, v))
      (let* s := increase_token_balance s' (pk_token_x k) u x in
       let* s := increase_token_balance s (pk_token_y k) u y in Ok (s, v)).
  Proof.
    intros H Hu. eapply rrel_bind; [now apply (increase_same F)|]. intros s1 s1' H1.
    eapply rrel_bind; [now apply (increase_same F)|]. intros s2 s2' H2. split; [reflexivity|exact H2].
  Qed.

  Lemma pool_of_position_get s u i pos : positions_get s u i = Ok pos -> pool_of_position s u i = [PoolPart (pos_pool_key pos)].
  Proof. unfold positions_get, pool_of_position. intros E%ok_or_Ok. now rewrite E. Qed.

  Lemma remove_position_same e s s' i : eqon F s s' -> UserPart (e_caller e) ∈ F ->
    (forall c, c ∈ pool_of_position s (e_caller e) i -> c ∈ F) ->
    rrel (st_eq F) (remove_position e s i) (remove_position e s' i).
  Proof.
    intros H Hu Hp. unfold remove_position. cbv zeta. rewrite <- (positions_get_same F s s' H _ i Hu).
    apply rrel_bind_same. intros pos Epos. rewrite (pool_of_position_get _ _ _ _ Epos) in Hp.
    assert (Hk : PoolPart (pos_pool_key pos) ∈ F) by (apply Hp; left).
    rewrite !(ticks_get_same F s s' H) by assumption. rewrite (pools_get_same F s s' H) by assumption.
    apply rrel_bind_same. intros lot _. apply rrel_bind_same. intros upt _. apply rrel_bind_same. intros p _.
    apply rrel_bind_same. intros [[[[[[p0 p'] u'] l'] [x y]] b1] b2] _.
    eapply rrel_bind; [now apply (pools_update_same F)|]. intros s3 s3' H3.
    eapply rrel_bind; [destruct b1; [now apply remove_tick_same|now apply (ticks_update_same F)]|]. intros s5 s5' H5.
    eapply rrel_bind; [destruct b2; [now apply remove_tick_same|now apply (ticks_update_same F)]|]. intros s6 s6' H6.
    eapply rrel_bind; [now apply (positions_remove_same F)|]. intros [s7 v7] [s7' v7'] [_ H7]. cbn in H7.
    now apply pay_same.
  Qed.

  Lemma claim_fee_same e s s' i : eqon F s s' -> UserPart (e_caller e) ∈ F ->
    (forall c, c ∈ pool_of_position s (e_caller e) i -> c ∈ F) ->
    rrel (st_eq F) (claim_fee e s i) (claim_fee e s' i).
  Proof.
    intros H Hu Hp. unfold claim_fee. cbv zeta. rewrite <- (positions_get_same F s s' H _ i Hu).
    apply rrel_bind_same. intros pos Epos. rewrite (pool_of_position_get _ _ _ _ Epos) in Hp.
    assert (Hk : PoolPart (pos_pool_key pos) ∈ F) by (apply Hp; left).
    rewrite !(ticks_get_same F s s' H) by assumption. rewrite (pools_get_same F s s' H) by assumption.
    apply rrel_bind_same. intros lot _. apply rrel_bind_same. intros upt _. apply rrel_bind_same. intros p _.
    apply rrel_bind_same. intros [[[[p0 p'] u'] l'] [x y]] _.
    eapply rrel_bind; [now apply (positions_update_same F)|]. intros s2 s2' H2.
    eapply rrel_bind; [now apply (pools_update_same F)|]. intros s3 s3' H3.
    eapply rrel_bind; [now apply (ticks_update_same F)|]. intros s5 s5' H5.
    eapply rrel_bind; [now apply (ticks_update_same F)|]. intros s6 s6' H6.
    now apply pay_same.
  Qed.

  Lemma swap_same e s s' k d a b lim : eqon F s s' -> PoolPart k ∈ F -> UserPart (e_caller e) ∈ F -> SettingsPart ∈ F ->
    rrel (st_eq F) (swap e s k d a b lim) (swap e s' k d a b lim).
  Proof.
    intros H Hk Hu HS. unfold swap. cbv zeta. rewrite (calculate_swap_same F s s' _ k d a b lim H Hk HS).
    apply rrel_bind_same. intros r _.
    eapply rrel_bind; [now apply fold_ticks_same|]. intros s2 s2' H2.
    eapply rrel_bind; [now apply (pools_update_same F)|]. intros s3 s3' H3.
    destruct (if d then _ else _) as [t1 t2].
    eapply rrel_bind; [now apply (decrease_same F)|]. intros [s4 v4] [s4' v4'] [_ H4]. cbn in H4.
    eapply rrel_bind; [now apply (increase_same F)|]. intros s5 s5' H5. split; [reflexivity|exact H5].
  Qed.

  Lemma route_swap_same e hops : (forall h, h ∈ hops -> PoolPart (h_pool_key h) ∈ F) -> UserPart (e_caller e) ∈ F ->
    SettingsPart ∈ F -> forall a s s', eqon F s s' -> rrel (st_eq F) (route_swap e s a hops) (route_swap e s' a hops).
  Proof.
    intros Hk Hu HS. induction hops as [|h hops IH]; intros a s s' H; cbn [route_swap]; [split; [reflexivity|exact H]|].
    eapply rrel_bind; [apply swap_same; auto; apply Hk; left|]. intros [s1 r] [s1' r'] [E H1]. cbn in E, H1. subst r'.
    apply IH; [|exact H1]. intros h' Hh. apply Hk. now right.
  Qed.

  Lemma swap_route_same e s s' a x sl hops : (forall h, h ∈ hops -> PoolPart (h_pool_key h) ∈ F) ->
    UserPart (e_caller e) ∈ F -> SettingsPart ∈ F -> eqon F s s' ->
    rrel (st_eq F) (swap_route e s a x sl hops) (swap_route e s' a x sl hops).
  Proof.
    intros Hk Hu HS H. unfold swap_route. eapply rrel_bind; [now apply route_swap_same|].
    intros [s1 r] [s1' r'] [E H1]. cbn in E, H1. subst r'. apply rrel_bind_same. intros m _.
    apply rrel_bind_same. intros _ _. split; [reflexivity|exact H1].
  Qed.

  Lemma withdraw_protocol_fee_same e s s' k : eqon F s s' -> PoolPart k ∈ F -> UserPart (e_caller e) ∈ F ->
    rrel (st_eq F) (withdraw_protocol_fee e s k) (withdraw_protocol_fee e s' k).
  Proof.
    intros H Hk Hu. unfold withdraw_protocol_fee. cbv zeta. rewrite (pools_get_same F s s' H) by assumption.
    apply rrel_bind_same. intros p _. apply rrel_bind_same. intros _ _.
    destruct (pool_withdraw_protocol_fee p) as [p' [x y]].
    eapply rrel_bind; [now apply (pools_update_same F)|]. intros s3 s3' H3. now apply pay_same.
  Qed.

  Lemma withdraw_vara_same e s s' v : eqon F s s' -> UserPart (e_caller e) ∈ F ->
    rrel (st_eq F) (withdraw_vara e s v) (withdraw_vara e s' v).
  Proof.
    intros H Hu. unfold withdraw_vara. eapply (rrel_bind (st_eq F)).
    - destruct v as [v|].
      + apply rrel_bind_same. intros _ _. now apply (decrease_same F).
      + pose proof (decrease_same F s s' H VARA_ADDRESS (e_caller e) None Hu) as R.
        destruct (decrease_token_balance s _ _ _) as [x| | |], (decrease_token_balance s' _ _ _) as [y| | |]; cbn in R |- *;
          try contradiction; auto. split; [reflexivity|exact H].
    - intros [s1 r] [s1' r'] [E H1]. cbn in E, H1. subst r'. apply rrel_bind_same. intros m _. split; [reflexivity|exact H1].
  Qed.

  Lemma create_pool_same e s s' x y ft p t : eqon F s s' -> SettingsPart ∈ F -> RegistryPart ∈ F ->
    PoolPart (mkPoolKey (Z.min x y) (Z.max x y) ft) ∈ F ->
    rrel (st_eq F) (create_pool e s x y ft p t) (create_pool e s' x y ft p t).
  Proof.
    intros H HS HR Hk. unfold create_pool. rewrite (proj2 (proj2 H _ HS)), (proj1 H).
    apply rrel_bind_same. intros _ _. apply rrel_bind_same. intros _ _. apply rrel_bind_same. intros k Ek.
    assert (Hk' : PoolPart k ∈ F).
    { unfold pool_key_new in Ek. destruct (x =? y) eqn:Exy; [discriminate Ek|].
      destruct (x <? y) eqn:El; injection Ek as <-.
      - apply Z.ltb_lt in El. now rewrite Z.min_l, Z.max_r in Hk by lia.
      - apply Z.ltb_ge in El. now rewrite Z.min_r, Z.max_l in Hk by lia. }
    rewrite (pools_get_same F s s' H) by assumption. apply rrel_bind_same. intros _ _. apply rrel_bind_same. intros p' _.
    eapply rrel_bind; [now apply (pools_add_same F)|]. intros s1 s1' H1.
    eapply rrel_bind; [now apply (pool_keys_add_same F)|]. intros s2 s2' H2. split; [reflexivity|exact H2].
  Qed.
End calls.

(** ** Every call *)
Ltac inn := first [left | right; inn].
Lemma told_rel {A} F (f : A -> reply) (r r' : res (state * A)) : rrel (st_eq F) r r' -> told f r = told f r'.
Proof.
  destruct r as [[s a]| | |], r' as [[s' a']| | |]; cbn; intros E; try contradiction; try congruence.
  destruct E as [E _]. cbn in E. now rewrite E.
Qed.
Lemma exec_rel {A} F s s' (r r' : res (state * A)) : eqon F s s' -> rrel (st_eq F) r r' ->
  eqon F (match drop_result r with Ok t => t | _ => s end) (match drop_result r' with Ok t => t | _ => s' end).
Proof.
  intros H. destruct r as [[t a]| | |], r' as [[t' a']| | |]; cbn; intros E; try contradiction; auto.
  now destruct E as [_ E].
Qed.

Lemma call_same F s s' ev : (forall c, c ∈ concerns s ev -> c ∈ F) -> eqon F s s' ->
  answer s ev = answer s' ev /\ eqon F (exec_event s ev) (exec_event s' ev).
Proof.
  intros HF H.
  assert (HF' : forall c, c ∈ changes s ev -> c ∈ F).
  { intros c Hc. apply HF. destruct ev as [e []| | |]; cbn [concerns] in *; try exact Hc; now right. }
  assert (L : forall (c : part) l, c ∈ c :: l) by (intros; left).
  destruct ev as [e o|u t a|u t a|m]; cbn [answer exec_event].
  - unfold exec_op, run_op. destruct o; cbn [concerns changes] in HF, HF'.
    + assert (R : rrel (st_eq F) (change_protocol_fee e s protocol_fee) (change_protocol_fee e s' protocol_fee)).
      { unfold change_protocol_fee. rewrite (admin_same F s s' H). apply rrel_bind_same. intros _ _. split; [reflexivity|].
        revert H. unfold set_protocol_fee. parts. }
      split; [now apply (told_rel F)|now apply exec_rel].
    + assert (R : rrel (st_eq F) (add_fee_tier e s ft) (add_fee_tier e s' ft)).
      { assert (HS : SettingsPart ∈ F) by (apply HF'; left).
        unfold add_fee_tier. rewrite (admin_same F s s' H), (proj2 (proj2 H _ HS)). do 3 (apply rrel_bind_same; intros _ _).
        apply rrel_bind_same; intros l _. split; [reflexivity|]. revert H. unfold set_fee_tiers. parts. }
      split; [now apply (told_rel F)|now apply exec_rel].
    + assert (R : rrel (st_eq F) (remove_fee_tier e s ft) (remove_fee_tier e s' ft)).
      { assert (HS : SettingsPart ∈ F) by (apply HF'; left).
        unfold remove_fee_tier. rewrite (admin_same F s s' H), (proj2 (proj2 H _ HS)). do 1 (apply rrel_bind_same; intros _ _).
        apply rrel_bind_same; intros l _. split; [reflexivity|]. revert H. unfold set_fee_tiers. parts. }
      split; [now apply (told_rel F)|now apply exec_rel].
    + assert (R : rrel (st_eq F) (create_pool e s token_x token_y ft init_sqrt_price init_tick)
                                 (create_pool e s' token_x token_y ft init_sqrt_price init_tick)).
      { apply (create_pool_same F); auto; first [apply HF; inn | apply HF'; inn]. }
      split; [now apply (told_rel F)|now apply exec_rel].
    + assert (Hk : PoolPart k ∈ F) by (apply HF'; left).
      assert (R : rrel (st_eq F) (change_fee_receiver e s k receiver) (change_fee_receiver e s' k receiver)).
      { unfold change_fee_receiver. rewrite (admin_same F s s' H), (pools_get_same F s s' H) by assumption.
        apply rrel_bind_same; intros _ _. apply rrel_bind_same; intros p _.
        eapply rrel_bind; [now apply (pools_update_same F)|]. intros s3 s3' H3. split; [reflexivity|exact H3]. }
      split; [now apply (told_rel F)|now apply exec_rel].
    + assert (R : rrel (st_eq F) (create_position e s k lower upper liquidity_delta slippage_limit_lower slippage_limit_upper)
                                 (create_position e s' k lower upper liquidity_delta slippage_limit_lower slippage_limit_upper)).
      { apply (create_position_same F); auto; first [apply HF; inn | apply HF'; inn]. }
      split; [now apply (told_rel F)|now apply exec_rel].
    + assert (R : rrel (st_eq F) (remove_position e s index) (remove_position e s' index)).
      { apply (remove_position_same F); [exact H|apply HF'; left|]. intros c Hc. apply HF'. now right. }
      split; [now apply (told_rel F)|now apply exec_rel].
    + assert (R : rrel (st_eq F) (transfer_position e s index receiver) (transfer_position e s' index receiver)).
      { unfold transfer_position, positions_transfer. eapply (rrel_bind (eqon F)).
        - eapply rrel_bind; [apply (positions_remove_same F); [exact H|apply HF'; left]|].
          intros [s1 p] [s1' p'] [E H1]. cbn in E, H1. subst p'. apply (positions_add_same F); [exact H1|apply HF'; right; left].
        - intros s1 s1' H1. split; [reflexivity|exact H1]. }
      split; [now apply (told_rel F)|now apply exec_rel].
    + assert (R : rrel (st_eq F) (swap e s k x_to_y amount by_amount_in sqrt_price_limit)
                                 (swap e s' k x_to_y amount by_amount_in sqrt_price_limit)).
      { apply (swap_same F); auto; first [apply HF; inn | apply HF'; inn]. }
      split; [now apply (told_rel F)|now apply exec_rel].
    + assert (R : rrel (st_eq F) (swap_route e s amount_in expected_amount_out slippage swaps)
                                 (swap_route e s' amount_in expected_amount_out slippage swaps)).
      { apply (swap_route_same F); [|apply HF; inn|apply HF; inn|exact H]. intros h Hh. apply HF'. right.
        apply elem_of_list_fmap. eauto. }
      split; [now apply (told_rel F)|now apply exec_rel].
    + assert (R : rrel (st_eq F) (claim_fee e s index) (claim_fee e s' index)).
      { apply (claim_fee_same F); [exact H|apply HF'; left|]. intros c Hc. apply HF'. now right. }
      split; [now apply (told_rel F)|now apply exec_rel].
    + assert (R : rrel (st_eq F) (withdraw_protocol_fee e s k) (withdraw_protocol_fee e s' k)).
      { apply (withdraw_protocol_fee_same F); auto; first [apply HF; inn | apply HF'; inn]. }
      split; [now apply (told_rel F)|now apply exec_rel].
    + assert (R : rrel (st_eq F) (deposit_vara e s) (deposit_vara e s')).
      { unfold deposit_vara. eapply rrel_bind; [apply (increase_same F); [exact H|apply HF'; left]|].
        intros s1 s1' H1. split; [reflexivity|exact H1]. }
      split; [now apply (told_rel F)|now apply exec_rel].
    + assert (R : rrel (st_eq F) (withdraw_vara e s value) (withdraw_vara e s' value)).
      { apply (withdraw_vara_same F); [exact H|apply HF'; left]. }
      split; [now apply (told_rel F)|now apply exec_rel].
  - pose proof (increase_same F s s' H t u a (HF' _ (L _ _))) as R.
    destruct (increase_token_balance s t u a), (increase_token_balance s' t u a); cbn in R |- *; try contradiction;
      split; auto; congruence.
  - pose proof (decrease_same F s s' H t u a (HF' _ (L _ _))) as R. split; [now apply (told_rel F)|].
    destruct (decrease_token_balance s t u a) as [[]| | |], (decrease_token_balance s' t u a) as [[]| | |];
      cbn in R |- *; try contradiction; auto. now destruct R.
  - split; [reflexivity|]. revert H. unfold set_awaiting. parts.
Qed.

(** ** What a call leaves alone *)
Definition keeps {A} (P : part -> Prop) (st : A -> state) (s : state) (r : res A) : Prop :=
  forall a, r = Ok a -> s_admin s = s_admin (st a) /\ forall c, P c -> same_part c s (st a).

Lemma keeps_bind {A B} (P : part -> Prop) (st : A -> state) (st' : B -> state) s r f :
  keeps P st s r -> (forall a, r = Ok a -> keeps P st' (st a) (f a)) -> keeps P st' s (bind r f).
Proof.
  intros H1 H2 b E. apply bind_Ok in E as (a & Ea & Eb). destruct (H1 a Ea) as [A1 B1].
  destruct (H2 a Ea b Eb) as [A2 B2]. split; [congruence|]. intros c Hc. eapply same_part_trans; eauto.
Qed.
Lemma keeps_read {A B} (P : part -> Prop) (st' : B -> state) s (r : res A) f :
  (forall a, r = Ok a -> keeps P st' s (f a)) -> keeps P st' s (bind r f).
Proof. intros H2 b E. apply bind_Ok in E as (a & Ea & Eb). exact (H2 a Ea b Eb). Qed.
Lemma keeps_Ok {A} (P : part -> Prop) (st : A -> state) s a :
  s_admin s = s_admin (st a) -> (forall c, P c -> same_part c s (st a)) -> keeps P st s (Ok a).
Proof. intros H1 H2 b [= <-]. auto. Qed.
Lemma keeps_id {A} (P : part -> Prop) (st : A -> state) s a : st a = s -> keeps P st s (Ok a).
Proof. intros E. apply keeps_Ok; rewrite E; auto using same_part_refl. Qed.

Ltac frame :=
  let c := fresh "c" in let Hc := fresh "Hc" in
  apply keeps_Ok; [reflexivity|]; intros c Hc; destruct c; cbn; repeat split; intros; auto;
  repeat ins; auto; try (exfalso; simplify_eq; eauto; fail).

Section frame.
  Context (P : part -> Prop).

  Lemma pools_update_keeps s k p : ~ P (PoolPart k) -> keeps P id s (pools_update s k p).
  Proof. intros N. unfold pools_update. apply keeps_read. intros _ _. frame. Qed.
  Lemma pools_add_keeps s k p : ~ P (PoolPart k) -> keeps P id s (pools_add s k p).
  Proof. intros N. unfold pools_add. destruct (s_pools s !! k); [intros ? [=]|]. frame. Qed.
  Lemma pool_keys_add_keeps s k : ~ P RegistryPart -> keeps P id s (pool_keys_add s k).
  Proof.
    intros N. unfold pool_keys_add. destruct (s_pool_keys s !! k); [intros ? [=]|]. apply keeps_Ok; [reflexivity|].
    intros c Hc; destruct c; cbn; repeat split; contradiction.
  Qed.
  Lemma ticks_update_keeps s k i t : ~ P (PoolPart k) -> keeps P id s (ticks_update s k i t).
  Proof. intros N. unfold ticks_update. apply keeps_read. intros _ _. frame. Qed.
  Lemma ticks_add_keeps s k i t : ~ P (PoolPart k) -> keeps P id s (ticks_add s k i t).
  Proof. intros N. unfold ticks_add. destruct (s_ticks s !! (k, i)); [intros ? [=]|]. frame. Qed.
  Lemma ticks_remove_keeps s k i : ~ P (PoolPart k) -> keeps P id s (ticks_remove s k i).
  Proof. intros N. unfold ticks_remove. apply keeps_read. intros _ _. frame. Qed.
  Lemma positions_add_keeps s u p : ~ P (UserPart u) -> keeps P id s (Ok (positions_add s u p)).
  Proof. intros N. unfold positions_add. frame. Qed.
  Lemma positions_update_keeps s u i p : ~ P (UserPart u) -> keeps P id s (positions_update s u i p).
  Proof. intros N. unfold positions_update. apply keeps_read. intros _ _. frame. Qed.
  Lemma positions_remove_keeps s u i : ~ P (UserPart u) -> keeps P fst s (positions_remove s u i).
  Proof.
    intros N. unfold positions_remove. apply keeps_read. intros p _. destruct (i <? _); cbn [bind].
    - destruct (s_positions s !! _); cbn [expect bind]; [|intros ? [=]]. frame.
    - frame.
  Qed.
  Lemma increase_keeps s t u a : ~ P (UserPart u) -> keeps P id s (increase_token_balance s t u a).
  Proof.
    intros N. unfold increase_token_balance. destruct (a =? 0); [now apply keeps_id|]. apply keeps_read. intros b _. frame.
  Qed.
  Lemma decrease_keeps s t u a : ~ P (UserPart u) -> keeps P fst s (decrease_token_balance s t u a).
  Proof.
    intros N. unfold decrease_token_balance. destruct (bool_decide (a = Some 0)); [now apply keeps_id|].
    apply keeps_read. intros tk _. apply keeps_read. intros bal _.
    assert (R : keeps P fst s
      (if bool_decide (delete t tk = ∅) then Ok (set_balances (delete u (s_balances s)) s, bal)
       else Ok (set_balances (<[u:=delete t tk]> (s_balances s)) s, bal))).
    { destruct (bool_decide _); frame. }
    destruct a as [a|]; [|exact R]. destruct (negb (a =? bal)); [|exact R].
    apply keeps_read. intros b _. frame.
  Qed.
  Lemma set_bitmap_keeps s v i sp k b : ~ P (PoolPart k) -> tickmap_flip (s_bitmap s) v i sp k = Ok b ->
    keeps P id s (Ok (set_bitmap b s)).
  Proof.
    intros N E. unfold tickmap_flip in E. apply bind_Ok in E as ([c bit] & _ & E). cbv zeta in E.
    apply bind_Ok in E as ([] & _ & [= <-]). frame.
  Qed.
  Lemma add_tick_keeps s k t : ~ P (PoolPart k) -> keeps P id s (add_tick s k t).
  Proof.
    intros N. unfold add_tick. eapply keeps_bind; [now apply ticks_add_keeps|]. intros s1 _. apply keeps_read.
    intros b Eb. exact (set_bitmap_keeps (id s1) _ _ _ _ _ N Eb).
  Qed.
  Lemma remove_tick_keeps s k t : ~ P (PoolPart k) -> keeps P id s (remove_tick s k t).
  Proof.
    intros N. unfold remove_tick. apply keeps_read. intros _ _. apply keeps_read. intros b Eb.
    apply (keeps_bind P id id s (Ok (set_bitmap b s)) (fun s1 => ticks_remove s1 k (t_index t))).
    - exact (set_bitmap_keeps s _ _ _ _ _ N Eb).
    - intros s1 _. now apply ticks_remove_keeps.
  Qed.
  Lemma fold_ticks_keeps k ts : ~ P (PoolPart k) -> forall s,
    keeps P id s (foldM_res (fun s t => ticks_update s k (t_index t) t) ts s).
  Proof.
    intros N. induction ts as [|t ts IH]; intros s; cbn [foldM_res]; [now apply keeps_id|].
    eapply keeps_bind; [now apply ticks_update_keeps|]. intros s1 _. apply IH.
  Qed.
  Lemma pay_keeps s k u x y (A : Type) (v : A) : ~ P (UserPart u) ->
    keeps P fst s
      (let* s := increase_token_balance s (pk_token_x k) u x in
       let* s := increase_token_balance s (pk_token_y k) u y in Ok (s, v)).
  Proof.
    intros N. eapply keeps_bind; [now apply increase_keeps|]. intros s1 _.
    eapply keeps_bind; [now apply increase_keeps|]. intros s2 _. now apply keeps_id.
  Qed.

  Lemma create_position_keeps e s k lo up l sl su : ~ P (PoolPart k) -> ~ P (UserPart (e_caller e)) ->
    keeps P fst s (create_position e s k lo up l sl su).
  Proof.
    intros N Nu. unfold create_position. cbv zeta.
    apply keeps_read; intros _ _. apply keeps_read; intros _ _. apply keeps_read; intros p _.
    apply keeps_read; intros [lot b1] _. apply keeps_read; intros [upt b2] _.
    apply keeps_read; intros [[[[pos p'] u'] l'] [x y]] _.
    eapply keeps_bind; [now apply decrease_keeps|]. intros [s1 v1] _. cbn [fst].
    eapply keeps_bind; [now apply decrease_keeps|]. intros [s2 v2] _. cbn [fst].
    eapply keeps_bind; [now apply pools_update_keeps|]. intros s3 _. cbn [id].
    eapply (keeps_bind P id fst _ (Ok (positions_add s3 (e_caller e) pos)) (fun s4 => _)); [now apply positions_add_keeps|].
    intros s4 Es4. injection Es4 as <-.
    eapply keeps_bind; [destruct b1; [now apply add_tick_keeps|now apply ticks_update_keeps]|]. intros s5 _. cbn [id].
    eapply keeps_bind; [destruct b2; [now apply add_tick_keeps|now apply ticks_update_keeps]|]. intros s6 _. now apply keeps_id.
  Qed.

  Lemma remove_position_keeps e s i : ~ P (UserPart (e_caller e)) ->
    (forall c, c ∈ pool_of_position s (e_caller e) i -> ~ P c) -> keeps P fst s (remove_position e s i).
  Proof.
    intros Nu Hp. unfold remove_position. cbv zeta.
    apply keeps_read; intros pos Epos. rewrite (pool_of_position_get _ _ _ _ Epos) in Hp.
    assert (N : ~ P (PoolPart (pos_pool_key pos))) by (apply Hp; left).
    do 3 (apply keeps_read; intros ? _). apply keeps_read; intros [[[[[[p0 p'] u'] l'] [x y]] b1] b2] _.
    eapply keeps_bind; [now apply pools_update_keeps|]. intros s3 _. cbn [id].
    eapply keeps_bind; [destruct b1; [now apply remove_tick_keeps|now apply ticks_update_keeps]|]. intros s5 _. cbn [id].
    eapply keeps_bind; [destruct b2; [now apply remove_tick_keeps|now apply ticks_update_keeps]|]. intros s6 _. cbn [id].
    eapply keeps_bind; [now apply positions_remove_keeps|]. intros [s7 v7] _. cbn [fst]. now apply pay_keeps.
  Qed.

  Lemma claim_fee_keeps e s i : ~ P (UserPart (e_caller e)) ->
    (forall c, c ∈ pool_of_position s (e_caller e) i -> ~ P c) -> keeps P fst s (claim_fee e s i).
  Proof.
    intros Nu Hp. unfold claim_fee. cbv zeta.
    apply keeps_read; intros pos Epos. rewrite (pool_of_position_get _ _ _ _ Epos) in Hp.
    assert (N : ~ P (PoolPart (pos_pool_key pos))) by (apply Hp; left).
    do 3 (apply keeps_read; intros ? _). apply keeps_read; intros [[[[p0 p'] u'] l'] [x y]] _.
    eapply keeps_bind; [now apply positions_update_keeps|]. intros s2 _. cbn [id].
    eapply keeps_bind; [now apply pools_update_keeps|]. intros s3 _. cbn [id].
    eapply keeps_bind; [now apply ticks_update_keeps|]. intros s5 _. cbn [id].
    eapply keeps_bind; [now apply ticks_update_keeps|]. intros s6 _. cbn [id]. now apply pay_keeps.
  Qed.

  Lemma swap_keeps e s k d a b lim : ~ P (PoolPart k) -> ~ P (UserPart (e_caller e)) ->
    keeps P fst s (swap e s k d a b lim).
  Proof.
    intros N Nu. unfold swap. cbv zeta. apply keeps_read; intros r _.
    eapply keeps_bind; [now apply fold_ticks_keeps|]. intros s2 _. cbn [id].
    eapply keeps_bind; [now apply pools_update_keeps|]. intros s3 _. cbn [id].
    destruct (if d then _ else _) as [t1 t2].
    eapply keeps_bind; [now apply decrease_keeps|]. intros [s4 v4] _. cbn [fst].
    eapply keeps_bind; [now apply increase_keeps|]. intros s5 _. now apply keeps_id.
  Qed.

  Lemma route_swap_keeps e hops : (forall h, h ∈ hops -> ~ P (PoolPart (h_pool_key h))) -> ~ P (UserPart (e_caller e)) ->
    forall a s, keeps P fst s (route_swap e s a hops).
  Proof.
    intros N Nu. induction hops as [|h hops IH]; intros a s; cbn [route_swap]; [now apply keeps_id|].
    eapply keeps_bind; [apply swap_keeps; auto; apply N; left|]. intros [s1 r] _. cbn [fst]. apply IH.
    intros h' Hh. apply N. now right.
  Qed.
End frame.

Lemma call_keeps s ev : s_admin s = s_admin (exec_event s ev) /\
  forall c, c ∉ changes s ev -> same_part c s (exec_event s ev).
Proof.
  set (P := fun c => c ∉ changes s ev).
  assert (D : forall A (r : res (state * A)), keeps P fst s r ->
    s_admin s = s_admin (match drop_result r with Ok t => t | _ => s end) /\
    forall c, c ∉ changes s ev -> same_part c s (match drop_result r with Ok t => t | _ => s end)).
  { intros A r H. destruct r as [[t a]| | |]; cbn; [exact (H _ eq_refl)|..]; split; auto using same_part_refl. }
  assert (C : forall c, c ∈ changes s ev -> ~ P c) by (unfold P; tauto).
  destruct ev as [e o|u t a|u t a|m]; cbn [exec_event].
  - unfold exec_op, run_op. destruct o; apply D; cbn [changes] in C.
    + unfold change_protocol_fee. apply keeps_read; intros _ _. specialize (C SettingsPart).
      frame; exfalso; (apply C; [left|assumption]).
    + unfold add_fee_tier. do 3 (apply keeps_read; intros _ _). apply keeps_read; intros l _. specialize (C SettingsPart).
      frame; exfalso; (apply C; [left|assumption]).
    + unfold remove_fee_tier. do 1 (apply keeps_read; intros _ _). apply keeps_read; intros l _. specialize (C SettingsPart).
      frame; exfalso; (apply C; [left|assumption]).
    + unfold create_pool. do 2 (apply keeps_read; intros _ _). apply keeps_read; intros k Ek.
      assert (Hk : ~ P (PoolPart k)).
      { apply C. unfold pool_key_new in Ek. destruct (token_x =? token_y) eqn:Exy; [discriminate Ek|]. right.
        destruct (token_x <? token_y) eqn:El; injection Ek as <-.
        - apply Z.ltb_lt in El. rewrite Z.min_l, Z.max_r by lia. left.
        - apply Z.ltb_ge in El. rewrite Z.min_r, Z.max_l by lia. left. }
      apply keeps_read; intros _ _. apply keeps_read; intros p _.
      eapply keeps_bind; [now apply pools_add_keeps|]. intros s1 _. cbn [id].
      eapply keeps_bind; [apply pool_keys_add_keeps; apply C; left|]. intros s2 _. now apply keeps_id.
    + unfold change_fee_receiver. apply keeps_read; intros _ _. apply keeps_read; intros p _.
      eapply keeps_bind; [apply pools_update_keeps; apply C; left|]. intros s2 _. now apply keeps_id.
    + apply create_position_keeps; [apply C; right; left|apply C; left].
    + apply remove_position_keeps; [apply C; left|]. intros c Hc. apply C. now right.
    + unfold transfer_position, positions_transfer. eapply (keeps_bind P id fst).
      * eapply keeps_bind; [apply positions_remove_keeps; apply C; left|]. intros [s1 p] _. cbn [fst].
        apply positions_add_keeps; apply C; right; left.
      * intros s1 _. now apply keeps_id.
    + apply swap_keeps; [apply C; right; left|apply C; left].
    + unfold swap_route. eapply keeps_bind.
      * apply route_swap_keeps; [|apply C; left]. intros h Hh. apply C. right. apply elem_of_list_fmap. eauto.
      * intros [s1 v] _. cbn [fst]. apply keeps_read; intros m _. apply keeps_read; intros _ _. now apply keeps_id.
    + apply claim_fee_keeps; [apply C; left|]. intros c Hc. apply C. now right.
    + unfold withdraw_protocol_fee. cbv zeta. apply keeps_read; intros p _. apply keeps_read; intros _ _.
      destruct (pool_withdraw_protocol_fee p) as [p' [x y]].
      eapply keeps_bind; [apply pools_update_keeps; apply C; right; left|]. intros s1 _. cbn [id].
      apply pay_keeps; apply C; left.
    + unfold deposit_vara. eapply keeps_bind; [apply increase_keeps; apply C; left|]. intros s1 _. now apply keeps_id.
    + unfold withdraw_vara. eapply (keeps_bind P fst fst).
      * destruct value as [v|].
        -- apply keeps_read; intros _ _. apply decrease_keeps; apply C; left.
        -- pose proof (decrease_keeps P s VARA_ADDRESS (e_caller e) None (C _ ltac:(left))) as R.
           destruct (decrease_token_balance s _ _ _) as [x| | |]; [exact R|now apply keeps_id|intros ? [=]|intros ? [=]].
      * intros [s1 v] _. cbn [fst]. apply keeps_read; intros m _. now apply keeps_id.
  - pose proof (increase_keeps P s t u a (C _ ltac:(left))) as R.
    destruct (increase_token_balance s t u a) as [x| | |]; [exact (R _ eq_refl)|..]; split; auto using same_part_refl.
  - pose proof (decrease_keeps P s t u a (C _ ltac:(left))) as R.
    destruct (decrease_token_balance s t u a) as [[x v]| | |]; [exact (R _ eq_refl)|..]; split; auto using same_part_refl.
  - split; [reflexivity|]. intros c Hc. destruct c; cbn; repeat split. exfalso. apply Hc. left.
Qed.

(** ** Order does not matter *)
Lemma state_ext s s' : s_admin s = s_admin s' -> (forall c, same_part c s s') -> s = s'.
Proof.
  intros A H. destruct (H SettingsPart) as [? ?]. destruct (H RegistryPart) as (? & ? & ?). pose proof (H TransfersPart) as T. cbn in T.
  assert (s_pools s = s_pools s') by (apply map_eq; intros k; apply (H (PoolPart k))).
  assert (s_ticks s = s_ticks s') by (apply map_eq; intros [k i]; apply (H (PoolPart k))).
  assert (s_bitmap s = s_bitmap s') by (apply map_eq; intros [j k]; apply (H (PoolPart k))).
  assert (s_balances s = s_balances s') by (apply map_eq; intros u; apply (H (UserPart u))).
  assert (s_positions_length s = s_positions_length s') by (apply map_eq; intros u; apply (H (UserPart u))).
  assert (s_positions s = s_positions s') by (apply map_eq; intros [u i]; apply (H (UserPart u))).
  destruct s, s'; cbn in *; congruence.
Qed.

Lemma changes_concerns s ev c : c ∈ changes s ev -> c ∈ concerns s ev.
Proof. intros Hc. destruct ev as [e []| | |]; cbn [concerns] in *; try exact Hc; now right. Qed.

Lemma footprint_same s s' ev : eqon (concerns s ev) s s' ->
  changes s' ev = changes s ev /\ concerns s' ev = concerns s ev.
Proof.
  intros H. assert (E : changes s' ev = changes s ev).
  { destruct ev as [e []| | |]; cbn [changes concerns] in *; try reflexivity;
      f_equal; symmetry; apply (position_part_same _ _ _ H); left. }
  split; [exact E|]. destruct ev as [e []| | |]; cbn [concerns] in *; congruence.
Qed.

Lemma independent_eqon s a b : independent s a b -> eqon (concerns s b) s (exec_event s a).
Proof.
  intros [I1 I2]. destruct (call_keeps s a) as [A K]. split; [exact A|]. intros c Hc. apply K. intros Hc'.
  exact (I1 c Hc' Hc).
Qed.
Lemma independent_sym s a b : independent s a b -> independent s b a.
Proof. intros [I1 I2]. split; assumption. Qed.

Lemma commute s a b : independent s a b ->
  answer (exec_event s a) b = answer s b /\ exec_event (exec_event s a) b = exec_event (exec_event s b) a.
Proof.
  intros Iab. pose proof (independent_sym _ _ _ Iab) as Iba.
  pose proof (independent_eqon _ _ _ Iab) as Eb. pose proof (independent_eqon _ _ _ Iba) as Ea.
  destruct (footprint_same _ _ _ Eb) as [Cb _]. destruct (footprint_same _ _ _ Ea) as [Ca _].
  destruct (call_same _ s (exec_event s a) b (fun c H => H) Eb) as [Ab Sb].
  destruct (call_same _ s (exec_event s b) a (fun c H => H) Ea) as [Aa Sa].
  split; [congruence|]. apply state_ext.
  - destruct (call_keeps s a) as [A1 _], (call_keeps s b) as [A2 _], (call_keeps (exec_event s a) b) as [A3 _],
      (call_keeps (exec_event s b) a) as [A4 _]. congruence.
  - intros c. destruct (call_keeps s a) as [_ K1], (call_keeps s b) as [_ K2], (call_keeps (exec_event s a) b) as [_ K3],
      (call_keeps (exec_event s b) a) as [_ K4]. rewrite Cb in K3. rewrite Ca in K4.
    destruct (decide (c ∈ changes s a)) as [Ha|Ha].
    + assert (Hb : c ∉ changes s b) by (intros Hb; apply (proj1 Iab c Ha); now apply changes_concerns).
      pose proof (proj2 Sa c (changes_concerns _ _ _ Ha)) as E1. pose proof (K3 c Hb) as E2.
      eapply same_part_trans; [apply same_part_sym; exact E2|exact E1].
    + destruct (decide (c ∈ changes s b)) as [Hb|Hb].
      * pose proof (proj2 Sb c (changes_concerns _ _ _ Hb)) as E1. pose proof (K4 c Ha) as E2.
        eapply same_part_trans; [apply same_part_sym; exact E1|exact E2].
      * eapply same_part_trans; [apply same_part_sym; apply (K3 c Hb)|].
        eapply same_part_trans; [apply same_part_sym; apply (K1 c Ha)|].
        eapply same_part_trans; [apply (K2 c Hb)|]. apply (K4 c Ha).
Qed.

Section parties.
  Context (W1 R1 W2 R2 : part -> Prop).
  Context (D1 : forall c, W1 c -> ~ R2 c) (D2 : forall c, W2 c -> ~ R1 c).

  Lemma party_step A : forall s b,
    keeps_to W1 R1 s A -> (forall c, c ∈ changes s b -> W2 c) -> (forall c, c ∈ concerns s b -> R2 c) ->
    keeps_to W1 R1 (exec_event s b) A /\ answers (exec_event s b) A = answers s A /\
    run (exec_event s b) A = exec_event (run s A) b.
  Proof.
    induction A as [|a A IH]; intros s b K Hc Hr; cbn [keeps_to answers run] in *; [auto|].
    destruct K as (Kc & Kr & K).
    assert (Iab : independent s a b).
    { split; intros c H H'; [exact (D1 c (Kc c H) (Hr c H'))|exact (D2 c (Hc c H) (Kr c H'))]. }
    pose proof (independent_sym _ _ _ Iab) as Iba.
    destruct (commute s a b Iab) as [_ E]. destruct (commute s b a Iba) as [Ea _].
    destruct (footprint_same _ _ _ (independent_eqon _ _ _ Iab)) as [Cb Rb].
    destruct (footprint_same _ _ _ (independent_eqon _ _ _ Iba)) as [Ca Ra].
    destruct (IH (exec_event s a) b K) as (H1 & H2 & H3); [now rewrite Cb|now rewrite Rb|].
    rewrite Ca, Ra, <- E, Ea. split; [auto|]. split; [now f_equal|exact H3].
  Qed.
End parties.

Lemma interleaving_lemma (W1 R1 W2 R2 : part -> Prop) : (forall c, W1 c -> ~ R2 c) -> (forall c, W2 c -> ~ R1 c) -> forall sched s,
  keeps_to W1 R1 s (calls_of true sched) -> keeps_to W2 R2 s (calls_of false sched) ->
  run s (map snd sched) = run (run s (calls_of true sched)) (calls_of false sched) /\
  answers_to true s sched = answers s (calls_of true sched) /\
  answers_to false s sched = answers s (calls_of false sched).
Proof.
  intros D1 D2. induction sched as [|[[|] ev] sched IH]; intros s K1 K2.
  - auto.
  - unfold calls_of in *. cbn [List.filter fst Bool.eqb map snd keeps_to run answers answers_to app] in *.
    destruct K1 as (Kc & Kr & K1).
    destruct (party_step W2 R2 W1 R1 D2 D1 _ s ev K2 Kc Kr) as (K2' & A2 & _).
    destruct (IH _ K1 K2') as (E & E1 & E2). split; [exact E|]. split; [now f_equal|congruence].
  - unfold calls_of in *. cbn [List.filter fst Bool.eqb map snd keeps_to run answers answers_to app] in *.
    destruct K2 as (Kc & Kr & K2).
    destruct (party_step W1 R1 W2 R2 D1 D2 _ s ev K1 Kc Kr) as (K1' & A1 & Erun).
    destruct (IH _ K1' K2) as (E & E1 & E2). rewrite Erun in E. split; [exact E|]. split; [congruence|now f_equal].
Qed.

Lemma untouched_run c evs : forall s, keeps_to (fun c' => c' <> c) (fun _ => True) s evs -> same_part c s (run s evs).
Proof.
  induction evs as [|ev evs IH]; intros s K; cbn [keeps_to run] in *; [apply same_part_refl|].
  destruct K as (Kc & _ & K). eapply same_part_trans; [|now apply IH].
  apply call_keeps. intros Hc. now apply (Kc c Hc).
Qed.
Lemma keeps_to_weaken (W W' R R' : part -> Prop) : (forall c, W c -> W' c) -> (forall c, R c -> R' c) -> forall evs s,
  keeps_to W R s evs -> keeps_to W' R' s evs.
Proof.
  intros HW HR. induction evs as [|ev evs IH]; intros s K; cbn [keeps_to] in *; [exact I|].
  destruct K as (K1 & K2 & K3). repeat split; auto.
Qed.
Lemma admin_run evs : forall s, s_admin s = s_admin (run s evs).
Proof. induction evs as [|ev evs IH]; intros s; cbn [run]; [reflexivity|]. rewrite <- IH. apply call_keeps. Qed.
