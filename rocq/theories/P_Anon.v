(** Renaming users: proofs for C76. *)
From Verif Require Import Base Decimal SqrtPriceM LogM ClammM FeeGrowthM Types TickmapM StorageM
  CollectionsM StateM ServiceM SpecHistory SpecIndep SpecSale SpecAnon P_Indep.
From stdpp Require Import gmap list.
From Coq Require Import ZArith Lia Bool.
Open Scope Z_scope.

Definition rmap {A B} (h : A -> B) (r : res A) : res B := let* a := r in Ok (h a).

Lemma rmap_bind {A B C} (h : B -> C) (r : res A) (g : A -> res B) : rmap h (bind r g) = bind r (fun a => rmap h (g a)).
Proof. destruct r; reflexivity. Qed.
Lemma bind_rmap {A B C} (h : A -> B) (r : res A) (g : B -> res C) : bind (rmap h r) g = bind r (fun a => g (h a)).
Proof. destruct r; reflexivity. Qed.
Lemma unwrap_rmap {A B} (h : A -> B) (r : res A) : unwrap (rmap h r) = rmap h (unwrap r).
Proof. destruct r; reflexivity. Qed.

Section anon.
  Context (f : actor_id -> actor_id) (inj_f : forall u v, f u = f v -> u = v).
  Notation hp := (rename_pool f).

  (** ** Pools *)
  Lemma add_fee_ren p a x fee : pool_add_fee (hp p) a x fee = rmap hp (pool_add_fee p a x fee).
  Proof.
    unfold pool_add_fee. rewrite rmap_bind. apply bind_ext. intros pp. rewrite rmap_bind. apply bind_ext. intros pf.
    cbn [rename_pool set_fee_receiver p_liquidity p_fee_protocol_token_x p_fee_protocol_token_y p_fee_growth_global_x p_fee_growth_global_y].
    destruct (_ || _); [reflexivity|]. rewrite rmap_bind. apply bind_ext. intros g.
    destruct x; rewrite rmap_bind; apply bind_ext; intros h; reflexivity.
  Qed.
  Lemma update_liquidity_ren p d sg up lo :
    pool_update_liquidity (hp p) d sg up lo = rmap (fun r => (hp r.1, r.2)) (pool_update_liquidity p d sg up lo).
  Proof.
    unfold pool_update_liquidity. rewrite rmap_bind.
    cbn [rename_pool set_fee_receiver p_liquidity p_sqrt_price p_current_tick_index]. apply bind_ext. intros [[x y] upd].
    destruct (negb upd); [reflexivity|]. destruct sg; rewrite rmap_bind; apply bind_ext; intros h; reflexivity.
  Qed.
  Lemma cross_ren t p ts : tick_cross t (hp p) ts = rmap (fun r => (r.1, hp r.2)) (tick_cross t p ts).
  Proof.
    unfold tick_cross. cbv zeta. rewrite rmap_bind. apply bind_ext. intros sec.
    cbn [rename_pool set_fee_receiver set_last_timestamp p_liquidity p_current_tick_index].
    destruct (xorb _ _); rewrite rmap_bind; apply bind_ext; intros h; reflexivity.
  Qed.
  Lemma update_tick_ren p r lim tk rem b d ts fee ft :
    pool_update_tick (hp p) r lim tk rem b d ts fee ft =
    rmap (fun x => (hp x.1.1, x.1.2, x.2)) (pool_update_tick p r lim tk rem b d ts fee ft).
  Proof.
    unfold pool_update_tick. cbv zeta. destruct (_ || _).
    - rewrite rmap_bind. apply bind_ext. intros c. reflexivity.
    - rewrite rmap_bind. change (p_liquidity (hp p)) with (p_liquidity p). apply bind_ext. intros en. rewrite rmap_bind.
      destruct tk as [|t|i]; [reflexivity| |reflexivity].
      destruct (_ || _).
      + rewrite cross_ren, unwrap_rmap, bind_rmap. destruct (unwrap (tick_cross t p ts)) as [[t' p']| | |]; reflexivity.
      + destruct (negb _); [|reflexivity]. destruct b; [|reflexivity].
        rewrite add_fee_ren, unwrap_rmap, bind_rmap. destruct (unwrap (pool_add_fee _ _ _ _)); reflexivity.
  Qed.
  Lemma modify_ren pos p up lo d add ts sp :
    position_modify pos (hp p) up lo d add ts sp =
    rmap (fun x => (x.1.1.1.1, hp x.1.1.1.2, x.1.1.2, x.1.2, x.2)) (position_modify pos p up lo d add ts sp).
  Proof.
    unfold position_modify. cbv zeta. rewrite rmap_bind. apply bind_ext. intros mx. rewrite rmap_bind. apply bind_ext. intros lo'.
    rewrite rmap_bind. apply bind_ext. intros up'.
    cbn [rename_pool set_fee_receiver set_last_timestamp p_current_tick_index p_fee_growth_global_x p_fee_growth_global_y].
    destruct (calculate_fee_growth_inside _ _ _ _ _ _ _ _ _) as [fx fy]. rewrite rmap_bind. apply bind_ext. intros pos'.
    change (set_last_timestamp ts _) with (hp (set_last_timestamp ts p)) at 1. rewrite update_liquidity_ren, bind_rmap, rmap_bind.
    apply bind_ext. intros [q xy]. reflexivity.
  Qed.

  (** ** Swaps *)
  Definition hl (l : swap_loop_state) : swap_loop_state :=
    mkLoop (hp (l_pool l)) (l_remaining l) (l_in l) (l_out l) (l_fee l) (l_ticks l).
  Definition pmap {S} (h : S -> S) (x : progress S) : progress S :=
    match x with Cont s => Cont (h s) | Stop r => Stop (rmap h r) end.
  Lemma iterate_ren {S} (h : S -> S) fin (g g' : S -> res S) : (forall x, fin (h x) = fin x) ->
    (forall x, g' (h x) = rmap h (g x)) -> forall n x, iterate fin g' n (h x) = pmap h (iterate fin g n x).
  Proof.
    intros Hf Hg. induction n as [|n IH]; intros x; cbn [iterate].
    - unfold loop_once. rewrite Hf, Hg. destruct (fin x); [reflexivity|]. destruct (g x); reflexivity.
    - rewrite IH. destruct (iterate fin g n x); cbn [pmap]; [apply IH|reflexivity].
  Qed.
  Lemma while_ren {S} (h : S -> S) fin (g g' : S -> res S) x : (forall x, fin (h x) = fin x) ->
    (forall x, g' (h x) = rmap h (g x)) -> while_loop fin g' (h x) = rmap h (while_loop fin g x).
  Proof.
    intros Hf Hg. unfold while_loop. rewrite (iterate_ren h fin g g' Hf Hg). destruct (iterate fin g 100 x); reflexivity.
  Qed.

  Section states.
    Context (s s' : state) (H : renamed f s s').

    Lemma pools_get_ren k : pools_get s' k = rmap hp (pools_get s k).
    Proof. unfold pools_get. rewrite (rn_pools _ _ _ H), lookup_fmap. destruct (s_pools s !! k); reflexivity. Qed.
    Lemma ticks_get_ren k i : ticks_get s' k i = ticks_get s k i.
    Proof. unfold ticks_get. now rewrite (rn_ticks _ _ _ H). Qed.
    Lemma positions_get_ren u i : positions_get s' (f u) i = positions_get s u i.
    Proof. unfold positions_get. now rewrite (rn_positions _ _ _ H). Qed.
    Lemma length_ren u : positions_get_length s' (f u) = positions_get_length s u.
    Proof. apply (rn_amounts _ _ _ H). Qed.
    Lemma admin_ren e : is_caller_admin (sent_by (f (e_caller e)) e) s' = is_caller_admin e s.
    Proof.
      unfold is_caller_admin. cbn [sent_by e_caller]. rewrite (rn_admin _ _ _ H).
      destruct (Z.eqb_spec (s_admin s) (e_caller e)) as [->|N]; [apply Z.eqb_refl|]. apply Z.eqb_neq. intros E. now apply inj_f in E.
    Qed.

    Lemma iteration_ren k d b lim tl ts l :
      swap_iteration s' k d b lim tl ts (hl l) = rmap hl (swap_iteration s k d b lim tl ts l).
    Proof.
      unfold swap_iteration. cbv zeta. rewrite (rn_bitmap _ _ _ H), (rn_fee _ _ _ H).
      cbn [hl l_pool l_remaining l_in l_out l_fee l_ticks].
      change (p_current_tick_index (hp (l_pool l))) with (p_current_tick_index (l_pool l)).
      change (p_sqrt_price (hp (l_pool l))) with (p_sqrt_price (l_pool l)).
      change (p_liquidity (hp (l_pool l))) with (p_liquidity (l_pool l)).
      rewrite rmap_bind. apply bind_ext. intros [sl lt]. rewrite rmap_bind. apply bind_ext. intros r.
      rewrite rmap_bind. apply bind_ext. intros ipf. rewrite rmap_bind. apply bind_ext. intros rem.
      rewrite add_fee_ren, unwrap_rmap, bind_rmap, rmap_bind. apply bind_ext. intros q.
      rewrite rmap_bind. apply bind_ext. intros ef. rewrite rmap_bind. apply bind_ext. intros ti. rewrite rmap_bind. apply bind_ext. intros to.
      change (p_sqrt_price (set_sqrt_price (sr_next_sqrt_price r) (hp q))) with (p_sqrt_price (set_sqrt_price (sr_next_sqrt_price r) q)).
      rewrite rmap_bind. apply bind_ext. intros _.
      rewrite rmap_bind.
      assert (ET : (match lt with
        | Some (tick_index, true) => let* t := ticks_get s' k tick_index in Ok (TickInitialized t)
        | Some (tick_index, false) => Ok (TickUninitialized tick_index)
        | None => Ok NoTick end) = (match lt with
        | Some (tick_index, true) => let* t := ticks_get s k tick_index in Ok (TickInitialized t)
        | Some (tick_index, false) => Ok (TickUninitialized tick_index)
        | None => Ok NoTick end)) by (destruct lt as [[ti' [|]]|]; auto; now rewrite ticks_get_ren).
      rewrite ET. apply bind_ext. intros tu.
      change (set_sqrt_price (sr_next_sqrt_price r) (hp q)) with (hp (set_sqrt_price (sr_next_sqrt_price r) q)).
      rewrite update_tick_ren, bind_rmap, rmap_bind. apply bind_ext. intros [[q' tu'] [[ta rm] hc]]. cbn [fst snd].
      rewrite rmap_bind. apply bind_ext. intros tin. 
      change (p_current_tick_index (hp q')) with (p_current_tick_index q'). rewrite rmap_bind. apply bind_ext. intros _. reflexivity.
    Qed.

    Lemma calculate_swap_ren ts k d a b lim :
      calculate_swap s' ts k d a b lim = rmap (rename_swap f) (calculate_swap s ts k d a b lim).
    Proof.
      unfold calculate_swap. rewrite rmap_bind. apply bind_ext. intros _. rewrite pools_get_ren, bind_rmap, rmap_bind. apply bind_ext. intros p.
      change (p_sqrt_price (hp p)) with (p_sqrt_price p). rewrite rmap_bind. apply bind_ext. intros _.
      rewrite rmap_bind. apply bind_ext. intros tl.
      change (mkLoop (hp p) a 0 0 0 []) with (hl (mkLoop p a 0 0 0 [])).
      rewrite (while_ren hl _ (swap_iteration s k d b lim tl ts)); [|reflexivity|intros l; apply iteration_ren].
      rewrite bind_rmap, rmap_bind. apply bind_ext. intros l. cbn [hl l_pool l_remaining l_in l_out l_fee l_ticks].
      rewrite rmap_bind. apply bind_ext. intros _. reflexivity.
    Qed.

    (** ** Primitives *)
    Lemma pools_update_ren k p : rrel (renamed f) (pools_update s k p) (pools_update s' k (hp p)).
    Proof.
      unfold pools_update. rewrite pools_get_ren. destruct (pools_get s k) as [q| | |]; cbn; auto.
      constructor; cbn; try apply H. rewrite (rn_pools _ _ _ H). symmetry. apply fmap_insert.
    Qed.
    Lemma pools_add_ren k p : rrel (renamed f) (pools_add s k p) (pools_add s' k (hp p)).
    Proof.
      unfold pools_add. rewrite (rn_pools _ _ _ H), lookup_fmap. destruct (s_pools s !! k) as [q|]; cbn; [reflexivity|].
      constructor; cbn; try apply H. symmetry. apply fmap_insert.
    Qed.
    Lemma pool_keys_add_ren k : rrel (renamed f) (pool_keys_add s k) (pool_keys_add s' k).
    Proof.
      unfold pool_keys_add. destruct (rn_keys _ _ _ H) as (-> & -> & ->).
      destruct (s_pool_keys s !! k); cbn; [reflexivity|]. constructor; cbn; try apply H; auto.
    Qed.
    Lemma ticks_update_ren k i t : rrel (renamed f) (ticks_update s k i t) (ticks_update s' k i t).
    Proof.
      unfold ticks_update. rewrite ticks_get_ren. destruct (ticks_get s k i); cbn; auto.
      constructor; cbn; try apply H. now rewrite (rn_ticks _ _ _ H).
    Qed.
    Lemma ticks_add_ren k i t : rrel (renamed f) (ticks_add s k i t) (ticks_add s' k i t).
    Proof.
      unfold ticks_add. rewrite (rn_ticks _ _ _ H). destruct (s_ticks s !! (k, i)); cbn; [reflexivity|].
      constructor; cbn; try apply H; auto.
    Qed.
    Lemma ticks_remove_ren k i : rrel (renamed f) (ticks_remove s k i) (ticks_remove s' k i).
    Proof.
      unfold ticks_remove. rewrite ticks_get_ren. destruct (ticks_get s k i); cbn; auto.
      constructor; cbn; try apply H. now rewrite (rn_ticks _ _ _ H).
    Qed.
    Lemma bitmap_ren b : renamed f (set_bitmap b s) (set_bitmap b s').
    Proof. constructor; cbn; try apply H; auto. Qed.

    Lemma insert_ren {A} (m m' : gmap actor_id A) u x : (forall w, m' !! f w = m !! w) -> forall w, <[f u := x]> m' !! f w = <[u := x]> m !! w.
    Proof.
      intros E w. destruct (decide (u = w)) as [->|N]; [now rewrite !lookup_insert|]. rewrite !lookup_insert_ne; auto.
    Qed.
    Lemma delete_ren {A} (m m' : gmap actor_id A) u : (forall w, m' !! f w = m !! w) -> forall w, delete (f u) m' !! f w = delete u m !! w.
    Proof.
      intros E w. destruct (decide (u = w)) as [->|N]; [now rewrite !lookup_delete|]. rewrite !lookup_delete_ne; auto.
    Qed.
    Lemma insert2_ren {A} (m m' : gmap (actor_id * Z) A) u j x : (forall w i, m' !! (f w, i) = m !! (w, i)) ->
      forall w i, <[(f u, j) := x]> m' !! (f w, i) = <[(u, j) := x]> m !! (w, i).
    Proof.
      intros E w i. destruct (decide ((u, j) = (w, i))) as [Q|N]; [injection Q as <- <-; now rewrite !lookup_insert|].
      rewrite !lookup_insert_ne; auto. intros Q. apply N. injection Q as Q ->. apply inj_f in Q. congruence.
    Qed.
    Lemma delete2_ren {A} (m m' : gmap (actor_id * Z) A) u j : (forall w i, m' !! (f w, i) = m !! (w, i)) ->
      forall w i, delete (f u, j) m' !! (f w, i) = delete (u, j) m !! (w, i).
    Proof.
      intros E w i. destruct (decide ((u, j) = (w, i))) as [Q|N]; [injection Q as <- <-; now rewrite !lookup_delete|].
      rewrite !lookup_delete_ne; auto. intros Q. apply N. injection Q as Q ->. apply inj_f in Q. congruence.
    Qed.

    Lemma amounts_ren S S' n u : s_positions_length S = <[u := n]> (s_positions_length s) -> s_positions_length S' = <[f u := n]> (s_positions_length s') ->
      forall w, get_user_position_amount S' (f w) = get_user_position_amount S w.
    Proof.
      intros E E' w. unfold get_user_position_amount, positions_get_length. rewrite E, E'.
      destruct (decide (u = w)) as [->|N]; [now rewrite !lookup_insert|]. rewrite !lookup_insert_ne; auto. apply (rn_amounts _ _ _ H w).
    Qed.
    Lemma positions_add_ren u p : renamed f (positions_add s u p) (positions_add s' (f u) p).
    Proof.
      unfold positions_add. rewrite length_ren. constructor; cbn [set_positions s_admin s_protocol_fee s_fee_tiers s_pools s_pool_keys s_pool_keys_by_index s_pool_keys_length s_ticks s_bitmap s_balances s_awaiting s_positions s_positions_length]; try apply H.
      - eapply amounts_ren; reflexivity.
      - apply insert2_ren, H.
    Qed.
    Lemma positions_update_ren u i p : rrel (renamed f) (positions_update s u i p) (positions_update s' (f u) i p).
    Proof.
      unfold positions_update. rewrite length_ren. apply rrel_bind_same. intros _ _. cbn [rrel]. constructor; cbn [set_positions s_admin s_protocol_fee s_fee_tiers s_pools s_pool_keys s_pool_keys_by_index s_pool_keys_length s_ticks s_bitmap s_balances s_awaiting s_positions s_positions_length]; try apply H.
      apply insert2_ren, H.
    Qed.
    Definition st_ren {A} (x y : state * A) : Prop := y.2 = x.2 /\ renamed f x.1 y.1.
    Lemma positions_remove_ren u i : rrel st_ren (positions_remove s u i) (positions_remove s' (f u) i).
    Proof.
      unfold positions_remove. rewrite length_ren, positions_get_ren, (rn_positions _ _ _ H). apply rrel_bind_same. intros p _.
      destruct (i <? _); cbn [bind].
      - destruct (s_positions s !! _); cbn [expect bind rrel]; [|exact I]. split; [reflexivity|]. constructor; cbn [fst set_positions s_admin s_protocol_fee s_fee_tiers s_pools s_pool_keys s_pool_keys_by_index s_pool_keys_length s_ticks s_bitmap s_balances s_awaiting s_positions s_positions_length]; try apply H.
        + eapply amounts_ren; reflexivity.
        + apply insert2_ren. apply delete2_ren, H.
      - split; [reflexivity|]. constructor; cbn [fst set_positions s_admin s_protocol_fee s_fee_tiers s_pools s_pool_keys s_pool_keys_by_index s_pool_keys_length s_ticks s_bitmap s_balances s_awaiting s_positions s_positions_length]; try apply H.
        + eapply amounts_ren; reflexivity.
        + apply delete2_ren, H.
    Qed.
    Lemma balances_ren B B' : (forall w, B' !! f w = B !! w) -> renamed f (set_balances B s) (set_balances B' s').
    Proof. intros E. constructor; cbn; try apply H; auto. Qed.
    Lemma increase_ren t u a : rrel (renamed f) (increase_token_balance s t u a) (increase_token_balance s' t (f u) a).
    Proof.
      unfold increase_token_balance. destruct (a =? 0); [exact H|]. rewrite (rn_balances _ _ _ H). apply rrel_bind_same. intros b _.
      cbn [rrel]. apply balances_ren, insert_ren, (rn_balances _ _ _ H).
    Qed.
    Lemma decrease_ren t u a : rrel st_ren (decrease_token_balance s t u a) (decrease_token_balance s' t (f u) a).
    Proof.
      unfold decrease_token_balance. destruct (bool_decide (a = Some 0)); [split; [reflexivity|exact H]|].
      rewrite (rn_balances _ _ _ H). apply rrel_bind_same. intros tk _. apply rrel_bind_same. intros bal _. cbv zeta.
      assert (R : rrel st_ren
        (if bool_decide (delete t tk = ∅) then Ok (set_balances (delete u (s_balances s)) s, bal)
         else Ok (set_balances (<[u:=delete t tk]> (s_balances s)) s, bal))
        (if bool_decide (delete t tk = ∅) then Ok (set_balances (delete (f u) (s_balances s')) s', bal)
         else Ok (set_balances (<[f u:=delete t tk]> (s_balances s')) s', bal))).
      { destruct (bool_decide _); (split; [reflexivity|]); apply balances_ren; [apply delete_ren|apply insert_ren]; apply (rn_balances _ _ _ H). }
      destruct a as [a|]; [|exact R]. destruct (negb (a =? bal)); [|exact R].
      apply rrel_bind_same. intros b _. split; [reflexivity|]. apply balances_ren, insert_ren, (rn_balances _ _ _ H).
    Qed.
    Lemma get_or_create_tick_ren ts k i : get_or_create_tick s' ts k i = get_or_create_tick s ts k i.
    Proof.
      unfold get_or_create_tick, create_tick. rewrite (rn_ticks _ _ _ H), pools_get_ren. destruct (s_ticks s !! (k, i)); [reflexivity|].
      destruct (map_err _ _); cbn [bind]; [|reflexivity..]. destruct (pools_get s k); reflexivity.
    Qed.
  End states.

  (** ** Calls *)
  Lemma add_tick_ren s s' k t : renamed f s s' -> rrel (renamed f) (add_tick s k t) (add_tick s' k t).
  Proof.
    intros H. unfold add_tick. eapply rrel_bind; [now apply ticks_add_ren|]. intros a b Hab.
    rewrite (rn_bitmap _ _ _ Hab). apply rrel_bind_same. intros c _. now apply bitmap_ren.
  Qed.
  Lemma remove_tick_ren s s' k t : renamed f s s' -> rrel (renamed f) (remove_tick s k t) (remove_tick s' k t).
  Proof.
    intros H. unfold remove_tick. apply rrel_bind_same. intros _ _. rewrite (rn_bitmap _ _ _ H). apply rrel_bind_same. intros c _.
    apply ticks_remove_ren. now apply bitmap_ren.
  Qed.
  Lemma fold_ticks_ren k ts : forall s s', renamed f s s' ->
    rrel (renamed f) (foldM_res (fun s t => ticks_update s k (t_index t) t) ts s)
                  (foldM_res (fun s t => ticks_update s k (t_index t) t) ts s').
  Proof.
    induction ts as [|t ts IH]; intros s s' H; cbn [foldM_res]; [exact H|].
    eapply rrel_bind; [now apply ticks_update_ren|]. intros a b Hab. now apply IH.
  Qed.
  Lemma pay_ren s s' k u x y (A : Type) (v : A) : renamed f s s' ->
    rrel st_ren
      (let* s := increase_token_balance s (pk_token_x k) u x in
       let* s := increase_token_balance s (pk_token_y k) u y in Ok (s, v))
      (let* s := increase_token_balance s' (pk_token_x k) (f u) x in
       let* s := increase_token_balance s (pk_token_y k) (f u) y in Ok (s, v)).
  Proof.
    intros H. eapply rrel_bind; [now apply increase_ren|]. intros a b Hab.
    eapply rrel_bind; [now apply increase_ren|]. intros a' b' Hab'. split; [reflexivity|exact Hab'].
  Qed.

  Notation env' e := (sent_by (f (e_caller e)) e).

  Lemma create_position_ren e s s' k lo up l sl su : renamed f s s' ->
    rrel st_ren (create_position e s k lo up l sl su) (create_position (env' e) s' k lo up l sl su).
  Proof.
    intros H. unfold create_position. cbv zeta. cbn [sent_by e_caller e_timestamp e_block].
    rewrite (pools_get_ren s s' H), !(get_or_create_tick_ren s s' H).
    apply rrel_bind_same. intros _ _. apply rrel_bind_same. intros _ _. rewrite bind_rmap. apply rrel_bind_same. intros p _.
    apply rrel_bind_same. intros [lot b1] _. apply rrel_bind_same. intros [upt b2] _.
    unfold position_create. change (p_sqrt_price (hp p)) with (p_sqrt_price p). cbv zeta. rewrite modify_ren, unwrap_rmap.
    destruct (fail_if _ _); cbn [bind]; [|cbn; first [exact I|reflexivity]..]. rewrite bind_rmap.
    apply rrel_bind_same. intros [[[[pos p'] u'] l'] [x y]] _. cbn [fst snd].
    eapply rrel_bind; [now apply decrease_ren|]. intros [s1 v1] [s1' v1'] [_ H1]. cbn in H1.
    eapply rrel_bind; [now apply decrease_ren|]. intros [s2 v2] [s2' v2'] [_ H2]. cbn in H2.
    eapply rrel_bind; [now apply pools_update_ren|]. intros s3 s3' H3.
    pose proof (positions_add_ren s3 s3' H3 (e_caller e) pos) as H4.
    eapply rrel_bind; [destruct b1; [now apply add_tick_ren|now apply ticks_update_ren]|]. intros s5 s5' H5.
    eapply rrel_bind; [destruct b2; [now apply add_tick_ren|now apply ticks_update_ren]|]. intros s6 s6' H6.
    split; [reflexivity|exact H6].
  Qed.

  Lemma remove_position_ren e s s' i : renamed f s s' -> rrel st_ren (remove_position e s i) (remove_position (env' e) s' i).
  Proof.
    intros H. unfold remove_position. cbv zeta. cbn [sent_by e_caller e_timestamp]. rewrite (positions_get_ren s s' H).
    apply rrel_bind_same. intros pos _. rewrite !(ticks_get_ren s s' H), (pools_get_ren s s' H).
    apply rrel_bind_same. intros lot _. apply rrel_bind_same. intros upt _. rewrite bind_rmap. apply rrel_bind_same. intros p _.
    unfold position_remove. rewrite modify_ren, unwrap_rmap, bind_rmap.
    destruct (unwrap (position_modify _ _ _ _ _ _ _ _)) as [[[[[p0 p'] u'] l'] [x y]]| | |]; cbn [bind fst snd]; [|cbn; first [exact I|reflexivity]..].
    destruct (dec_add M256 x _) as [x1| | |]; cbn [bind]; [|cbn; first [exact I|reflexivity]..].
    destruct (dec_add M256 y _) as [y1| | |]; cbn [bind]; [|cbn; first [exact I|reflexivity]..].
    eapply rrel_bind; [now apply pools_update_ren|]. intros s3 s3' H3.
    eapply rrel_bind; [destruct (_ =? _); [now apply remove_tick_ren|now apply ticks_update_ren]|]. intros s5 s5' H5.
    eapply rrel_bind; [destruct (_ =? _); [now apply remove_tick_ren|now apply ticks_update_ren]|]. intros s6 s6' H6.
    eapply rrel_bind; [now apply positions_remove_ren|]. intros [s7 v7] [s7' v7'] [_ H7]. cbn in H7.
    now apply pay_ren.
  Qed.

  Lemma claim_fee_ren e s s' i : renamed f s s' -> rrel st_ren (claim_fee e s i) (claim_fee (env' e) s' i).
  Proof.
    intros H. unfold claim_fee. cbv zeta. cbn [sent_by e_caller e_timestamp]. rewrite (positions_get_ren s s' H).
    apply rrel_bind_same. intros pos _. rewrite !(ticks_get_ren s s' H), (pools_get_ren s s' H).
    apply rrel_bind_same. intros lot _. apply rrel_bind_same. intros upt _. rewrite bind_rmap. apply rrel_bind_same. intros p _.
    unfold position_claim_fee. rewrite modify_ren, unwrap_rmap, bind_rmap.
    destruct (unwrap (position_modify _ _ _ _ _ _ _ _)) as [[[[[p0 p'] u'] l'] [x y]]| | |]; cbn [bind fst snd]; [|cbn; first [exact I|reflexivity]..].
    eapply rrel_bind; [now apply positions_update_ren|]. intros s2 s2' H2.
    eapply rrel_bind; [now apply pools_update_ren|]. intros s3 s3' H3.
    eapply rrel_bind; [now apply ticks_update_ren|]. intros s5 s5' H5.
    eapply rrel_bind; [now apply ticks_update_ren|]. intros s6 s6' H6.
    now apply pay_ren.
  Qed.

  Lemma swap_ren e s s' k d a b lim : renamed f s s' ->
    rrel (fun x y => y.2 = rename_swap f x.2 /\ renamed f x.1 y.1) (swap e s k d a b lim) (swap (env' e) s' k d a b lim).
  Proof.
    intros H. unfold swap. cbv zeta. cbn [sent_by e_caller e_timestamp]. rewrite (calculate_swap_ren s s' H), bind_rmap.
    apply rrel_bind_same. intros r _. cbn [rename_swap cs_ticks cs_pool cs_amount_in cs_amount_out].
    eapply rrel_bind; [now apply fold_ticks_ren|]. intros s2 s2' H2.
    eapply rrel_bind; [now apply pools_update_ren|]. intros s3 s3' H3.
    destruct (if d then _ else _) as [ti to].
    eapply rrel_bind; [now apply decrease_ren|]. intros [s4 v4] [s4' v4'] [_ H4]. cbn in H4.
    eapply rrel_bind; [now apply increase_ren|]. intros s5 s5' H5. split; [reflexivity|exact H5].
  Qed.

  Lemma route_ren e hops : forall s s' a, renamed f s s' -> rrel st_ren (route_swap e s a hops) (route_swap (env' e) s' a hops).
  Proof.
    induction hops as [|h hops IH]; intros s s' a H; cbn [route_swap]; [split; [reflexivity|exact H]|].
    eapply rrel_bind; [now apply swap_ren|]. intros [s1 r] [s1' r'] [E H1]. cbn in E, H1. subst r'. now apply IH.
  Qed.

  Definition re {A} (h : A -> A) (x y : state * A) : Prop := y.2 = h x.2 /\ renamed f x.1 y.1.
  Lemma told_ren {A} (h : A -> A) (g g' : A -> reply) (x y : res (state * A)) : (forall a, g' (h a) = rename_reply f (g a)) ->
    rrel (re h) x y -> told g' y = rename_answer f (told g x).
  Proof.
    intros Hg Hr. unfold told. destruct x as [[s1 a]| | |], y as [[s1' a']| | |]; cbn in *; try contradiction; auto; [|congruence].
    destruct Hr as [E _]. cbn in E. rewrite E, Hg. reflexivity.
  Qed.
  Lemma drop_ren {A} (h : A -> A) (x y : res (state * A)) s s' : renamed f s s' -> rrel (re h) x y ->
    renamed f match drop_result x with Ok s1 => s1 | _ => s end match drop_result y with Ok s1 => s1 | _ => s' end.
  Proof.
    intros H Hr. unfold drop_result. destruct x as [[s1 a]| | |], y as [[s1' a']| | |]; cbn in *; try contradiction; auto. apply Hr.
  Qed.
  Lemma re_id {A} (x y : res (state * A)) : rrel st_ren x y -> rrel (re (fun a => a)) x y.
  Proof. auto. Qed.

  Lemma change_protocol_fee_ren e s s' v : renamed f s s' -> rrel st_ren (change_protocol_fee e s v) (change_protocol_fee (env' e) s' v).
  Proof.
    intros H. unfold change_protocol_fee. rewrite (admin_ren s s' H). apply rrel_bind_same. intros _ _. split; [reflexivity|].
    constructor; cbn; try apply H; auto.
  Qed.
  Lemma add_fee_tier_ren e s s' ft : renamed f s s' -> rrel st_ren (add_fee_tier e s ft) (add_fee_tier (env' e) s' ft).
  Proof.
    intros H. unfold add_fee_tier. rewrite (admin_ren s s' H), (rn_tiers _ _ _ H). do 4 (apply rrel_bind_same; intros ? _). split; [reflexivity|].
    constructor; cbn; try apply H; auto.
  Qed.
  Lemma remove_fee_tier_ren e s s' ft : renamed f s s' -> rrel st_ren (remove_fee_tier e s ft) (remove_fee_tier (env' e) s' ft).
  Proof.
    intros H. unfold remove_fee_tier. rewrite (admin_ren s s' H), (rn_tiers _ _ _ H). do 2 (apply rrel_bind_same; intros ? _). split; [reflexivity|].
    constructor; cbn; try apply H; auto.
  Qed.
  Lemma pool_create_ren p t ts sp a : pool_create p t ts sp (f a) = rmap hp (pool_create p t ts sp a).
  Proof. unfold pool_create. do 3 (rewrite rmap_bind; apply bind_ext; intros ?). reflexivity. Qed.
  Lemma create_pool_ren e s s' x y ft p t : renamed f s s' -> rrel st_ren (create_pool e s x y ft p t) (create_pool (env' e) s' x y ft p t).
  Proof.
    intros H. unfold create_pool. cbn [sent_by e_timestamp]. rewrite (rn_tiers _ _ _ H), (rn_admin _ _ _ H). do 3 (apply rrel_bind_same; intros ? _).
    rewrite (pools_get_ren s s' H). replace (is_ok (rmap hp (pools_get s a1))) with (is_ok (pools_get s a1)) by (destruct (pools_get s a1); reflexivity).
    apply rrel_bind_same. intros _ _. rewrite pool_create_ren, bind_rmap. apply rrel_bind_same. intros q _.
    eapply rrel_bind; [now apply pools_add_ren|]. intros s1 s1' H1.
    eapply rrel_bind; [now apply pool_keys_add_ren|]. intros s2 s2' H2. split; [reflexivity|exact H2].
  Qed.
  Lemma change_fee_receiver_ren e s s' k r : renamed f s s' -> rrel st_ren (change_fee_receiver e s k r) (change_fee_receiver (env' e) s' k (f r)).
  Proof.
    intros H. unfold change_fee_receiver. rewrite (admin_ren s s' H), (pools_get_ren s s' H). apply rrel_bind_same. intros _ _.
    rewrite bind_rmap. apply rrel_bind_same. intros p _.
    change (set_fee_receiver (f r) (hp p)) with (hp (set_fee_receiver r p)).
    eapply rrel_bind; [now apply pools_update_ren|]. intros s1 s1' H1. split; [reflexivity|exact H1].
  Qed.
  Lemma transfer_position_ren e s s' i r : renamed f s s' -> rrel st_ren (transfer_position e s i r) (transfer_position (env' e) s' i (f r)).
  Proof.
    intros H. unfold transfer_position, positions_transfer. cbn [sent_by e_caller]. eapply rrel_bind.
    - eapply rrel_bind; [now apply positions_remove_ren|]. intros [s1 p] [s1' p'] [E H1]. cbn in E, H1. subst p'.
      instantiate (1 := renamed f). cbn [rrel]. now apply positions_add_ren.
    - intros s1 s1' H1. split; [reflexivity|exact H1].
  Qed.
  Lemma swap_route_ren e s s' a x sl h : renamed f s s' -> rrel st_ren (swap_route e s a x sl h) (swap_route (env' e) s' a x sl h).
  Proof.
    intros H. unfold swap_route. eapply rrel_bind; [now apply route_ren|]. intros [s1 v] [s1' v'] [E H1]. cbn in E, H1. subst v'.
    do 2 (apply rrel_bind_same; intros ? _). split; [reflexivity|exact H1].
  Qed.
  Lemma withdraw_protocol_fee_ren e s s' k : renamed f s s' -> rrel st_ren (withdraw_protocol_fee e s k) (withdraw_protocol_fee (env' e) s' k).
  Proof.
    intros H. unfold withdraw_protocol_fee. cbv zeta. cbn [sent_by e_caller]. rewrite (pools_get_ren s s' H), bind_rmap. apply rrel_bind_same. intros p _.
    change (p_fee_receiver (hp p)) with (f (p_fee_receiver p)).
    replace (f (p_fee_receiver p) =? f (e_caller e)) with (p_fee_receiver p =? e_caller e)
      by (destruct (Z.eqb_spec (p_fee_receiver p) (e_caller e)) as [->|N]; symmetry; [apply Z.eqb_refl|]; apply Z.eqb_neq; intros E; now apply inj_f in E).
    apply rrel_bind_same. intros _ _. unfold pool_withdraw_protocol_fee. cbv iota.
    eapply rrel_bind; [|intros s1 s1' H1; apply pay_ren; exact H1].
    exact (pools_update_ren s s' H k _).
  Qed.
  Lemma deposit_vara_ren e s s' : renamed f s s' -> rrel st_ren (deposit_vara e s) (deposit_vara (env' e) s').
  Proof.
    intros H. unfold deposit_vara. cbn [sent_by e_caller e_value]. eapply rrel_bind; [now apply increase_ren|].
    intros s1 s1' H1. split; [reflexivity|exact H1].
  Qed.
  Lemma withdraw_vara_ren e s s' v : renamed f s s' -> rrel st_ren (withdraw_vara e s v) (withdraw_vara (env' e) s' v).
  Proof.
    intros H. unfold withdraw_vara. cbn [sent_by e_caller]. eapply rrel_bind with (Q := st_ren).
    - destruct v as [v|]; [apply rrel_bind_same; intros _ _; now apply decrease_ren|].
      pose proof (decrease_ren s s' H VARA_ADDRESS (e_caller e) None) as R.
      destruct (decrease_token_balance s _ _ _), (decrease_token_balance s' _ _ _); cbn in R |- *; try contradiction; auto.
      split; [reflexivity|exact H].
    - intros [s1 x] [s1' x'] [E H1]. cbn in E, H1. subst x'. apply rrel_bind_same. intros y _. split; [reflexivity|exact H1].
  Qed.

  Lemma step_ren s s' ev : renamed f s s' ->
    answer s' (rename_event f ev) = rename_answer f (answer s ev) /\
    renamed f (exec_event s ev) (exec_event s' (rename_event f ev)).
  Proof.
    intros H. destruct ev as [e o|u t a|u t a|m].
    - destruct o; cbn [rename_event rename_op answer exec_event]; unfold exec_op; cbn [run_op].
      Ltac op_ren L h H := split; [eapply (told_ren h); [|eapply L; exact H]; reflexivity
                                |eapply (drop_ren h); [exact H|eapply L; exact H]].
      + op_ren change_protocol_fee_ren (fun a : Z => a) H.
      + op_ren add_fee_tier_ren (fun a : fee_tier => a) H.
      + op_ren remove_fee_tier_ren (fun a : fee_tier => a) H.
      + op_ren create_pool_ren (fun a : unit => a) H.
      + op_ren change_fee_receiver_ren (fun a : unit => a) H.
      + op_ren create_position_ren (fun a : position => a) H.
      + op_ren remove_position_ren (fun a : Z * Z => a) H.
      + op_ren transfer_position_ren (fun a : unit => a) H.
      + op_ren swap_ren (rename_swap f) H.
      + op_ren swap_route_ren (fun a : Z => a) H.
      + op_ren claim_fee_ren (fun a : Z * Z => a) H.
      + op_ren withdraw_protocol_fee_ren (fun a : unit => a) H.
      + op_ren deposit_vara_ren (fun a : Z => a) H.
      + op_ren withdraw_vara_ren (fun a : Z => a) H.
    - cbn [rename_event answer exec_event]. pose proof (increase_ren s s' H t u a) as R.
      destruct (increase_token_balance s t u a), (increase_token_balance s' t (f u) a); cbn in R |- *; try contradiction; split; auto; congruence.
    - cbn [rename_event answer exec_event]. pose proof (decrease_ren s s' H t u a) as R.
      split; [now apply (told_ren (fun a => a))|].
      destruct (decrease_token_balance s t u a) as [[s1 x]| | |], (decrease_token_balance s' t (f u) a) as [[s1' x']| | |];
        cbn in R |- *; try contradiction; auto. apply R.
    - split; [reflexivity|]. cbn. constructor; cbn; try apply H; auto.
  Qed.

  Lemma run_ren evs : forall s s', renamed f s s' ->
    answers s' (map (rename_event f) evs) = map (rename_answer f) (answers s evs) /\
    renamed f (run s evs) (run s' (map (rename_event f) evs)).
  Proof.
    induction evs as [|ev evs IH]; intros s s' H; cbn [map answers run]; [split; [reflexivity|exact H]|].
    destruct (step_ren s s' ev H) as [E H1]. destruct (IH _ _ H1) as [E2 H2]. split; [|exact H2]. now rewrite E, E2.
  Qed.
End anon.
