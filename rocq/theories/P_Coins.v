(** Tokens under other addresses: proofs for C78. *)
From Verif Require Import Base Decimal SqrtPriceM LogM ClammM FeeGrowthM Types TickmapM StorageM
  CollectionsM StateM ServiceM SpecHistory SpecIndep SpecCoins P_Indep P_Anon.
From stdpp Require Import gmap list.
From Coq Require Import ZArith Lia Bool.
Open Scope Z_scope.

Section coins.
  Context (g : actor_id -> actor_id) (Hg : respects_order g).
  Notation gk := (other_key g).
  Notation gq := (other_position g).
  Notation gs := (other_tokens g).

  Lemma coin_inj a b : g a = g b -> a = b.
  Proof. intros E. destruct Hg as [M _]. destruct (Z.lt_trichotomy a b) as [L|[L|L]]; [apply M in L; lia|exact L|apply M in L; lia]. Qed.
  Instance g_inj : Inj (=) (=) g. Proof. intros a b. apply coin_inj. Qed.
  Instance gk_inj : Inj (=) (=) gk.
  Proof. intros [x y f] [x' y' f'] E. injection E as E1 E2 E3. cbn in *. apply coin_inj in E1, E2. now subst. Qed.
  Instance gki_inj : Inj (=) (=) (fun ki : pool_key * Z => (gk ki.1, ki.2)).
  Proof. intros [k i] [k' i'] E. assert (E1 := f_equal fst E). assert (E2 := f_equal snd E). cbn [fst snd] in E1, E2. apply gk_inj in E1. now subst. Qed.
  Instance gck_inj : Inj (=) (=) (fun ck : Z * pool_key => (ck.1, gk ck.2)).
  Proof. intros [k i] [k' i'] E. assert (E1 := f_equal fst E). assert (E2 := f_equal snd E). cbn [fst snd] in E1, E2. apply gk_inj in E2. now subst. Qed.

  Lemma pools_at s k : s_pools (gs s) !! gk k = s_pools s !! k.
  Proof. cbn [other_tokens s_pools]. apply lookup_kmap, _. Qed.
  Lemma keys_at s k : s_pool_keys (gs s) !! gk k = s_pool_keys s !! k.
  Proof. cbn [other_tokens s_pool_keys]. apply lookup_kmap, _. Qed.
  Lemma ticks_at s k i : s_ticks (gs s) !! (gk k, i) = s_ticks s !! (k, i).
  Proof. cbn [other_tokens s_ticks]. exact (lookup_kmap (fun ki : pool_key * Z => (gk ki.1, ki.2)) (s_ticks s) (k, i)). Qed.
  Lemma bitmap_at s c k : s_bitmap (gs s) !! (c, gk k) = s_bitmap s !! (c, k).
  Proof. cbn [other_tokens s_bitmap]. exact (lookup_kmap (fun ck : Z * pool_key => (ck.1, gk ck.2)) (s_bitmap s) (c, k)). Qed.
  Lemma positions_at s u i : s_positions (gs s) !! (u, i) = gq <$> s_positions s !! (u, i).
  Proof. cbn [other_tokens s_positions]. apply lookup_fmap. Qed.
  Lemma balances_at s u : s_balances (gs s) !! u = other_balances g <$> s_balances s !! u.
  Proof. cbn [other_tokens s_balances]. apply lookup_fmap. Qed.
  Lemma coin_at m t : other_balances g m !! g t = m !! t.
  Proof. unfold other_balances. apply lookup_kmap, _. Qed.

  Lemma put_coin m u b : other_balances g (<[u := b]> m) = <[g u := b]> (other_balances g m).
  Proof. unfold other_balances. apply kmap_insert, _. Qed.
  Lemma put_pool k p s : gs (set_pools (<[k := p]> (s_pools s)) s) = set_pools (<[gk k := p]> (s_pools (gs s))) (gs s).
  Proof. unfold other_tokens at 1. cbn [set_pools s_pools]. rewrite kmap_insert by apply _. reflexivity. Qed.
  Lemma put_tick k i t s : gs (set_ticks (<[(k, i) := t]> (s_ticks s)) s) = set_ticks (<[(gk k, i) := t]> (s_ticks (gs s))) (gs s).
  Proof. unfold other_tokens at 1. cbn [set_ticks s_ticks]. rewrite kmap_insert by apply _. reflexivity. Qed.
  Lemma drop_tick k i s : gs (set_ticks (delete (k, i) (s_ticks s)) s) = set_ticks (delete (gk k, i) (s_ticks (gs s))) (gs s).
  Proof. unfold other_tokens at 1. cbn [set_ticks s_ticks]. rewrite kmap_delete by apply _. reflexivity. Qed.
  Lemma put_chunk c k v s : gs (set_bitmap (<[(c, k) := v]> (s_bitmap s)) s) = set_bitmap (<[(c, gk k) := v]> (s_bitmap (gs s))) (gs s).
  Proof. unfold other_tokens at 1. cbn [set_bitmap s_bitmap]. rewrite kmap_insert by apply _. reflexivity. Qed.
  Lemma put_balances m s : gs (set_balances m s) = set_balances (other_balances g <$> m) (gs s).
  Proof. reflexivity. Qed.
  Lemma put_positions n m s : gs (set_positions n m s) = set_positions n (gq <$> m) (gs s).
  Proof. reflexivity. Qed.

  Ltac stp := rewrite rmap_bind; apply bind_ext; intros ?.
  Ltac by_ L := rewrite L, bind_rmap, rmap_bind; apply bind_ext; intros ?.

  (** ** Primitives *)
  Lemma pools_get_coin s k : pools_get (gs s) (gk k) = pools_get s k.
  Proof. unfold pools_get. now rewrite pools_at. Qed.
  Lemma ticks_get_coin s k i : ticks_get (gs s) (gk k) i = ticks_get s k i.
  Proof. unfold ticks_get. now rewrite ticks_at. Qed.
  Lemma positions_get_coin s u i : positions_get (gs s) u i = rmap gq (positions_get s u i).
  Proof. unfold positions_get. rewrite positions_at. destruct (s_positions s !! (u, i)); reflexivity. Qed.
  Lemma pools_update_coin s k p : pools_update (gs s) (gk k) p = rmap gs (pools_update s k p).
  Proof. unfold pools_update. rewrite pools_get_coin. stp. cbn [rmap bind]. now rewrite put_pool. Qed.
  Lemma pools_add_coin s k p : pools_add (gs s) (gk k) p = rmap gs (pools_add s k p).
  Proof. unfold pools_add. rewrite pools_at. destruct (s_pools s !! k); [reflexivity|]. cbn [rmap bind]. now rewrite put_pool. Qed.
  Lemma pool_keys_add_coin s k : pool_keys_add (gs s) (gk k) = rmap gs (pool_keys_add s k).
  Proof.
    unfold pool_keys_add. rewrite keys_at. destruct (s_pool_keys s !! k); [reflexivity|]. cbv zeta. cbn [rmap bind]. f_equal.
    unfold other_tokens. cbn [set_pool_keys s_admin s_protocol_fee s_fee_tiers s_pools s_pool_keys s_pool_keys_by_index s_pool_keys_length s_positions_length s_positions s_ticks s_bitmap s_balances s_awaiting]. rewrite kmap_insert by apply _. rewrite fmap_insert. reflexivity.
  Qed.
  Lemma ticks_update_coin s k i t : ticks_update (gs s) (gk k) i t = rmap gs (ticks_update s k i t).
  Proof. unfold ticks_update. rewrite ticks_get_coin. stp. cbn [rmap bind]. now rewrite put_tick. Qed.
  Lemma ticks_add_coin s k i t : ticks_add (gs s) (gk k) i t = rmap gs (ticks_add s k i t).
  Proof. unfold ticks_add. rewrite ticks_at. destruct (s_ticks s !! _); [reflexivity|]. cbn [rmap bind]. now rewrite put_tick. Qed.
  Lemma ticks_remove_coin s k i : ticks_remove (gs s) (gk k) i = rmap gs (ticks_remove s k i).
  Proof. unfold ticks_remove. rewrite ticks_get_coin. stp. cbn [rmap bind]. now rewrite drop_tick. Qed.
  Lemma positions_add_coin s u p : positions_add (gs s) u (gq p) = gs (positions_add s u p).
  Proof. unfold positions_add. cbv zeta. rewrite put_positions, fmap_insert. reflexivity. Qed.
  Lemma positions_update_coin s u i p : positions_update (gs s) u i (gq p) = rmap gs (positions_update s u i p).
  Proof. unfold positions_update. cbv zeta. stp. cbn [rmap bind]. rewrite put_positions, fmap_insert. reflexivity. Qed.
  Definition g2 {A B} (h : A -> B) (r : state * A) : state * B := (gs r.1, h r.2).
  Lemma positions_remove_coin s u i : positions_remove (gs s) u i = rmap (g2 gq) (positions_remove s u i).
  Proof.
    unfold positions_remove. cbv zeta. rewrite positions_get_coin, bind_rmap, rmap_bind. apply bind_ext. intros p.
    change (positions_get_length (gs s) u) with (positions_get_length s u). rewrite positions_at.
    change (s_positions (gs s)) with (gq <$> s_positions s). change (s_positions_length (gs s)) with (s_positions_length s).
    destruct (i <? _); cbn [bind].
    - destruct (s_positions s !! _); cbn [fmap option_fmap option_map expect bind rmap]; [|reflexivity].
      unfold g2. cbn [fst snd]. rewrite put_positions, fmap_insert, fmap_delete. reflexivity.
    - cbn [rmap bind]. unfold g2. cbn [fst snd]. rewrite put_positions, fmap_delete. reflexivity.
  Qed.
  Lemma increase_coin s t u a : increase_token_balance (gs s) (g t) u a = rmap gs (increase_token_balance s t u a).
  Proof.
    unfold increase_token_balance. destruct (a =? 0); [reflexivity|]. cbv zeta. rewrite balances_at.
    assert (D : default ∅ (other_balances g <$> s_balances s !! u) = other_balances g (default ∅ (s_balances s !! u))).
    { destruct (s_balances s !! u); [reflexivity|]. cbn. unfold other_balances. now rewrite kmap_empty. }
    rewrite D, coin_at. stp. cbn [rmap bind]. rewrite put_balances, fmap_insert. rewrite put_coin. reflexivity.
  Qed.
  Lemma decrease_coin s t u a : decrease_token_balance (gs s) (g t) u a = rmap (g2 id) (decrease_token_balance s t u a).
  Proof.
    unfold decrease_token_balance. destruct (bool_decide _); [reflexivity|]. rewrite balances_at.
    destruct (s_balances s !! u) as [m|]; cbn [fmap option_fmap option_map ok_or bind]; [|reflexivity]. rewrite coin_at.
    destruct (m !! t) as [b|]; cbn [ok_or bind]; [|reflexivity]. cbv zeta.
    assert (D : delete (g t) (other_balances g m) = other_balances g (delete t m)) by (unfold other_balances; now rewrite kmap_delete by apply _).
    rewrite D. assert (B : bool_decide (other_balances g (delete t m) = ∅) = bool_decide (delete t m = ∅)).
    { apply bool_decide_ext. unfold other_balances. apply kmap_empty_iff, _. }
    rewrite B. change (s_balances (gs s)) with (other_balances g <$> s_balances s).
    assert (R : (if bool_decide (delete t m = ∅) then Ok (set_balances (delete u (other_balances g <$> s_balances s)) (gs s), b)
      else Ok (set_balances (<[u := other_balances g (delete t m)]> (other_balances g <$> s_balances s)) (gs s), b)) =
      rmap (g2 id) (if bool_decide (delete t m = ∅) then Ok (set_balances (delete u (s_balances s)) s, b)
      else Ok (set_balances (<[u := delete t m]> (s_balances s)) s, b))).
    { destruct (bool_decide (delete t m = ∅)); cbn [rmap bind]; unfold g2; cbn [fst snd]; [rewrite put_balances, fmap_delete; reflexivity|rewrite put_balances, fmap_insert; reflexivity]. }
    destruct a as [a|]; [destruct (negb _)|]; [|exact R|exact R]. stp. cbn [rmap bind]. unfold g2. cbn [fst snd].
    rewrite put_balances, fmap_insert. rewrite put_coin. reflexivity.
  Qed.

  (** ** Bitmaps *)
  Lemma chunk_coin s k c : chunk_at (s_bitmap (gs s)) (gk k) c = chunk_at (s_bitmap s) k c.
  Proof. unfold chunk_at. now rewrite bitmap_at. Qed.
  Lemma next_loop_coin s k sp lc lb n : forall c b, next_loop (s_bitmap (gs s)) (gk k) sp lc lb n c b = next_loop (s_bitmap s) k sp lc lb n c b.
  Proof. induction n as [|n IH]; intros c b; cbn [next_loop]; [reflexivity|]. now rewrite chunk_coin, IH. Qed.
  Lemma prev_loop_coin s k sp lc lb n : forall c b, prev_loop (s_bitmap (gs s)) (gk k) sp lc lb n c b = prev_loop (s_bitmap s) k sp lc lb n c b.
  Proof. induction n as [|n IH]; intros c b; cbn [prev_loop]; [reflexivity|]. now rewrite chunk_coin, IH. Qed.
  Lemma closer_limit_coin s k lim d c sp : get_closer_limit (s_bitmap (gs s)) lim d c sp (gk k) = get_closer_limit (s_bitmap s) lim d c sp k.
  Proof.
    unfold get_closer_limit.
    assert (P : prev_initialized (s_bitmap (gs s)) c sp (gk k) = prev_initialized (s_bitmap s) c sp k).
    { unfold prev_initialized. apply bind_ext. intros l. apply bind_ext. intros [ch bi]. apply bind_ext. intros [lc lb]. apply prev_loop_coin. }
    assert (N : next_initialized (s_bitmap (gs s)) c sp (gk k) = next_initialized (s_bitmap s) c sp k).
    { unfold next_initialized. apply bind_ext. intros l. destruct (_ <? _); [reflexivity|]. apply bind_ext. intros [ch bi]. apply bind_ext. intros [lc lb]. apply next_loop_coin. }
    rewrite P, N. reflexivity.
  Qed.
  Lemma flip_coin s b i sp k : (let* m := tickmap_flip (s_bitmap (gs s)) b i sp (gk k) in Ok (set_bitmap m (gs s))) =
    rmap gs (let* m := tickmap_flip (s_bitmap s) b i sp k in Ok (set_bitmap m s)).
  Proof.
    unfold tickmap_flip. destruct (tick_to_position i sp) as [[c bi]| | |]; cbn [bind]; [|reflexivity..]. cbv zeta. rewrite chunk_coin.
    destruct (assert _); cbn [bind]; [|reflexivity..]. cbn [rmap bind]. now rewrite put_chunk.
  Qed.
  Lemma add_tick_coin s k t : add_tick (gs s) (gk k) t = rmap gs (add_tick s k t).
  Proof.
    unfold add_tick. by_ (ticks_add_coin s k (t_index t) t). change (pk_spacing (gk k)) with (pk_spacing k). apply flip_coin.
  Qed.
  Lemma remove_tick_coin s k t : remove_tick (gs s) (gk k) t = rmap gs (remove_tick s k t).
  Proof.
    unfold remove_tick. stp. change (pk_spacing (gk k)) with (pk_spacing k).
    assert (A : forall S K (m : res bitmap), (let* b := m in ticks_remove (set_bitmap b S) K (t_index t)) =
      (let* s1 := (let* b := m in Ok (set_bitmap b S)) in ticks_remove s1 K (t_index t))) by (intros S K []; reflexivity).
    rewrite !A. rewrite flip_coin, bind_rmap, rmap_bind. apply bind_ext. intros s1. apply ticks_remove_coin.
  Qed.

  (** ** Swaps *)
  Lemma iteration_coin s k d b lim tl ts l : swap_iteration (gs s) (gk k) d b lim tl ts l = swap_iteration s k d b lim tl ts l.
  Proof.
    unfold swap_iteration. cbv zeta. change (pk_spacing (gk k)) with (pk_spacing k). change (pk_fee (gk k)) with (pk_fee k).
    change (pk_fee_tier (gk k)) with (pk_fee_tier k). change (s_protocol_fee (gs s)) with (s_protocol_fee s).
    rewrite closer_limit_coin. apply bind_ext. intros [sl lt]. do 8 (apply bind_ext; intros ?).
    assert (E : (match lt with
      | Some (tick_index, true) => let* t := ticks_get (gs s) (gk k) tick_index in Ok (TickInitialized t)
      | Some (tick_index, false) => Ok (TickUninitialized tick_index)
      | None => Ok NoTick end) = (match lt with
      | Some (tick_index, true) => let* t := ticks_get s k tick_index in Ok (TickInitialized t)
      | Some (tick_index, false) => Ok (TickUninitialized tick_index)
      | None => Ok NoTick end)) by (destruct lt as [[ti [|]]|]; auto; now rewrite ticks_get_coin).
    rewrite E. reflexivity.
  Qed.
  Lemma iterate_ext {S} fin (f f' : S -> res S) : (forall x, f' x = f x) -> forall n x, iterate fin f' n x = iterate fin f n x.
  Proof.
    intros E. induction n as [|n IH]; intros x; cbn [iterate]; [unfold loop_once; now rewrite E|]. rewrite IH.
    destruct (iterate fin f n x); [apply IH|reflexivity].
  Qed.
  Lemma calculate_swap_coin s ts k d a b lim : calculate_swap (gs s) ts (gk k) d a b lim = calculate_swap s ts k d a b lim.
  Proof.
    unfold calculate_swap. apply bind_ext. intros _. rewrite pools_get_coin. apply bind_ext. intros p.
    change (pk_spacing (gk k)) with (pk_spacing k).
    apply bind_ext. intros _. apply bind_ext. intros tl. unfold while_loop.
    rewrite (iterate_ext _ (swap_iteration s k d b lim tl ts)) by (intros x; apply iteration_coin). reflexivity.
  Qed.
  Lemma fold_ticks_coin k ts : forall s, foldM_res (fun s t => ticks_update s (gk k) (t_index t) t) ts (gs s) =
    rmap gs (foldM_res (fun s t => ticks_update s k (t_index t) t) ts s).
  Proof.
    induction ts as [|t ts IH]; intros s; cbn [foldM_res map]; [reflexivity|].
    rewrite ticks_update_coin, bind_rmap, rmap_bind. apply bind_ext. intros s1. apply IH.
  Qed.
  Lemma swap_coin e s k d a b lim : swap e (gs s) (gk k) d a b lim = rmap (g2 id) (swap e s k d a b lim).
  Proof.
    unfold swap. cbv zeta. rewrite calculate_swap_coin. stp. rename a0 into r. by_ (fold_ticks_coin k (cs_ticks r) s). by_ pools_update_coin.
    change (pk_token_x (gk k)) with (g (pk_token_x k)). change (pk_token_y (gk k)) with (g (pk_token_y k)).
    destruct d; rewrite decrease_coin, bind_rmap, rmap_bind; apply bind_ext; intros [s1 v1]; unfold g2 at 1; cbn [fst snd]; by_ increase_coin; reflexivity.
  Qed.
  Lemma route_coin e hops : forall s a, route_swap e (gs s) a (map (other_hop g) hops) = rmap (g2 id) (route_swap e s a hops).
  Proof.
    induction hops as [|h hops IH]; intros s a; cbn [route_swap map]; [reflexivity|]. cbn [other_hop h_pool_key h_x_to_y].
    rewrite swap_coin, bind_rmap, rmap_bind. apply bind_ext. intros [s1 r]. apply IH.
  Qed.
  Lemma swap_route_coin e s a x sl hops : swap_route e (gs s) a x sl (map (other_hop g) hops) = rmap (g2 id) (swap_route e s a x sl hops).
  Proof.
    unfold swap_route. rewrite (route_coin e hops s a), bind_rmap, rmap_bind. apply bind_ext. intros [s1 v]. unfold g2 at 1. cbn [fst snd].
    stp. stp. reflexivity.
  Qed.

  (** ** Positions *)
  Definition gm (x : position * pool * tick * tick * (Z * Z)) : position * pool * tick * tick * (Z * Z) :=
    (gq x.1.1.1.1, x.1.1.1.2, x.1.1.2, x.1.2, x.2).
  Lemma modify_coin q p up lo d add ts sp : position_modify (gq q) p up lo d add ts sp = rmap gm (position_modify q p up lo d add ts sp).
  Proof.
    unfold position_modify. cbv zeta. stp. stp. stp. destruct (calculate_fee_growth_inside _ _ _ _ _ _ _ _ _) as [fx fy].
    assert (U : position_update (gq q) add d fx fy = rmap gq (position_update q add d fx fy)).
    { unfold position_update. change (position_new_liquidity (gq q)) with (position_new_liquidity q).
      cbn [other_position pos_liquidity pos_fee_growth_inside_x pos_fee_growth_inside_y pos_tokens_owed_x pos_tokens_owed_y]. do 6 stp. reflexivity. }
    by_ U. rewrite rmap_bind. apply bind_ext. intros [p' xy]. reflexivity.
  Qed.
  Lemma get_or_create_tick_coin s ts k i : get_or_create_tick (gs s) ts (gk k) i = get_or_create_tick s ts k i.
  Proof.
    unfold get_or_create_tick, create_tick. rewrite ticks_at, pools_get_coin. reflexivity.
  Qed.
  Lemma create_position_coin e s k lo up l sl su :
    create_position e (gs s) (gk k) lo up l sl su = rmap (g2 gq) (create_position e s k lo up l sl su).
  Proof.
    unfold create_position. cbv zeta. stp. stp. rewrite pools_get_coin. stp. rename a1 into p. rewrite !get_or_create_tick_coin.
    rewrite rmap_bind. apply bind_ext. intros [lot b1]. rewrite rmap_bind. apply bind_ext. intros [upt b2].
    change (pk_spacing (gk k)) with (pk_spacing k).
    unfold position_create. cbv zeta. destruct (fail_if _ PriceLimitReached); cbn [bind]; [|reflexivity..].
    pose proof (modify_coin (mkPosition k 0 (t_index lot) (t_index upt) 0 0 (e_block e) 0 0) p upt lot l true (e_timestamp e) (pk_spacing k)) as M.
    unfold other_position at 1 in M. cbn [pos_pool_key pos_liquidity pos_lower pos_upper pos_fee_growth_inside_x pos_fee_growth_inside_y pos_last_block_number pos_tokens_owed_x pos_tokens_owed_y] in M.
    rewrite M, unwrap_rmap, bind_rmap, rmap_bind. apply bind_ext. intros [[[[pos p'] u'] l'] [x y]]. unfold gm. cbn [fst snd].
    change (pk_token_x (gk k)) with (g (pk_token_x k)). change (pk_token_y (gk k)) with (g (pk_token_y k)).
    rewrite decrease_coin, bind_rmap, rmap_bind. apply bind_ext. intros [s1 v1]. unfold g2 at 1. cbn [fst snd].
    rewrite decrease_coin, bind_rmap, rmap_bind. apply bind_ext. intros [s2 v2]. unfold g2 at 1. cbn [fst snd].
    by_ (pools_update_coin s2 k p'). rewrite positions_add_coin.
    assert (IF : forall (b : bool) (x y : res state), (if b then rmap gs x else rmap gs y) = rmap gs (if b then x else y)) by (intros []; reflexivity).
    rewrite add_tick_coin, ticks_update_coin.
    rewrite IF, bind_rmap, rmap_bind. apply bind_ext. intros s5. rewrite add_tick_coin, ticks_update_coin, IF, bind_rmap, rmap_bind. apply bind_ext. intros s6. reflexivity.
  Qed.
  Lemma pay_coin s k u x y (A B : Type) (h : A -> B) (v : A) :
    (let* s := increase_token_balance (gs s) (pk_token_x (gk k)) u x in
     let* s := increase_token_balance s (pk_token_y (gk k)) u y in Ok (s, h v)) =
    rmap (g2 h) (let* s := increase_token_balance s (pk_token_x k) u x in
     let* s := increase_token_balance s (pk_token_y k) u y in Ok (s, v)).
  Proof. by_ (increase_coin s (pk_token_x k)). by_ (increase_coin a (pk_token_y k)). reflexivity. Qed.

  Lemma remove_position_coin e s i : remove_position e (gs s) i = rmap (g2 id) (remove_position e s i).
  Proof.
    unfold remove_position. cbv zeta. by_ (positions_get_coin s (e_caller e) i). rename a into pos.
    change (pos_pool_key (gq pos)) with (gk (pos_pool_key pos)). change (pos_lower (gq pos)) with (pos_lower pos). change (pos_upper (gq pos)) with (pos_upper pos).
    rewrite !ticks_get_coin, pools_get_coin. stp. rename a into lot. stp. rename a into upt. stp. rename a into p.
    change (pk_spacing (gk (pos_pool_key pos))) with (pk_spacing (pos_pool_key pos)).
    unfold position_remove. change (pos_liquidity (gq pos)) with (pos_liquidity pos).
    rewrite (modify_coin pos p upt lot (pos_liquidity pos) false (e_timestamp e)), unwrap_rmap, bind_rmap.
    destruct (unwrap (position_modify _ _ _ _ _ _ _ _)) as [[[[[p0 p'] u'] l'] [x y]]| | |]; unfold gm; cbn [bind fst snd]; [|reflexivity..].
    change (pos_tokens_owed_x (gq p0)) with (pos_tokens_owed_x p0). change (pos_tokens_owed_y (gq p0)) with (pos_tokens_owed_y p0).
    destruct (dec_add M256 x _) as [x1| | |]; cbn [bind]; [|reflexivity..].
    destruct (dec_add M256 y _) as [y1| | |]; cbn [bind]; [|reflexivity..].
    by_ (pools_update_coin s (pos_pool_key pos) p').
    assert (IF : forall (b : bool) (x y : res state), (if b then rmap gs x else rmap gs y) = rmap gs (if b then x else y)) by (intros []; reflexivity).
    rewrite remove_tick_coin, ticks_update_coin, IF, bind_rmap, rmap_bind. apply bind_ext. intros s5.
    rewrite remove_tick_coin, ticks_update_coin, IF, bind_rmap, rmap_bind. apply bind_ext. intros s6.
    rewrite positions_remove_coin, bind_rmap, rmap_bind. apply bind_ext. intros [s7 v7]. unfold g2 at 1. cbn [fst snd].
    exact (pay_coin s7 (pos_pool_key pos) (e_caller e) x1 y1 _ _ id (x1, y1)).
  Qed.
  Lemma claim_fee_coin e s i : claim_fee e (gs s) i = rmap (g2 id) (claim_fee e s i).
  Proof.
    unfold claim_fee. cbv zeta. by_ (positions_get_coin s (e_caller e) i). rename a into pos.
    change (pos_pool_key (gq pos)) with (gk (pos_pool_key pos)). change (pos_lower (gq pos)) with (pos_lower pos). change (pos_upper (gq pos)) with (pos_upper pos).
    rewrite !ticks_get_coin, pools_get_coin. stp. rename a into lot. stp. rename a into upt. stp. rename a into p.
    unfold position_claim_fee. change (pk_spacing (pos_pool_key (gq pos))) with (pk_spacing (pos_pool_key pos)).
    rewrite (modify_coin pos p upt lot 0 true (e_timestamp e)), unwrap_rmap, bind_rmap.
    destruct (unwrap (position_modify _ _ _ _ _ _ _ _)) as [[[[[p0 p'] u'] l'] [x y]]| | |]; unfold gm; cbn [bind fst snd]; [|reflexivity..].
    match goal with |- context [positions_update s (e_caller e) i ?q] => pose proof (positions_update_coin s (e_caller e) i q) as X end.
    unfold other_position in X at 1. cbn [pos_pool_key pos_liquidity pos_lower pos_upper pos_fee_growth_inside_x pos_fee_growth_inside_y pos_tokens_owed_x pos_tokens_owed_y pos_last_block_number] in X.
    cbn [other_position pos_pool_key pos_liquidity pos_lower pos_upper pos_fee_growth_inside_x pos_fee_growth_inside_y pos_tokens_owed_x pos_tokens_owed_y pos_last_block_number].
    by_ X. clear X.
    by_ (pools_update_coin a (pos_pool_key pos) p'). by_ ticks_update_coin. by_ ticks_update_coin.
    exact (pay_coin _ (pos_pool_key pos) (e_caller e) _ _ _ _ id (pos_tokens_owed_x p0, pos_tokens_owed_y p0)).
  Qed.
  Lemma pool_key_coin x y ft : pool_key_new (g x) (g y) ft = rmap gk (pool_key_new x y ft).
  Proof.
    unfold pool_key_new. assert (E : (g x =? g y) = (x =? y)).
    { apply Bool.eq_iff_eq_true. rewrite !Z.eqb_eq. split; [apply coin_inj|now intros ->]. }
    assert (L : (g x <? g y) = (x <? y)).
    { apply Bool.eq_iff_eq_true. rewrite !Z.ltb_lt. destruct Hg as [M _]. split; [|apply M]. intros L.
      destruct (Z.lt_trichotomy x y) as [H|[->|H]]; [exact H|lia|apply M in H; lia]. }
    rewrite E, L. destruct (x =? y); [reflexivity|]. destruct (x <? y); reflexivity.
  Qed.
  Lemma create_pool_coin e s x y ft p t : create_pool e (gs s) (g x) (g y) ft p t = rmap (g2 id) (create_pool e s x y ft p t).
  Proof.
    unfold create_pool. change (s_fee_tiers (gs s)) with (s_fee_tiers s). change (s_admin (gs s)) with (s_admin s). stp. stp.
    by_ (pool_key_coin x y ft). rewrite pools_get_coin. stp. stp. by_ pools_add_coin. by_ pool_keys_add_coin. reflexivity.
  Qed.
  Lemma change_fee_receiver_coin e s k r : change_fee_receiver e (gs s) (gk k) r = rmap (g2 id) (change_fee_receiver e s k r).
  Proof.
    unfold change_fee_receiver. change (is_caller_admin e (gs s)) with (is_caller_admin e s). stp. rewrite pools_get_coin. stp.
    by_ pools_update_coin. reflexivity.
  Qed.
  Lemma transfer_position_coin e s i r : transfer_position e (gs s) i r = rmap (g2 id) (transfer_position e s i r).
  Proof.
    unfold transfer_position, positions_transfer. rewrite positions_remove_coin.
    destruct (positions_remove s (e_caller e) i) as [[s1 p]| | |]; cbn [rmap bind g2 fst snd]; [|reflexivity..].
    rewrite positions_add_coin. reflexivity.
  Qed.
  Lemma withdraw_protocol_fee_coin e s k : withdraw_protocol_fee e (gs s) (gk k) = rmap (g2 id) (withdraw_protocol_fee e s k).
  Proof.
    unfold withdraw_protocol_fee. cbv zeta. rewrite pools_get_coin. stp. rename a into p. stp.
    destruct (pool_withdraw_protocol_fee p) as [p' [x y]].
    rewrite pools_update_coin, bind_rmap, rmap_bind. apply bind_ext. intros s1. exact (pay_coin s1 k (e_caller e) _ _ _ _ id tt).
  Qed.
  Lemma deposit_vara_coin e s : deposit_vara e (gs s) = rmap (g2 id) (deposit_vara e s).
  Proof.
    unfold deposit_vara. pose proof (increase_coin s VARA_ADDRESS (e_caller e) (e_value e)) as X. destruct Hg as [_ V]. rewrite V in X. by_ X. reflexivity.
  Qed.
  Lemma withdraw_vara_coin e s v : withdraw_vara e (gs s) v = rmap (g2 id) (withdraw_vara e s v).
  Proof.
    assert (X : forall a, decrease_token_balance (gs s) VARA_ADDRESS (e_caller e) a = rmap (g2 id) (decrease_token_balance s VARA_ADDRESS (e_caller e) a)).
    { intros a. pose proof (decrease_coin s VARA_ADDRESS (e_caller e) a) as X. destruct Hg as [_ V]. now rewrite V in X. }
    unfold withdraw_vara. rewrite rmap_bind. destruct v as [v|].
    - destruct (fail_if _ _); cbn [bind]; [|reflexivity..]. rewrite X, bind_rmap. apply bind_ext. intros [s1 x]. unfold g2 at 1. cbn [fst snd].
      stp. reflexivity.
    - rewrite X. destruct (decrease_token_balance s _ _ _) as [[s1 x]| | |]; cbn [rmap bind g2 fst snd]; try reflexivity.
      stp. reflexivity.
  Qed.

  Lemma told_coin {A} (h : A -> A) (f : A -> reply) (x y : res (state * A)) : (forall a, f (h a) = other_reply g (f a)) ->
    y = rmap (g2 h) x -> told f y = other_result (other_reply g) (told f x).
  Proof. intros Hf ->. unfold told. destruct x as [[s1 a]| | |]; cbn; [now rewrite Hf|reflexivity..]. Qed.
  Lemma drop_coin {A} (h : A -> A) (x y : res (state * A)) s : y = rmap (g2 h) x ->
    match drop_result y with Ok s1 => s1 | _ => gs s end = gs match drop_result x with Ok s1 => s1 | _ => s end.
  Proof. intros ->. destruct x as [[s1 a]| | |]; reflexivity. Qed.

  Lemma step_coin s ev :
    answer (gs s) (other_event g ev) = other_result (other_reply g) (answer s ev) /\
    exec_event (gs s) (other_event g ev) = gs (exec_event s ev).
  Proof.
    destruct ev as [e o|u t a|u t a|m].
    - destruct o; cbn [other_event other_op answer exec_event] in *; unfold exec_op; cbn [run_op].
      Ltac op_coin L := split; [eapply told_coin; [|apply L; auto]; reflexivity|eapply drop_coin; apply L; auto].
      + split; [unfold told, change_protocol_fee|unfold drop_result, change_protocol_fee]; change (is_caller_admin e (gs s)) with (is_caller_admin e s);
          destruct (is_caller_admin e s); reflexivity.
      + split; [unfold told, add_fee_tier|unfold drop_result, add_fee_tier]; change (is_caller_admin e (gs s)) with (is_caller_admin e s);
          change (s_fee_tiers (gs s)) with (s_fee_tiers s);
          do 3 (destruct (fail_if _ _); cbn [bind]; [|reflexivity..]); destruct (fee_tiers_add _ _); reflexivity.
      + split; [unfold told, remove_fee_tier|unfold drop_result, remove_fee_tier]; change (is_caller_admin e (gs s)) with (is_caller_admin e s);
          change (s_fee_tiers (gs s)) with (s_fee_tiers s);
          (destruct (fail_if _ _); cbn [bind]; [|reflexivity..]); destruct (fee_tiers_remove _ _); reflexivity.
      + op_coin create_pool_coin.
      + op_coin change_fee_receiver_coin.
      + op_coin create_position_coin.
      + op_coin remove_position_coin.
      + op_coin transfer_position_coin.
      + op_coin swap_coin.
      + op_coin swap_route_coin.
      + op_coin claim_fee_coin.
      + op_coin withdraw_protocol_fee_coin.
      + op_coin deposit_vara_coin.
      + op_coin withdraw_vara_coin.
    - cbn [other_event answer exec_event]. rewrite increase_coin. destruct (increase_token_balance s t u a); split; reflexivity.
    - cbn [other_event answer exec_event]. rewrite decrease_coin. destruct (decrease_token_balance s t u a) as [[? ?]| | |]; split; reflexivity.
    - split; reflexivity.
  Qed.
  Lemma run_coin evs : forall s,
    answers (gs s) (map (other_event g) evs) = map (other_result (other_reply g)) (answers s evs) /\
    run (gs s) (map (other_event g) evs) = gs (run s evs).
  Proof.
    induction evs as [|ev evs IH]; intros s; [split; reflexivity|]. cbn [map answers run]. destruct (step_coin s ev) as [A E].
    rewrite A, E. destruct (IH (exec_event s ev)) as [A' E']. rewrite A', E'. split; reflexivity.
  Qed.
End coins.
