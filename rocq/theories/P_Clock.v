(** Time does not influence money: proofs for C77. *)
From Verif Require Import Base Decimal SqrtPriceM LogM ClammM FeeGrowthM Types TickmapM StorageM
  CollectionsM StateM ServiceM SpecHistory SpecIndep SpecClock P_Balance P_Effects P_State P_History P_Indep P_Anon.
From stdpp Require Import gmap list.
From Coq Require Import ZArith Lia Bool.
Open Scope Z_scope.

Notation hp := timeless_pool.
Notation ht := timeless_tick.
Notation hq := timeless_position.
Notation hs := timeless.

Ltac stp := rewrite rmap_bind; apply bind_ext; intros ?.

(** ** Pools, ticks, positions *)
Lemma add_fee_clk p a x fee : pool_add_fee (hp p) a x fee = rmap hp (pool_add_fee p a x fee).
Proof.
  unfold pool_add_fee. stp. stp.
  cbn [timeless_pool p_liquidity p_fee_protocol_token_x p_fee_protocol_token_y p_fee_growth_global_x p_fee_growth_global_y].
  destruct (_ || _); [reflexivity|]. stp. destruct x; stp; reflexivity.
Qed.
Lemma update_liquidity_clk p d sg up lo :
  pool_update_liquidity (hp p) d sg up lo = rmap (fun r => (hp r.1, r.2)) (pool_update_liquidity p d sg up lo).
Proof.
  unfold pool_update_liquidity. rewrite rmap_bind.
  cbn [timeless_pool p_liquidity p_sqrt_price p_current_tick_index]. apply bind_ext. intros [[x y] upd].
  destruct (negb upd); [reflexivity|]. destruct sg; stp; reflexivity.
Qed.
Lemma tick_update_clk t d mx b1 b2 : tick_update (ht t) d mx b1 b2 = rmap ht (tick_update t d mx b1 b2).
Proof.
  unfold tick_update. change (tick_new_liquidity_gross (ht t)) with (tick_new_liquidity_gross t).
  change (tick_new_liquidity_change (ht t)) with (tick_new_liquidity_change t). stp. rewrite rmap_bind. apply bind_ext. intros [sg c]. reflexivity.
Qed.
Lemma tick_create_clk i p ts : tick_create i (hp p) 0 = rmap ht (tick_create i p ts).
Proof.
  unfold tick_create. cbv zeta. stp. cbn [timeless_pool p_current_tick_index p_fee_growth_global_x p_fee_growth_global_y p_start_timestamp].
  destruct (i <=? _); reflexivity.
Qed.
Lemma cross_clk t p ts : p_start_timestamp p <= ts -> tick_cross (ht t) (hp p) 0 = rmap (fun r => (ht r.1, hp r.2)) (tick_cross t p ts).
Proof.
  intros H. unfold tick_cross. cbv zeta. cbn [timeless_pool timeless_tick p_start_timestamp t_seconds_outside p_fee_growth_global_x p_fee_growth_global_y
    t_fee_growth_outside_x t_fee_growth_outside_y t_index t_sign t_liquidity_change t_liquidity_gross t_sqrt_price].
  unfold checked_sub at 2. apply Z.leb_le in H. rewrite H. cbn [Z.leb checked_sub Z.compare ok_or bind].
  change (checked_sub 0 0) with (Some 0). cbn [ok_or bind].
  cbn [set_last_timestamp p_current_tick_index p_liquidity].
  destruct (xorb _ _); stp; reflexivity.
Qed.
Definition hu (u : update_pool_tick) : update_pool_tick := match u with TickInitialized t => TickInitialized (ht t) | _ => u end.
Lemma update_tick_clk p r lim tk rem b d ts fee ft : p_start_timestamp p <= ts ->
  pool_update_tick (hp p) r lim (hu tk) rem b d 0 fee ft =
  rmap (fun x => (hp x.1.1, hu x.1.2, x.2)) (pool_update_tick p r lim tk rem b d ts fee ft).
Proof.
  intros H. unfold pool_update_tick. cbv zeta.
  replace (match hu tk with NoTick => true | _ => false end) with (match tk with NoTick => true | _ => false end) by (destruct tk; reflexivity).
  destruct (_ || _).
  - stp. reflexivity.
  - rewrite rmap_bind. change (p_liquidity (hp p)) with (p_liquidity p). apply bind_ext. intros en. rewrite rmap_bind.
    destruct tk as [|t|i]; cbn [hu]; [reflexivity| |reflexivity].
    destruct (_ || _).
    + rewrite (cross_clk t p ts H), unwrap_rmap, bind_rmap. destruct (unwrap (tick_cross t p ts)) as [[t' p']| | |]; reflexivity.
    + destruct (negb _); [|reflexivity]. destruct b; [|reflexivity].
      rewrite add_fee_clk, unwrap_rmap, bind_rmap. destruct (unwrap (pool_add_fee _ _ _ _)); reflexivity.
Qed.
Lemma position_update_clk q sg d x y : position_update (hq q) sg d x y = rmap hq (position_update q sg d x y).
Proof.
  unfold position_update. change (position_new_liquidity (hq q)) with (position_new_liquidity q).
  cbn [timeless_position pos_liquidity pos_fee_growth_inside_x pos_fee_growth_inside_y pos_tokens_owed_x pos_tokens_owed_y]. do 6 stp. reflexivity.
Qed.
Definition hm (x : position * pool * tick * tick * (Z * Z)) : position * pool * tick * tick * (Z * Z) :=
  (hq x.1.1.1.1, hp x.1.1.1.2, ht x.1.1.2, ht x.1.2, x.2).
Lemma modify_clk q p up lo d add ts sp :
  position_modify (hq q) (hp p) (ht up) (ht lo) d add 0 sp = rmap hm (position_modify q p up lo d add ts sp).
Proof.
  unfold position_modify. cbv zeta. change (set_last_timestamp 0 (hp p)) with (hp (set_last_timestamp ts p)).
  generalize (set_last_timestamp ts p). clear p. intros p. stp. rewrite !tick_update_clk, bind_rmap, rmap_bind. apply bind_ext. intros lo'.
  rewrite bind_rmap, rmap_bind. apply bind_ext. intros up'.
  change (p_current_tick_index (hp p)) with (p_current_tick_index p). change (p_fee_growth_global_x (hp p)) with (p_fee_growth_global_x p).
  change (p_fee_growth_global_y (hp p)) with (p_fee_growth_global_y p). cbn [timeless_tick t_index t_fee_growth_outside_x t_fee_growth_outside_y].
  destruct (calculate_fee_growth_inside _ _ _ _ _ _ _ _ _) as [fx fy]. rewrite position_update_clk, bind_rmap, rmap_bind. apply bind_ext. intros q'.
  rewrite update_liquidity_clk, bind_rmap, rmap_bind.
  apply bind_ext. intros [p' xy]. reflexivity.
Qed.

(** ** Pools keep their start *)
Lemma add_fee_start p a x fee p' : pool_add_fee p a x fee = Ok p' -> p_start_timestamp p' = p_start_timestamp p.
Proof.
  unfold pool_add_fee. intros H. apply bind_Ok in H as (? & _ & H). apply bind_Ok in H as (? & _ & H).
  destruct (_ || _); [now injection H as <-|]. apply bind_Ok in H as (? & _ & H).
  destruct x; apply bind_Ok in H as (? & _ & H); injection H as <-; reflexivity.
Qed.
Lemma unwrap_ok {A} (r : res A) a : unwrap r = Ok a -> r = Ok a.
Proof. destruct r; cbn; congruence. Qed.
Lemma update_tick_start p r lim tk rem b d ts fee ft p' tk' o : pool_update_tick p r lim tk rem b d ts fee ft = Ok (p', tk', o) ->
  p_start_timestamp p' = p_start_timestamp p.
Proof.
  unfold pool_update_tick. cbv zeta. destruct (_ || _).
  - intros H. apply bind_Ok in H as (? & _ & H). injection H as <- _ _. reflexivity.
  - intros H. apply bind_Ok in H as (en & _ & H). apply bind_Ok in H as ([[[[[p1 tk1] ti] ta] rm] hc] & E & H). injection H as <- _ _.
    cbn [set_current_tick_index p_start_timestamp].
    destruct tk as [|t|i]; [discriminate E| |injection E as <- _ _ _ _ _; reflexivity].
    destruct (_ || _).
    + apply bind_Ok in E as ([t1 p2] & E & E'). injection E' as <- _ _ _ _ _. apply unwrap_ok in E. unfold tick_cross in E. cbv zeta in E.
      apply bind_Ok in E as (? & _ & E). destruct (xorb _ _); apply bind_Ok in E as (? & _ & E); injection E as _ <-; reflexivity.
    + destruct (negb _); [|injection E as <- _ _ _ _ _; reflexivity]. destruct b; [|injection E as <- _ _ _ _ _; reflexivity].
      apply bind_Ok in E as (p2 & E & E'). injection E' as <- _ _ _ _ _. apply unwrap_ok in E. now apply add_fee_start in E.
Qed.

(** ** Swaps *)
Definition hlp (l : swap_loop_state) : swap_loop_state :=
  mkLoop (hp (l_pool l)) (l_remaining l) (l_in l) (l_out l) (l_fee l) (map ht (l_ticks l)).
Lemma iterate_clk {S} (h : S -> S) (P : S -> Prop) fin (g g' : S -> res S) : (forall x, fin (h x) = fin x) ->
  (forall x, P x -> g' (h x) = rmap h (g x)) -> (forall x y, P x -> g x = Ok y -> P y) -> forall n x, P x ->
  iterate fin g' n (h x) = pmap h (iterate fin g n x) /\ (forall y, iterate fin g n x = Cont y \/ iterate fin g n x = Stop (Ok y) -> P y).
Proof.
  intros Hf Hg HP. induction n as [|n IH]; intros x Px; cbn [iterate].
  - unfold loop_once. rewrite Hf, Hg by auto. destruct (fin x); [split; [reflexivity|intros y [E|E]; congruence]|].
    destruct (g x) eqn:E; (split; [reflexivity|]); intros y [X|X]; try discriminate X. injection X as <-. eauto.
  - destruct (IH x Px) as [E Q]. rewrite E. destruct (iterate fin g n x) as [y|r]; cbn [pmap].
    + apply IH, Q. auto.
    + split; [reflexivity|]. intros y [X|X]; [discriminate X|]. apply Q. auto.
Qed.
Lemma while_clk {S} (h : S -> S) (P : S -> Prop) fin (g g' : S -> res S) x : (forall x, fin (h x) = fin x) ->
  (forall x, P x -> g' (h x) = rmap h (g x)) -> (forall x y, P x -> g x = Ok y -> P y) -> P x ->
  while_loop fin g' (h x) = rmap h (while_loop fin g x) /\ (forall y, while_loop fin g x = Ok y -> P y).
Proof.
  intros Hf Hg HP Px. unfold while_loop. destruct (iterate_clk h P fin g g' Hf Hg HP 100 x Px) as [E Q]. rewrite E.
  destruct (iterate fin g 100 x) as [y|r]; cbn [pmap]; (split; [reflexivity|]); [discriminate|]. intros y ->. apply Q. auto.
Qed.

Lemma pools_get_clk s k : pools_get (hs s) k = rmap hp (pools_get s k).
Proof. unfold pools_get. cbn [timeless s_pools]. rewrite lookup_fmap. destruct (s_pools s !! k); reflexivity. Qed.
Lemma ticks_get_clk s k i : ticks_get (hs s) k i = rmap ht (ticks_get s k i).
Proof. unfold ticks_get. cbn [timeless s_ticks]. rewrite lookup_fmap. destruct (s_ticks s !! (k, i)); reflexivity. Qed.
Lemma positions_get_clk s u i : positions_get (hs s) u i = rmap hq (positions_get s u i).
Proof. unfold positions_get. cbn [timeless s_positions]. rewrite lookup_fmap. destruct (s_positions s !! (u, i)); reflexivity. Qed.

Lemma iteration_clk s k d b lim tl ts l : p_start_timestamp (l_pool l) <= ts ->
  swap_iteration (hs s) k d b lim tl 0 (hlp l) = rmap hlp (swap_iteration s k d b lim tl ts l).
Proof.
  intros H. unfold swap_iteration. cbv zeta. cbn [timeless s_bitmap s_protocol_fee]. fold (hs s).
  cbn [hlp l_pool l_remaining l_in l_out l_fee l_ticks].
  change (p_current_tick_index (hp (l_pool l))) with (p_current_tick_index (l_pool l)).
  change (p_sqrt_price (hp (l_pool l))) with (p_sqrt_price (l_pool l)).
  change (p_liquidity (hp (l_pool l))) with (p_liquidity (l_pool l)).
  rewrite rmap_bind. apply bind_ext. intros [sl lt]. rewrite rmap_bind. apply bind_ext. intros r.
  rewrite rmap_bind. apply bind_ext. intros ipf. rewrite rmap_bind. apply bind_ext. intros rem.
  rewrite add_fee_clk, unwrap_rmap, bind_rmap, rmap_bind.
  destruct (unwrap (pool_add_fee (l_pool l) _ _ _)) as [q| | |] eqn:EQ; cbn [bind]; [|reflexivity..].
  apply unwrap_ok, add_fee_start in EQ.
  rewrite rmap_bind. apply bind_ext. intros ef. rewrite rmap_bind. apply bind_ext. intros ti. rewrite rmap_bind. apply bind_ext. intros to.
  change (p_sqrt_price (set_sqrt_price (sr_next_sqrt_price r) (hp q))) with (p_sqrt_price (set_sqrt_price (sr_next_sqrt_price r) q)).
  rewrite rmap_bind. apply bind_ext. intros _.
  rewrite rmap_bind.
  assert (ET : (match lt with
    | Some (tick_index, true) => let* t := ticks_get (hs s) k tick_index in Ok (TickInitialized t)
    | Some (tick_index, false) => Ok (TickUninitialized tick_index)
    | None => Ok NoTick end) = rmap hu (match lt with
    | Some (tick_index, true) => let* t := ticks_get s k tick_index in Ok (TickInitialized t)
    | Some (tick_index, false) => Ok (TickUninitialized tick_index)
    | None => Ok NoTick end)) by (destruct lt as [[ti' [|]]|]; auto; rewrite ticks_get_clk; destruct (ticks_get s k ti'); reflexivity).
  rewrite ET, bind_rmap. apply bind_ext. intros tu.
  change (set_sqrt_price (sr_next_sqrt_price r) (hp q)) with (hp (set_sqrt_price (sr_next_sqrt_price r) q)).
  rewrite (update_tick_clk _ _ _ _ _ _ _ ts) by (cbn [set_sqrt_price p_start_timestamp]; lia).
  rewrite bind_rmap, rmap_bind. apply bind_ext. intros [[q' tu'] [[ta rm] hc]]. cbn [fst snd].
  rewrite rmap_bind. apply bind_ext. intros tin.
  change (p_current_tick_index (hp q')) with (p_current_tick_index q'). rewrite rmap_bind. apply bind_ext. intros _.
  destruct tu' as [|t|i]; cbn [hu]; [reflexivity| |reflexivity]. destruct hc; [|reflexivity]. unfold rmap. cbn [bind]. unfold hlp. cbn. now rewrite map_app.
Qed.
Lemma iteration_start s k d b lim tl ts l l' : swap_iteration s k d b lim tl ts l = Ok l' ->
  p_start_timestamp (l_pool l') = p_start_timestamp (l_pool l).
Proof.
  unfold swap_iteration. cbv zeta. intros H. apply bind_Ok in H as ([sl lt] & _ & H). do 3 apply bind_Ok in H as (? & _ & H).
  apply bind_Ok in H as (q & EQ & H). apply unwrap_ok, add_fee_start in EQ. do 5 apply bind_Ok in H as (? & _ & H).
  apply bind_Ok in H as ([[q' tu'] [[ta rm] hc]] & EU & H). apply update_tick_start in EU. cbn [set_sqrt_price p_start_timestamp] in EU.
  do 2 apply bind_Ok in H as (? & _ & H). injection H as <-. cbn [l_pool]. congruence.
Qed.

Lemma calculate_swap_clk s ts k d a b lim : created_by ts s k ->
  calculate_swap (hs s) 0 k d a b lim = rmap timeless_swap (calculate_swap s ts k d a b lim) /\
  (forall r, calculate_swap s ts k d a b lim = Ok r -> p_start_timestamp (cs_pool r) <= ts).
Proof.
  intros H. unfold calculate_swap. destruct (fail_if (a =? 0) _); cbn [bind]; [|split; [reflexivity|discriminate]..].
  rewrite pools_get_clk. specialize (H). unfold created_by in H. destruct (pools_get s k) as [p| | |]; cbn [bind rmap]; [|split; [reflexivity|discriminate]..].
  specialize (H p eq_refl). change (p_sqrt_price (hp p)) with (p_sqrt_price p).
  destruct (fail_if _ WrongLimit); cbn [bind]; [|split; [reflexivity|discriminate]..].
  destruct (if d then _ else _) as [tl| | |]; cbn [bind]; [|split; [reflexivity|discriminate]..].
  change (mkLoop (hp p) a 0 0 0 []) with (hlp (mkLoop p a 0 0 0 [])).
  destruct (while_clk hlp (fun l => p_start_timestamp (l_pool l) <= ts) (fun l => l_remaining l =? 0)
    (swap_iteration s k d b lim tl ts) (swap_iteration (hs s) k d b lim tl 0) (mkLoop p a 0 0 0 [])) as [E Q].
  - reflexivity.
  - intros x Hx. now apply iteration_clk.
  - intros x y Hx Hy. apply iteration_start in Hy. lia.
  - exact H.
  - rewrite E. clear E. revert Q. generalize (while_loop (fun l => l_remaining l =? 0) (swap_iteration s k d b lim tl ts) (mkLoop p a 0 0 0 [])).
    intros w Q. destruct w as [l| | |]; cbn [bind rmap]; [|split; [reflexivity|discriminate]..].
    cbn [hlp l_pool l_remaining l_in l_out l_fee l_ticks]. destruct (fail_if _ NoGainSwap); cbn [bind rmap]; [|split; [reflexivity|discriminate]..].
    split; [reflexivity|]. intros r X. injection X as <-. cbn [cs_pool]. now apply Q.
Qed.

(** ** Primitives *)
Lemma set_pools_clk m s : hs (set_pools m s) = set_pools (hp <$> m) (hs s). Proof. reflexivity. Qed.
Lemma set_ticks_clk m s : hs (set_ticks m s) = set_ticks (ht <$> m) (hs s). Proof. reflexivity. Qed.
Lemma set_positions_clk n m s : hs (set_positions n m s) = set_positions n (hq <$> m) (hs s). Proof. reflexivity. Qed.
Lemma pools_update_clk s k p : pools_update (hs s) k (hp p) = rmap hs (pools_update s k p).
Proof.
  unfold pools_update. rewrite pools_get_clk. destruct (pools_get s k); cbn [bind rmap]; [|reflexivity..].
  rewrite set_pools_clk, fmap_insert. reflexivity.
Qed.
Lemma pools_add_clk s k p : pools_add (hs s) k (hp p) = rmap hs (pools_add s k p).
Proof.
  unfold pools_add. cbn [timeless s_pools]. rewrite lookup_fmap. destruct (s_pools s !! k); cbn [fmap option_fmap option_map]; [reflexivity|].
  cbn [rmap bind]. rewrite set_pools_clk, fmap_insert. reflexivity.
Qed.
Lemma pool_keys_add_clk s k : pool_keys_add (hs s) k = rmap hs (pool_keys_add s k).
Proof. unfold pool_keys_add. cbn [timeless s_pool_keys]. destruct (s_pool_keys s !! k); reflexivity. Qed.
Lemma ticks_update_clk s k i t : ticks_update (hs s) k i (ht t) = rmap hs (ticks_update s k i t).
Proof.
  unfold ticks_update. rewrite ticks_get_clk. destruct (ticks_get s k i); cbn [bind rmap]; [|reflexivity..].
  rewrite set_ticks_clk, fmap_insert. reflexivity.
Qed.
Lemma ticks_add_clk s k i t : ticks_add (hs s) k i (ht t) = rmap hs (ticks_add s k i t).
Proof.
  unfold ticks_add. cbn [timeless s_ticks]. rewrite lookup_fmap. destruct (s_ticks s !! (k, i)); cbn [fmap option_fmap option_map]; [reflexivity|].
  cbn [rmap bind]. rewrite set_ticks_clk, fmap_insert. reflexivity.
Qed.
Lemma ticks_remove_clk s k i : ticks_remove (hs s) k i = rmap hs (ticks_remove s k i).
Proof.
  unfold ticks_remove. rewrite ticks_get_clk. destruct (ticks_get s k i); cbn [bind rmap]; [|reflexivity..].
  rewrite set_ticks_clk, fmap_delete. reflexivity.
Qed.
Lemma positions_add_clk s u p : positions_add (hs s) u (hq p) = hs (positions_add s u p).
Proof. unfold positions_add. cbv zeta. rewrite set_positions_clk, fmap_insert. reflexivity. Qed.
Lemma positions_update_clk s u i p : positions_update (hs s) u i (hq p) = rmap hs (positions_update s u i p).
Proof.
  unfold positions_update. cbv zeta. stp. cbn [rmap bind]. rewrite set_positions_clk, fmap_insert. reflexivity.
Qed.
Definition h2 {A B} (h : A -> B) (r : state * A) : state * B := (hs r.1, h r.2).
Lemma positions_remove_clk s u i : positions_remove (hs s) u i = rmap (h2 hq) (positions_remove s u i).
Proof.
  unfold positions_remove. cbv zeta. rewrite positions_get_clk, bind_rmap, rmap_bind. apply bind_ext. intros p.
  change (positions_get_length (hs s) u) with (positions_get_length s u). cbn [timeless s_positions s_positions_length]. fold (hs s).
  destruct (i <? _); cbn [bind].
  - rewrite lookup_fmap. destruct (s_positions s !! _); cbn [fmap option_fmap option_map expect bind rmap]; [|reflexivity].
    unfold h2. cbn [fst snd]. rewrite set_positions_clk, fmap_insert, fmap_delete. reflexivity.
  - cbn [rmap bind]. unfold h2. cbn [fst snd]. rewrite set_positions_clk, fmap_delete. reflexivity.
Qed.
Lemma increase_clk s t u a : increase_token_balance (hs s) t u a = rmap hs (increase_token_balance s t u a).
Proof.
  unfold increase_token_balance. destruct (a =? 0); [reflexivity|]. stp. reflexivity.
Qed.
Lemma decrease_clk s t u a : decrease_token_balance (hs s) t u a = rmap (h2 id) (decrease_token_balance s t u a).
Proof.
  unfold decrease_token_balance. destruct (bool_decide _); [reflexivity|]. stp. stp. cbv zeta.
  destruct a as [a|]; [destruct (negb _); [stp; reflexivity|]|]; destruct (bool_decide _); reflexivity.
Qed.
Lemma get_or_create_tick_clk s ts k i : get_or_create_tick (hs s) 0 k i = rmap (fun r => (ht r.1, r.2)) (get_or_create_tick s ts k i).
Proof.
  unfold get_or_create_tick, create_tick. rewrite pools_get_clk. cbn [timeless s_ticks]. rewrite lookup_fmap.
  destruct (s_ticks s !! (k, i)); cbn [fmap option_fmap option_map]; [reflexivity|].
  destruct (map_err _ _); cbn [bind unwrap]; [|reflexivity..]. rewrite bind_rmap. destruct (pools_get s k) as [p| | |]; cbn [bind unwrap]; [|reflexivity..].
  rewrite (tick_create_clk i p ts), unwrap_rmap, bind_rmap. destruct (unwrap (tick_create i p ts)); reflexivity.
Qed.
Lemma add_tick_clk s k t : add_tick (hs s) k (ht t) = rmap hs (add_tick s k t).
Proof.
  unfold add_tick. change (t_index (ht t)) with (t_index t). rewrite ticks_add_clk, bind_rmap, rmap_bind. apply bind_ext. intros s1.
  stp. reflexivity.
Qed.
Lemma remove_tick_clk s k t : remove_tick (hs s) k (ht t) = rmap hs (remove_tick s k t).
Proof.
  unfold remove_tick. change (t_index (ht t)) with (t_index t). change (t_liquidity_gross (ht t)) with (t_liquidity_gross t).
  stp. stp. exact (ticks_remove_clk (set_bitmap a0 s) k (t_index t)).
Qed.
Lemma fold_ticks_clk k ts : forall s, foldM_res (fun s t => ticks_update s k (t_index t) t) (map ht ts) (hs s) =
  rmap hs (foldM_res (fun s t => ticks_update s k (t_index t) t) ts s).
Proof.
  induction ts as [|t ts IH]; intros s; cbn [foldM_res map]; [reflexivity|].
  change (t_index (ht t)) with (t_index t). rewrite ticks_update_clk, bind_rmap, rmap_bind. apply bind_ext. intros s1. apply IH.
Qed.

(** ** Calls *)
Notation he := timeless_env.
Ltac by_ L := rewrite L, bind_rmap, rmap_bind; apply bind_ext; intros ?.

Lemma create_position_clk e s k lo up l sl su :
  create_position (he e) (hs s) k lo up l sl su = rmap (h2 hq) (create_position e s k lo up l sl su).
Proof.
  unfold create_position. cbv zeta. cbn [timeless_env e_caller e_timestamp e_block]. stp. stp. by_ (pools_get_clk s k). rename a1 into p.
  rewrite (get_or_create_tick_clk s (e_timestamp e) k lo), bind_rmap, rmap_bind. apply bind_ext. intros [lot b1]. cbn [fst snd].
  rewrite (get_or_create_tick_clk s (e_timestamp e) k up), bind_rmap, rmap_bind. apply bind_ext. intros [upt b2]. cbn [fst snd].
  unfold position_create. cbv zeta. change (p_sqrt_price (hp p)) with (p_sqrt_price p).
  destruct (fail_if _ PriceLimitReached); cbn [bind]; [|reflexivity..].
  change (t_index (ht lot)) with (t_index lot). change (t_index (ht upt)) with (t_index upt).
  pose proof (modify_clk (mkPosition k 0 (t_index lot) (t_index upt) 0 0 (e_block e) 0 0) p upt lot l true (e_timestamp e) (pk_spacing k)) as M.
  unfold timeless_position at 1 in M. cbn [pos_pool_key pos_liquidity pos_lower pos_upper pos_fee_growth_inside_x pos_fee_growth_inside_y pos_tokens_owed_x pos_tokens_owed_y] in M.
  rewrite M, unwrap_rmap, bind_rmap, rmap_bind. apply bind_ext. intros [[[[pos p'] u'] l'] [x y]]. unfold hm. cbn [fst snd].
  rewrite decrease_clk, bind_rmap, rmap_bind. apply bind_ext. intros [s1 v1]. unfold h2 at 1. cbn [fst snd].
  rewrite decrease_clk, bind_rmap, rmap_bind. apply bind_ext. intros [s2 v2]. unfold h2 at 1. cbn [fst snd].
  by_ (pools_update_clk s2 k p'). rewrite positions_add_clk.
  change (t_index (ht l')) with (t_index l'). change (t_index (ht u')) with (t_index u').
  rewrite add_tick_clk, ticks_update_clk. 
  assert (IF : forall (b : bool) (x y : res state), (if b then rmap hs x else rmap hs y) = rmap hs (if b then x else y)) by (intros []; reflexivity).
  rewrite IF, bind_rmap, rmap_bind. apply bind_ext. intros s5. rewrite add_tick_clk, ticks_update_clk, IF, bind_rmap, rmap_bind. apply bind_ext. intros s6. reflexivity.
Qed.

Lemma pay_clk s k u x y (A B : Type) (h : A -> B) (v : A) :
  (let* s := increase_token_balance (hs s) (pk_token_x k) u x in
   let* s := increase_token_balance s (pk_token_y k) u y in Ok (s, h v)) =
  rmap (h2 h) (let* s := increase_token_balance s (pk_token_x k) u x in
   let* s := increase_token_balance s (pk_token_y k) u y in Ok (s, v)).
Proof. by_ increase_clk. by_ increase_clk. reflexivity. Qed.

Lemma remove_position_clk e s i : remove_position (he e) (hs s) i = rmap (h2 id) (remove_position e s i).
Proof.
  unfold remove_position. cbv zeta. cbn [timeless_env e_caller e_timestamp]. by_ (positions_get_clk s (e_caller e) i). rename a into pos.
  change (pos_pool_key (hq pos)) with (pos_pool_key pos). change (pos_lower (hq pos)) with (pos_lower pos). change (pos_upper (hq pos)) with (pos_upper pos).
  by_ (ticks_get_clk s (pos_pool_key pos) (pos_lower pos)). rename a into lot. by_ (ticks_get_clk s (pos_pool_key pos) (pos_upper pos)). rename a into upt.
  by_ (pools_get_clk s (pos_pool_key pos)). rename a into p.
  unfold position_remove. change (pos_liquidity (hq pos)) with (pos_liquidity pos).
  rewrite (modify_clk pos p upt lot (pos_liquidity pos) false (e_timestamp e)), unwrap_rmap, bind_rmap.
  destruct (unwrap (position_modify _ _ _ _ _ _ _ _)) as [[[[[p0 p'] u'] l'] [x y]]| | |]; unfold hm; cbn [bind fst snd]; [|reflexivity..].
  change (pos_tokens_owed_x (hq p0)) with (pos_tokens_owed_x p0). change (pos_tokens_owed_y (hq p0)) with (pos_tokens_owed_y p0).
  destruct (dec_add M256 x _) as [x1| | |]; cbn [bind]; [|reflexivity..].
  destruct (dec_add M256 y _) as [y1| | |]; cbn [bind]; [|reflexivity..].
  change (t_liquidity_gross (ht l')) with (t_liquidity_gross l'). change (t_liquidity_gross (ht u')) with (t_liquidity_gross u').
  by_ (pools_update_clk s (pos_pool_key pos) p').
  assert (IF : forall (b : bool) (x y : res state), (if b then rmap hs x else rmap hs y) = rmap hs (if b then x else y)) by (intros []; reflexivity).
  rewrite remove_tick_clk, ticks_update_clk, IF, bind_rmap, rmap_bind. apply bind_ext. intros s5.
  rewrite remove_tick_clk, ticks_update_clk, IF, bind_rmap, rmap_bind. apply bind_ext. intros s6.
  rewrite positions_remove_clk, bind_rmap, rmap_bind. apply bind_ext. intros [s7 v7]. unfold h2 at 1. cbn [fst snd].
  exact (pay_clk s7 (pos_pool_key pos) (e_caller e) x1 y1 _ _ id (x1, y1)).
Qed.

Lemma claim_fee_clk e s i : claim_fee (he e) (hs s) i = rmap (h2 id) (claim_fee e s i).
Proof.
  unfold claim_fee. cbv zeta. cbn [timeless_env e_caller e_timestamp]. by_ (positions_get_clk s (e_caller e) i). rename a into pos.
  change (pos_pool_key (hq pos)) with (pos_pool_key pos). change (pos_lower (hq pos)) with (pos_lower pos). change (pos_upper (hq pos)) with (pos_upper pos).
  by_ (ticks_get_clk s (pos_pool_key pos) (pos_lower pos)). rename a into lot. by_ (ticks_get_clk s (pos_pool_key pos) (pos_upper pos)). rename a into upt.
  by_ (pools_get_clk s (pos_pool_key pos)). rename a into p.
  unfold position_claim_fee. change (pos_pool_key (hq pos)) with (pos_pool_key pos).
  rewrite (modify_clk pos p upt lot 0 true (e_timestamp e)), unwrap_rmap, bind_rmap.
  destruct (unwrap (position_modify _ _ _ _ _ _ _ _)) as [[[[[p0 p'] u'] l'] [x y]]| | |]; unfold hm; cbn [bind fst snd]; [|reflexivity..].
  change (t_index (ht l')) with (t_index l'). change (t_index (ht u')) with (t_index u').
  match goal with |- context [positions_update s (e_caller e) i ?q] => pose proof (positions_update_clk s (e_caller e) i q) as X end.
  unfold timeless_position in X at 1. cbn [pos_pool_key pos_liquidity pos_lower pos_upper pos_fee_growth_inside_x pos_fee_growth_inside_y pos_tokens_owed_x pos_tokens_owed_y] in X.
  cbn [timeless_position pos_pool_key pos_liquidity pos_lower pos_upper pos_fee_growth_inside_x pos_fee_growth_inside_y pos_tokens_owed_x pos_tokens_owed_y pos_last_block_number].
  by_ X. clear X.
  by_ (pools_update_clk a (pos_pool_key pos) p'). by_ ticks_update_clk. by_ ticks_update_clk.
  exact (pay_clk _ (pos_pool_key pos) (e_caller e) _ _ _ _ id (pos_tokens_owed_x p0, pos_tokens_owed_y p0)).
Qed.

Lemma swap_clk e s k d a b lim : created_by (e_timestamp e) s k ->
  swap (he e) (hs s) k d a b lim = rmap (h2 timeless_swap) (swap e s k d a b lim).
Proof.
  intros H. unfold swap. cbv zeta. cbn [timeless_env e_caller e_timestamp]. destruct (calculate_swap_clk s (e_timestamp e) k d a b lim H) as [E _].
  rewrite E, bind_rmap, rmap_bind. apply bind_ext. intros r. cbn [timeless_swap cs_ticks cs_pool cs_amount_in cs_amount_out].
  by_ (fold_ticks_clk k (cs_ticks r) s). by_ pools_update_clk. destruct (if d then _ else _) as [ti to].
  rewrite decrease_clk, bind_rmap, rmap_bind. apply bind_ext. intros [s1 v1]. unfold h2 at 1. cbn [fst snd]. by_ increase_clk. reflexivity.
Qed.
Lemma swap_created e s k d a b lim s' r k' : swap e s k d a b lim = Ok (s', r) -> created_by (e_timestamp e) s k ->
  created_by (e_timestamp e) s k' -> created_by (e_timestamp e) s' k'.
Proof.
  intros E H H'. apply swap_inv in E as (B & E & -> & _). unfold created_by, pools_get in *. cbn [set_balances set_pools s_pools].
  destruct (decide (k = k')) as [<-|N]; [|rewrite lookup_insert_ne; auto]. rewrite lookup_insert. intros p X. injection X as <-.
  exact (proj2 (calculate_swap_clk s (e_timestamp e) k d a b lim H) r E).
Qed.
Lemma route_clk e hops : forall s a, (forall h, h ∈ hops -> created_by (e_timestamp e) s (h_pool_key h)) ->
  route_swap (he e) (hs s) a hops = rmap (h2 id) (route_swap e s a hops).
Proof.
  induction hops as [|h hops IH]; intros s a H; cbn [route_swap]; [reflexivity|].
  assert (Hh : created_by (e_timestamp e) s (h_pool_key h)) by (apply H; left).
  rewrite swap_clk by exact Hh. rewrite bind_rmap, rmap_bind.
  destruct (swap e s _ _ _ _ _) as [[s1 r]| | |] eqn:E; cbn [bind]; [|reflexivity..]. apply IH.
  intros h' Hin. eapply swap_created; [exact E|exact Hh|]. apply H. now right.
Qed.
Lemma swap_route_clk e s a x sl hops : (forall h, h ∈ hops -> created_by (e_timestamp e) s (h_pool_key h)) ->
  swap_route (he e) (hs s) a x sl hops = rmap (h2 id) (swap_route e s a x sl hops).
Proof.
  intros H. unfold swap_route. rewrite (route_clk e hops s a H), bind_rmap, rmap_bind. apply bind_ext. intros [s1 v]. unfold h2 at 1. cbn [fst snd].
  stp. stp. reflexivity.
Qed.
Lemma create_pool_clk e s x y ft p t : create_pool (he e) (hs s) x y ft p t = rmap (h2 id) (create_pool e s x y ft p t).
Proof.
  unfold create_pool. cbn [timeless_env e_timestamp]. stp. stp. stp.
  rewrite pools_get_clk. replace (is_ok (rmap hp (pools_get s a1))) with (is_ok (pools_get s a1)) by (destruct (pools_get s a1); reflexivity).
  stp. assert (PC : pool_create p t 0 (ft_tick_spacing ft) (s_admin s) = rmap hp (pool_create p t (e_timestamp e) (ft_tick_spacing ft) (s_admin s))).
  { unfold pool_create. do 3 stp. reflexivity. }
  change (s_admin (hs s)) with (s_admin s). by_ PC. by_ pools_add_clk. by_ pool_keys_add_clk. reflexivity.
Qed.
Lemma change_fee_receiver_clk e s k r : change_fee_receiver (he e) (hs s) k r = rmap (h2 id) (change_fee_receiver e s k r).
Proof.
  unfold change_fee_receiver. change (is_caller_admin (he e) (hs s)) with (is_caller_admin e s). stp. by_ pools_get_clk.
  change (set_fee_receiver r (hp a0)) with (hp (set_fee_receiver r a0)). by_ pools_update_clk. reflexivity.
Qed.
Lemma transfer_position_clk e s i r : transfer_position (he e) (hs s) i r = rmap (h2 id) (transfer_position e s i r).
Proof.
  unfold transfer_position, positions_transfer. cbn [timeless_env e_caller]. rewrite positions_remove_clk.
  destruct (positions_remove s (e_caller e) i) as [[s1 p]| | |]; cbn [rmap bind h2 fst snd]; [|reflexivity..].
  rewrite positions_add_clk. reflexivity.
Qed.
Lemma withdraw_protocol_fee_clk e s k : withdraw_protocol_fee (he e) (hs s) k = rmap (h2 id) (withdraw_protocol_fee e s k).
Proof.
  unfold withdraw_protocol_fee. cbv zeta. cbn [timeless_env e_caller]. by_ pools_get_clk. rename a into p.
  change (p_fee_receiver (hp p)) with (p_fee_receiver p). stp. unfold pool_withdraw_protocol_fee. cbv iota.
  match goal with |- context [pools_update s k ?q] => pose proof (pools_update_clk s k q) as X end.
  match goal with |- bind (pools_update _ _ ?q) _ = _ => change q with (hp (set_fees_x (p_fee_growth_global_x p) 0 (set_fees_y (p_fee_growth_global_y p) 0 p))) end.
  rewrite X, bind_rmap, rmap_bind. apply bind_ext. intros s1. exact (pay_clk s1 k (e_caller e) _ _ _ _ id tt).
Qed.
Lemma deposit_vara_clk e s : deposit_vara (he e) (hs s) = rmap (h2 id) (deposit_vara e s).
Proof. unfold deposit_vara. cbn [timeless_env e_caller e_value]. by_ increase_clk. reflexivity. Qed.
Lemma withdraw_vara_clk e s v : withdraw_vara (he e) (hs s) v = rmap (h2 id) (withdraw_vara e s v).
Proof.
  unfold withdraw_vara. cbn [timeless_env e_caller]. rewrite rmap_bind. destruct v as [v|].
  - destruct (fail_if _ _); cbn [bind]; [|reflexivity..]. rewrite decrease_clk, bind_rmap. apply bind_ext. intros [s1 x]. unfold h2 at 1. cbn [fst snd].
    stp. reflexivity.
  - rewrite decrease_clk. destruct (decrease_token_balance s _ _ _) as [[s1 x]| | |]; cbn [rmap bind h2 fst snd]; try reflexivity.
    + stp. reflexivity.
Qed.

Lemma told_clk {A} (h : A -> A) (g : A -> reply) (x y : res (state * A)) : (forall a, g (h a) = timeless_reply (g a)) ->
  y = rmap (h2 h) x -> told g y = timeless_answer (told g x).
Proof. intros Hg ->. unfold told. destruct x as [[s1 a]| | |]; cbn; [now rewrite Hg|reflexivity..]. Qed.
Lemma drop_clk {A} (h : A -> A) (x y : res (state * A)) s : y = rmap (h2 h) x ->
  match drop_result y with Ok s1 => s1 | _ => hs s end = hs match drop_result x with Ok s1 => s1 | _ => s end.
Proof. intros ->. destruct x as [[s1 a]| | |]; reflexivity. Qed.

Lemma step_clk s ev : dated s ev ->
  answer (hs s) (timeless_event ev) = timeless_answer (answer s ev) /\
  exec_event (hs s) (timeless_event ev) = hs (exec_event s ev).
Proof.
  intros D. destruct ev as [e o|u t a|u t a|m].
  - destruct o; cbn [timeless_event answer exec_event dated] in *; unfold exec_op; cbn [run_op].
    Ltac op_clk L := split; [eapply told_clk; [|apply L; auto]; reflexivity|eapply drop_clk; apply L; auto].
    + split; [unfold told, change_protocol_fee|unfold drop_result, change_protocol_fee]; change (is_caller_admin (he e) (hs s)) with (is_caller_admin e s);
        destruct (is_caller_admin e s); reflexivity.
    + split; [unfold told, add_fee_tier|unfold drop_result, add_fee_tier]; change (is_caller_admin (he e) (hs s)) with (is_caller_admin e s);
        change (s_fee_tiers (hs s)) with (s_fee_tiers s);
        do 3 (destruct (fail_if _ _); cbn [bind]; [|reflexivity..]); destruct (fee_tiers_add _ _); reflexivity.
    + split; [unfold told, remove_fee_tier|unfold drop_result, remove_fee_tier]; change (is_caller_admin (he e) (hs s)) with (is_caller_admin e s);
        change (s_fee_tiers (hs s)) with (s_fee_tiers s);
        (destruct (fail_if _ _); cbn [bind]; [|reflexivity..]); destruct (fee_tiers_remove _ _); reflexivity.
    + op_clk create_pool_clk.
    + op_clk change_fee_receiver_clk.
    + op_clk create_position_clk.
    + op_clk remove_position_clk.
    + op_clk transfer_position_clk.
    + op_clk swap_clk.
    + op_clk swap_route_clk.
    + op_clk claim_fee_clk.
    + op_clk withdraw_protocol_fee_clk.
    + op_clk deposit_vara_clk.
    + op_clk withdraw_vara_clk.
  - cbn [timeless_event answer exec_event]. rewrite increase_clk. destruct (increase_token_balance s t u a); split; reflexivity.
  - cbn [timeless_event answer exec_event]. rewrite decrease_clk. destruct (decrease_token_balance s t u a) as [[? ?]| | |]; split; reflexivity.
  - split; reflexivity.
Qed.

Lemma run_clk evs : forall s, all_dated s evs ->
  answers (hs s) (map timeless_event evs) = map timeless_answer (answers s evs) /\
  run (hs s) (map timeless_event evs) = hs (run s evs).
Proof.
  induction evs as [|ev evs IH]; intros s D; cbn [map answers run]; [split; reflexivity|].
  cbn [all_dated] in D. destruct D as [D1 D2]. destruct (step_clk s ev D1) as [E1 E2]. rewrite E1, E2. destruct (IH _ D2) as [E3 E4].
  now rewrite E3, E4.
Qed.

(** ** A clock that never goes back *)
Definition started (now : Z) (s : state) : Prop := forall k p, s_pools s !! k = Some p -> p_start_timestamp p <= now.
Lemma started_created now s k : started now s -> created_by now s k.
Proof. intros H p Hp. apply pools_get_Ok in Hp. eauto. Qed.
Lemma started_same now s s' : s_pools s' = s_pools s -> started now s -> started now s'.
Proof. intros E H k p. rewrite E. apply H. Qed.
Lemma started_insert now s s' k p : s_pools s' = <[k := p]> (s_pools s) -> p_start_timestamp p <= now -> started now s -> started now s'.
Proof.
  intros E Hp H k' q. rewrite E. destruct (decide (k = k')) as [<-|N]; [rewrite lookup_insert; intros X; injection X as <-; exact Hp|].
  rewrite lookup_insert_ne by exact N. apply H.
Qed.
Lemma started_later now now' s : now <= now' -> started now s -> started now' s.
Proof. intros L H k p Hp. specialize (H k p Hp). lia. Qed.
Lemma modify_start q p up lo d add ts sp q' p' up' lo' xy : position_modify q p up lo d add ts sp = Ok (q', p', up', lo', xy) ->
  p_start_timestamp p' = p_start_timestamp p.
Proof.
  unfold position_modify. cbv zeta. intros H. do 3 apply bind_Ok in H as (? & _ & H).
  destruct (calculate_fee_growth_inside _ _ _ _ _ _ _ _ _) as [fx fy]. apply bind_Ok in H as (? & _ & H).
  apply bind_Ok in H as ([p1 xy1] & E & H). injection H as _ <- _ _ _. unfold pool_update_liquidity in E.
  apply bind_Ok in E as ([[ux uy] upd] & _ & E). destruct (negb upd); [injection E as <- _; reflexivity|].
  destruct add; apply bind_Ok in E as (? & _ & E); injection E as <- _; reflexivity.
Qed.
Lemma route_started e hops : forall s a s' out, route_swap e s a hops = Ok (s', out) -> started (e_timestamp e) s -> started (e_timestamp e) s'.
Proof.
  induction hops as [|h hops IH]; cbn [route_swap]; intros s a s' out H S; [now injection H as <- _|].
  apply bind_Ok in H as ([s1 r] & E & H). eapply IH; [exact H|]. intros k p Hp.
  apply (swap_created _ _ _ _ _ _ _ _ _ k E (started_created _ _ _ S) (started_created _ _ _ S)). now apply pools_get_Ok.
Qed.
Lemma op_started e s o s' : run_op e s o = Ok s' -> started (e_timestamp e) s -> started (e_timestamp e) s'.
Proof.
  intros HO S. destruct o; cbn [run_op] in HO; apply drop_result_Ok in HO as [v H].
  - apply change_protocol_fee_inv in H as [_ ->]. eapply started_same; [|exact S]; reflexivity.
  - apply add_fee_tier_inv in H as (_ & _ & _ & _ & _ & ->). eapply started_same; [|exact S]; reflexivity.
  - apply remove_fee_tier_inv in H as (_ & l & _ & ->). eapply started_same; [|exact S]; reflexivity.
  - apply create_pool_inv in H as (k & p & _ & _ & _ & _ & _ & HP & ->). eapply (started_insert _ s _ k p); [reflexivity| |exact S].
    unfold pool_create in HP. do 3 apply bind_Ok in HP as (? & _ & HP). injection HP as <-. cbn. lia.
  - apply change_fee_receiver_inv in H as (_ & p & Hp & ->). eapply (started_insert _ s); [reflexivity| |exact S]. exact (S _ _ Hp).
  - apply create_position_inv in H as (p & tl0 & al & tu0 & au & p' & tl & tu & x & y & b1 & _ & _ & Hp & _ & _ & HC & _ & EP & _).
    eapply (started_insert _ s); [exact EP| |exact S]. unfold position_create in HC. apply bind_Ok in HC as (? & _ & HC). apply unwrap_ok, modify_start in HC.
    specialize (S _ _ Hp). lia.
  - destruct v as [x y]. apply remove_position_inv in H as (pos & tl0 & tu0 & p & pos' & p' & tu & tl & dx & dy & rl & ru & b1 & T1 & lp & H).
    cbv zeta in H. destruct H as (_ & _ & _ & Hp & HM & _ & _ & _ & _ & _ & EP & _). apply modify_start in HM.
    eapply (started_insert _ s); [exact EP| |exact S]. specialize (S _ _ Hp). lia.
  - apply transfer_position_inv in H as (pos & lp & s1 & _ & _ & -> & ->). eapply started_same; [|exact S]; reflexivity.
  - intros k' p Hp. apply (swap_created _ _ _ _ _ _ _ _ _ k' H (started_created _ _ _ S) (started_created _ _ _ S)). now apply pools_get_Ok.
  - unfold swap_route in H. apply bind_Ok in H as ([s1 x] & E & H). do 2 apply bind_Ok in H as (? & _ & H). injection H as <- _.
    eapply route_started; eauto.
  - destruct v as [x y]. apply claim_fee_inv in H as (pos & tl0 & tu0 & p & pos' & p' & tu & tl & dx & dy & B & H).
    cbv zeta in H. destruct H as (_ & _ & _ & Hp & HM & _ & _ & _ & -> & _). apply modify_start in HM.
    eapply (started_insert _ s); [reflexivity| |exact S]. specialize (S _ _ Hp). lia.
  - apply withdraw_protocol_fee_inv in H as (p & B & Hp & _ & -> & _). eapply (started_insert _ s); [reflexivity| |exact S]. exact (S _ _ Hp).
  - apply deposit_vara_inv in H as (_ & (B & ->) & _). eapply started_same; [|exact S]; reflexivity.
  - apply withdraw_vara_inv in H as ((B & ->) & _). eapply started_same; [|exact S]; reflexivity.
Qed.
Lemma in_order_dated evs : forall now s, started now s -> in_order now evs -> all_dated s evs.
Proof.
  induction evs as [|ev evs IH]; intros now s S O; cbn [all_dated]; [exact I|].
  destruct ev as [e o|u t a|u t a|m]; cbn [in_order exec_event] in *.
  - destruct O as [L O]. apply (started_later _ (e_timestamp e)) in S; [|exact L]. split.
    + destruct o; cbn; auto; intros; now apply started_created.
    + apply (IH (e_timestamp e)); [|exact O]. unfold exec_op. destruct (run_op e s o) as [s'| | |] eqn:E; try exact S. eapply op_started; eauto.
  - split; [exact I|]. apply (IH now); [|exact O]. destruct (increase_token_balance s t u a) eqn:E; try exact S.
    apply increase_spec in E as ((B & ->) & _). eapply started_same; [|exact S]; reflexivity.
  - split; [exact I|]. apply (IH now); [|exact O]. destruct (decrease_token_balance s t u a) as [[s' x]| | |] eqn:E; try exact S.
    apply decrease_spec in E as ((B & ->) & _). eapply started_same; [|exact S]; reflexivity.
  - split; [exact I|]. apply (IH now); [|exact O]. eapply started_same; [|exact S]; reflexivity.
Qed.
