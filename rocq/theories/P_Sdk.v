(** The SDK's simulation follows the contract's swap step by step. *)
From Verif Require Import Base Decimal SqrtPriceM LogM ClammM FeeGrowthM Types TickmapM StorageM
  CollectionsM StateM ServiceM SdkM Arith SpecMath SpecFees SpecSum SpecState SpecLoop SpecSdk P_TickPrice P_Tickmap P_Closer P_Loop P_Effects P_Check P_State P_Iter P_Inv P_InvPos P_InvSwap P_Swap P_SwapLoop P_Term.
From stdpp Require Import gmap list.
From Coq Require Import ZArith Lia Bool.
Open Scope Z_scope.

(** ** Replacing errors by defaults *)

Definition refines {A} (r r' : res A) : Prop := forall v, r = Ok v -> r' = Ok v.

Lemma refines_refl {A} (r : res A) : refines r r.
Proof. intros v; auto. Qed.
Lemma refines_bind {A B} (r r' : res A) (k k' : A -> res B) :
  refines r r' -> (forall a, refines (k a) (k' a)) -> refines (bind r k) (bind r' k').
Proof. intros H K v E. apply bind_Ok in E as (a & E1 & E2). rewrite (H _ E1). apply K. exact E2. Qed.
Lemma refines_if {A} (b : bool) (r1 r2 r1' r2' : res A) :
  refines r1 r1' -> refines r2 r2' -> refines (if b then r1 else r2) (if b then r1' else r2').
Proof. destruct b; auto. Qed.
Lemma refines_or {A} (r : res A) d : refines r (res_or r d).
Proof. intros v ->. reflexivity. Qed.
Lemma unwrap_inv {A} (r : res A) v : unwrap r = Ok v -> r = Ok v.
Proof. apply unwrap_Ok. Qed.
Lemma refines_unwrap {A} (r r' : res A) : refines r r' -> refines (unwrap r) (unwrap r').
Proof. intros H v E. apply unwrap_inv in E. rewrite (H _ E). reflexivity. Qed.

Lemma sdk_x_up p L x b : refines (get_next_sqrt_price_x_up p L x b) (sdk_next_sqrt_price_x_up p L x b).
Proof.
  unfold get_next_sqrt_price_x_up, sdk_next_sqrt_price_x_up. apply refines_if; [apply refines_refl|].
  apply refines_bind; [apply refines_refl|intros pd]. apply refines_bind; [apply refines_refl|intros px].
  intros v E. apply bind_Ok in E as (den & E1 & E2). apply ok_or_Ok in E1.
  assert (Ed : (if b then default MAX_SQRT_PRICE (checked_add M384 pd px)
                else default MIN_SQRT_PRICE (checked_sub pd px)) = den)
    by (destruct b; rewrite E1; reflexivity).
  rewrite Ed. revert v E2. apply refines_bind; [apply refines_refl|intros nom]. apply refines_or.
Qed.

Lemma sdk_y_down p L y b : refines (get_next_sqrt_price_y_down p L y b) (sdk_next_sqrt_price_y_down p L y b).
Proof.
  unfold get_next_sqrt_price_y_down, sdk_next_sqrt_price_y_down.
  apply refines_bind; [apply refines_refl|intros n]. apply refines_bind; [apply refines_refl|intros m].
  apply refines_if; (apply refines_bind; [apply refines_or|intros q; apply refines_or]).
Qed.

Lemma sdk_from_input p L a d : refines (get_next_sqrt_price_from_input p L a d) (sdk_next_sqrt_price_from_input p L a d).
Proof. apply refines_if; [apply sdk_x_up|apply sdk_y_down]. Qed.
Lemma sdk_from_output p L a d : refines (get_next_sqrt_price_from_output p L a d) (sdk_next_sqrt_price_from_output p L a d).
Proof. apply refines_if; [apply sdk_y_down|apply sdk_x_up]. Qed.

Lemma sdk_step p t L a bi fee : refines (compute_swap_step p t L a bi fee) (sdk_compute_swap_step p t L a bi fee).
Proof.
  unfold compute_swap_step, sdk_compute_swap_step. apply refines_if; [apply refines_refl|].
  apply refines_bind.
  - apply refines_if.
    + apply refines_bind; [apply refines_refl|intros r]. apply refines_bind; [apply refines_refl|intros af].
      apply refines_bind; [apply refines_refl|intros i]. apply refines_bind; [|intros n; apply refines_refl].
      apply refines_if; [apply refines_refl|apply sdk_from_input].
    + apply refines_bind; [apply refines_refl|intros i]. apply refines_bind; [|intros n; apply refines_refl].
      apply refines_if; [apply refines_refl|apply sdk_from_output].
  - intros [[n i] o]. apply refines_refl.
Qed.

Lemma sdk_enough a p L fee bi d :
  refines (is_enough_amount_to_change_price a p L fee bi d) (sdk_is_enough_amount_to_change_price a p L fee bi d).
Proof.
  unfold is_enough_amount_to_change_price, sdk_is_enough_amount_to_change_price. apply refines_if; [apply refines_refl|].
  apply refines_bind; [|intros n; apply refines_refl]. apply refines_if; [|apply sdk_from_output].
  apply refines_bind; [apply refines_refl|intros r]. apply refines_bind; [apply refines_refl|intros af]. apply sdk_from_input.
Qed.

(** ** The same search *)

Section Search.
  Context (b : bitmap) (k : pool_key) (m : gmap Z Z) (c0 : Z).

  Lemma next_loop_eq sp lc lb n : (forall c, c0 <= c -> default 0 (m !! c) = default 0 (b !! (c, k))) ->
    forall c bit, c0 <= c ->
    sdk_next_loop m sp lc lb n c bit = next_loop b k sp lc lb n c bit.
  Proof using.
    intros Hbits. induction n as [|n IH]; intros c bit Hc; [reflexivity|]. cbn [sdk_next_loop next_loop].
    unfold sdk_chunk_at. rewrite Hbits, IH by lia.
    unfold index_to_tick, chunk_at. destruct (i32_div MAX_TICK sp); reflexivity.
  Qed.
  Lemma prev_loop_eq sp lc lb n : (forall c, c <= c0 -> default 0 (m !! c) = default 0 (b !! (c, k))) ->
    forall c bit, c <= c0 ->
    sdk_prev_loop m sp lc lb n c bit = prev_loop b k sp lc lb n c bit.
  Proof using.
    intros Hbits. induction n as [|n IH]; intros c bit Hc; [reflexivity|]. cbn [sdk_prev_loop prev_loop].
    unfold sdk_chunk_at. rewrite Hbits, IH by lia.
    unfold index_to_tick, chunk_at. destruct (i32_div MAX_TICK sp); reflexivity.
  Qed.

  Lemma position_chunk t sp c bit : 1 <= sp -> tick_to_position t sp = Ok (c, bit) -> c = chunk_of sp t.
  Proof using.
    intros Hs. unfold tick_to_position, assert, i32_rem, i32_div. destruct (_ && _) eqn:E; [|discriminate].
    apply andb_true_iff in E as [E _]. apply Z.leb_le in E. cbn [bind].
    replace (sp =? 0) with false by lia. cbn [bind]. destruct (_ =? 0); cbn [bind]; [|discriminate].
    intros [= <- _]. unfold chunk_of, CHUNK_SIZE. unfold MAX_TICK in *.
    rewrite (Z.quot_div_nonneg (t + 221818)) by lia.
    apply Z.quot_div_nonneg; [apply Z.div_pos; lia|lia].
  Qed.

  Lemma chunk_mono sp t t' : 1 <= sp -> t <= t' -> chunk_of sp t <= chunk_of sp t'.
  Proof using. intros Hs H. unfold chunk_of. do 2 (apply Z.div_le_mono; [lia|]). lia. Qed.

  Lemma closer_eq lim (d : bool) c t0 sp : 1 <= sp -> c0 = chunk_of sp t0 ->
    (forall c, (if d then c <= c0 else c0 <= c) -> default 0 (m !! c) = default 0 (b !! (c, k))) ->
    (if d then c <= t0 else t0 <= c) ->
    sdk_get_closer_limit m lim d c sp = get_closer_limit b lim d c sp k.
  Proof using.
    intros Hs E0 Hbits Hc.
    unfold sdk_get_closer_limit, get_closer_limit, sdk_prev_initialized, sdk_next_initialized,
      prev_initialized, next_initialized.
    change sdk_get_search_limit with get_search_limit. change sdk_tick_to_position with tick_to_position.
    destruct d.
    - destruct (get_search_limit c sp false); cbn [bind]; try reflexivity.
      destruct (tick_to_position c sp) as [[c1 ?]| | |] eqn:E1; cbn [bind]; try reflexivity.
      destruct (tick_to_position a sp) as [[? ?]| | |]; cbn [bind]; try reflexivity.
      apply position_chunk in E1; [|exact Hs]. rewrite prev_loop_eq; [reflexivity|exact Hbits|].
      subst. apply chunk_mono; lia.
    - destruct (get_search_limit c sp true); cbn [bind]; try reflexivity.
      destruct (MAX_TICK <? c + sp); [reflexivity|].
      destruct (tick_to_position (c + sp) sp) as [[c1 ?]| | |] eqn:E1; cbn [bind]; try reflexivity.
      destruct (tick_to_position a sp) as [[? ?]| | |]; cbn [bind]; try reflexivity.
      apply position_chunk in E1; [|exact Hs]. rewrite next_loop_eq; [reflexivity|exact Hbits|].
      subst. apply chunk_mono; lia.
  Qed.
End Search.

(** The search fails with one error only. *)
Definition only_err {A} (e0 : error) (r : res A) : Prop := forall e, r = Err e -> e = e0.
Lemma only_bind {A B} e0 (r : res A) (f : A -> res B) : only_err e0 r -> (forall a, only_err e0 (f a)) -> only_err e0 (bind r f).
Proof. intros H K e. destruct r; cbn; intros E; try discriminate; [eapply K; eauto|injection E as <-; eapply H; eauto]. Qed.
Lemma closer_err b lim d c sp k e : get_closer_limit b lim d c sp k = Err e -> e = TickLimitReached.
Proof.
  assert (S : forall up, only_err TickLimitReached (get_search_limit c sp up)).
  { intros up e0. unfold get_search_limit, i32_div. destruct (sp =? 0); [discriminate|]. cbn. destruct up; discriminate. }
  assert (T : forall x, only_err TickLimitReached (tick_to_position x sp)).
  { intros x e0. unfold tick_to_position, assert, i32_rem, i32_div. destruct (_ && _); [|discriminate]. cbn.
    destruct (sp =? 0); [discriminate|]. cbn. destruct (_ =? 0); cbn; discriminate. }
  assert (X : forall c b0, only_err TickLimitReached (index_to_tick c b0 sp)).
  { intros c0 b0 e0. unfold index_to_tick, i32_div. destruct (sp =? 0); discriminate. }
  assert (PL : forall lc lb n c0 b0, only_err TickLimitReached (prev_loop b k sp lc lb n c0 b0)).
  { intros lc lb n. induction n as [|n IH]; intros c0 b0 e0; cbn [prev_loop]; [discriminate|].
    repeat match goal with |- context [if ?x then _ else _] => destruct x end; try discriminate; [|apply IH].
    apply only_bind; [apply X|intros t e1; discriminate]. }
  assert (NL : forall lc lb n c0 b0, only_err TickLimitReached (next_loop b k sp lc lb n c0 b0)).
  { intros lc lb n. induction n as [|n IH]; intros c0 b0 e0; cbn [next_loop]; [discriminate|].
    repeat match goal with |- context [if ?x then _ else _] => destruct x end; try discriminate; [|apply IH].
    apply only_bind; [apply X|intros t e1; discriminate]. }
  revert e. change (only_err TickLimitReached (get_closer_limit b lim d c sp k)). unfold get_closer_limit.
  apply only_bind.
  - destruct d; unfold prev_initialized, next_initialized.
    + apply only_bind; [apply S|intros l]. apply only_bind; [apply T|intros [c1 b1]]. apply only_bind; [apply T|intros [c2 b2]]. apply PL.
    + apply only_bind; [apply S|intros l]. destruct (_ <? _); [intros e; discriminate|].
      apply only_bind; [apply T|intros [c1 b1]]. apply only_bind; [apply T|intros [c2 b2]]. apply NL.
  - assert (U : forall i, only_err TickLimitReached (unwrap (calculate_sqrt_price i))).
    { intros i e. destruct (calculate_sqrt_price i); discriminate. }
    intros [i|].
    + apply only_bind; [apply U|intros pr e]. destruct (_ || _); discriminate.
    + apply only_bind; [apply S|intros i]. apply only_bind; [apply U|intros pr].
      apply only_bind; [intros e; unfold fail_if; destruct (_ =? _); congruence|intros _ e]. destruct (_ || _); discriminate.
Qed.

(** ** One iteration *)

(** The pool fields that the simulation tracks. *)
Definition same_pool (p q : pool) : Prop :=
  p_liquidity p = p_liquidity q /\ p_sqrt_price p = p_sqrt_price q /\ p_current_tick_index p = p_current_tick_index q.

Definition tick_rel (tk : update_pool_tick) (tk' : sdk_update_pool_tick) : Prop :=
  match tk, tk' with
  | NoTick, SdkNoTick => True
  | TickInitialized t, SdkTickInitialized lt => lt = liquidity_tick_of t
  | TickUninitialized i, SdkTickUninitialized j => i = j
  | _, _ => False
  end.

Lemma add_fee_fields p a d f p' : pool_add_fee p a d f = Ok p' -> same_pool p p'.
Proof.
  unfold pool_add_fee. intros H. apply bind_Ok in H as (pp & _ & H). apply bind_Ok in H as (pf & _ & H).
  destruct (_ || _); [injection H as <-; repeat split|].
  apply bind_Ok in H as (g & _ & H). destruct d; apply bind_Ok in H as (f' & _ & H); injection H as <-; repeat split.
Qed.

Lemma cross_fields t p ts t' p' q : tick_cross t p ts = Ok (t', p') -> same_pool p q ->
  exists q', sdk_tick_cross (liquidity_tick_of t) q = Ok q' /\ same_pool p' q' /\ liquidity_tick_of t' = liquidity_tick_of t.
Proof.
  unfold tick_cross, sdk_tick_cross. intros H (E1 & E2 & E3). apply bind_Ok in H as (sec & _ & H).
  cbn [set_last_timestamp p_current_tick_index p_liquidity] in H. cbn [liquidity_tick_of lt_index lt_sign lt_liquidity_change].
  rewrite <- E1, <- E3. destruct (xorb _ _); apply bind_Ok in H as (l & -> & H); injection H as <- <-; cbn [bind];
    eexists; (split; [reflexivity|]); split; [repeat split; cbn; auto|reflexivity|repeat split; cbn; auto|reflexivity].
Qed.

Lemma update_tick_rel p q r lim tk tk' rem bi d ts pf ft p' tk2 x :
  same_pool p q -> tick_rel tk tk' ->
  pool_update_tick p r lim tk rem bi d ts pf ft = Ok (p', tk2, x) ->
  exists q', sdk_pool_update_tick q r lim tk' rem bi d ft = Ok (q', x) /\ same_pool p' q' /\ tick_rel tk2 tk'.
Proof.
  intros SP TR. unfold pool_update_tick, sdk_pool_update_tick.
  assert (EN : match tk' with SdkNoTick => true | _ => false end = match tk with NoTick => true | _ => false end).
  { destruct tk, tk'; try contradiction; reflexivity. }
  rewrite EN. destruct (_ || _).
  - intros H. apply bind_Ok in H as (c & -> & H). injection H as <- <- <-. cbn [bind].
    eexists. split; [reflexivity|]. split; [|exact TR]. destruct SP as (E1 & E2 & E3). repeat split; cbn; auto.
  - intros H. apply bind_Ok in H as (en & He & H).
    assert (He' : unwrap (sdk_is_enough_amount_to_change_price rem (sr_next_sqrt_price r) (p_liquidity q) (ft_fee ft) bi d) = Ok en).
    { destruct SP as (<- & _). exact (refines_unwrap _ _ (sdk_enough _ _ _ _ _ _) _ He). }
    rewrite He'. cbn [bind]. apply bind_Ok in H as (((((( p1 & tk1) & i) & tot) & rem1) & hc) & H1 & H).
    injection H as <- <- <-.
    assert (X : exists q1, match tk' with
      | SdkNoTick => Panic
      | SdkTickInitialized t =>
          if negb d || en then let* p' := sdk_tick_cross t q in Ok (p', lt_index t, 0, rem, true)
          else if negb (rem =? 0) then Ok (q, lt_index t, if bi then rem else 0, 0, false)
          else Ok (q, lt_index t, 0, rem, false)
      | SdkTickUninitialized index => Ok (q, index, 0, rem, false)
      end = Ok (q1, i, tot, rem1, hc) /\ same_pool p1 q1 /\ tick_rel tk1 tk').
    { destruct tk as [|t|j], tk' as [|lt|j']; try contradiction; cbn in TR; subst.
      - discriminate H1.
      - destruct (negb d || en).
        + apply bind_Ok in H1 as ([t' p''] & Hc & H1). apply unwrap_inv in Hc. injection H1 as <- <- <- <- <- <-.
          destruct (cross_fields _ _ _ _ _ _ Hc SP) as (q' & -> & SP' & ET). exists q'. cbn [bind].
          assert (EI : t_index t' = t_index t) by (apply (f_equal lt_index) in ET; exact ET).
          rewrite EI. split; [reflexivity|]. split; [exact SP'|symmetry; exact ET].
        + destruct (negb (rem =? 0)).
          * destruct bi.
            -- apply bind_Ok in H1 as (p'' & Hf & H1). apply unwrap_inv in Hf. injection H1 as <- <- <- <- <- <-.
               apply add_fee_fields in Hf. exists q. split; [reflexivity|]. split; [|reflexivity].
               destruct SP as (? & ? & ?), Hf as (? & ? & ?). repeat split; congruence.
            -- injection H1 as <- <- <- <- <- <-. exists q. split; [reflexivity|]. split; [exact SP|reflexivity].
          * injection H1 as <- <- <- <- <- <-. exists q. split; [reflexivity|]. split; [exact SP|reflexivity].
      - injection H1 as <- <- <- <- <- <-. exists q. split; [reflexivity|]. split; [exact SP|reflexivity]. }
    destruct X as (q1 & -> & SP1 & TR1). cbn [bind]. eexists. split; [reflexivity|]. split; [|exact TR1].
    destruct SP1 as (E1 & E2 & E3). repeat split; cbn; auto.
Qed.

(** Errors of [pool_update_tick] are panics. *)
Lemma update_tick_err p r lim tk rem bi d ts pf ft e : pool_update_tick p r lim tk rem bi d ts pf ft <> Err e.
Proof.
  unfold pool_update_tick. destruct (_ || _).
  - destruct (get_tick_at_sqrt_price _ _); cbn; discriminate.
  - destruct (is_enough_amount_to_change_price _ _ _ _ _ _) as [en| | |]; cbn [unwrap bind]; try discriminate.
    destruct tk as [|t|i]; cbn [bind]; try discriminate.
    destruct (negb d || en); [destruct (tick_cross t p ts) as [[? ?]| | |]; cbn; discriminate|].
    destruct (negb (rem =? 0)); [|cbn; discriminate].
    destruct bi; [destruct (pool_add_fee p rem d pf); cbn; discriminate|cbn; discriminate].
Qed.

Section Iteration.
  Context (s : state) (k : pool_key) (p0 : pool) (m : gmap Z Z) (ticks : list liquidity_tick)
    (d bi : bool) (lim tl ts : Z).
  Hypothesis V : sdk_view d s k p0 m ticks.
  Hypothesis Hidx : forall i t, s_ticks s !! (k, i) = Some t -> t_index t = i.
  Hypothesis Hsp : 1 <= pk_spacing k.

  (** Where the swap stands, and which ticks it can still meet. *)
  Definition sees (i : Z) : Prop := if d then i <= p_current_tick_index p0 else p_current_tick_index p0 <= i.

  Record rel (l : swap_loop_state) (q : sim_loop_state) : Prop := {
    rl_pool : same_pool (l_pool l) (m_pool q);
    rl_rem : m_remaining q = l_remaining l;
    rl_in : m_in q = l_in l;
    rl_out : m_out q = l_out l;
    rl_fee : m_fee q = l_fee l;
    rl_ticks : m_crossed q = map liquidity_tick_of (l_ticks l);
    rl_ins : m_insufficient q = false;
    rl_old : m_outdated q = false;
  }.

  Lemma find_tick i t : s_ticks s !! (k, i) = Some t -> sees i ->
    find (fun lt => lt_index lt =? i) ticks = Some (liquidity_tick_of t).
  Proof using V Hidx.
    intros Ht Hsee. pose proof (Hidx _ _ Ht) as Hi.
    destruct (find (fun lt => lt_index lt =? i) ticks) as [lt|] eqn:E.
    - apply find_some in E as [E1 E2]. apply Z.eqb_eq in E2. apply (sv_true _ _ _ _ _ _ V) in E1 as (t' & E1 & ->).
      rewrite E2 in E1. apply ticks_get_Ok in E1. congruence.
    - exfalso. pose proof (find_none _ _ E (liquidity_tick_of t)) as N.
      cbn [liquidity_tick_of lt_index] in N. rewrite Hi, Z.eqb_refl in N.
      enough (true = false) by discriminate. apply N. apply (sv_all _ _ _ _ _ _ V i t); [apply ticks_get_Ok; exact Ht|exact Hsee].
  Qed.

  Notation sim := (sim_iteration m (pk_fee_tier k) ticks d bi lim tl).

  (** The search finds ticks on the visible side only. *)
  Definition search_sees (l : swap_loop_state) : Prop :=
    sees (p_current_tick_index (l_pool l)) /\
    forall i target, get_closer_limit (s_bitmap s) lim d (p_current_tick_index (l_pool l)) (pk_spacing k) k =
      Ok (target, Some (i, true)) -> sees i.

  Lemma search_eq l : search_sees l ->
    sdk_get_closer_limit m lim d (p_current_tick_index (l_pool l)) (pk_spacing k) =
    get_closer_limit (s_bitmap s) lim d (p_current_tick_index (l_pool l)) (pk_spacing k) k.
  Proof using V Hsp.
    intros [H _]. eapply closer_eq; [exact Hsp|reflexivity|apply (sv_bits _ _ _ _ _ _ V)|exact H].
  Qed.

  Lemma iteration_ok l l' q : rel l q -> search_sees l -> swap_iteration s k d bi lim tl ts l = Ok l' ->
    exists q', rel l' q' /\ m_steps q' = m_steps q + 1 /\ m_max_steps q' = m_max_steps q /\
      sim q = Ok (if MAX_SWAP_STEPS <? m_steps q + 1 then sim_stop MaxSteps q' else q').
  Proof using V Hidx Hsp.
    intros R SS. unfold swap_iteration. intros H.
    destruct R as [(EL & EP & EC) ERM EI EO EF ET EIN EOL].
    apply bind_Ok in H as ([target lt] & H1 & H). apply bind_Ok in H as (r & H2 & H). apply unwrap_inv in H2.
    apply bind_Ok in H as (ipf & H3 & H). apply bind_Ok in H as (rem & H4 & H).
    apply bind_Ok in H as (p1 & H5 & H). apply unwrap_inv in H5.
    apply bind_Ok in H as (fee & H6 & H). apply bind_Ok in H as (tin & H7 & H).
    apply bind_Ok in H as (tout & H8 & H). apply bind_Ok in H as (u & H9 & H). apply fail_if_Ok in H9.
    apply bind_Ok in H as (tk & H10 & H). apply bind_Ok in H as ([[p2 tk2] [[add rem2] hc]] & H11 & H).
    apply bind_Ok in H as (tin2 & H12 & H). apply bind_Ok in H as (u2 & H13 & H). apply fail_if_Ok in H13.
    injection H as <-.
    unfold sim_iteration. change (ft_tick_spacing (pk_fee_tier k)) with (pk_spacing k). change (ft_fee (pk_fee_tier k)) with (pk_fee k).
    rewrite <- EC, (search_eq l SS), H1.
    rewrite <- EP, <- EL, ERM, (sdk_step _ _ _ _ _ _ _ H2). cbn [bind]. rewrite H3. cbn [bind]. rewrite H4. cbn [bind].
    rewrite EF, H6. cbn [bind]. rewrite EI, H7. cbn [bind]. rewrite EO, H8. cbn [bind].
    apply add_fee_fields in H5 as (FL & FP & FC).
    cbn [set_sqrt_price p_sqrt_price] in H9 |- *. rewrite H9.
    assert (X : exists tk', match lt with
        | Some (tick_index, true) => option_map SdkTickInitialized (find (fun t => lt_index t =? tick_index) ticks)
        | Some (tick_index, false) => Some (SdkTickUninitialized tick_index)
        | None => Some SdkNoTick end = Some tk' /\ tick_rel tk tk').
    { destruct lt as [[i [|]]|].
      - apply bind_Ok in H10 as (t & Ht & H10). injection H10 as <-. apply ticks_get_Ok in Ht.
        rewrite (find_tick _ _ Ht (proj2 SS _ _ H1)). cbn. eexists. split; [reflexivity|reflexivity].
      - injection H10 as <-. eexists. split; [reflexivity|reflexivity].
      - injection H10 as <-. eexists. split; [reflexivity|exact Logic.I]. }
    destruct X as (tk' & -> & TR).
    destruct (update_tick_rel (set_sqrt_price (sr_next_sqrt_price r) p1) (set_sqrt_price (sr_next_sqrt_price r) (m_pool q))
      _ _ _ _ _ _ _ _ _ _ _ _ _ (conj (eq_trans (eq_sym FL) EL) (conj eq_refl (eq_trans (eq_sym FC) EC))) TR H11)
      as (q2 & HQ & (GL & GP & GC) & TR2).
    unfold set_sqrt_price in HQ |- *. rewrite HQ. rewrite H12. cbn [bind].
    rewrite <- GC, H13.
    eexists (mkSim q2 rem2 tin2 tout fee _ (m_steps q + 1) (m_insufficient q) (m_max_steps q) (m_outdated q)).
    split; [|split; [reflexivity|split; [reflexivity|]]].
    2: { match goal with |- (if ?c then _ else _) = _ => destruct c end; reflexivity. }
    split; cbn; auto.
    - repeat split; auto.
    - rewrite ET. destruct tk2 as [|t|i], tk' as [|lt'|i']; try contradiction; try reflexivity.
      cbn in TR2. subst lt'. destruct hc; [rewrite map_app; reflexivity|reflexivity].
  Qed.

  Lemma iteration_err l e q : rel l q -> search_sees l ->
    swap_iteration s k d bi lim tl ts l = Err e ->
    ((exists i target, get_closer_limit (s_bitmap s) lim d (p_current_tick_index (l_pool l)) (pk_spacing k) k =
        Ok (target, Some (i, true)) /\ s_ticks s !! (k, i) = None) \/
     ((e = PriceLimitReached \/ e = TickLimitReached) /\
      exists q', sim q = Ok q' /\ m_insufficient q' = true /\ m_max_steps q' = m_max_steps q)).
  Proof using V Hidx Hsp.
    intros R SS. unfold swap_iteration. intros H.
    destruct R as [(EL & EP & EC) ERM EI EO EF ET EIN EOL].
    unfold sim_iteration. change (ft_tick_spacing (pk_fee_tier k)) with (pk_spacing k). change (ft_fee (pk_fee_tier k)) with (pk_fee k).
    rewrite <- EC, (search_eq l SS).
    destruct (get_closer_limit (s_bitmap s) lim d (p_current_tick_index (l_pool l)) (pk_spacing k) k) as [[target lt]|e1| |] eqn:H1;
      cbn [bind] in H; try discriminate.
    2: { injection H as ->. apply closer_err in H1. right. split; [auto|]. eexists. split; [reflexivity|]. split; reflexivity. }
    destruct (compute_swap_step (p_sqrt_price (l_pool l)) target (p_liquidity (l_pool l)) (l_remaining l) bi (pk_fee k)) as [r| | |] eqn:H2;
      cbn [bind unwrap] in H; try discriminate.
    rewrite <- EP, <- EL, ERM, (sdk_step _ _ _ _ _ _ _ H2). cbn [bind].
    destruct (dec_add M256 (sr_amount_in r) (sr_fee_amount r)) as [ipf| | |] eqn:H3; cbn [bind] in H |- *; try discriminate.
    2: { unfold dec_add, expect in H3. destruct (checked_add _ _ _); discriminate. }
    assert (NS : forall x y e0, dec_sub x y <> Err e0) by (intros x y e0; unfold dec_sub, expect; destruct (checked_sub _ _); discriminate).
    assert (NA : forall x y e0, dec_add M256 x y <> Err e0) by (intros x y e0; unfold dec_add, expect; destruct (checked_add _ _ _); discriminate).
    destruct (if bi then dec_sub (l_remaining l) ipf else dec_sub (l_remaining l) (sr_amount_out r)) as [rem|e1| |] eqn:H4;
      cbn [bind] in H |- *; try discriminate.
    2: { exfalso. destruct bi; eapply NS; eauto. }
    destruct (pool_add_fee (l_pool l) (sr_fee_amount r) d (s_protocol_fee s)) as [p1| | |] eqn:H5; cbn [bind unwrap] in H; try discriminate.
    rewrite EF. destruct (dec_add M256 (l_fee l) (sr_fee_amount r)) as [fee|e1| |] eqn:H6; cbn [bind] in H |- *; try discriminate.
    2: { exfalso. eapply NA; eauto. }
    rewrite EI. destruct (dec_add M256 (l_in l) ipf) as [tin|e1| |] eqn:H7; cbn [bind] in H |- *; try discriminate.
    2: { exfalso. eapply NA; eauto. }
    rewrite EO. destruct (dec_add M256 (l_out l) (sr_amount_out r)) as [tout|e1| |] eqn:H8; cbn [bind] in H |- *; try discriminate.
    2: { exfalso. eapply NA; eauto. }
    cbn [set_sqrt_price p_sqrt_price] in H |- *.
    destruct ((sr_next_sqrt_price r =? lim) && negb (rem =? 0)) eqn:H9; cbn [fail_if bind] in H.
    { injection H as <-. right. split; [auto|]. eexists. split; [reflexivity|]. split; reflexivity. }
    apply add_fee_fields in H5 as (FL & FP & FC).
    destruct (match lt with
      | Some (tick_index, true) => let* t := ticks_get s k tick_index in Ok (TickInitialized t)
      | Some (tick_index, false) => Ok (TickUninitialized tick_index)
      | None => Ok NoTick end) as [tk|e1| |] eqn:H10; cbn [bind] in H; try discriminate.
    2: { injection H as <-. left. destruct lt as [[i [|]]|]; try discriminate.
         unfold ticks_get in H10. destruct (s_ticks s !! (k, i)) eqn:Et; cbn in H10; [discriminate|]. eauto. }
    assert (X : exists tk', match lt with
        | Some (tick_index, true) => option_map SdkTickInitialized (find (fun t => lt_index t =? tick_index) ticks)
        | Some (tick_index, false) => Some (SdkTickUninitialized tick_index)
        | None => Some SdkNoTick end = Some tk' /\ tick_rel tk tk').
    { destruct lt as [[i [|]]|].
      - apply bind_Ok in H10 as (t & Ht & H10). injection H10 as <-. apply ticks_get_Ok in Ht.
        rewrite (find_tick _ _ Ht (proj2 SS _ _ H1)). cbn. eexists. split; [reflexivity|reflexivity].
      - injection H10 as <-. eexists. split; [reflexivity|reflexivity].
      - injection H10 as <-. eexists. split; [reflexivity|exact Logic.I]. }
    destruct X as (tk' & -> & TR).
    change (mkPool (p_liquidity p1) (sr_next_sqrt_price r) (p_current_tick_index p1) (p_fee_growth_global_x p1)
      (p_fee_growth_global_y p1) (p_fee_protocol_token_x p1) (p_fee_protocol_token_y p1) (p_start_timestamp p1)
      (p_last_timestamp p1) (p_fee_receiver p1)) with (set_sqrt_price (sr_next_sqrt_price r) p1) in H.
    destruct (pool_update_tick (set_sqrt_price (sr_next_sqrt_price r) p1) r target tk rem bi d ts (s_protocol_fee s) (pk_fee_tier k))
      as [[[p2 tk2] [[add rem2] hc]]|e1| |] eqn:H11; cbn [bind] in H; try discriminate.
    2: { exfalso. eapply update_tick_err; eauto. }
    destruct (update_tick_rel (set_sqrt_price (sr_next_sqrt_price r) p1) (set_sqrt_price (sr_next_sqrt_price r) (m_pool q))
      _ _ _ _ _ _ _ _ _ _ _ _ _ (conj (eq_trans (eq_sym FL) EL) (conj eq_refl (eq_trans (eq_sym FC) EC))) TR H11)
      as (q2 & HQ & (GL & GP & GC) & TR2).
    unfold set_sqrt_price in HQ |- *. rewrite HQ.
    destruct (dec_add M256 tin add) as [tin2|e1| |] eqn:H12; cbn [bind] in H |- *; try discriminate.
    2: { exfalso. eapply NA; eauto. }
    rewrite <- GC.
    match type of H with context [fail_if ?c _] => destruct c eqn:H13 end; cbn [fail_if bind] in H; [|discriminate].
    injection H as <-. right. split; [auto|]. eexists. split; [reflexivity|]. split; reflexivity.
  Qed.
End Iteration.

(** ** The loops *)

Section Loops.
  Context (s : state) (k : pool_key) (p0 : pool) (m : gmap Z Z) (ticks : list liquidity_tick)
    (d bi : bool) (lim tl ts a : Z).
  Hypothesis V : sdk_view d s k p0 m ticks.
  Hypothesis I : Inv s.
  Hypothesis Ha : u256 a.
  Hypothesis Htl : (if d then get_min_tick (pk_spacing k) else get_max_tick (pk_spacing k)) = Ok tl.

  Lemma view_index i t : s_ticks s !! (k, i) = Some t -> t_index t = i.
  Proof using I. intros Ht. destruct (I_tick _ I _ _ _ Ht) as [_ T]. apply (to_index _ _ _ _ T). Qed.

  Lemma view_pool : s_pools s !! k = Some p0.
  Proof using V. apply pools_get_Ok, V. Qed.

  Lemma tick_found l i target : linv s k d bi lim p0 l -> l_remaining l <> 0 ->
    get_closer_limit (s_bitmap s) lim d (p_current_tick_index (l_pool l)) (pk_spacing k) k = Ok (target, Some (i, true)) ->
    s_ticks s !! (k, i) <> None.
  Proof using I V.
    clear Htl. intros L Hnz E.
    pose proof (I_pool _ (v_inv _ _ _ _ _ _ _ L) _ _ (mid_pool s k l)) as PO. pose proof (pool_spacing _ _ PO) as Hs.
    assert (HI : init (s_bitmap s) k (pk_spacing k) i).
    { destruct d.
      - pose proof (get_closer_limit_down (s_bitmap s) k (pk_spacing k) lim (p_current_tick_index (l_pool l)) (I_wf _ I) ltac:(lia) (po_tick _ _ PO)) as C.
        rewrite E in C. inversion C; subst; auto.
      - pose proof (get_closer_limit_up (s_bitmap s) k (pk_spacing k) lim (p_current_tick_index (l_pool l)) (I_wf _ I) ltac:(lia) (po_tick _ _ PO)) as C.
        rewrite E in C. inversion C; subst; auto. }
    apply (Inv_init s k p0 i I view_pool) in HI as [t Ht]. congruence.
  Qed.

  Lemma view_spacing : 1 <= pk_spacing k.
  Proof using I V. clear Htl. pose proof (pool_spacing _ _ (I_pool _ I _ _ view_pool)). lia. Qed.

  Lemma linv_sees l : linv s k d bi lim p0 l -> l_remaining l <> 0 -> search_sees s k p0 d lim l.
  Proof using I V.
    clear Htl. intros L Hnz. pose proof (v_dir _ _ _ _ _ _ _ L Hnz) as HD. unfold cur in HD.
    pose proof (I_pool _ (v_inv _ _ _ _ _ _ _ L) _ _ (mid_pool s k l)) as PO. pose proof (pool_spacing _ _ PO) as Hs.
    assert (HS : sees p0 d (p_current_tick_index (l_pool l))) by (unfold sees; destruct d; exact HD).
    split; [exact HS|]. intros i target E. unfold sees in *. destruct d.
    - pose proof (get_closer_limit_down (s_bitmap s) k (pk_spacing k) lim (p_current_tick_index (l_pool l)) (I_wf _ I) ltac:(lia) (po_tick _ _ PO)) as C.
      rewrite E in C. inversion C; subst; lia.
    - pose proof (get_closer_limit_up (s_bitmap s) k (pk_spacing k) lim (p_current_tick_index (l_pool l)) (I_wf _ I) ltac:(lia) (po_tick _ _ PO)) as C.
      rewrite E in C. inversion C; subst; lia.
  Qed.

  Notation finished := (fun l => l_remaining l =? 0).
  Notation body := (swap_iteration s k d bi lim tl ts).
  Notation sfinished := (fun q => (m_remaining q =? 0) || sim_stopped q).
  Notation sbody := (sim_iteration m (pk_fee_tier k) ticks d bi lim tl).

  Lemma linv_next l l' : linv s k d bi lim p0 l -> l_remaining l <> 0 -> body l = Ok l' -> linv s k d bi lim p0 l'.
  Proof using I V Htl.
    intros L Hnz Hb.
    destruct (iteration_facts s k d bi lim tl ts p0 l l' I view_pool (linv_ready s k d bi lim p0 l L Hnz) Hnz Htl Hb)
      as (target & r & p1 & S & E & PO1 & PO' & Hpr & Hl).
    eapply linv_step; eauto. apply view_pool.
  Qed.

  Lemma not_stopped l q : rel l q -> m_max_steps q = false -> sfinished q = finished l.
  Proof using.
    intros R Hm. unfold sim_stopped. rewrite (rl_ins _ _ R), (rl_old _ _ R), Hm, (rl_rem _ _ R). apply orb_false_r.
  Qed.

  Lemma takes_err_pos n l e : takes finished body n l (Err e) -> (1 <= n)%nat.
  Proof using. inversion 1; lia. Qed.

  Lemma err_kind n l r : takes finished body n l r -> forall e, r = Err e -> linv s k d bi lim p0 l ->
    e = PriceLimitReached \/ e = TickLimitReached.
  Proof using I V Htl.
    induction 1 as [l Ef|l r Ef Eb Hn|n l l' r Ef Eb T IH]; intros e He L; [discriminate| |].
    - rewrite He in Eb. apply Z.eqb_neq in Ef as Hnz.
      assert (R : rel l (mkSim (l_pool l) (l_remaining l) (l_in l) (l_out l) (l_fee l) (map liquidity_tick_of (l_ticks l)) 0 false false false)).
      { split; cbn; auto. repeat split. }
      destruct (iteration_err s k p0 m ticks d bi lim tl ts V view_index view_spacing l e _ R (linv_sees l L Hnz) Eb) as [(i & target & Hc & Ht)|(Hk & _)]; [|exact Hk].
      exfalso. eapply tick_found; eauto.
    - apply Z.eqb_neq in Ef as Hnz. apply (IH e He). eapply linv_next; eauto.
  Qed.

  Lemma loops n l r : takes finished body n l r -> forall q, linv s k d bi lim p0 l -> rel l q -> m_max_steps q = false ->
    m_steps q <= MAX_SWAP_STEPS ->
    match r with
    | Ok l' =>
        exists n' q', takes sfinished sbody n' q (Ok q') /\ (n' <= n)%nat /\
          (m_steps q + Z.of_nat n <= MAX_SWAP_STEPS -> rel l' q' /\ m_max_steps q' = false) /\
          (MAX_SWAP_STEPS < m_steps q + Z.of_nat n -> m_max_steps q' = true /\ m_insufficient q' = false /\ m_outdated q' = false)
    | Err e =>
        exists n' q', takes sfinished sbody n' q (Ok q') /\ (n' <= n)%nat /\
          (m_steps q + Z.of_nat n <= MAX_SWAP_STEPS + 1 -> m_insufficient q' = true /\ m_max_steps q' = false) /\
          (MAX_SWAP_STEPS + 1 < m_steps q + Z.of_nat n -> m_max_steps q' = true /\ m_insufficient q' = false)
    | _ => True
    end.
  Proof using I V Htl.
    induction 1 as [l Ef|l r Ef Eb Hn|n l l' r Ef Eb T IH]; intros q L R Hm Hs.
    - exists O, q. split; [constructor; rewrite (not_stopped l q); auto|]. split; [lia|]. split; [auto|lia].
    - apply Z.eqb_neq in Ef as Hnz. destruct r as [l'|e| |]; [edestruct Hn; eauto| |exact Logic.I|exact Logic.I].
      destruct (iteration_err s k p0 m ticks d bi lim tl ts V view_index view_spacing l e q R (linv_sees l L Hnz) Eb) as [(i & target & Hc & Ht)|(He & q' & Hq & Hi & Hx)].
      + exfalso. eapply tick_found; eauto.
      + exists 1%nat, q'. split; [|split; [lia|]].
        * eapply takes_next; [rewrite (not_stopped l q); auto|exact Hq|]. constructor. unfold sim_stopped. rewrite Hi. apply orb_true_r.
        * split; [|lia]. intros _. split; [exact Hi|congruence].
    - apply Z.eqb_neq in Ef as Hnz. pose proof (linv_next l l' L Hnz Eb) as L'.
      destruct (iteration_ok s k p0 m ticks d bi lim tl ts V view_index view_spacing l l' q R (linv_sees l L Hnz) Eb) as (q' & R' & Hst & Hmx & Hq).
      assert (Ef' : sfinished q = false) by (rewrite (not_stopped l q); auto).
      destruct (Z.ltb_spec MAX_SWAP_STEPS (m_steps q + 1)) as [Hlt|Hle].
      + assert (TS : takes sfinished sbody 1 q (Ok (sim_stop MaxSteps q'))).
        { eapply takes_next; [exact Ef'|exact Hq|]. constructor. unfold sim_stopped. cbn. rewrite orb_true_r. apply orb_true_r. }
        destruct r as [l2|e| |]; try exact Logic.I.
        * exists 1%nat, (sim_stop MaxSteps q'). split; [exact TS|]. split; [lia|]. split; [lia|]. intros _. cbn.
          split; [reflexivity|]. split; [apply R'|apply R'].
        * apply takes_err_pos in T. exists 1%nat, (sim_stop MaxSteps q'). split; [exact TS|]. split; [lia|]. split; [lia|].
          intros _. split; [reflexivity|apply R'].
      + specialize (IH q' L' R' ltac:(congruence) ltac:(lia)). rewrite Hst in IH.
        destruct r as [l2|e| |]; try exact Logic.I.
        * destruct IH as (n' & q2 & T2 & Hn' & A & B). exists (S n'), q2.
          split; [eapply takes_next; eauto|]. split; [lia|]. split; intros; [apply A; lia|apply B; lia].
        * destruct IH as (n' & q2 & T2 & Hn' & A & B). exists (S n'), q2.
          split; [eapply takes_next; eauto|]. split; [lia|]. split; intros; [apply A; lia|apply B; lia].
  Qed.
End Loops.


(** ** The whole simulation *)

Definition sim_done (q : sim_loop_state) : bool := (m_remaining q =? 0) || sim_stopped q.
Definition sim_start (p : pool) (a : Z) : sim_loop_state := mkSim p a 0 0 0 [] 0 false false false.
Definition sim_report (p : pool) (q : sim_loop_state) : simulate_swap_result :=
  mkSimResult (m_in q) (m_out q) (m_fee q) (p_sqrt_price p) (p_sqrt_price (m_pool q))
    (m_crossed q) (m_insufficient q) (m_max_steps q) (m_outdated q).

(** It cannot run for ever, whatever it is given. *)
Create HintDb noloop.
#[local] Hint Resolve calculate_sqrt_price_noloop get_tick_at_noloop : noloop.
Lemma sdk_next_loop_noloop b sp lc lb n : forall c t, sdk_next_loop b sp lc lb n c t <> Loop.
Proof. induction n as [|n IH]; cbn [sdk_next_loop]; intros; [discriminate|]. cbv zeta. noloop; try apply IH. Qed.
#[local] Hint Resolve sdk_next_loop_noloop : noloop.
Lemma sdk_prev_loop_noloop b sp lc lb n : forall c t, sdk_prev_loop b sp lc lb n c t <> Loop.
Proof. induction n as [|n IH]; cbn [sdk_prev_loop]; intros; [discriminate|]. cbv zeta. noloop; try apply IH. Qed.
#[local] Hint Resolve sdk_prev_loop_noloop : noloop.
Lemma sdk_closer_noloop b lim d c sp : sdk_get_closer_limit b lim d c sp <> Loop.
Proof. unfold sdk_get_closer_limit, sdk_next_initialized, sdk_prev_initialized. noloop. Qed.
Lemma res_or_noloop {A} (r : res A) d : r <> Loop -> res_or r d <> Loop.
Proof. destruct r; cbn; congruence. Qed.
Ltac noloop_or := repeat first
  [ assumption | discriminate | solve [auto 2 with noloop nocore] | apply res_or_noloop
  | apply unwrap_noloop | apply map_err_noloop | apply ok_or_noloop | apply expect_noloop | apply fail_if_noloop
  | apply bind_noloop; [|intros ? _]
  | progress cbv zeta
  | match goal with |- context [match ?x with _ => _ end] => is_var x; destruct x end
  | match goal with |- ?t <> Loop => match t with match ?x with _ => _ end => destruct x end end
  | match goal with |- ?t <> Loop => let h := head_of t in progress unfold h end ].
Lemma sdk_step_noloop p t L a bi f : sdk_compute_swap_step p t L a bi f <> Loop.
Proof. unfold sdk_compute_swap_step. noloop_or. Qed.
Lemma sdk_update_noloop p r lim tk rem bi d ft : sdk_pool_update_tick p r lim tk rem bi d ft <> Loop.
Proof. unfold sdk_pool_update_tick. noloop_or. Qed.

Lemma sim_iteration_noloop m ft ticks d bi lim tl q : sim_iteration m ft ticks d bi lim tl q <> Loop.
Proof.
  unfold sim_iteration. destruct (sdk_get_closer_limit _ _ _ _ _) as [[target lt]| | |] eqn:E; try discriminate.
  2: { edestruct sdk_closer_noloop; eauto. }
  apply bind_noloop; [apply sdk_step_noloop|intros r _]. cbv zeta.
  apply bind_noloop; [noloop|intros ipf _]. apply bind_noloop; [noloop|intros rem _].
  apply bind_noloop; [noloop|intros fee _]. apply bind_noloop; [noloop|intros tin _].
  apply bind_noloop; [noloop|intros tout _]. destruct (_ && _); [discriminate|].
  destruct (match lt with None => _ | _ => _ end) as [tk|]; [|discriminate].
  destruct (sdk_pool_update_tick _ _ _ _ _ _ _ _) as [[p2 [[add rem2] hc]]| | |] eqn:E2; try discriminate.
  2: { edestruct sdk_update_noloop; eauto. }
  apply bind_noloop; [noloop|intros tin2 _]. destruct (if d then _ else _); [discriminate|].
  destruct (_ <? _); discriminate.
Qed.

Lemma sim_iteration_steps m ft ticks d bi lim tl q q' : sim_iteration m ft ticks d bi lim tl q = Ok q' ->
  sim_stopped q' = true \/ (m_steps q' = m_steps q + 1 /\ m_steps q' <= MAX_SWAP_STEPS).
Proof.
  assert (S : forall b x, sim_stopped (sim_stop b x) = true).
  { intros b x. unfold sim_stopped. destruct b; cbn; rewrite ?orb_true_r; reflexivity. }
  unfold sim_iteration. destruct (sdk_get_closer_limit _ _ _ _ _) as [[target lt]| | |] eqn:E; try discriminate.
  2: { intros [= <-]. left. apply S. }
  intros H. apply bind_Ok in H as (r & _ & H). cbv zeta in H.
  apply bind_Ok in H as (ipf & _ & H). apply bind_Ok in H as (rem & _ & H).
  apply bind_Ok in H as (fee & _ & H). apply bind_Ok in H as (tin & _ & H).
  apply bind_Ok in H as (tout & _ & H). destruct (_ && _); [injection H as <-; left; apply S|].
  destruct (match lt with None => _ | _ => _ end) as [tk|]; [|injection H as <-; left; apply S].
  destruct (sdk_pool_update_tick _ _ _ _ _ _ _ _) as [[p2 [[add rem2] hc]]| | |] eqn:E2; try discriminate.
  2: { injection H as <-. left. apply S. }
  apply bind_Ok in H as (tin2 & _ & H). destruct (if d then _ else _); [injection H as <-; left; apply S|].
  destruct (Z.ltb_spec MAX_SWAP_STEPS (m_steps q + 1)); [injection H as <-; left; apply S|].
  injection H as <-. right. cbn. lia.
Qed.

Lemma sim_takes m ft ticks d bi lim tl p a :
  exists j r, takes sim_done (sim_iteration m ft ticks d bi lim tl) j (sim_start p a) r /\
    Z.of_nat j <= MAX_SWAP_STEPS + 1 /\ r <> Loop.
Proof.
  assert (HM : 0 <= MAX_SWAP_STEPS + 1) by (vm_compute; discriminate).
  rewrite <- (Z2Nat.id (MAX_SWAP_STEPS + 1)) by exact HM.
  apply (takes_measure sim_done (sim_iteration m ft ticks d bi lim tl)
    (fun q => sim_done q = false -> m_steps q <= MAX_SWAP_STEPS) (fun q => MAX_SWAP_STEPS - m_steps q)).
  - intros q q' _ _ Hb. apply sim_iteration_steps in Hb as [Hb|[Hb Hc]].
    + unfold sim_done. rewrite Hb, orb_true_r. split; discriminate.
    + split; intros _; lia.
  - intros q Hq Hf. specialize (Hq Hf). lia.
  - intros. apply sim_iteration_noloop.
  - intros _. vm_compute. discriminate.
  - intros _. rewrite Z2Nat.id by exact HM. cbn [sim_start m_steps]. lia.
Qed.

Lemma max_small : MAX_SWAP_STEPS + 1 < 2 ^ 100.
Proof. reflexivity. Qed.

(** The simulation in terms of its loop. *)
Lemma simulate_eq m ft p ticks (d : bool) a bi lim tl n r : a <> 0 ->
  (if d then lim < p_sqrt_price p /\ lim <= MAX_SQRT_PRICE else p_sqrt_price p < lim /\ MIN_SQRT_PRICE <= lim) ->
  (if d then get_min_tick (ft_tick_spacing ft) else get_max_tick (ft_tick_spacing ft)) = Ok tl ->
  takes sim_done (sim_iteration m ft ticks d bi lim tl) n (sim_start p a) r -> Z.of_nat n < 2 ^ 100 ->
  simulate_invariant_swap m ft p ticks d a bi lim = let* q := r in Ok (sim_report p q).
Proof.
  intros Ha Hl Ht T Hn. unfold simulate_invariant_swap. replace (a =? 0) with false by lia. cbn [fail_if bind].
  assert (E : (if d then (p_sqrt_price p <=? lim) || (MAX_SQRT_PRICE <? lim)
               else (lim <=? p_sqrt_price p) || (lim <? MIN_SQRT_PRICE)) = false).
  { destruct d; apply orb_false_iff; split; lia. }
  rewrite E. cbn [fail_if bind]. rewrite Ht. cbn [bind].
  pose proof (while_takes _ _ _ _ _ T Hn) as W. unfold sim_done, sim_start in W. rewrite W. reflexivity.
Qed.

Lemma simulate_noloop m ft p ticks d a bi lim : simulate_invariant_swap m ft p ticks d a bi lim <> Loop.
Proof.
  unfold simulate_invariant_swap. apply bind_noloop; [apply fail_if_noloop|intros _ _].
  apply bind_noloop; [apply fail_if_noloop|intros _ _]. apply bind_noloop; [noloop|intros tl Htl].
  destruct (sim_takes m ft ticks d bi lim tl p a) as (j & r & T & Hj & Hr).
  pose proof max_small. apply while_takes in T; [|lia]. unfold sim_done, sim_start in T. rewrite T.
  apply bind_noloop; [auto|discriminate].
Qed.

Lemma swap_limit_ok (d : bool) lim p :
  (if d then (p_sqrt_price p <=? lim) || (MAX_SQRT_PRICE <? lim)
   else (lim <=? p_sqrt_price p) || (lim <? MIN_SQRT_PRICE)) = false ->
  if d then lim < p_sqrt_price p /\ lim <= MAX_SQRT_PRICE else p_sqrt_price p < lim /\ MIN_SQRT_PRICE <= lim.
Proof. destruct d; intros H; apply orb_false_iff in H as [? ?]; lia. Qed.

Section Whole.
  Context (s : state) (k : pool_key) (p0 : pool) (m : gmap Z Z) (ticks : list liquidity_tick)
    (d bi : bool) (lim ts a : Z).
  Hypothesis V : sdk_view d s k p0 m ticks.
  Hypothesis I : Inv s.
  Hypothesis Ha : u256 a.

  Notation sim := (simulate_invariant_swap m (pk_fee_tier k) p0 ticks d a bi lim).

  Lemma start_rel : rel (mkLoop p0 a 0 0 0 []) (sim_start p0 a).
  Proof using. split; cbn; auto. repeat split. Qed.

  (** A number of iterations and what becomes of the simulation. *)
  Lemma simulate_ok tl n l : a <> 0 ->
    (if d then lim < p_sqrt_price p0 /\ lim <= MAX_SQRT_PRICE else p_sqrt_price p0 < lim /\ MIN_SQRT_PRICE <= lim) ->
    (if d then get_min_tick (pk_spacing k) else get_max_tick (pk_spacing k)) = Ok tl ->
    takes (fun l => l_remaining l =? 0) (swap_iteration s k d bi lim tl ts) n (mkLoop p0 a 0 0 0 []) (Ok l) ->
    Z.of_nat n < 2 ^ 100 ->
    exists r', sim = Ok r' /\
      (Z.of_nat n <= MAX_SWAP_STEPS ->
        reports r' (mkSwapOut (l_in l) (l_out l) (p_sqrt_price p0) (p_sqrt_price (l_pool l)) (l_fee l) (l_pool l) (l_ticks l))) /\
      (MAX_SWAP_STEPS < Z.of_nat n -> sim_max_swap_steps_reached r' = true /\
        sim_global_insufficient_liquidity r' = false /\ sim_state_outdated r' = false).
  Proof using V I Ha.
    intros Hz HL Htl T Hn.
    assert (HD : dirP d (lim < p_sqrt_price p0) (p_sqrt_price p0 < lim)) by (destruct d; apply HL).
    assert (L : linv s k d bi lim p0 (mkLoop p0 a 0 0 0 [])) by (apply linv_start; auto; eapply view_pool; eauto).
    pose proof (loops s k p0 m ticks d bi lim tl ts V I Htl n _ _ T (sim_start p0 a) L start_rel eq_refl) as X.
    destruct X as (n' & q' & T' & Hn' & A & B); [vm_compute; discriminate|].
    pose proof (simulate_eq m (pk_fee_tier k) p0 ticks d a bi lim tl n' (Ok q') Hz HL Htl T' ltac:(lia)) as E.
    exists (sim_report p0 q'). split; [exact E|]. cbn [sim_start m_steps] in A, B. split.
    - intros Hs. destruct (A ltac:(lia)) as [R Hm]. destruct R as [(EL & EP & EC) ERM EI EO EF ET EIN EOL].
      split; cbn; auto.
    - intros Hs. exact (B ltac:(lia)).
  Qed.

  Lemma simulate_err tl n e : a <> 0 ->
    (if d then lim < p_sqrt_price p0 /\ lim <= MAX_SQRT_PRICE else p_sqrt_price p0 < lim /\ MIN_SQRT_PRICE <= lim) ->
    (if d then get_min_tick (pk_spacing k) else get_max_tick (pk_spacing k)) = Ok tl ->
    takes (fun l => l_remaining l =? 0) (swap_iteration s k d bi lim tl ts) n (mkLoop p0 a 0 0 0 []) (Err e) ->
    Z.of_nat n < 2 ^ 100 ->
    (e = PriceLimitReached \/ e = TickLimitReached) /\
    exists r', sim = Ok r' /\
      (Z.of_nat n <= MAX_SWAP_STEPS + 1 -> sim_global_insufficient_liquidity r' = true /\ sim_max_swap_steps_reached r' = false) /\
      (MAX_SWAP_STEPS + 1 < Z.of_nat n -> sim_max_swap_steps_reached r' = true).
  Proof using V I Ha.
    intros Hz HL Htl T Hn.
    assert (HD : dirP d (lim < p_sqrt_price p0) (p_sqrt_price p0 < lim)) by (destruct d; apply HL).
    assert (L : linv s k d bi lim p0 (mkLoop p0 a 0 0 0 [])) by (apply linv_start; auto; eapply view_pool; eauto).
    split; [eapply err_kind; eauto|].
    pose proof (loops s k p0 m ticks d bi lim tl ts V I Htl n _ _ T (sim_start p0 a) L start_rel eq_refl) as X.
    destruct X as (n' & q' & T' & Hn' & A & B); [vm_compute; discriminate|].
    pose proof (simulate_eq m (pk_fee_tier k) p0 ticks d a bi lim tl n' (Ok q') Hz HL Htl T' ltac:(lia)) as E.
    exists (sim_report p0 q'). split; [exact E|]. cbn [sim_start m_steps] in A, B.
    split; intros Hs; [exact (A ltac:(lia))|apply B; lia].
  Qed.

  (** The contract's calculation, case by case. *)
  Lemma simulate_cases : match calculate_swap s ts k d a bi lim with
    | Ok r => exists r', sim = Ok r' /\ (reports r' r \/
        (sim_max_swap_steps_reached r' = true /\ sim_global_insufficient_liquidity r' = false /\ sim_state_outdated r' = false))
    | Err e =>
        (e = AmountIsZero \/ e = WrongLimit) /\ (exists e', sim = Err e') \/
        (e = PriceLimitReached \/ e = TickLimitReached) /\
          (exists r', sim = Ok r' /\ (sim_global_insufficient_liquidity r' = true \/ sim_max_swap_steps_reached r' = true)) \/
        e = NoGainSwap /\ (exists r', sim = Ok r' /\ (sim_amount_out r' = 0 \/ sim_max_swap_steps_reached r' = true))
    | _ => True
    end.
  Proof using V I Ha.
    unfold calculate_swap. destruct (Z.eqb_spec a 0) as [E0|E0].
    { cbn [fail_if bind]. left. split; [auto|]. exists ETrack. unfold simulate_invariant_swap. rewrite E0. reflexivity. }
    cbn [fail_if bind]. rewrite (sv_pool _ _ _ _ _ _ V). cbn [bind].
    match goal with |- context [fail_if ?c _] => destruct c eqn:EL end; cbn [fail_if bind].
    { left. split; [auto|]. exists ETrack. unfold simulate_invariant_swap. replace (a =? 0) with false by lia.
      cbn [fail_if bind]. rewrite EL. reflexivity. }
    apply swap_limit_ok in EL as HL.
    destruct (if d then get_min_tick (pk_spacing k) else get_max_tick (pk_spacing k)) as [tl| | |] eqn:Htl; cbn [bind]; auto.
    2: { unfold get_min_tick, get_max_tick, i32_div in Htl. destruct d; destruct (pk_spacing k =? 0); cbn in Htl; discriminate. }
    assert (HD : dirP d (lim < p_sqrt_price p0) (p_sqrt_price p0 < lim)) by (destruct d; apply HL).
    destruct (swap_takes s k d bi lim tl ts a p0 I (view_pool s k p0 m ticks d V) Ha Htl HD) as (j & r & T & Hj & Hr).
    assert (Hj2 : Z.of_nat j < 2 ^ 100)
      by (assert (iteration_bound d bi < 2 ^ 100) by (unfold iteration_bound; destruct (d || bi); lia); lia).
    pose proof (while_takes _ _ _ _ _ T Hj2) as W. unfold loop_start in W, T. rewrite W.
    destruct r as [l|e| |]; cbn [bind]; auto.
    - destruct (simulate_ok tl j l E0 HL Htl T Hj2) as (r' & E & A & B).
      destruct (Z.eqb_spec (l_out l) 0) as [Ez|Ez]; cbn [fail_if bind].
      + right. right. split; [reflexivity|]. exists r'. split; [exact E|].
        destruct (Z_le_gt_dec (Z.of_nat j) MAX_SWAP_STEPS) as [Hs|Hs].
        * left. rewrite (rp_out _ _ (A Hs)). exact Ez.
        * right. apply B. lia.
      + exists r'. split; [exact E|]. destruct (Z_le_gt_dec (Z.of_nat j) MAX_SWAP_STEPS) as [Hs|Hs]; [left; apply A; lia|right; apply B; lia].
    - right. left. destruct (simulate_err tl j e E0 HL Htl T Hj2) as (He & r' & E & A & B). split; [exact He|].
      exists r'. split; [exact E|]. destruct (Z_le_gt_dec (Z.of_nat j) (MAX_SWAP_STEPS + 1)) as [Hs|Hs]; [left; apply A; lia|right; apply B; lia].
  Qed.
End Whole.
