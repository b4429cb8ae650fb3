(** Property C62: who earns the fees of a swap.

    [uncollected x s pos] is the growth per unit of liquidity in token x ([x] =
    true) or y inside the range of the position that it has not collected yet
    (SpecSolv.v); [due], [earned], [works], [holds_end] and [backed] are in
    SpecShare.v, segments and walks in SpecPath.v. *)
From Verif Require Import Base Decimal SqrtPriceM LogM ClammM FeeGrowthM Types TickmapM StorageM
  CollectionsM StateM ServiceM Arith SpecMath SpecFees SpecSum SpecState SpecHistory SpecClean SpecSolv SpecPath SpecShare
  P_Fees P_Balance P_Effects P_Positions P_History P_Inv P_InvPos P_PosOps P_InvSwap P_InvHist P_Active P_Path P_Owed P_OwedSwap P_Share
  Cases CasesClean Prop_State Prop_Ticks.
From stdpp Require Import gmap list.
From Coq Require Import ZArith Lia Bool.
Open Scope Z_scope.

Lemma weaken evs s : history regular evs s -> history room evs s.
Proof. apply history_weaken. intros ? ? [? _]; assumption. Qed.

(** ** Collecting *)

(** A claim pays exactly what is due, and nothing is due afterwards. *)
Theorem C62_claim_pays evs s e i s' x y : history room evs s ->
  event_wf (Call e (OpClaimFee i)) -> room s (Call e (OpClaimFee i)) -> claim_fee e s i = Ok (s', (x, y)) ->
  exists pos pos', get_position s (e_caller e) i = Ok pos /\ get_position s' (e_caller e) i = Ok pos' /\
    x = due true s pos /\ y = due false s pos /\
    pos_pool_key pos' = pos_pool_key pos /\ pos_lower pos' = pos_lower pos /\ pos_upper pos' = pos_upper pos /\
    pos_liquidity pos' = pos_liquidity pos /\ uncollected true s' pos' = 0 /\ uncollected false s' pos' = 0.
Proof.
  intros H W R HC. apply room_Inv in H as I.
  assert (H' : history room (evs ++ [Call e (OpClaimFee i)]) s').
  { assert (E : s' = exec_event s (Call e (OpClaimFee i))) by (cbn [exec_event]; unfold exec_op; cbn [run_op]; rewrite HC; reflexivity).
    rewrite E. constructor; auto. }
  apply room_Inv in H' as I'. apply claim_summary in HC as (pos & p & tl & tu & mx & C); auto.
  destruct (claimed_zero _ _ _ _ _ _ _ _ _ _ _ I I' C) as (pos' & P' & E1 & E2 & E3 & E4 & U).
  pose proof (I_pos _ I _ _ _ (cl_pos _ _ _ _ _ _ _ _ _ _ _ C)) as SO.
  exists pos, pos'. split; [apply positions_get_Ok, C|]. split; [apply positions_get_Ok, P'|].
  split; [exact (due_fee true s pos p tl tu x I SO (cl_pool _ _ _ _ _ _ _ _ _ _ _ C) (cl_tl _ _ _ _ _ _ _ _ _ _ _ C)
    (cl_tu _ _ _ _ _ _ _ _ _ _ _ C) (cl_fee_x _ _ _ _ _ _ _ _ _ _ _ C))|].
  split; [exact (due_fee false s pos p tl tu y I SO (cl_pool _ _ _ _ _ _ _ _ _ _ _ C) (cl_tl _ _ _ _ _ _ _ _ _ _ _ C)
    (cl_tu _ _ _ _ _ _ _ _ _ _ _ C) (cl_fee_y _ _ _ _ _ _ _ _ _ _ _ C))|].
  auto 10.
Qed.

(** A new position starts with nothing. *)
Theorem C62_starts_at_zero evs s e k lo up L sl su s' pos : history room evs s ->
  let ev := Call e (OpCreatePosition k lo up L sl su) in
  event_wf ev -> room s ev -> create_position e s k lo up L sl su = Ok (s', pos) ->
  uncollected true s' pos = 0 /\ uncollected false s' pos = 0.
Proof.
  intros H ev W R HC. apply room_Inv in H as I.
  assert (H' : history room (evs ++ [ev]) s').
  { assert (E : s' = exec_event s ev) by (unfold ev; cbn [exec_event]; unfold exec_op; cbn [run_op]; rewrite HC; reflexivity).
    rewrite E. constructor; auto. }
  apply room_Inv in H' as I'. apply create_summary in HC as (p & x & y & mx & C); [|auto|apply W].
  pose proof (created_zero _ _ _ _ _ _ _ _ _ _ _ _ _ _ I I' C) as U. auto.
Qed.

(** ** Swaps *)

(** A swap pays in one token and walks along segments; each segment's fee is
    divided by the liquidity of exactly those positions that work on it, and each of
    them is credited its growth.  No other position of the pool, no other pool and
    not the other token is credited anything. *)
Theorem C62_swap evs s e k d a bi lim s' r : history regular evs s -> u256 a ->
  clean s (Call e (OpSwap k d a bi lim)) -> swap e s k d a bi lim = Ok (s', r) ->
  exists p p' segs, pools_get s k = Ok p /\ pools_get s' k = Ok p' /\
    walk s k d bi p p' (cs_amount_in r) (cs_amount_out r) (cs_fee r) segs /\ Forall (backed s k d) segs /\
    forall owner i pos, get_position s owner i = Ok pos -> get_position s' owner i = Ok pos /\
      (pos_pool_key pos = k -> uncollected d s' pos = (uncollected d s pos + earned (s_protocol_fee s) d pos segs) mod 2 ^ 128) /\
      (pos_pool_key pos = k -> uncollected (negb d) s' pos = uncollected (negb d) s pos) /\
      (pos_pool_key pos <> k -> forall x, uncollected x s' pos = uncollected x s pos).
Proof.
  intros H Ha HC HS. apply weaken in H as HR. apply room_Inv in HR as I. pose proof (HC _ _ HS) as CL. cbn [clean] in HC.
  apply swap_inv in HS as (B & HX & -> & _).
  destruct (calculate_swap_pool _ _ _ _ _ _ _ _ HX) as [p0 Hp0].
  assert (Hg : pools_get s k = Ok p0) by (apply pools_get_Ok; exact Hp0).
  pose proof (C23_active_liquidity_guarded _ _ _ _ H Hg) as HA.
  destruct (share_swap s k d bi lim _ a p0 I Hp0 Ha (eq_sym HA) r HX CL) as (segs & W & FB & SH).
  exists p0, (cs_pool r), segs. split; [exact Hg|].
  split; [unfold pools_get; cbn [set_balances set_pools s_pools]; rewrite lookup_insert; reflexivity|].
  split; [exact W|]. split; [exact FB|]. intros owner i pos Hpos. split; [exact Hpos|]. apply positions_get_Ok in Hpos.
  assert (SW : forall x, uncollected x (set_balances B (set_pools (<[k := cs_pool r]> (s_pools s)) (set_ticks (put_ticks k (cs_ticks r) (s_ticks s)) s))) pos
    = uncollected x (swapped s k r) pos) by reflexivity.
  split; [|split].
  - intros Ek. rewrite SW, (SH d owner i pos Hpos Ek), Bool.eqb_reflx. reflexivity.
  - intros Ek. rewrite SW, (SH (negb d) owner i pos Hpos Ek). replace (Bool.eqb (negb d) d) with false by (destruct d; reflexivity).
    rewrite Z.add_0_r. apply wrap_id, wrap_u128.
  - intros Nk x. rewrite SW. unfold uncollected, below. cbn [swapped set_pools set_ticks s_pools s_ticks].
    rewrite lookup_insert_ne by congruence. rewrite !put_ticks_ne by (intros; congruence). reflexivity.
Qed.

(** A route is its swaps, one after the other. *)
Fixpoint hop_events (e : env) (s : state) (a : Z) (hops : list swap_hop) : list event :=
  match hops with
  | [] => []
  | h :: t =>
      let ev := Call e (OpSwap (h_pool_key h) (h_x_to_y h) a true (hop_limit (h_x_to_y h))) in
      match swap e s (h_pool_key h) (h_x_to_y h) a true (hop_limit (h_x_to_y h)) with
      | Ok (s', r) => ev :: hop_events e s' (cs_amount_out r) t
      | _ => [ev]
      end
  end.

Theorem C62_route evs s e a x sl hops s' out : history regular evs s ->
  event_wf (Call e (OpSwapRoute a x sl hops)) -> regular s (Call e (OpSwapRoute a x sl hops)) ->
  swap_route e s a x sl hops = Ok (s', out) ->
  history regular (evs ++ hop_events e s a hops) s' /\ length (hop_events e s a hops) = length hops.
Proof.
  intros H [We [Wa _]] [HR HC] HS. apply swap_route_inv in HS. cbn [clean] in HC.
  revert evs s a H Wa HR HC HS. induction hops as [|h hops IH]; intros evs s a H Wa HR HC HS; cbn [route_swap hop_events] in *.
  - injection HS as <- _. rewrite app_nil_r. auto.
  - apply bind_Ok in HS as ([s1 r] & E & HS). rewrite E.
    cbn [clean_route] in HC. destruct (HC _ _ E) as [C1 C2].
    set (ev := Call e (OpSwap (h_pool_key h) (h_x_to_y h) a true (hop_limit (h_x_to_y h)))).
    assert (E1 : s1 = exec_event s ev) by (unfold ev; cbn [exec_event]; unfold exec_op; cbn [run_op]; rewrite E; reflexivity).
    apply weaken in H as HR'. apply room_Inv in HR' as I.
    destruct (Inv_swap _ _ _ _ _ _ _ _ _ I Wa E) as (I1 & _ & Hr).
    assert (H1 : history regular (evs ++ [ev]) s1).
    { rewrite E1. constructor; [exact H| |].
      - split; [exact We|]. split; [exact Wa|]. unfold hop_limit. destruct (h_x_to_y h); unfold u128; vm_compute; split; congruence.
      - split; [exact HR|]. cbn [clean ev]. intros s2 r2 E2. rewrite E in E2. injection E2 as <- <-. exact C1. }
    assert (R1 : room s1 (Call e (OpSwapRoute (cs_amount_out r) x sl hops))).
    { intros owner. apply swap_inv in E as (B & _ & -> & _). apply HR. }
    destruct (IH (evs ++ [ev]) s1 (cs_amount_out r) H1 Hr R1 C2 HS) as [A1 A2].
    rewrite <- app_assoc in A1. cbn [app] in A1. split; [exact A1|]. cbn [length]. rewrite A2. reflexivity.
Qed.

(** Nothing but swaps changes what is due to a position that stays open. *)
Theorem C62_only_swaps evs s ev owner i pos owner' i' : history room evs s -> event_wf ev -> room s ev ->
  match ev with Call _ (OpSwap _ _ _ _ _) | Call _ (OpSwapRoute _ _ _ _) => False | _ => True end ->
  get_position s owner i = Ok pos -> get_position (exec_event s ev) owner' i' = Ok pos ->
  forall x, uncollected x (exec_event s ev) pos = uncollected x s pos.
Proof.
  intros H W R HN H1 H2. apply room_Inv in H as I.
  assert (I' : Inv (exec_event s ev)) by (apply (room_Inv (evs ++ [ev])); constructor; auto).
  apply positions_get_Ok in H1, H2. apply (calm_uncollected s _ owner i owner' i' pos I I'); auto.
  destruct ev as [e o|u t a|u t a|m]; cbn [exec_event].
  - unfold exec_op. destruct (run_op e s o) as [s1| | |] eqn:E; try (apply calm_same; reflexivity).
    eapply calm_op; eauto. apply W.
  - destruct (increase_token_balance s t u a) as [s1| | |] eqn:E; try (apply calm_same; reflexivity).
    apply increase_spec in E as ((B & ->) & _). apply calm_same; reflexivity.
  - destruct (decrease_token_balance s t u a) as [[s1 v]| | |] eqn:E; try (apply calm_same; reflexivity).
    destruct a as [a|].
    + apply decrease_spec in E as ((B & ->) & _). apply calm_same; reflexivity.
    + assert (X : exists B, s1 = set_balances B s).
      { unfold decrease_token_balance in E. repeat match type of E with
          | bind _ _ = Ok _ => let h := fresh in apply bind_Ok in E as (? & h & E)
          | (if ?b then _ else _) = Ok _ => destruct b
          | match ?o with _ => _ end = Ok _ => destruct o
          end; try discriminate E; injection E as <- _; eauto; exists (s_balances s); destruct s; reflexivity. }
      destruct X as [B ->]. apply calm_same; reflexivity.
  - apply calm_same; reflexivity.
Qed.

(** ** Where the price must be *)

Lemma walk_between d a segs b : connected a segs b -> Forall (fun g => if d : bool then g_to g <= g_from g else g_from g <= g_to g) segs ->
  Forall (fun g => Z.min a b <= g_from g <= Z.max a b /\ Z.min a b <= g_to g <= Z.max a b) segs /\ (if d then b <= a else a <= b).
Proof.
  revert a. induction segs as [|g segs IH]; intros a; cbn [connected].
  - intros -> _. split; [constructor|destruct d; lia].
  - intros [E C] F. inversion F as [|? ? F1 F2]; subst. destruct (IH _ C F2) as [A1 A2].
    split; [|destruct d; lia]. constructor; [destruct d; lia|].
    eapply Forall_impl; [exact A1|]. cbn beta. intros h Hh. destruct d; lia.
Qed.

Lemma sumZ_ext_in {A} (f g : A -> Z) l (P : A -> Prop) : Forall P l -> (forall x, P x -> f x = g x) -> sumZ f l = sumZ g l.
Proof. induction 1 as [|x l H _ IH]; intros HE; cbn [sumZ]; [reflexivity|]. rewrite (HE _ H), IH; auto. Qed.
Lemma sumZ_0 {A} (l : list A) : sumZ (fun _ => 0) l = 0.
Proof. induction l as [|x l IH]; cbn [sumZ]; lia. Qed.

Lemma walk_prices s k d bi p p' ai ao f segs : walk s k d bi p p' ai ao f segs ->
  Forall (fun g => Z.min (p_sqrt_price p) (p_sqrt_price p') <= g_from g <= Z.max (p_sqrt_price p) (p_sqrt_price p') /\
                   Z.min (p_sqrt_price p) (p_sqrt_price p') <= g_to g <= Z.max (p_sqrt_price p) (p_sqrt_price p')) segs.
Proof.
  intros W. apply (walk_between d); [apply W|]. eapply Forall_impl; [apply (wk_segments _ _ _ _ _ _ _ _ _ _ W)|].
  intros g G. apply G.
Qed.

(** A position whose range the price does not touch earns nothing. *)
Theorem C62_out_of_range evs s e k d a bi lim s' r p p' owner i pos : history regular evs s -> u256 a ->
  clean s (Call e (OpSwap k d a bi lim)) -> swap e s k d a bi lim = Ok (s', r) ->
  get_position s owner i = Ok pos -> pos_pool_key pos = k -> pools_get s k = Ok p -> pools_get s' k = Ok p' ->
  (Z.max (p_sqrt_price p) (p_sqrt_price p') < tick_price (pos_lower pos) \/
   tick_price (pos_upper pos) < Z.min (p_sqrt_price p) (p_sqrt_price p')) ->
  forall x, uncollected x s' pos = uncollected x s pos.
Proof.
  intros H Ha HC HS Hpos Ek Hp Hp' HO x.
  destruct (C62_swap _ _ _ _ _ _ _ _ _ _ H Ha HC HS) as (q & q' & segs & Q1 & Q2 & W & _ & SH).
  rewrite Hp in Q1. injection Q1 as <-. rewrite Hp' in Q2. injection Q2 as <-.
  destruct (SH _ _ _ Hpos) as (_ & S1 & S2 & _). specialize (S1 Ek). specialize (S2 Ek).
  assert (E0 : earned (s_protocol_fee s) d pos segs = 0).
  { unfold earned. transitivity (sumZ (fun _ : segment => 0) segs); [|apply sumZ_0]. eapply sumZ_ext_in; [apply (walk_prices _ _ _ _ _ _ _ _ _ _ W)|]. cbn beta.
    intros g [G1 G2].
    assert (works d pos g = false) as ->.
    { unfold works. destruct d; apply andb_false_iff;
        [destruct HO; [left; apply Z.ltb_ge|right; apply Z.leb_gt]|destruct HO; [left; apply Z.leb_gt|right; apply Z.ltb_ge]]; lia. }
    assert (holds_end pos g = false) as ->.
    { unfold holds_end. apply andb_false_iff. destruct HO; [left; apply Z.leb_gt|right; apply Z.ltb_ge]; lia. }
    reflexivity. }
  destruct (Bool.bool_dec x d) as [->|Ne].
  - rewrite S1, E0, Z.add_0_r. apply Z.mod_small. unfold uncollected. pose proof (wrap_u128 (below d s (pos_pool_key pos) (pos_upper pos) - below d s (pos_pool_key pos) (pos_lower pos) - seen_growth d pos)) as U.
    exact U.
  - assert (x = negb d) as -> by (clear - Ne; destruct x, d; cbn [negb]; congruence). exact S2.
Qed.

(** A position whose range contains the price throughout earns the whole growth. *)
Theorem C62_in_range evs s e k d a bi lim s' r p p' owner i pos : history regular evs s -> u256 a ->
  clean s (Call e (OpSwap k d a bi lim)) -> swap e s k d a bi lim = Ok (s', r) ->
  get_position s owner i = Ok pos -> pos_pool_key pos = k -> pools_get s k = Ok p -> pools_get s' k = Ok p' ->
  tick_price (pos_lower pos) < Z.min (p_sqrt_price p) (p_sqrt_price p') ->
  Z.max (p_sqrt_price p) (p_sqrt_price p') < tick_price (pos_upper pos) ->
  uncollected true s' pos = (uncollected true s pos + (p_fee_growth_global_x p' - p_fee_growth_global_x p)) mod 2 ^ 128 /\
  uncollected false s' pos = (uncollected false s pos + (p_fee_growth_global_y p' - p_fee_growth_global_y p)) mod 2 ^ 128.
Proof.
  intros H Ha HC HS Hpos Ek Hp Hp' HL HU.
  destruct (C62_swap _ _ _ _ _ _ _ _ _ _ H Ha HC HS) as (q & q' & segs & Q1 & Q2 & W & _ & SH).
  rewrite Hp in Q1. injection Q1 as <-. rewrite Hp' in Q2. injection Q2 as <-.
  destruct (SH _ _ _ Hpos) as (_ & S1 & S2 & _). specialize (S1 Ek). specialize (S2 Ek).
  assert (E0 : earned (s_protocol_fee s) d pos segs = sumZ (fun g => growth_of (s_protocol_fee s) (g_liquidity g) (g_fee g) +
                    growth_of (s_protocol_fee s) (g_liquidity g) (g_left g)) segs).
  { unfold earned. eapply sumZ_ext_in; [apply (walk_prices _ _ _ _ _ _ _ _ _ _ W)|]. cbn beta.
    intros g [G1 G2].
    assert (works d pos g = true) as ->.
    { unfold works. destruct d; apply andb_true_iff; rewrite ?Z.ltb_lt, ?Z.leb_le; lia. }
    assert (holds_end pos g = true) as ->.
    { unfold holds_end. apply andb_true_iff. rewrite Z.ltb_lt, Z.leb_le. lia. }
    reflexivity. }
  pose proof (wk_growth _ _ _ _ _ _ _ _ _ _ W) as WG. pose proof (wk_other _ _ _ _ _ _ _ _ _ _ W) as WO.
  rewrite <- E0 in WG. set (E := earned _ _ _ _) in *. clearbody E.
  assert (UM : forall x, uncollected x s pos mod 2 ^ 128 = uncollected x s pos).
  { intros x. apply Z.mod_small. exact (wrap_u128 (below x s (pos_pool_key pos) (pos_upper pos) - below x s (pos_pool_key pos) (pos_lower pos) - seen_growth x pos)). }
  assert (K : forall u g, (u + E) mod 2 ^ 128 = (u + ((g + E) mod 2 ^ 128 - g)) mod 2 ^ 128).
  { intros u g. replace (u + ((g + E) mod 2 ^ 128 - g)) with (((g + E) mod 2 ^ 128) + (u - g)) by lia.
    rewrite Zplus_mod_idemp_l. f_equal. lia. }
  destruct d; cbn [negb] in *.
  - rewrite WG. injection WO as _ WO. rewrite WO, Z.sub_diag, Z.add_0_r, UM. split; [rewrite S1; apply K|exact S2].
  - rewrite WG. injection WO as _ WO. rewrite WO, Z.sub_diag, Z.add_0_r, UM. split; [exact S2|rewrite S1; apply K].
Qed.

(** ** Proportion *)

(** Of a fee [f] the protocol takes its part rounded up; a position with [l] of the
    liquidity [L] in range gets l/L of the rest, rounded down by less than l/10^33. *)
Theorem C62_proportional pf L f l : 0 < L -> 0 <= f -> 0 <= pf <= 10 ^ 12 -> 0 < l <= L ->
  is_ceil (protocol_part pf f) (f * pf) (10 ^ 12) /\ 0 <= protocol_part pf f <= f /\
  l * growth_of pf L f * L <= l * (f - protocol_part pf f) * 10 ^ 33 < l * (growth_of pf L f + 1) * L.
Proof.
  intros HL Hf Hpf Hl. unfold is_ceil, growth_of.
  assert (P : (10 ^ 12) * (protocol_part pf f - 1) < f * pf <= 10 ^ 12 * protocol_part pf f).
  { unfold protocol_part. pose proof (Z.mul_div_le (f * pf + (10 ^ 12 - 1)) (10 ^ 12) ltac:(lia)).
    pose proof (Z.mul_succ_div_gt (f * pf + (10 ^ 12 - 1)) (10 ^ 12) ltac:(lia)). lia. }
  set (pp := protocol_part pf f) in *. clearbody pp.
  assert (f * pf <= f * 10 ^ 12) by (apply Z.mul_le_mono_nonneg_l; lia). assert (0 <= f * pf) by (apply Z.mul_nonneg_nonneg; lia).
  split; [lia|]. split; [lia|]. set (n := (f - pp) * 10 ^ 33).
  pose proof (Z.mul_div_le n L HL) as D1. pose proof (Z.mul_succ_div_gt n L HL) as D2. set (g := n / L) in *. clearbody g.
  assert (En : l * (f - pp) * 10 ^ 33 = l * n) by (unfold n; lia). rewrite En. clearbody n.
  split.
  - replace (l * g * L) with (l * (L * g)) by lia. apply Z.mul_le_mono_nonneg_l; lia.
  - replace (l * (g + 1) * L) with (l * (L * Z.succ g)) by lia. apply Z.mul_lt_mono_pos_l; lia.
Qed.

(** Two positions with the same range that have collected up to the same moment are
    due fees in proportion to their liquidity; merging or splitting them changes
    what is due by less than a unit. *)
Theorem C62_equal_terms x s pos1 pos2 : 0 < pos_liquidity pos1 -> 0 < pos_liquidity pos2 ->
  pos_pool_key pos1 = pos_pool_key pos2 -> pos_lower pos1 = pos_lower pos2 -> pos_upper pos1 = pos_upper pos2 ->
  seen_growth x pos1 = seen_growth x pos2 ->
  let L1 := pos_liquidity pos1 in let L2 := pos_liquidity pos2 in
  Z.abs (due x s pos1 * L2 - due x s pos2 * L1) < Z.max L1 L2 /\
  due x s pos1 + due x s pos2 <= (L1 + L2) * uncollected x s pos1 / 10 ^ 33 <= due x s pos1 + due x s pos2 + 1.
Proof.
  intros H1 H2 E1 E2 E3 E4. cbn zeta.
  assert (EU : uncollected x s pos2 = uncollected x s pos1) by (unfold uncollected; rewrite E1, E2, E3, E4; reflexivity).
  unfold due. rewrite EU. set (u := uncollected x s pos1). clearbody u. set (L1 := pos_liquidity pos1) in *. set (L2 := pos_liquidity pos2) in *.
  set (D := 10 ^ 33). assert (HD : 0 < D) by reflexivity. clearbody D L1 L2.
  pose proof (Z.mul_div_le (L1 * u) D HD) as A1. pose proof (Z.mul_succ_div_gt (L1 * u) D HD) as A2.
  pose proof (Z.mul_div_le (L2 * u) D HD) as B1. pose proof (Z.mul_succ_div_gt (L2 * u) D HD) as B2.
  pose proof (Z.mul_div_le ((L1 + L2) * u) D HD) as C1. pose proof (Z.mul_succ_div_gt ((L1 + L2) * u) D HD) as C2.
  set (f1 := L1 * u / D) in *. set (f2 := L2 * u / D) in *. set (f := (L1 + L2) * u / D) in *. clearbody f1 f2 f.
  split.
  - assert (X1 : D * (f1 * L2) <= L1 * L2 * u < D * (f1 * L2 + L2)) by nia.
    assert (X2 : D * (f2 * L1) <= L1 * L2 * u < D * (f2 * L1 + L1)) by nia.
    assert (f1 * L2 < f2 * L1 + L1) by nia. assert (f2 * L1 < f1 * L2 + L2) by nia. lia.
  - assert (D * (f1 + f2) < D * (f + 1)) by lia. assert (D * f < D * (f1 + f2 + 2)) by lia. nia.
Qed.

(** Carol's next swap starts between the ticks -20 and -10, where alice's first and
    bob's position work, and ends above the tick -10, where both of alice's do:
    in token y the first unit of liquidity earns on both segments, bob's and
    alice's second one on one each. *)
Definition earnings (s : state) (owner i : Z) : option (Z * Z * Z * Z * Z * Z) :=
  match get_position s owner i with
  | Ok pos => Some (tick_price (pos_lower pos), pos_liquidity pos, uncollected true s pos, uncollected false s pos, due true s pos, due false s pos)
  | _ => None
  end.
Definition next_swap : event := Call (by_ carol) (OpSwap pool1 false 2000 true any_price).
Definition s_next : state := run_events admin 10000000000 (evs_traded ++ [next_swap]).
Example C62_case : history regular (evs_traded ++ [next_swap]) s_next /\
  earnings s_traded alice 0 = Some (999000549780000000000000, 100000000000, 80000000000000000000000, 0, 8, 0) /\
  earnings s_traded alice 1 = Some (999500149965000000000000, 300000000000, 50000000000000000000000, 0, 15, 0) /\
  earnings s_traded bob 0 = Some (998501199320000000000000, 200000000000, 30000000000000000000000, 0, 6, 0) /\
  earnings s_next alice 0 = Some (999000549780000000000000, 100000000000, 80000000000000000000000, 54166666666666666666666, 8, 5) /\
  earnings s_next alice 1 = Some (999500149965000000000000, 300000000000, 50000000000000000000000, 27500000000000000000000, 15, 8) /\
  earnings s_next bob 0 = Some (998501199320000000000000, 200000000000, 30000000000000000000000, 26666666666666666666666, 6, 5) /\
  (match claim_fee (by_ alice) s_next 1 with Ok (_, a) => Some a | _ => None end) = Some (15, 8).
Proof.
  split.
  - apply run_regular; [unfold u128; lia| |reflexivity|vm_compute; reflexivity].
    unfold evs_traded, setup, positions3, swaps, next_swap. wf_events.
  - crunch.
Qed.

(** ** Assumptions *)
Print Assumptions C62_claim_pays.
Print Assumptions C62_starts_at_zero.
Print Assumptions C62_swap.
Print Assumptions C62_route.
Print Assumptions C62_only_swaps.
Print Assumptions C62_out_of_range.
Print Assumptions C62_in_range.
Print Assumptions C62_proportional.
Print Assumptions C62_equal_terms.
