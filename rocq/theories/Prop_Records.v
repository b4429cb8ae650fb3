(** Records, listings and the start of token transfers (C51, C52). *)
From Verif Require Import Base Decimal SqrtPriceM LogM ClammM FeeGrowthM Types TickmapM StorageM
  CollectionsM StateM ServiceM AsyncM Arith SpecMath SpecFees SpecSum SpecState SpecHistory SpecAsync SpecRecords
  P_Clamm P_Delta P_TickPrice P_Tickmap P_Fees P_Balance P_Effects P_Positions P_History P_Loop P_Check P_State P_Iter
  P_Inv P_InvPos P_PosOps P_InvSwap P_Swap P_SwapLoop P_InvHist P_Bals P_Live P_Async Prop_State Prop_Liq Cases CasesClean.
From stdpp Require Import gmap list.
From Coq Require Import ZArith Lia Bool.
Open Scope Z_scope.

Local Lemma room_Inv evs s : history room evs s -> Inv s.
Proof. apply Inv_history. auto. Qed.

(** ** C51 *)

(** A created position is appended to the caller's list; it records the block and
    owes nothing yet. *)
Theorem C51_new_position evs s e k lo up L sl su s' pos :
  history room evs s -> room s (Call e (OpCreatePosition k lo up L sl su)) -> u256 L ->
  create_position e s k lo up L sl su = Ok (s', pos) ->
  let n := get_user_position_amount s (e_caller e) in
  get_user_position_amount s' (e_caller e) = n + 1 /\
  get_position s' (e_caller e) n = Ok pos /\
  pos = mkPosition k L lo up (pos_fee_growth_inside_x pos) (pos_fee_growth_inside_y pos) (e_block e) 0 0 /\
  (forall owner i, (owner, i) <> (e_caller e, n) -> get_position s' owner i = get_position s owner i) /\
  (forall owner, owner <> e_caller e -> get_user_position_amount s' owner = get_user_position_amount s owner).
Proof.
  intros H R HL HC n. apply room_Inv in H as I. pose proof (create_position_inv _ _ _ _ _ _ _ _ _ _ HC)
    as (p & tl0 & al & tu0 & au & p' & tl & tu & x & y & b1 & _ & _ & _ & _ & _ & _ & _ & _ & SPos & SLen & _).
  destruct (create_summary _ _ _ _ _ _ _ _ _ _ I HL HC) as (q & x' & y' & mx & C).
  specialize (R (e_caller e)). pose proof (proj1 (I_dense _ I (e_caller e))) as D0.
  unfold n, get_user_position_amount, get_position, positions_get, positions_get_length in *.
  rewrite SLen, SPos, lookup_insert, lookup_insert. cbn [from_option id ok_or].
  change M32 with (2 ^ 32). rewrite Z.mod_small by lia.
  split; [reflexivity|]. split; [reflexivity|].
  split; [rewrite (cr_pos _ _ _ _ _ _ _ _ _ _ _ _ _ _ C); reflexivity|].
  split.
  - intros owner i Hne. rewrite lookup_insert_ne by congruence. reflexivity.
  - intros owner Hne. rewrite lookup_insert_ne by congruence. reflexivity.
Qed.

(** What the ticks at its two ends remember, and that no other tick is touched. *)
Theorem C51_boundary_ticks evs s e k lo up L sl su s' pos p :
  history room evs s -> u256 L -> create_position e s k lo up L sl su = Ok (s', pos) -> pools_get s k = Ok p ->
  (exists tl, get_tick s' k lo = Ok tl /\ opened_tick s k p (e_timestamp e) lo tl) /\
  (exists tu, get_tick s' k up = Ok tu /\ opened_tick s k p (e_timestamp e) up tu) /\
  (forall k' i, (k', i) <> (k, lo) -> (k', i) <> (k, up) -> get_tick s' k' i = get_tick s k' i).
Proof.
  intros H HL HC Hp. apply room_Inv in H as I. apply pools_get_Ok in Hp.
  apply create_position_inv in HC
    as (p0 & tl0 & al & tu0 & au & p' & tl & tu & x & y & b1 & HL0 & Hne & Hp0 & G1 & G2 & PC & _ & _ & _ & _ & ST & _).
  rewrite Hp in Hp0. injection Hp0 as <-.
  pose proof (I_pool _ I _ _ Hp) as PO.
  assert (GT : forall i t0 a t, get_or_create_tick s (e_timestamp e) k i = Ok (t0, a) ->
     t_index t = t_index t0 -> t_fee_growth_outside_x t = t_fee_growth_outside_x t0 ->
     t_fee_growth_outside_y t = t_fee_growth_outside_y t0 -> t_seconds_outside t = t_seconds_outside t0 ->
     t_index t0 = i /\ opened_tick s k p (e_timestamp e) i t).
  { intros i t0 a t G E1 E2 E3 E4. unfold get_or_create_tick in G. unfold opened_tick, get_tick, ticks_get.
    destruct (s_ticks s !! (k, i)) as [t1|] eqn:Et; cbn [ok_or].
    - injection G as -> _. destruct (I_tick _ I _ _ _ Et) as [_ T]. rewrite <- (to_index _ _ _ _ T). auto.
    - apply bind_Ok in G as (t1 & G & E). injection E as -> _. apply unwrap_inv in G. unfold create_tick in G.
      apply bind_Ok in G as (? & _ & G). apply bind_Ok in G as (p1 & Hp1 & G). apply pools_get_Ok in Hp1.
      rewrite Hp in Hp1. injection Hp1 as <-. unfold tick_create in G. apply bind_Ok in G as (sp & _ & G).
      injection G as <-. cbn in *. rewrite E1, E2, E3, E4. split; [reflexivity|]. split; [reflexivity|].
      change M64 with (2 ^ 64). split; intros Hi.
      + destruct (Z.leb_spec i (p_current_tick_index p)); [auto|lia].
      + destruct (Z.leb_spec i (p_current_tick_index p)); [lia|auto]. }
  unfold position_create in PC. apply bind_Ok in PC as (v & _ & PC). apply unwrap_inv in PC.
  apply position_modify_inv in PC as (mx & fx & fy & _ & M2 & M3 & _).
  apply tick_update_inv in M2 as (A1 & _ & A2 & A3 & A4 & _). apply tick_update_inv in M3 as (B1 & _ & B2 & B3 & B4 & _).
  destruct (GT _ _ _ tl G1 A1 A2 A3 A4) as [Il Ol]. destruct (GT _ _ _ tu G2 B1 B2 B3 B4) as [Iu Ou].
  rewrite A1, Il, B1, Iu in ST. unfold get_tick, ticks_get. rewrite ST. split; [|split].
  - exists tl. rewrite lookup_insert_ne by congruence. rewrite lookup_insert. auto.
  - exists tu. rewrite lookup_insert. auto.
  - intros k' i N1 N2. rewrite !lookup_insert_ne by congruence. reflexivity.
Qed.

(** The pools of a pair: exactly one entry for each registered fee tier in which the
    pair has a pool, in the order of the fee tiers, whichever token is named first. *)
Lemma pools_for_pair s a b : a <> b -> get_all_pools_for_pair s a b =
  Ok (omap (fun ft => match get_pool s a b ft with Ok p => Some (ft, p) | _ => None end) (get_fee_tiers s)).
Proof.
  intros Hne. unfold get_all_pools_for_pair, get_fee_tiers.
  set (f := fun acc ft => _).
  assert (X : forall l acc, foldM_res f l acc =
    Ok (acc ++ omap (fun ft => match get_pool s a b ft with Ok p => Some (ft, p) | _ => None end) l)).
  { assert (F : forall acc ft, f acc ft = Ok (acc ++ match get_pool s a b ft with Ok p => [(ft, p)] | _ => [] end)).
    { intros acc ft. unfold f, get_pool, pool_key_new. destruct (Z.eqb_spec a b); [contradiction|].
      destruct (a <? b); cbn [bind]; destruct (pools_get s _); try rewrite app_nil_r; reflexivity. }
    induction l as [|ft l IH]; intros acc; cbn [foldM_res omap list_omap]; [rewrite app_nil_r; reflexivity|].
    rewrite F. cbn [bind]. rewrite IH, <- app_assoc. destruct (get_pool s a b ft); reflexivity. }
  rewrite X. reflexivity.
Qed.

Theorem C51_pools_of_a_pair s a b : a <> b ->
  exists l, get_all_pools_for_pair s a b = Ok l /\ get_all_pools_for_pair s b a = Ok l /\
  (forall ft p, In (ft, p) l <-> In ft (get_fee_tiers s) /\ get_pool s a b ft = Ok p) /\
  sublist (map fst l) (get_fee_tiers s).
Proof.
  intros Hne. eexists. split; [apply pools_for_pair; auto|].
  assert (Sym : forall ft, get_pool s b a ft = get_pool s a b ft).
  { intros ft. unfold get_pool, pool_key_new. destruct (Z.eqb_spec a b), (Z.eqb_spec b a); try congruence.
    destruct (Z.ltb_spec a b), (Z.ltb_spec b a); try lia; reflexivity. }
  split.
  { rewrite pools_for_pair by auto. f_equal.
    induction (get_fee_tiers s) as [|ft l IH]; cbn [omap list_omap]; [reflexivity|]. rewrite Sym.
    destruct (get_pool s a b ft); [f_equal|..]; exact IH. }
  split.
  - intros ft p. rewrite <- !elem_of_list_In, elem_of_list_omap. split.
    + intros (ft' & Hin & E). destruct (get_pool s a b ft') eqn:Eg; try discriminate. injection E as <- <-. auto.
    + intros [Hin Eg]. exists ft. rewrite Eg. auto.
  - induction (get_fee_tiers s) as [|ft l IH]; cbn [omap list_omap]; [constructor|].
    destruct (get_pool s a b ft); cbn [map fst]; try (apply sublist_cons; exact IH). apply sublist_skip. exact IH.
Qed.

(** Same tokens are refused as soon as a fee tier exists. *)
Theorem C51_pair_of_one_token s a ft l : get_fee_tiers s = ft :: l ->
  get_all_pools_for_pair s a a = Err TokensAreSame.
Proof.
  unfold get_fee_tiers, get_all_pools_for_pair. intros ->. cbn [foldM_res]. unfold pool_key_new.
  rewrite Z.eqb_refl. reflexivity.
Qed.

(** The listing of a user's balances: each token once, every amount positive, and a
    token is missing exactly when its balance is zero. *)
Theorem C51_balances_listed evs s user : history room evs s ->
  NoDup (map fst (get_user_balances s user)) /\
  (forall t v, In (t, v) (get_user_balances s user) <-> v = bal s user t /\ 0 < v).
Proof.
  intros H. pose proof (bals_pos_history room evs s (fun _ _ X => X) H) as [B N].
  split; [apply NoDup_fst_map_to_list|]. intros t v. unfold get_user_balances.
  rewrite <- elem_of_list_In, elem_of_map_to_list. unfold bal, balm.
  pose proof (u256_M _ (B user t)) as Hb. unfold bal, balm in Hb.
  destruct (s_balances s !! user) as [m|] eqn:Em; cbn [from_option id] in *.
  - pose proof (N _ _ t Em) as Hn. destruct (m !! t) as [w|] eqn:Ew; cbn in *.
    + split; [intros [= ->]; split; [reflexivity|]; assert (v <> 0) by congruence; lia|intros [-> _]; reflexivity].
    + split; [discriminate|intros [-> ?]; lia].
  - rewrite lookup_empty. cbn. split; [discriminate|intros [-> ?]; lia].
Qed.

(** ** C52 *)

Lemma can_increase_iff s t u a : bals_ok s -> u256 a ->
  can_increase_token_balance s t u a = true <-> bal s u t + a < 2 ^ 256.
Proof.
  intros B Ha%u256_M. pose proof (u256_M _ (B u t)) as Hb. unfold can_increase_token_balance, bal, balm in *.
  change M256 with (2 ^ 256) in Ha, Hb.
  destruct (s_balances s !! u) as [m|]; cbn [from_option id] in *.
  - destruct (m !! t) as [w|]; cbn in *; [|split; [lia|auto]].
    unfold dec_checked_add, checked_add. change M256 with (2 ^ 256).
    destruct (Z.ltb_spec (w + a) (2 ^ 256)); cbn; split; intros; try lia; try discriminate; auto.
  - rewrite lookup_empty in *. cbn in *. split; [lia|auto].
Qed.

Lemma decrease_some_iff s t u a : bals_ok s -> 0 < a ->
  (exists r, decrease_token_balance s t u (Some a) = Ok r) <-> a <= bal s u t.
Proof.
  intros B Ha. split.
  - intros [[s' v] E]. apply decrease_spec in E as (_ & _ & _ & E & ->). lia.
  - intros Hb. unfold decrease_token_balance. rewrite bool_decide_eq_false_2 by (intros [= ->]; lia).
    unfold bal, balm in Hb. destruct (s_balances s !! u) as [m|] eqn:Em; cbn in Hb.
    + destruct (m !! t) as [w|] eqn:Ew; cbn in Hb; [|lia]. cbn [ok_or bind]. rewrite Ew. cbn [ok_or bind].
      destruct (Z.eqb_spec a w); cbn [negb].
      * destruct (bool_decide _); eauto.
      * unfold dec_checked_sub. rewrite checked_sub_ok by lia. cbn. eauto.
    + rewrite lookup_empty in Hb. cbn in Hb. lia.
Qed.

Lemma decrease_none_cases s t u : bals_pos s ->
  (bal s u t = 0 /\ decrease_token_balance s t u None = Err NoBalanceForTheToken) \/
  (0 < bal s u t /\ exists s', decrease_token_balance s t u None = Ok (s', bal s u t)).
Proof.
  intros [B N]. pose proof (u256_M _ (B u t)) as Hb. unfold decrease_token_balance, bal, balm in *.
  rewrite bool_decide_eq_false_2 by discriminate.
  destruct (s_balances s !! u) as [m|] eqn:Em; cbn [from_option id ok_or bind] in *.
  - pose proof (N _ _ t Em) as Hn. destruct (m !! t) as [w|] eqn:Ew; cbn in *.
    + right. assert (w <> 0) by congruence. split; [lia|]. destruct (bool_decide _); eauto.
    + left. auto.
  - rewrite lookup_empty. left. auto.
Qed.

Lemma send_iff s id ok t from to a ty :
  (exists r, send_transfer_token_message s id ok t from to a ty = Ok r) <-> a <> 0 /\ from <> to /\ ok = true.
Proof.
  unfold send_transfer_token_message. destruct (Z.eqb_spec a 0); cbn [fail_if bind].
  - split; [intros [r Hr]; discriminate|tauto].
  - destruct (Z.eqb_spec from to); cbn [fail_if bind].
    + split; [intros [r Hr]; discriminate|tauto].
    + destruct ok; cbn [negb fail_if bind]; (split; [intros [r Hr]; try discriminate; auto|intros; eauto]).
      destruct H as (_ & _ & H). discriminate.
Qed.

Lemma endpoints_ne e ty : let (from, to) := endpoints e ty in from <> to <-> e_caller e <> e_program e.
Proof. destruct ty; cbn; split; congruence. Qed.

Lemma single_iff e n s t a ty : a <> 0 ->
  (exists r, transfer_single_send e n s t a ty = Ok r) <-> sendable e n [(t, a)].
Proof.
  intros Ha. unfold transfer_single_send, sendable. cbn [nonzero List.filter snd].
  destruct (Z.eqb_spec a 0); [contradiction|]. cbn [negb length]. change TRANSFER_COST with 42400200000.
  pose proof (endpoints_ne e ty) as EP. destruct (endpoints e ty) as [from to].
  destruct (Z.eqb_spec t VARA_ADDRESS) as [->|Ht]; cbn [fail_if bind].
  { split; [intros [r Hr]; discriminate|]. intros [H _]. exfalso. apply (H VARA_ADDRESS a); [left; reflexivity|reflexivity]. }
  destruct (Z.ltb_spec (e_gas e) 42400200000); cbn [fail_if bind].
  { split; [intros [r Hr]; discriminate|]. intros (_ & H1 & _). destruct (H1 ltac:(discriminate)) as [H2 _]. cbn in H2. lia. }
  pose proof (send_iff s (n_id1 n) (n_ok1 n) t from to a ty) as S.
  split.
  - intros [r Hr]. apply bind_Ok in Hr as (x & Hx & _). apply map_err_Ok in Hx.
    destruct (proj1 S (ex_intro _ _ Hx)) as (_ & S2 & S3).
    split; [intros t' a' [E|[]]; injection E as <- <-; exact Ht|].
    split; [intros _; split; [lia|split; [apply EP; auto|auto]]|]. intros HH. exfalso. lia.
  - intros (_ & H3 & _). destruct (H3 ltac:(discriminate)) as (_ & H4 & H5).
    destruct (proj2 S) as [[s1 q] Hr]; [split; [auto|split; [apply EP; auto|auto]]|]. rewrite Hr. cbn. eauto.
Qed.

Lemma pair_iff e n s t a t' a' ty : a <> 0 -> a' <> 0 ->
  (exists r, transfer_pair_send e n s (t, a) (t', a') ty = Ok r) <-> sendable e n [(t, a); (t', a')].
Proof.
  intros Ha Ha'. unfold transfer_pair_send, sendable. cbn [nonzero List.filter fst snd].
  destruct (Z.eqb_spec a 0); [contradiction|]. destruct (Z.eqb_spec a' 0); [contradiction|].
  cbn [negb length List.filter snd]. change (2 * TRANSFER_COST) with 84800400000.
  pose proof (endpoints_ne e ty) as EP. destruct (endpoints e ty) as [from to].
  destruct (Z.eqb_spec t VARA_ADDRESS) as [->|Ht]; cbn [orb fail_if bind].
  { split; [intros [r Hr]; discriminate|]. intros [H _]. exfalso. apply (H VARA_ADDRESS a); [left; reflexivity|reflexivity]. }
  destruct (Z.eqb_spec t' VARA_ADDRESS) as [->|Ht']; cbn [orb fail_if bind].
  { split; [intros [r Hr]; discriminate|]. intros [H _]. exfalso. apply (H VARA_ADDRESS a'); [right; left; reflexivity|reflexivity]. }
  destruct (Z.ltb_spec (e_gas e) 84800400000); cbn [fail_if bind].
  { split; [intros [r Hr]; discriminate|]. intros (_ & H1 & _). destruct (H1 ltac:(discriminate)) as [H2 _]. cbn in H2. lia. }
  split.
  - intros [r Hr]. apply bind_Ok in Hr as ([s1 q] & Hx & Hr). apply bind_Ok in Hr as ([s2 q2] & Hy & _).
    destruct (proj1 (send_iff _ _ _ _ _ _ _ _) (ex_intro _ _ Hx)) as (_ & S2 & S3).
    destruct (proj1 (send_iff _ _ _ _ _ _ _ _) (ex_intro _ _ Hy)) as (_ & _ & S4).
    split; [intros t0 a0 [E|[E|[]]]; injection E as <- <-; auto|].
    split; [intros _; split; [lia|split; [apply EP; auto|auto]]|]. auto.
  - intros (_ & H3 & H3'). destruct (H3 ltac:(discriminate)) as (_ & H4 & H5). specialize (H3' ltac:(cbn; lia)).
    destruct (proj2 (send_iff s (n_id1 n) (n_ok1 n) t from to a ty)) as [[s1 q] Hr]; [split; [auto|split; [apply EP; auto|auto]]|].
    destruct (proj2 (send_iff s1 (n_id2 n) (n_ok2 n) t' from to a' ty)) as [[s2 q2] Hr2]; [split; [auto|split; [apply EP; auto|auto]]|].
    rewrite Hr. cbn. rewrite Hr2. cbn. eauto.
Qed.

Lemma sendable_same e n l l' : nonzero l = nonzero l' -> sendable e n l <-> sendable e n l'.
Proof. unfold sendable. intros ->. reflexivity. Qed.

Lemma pair_or_single_iff e n s x y ty :
  (exists r, transfer_pair_or_single e n s x y ty = Ok r) <-> sendable e n [x; y].
Proof.
  destruct x as [t a], y as [t' a']. unfold transfer_pair_or_single. cbn [fst snd].
  destruct (Z.eqb_spec a 0) as [->|Ha]; cbn [negb andb].
  - destruct (Z.eqb_spec a' 0) as [->|Ha']; cbn [negb].
    + split; [|eauto]. intros _. unfold sendable. cbn. split; [intros ? ? []|]. split; [congruence|lia].
    + rewrite single_iff by auto. apply sendable_same. cbn. reflexivity.
  - destruct (Z.eqb_spec a' 0) as [->|Ha']; cbn [negb].
    + rewrite single_iff by auto. apply sendable_same. cbn. destruct (a =? 0); reflexivity.
    + apply pair_iff; auto.
Qed.

Lemma starts_bind {A B} (r : res A) (f : A -> res B) : (forall x, exists y, f x = Ok y) ->
  (exists y, bind r f = Ok y) <-> (exists x, r = Ok x).
Proof.
  intros F. split.
  - intros [y Hy]. apply bind_Ok in Hy as (x & Hx & _). eauto.
  - intros [x ->]. cbn. apply F.
Qed.

Lemma fail_if_iff {A} (b : bool) er (r : res A) :
  (exists x, (let* _ := fail_if b er in r) = Ok x) <-> b = false /\ (exists x, r = Ok x).
Proof. destruct b; cbn; split; [intros [x Hx]; discriminate|intros [? _]; discriminate|auto|tauto]. Qed.

Lemma nonzero_pair x y : snd x <> 0 -> snd y <> 0 -> nonzero [x; y] = [x; y].
Proof.
  intros Hx Hy. cbn. destruct (Z.eqb_spec (snd x) 0); [contradiction|]. destruct (Z.eqb_spec (snd y) 0); [contradiction|]. reflexivity.
Qed.

Lemma pair_or_single_asks e n s x y ty s' qs : transfer_pair_or_single e n s x y ty = Ok (s', qs) ->
  map (fun q => (q_token q, q_amount q)) qs = nonzero [x; y].
Proof.
  destruct x as [t a], y as [t' a']. unfold transfer_pair_or_single. cbn [fst snd nonzero List.filter].
  destruct (Z.eqb_spec a 0) as [->|Ha]; cbn [negb andb]; destruct (Z.eqb_spec a' 0) as [->|Ha']; cbn [negb].
  - intros [= <- <-]. reflexivity.
  - intros H. apply single_send_spec in H as (_ & _ & H). exact H.
  - intros H. apply single_send_spec in H as (_ & _ & H). exact H.
  - intros H. apply pair_send_spec in H as (_ & _ & H). exact H.
Qed.

Section Start.
Context (evs : list event) (s : state) (H : history room evs s) (e : env) (n : send_env).
Let c := e_caller e.

Lemma hist_pos : bals_pos s.
Proof using H. exact (bals_pos_history room evs s (fun _ _ X => X) H). Qed.

(** A deposit starts exactly when the amount is not zero, the credit will fit and
    the transfer can be requested; then exactly that transfer is requested. *)
Theorem C52_deposit_single t a : u256 a ->
  (starts (async_start e n s (DepositSingleToken t a)) <-> a <> 0 /\ bal s c t + a < 2 ^ 256 /\ sendable e n [(t, a)]) /\
  (starts (async_start e n s (DepositSingleToken t a)) -> asks (async_start e n s (DepositSingleToken t a)) Deposit [(t, a)]).
Proof using H.
  intros Ha. pose proof hist_pos as [B N]. split.
  - unfold starts. cbn [async_start]. rewrite fail_if_iff, negb_false_iff, can_increase_iff by auto.
    rewrite starts_bind by (intros [s1 qs]; eauto).
    destruct (Z.eq_dec a 0) as [->|H0].
    + split; [intros [_ [r Hr]]|intros [? _]; congruence]. unfold transfer_single_send in Hr.
      apply bind_Ok in Hr as (? & _ & Hr). apply bind_Ok in Hr as (? & _ & Hr). cbn in Hr. destruct (endpoints e Deposit). discriminate.
    + rewrite single_iff by auto. fold c. tauto.
  - intros [[[s' ty] qs] E]. exists s', qs. pose proof E as E0. cbn [async_start] in E.
    apply bind_Ok in E as (u & _ & E). apply bind_Ok in E as ([s1 q1] & E & E1). injection E1 as -> <- ->.
    split; [exact E0|]. assert (H0 : a <> 0).
    { intros ->. unfold transfer_single_send in E.
      apply bind_Ok in E as (? & _ & E). apply bind_Ok in E as (? & _ & E). cbn in E. discriminate. }
    apply single_send_spec in E as (_ & _ & E). rewrite E. cbn. destruct (Z.eqb_spec a 0); [contradiction|reflexivity].
Qed.

Theorem C52_deposit_pair t a t' a' : u256 a -> u256 a' ->
  (starts (async_start e n s (DepositTokenPair (t, a) (t', a'))) <->
     t <> t' /\ bal s c t + a < 2 ^ 256 /\ bal s c t' + a' < 2 ^ 256 /\ sendable e n [(t, a); (t', a')]) /\
  (starts (async_start e n s (DepositTokenPair (t, a) (t', a'))) ->
     asks (async_start e n s (DepositTokenPair (t, a) (t', a'))) Deposit [(t, a); (t', a')]).
Proof using H.
  intros Ha Ha'. pose proof hist_pos as [B N]. split.
  - unfold starts. cbn [async_start fst snd]. rewrite !fail_if_iff, orb_false_iff, !negb_false_iff, !can_increase_iff by auto.
    rewrite starts_bind by (intros [s1 qs]; eauto). rewrite pair_or_single_iff, Z.eqb_neq. fold c. tauto.
  - intros [[[s' ty] qs] E]. exists s', qs. pose proof E as E0. cbn [async_start fst snd] in E.
    apply bind_Ok in E as (u & _ & E). apply bind_Ok in E as (u2 & _ & E).
    apply bind_Ok in E as ([s1 q1] & E & E1). injection E1 as -> <- ->.
    split; [exact E0|]. eapply pair_or_single_asks; eauto.
Qed.

(** How much a withdrawal takes: the named amount, or everything. *)
Definition wanted (t : Z) (amount : option Z) : Z := match amount with Some a => a | None => bal s c t end.

(** A withdrawal starts exactly when the amount, if named, is positive and covered
    by the caller's balance, and the transfer (if there is anything to transfer) can
    be requested. *)
Theorem C52_withdraw_single t amount : opt_u256 amount ->
  (starts (async_start e n s (WithdrawSingleToken t amount)) <->
     (forall a, amount = Some a -> 0 < a <= bal s c t) /\ sendable e n [(t, wanted t amount)]) /\
  (starts (async_start e n s (WithdrawSingleToken t amount)) ->
     asks (async_start e n s (WithdrawSingleToken t amount)) Withdrawal [(t, wanted t amount)]).
Proof using H.
  intros Ha. pose proof hist_pos as BP. pose proof BP as [B N]. destruct amount as [a|]; cbn [wanted async_start].
  - cbn in Ha. apply u256_M in Ha. destruct (Z.eqb_spec a 0) as [->|H0]; cbn [fail_if bind].
    { split; [split; [intros [x Hx]; discriminate|intros [X _]; specialize (X 0 eq_refl); lia]|intros [x Hx]; discriminate]. }
    pose proof (decrease_some_iff s t (e_caller e) a B ltac:(lia)) as DI.
    destruct (decrease_token_balance s t (e_caller e) (Some a)) as [[s1 v]|er| |] eqn:ED; cbn [bind].
    + pose proof (proj1 DI (ex_intro _ _ eq_refl)) as Hle. apply decrease_spec in ED as (_ & _ & _ & _ & ->).
      destruct (Z.eqb_spec a 0); [contradiction|]. cbn [negb]. split.
      * unfold starts. rewrite starts_bind by (intros [s2 qs]; eauto). rewrite single_iff by auto.
        split; [intros S; split; [intros a0 [= <-]; fold c in Hle; lia|auto]|intros [_ S]; auto].
      * intros [[[s' ty] qs] E]. exists s', qs. apply bind_Ok in E as ([s2 q2] & E & E1). injection E1 as -> <- ->.
        rewrite E. split; [reflexivity|]. apply single_send_spec in E as (_ & _ & E). rewrite E. cbn. destruct (Z.eqb_spec a 0); [contradiction|reflexivity].
    + split; [|intros [x Hx]; discriminate]. split; [intros [x Hx]; discriminate|]. intros [X _]. specialize (X a eq_refl).
      destruct (proj2 DI) as [r Hr]; [fold c; lia|discriminate].
    + split; [|intros [x Hx]; discriminate]. split; [intros [x Hx]; discriminate|]. intros [X _]. specialize (X a eq_refl).
      destruct (proj2 DI) as [r Hr]; [fold c; lia|discriminate].
    + split; [|intros [x Hx]; discriminate]. split; [intros [x Hx]; discriminate|]. intros [X _]. specialize (X a eq_refl).
      destruct (proj2 DI) as [r Hr]; [fold c; lia|discriminate].
  - destruct (decrease_none_cases s t (e_caller e) BP) as [[Hb ->]|[Hb [s1 ->]]]; cbn [bind]; fold c in Hb; fold c.
    + rewrite Hb. cbn [Z.eqb negb]. split.
      * split; [intros _; split; [discriminate|]|intros _; eexists; reflexivity]. unfold sendable. cbn. split; [tauto|]. split; [congruence|lia].
      * intros _. eexists _, _. split; reflexivity.
    + destruct (Z.eqb_spec (bal s c t) 0); [lia|]. cbn [negb]. split.
      * unfold starts. rewrite starts_bind by (intros [s2 qs]; eauto). rewrite single_iff by lia.
        split; [intros S; split; [discriminate|auto]|intros [_ S]; auto].
      * intros [[[s' ty] qs] E]. exists s', qs. apply bind_Ok in E as ([s2 q2] & E & E1). injection E1 as -> <- ->.
        rewrite E. split; [reflexivity|]. apply single_send_spec in E as (_ & _ & E). rewrite E. cbn. destruct (Z.eqb_spec (bal s c t) 0); [lia|reflexivity].
Qed.

Lemma amount_or_zero_iff s0 t amount : bals_pos s0 -> opt_u256 amount ->
  (exists s1, amount_or_zero amount (decrease_token_balance s0 t c amount) s0 = Ok (s1, match amount with Some a => a | None => bal s0 c t end) /\
     (exists B, s1 = set_balances B s0) /\ bals_pos s1 /\ (forall t', t' <> t -> bal s1 c t' = bal s0 c t') /\
     (forall a, amount = Some a -> a <= bal s0 c t)) \/
  ((forall r, amount_or_zero amount (decrease_token_balance s0 t c amount) s0 <> Ok r) /\
     exists a, amount = Some a /\ bal s0 c t < a).
Proof using.
  intros BP Ha. pose proof BP as [B N]. destruct amount as [a|].
  - cbn in Ha. apply u256_M in Ha. assert (AZ : forall r, amount_or_zero (Some a) r s0 = r) by (intros [| | |]; try reflexivity; destruct e0; reflexivity).
    rewrite AZ. destruct (Z.eq_dec a 0) as [->|H0].
    + left. exists s0. split; [reflexivity|]. split; [exists (s_balances s0); destruct s0; reflexivity|]. split; [auto|]. split; [auto|].
      intros a [= <-]. apply u256_M, B.
    + pose proof (decrease_some_iff s0 t c a B ltac:(lia)) as DI.
      destruct (Z_le_gt_dec a (bal s0 c t)) as [Hle|Hgt].
      * left. destruct (proj2 DI Hle) as [[s1 v] E]. assert (NN : forall b, Some a = Some b -> 0 <= b) by (intros b [= <-]; lia).
        pose proof (decrease_pos _ _ _ _ _ _ BP NN E) as [BP1 _].
        rewrite E. apply decrease_spec in E as (E1 & E2 & _ & _ & ->). exists s1. split; [reflexivity|]. split; [auto|]. split; [auto|].
        split; [|intros b [= <-]; auto]. intros t' Hne. rewrite E2. unfold at_. rewrite Z.eqb_refl. cbn [andb]. destruct (Z.eqb_spec t' t); [contradiction|lia].
      * right. split; [|eauto]. 2:{ exists a. split; [reflexivity|lia]. } intros r E. pose proof (proj1 DI (ex_intro _ _ E)). lia.
  - left. destruct (decrease_none_cases s0 t c BP) as [[Hb ->]|[Hb [s1 E]]].
    + exists s0. cbn. rewrite Hb. split; [reflexivity|]. split; [exists (s_balances s0); destruct s0; reflexivity|]. split; [auto|]. split; [auto|]. discriminate.
    + rewrite E. exists s1. cbn. assert (NN : forall b, @None Z = Some b -> 0 <= b) by discriminate.
      pose proof (decrease_pos _ _ _ _ _ _ BP NN E) as [BP1 _].
      apply decrease_spec in E as (E1 & E2 & _ & _). split; [reflexivity|]. split; [auto|]. split; [auto|]. split; [|discriminate].
      intros t' Hne. rewrite E2. unfold at_. rewrite Z.eqb_refl. cbn [andb]. destruct (Z.eqb_spec t' t); [contradiction|lia].
Qed.

Theorem C52_withdraw_pair t amount t' amount' : opt_u256 amount -> opt_u256 amount' ->
  (starts (async_start e n s (WithdrawTokenPair (t, amount) (t', amount'))) <->
     t <> t' /\ (forall a, amount = Some a -> a <= bal s c t) /\ (forall a, amount' = Some a -> a <= bal s c t') /\
     sendable e n [(t, wanted t amount); (t', wanted t' amount')]) /\
  (starts (async_start e n s (WithdrawTokenPair (t, amount) (t', amount'))) ->
     asks (async_start e n s (WithdrawTokenPair (t, amount) (t', amount'))) Withdrawal
       [(t, wanted t amount); (t', wanted t' amount')]).
Proof using H.
  intros Ha Ha'. pose proof hist_pos as BP. cbn [async_start fst snd].
  destruct (Z.eqb_spec t t') as [->|Ht]; cbn [fail_if bind].
  { split; [split; [intros [x Hx]; discriminate|tauto]|intros [x Hx]; discriminate]. }
  destruct (amount_or_zero_iff s t amount BP Ha) as [(s1 & E1 & _ & BP1 & EB & C1)|[F1 (a & -> & Hlt)]]; fold c.
  - rewrite E1. cbn [bind]. destruct (amount_or_zero_iff s1 t' amount' BP1 Ha') as [(s2 & E2 & _ & _ & _ & C2)|[F2 (a & -> & Hlt)]].
    + rewrite E2. cbn [bind]. rewrite (EB t') by auto. rewrite (EB t') in C2 by auto.
      fold (wanted t amount). fold (wanted t' amount'). split.
      * unfold starts. rewrite starts_bind by (intros [s3 qs]; eauto). rewrite pair_or_single_iff. tauto.
      * intros [[[s' ty] qs] E]. exists s', qs. apply bind_Ok in E as ([s3 q2] & E & E3). injection E3 as -> <- ->.
        rewrite E. split; [reflexivity|]. eapply pair_or_single_asks; eauto.
    + rewrite (EB t') in Hlt by auto.
      assert (X : ~ starts (let* (s2, y) := amount_or_zero (Some a) (decrease_token_balance s1 t' c (Some a)) s1 in
                 let* (s3, qs) := transfer_pair_or_single e n s2 (t, match amount with Some a0 => a0 | None => bal s c t end) (t', y) Withdrawal in
                 Ok (s3, Withdrawal, qs))).
      { intros [x Hx]. apply bind_Ok in Hx as (r & Hr & _). exact (F2 _ Hr). }
      split; [split; [intros S; contradiction|intros (_ & _ & C & _); specialize (C a eq_refl); lia]|intros S; contradiction].
  - assert (X : forall r, amount_or_zero (Some a) (decrease_token_balance s t c (Some a)) s <> Ok r) by exact F1.
    destruct (amount_or_zero (Some a) (decrease_token_balance s t c (Some a)) s) as [r|er| |]; [destruct (X r eq_refl)| | |]; cbn [bind];
      (split; [split; [intros [x Hx]; discriminate|intros (_ & C & _); specialize (C a eq_refl); lia]|intros [x Hx]; discriminate]).
Qed.
End Start.

(** ** Concrete cases *)

(** The listing leaves out pools whose fee tier has been removed although they still
    exist and trade. *)
Definition evs_untiered : list event := evs_traded ++ [Call (by_ admin) (OpRemoveFeeTier tier1)].
Definition s_untiered : state := run_events admin 10000000000 evs_untiered.
Lemma s_untiered_room : history room evs_untiered s_untiered.
Proof.
  apply history_room; [|reflexivity]. apply run_events_history; [unfold u128; lia|].
  unfold evs_untiered, evs_traded, setup, positions3, swaps. wf_events.
Qed.
Theorem C51_pools_of_a_pair_complete_refuted :
  exists evs s a b ft l, history room evs s /\ a <> b /\ is_Ok (get_pool s a b ft) = true /\
    get_all_pools_for_pair s a b = Ok l /\ ~ In ft (map fst l) /\
    is_Ok (swap (by_ bob) s (mkPoolKey a b ft) true 1000 true 15258932000000000000) = true.
Proof.
  exists evs_untiered, s_untiered, tokA, tokB, tier1, []. split; [apply s_untiered_room|]. split; [discriminate|].
  split; [vm_compute; reflexivity|]. split; [vm_compute; reflexivity|]. split; [intros []|vm_compute; reflexivity].
Qed.

(** Carol opens a position whose lower tick exists already and whose upper tick is
    new and above the price. *)
Definition carol_opens := create_position (by_ carol) s_traded pool1 (-20) 50 1000000 0 any_price.
Definition tick_view (s : state) (i : Z) : option (Z * Z * Z) :=
  match get_tick s pool1 i with
  | Ok t => Some (t_index t, t_fee_growth_outside_x t, t_seconds_outside t)
  | _ => None
  end.
Example C51_case :
  history room evs_traded s_traded /\
  room s_traded (Call (by_ carol) (OpCreatePosition pool1 (-20) 50 1000000 0 any_price)) /\
  match carol_opens with
  | Ok (s', pos) =>
      (pos_last_block_number pos, get_user_position_amount s' carol, tick_view s_traded (-20), tick_view s' (-20),
       tick_view s_traded 50, tick_view s' 50)
      = (5, 1, Some (-20, 0, 0), Some (-20, 0, 0), None, Some (50, 0, 0))
  | _ => False
  end /\
  match get_all_pools_for_pair s_traded tokB tokA with Ok [(ft, p)] => (ft, p_current_tick_index p) = (tier1, -20) | _ => False end /\
  get_user_balances s_traded carol = [(tokB, 1002864); (tokA, 997100)].
Proof.
  split; [apply s_traded_room|]. split.
  - intros owner. pose proof (proj2 (history_room _ _ s_traded_history ltac:(reflexivity)) owner) as X.
    change (Z.of_nat (length evs_traded)) with 14 in X. lia.
  - crunch.
Qed.

(** Carol can deposit, unless the credit would not fit, gas is short, or the token
    is VARA; she can withdraw what she owns, and not more. *)
Definition ids : send_env := mkSendEnv 1 2 true true.
Definition poor : env := mkEnv carol 1000 5 0 42400199999 99.
Definition begins (e : env) (o : async_op) : bool := is_Ok (async_start e ids s_traded o).
Example C52_case :
  history room evs_traded s_traded /\
  bal s_traded carol tokA = 997100 /\
  begins (by_ carol) (DepositSingleToken tokA 5) = true /\
  begins (by_ carol) (DepositSingleToken tokA 0) = false /\
  begins (by_ carol) (DepositSingleToken tokA (2 ^ 256 - 997101)) = true /\
  begins (by_ carol) (DepositSingleToken tokA (2 ^ 256 - 997100)) = false /\
  begins (by_ carol) (DepositSingleToken VARA_ADDRESS 5) = false /\
  begins poor (DepositSingleToken tokA 5) = false /\
  begins (by_ 99) (DepositSingleToken tokA 5) = false /\
  begins (by_ carol) (DepositTokenPair (tokA, 5) (tokB, 0)) = true /\
  begins (by_ carol) (DepositTokenPair (tokA, 5) (tokB, 2 ^ 256 - 1002864)) = false /\
  begins (by_ carol) (DepositTokenPair (tokA, 5) (tokA, 6)) = false /\
  begins (by_ carol) (WithdrawSingleToken tokA (Some 997100)) = true /\
  begins (by_ carol) (WithdrawSingleToken tokA (Some 997101)) = false /\
  begins (by_ carol) (WithdrawSingleToken tokA None) = true /\
  begins (by_ 50) (WithdrawSingleToken tokA None) = true /\
  begins (by_ carol) (WithdrawTokenPair (tokA, None) (tokB, Some 1002865)) = false /\
  begins (by_ carol) (WithdrawTokenPair (tokA, None) (tokB, Some 0)) = true.
Proof. split; [apply s_traded_room|]. crunch. Qed.

(** ** Assumptions *)
Print Assumptions C51_new_position.
Print Assumptions C51_boundary_ticks.
Print Assumptions C51_pools_of_a_pair.
Print Assumptions C51_pair_of_one_token.
Print Assumptions C51_balances_listed.
Print Assumptions C52_deposit_single.
Print Assumptions C52_deposit_pair.
Print Assumptions C52_withdraw_single.
Print Assumptions C52_withdraw_pair.
Print Assumptions C51_pools_of_a_pair_complete_refuted.
