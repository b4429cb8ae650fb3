(** Quotes, swaps and routes. *)
From Verif Require Import Base Decimal SqrtPriceM LogM ClammM FeeGrowthM Types TickmapM StorageM
  CollectionsM StateM ServiceM Arith SpecMath SpecFees SpecSum SpecState SpecHistory SpecRoute P_Clamm P_Delta P_Next P_Step
  P_StepProps P_TickPrice P_GetTick P_Tickmap P_Closer
  P_Fees P_Balance P_Effects P_Positions P_History P_Loop P_Check P_State P_Iter P_Inv P_InvPos P_InvSwap P_Swap P_SwapLoop P_InvHist.
From stdpp Require Import gmap list.
From Coq Require Import ZArith Lia Bool.
Open Scope Z_scope.

Lemma decrease_ok s token user a : 0 <= a -> a <= bal s user token ->
  exists s', decrease_token_balance s token user (Some a) = Ok (s', a).
Proof.
  intros H0 H. unfold decrease_token_balance.
  destruct (bool_decide_reflect (Some a = Some 0)) as [[= ->]|Hn]; [eauto|].
  assert (a <> 0) by congruence. unfold bal, balm in H.
  destruct (s_balances s !! user) as [tokens|]; cbn [from_option id] in H; [|rewrite lookup_empty in H; cbn in H; lia].
  cbn [ok_or bind]. destruct (tokens !! token) as [b|]; cbn [from_option id] in H; [|cbn in H; lia].
  cbn [ok_or bind]. destruct (Z.eqb_spec a b) as [->|]; cbn [negb].
  - destruct (bool_decide _); eauto.
  - unfold dec_checked_sub. rewrite checked_sub_ok by lia. cbn. eauto.
Qed.

Lemma put_ticks_some k i l : forall m, is_Some (m !! (k, i)) -> is_Some (put_ticks k l m !! (k, i)).
Proof.
  induction l as [|t l IH]; cbn [put_ticks]; intros m H; [auto|]. apply IH.
  destruct (Z.eq_dec (t_index t) i) as [->|]; [rewrite lookup_insert; eauto|].
  rewrite lookup_insert_ne by (intros [= Hx]; lia). auto.
Qed.

Lemma put_ticks_fold_ok k l : forall s, (forall t, t ∈ l -> is_Some (s_ticks s !! (k, t_index t))) ->
  foldM_res (fun s t => ticks_update s k (t_index t) t) l s = Ok (set_ticks (put_ticks k l (s_ticks s)) s).
Proof.
  induction l as [|t l IH]; cbn [foldM_res put_ticks]; intros s H.
  - destruct s; reflexivity.
  - unfold ticks_update at 1, ticks_get. destruct (H t ltac:(left)) as [t0 Ht]. rewrite Ht. cbn [ok_or bind].
    rewrite IH; [reflexivity|]. intros t' Ht'. cbn [set_ticks s_ticks].
    destruct (Z.eq_dec (t_index t) (t_index t')) as [->|]; [rewrite lookup_insert; eauto|].
    rewrite lookup_insert_ne by (intros [= Hx]; lia). apply H. right. auto.
Qed.

Lemma swap_ok e s k d a bi lim r : Inv s -> u256 a ->
  calculate_swap s (e_timestamp e) k d a bi lim = Ok r ->
  cs_amount_in r <= bal s (e_caller e) (if d then pk_token_x k else pk_token_y k) ->
  bal s (e_caller e) (if d then pk_token_y k else pk_token_x k) + cs_amount_out r < M256 ->
  exists s', swap e s k d a bi lim = Ok (s', r).
Proof.
  intros I Ha H Hin Hout. unfold swap. rewrite H. cbn [bind].
  destruct (calculate_swap_pool _ _ _ _ _ _ _ _ H) as [p0 Hp0].
  destruct (swap_induction s k d bi lim (e_timestamp e) a p0 I Hp0 Ha (fun _ => True) r) as (l & V & _ & _ & _ & _ & E); auto.
  rewrite put_ticks_fold_ok.
  2: { intros t Ht. rewrite E in Ht. cbn [cs_ticks] in Ht. apply (v_sub _ _ _ _ _ _ _ V).
       unfold done_ticks. apply elem_of_list_fmap. eauto. }
  cbn [bind]. unfold pools_update, pools_get. cbn [set_ticks s_pools]. rewrite Hp0. cbn [ok_or bind].
  set (s1 := set_pools _ _).
  pose proof (u256_M _ (v_in _ _ _ _ _ _ _ V)) as H0.
  assert (Hi0 : 0 <= cs_amount_in r) by (rewrite E; cbn; lia).
  destruct (decrease_ok s1 (if d then pk_token_x k else pk_token_y k) (e_caller e) (cs_amount_in r) Hi0) as [s2 E2]; [exact Hin|].
  pose proof E2 as E2'. apply decrease_spec in E2' as (_ & D & _).
  destruct (increase_ok s2 (if d then pk_token_y k else pk_token_x k) (e_caller e) (cs_amount_out r)) as [s3 E3].
  { rewrite D. change (bal s1 ?u ?t) with (bal s u t). unfold at_. destruct (_ && _); lia. }
  exists s3. destruct d; rewrite E2; cbn [bind]; rewrite E3; reflexivity.
Qed.

(** ** A swap computation depends only on its own pool *)

Lemma bind_ext {A B} (r : res A) (f g : A -> res B) : (forall a, f a = g a) -> bind r f = bind r g.
Proof. intros H. destruct r; cbn; auto. Qed.

Lemma iterate_ext {S} (fin : S -> bool) (f g : S -> res S) n : (forall s, f s = g s) ->
  forall s, iterate fin f n s = iterate fin g n s.
Proof.
  intros H. induction n as [|n IH]; intros s; cbn [iterate].
  - unfold loop_once. rewrite H. reflexivity.
  - rewrite IH. destruct (iterate fin g n s); auto.
Qed.

Definition same_pool (k : pool_key) (s s' : state) : Prop :=
  s_pools s' !! k = s_pools s !! k /\ (forall i, s_ticks s' !! (k, i) = s_ticks s !! (k, i)) /\
  s_bitmap s' = s_bitmap s /\ s_protocol_fee s' = s_protocol_fee s.

Lemma calculate_swap_same s s' ts k d a bi lim : same_pool k s s' ->
  calculate_swap s' ts k d a bi lim = calculate_swap s ts k d a bi lim.
Proof.
  intros (H1 & H2 & H3 & H4). unfold calculate_swap, pools_get. rewrite H1.
  apply bind_ext. intros _. apply bind_ext. intros p. apply bind_ext. intros _. apply bind_ext. intros tl.
  unfold while_loop. erewrite iterate_ext; [reflexivity|]. intros l. unfold swap_iteration. rewrite H3, H4.
  apply bind_ext. intros [sl lt].
  do 8 (apply bind_ext; intros ?).
  unfold ticks_get. destruct lt as [[i b]|]; [|reflexivity]. rewrite H2. reflexivity.
Qed.

Lemma same_pool_swap e s k d a bi lim s' r k' : swap e s k d a bi lim = Ok (s', r) -> k' <> k -> same_pool k' s s'.
Proof.
  intros H Hne. apply swap_inv in H as (B & _ & -> & _). unfold same_pool.
  cbn [set_balances set_pools set_ticks s_pools s_ticks s_bitmap s_protocol_fee].
  rewrite lookup_insert_ne by congruence. split; [reflexivity|]. split; [|auto].
  intros i. apply put_ticks_ne. intros ->. contradiction.
Qed.

Lemma same_pool_trans k s1 s2 s3 : same_pool k s1 s2 -> same_pool k s2 s3 -> same_pool k s1 s3.
Proof. intros (A1 & A2 & A3 & A4) (B1 & B2 & B3 & B4). repeat split; try congruence. Qed.

Lemma route_quote_same e hops : forall s0 s a s' out, NoDup (map h_pool_key hops) ->
  (forall k, k ∈ map h_pool_key hops -> same_pool k s0 s) ->
  route_swap e s a hops = Ok (s', out) -> route_quote e s0 a hops = Ok out.
Proof.
  induction hops as [|h hops IH]; cbn [route_swap route_quote map]; intros s0 s a s' out ND HS H.
  - injection H as _ ->. reflexivity.
  - apply bind_Ok in H as ([s1 r] & E & H). inversion ND as [|? ? Hni ND']; subst.
    pose proof E as E'. apply swap_inv in E' as (_ & Ec & _).
    rewrite (calculate_swap_same s0 s) in Ec by (apply HS; left). rewrite Ec. cbn [bind].
    apply (IH s0 s1 _ s'); auto. intros k Hk. apply (same_pool_trans k s0 s); [apply HS; right; auto|].
    eapply same_pool_swap; eauto. intros ->. contradiction.
Qed.

(** ** Balances along a route *)

Lemma flow_chained hops : forall t0 t' amounts a out t, chained t0 hops t' -> length amounts = S (length hops) ->
  hd_error amounts = Some a -> last amounts = Some out ->
  flow hops amounts t = (if t =? t' then out else 0) - (if t =? t0 then a else 0).
Proof.
  induction hops as [|h hs IH]; cbn [chained flow length]; intros t0 t' [|x [|y l]] a out t HC HL H1 H2; cbn [length] in HL; try lia.
  - subst. cbn in H1, H2. injection H1 as ->. injection H2 as ->. destruct (t =? t'); lia.
  - destruct HC as [<- HC]. cbn [hd_error] in H1. injection H1 as ->.
    rewrite (IH (hop_out h) t' (y :: l) y out t HC); [lia|cbn; lia|reflexivity|].
    rewrite last_cons_cons in H2. exact H2.
Qed.

Lemma route_flow e hops : forall s a s' out, Inv s -> u256 a -> route_swap e s a hops = Ok (s', out) ->
  exists amounts, length amounts = S (length hops) /\ hd_error amounts = Some a /\ last amounts = Some out /\
    Forall (fun x => 0 < x) (tl amounts) /\
    forall u t, bal s' u t = bal s u t + (if u =? e_caller e then flow hops amounts t else 0).
Proof.
  induction hops as [|h hs IH]; cbn [route_swap]; intros s a s' out I Ha H.
  - injection H as -> ->. exists [out]. cbn. repeat split; auto. intros. destruct (_ =? _); lia.
  - apply bind_Ok in H as ([s1 r] & E & H). pose proof E as E'. apply Inv_swap in E' as (I1 & _ & Hr); auto.
    apply IH in H as (amounts & L1 & L2 & L3 & L4 & L5); auto.
    apply swap_inv in E as (B & Ec & _ & D & _).
    destruct (calculate_swap_pool _ _ _ _ _ _ _ _ Ec) as [p0 Hp0].
    destruct (swap_induction s (h_pool_key h) (h_x_to_y h) true (hop_limit (h_x_to_y h)) (e_timestamp e) a p0 I Hp0 Ha
      (fun l => l_in l + l_remaining l = a) r) as (l & V & Hr0 & Hin & _ & Ho & Er); auto.
    { intros l l' target r0 p1 V Hnz Q1 S0 E PO1 Hpr V'.
      inversion E as [c' EP ET ER EI|c' v EP ET ER EZ EI|i t Ht Hti Hi Hn Hcl Hst EP ET ER EI|i p3 Hd Hbi Hr3 Hfex EP ET ER EI];
        rewrite ER, EI; lia. }
    assert (Ein : cs_amount_in r = a) by (rewrite Er; cbn; lia).
    pose proof (u256_M _ (v_out _ _ _ _ _ _ _ V)) as Ho'.
    assert (Eout : 0 < cs_amount_out r) by (rewrite Er; cbn; lia).
    exists (a :: amounts). split; [cbn; lia|]. split; [reflexivity|].
    destruct amounts as [|b rest]; [cbn in L1; lia|]. cbn in L2. injection L2 as ->.
    split; [rewrite last_cons_cons; exact L3|]. split; [constructor; [exact Eout|exact L4]|].
    intros u t. rewrite L5, D. unfold both, at_, hop_in, hop_out in *. rewrite Ein. cbn [flow].
    destruct (u =? e_caller e); cbn [andb]; [|lia]. unfold hop_in, hop_out.
    destruct (t =? _), (t =? _); lia.
Qed.
