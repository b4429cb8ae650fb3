(** Position lists (C16, C36). *)
From Verif Require Import Base Decimal Types CollectionsM StateM ServiceM SpecMath SpecHistory P_Clamm P_Balance P_Effects.
From stdpp Require Import gmap list.
From Coq Require Import ZArith Lia Bool.
Open Scope Z_scope.

(** Each owner's positions are indexed 0..length-1. *)
Definition dense (s : state) : Prop :=
  forall a, 0 <= positions_get_length s a < M32 /\
    forall i, is_Some (s_positions s !! (a, i)) <-> 0 <= i < positions_get_length s a.

Lemma range_nil lo hi : hi <= lo -> range lo hi = [].
Proof. intros. unfold range. apply seqZ_nil. lia. Qed.
Lemma range_length lo hi : lo <= hi -> Z.of_nat (length (range lo hi)) = hi - lo.
Proof. intros. unfold range. rewrite seqZ_length. lia. Qed.
Lemma range_lookup lo hi (j : nat) : range lo hi !! j = if Z.of_nat j <? hi - lo then Some (lo + Z.of_nat j) else None.
Proof.
  unfold range. destruct (Z.ltb_spec (Z.of_nat j) (hi - lo)).
  - apply lookup_seqZ. lia.
  - apply lookup_seqZ_ge. lia.
Qed.

Lemma mapM_res_ok {A B} (f : A -> res B) l :
  (forall a, In a l -> exists b, f a = Ok b) ->
  exists r, mapM_res f l = Ok r /\ length r = length l /\
    (forall j b, r !! j = Some b <-> exists a, l !! j = Some a /\ f a = Ok b).
Proof.
  induction l as [|a l IH]; intros H.
  - exists []. split; [reflexivity|]. split; [reflexivity|]. intros j b. rewrite !lookup_nil.
    split; [discriminate|]. intros (a & [=] & _).
  - destruct (H a) as (b & Hb); [left; reflexivity|].
    destruct IH as (r & Hr & Hl & Hlk); [intros; apply H; right; auto|].
    exists (b :: r). cbn [mapM_res]. rewrite Hb. cbn [bind]. rewrite Hr. cbn [bind].
    split; [reflexivity|]. split; [cbn; lia|].
    intros [|j] b'; cbn [lookup list_lookup].
    + split; [intros [= <-]; eauto|]. intros (a' & [= <-] & E). congruence.
    + apply Hlk.
Qed.

Lemma mapM_res_inv {A B} (f : A -> res B) l r : mapM_res f l = Ok r ->
  length r = length l /\ (forall j b, r !! j = Some b <-> exists a, l !! j = Some a /\ f a = Ok b).
Proof.
  revert r. induction l as [|a l IH]; intros r H; cbn [mapM_res] in H.
  - injection H as <-. split; [reflexivity|]. intros j b. rewrite !lookup_nil.
    split; [discriminate|]. intros (a & [=] & _).
  - apply bind_Ok in H as (b & Hb & H). apply bind_Ok in H as (r' & Hr & H). injection H as <-.
    apply IH in Hr as [Hl Hlk]. split; [cbn; lia|].
    intros [|j] b'; cbn [lookup list_lookup].
    + split; [intros [= <-]; eauto|]. intros (a' & [= <-] & E). congruence.
    + apply Hlk.
Qed.

(** [l] lists the positions of [a]. *)
Definition lists (s : state) (a : Z) (l : list position) : Prop :=
  positions_get_length s a = Z.of_nat (length l) /\
  forall i p, s_positions s !! (a, i) = Some p <-> 0 <= i /\ l !! Z.to_nat i = Some p.

Lemma dense_lists s a : dense s -> exists l, get_all_positions s a = Ok l /\ lists s a l.
Proof.
  intros D. destruct (D a) as [HL HD].
  destruct (mapM_res_ok (fun i => expect (s_positions s !! (a, i))) (range 0 (positions_get_length s a)))
    as (l & E & Hlen & Hlk).
  { intros i Hi. apply elem_of_list_In, elem_of_list_lookup in Hi as [j Hj].
    rewrite range_lookup in Hj. destruct (Z.ltb_spec (Z.of_nat j) (positions_get_length s a - 0)); [|discriminate].
    injection Hj as <-. destruct (proj2 (HD (0 + Z.of_nat j))) as [p Hp]; [lia|]. rewrite Hp. eauto. }
  exists l. split; [exact E|]. split.
  - rewrite Hlen. rewrite range_length by lia. lia.
  - intros i p. split.
    + intros Hp. assert (Hi : 0 <= i < positions_get_length s a) by (apply HD; eauto).
      split; [lia|]. apply Hlk. exists i. rewrite range_lookup.
      destruct (Z.ltb_spec (Z.of_nat (Z.to_nat i)) (positions_get_length s a - 0)); [|lia].
      split; [f_equal; lia|]. rewrite Hp. reflexivity.
    + intros [Hi Hp]. apply Hlk in Hp as (j & Hj & Hp). rewrite range_lookup in Hj.
      destruct (Z.ltb_spec (Z.of_nat (Z.to_nat i)) (positions_get_length s a - 0)); [|discriminate].
      injection Hj as <-. apply expect_Ok in Hp. rewrite <- Hp. f_equal. f_equal. lia.
Qed.

Lemma lists_unique s a l l' : lists s a l -> lists s a l' -> l = l'.
Proof.
  intros [H1 H2] [H3 H4]. apply list_eq. intros j. apply option_eq. intros p.
  specialize (H2 (Z.of_nat j) p). specialize (H4 (Z.of_nat j) p). rewrite Nat2Z.id in *.
  split; intros H.
  - apply H4. apply H2. split; [lia|auto].
  - apply H2. apply H4. split; [lia|auto].
Qed.

Lemma lists_dense s : (forall a, exists l, lists s a l /\ Z.of_nat (length l) < M32) -> dense s.
Proof.
  intros H a. destruct (H a) as (l & [H1 H2] & H3). split; [lia|]. intros i. split.
  - intros [p Hp]. apply H2 in Hp as [Hi Hp]. apply lookup_lt_Some in Hp. lia.
  - intros Hi. destruct (lookup_lt_is_Some_2 l (Z.to_nat i)) as [p Hp]; [lia|]. exists p. apply H2. auto with lia.
Qed.

Lemma lists_get_all s a l : dense s -> lists s a l <-> get_all_positions s a = Ok l.
Proof.
  intros D. destruct (dense_lists s a D) as (l' & E & HL). split.
  - intros H. rewrite (lists_unique _ _ _ _ H HL). exact E.
  - intros H. congruence.
Qed.

(** Removing index [i]: the last element takes its place. *)
Definition swap_remove {A} (i : nat) (l : list A) : list A :=
  match last l with
  | Some z => if decide (S i = length l) then take i l else <[i := z]> (take (length l - 1) l)
  | None => l
  end.

Lemma swap_remove_length {A} i (l : list A) : (i < length l)%nat -> length (swap_remove i l) = (length l - 1)%nat.
Proof.
  intros H. unfold swap_remove. destruct (last l) eqn:E.
  - destruct (decide (S i = length l)).
    + rewrite take_length. lia.
    + rewrite insert_length, take_length. lia.
  - apply last_None in E. subst. cbn in H. lia.
Qed.

Lemma swap_remove_le {A} i (l : list A) : (length (swap_remove i l) <= length l)%nat.
Proof.
  unfold swap_remove. destruct (last l) eqn:E; [|lia].
  destruct (decide (S i = length l)); rewrite ?insert_length, take_length; lia.
Qed.

Lemma swap_remove_lookup {A} i (l : list A) j : (i < length l)%nat ->
  swap_remove i l !! j =
    if decide (j < length l - 1)%nat then (if decide (j = i) then last l else l !! j) else None.
Proof.
  intros H. unfold swap_remove. destruct (last l) as [z|] eqn:E.
  2: { apply last_None in E. subst. cbn in H. lia. }
  destruct (decide (S i = length l)).
  - destruct (decide (j < length l - 1)%nat).
    + destruct (decide (j = i)); [lia|]. apply lookup_take. lia.
    + apply lookup_take_ge. lia.
  - destruct (decide (j < length l - 1)%nat).
    + destruct (decide (j = i)) as [->|].
      * apply list_lookup_insert. rewrite take_length. lia.
      * rewrite list_lookup_insert_ne by auto. apply lookup_take. lia.
    + rewrite list_lookup_insert_ne by lia. apply lookup_take_ge. lia.
Qed.

(** The swap-removed list is the old list without element [i], up to order. *)
Lemma swap_remove_perm {A} i (l : list A) x : l !! i = Some x -> x :: swap_remove i l ≡ₚ l.
Proof.
  intros H. pose proof (lookup_lt_Some _ _ _ H) as Hl. unfold swap_remove.
  destruct (last l) as [z|] eqn:E.
  2: { apply last_None in E. subst. cbn in Hl. lia. }
  apply last_Some in E as (l0 & ->). rewrite app_length in *. cbn [length] in *.
  destruct (decide (S i = length l0 + 1)%nat) as [Ei|Ei].
  - assert (i = length l0) by lia. subst i. rewrite lookup_app_r, Nat.sub_diag in H by lia.
    cbn in H. injection H as ->. rewrite take_app_le, firstn_all by lia. apply Permutation_cons_append.
  - replace (length l0 + 1 - 1)%nat with (length l0) by lia. rewrite take_app_le, firstn_all by lia.
    rewrite lookup_app_l in H by lia.
    pose proof (take_drop_middle l0 i x H) as E. rewrite <- E at 2.
    rewrite insert_take_drop by (apply lookup_lt_Some in H; lia).
    rewrite <- (Permutation_cons_append _ z). solve_Permutation.
Qed.

(** ** Effect of the collection operations on the lists *)

Lemma lists_ext s s' a l : s_positions s' = s_positions s -> s_positions_length s' = s_positions_length s ->
  lists s a l -> lists s' a l.
Proof. intros E1 E2 [H1 H2]. split; unfold positions_get_length in *; rewrite ?E1, ?E2; auto. Qed.

Lemma lists_add s s' a p l n :
  s_positions s' = <[(a, positions_get_length s a) := p]> (s_positions s) ->
  s_positions_length s' = <[a := (positions_get_length s a + 1) mod M32]> (s_positions_length s) ->
  positions_get_length s a < M32 - 1 ->
  lists s n l -> lists s' n (if decide (n = a) then l ++ [p] else l).
Proof.
  intros E1 E2 HB [H1 H2]. unfold lists. unfold positions_get_length at 1. rewrite E1, E2.
  destruct (decide (n = a)) as [->|Hn].
  - rewrite lookup_insert. cbn [from_option id]. rewrite Z.mod_small by lia.
    rewrite app_length. cbn [length]. split; [lia|]. intros i q.
    destruct (Z.eq_dec i (positions_get_length s a)) as [->|Hi].
    + rewrite lookup_insert. rewrite lookup_app_r by lia.
      replace (Z.to_nat (positions_get_length s a) - length l)%nat with 0%nat by lia. cbn.
      split; [intros [= <-]; auto with lia|]. intros [_ [= <-]]. reflexivity.
    + rewrite lookup_insert_ne by congruence. rewrite H2. split; intros [Ha Hb]; (split; [auto|]).
      * rewrite lookup_app_l by (apply lookup_lt_Some in Hb; auto). auto.
      * apply lookup_app_Some in Hb as [Hb|[Hb Hc]]; [auto|].
        apply lookup_lt_Some in Hc. cbn in Hc. lia.
  - rewrite lookup_insert_ne by congruence. split; [exact H1|]. intros i q.
    rewrite lookup_insert_ne by congruence. apply H2.
Qed.

Lemma lists_remove s s' a i lp l n :
  s_positions s' = removed_positions s a i lp ->
  s_positions_length s' = <[a := last_index s a]> (s_positions_length s) ->
  (match lp with Some q => i < last_index s a /\ s_positions s !! (a, last_index s a) = Some q
               | None => last_index s a <= i end) ->
  is_Some (s_positions s !! (a, i)) -> positions_get_length s a < M32 ->
  lists s n l -> lists s' n (if decide (n = a) then swap_remove (Z.to_nat i) l else l).
Proof.
  intros E1 E2 HP [q Hq] HB HLs. pose proof HLs as [H1 H2]. unfold lists. unfold positions_get_length at 1.
  rewrite E1, E2. destruct (decide (n = a)) as [->|Hn].
  - apply H2 in Hq as [Hi Hq]. pose proof (lookup_lt_Some _ _ _ Hq) as Hlt.
    assert (EL : last_index s a = Z.of_nat (length l) - 1).
    { unfold last_index. rewrite H1. apply Z.mod_small. lia. }
    rewrite lookup_insert. cbn [from_option id]. split.
    { rewrite swap_remove_length by lia. lia. }
    intros j r. destruct (Z.lt_ge_cases j 0) as [Hj|Hj].
    { split; [|lia]. intros H. exfalso. unfold removed_positions in H. destruct lp.
      - rewrite lookup_insert_ne in H by (intros [= Hx]; lia).
        rewrite lookup_delete_ne in H by (intros [= Hx]; lia). apply H2 in H. lia.
      - rewrite lookup_delete_ne in H by (intros [= Hx]; lia). apply H2 in H. lia. }
    rewrite swap_remove_lookup by lia.
    assert (G : removed_positions s a i lp !! (a, j) = Some r <->
      (if decide (Z.to_nat j < length l - 1)%nat then if decide (Z.to_nat j = Z.to_nat i) then last l else l !! Z.to_nat j else None) = Some r).
    2: { rewrite G. tauto. }
    unfold removed_positions. destruct lp as [z|].
    + destruct HP as [HP1 HP2]. rewrite EL in HP1, HP2 |- *. apply H2 in HP2 as [_ HP2].
      rewrite last_lookup.
      replace (Init.Nat.pred (length l)) with (Z.to_nat (Z.of_nat (length l) - 1)) by lia.
      destruct (decide (Z.to_nat j < length l - 1)%nat).
      * destruct (decide (Z.to_nat j = Z.to_nat i)) as [Ej|Ej].
        -- assert (j = i) by lia. subst j. rewrite lookup_insert, HP2. tauto.
        -- rewrite lookup_insert_ne by (intros [= Hx]; lia).
           rewrite lookup_delete_ne by (intros [= E]; lia). rewrite H2. tauto.
      * split; [|discriminate]. rewrite lookup_insert_ne by (intros [= Hx]; lia).
        destruct (Z.eq_dec j (Z.of_nat (length l) - 1)) as [->|Hne].
        -- rewrite lookup_delete. discriminate.
        -- rewrite lookup_delete_ne by (intros [= E]; lia). intros H. apply H2 in H as [_ H].
           apply lookup_lt_Some in H. lia.
    + assert (i = Z.of_nat (length l) - 1) by lia. subst i.
      destruct (decide (Z.to_nat j < length l - 1)%nat).
      * destruct (decide (Z.to_nat j = Z.to_nat (Z.of_nat (length l) - 1))) as [Ej|Ej]; [lia|].
        rewrite lookup_delete_ne by (intros [= E]; lia). rewrite H2. tauto.
      * split; [|discriminate]. destruct (Z.eq_dec j (Z.of_nat (length l) - 1)) as [->|Hne].
        -- rewrite lookup_delete. discriminate.
        -- rewrite lookup_delete_ne by (intros [= E]; lia). intros H. apply H2 in H as [_ H].
           apply lookup_lt_Some in H. lia.
  - rewrite lookup_insert_ne by congruence. split; [exact H1|]. intros j r. rewrite <- H2.
    unfold removed_positions. destruct lp.
    + rewrite lookup_insert_ne by congruence. rewrite lookup_delete_ne by congruence. tauto.
    + rewrite lookup_delete_ne by congruence. tauto.
Qed.

Lemma lists_update s s' a i p l n :
  s_positions s' = <[(a, i) := p]> (s_positions s) ->
  s_positions_length s' = s_positions_length s -> is_Some (s_positions s !! (a, i)) ->
  lists s n l -> lists s' n (if decide (n = a) then <[Z.to_nat i := p]> l else l).
Proof.
  intros E1 E2 [q Hq] [H1 H2]. unfold lists. unfold positions_get_length at 1. rewrite E1, E2.
  destruct (decide (n = a)) as [->|Hn].
  - apply H2 in Hq as [Hi Hq]. pose proof (lookup_lt_Some _ _ _ Hq) as Hlt.
    rewrite insert_length. split; [exact H1|]. intros j r.
    destruct (Z.eq_dec j i) as [->|Hj].
    + rewrite lookup_insert, list_lookup_insert by lia. tauto.
    + rewrite lookup_insert_ne by congruence. rewrite H2. split; intros [Ha Hb]; (split; [auto|]).
      * rewrite list_lookup_insert_ne by lia. auto.
      * rewrite list_lookup_insert_ne in Hb by lia. auto.
  - split; [exact H1|]. intros j r. rewrite lookup_insert_ne by congruence. apply H2.
Qed.
