(** A position changes hands: proofs for C75. *)
From Verif Require Import Base Decimal SqrtPriceM LogM ClammM FeeGrowthM Types TickmapM StorageM
  CollectionsM StateM ServiceM SpecState SpecHistory SpecIndep SpecOrder SpecSale P_Indep P_Balance P_Effects.
From stdpp Require Import gmap list.
From Coq Require Import ZArith Lia Bool.
Open Scope Z_scope.

(** ** Events of others *)
Lemma other_concerns s ev u : ~ involves u ev -> forall c, c ∈ concerns s ev -> c <> UserPart u.
Proof.
  intros N c Hc ->.
  assert (P : forall w i, UserPart u ∉ pool_of_position s w i).
  { intros w i. unfold pool_of_position. destruct (s_positions s !! (w, i)); rewrite ?elem_of_list_singleton; [discriminate|apply not_elem_of_nil]. }
  assert (Hl : forall hops, UserPart u ∉ map (fun h => PoolPart (h_pool_key h)) hops).
  { intros l X. apply elem_of_list_fmap in X as (h & X & _). discriminate X. }
  destruct ev as [e []| | |]; cbn [involves concerns changes] in *; rewrite ?elem_of_cons, ?elem_of_nil in Hc;
    repeat match goal with H : _ \/ _ |- _ => destruct H as [H|H] end; try discriminate Hc; try contradiction;
    try (injection Hc as Hc; intuition congruence); first [exact (P _ _ Hc)|exact (Hl _ Hc)].
Qed.

Lemma same_for_others_eqon u v s s' F : same_for_others u v s s' ->
  (forall c, c ∈ F -> c <> UserPart u /\ c <> UserPart v) -> eqon F s s'.
Proof. intros [A H] HF. split; [exact A|]. intros c Hc. apply HF in Hc as [H1 H2]. auto. Qed.

Lemma other_event u v s s' ev : same_for_others u v s s' -> ~ involves u ev -> ~ involves v ev ->
  answer s ev = answer s' ev /\ same_for_others u v (exec_event s ev) (exec_event s' ev).
Proof.
  intros H Nu Nv.
  assert (HC : forall c, c ∈ concerns s ev -> c <> UserPart u /\ c <> UserPart v).
  { intros c Hc. split; eapply other_concerns; eauto. }
  split.
  - apply (call_same (concerns s ev)); [auto|]. eapply same_for_others_eqon; eauto.
  - split.
    + rewrite <- (proj1 (call_keeps s ev)), <- (proj1 (call_keeps s' ev)). apply H.
    + intros c N1 N2. apply (call_same (c :: concerns s ev) s s' ev).
      * intros d Hd. now right.
      * eapply same_for_others_eqon; [exact H|]. intros d. rewrite elem_of_cons. intros [->|Hd]; auto.
      * left.
Qed.

Lemma other_untouched u s ev : ~ involves u ev -> same_part (UserPart u) s (exec_event s ev).
Proof.
  intros N. apply call_keeps. intros Hc. apply changes_concerns in Hc. exact (other_concerns s ev u N _ Hc eq_refl).
Qed.

(** ** The owner's calls *)
Definition pays_room (s : state) (u : actor_id) (k : pool_key) (x y : Z) : Prop :=
  bal s u (pk_token_x k) + x < M256 /\ bal s u (pk_token_y k) + y < M256.

Section owner.
  Context (u v : actor_id) (s s' : state).
  Context (S : same_for_others u v s s').

  Lemma eqon_keeps {A B} (F : list part) (st : A -> state) (st' : B -> state) t t' r r' a b :
    eqon F t t' -> keeps (fun c => c ∈ F) st t r -> keeps (fun c => c ∈ F) st' t' r' -> r = Ok a -> r' = Ok b ->
    eqon F (st a) (st' b).
  Proof.
    intros [E H] K K' Ea Eb. apply K in Ea as [A1 A2]. apply K' in Eb as [B1 B2]. split; [congruence|].
    intros c Hc. eapply same_part_trans; [apply same_part_sym; now apply A2|]. eapply same_part_trans; [now apply H|]. now apply B2.
  Qed.

  Definition free (F : list part) : Prop := forall c, c ∈ F -> c <> UserPart u /\ c <> UserPart v.
  Lemma S_free F : free F -> eqon F s s'.
  Proof. intros HF. eapply same_for_others_eqon; eauto. Qed.

  Lemma two_pay F t t' k x y r : eqon F t t' -> free F -> pk_token_x k <> pk_token_y k ->
    (let* s := increase_token_balance t (pk_token_x k) u x in
     let* s := increase_token_balance s (pk_token_y k) u y in Ok (s, (x, y))) = Ok r ->
    pays_room t' v k x y ->
    exists r', (let* s := increase_token_balance t' (pk_token_x k) v x in
     let* s := increase_token_balance s (pk_token_y k) v y in Ok (s, (x, y))) = Ok (r', (x, y)) /\ eqon F r.1 r' /\ r.2 = (x, y).
  Proof.
    intros H HF HT E [B1 B2].
    destruct (increase_ok t' (pk_token_x k) v x B1) as [s1 E1].
    destruct (increase_spec _ _ _ _ _ E1) as (_ & D1 & _).
    destruct (increase_ok s1 (pk_token_y k) v y) as [s2 E2].
    { rewrite D1. unfold at_. destruct (Z.eqb_spec (pk_token_y k) (pk_token_x k)); [congruence|]. rewrite andb_false_r. lia. }
    assert (E' : (let* s := increase_token_balance t' (pk_token_x k) v x in
     let* s := increase_token_balance s (pk_token_y k) v y in Ok (s, (x, y))) = Ok (s2, (x, y))) by (rewrite E1; cbn; rewrite E2; reflexivity).
    exists s2. split; [exact E'|].
    assert (Nu : UserPart u ∉ F) by (intros X; apply HF in X as [X _]; congruence).
    assert (Nv : UserPart v ∉ F) by (intros X; apply HF in X as [_ X]; congruence).
    split.
    - exact (eqon_keeps F fst fst t t' _ _ r (s2, (x, y)) H (pay_keeps _ t k u x y _ _ Nu) (pay_keeps _ t' k v x y _ _ Nv) E E').
    - apply bind_Ok in E as (a & _ & E). apply bind_Ok in E as (b & _ & E). injection E as <-. reflexivity.
  Qed.
End owner.

(** The position [i] of [u] in [s] is the position [j] of [v] in [s']. *)
Record sold (u : actor_id) (i : Z) (v : actor_id) (j : Z) (s s' : state) : Prop := {
  so_others : same_for_others u v s s';
  so_pos : exists pos, s_positions s !! (u, i) = Some pos /\ s_positions s' !! (v, j) = Some pos /\
             pk_token_x (pos_pool_key pos) <> pk_token_y (pos_pool_key pos);
  so_len : 0 <= i < positions_get_length s u;
  so_len' : positions_get_length s' v = j + 1 /\ 0 <= j < M32;
}.

Lemma bal_of_part s s' u t : same_part (UserPart u) s s' -> bal s u t = bal s' u t.
Proof. intros (E & _). unfold bal, balm. now rewrite E. Qed.

Lemma sold_other u i v j s s' ev : sold u i v j s s' -> ~ involves u ev -> ~ involves v ev ->
  answer s ev = answer s' ev /\ sold u i v j (exec_event s ev) (exec_event s' ev).
Proof.
  intros [H (pos & P1 & P2 & T) L L'] Nu Nv. destruct (other_event u v s s' ev H Nu Nv) as [E H1]. split; [exact E|].
  destruct (other_untouched u s ev Nu) as (_ & U2 & U3). destruct (other_untouched v s' ev Nv) as (_ & V2 & V3).
  constructor; [exact H1| | |].
  - exists pos. rewrite <- U3, <- V3. auto.
  - unfold positions_get_length in *. now rewrite <- U2.
  - unfold positions_get_length in *. now rewrite <- V2.
Qed.

Lemma rrel_Ok {A B} (Q : A -> B -> Prop) r r' a : rrel Q r r' -> r = Ok a -> exists b, r' = Ok b /\ Q a b.
Proof. intros H ->. destruct r'; cbn in H; try contradiction. eauto. Qed.

Lemma last_of s v j : positions_get_length s v = j + 1 -> 0 <= j < M32 -> last_index s v = j.
Proof. intros E H. unfold last_index. rewrite E. replace (j + 1 - 1) with j by lia. now apply Z.mod_small. Qed.

Lemma remove_moved u i v j s s' e t x y F : sold u i v j s s' -> u <> v ->
  remove_position (sent_by u e) s i = Ok (t, (x, y)) ->
  (forall pos, s_positions s !! (u, i) = Some pos -> pays_room s' v (pos_pool_key pos) x y /\ PoolPart (pos_pool_key pos) ∈ F) -> free u v F ->
  exists t', remove_position (sent_by v e) s' j = Ok (t', (x, y)) /\ eqon F t t'.
Proof.
  intros [H (pos & P1 & P2 & T) L [L1 L2]] Huv E HR HF. destruct (HR pos P1) as [R Hk]. clear HR.
  assert (HE : eqon F s s') by now apply (S_free u v s s').
  assert (Nu : UserPart u ∉ F) by (intros X; apply HF in X as [X _]; congruence).
  assert (Nv : UserPart v ∉ F) by (intros X; apply HF in X as [_ X]; congruence).
  unfold remove_position in *. cbv zeta in *. cbn [sent_by e_caller e_timestamp] in *.
  unfold positions_get at 1 in E. rewrite P1 in E. unfold positions_get at 1. rewrite P2. cbn [ok_or bind] in *.
  rewrite <- !(ticks_get_same F s s' HE) by assumption. rewrite <- (pools_get_same F s s' HE) by assumption.
  apply bind_Ok in E as (lot & El & E). rewrite El. cbn [bind]. apply bind_Ok in E as (upt & Eu & E). rewrite Eu. cbn [bind].
  apply bind_Ok in E as (p & Ep & E). rewrite Ep. cbn [bind].
  apply bind_Ok in E as ([[[[[[p0 p'] u'] l'] [x0 y0]] b1] b2] & Er & E). rewrite Er. cbn [bind].
  assert (UP : forall a c, s_positions a = s_positions c -> s_positions_length a = s_positions_length c -> s_balances a = s_balances c -> same_part (UserPart v) a c).
  { intros a c E1 E2 E3. cbn. rewrite E1, E2, E3. auto. }
  (* the pool *)
  apply bind_Ok in E as (s3 & E3 & E). destruct (rrel_Ok _ _ _ _ (pools_update_same F s s' HE _ p' Hk) E3) as (s3' & E3' & H3).
  pose proof (pools_update_keeps (fun c => c = UserPart v) s' (pos_pool_key pos) p' ltac:(discriminate) s3' E3') as [_ K3]. specialize (K3 _ eq_refl).
  rewrite E3'. cbn [bind].
  apply bind_Ok in E as (s4 & E4 & E).
  assert (X4 : exists s4', (if b1 then remove_tick s3' (pos_pool_key pos) l' else ticks_update s3' (pos_pool_key pos) (pos_lower pos) l') = Ok s4' /\ eqon F s4 s4' /\ same_part (UserPart v) s3' s4').
  { destruct b1.
    - destruct (rrel_Ok _ _ _ _ (remove_tick_same F s3 s3' _ l' H3 Hk) E4) as (s4' & E4' & H4). exists s4'. split; [exact E4'|]. split; [exact H4|].
      exact (proj2 (remove_tick_keeps (fun c => c = UserPart v) s3' (pos_pool_key pos) l' ltac:(discriminate) s4' E4') _ eq_refl).
    - destruct (rrel_Ok _ _ _ _ (ticks_update_same F s3 s3' H3 _ (pos_lower pos) l' Hk) E4) as (s4' & E4' & H4). exists s4'. split; [exact E4'|]. split; [exact H4|].
      exact (proj2 (ticks_update_keeps (fun c => c = UserPart v) s3' (pos_pool_key pos) (pos_lower pos) l' ltac:(discriminate) s4' E4') _ eq_refl). }
  destruct X4 as (s4' & E4' & H4 & K4). rewrite E4'. cbn [bind].
  apply bind_Ok in E as (s5 & E5 & E).
  assert (X5 : exists s5', (if b2 then remove_tick s4' (pos_pool_key pos) u' else ticks_update s4' (pos_pool_key pos) (pos_upper pos) u') = Ok s5' /\ eqon F s5 s5' /\ same_part (UserPart v) s4' s5').
  { destruct b2.
    - destruct (rrel_Ok _ _ _ _ (remove_tick_same F s4 s4' _ u' H4 Hk) E5) as (s5' & E5' & H5). exists s5'. split; [exact E5'|]. split; [exact H5|].
      exact (proj2 (remove_tick_keeps (fun c => c = UserPart v) s4' (pos_pool_key pos) u' ltac:(discriminate) s5' E5') _ eq_refl).
    - destruct (rrel_Ok _ _ _ _ (ticks_update_same F s4 s4' H4 _ (pos_upper pos) u' Hk) E5) as (s5' & E5' & H5). exists s5'. split; [exact E5'|]. split; [exact H5|].
      exact (proj2 (ticks_update_keeps (fun c => c = UserPart v) s4' (pos_pool_key pos) (pos_upper pos) u' ltac:(discriminate) s5' E5') _ eq_refl). }
  destruct X5 as (s5' & E5' & H5 & K5). rewrite E5'. cbn [bind].
  assert (KV : same_part (UserPart v) s' s5') by (eapply same_part_trans; [exact K3|]; eapply same_part_trans; [exact K4|exact K5]).
  (* the list of positions *)
  apply bind_Ok in E as ([s6 q] & E6 & E).
  assert (E6' : positions_remove s5' v j = Ok (set_positions (<[v := j]> (s_positions_length s5')) (delete (v, j) (s_positions s5')) s5', pos)).
  { unfold positions_remove. fold (last_index s5' v). destruct KV as (_ & K2 & K1).
    assert (LL : last_index s5' v = j) by (apply last_of; [unfold positions_get_length in *; now rewrite <- K2|exact L2]).
    rewrite LL, Z.ltb_irrefl. unfold positions_get. rewrite <- K1, P2. reflexivity. }
  rewrite E6'. cbn [bind]. set (s6' := set_positions _ _ s5') in *.
  assert (H6 : eqon F s6 s6') by exact (eqon_keeps F fst fst s5 s5' _ _ _ _ H5 (positions_remove_keeps _ s5 u i Nu) (positions_remove_keeps _ s5' v j Nv) E6 E6').
  assert (R6 : pays_room s6' v (pos_pool_key pos) x y).
  { destruct R as [R1 R2]. unfold pays_room. change (bal s6' v) with (bal s5' v). rewrite <- !(bal_of_part s' s5' v _ KV). auto. }
  assert (EX : x0 = x /\ y0 = y).
  { apply bind_Ok in E as (a & _ & E). apply bind_Ok in E as (b & _ & E). injection E as _ <- <-. auto. }
  destruct EX as [-> ->].
  destruct (two_pay u v F s6 s6' (pos_pool_key pos) x y _ H6 HF T E R6) as (t' & Et & Ht & _).
  exists t'. split; [exact Et|exact Ht].
Qed.

Lemma claim_moved u i v j s s' e t x y F : sold u i v j s s' -> u <> v ->
  claim_fee (sent_by u e) s i = Ok (t, (x, y)) ->
  (forall pos, s_positions s !! (u, i) = Some pos -> pays_room s' v (pos_pool_key pos) x y /\ PoolPart (pos_pool_key pos) ∈ F) -> free u v F ->
  exists t', claim_fee (sent_by v e) s' j = Ok (t', (x, y)) /\ eqon F t t' /\
    (exists pos, s_positions t !! (u, i) = Some pos /\ s_positions t' !! (v, j) = Some pos /\
             pk_token_x (pos_pool_key pos) <> pk_token_y (pos_pool_key pos)) /\
    s_positions_length t = s_positions_length s /\ s_positions_length t' = s_positions_length s'.
Proof.
  intros [H (pos & P1 & P2 & T) L [L1 L2]] Huv E HR HF. destruct (HR pos P1) as [R Hk]. clear HR.
  assert (HE : eqon F s s') by now apply (S_free u v s s').
  assert (Nu : UserPart u ∉ F) by (intros X; apply HF in X as [X _]; congruence).
  assert (Nv : UserPart v ∉ F) by (intros X; apply HF in X as [_ X]; congruence).
  pose proof E as EI. apply claim_fee_inv in EI as (pos1 & tl0 & tu0 & p1 & pos' & p1' & tu1 & tl1 & dx & dy & B & EI).
  cbv zeta in EI. destruct EI as (Q1 & Q2 & Q3 & Q4 & QM & QX & QY & _ & QS & _).
  cbn [sent_by e_caller e_timestamp] in Q1, QM, QS. assert (pos1 = pos) by congruence. subst pos1.
  assert (G : exists t', claim_fee (sent_by v e) s' j = Ok (t', (x, y)) /\ eqon F t t').
  { unfold claim_fee in *. cbv zeta in *. cbn [sent_by e_caller e_timestamp] in *.
    unfold positions_get at 1 in E. rewrite P1 in E. unfold positions_get at 1. rewrite P2. cbn [ok_or bind] in *.
    rewrite <- !(ticks_get_same F s s' HE) by assumption. rewrite <- (pools_get_same F s s' HE) by assumption.
    apply bind_Ok in E as (lot & El & E). rewrite El. cbn [bind]. apply bind_Ok in E as (upt & Eu & E). rewrite Eu. cbn [bind].
    apply bind_Ok in E as (p & Ep & E). rewrite Ep. cbn [bind].
    apply bind_Ok in E as ([[[[p0 p'] u'] l'] [x0 y0]] & Er & E). rewrite Er. cbn [bind].
    apply bind_Ok in E as (s2 & E2 & E).
    assert (E2' : positions_update s' v j p0 = Ok (set_positions (s_positions_length s') (<[(v, j) := p0]> (s_positions s')) s')).
    { unfold positions_update. rewrite L1. destruct (Z.leb_spec (j + 1) j); [lia|]. reflexivity. }
    rewrite E2'. cbn [bind]. set (s2' := set_positions _ _ s') in *.
    assert (H2 : eqon F s2 s2') by exact (eqon_keeps F id id s s' _ _ _ _ HE (positions_update_keeps _ s u i p0 Nu) (positions_update_keeps _ s' v j p0 Nv) E2 E2').
    apply bind_Ok in E as (s3 & E3 & E). destruct (rrel_Ok _ _ _ _ (pools_update_same F s2 s2' H2 _ p' Hk) E3) as (s3' & E3' & H3).
    pose proof (pools_update_keeps (fun c => c = UserPart v) s2' (pos_pool_key pos) p' ltac:(discriminate) s3' E3') as [_ K3]. specialize (K3 _ eq_refl).
    rewrite E3'. cbn [bind].
    apply bind_Ok in E as (s4 & E4 & E). destruct (rrel_Ok _ _ _ _ (ticks_update_same F s3 s3' H3 _ _ u' Hk) E4) as (s4' & E4' & H4).
    pose proof (ticks_update_keeps (fun c => c = UserPart v) s3' (pos_pool_key pos) (t_index u') u' ltac:(discriminate) s4' E4') as [_ K4]. specialize (K4 _ eq_refl).
    rewrite E4'. cbn [bind].
    apply bind_Ok in E as (s5 & E5 & E). destruct (rrel_Ok _ _ _ _ (ticks_update_same F s4 s4' H4 _ _ l' Hk) E5) as (s5' & E5' & H5).
    pose proof (ticks_update_keeps (fun c => c = UserPart v) s4' (pos_pool_key pos) (t_index l') l' ltac:(discriminate) s5' E5') as [_ K5]. specialize (K5 _ eq_refl).
    rewrite E5'. cbn [bind].
    assert (KV : same_part (UserPart v) s2' s5') by (eapply same_part_trans; [exact K3|]; eapply same_part_trans; [exact K4|exact K5]).
    assert (R6 : pays_room s5' v (pos_pool_key pos) x y).
    { destruct R as [R1 R2]. unfold pays_room. rewrite <- !(bal_of_part s2' s5' v _ KV). auto. }
    assert (EX : x0 = x /\ y0 = y).
    { apply bind_Ok in E as (a & _ & E). apply bind_Ok in E as (b & _ & E). injection E as _ <- <-. auto. }
    destruct EX as [-> ->].
    destruct (two_pay u v F s5 s5' (pos_pool_key pos) x y _ H5 HF T E R6) as (t' & Et & Ht & _).
    exists t'. split; [exact Et|exact Ht]. }
  destruct G as (t' & Et & Ht). exists t'. split; [exact Et|]. split; [exact Ht|].
  apply claim_fee_inv in Et as (pos2 & tl2 & tu2 & p2 & pos2' & p2' & tu2' & tl2' & dx2 & dy2 & B2 & EI).
  cbv zeta in EI. destruct EI as (Q1' & Q2' & Q3' & Q4' & QM' & _ & _ & _ & QS' & _).
  cbn [sent_by e_caller e_timestamp] in Q1', QM', QS'. assert (pos2 = pos) by congruence. subst pos2.
  destruct (proj2 HE _ Hk) as (EP & ET & _). rewrite <- EP in Q4'. rewrite <- ET in Q2', Q3'.
  assert (EM : (pos2', p2', tu2', tl2', (dx2, dy2)) = (pos', p1', tu1, tl1, (dx, dy))) by congruence.
  injection EM as -> -> -> -> -> ->.
  assert (KP : pos_pool_key pos' = pos_pool_key pos).
  { apply position_modify_inv in QM as (mx & fx & fy & _ & _ & _ & _ & _ & QM & _). unfold position_update in QM.
    repeat match type of QM with
    | bind _ _ = Ok _ => apply bind_Ok in QM as (? & _ & QM)
    | (if ?b then _ else _) = Ok _ => destruct b
    end; try discriminate QM; injection QM as <-; reflexivity. }
  subst t t'. cbn [set_balances set_ticks set_pools set_positions s_positions s_positions_length].
  rewrite !lookup_insert. split; [|auto]. eexists. split; [reflexivity|]. split; [reflexivity|]. cbn [pos_pool_key]. now rewrite KP.
Qed.

(** A claim that goes through had room for the payment. *)
Definition holds_u256 (s : state) (u : actor_id) : Prop := forall t, bal s u t < M256.

Lemma claim_room e s i t x y pos : s_positions s !! (e_caller e, i) = Some pos ->
  pk_token_x (pos_pool_key pos) <> pk_token_y (pos_pool_key pos) ->
  claim_fee e s i = Ok (t, (x, y)) -> holds_u256 s (e_caller e) ->
  pays_room s (e_caller e) (pos_pool_key pos) x y /\ holds_u256 t (e_caller e).
Proof.
  intros P T E B. set (v := e_caller e) in *. unfold claim_fee in E. cbv zeta in E. fold v in E.
  unfold positions_get at 1 in E. rewrite P in E. cbn [ok_or bind] in E.
  apply bind_Ok in E as (lot & _ & E). apply bind_Ok in E as (upt & _ & E). apply bind_Ok in E as (p & _ & E).
  apply bind_Ok in E as ([[[[p0 p'] u'] l'] [x0 y0]] & _ & E).
  apply bind_Ok in E as (s2 & E2 & E). apply bind_Ok in E as (s3 & E3 & E). apply bind_Ok in E as (s4 & E4 & E). apply bind_Ok in E as (s5 & E5 & E).
  assert (B2 : forall t, bal s2 v t = bal s v t).
  { unfold positions_update in E2. apply bind_Ok in E2 as (_ & _ & E2). injection E2 as <-. reflexivity. }
  pose proof (pools_update_keeps (fun c => c = UserPart v) s2 _ _ ltac:(discriminate) s3 E3) as [_ K3]. specialize (K3 _ eq_refl).
  pose proof (ticks_update_keeps (fun c => c = UserPart v) s3 _ _ _ ltac:(discriminate) s4 E4) as [_ K4]. specialize (K4 _ eq_refl).
  pose proof (ticks_update_keeps (fun c => c = UserPart v) s4 _ _ _ ltac:(discriminate) s5 E5) as [_ K5]. specialize (K5 _ eq_refl).
  assert (B5 : forall t, bal s5 v t = bal s v t).
  { intros tk. rewrite <- (B2 tk). symmetry. apply bal_of_part. eapply same_part_trans; [exact K3|]. eapply same_part_trans; [exact K4|exact K5]. }
  apply bind_Ok in E as (s6 & E6 & E). apply bind_Ok in E as (s7 & E7 & E). injection E as <- <- <-.
  apply increase_spec in E6 as (_ & D6 & _ & F6). apply increase_spec in E7 as (_ & D7 & _ & F7).
  rewrite D6 in F6. rewrite D7, D6 in F7. unfold pays_room, holds_u256.
  assert (NE : (pk_token_y (pos_pool_key pos) =? pk_token_x (pos_pool_key pos)) = false) by (apply Z.eqb_neq; congruence).
  assert (NE' : (pk_token_x (pos_pool_key pos) =? pk_token_y (pos_pool_key pos)) = false) by (apply Z.eqb_neq; congruence).
  unfold at_ in *. rewrite !Z.eqb_refl in *. cbn [andb] in *. rewrite NE in F7. rewrite !B5 in *.
  pose proof (B (pk_token_x (pos_pool_key pos))). pose proof (B (pk_token_y (pos_pool_key pos))).
  split; [split; lia|]. intros tk. rewrite D7, D6, B5. rewrite !Z.eqb_refl. cbn [andb]. pose proof (B tk).
  destruct (Z.eqb_spec tk (pk_token_x (pos_pool_key pos))) as [->|]; [rewrite NE'; lia|].
  destruct (Z.eqb_spec tk (pk_token_y (pos_pool_key pos))) as [->|]; lia.
Qed.

(** The same claim pays the same amounts: what is paid does not depend on the owner. *)
Lemma claim_amounts u i v j s s' e t x y t' x' y' : sold u i v j s s' ->
  claim_fee (sent_by u e) s i = Ok (t, (x, y)) -> claim_fee (sent_by v e) s' j = Ok (t', (x', y')) -> x' = x /\ y' = y.
Proof.
  intros [[_ H] (pos & P1 & P2 & T) _ _] E E'.
  apply claim_fee_inv in E as (pos1 & tl0 & tu0 & p1 & pos' & p1' & tu1 & tl1 & dx & dy & B & EI).
  cbv zeta in EI. destruct EI as (Q1 & Q2 & Q3 & Q4 & QM & QX & QY & _).
  apply claim_fee_inv in E' as (pos2 & tl2 & tu2 & p2 & pos2' & p2' & tu2' & tl2' & dx2 & dy2 & B2 & EI).
  cbv zeta in EI. destruct EI as (Q1' & Q2' & Q3' & Q4' & QM' & QX' & QY' & _).
  cbn [sent_by e_caller e_timestamp] in *. assert (pos1 = pos) by congruence. subst pos1. assert (pos2 = pos) by congruence. subst pos2.
  destruct (H (PoolPart (pos_pool_key pos)) ltac:(discriminate) ltac:(discriminate)) as (EP & ET & _). rewrite <- EP in Q4'. rewrite <- ET in Q2', Q3'.
  assert (EM : (pos2', p2', tu2', tl2', (dx2, dy2)) = (pos', p1', tu1, tl1, (dx, dy))) by congruence.
  injection EM as -> -> -> -> -> ->. subst. auto.
Qed.

Lemma sold_claim u i v j s s' e t x y t' xy' : sold u i v j s s' -> u <> v -> holds_u256 s' v ->
  claim_fee (sent_by u e) s i = Ok (t, (x, y)) -> claim_fee (sent_by v e) s' j = Ok (t', xy') ->
  xy' = (x, y) /\ sold u i v j t t' /\ holds_u256 t' v.
Proof.
  intros M Huv B E E'. destruct xy' as [x' y']. destruct (claim_amounts _ _ _ _ _ _ _ _ _ _ _ _ _ M E E') as [-> ->]. split; [reflexivity|].
  pose proof M as [H (pos & P1 & P2 & T) L L'].
  destruct (claim_room (sent_by v e) s' j t' x y pos P2 T E' B) as [R B']. cbn [sent_by e_caller] in R, B'. split; [|exact B'].
  assert (G : forall c, c <> UserPart u -> c <> UserPart v -> same_part c t t' /\ s_admin t = s_admin t' /\
    (exists pos, s_positions t !! (u, i) = Some pos /\ s_positions t' !! (v, j) = Some pos /\
             pk_token_x (pos_pool_key pos) <> pk_token_y (pos_pool_key pos)) /\
    s_positions_length t = s_positions_length s /\ s_positions_length t' = s_positions_length s').
  { intros c N1 N2. destruct (claim_moved u i v j s s' e t x y [c; PoolPart (pos_pool_key pos)] M Huv E) as (t2 & E2 & HE & HP & HL & HL').
    - intros q Hq. assert (q = pos) by congruence. subst q. split; [exact R|]. right; left.
    - intros d. rewrite !elem_of_cons, elem_of_nil. intros [->|[->|[]]]; [auto|]. split; discriminate.
    - assert (t2 = t') by congruence. subst t2. split; [apply HE; left|]. split; [apply HE|]. auto. }
  destruct (G SettingsPart ltac:(discriminate) ltac:(discriminate)) as (_ & GA & GP & GL & GL').
  constructor; [split; [exact GA|]; intros c N1 N2; apply (G c N1 N2)|exact GP| |].
  - unfold positions_get_length in *. now rewrite GL.
  - unfold positions_get_length in *. now rewrite GL'.
Qed.

(** The whole story. *)
Lemma exec_claim e s i : exec_event s (Call e (OpClaimFee i)) = match claim_fee e s i with Ok (t, _) => t | _ => s end.
Proof. cbn [exec_event]. unfold exec_op, run_op. destruct (claim_fee e s i) as [[? ?]| | |]; reflexivity. Qed.
Lemma exec_remove e s i : exec_event s (Call e (OpRemovePosition i)) = match remove_position e s i with Ok (t, _) => t | _ => s end.
Proof. cbn [exec_event]. unfold exec_op, run_op. destruct (remove_position e s i) as [[? ?]| | |]; reflexivity. Qed.
Lemma told_went {A} (f : A -> reply) (r : res (state * A)) : went_through (told f r) -> exists t a, r = Ok (t, a).
Proof. intros [q H]. destruct r as [[t a]| | |]; try discriminate H. eauto. Qed.

Lemma sold_story u i v j story : u <> v -> Forall (by_others u v) story -> forall s s',
  sold u i v j s s' -> holds_u256 s' v ->
  Forall2 claims_paid story (answers s (map (owned_by u i) story)) ->
  Forall2 claims_paid story (answers s' (map (owned_by v j) story)) ->
  answers s (map (owned_by u i) story) = answers s' (map (owned_by v j) story) /\
  sold u i v j (run s (map (owned_by u i) story)) (run s' (map (owned_by v j) story)) /\
  holds_u256 (run s' (map (owned_by v j) story)) v.
Proof.
  intros Huv. induction 1 as [|h story Hh _ IH]; intros s s' M B C C'; cbn [map answers run] in *; [auto|].
  inversion C as [|? ? ? ? C1 C2]; subst. inversion C' as [|? ? ? ? C1' C2']; subst.
  destruct h as [ev|e]; cbn [owned_by by_others claims_paid] in *.
  - destruct Hh as [Nu Nv]. destruct (sold_other u i v j s s' ev M Nu Nv) as [EA M1].
    assert (B1 : holds_u256 (exec_event s' ev) v).
    { intros t. rewrite <- (bal_of_part s' _ v t (other_untouched v s' ev Nv)). apply B. }
    destruct (IH _ _ M1 B1 C2 C2') as (E1 & E2 & E3). rewrite EA, E1. auto.
  - cbn [answer] in *. pose proof C1 as D1. pose proof C1' as D1'. apply told_went in D1 as (t & [x y] & E). apply told_went in D1' as (t' & xy' & E').
    destruct (sold_claim u i v j s s' e t x y t' xy' M Huv B E E') as (-> & M1 & B1).
    rewrite !exec_claim, E, E' in *. destruct (IH _ _ M1 B1 C2 C2') as (E1 & E2 & E3). rewrite E1. auto.
Qed.

Lemma sold_close u i v j s s' e t x y : sold u i v j s s' -> u <> v ->
  remove_position (sent_by u e) s i = Ok (t, (x, y)) ->
  (forall pos, s_positions s !! (u, i) = Some pos -> pays_room s' v (pos_pool_key pos) x y) ->
  exists t', remove_position (sent_by v e) s' j = Ok (t', (x, y)) /\ same_for_others u v t t'.
Proof.
  intros M Huv E R. pose proof M as [H (pos & P1 & P2 & T) L L']. specialize (R pos P1).
  assert (G : forall c, c <> UserPart u -> c <> UserPart v ->
    exists t', remove_position (sent_by v e) s' j = Ok (t', (x, y)) /\ s_admin t = s_admin t' /\ same_part c t t').
  { intros c N1 N2. destruct (remove_moved u i v j s s' e t x y [c; PoolPart (pos_pool_key pos)] M Huv E) as (t2 & E2 & HE).
    - intros q Hq. assert (q = pos) by congruence. subst q. split; [exact R|]. right; left.
    - intros d. rewrite !elem_of_cons, elem_of_nil. intros [->|[->|[]]]; [auto|]. split; discriminate.
    - exists t2. split; [exact E2|]. split; [apply HE|]. apply HE. left. }
  destruct (G SettingsPart ltac:(discriminate) ltac:(discriminate)) as (t' & E' & GA & _). exists t'. split; [exact E'|]. split; [exact GA|].
  intros c N1 N2. destruct (G c N1 N2) as (t2 & E2 & _ & E3). assert (t2 = t') by congruence. now subst t2.
Qed.

(** ** The sale itself *)
Lemma transfer_others e s i v s' r : transfer_position e s i v = Ok (s', r) -> same_for_others (e_caller e) v s s'.
Proof.
  intros E. assert (X : exec_event s (Call e (OpTransferPosition i v)) = s').
  { cbn [exec_event]. unfold exec_op, run_op. rewrite E. reflexivity. }
  destruct (call_keeps s (Call e (OpTransferPosition i v))) as [A K]. rewrite X in A, K. split; [exact A|].
  intros c N1 N2. apply K. cbn [changes]. rewrite !elem_of_cons, elem_of_nil. intuition.
Qed.
Lemma transfer_balances e s i v s' r : transfer_position e s i v = Ok (s', r) -> s_balances s' = s_balances s.
Proof. intros E. apply transfer_position_inv in E as (pos & lp & s1 & _ & _ & -> & ->). reflexivity. Qed.
