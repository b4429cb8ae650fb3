(** Effect of the balance updates. *)
From Verif Require Import Base Decimal Types StateM SpecMath SpecSum P_Clamm.
From stdpp Require Import gmap list.
From Coq Require Import ZArith Lia Bool.
Open Scope Z_scope.

(** Balance of [user] in [token]. *)
Definition balm (m : gmap actor_id (gmap actor_id Z)) (user token : Z) : Z :=
  default 0 (default ∅ (m !! user) !! token).
Definition bal (s : state) (user token : Z) : Z := balm (s_balances s) user token.

(** Sum over all users. *)
Definition bal_total (s : state) (token : Z) : Z :=
  msum (fun tokens : gmap actor_id Z => default 0 (tokens !! token)) (s_balances s).

Definition bals_ok (s : state) : Prop := forall u t, u256 (bal s u t).

Definition at_ (u t a : Z) : Z -> Z -> Z := fun u' t' => if (u' =? u) && (t' =? t) then a else 0.

Lemma at_same u t a : at_ u t a u t = a.
Proof. unfold at_. rewrite !Z.eqb_refl. reflexivity. Qed.

Lemma increase_spec s token user amount s' :
  increase_token_balance s token user amount = Ok s' ->
  (exists B, s' = set_balances B s) /\
  (forall u t, bal s' u t = bal s u t + at_ user token amount u t) /\
  (forall t, bal_total s' t = bal_total s t + (if t =? token then amount else 0)) /\
  (bal s' user token < M256 \/ amount = 0).
Proof.
  unfold increase_token_balance. destruct (Z.eqb_spec amount 0) as [->|Hn].
  - intros [= <-]. split; [exists (s_balances s); destruct s; reflexivity|].
    split; [intros; unfold at_; destruct (_ && _); lia|].
    split; [intros; destruct (_ =? _); lia|]. auto.
  - intros H. apply bind_Ok in H. destruct H as (b & H & E). apply map_err_Ok in H. unfold dec_checked_add in H.
    inv_res. split; [eexists; reflexivity|].
    assert (Eb : forall u t, bal (set_balances
        (<[user:=<[token:=default 0 (default ∅ (s_balances s !! user) !! token) + amount]>
               (default ∅ (s_balances s !! user))]> (s_balances s)) s) u t = bal s u t + at_ user token amount u t).
    { intros u t. unfold bal, balm, at_. cbn [set_balances s_balances].
      destruct (Z.eqb_spec u user) as [->|Hu]; cbn [andb].
      - rewrite lookup_insert. cbn [from_option id]. destruct (Z.eqb_spec t token) as [->|Ht].
        + rewrite lookup_insert. reflexivity.
        + rewrite lookup_insert_ne by congruence. lia.
      - rewrite lookup_insert_ne by congruence. lia. }
    split; [exact Eb|]. split.
    + intros t. unfold bal_total. cbn [set_balances s_balances]. rewrite msum_put.
      destruct (Z.eqb_spec t token) as [->|Ht].
      * rewrite lookup_insert. cbn [from_option id].
        destruct (s_balances s !! user); cbn [fopt from_option id]; [lia|]. rewrite lookup_empty. cbn. lia.
      * rewrite lookup_insert_ne by congruence.
        destruct (s_balances s !! user); cbn [fopt from_option id]; [lia|]. rewrite lookup_empty. cbn. lia.
    + left. rewrite Eb, at_same. unfold bal, balm. lia.
Qed.

Lemma increase_ok s token user amount :
  bal s user token + amount < M256 -> exists s', increase_token_balance s token user amount = Ok s'.
Proof.
  unfold increase_token_balance, bal, balm. intros H. destruct (amount =? 0); [eauto|].
  unfold dec_checked_add. rewrite checked_add_ok by lia. cbn. eauto.
Qed.

Lemma bal_total_remove s user tokens token :
  s_balances s !! user = Some tokens -> forall t,
  bal_total (if bool_decide (delete token tokens = ∅)
             then set_balances (delete user (s_balances s)) s
             else set_balances (<[user := delete token tokens]> (s_balances s)) s) t
  = bal_total s t - (if t =? token then default 0 (tokens !! token) else 0).
Proof.
  intros E t. unfold bal_total. destruct (bool_decide_reflect (delete token tokens = ∅)) as [E0|E0];
    cbn [set_balances s_balances].
  - rewrite msum_del, E. cbn [fopt]. destruct (Z.eqb_spec t token) as [->|]; [lia|].
    assert (H : delete token tokens !! t = None) by (rewrite E0; apply lookup_empty).
    rewrite lookup_delete_ne in H by congruence. rewrite H. cbn. lia.
  - rewrite msum_put, E. cbn [fopt]. destruct (Z.eqb_spec t token) as [->|].
    + rewrite lookup_delete. cbn. lia.
    + rewrite lookup_delete_ne by congruence. lia.
Qed.

Lemma bal_remove s user tokens token :
  s_balances s !! user = Some tokens -> forall u t,
  bal (if bool_decide (delete token tokens = ∅)
             then set_balances (delete user (s_balances s)) s
             else set_balances (<[user := delete token tokens]> (s_balances s)) s) u t
  = if (u =? user) && (t =? token) then 0 else bal s u t.
Proof.
  intros E u t. unfold bal, balm. destruct (bool_decide_reflect (delete token tokens = ∅)) as [E0|E0];
    cbn [set_balances s_balances].
  - destruct (Z.eqb_spec u user) as [->|]; cbn [andb].
    + rewrite lookup_delete. cbn [from_option id]. rewrite lookup_empty, E. cbn [from_option id].
      destruct (Z.eqb_spec t token) as [->|]; [reflexivity|].
      assert (H : delete token tokens !! t = None) by (rewrite E0; apply lookup_empty).
      rewrite lookup_delete_ne in H by congruence. rewrite H. reflexivity.
    + rewrite lookup_delete_ne by congruence. reflexivity.
  - destruct (Z.eqb_spec u user) as [->|]; cbn [andb].
    + rewrite lookup_insert, E. cbn [from_option id].
      destruct (Z.eqb_spec t token) as [->|]; [rewrite lookup_delete; reflexivity|].
      rewrite lookup_delete_ne by congruence. reflexivity.
    + rewrite lookup_insert_ne by congruence. reflexivity.
Qed.

Lemma decrease_spec s token user amount s' v :
  decrease_token_balance s token user amount = Ok (s', v) ->
  (exists B, s' = set_balances B s) /\
  (forall u t, bal s' u t = bal s u t - at_ user token v u t) /\
  (forall t, bal_total s' t = bal_total s t - (if t =? token then v else 0)) /\
  (v <> 0 -> v <= bal s user token) /\
  (match amount with Some a => v = a | None => v = bal s user token end).
Proof.
  unfold decrease_token_balance. destruct (bool_decide_reflect (amount = Some 0)) as [->|Hn].
  - intros [= <- <-]. split; [exists (s_balances s); destruct s; reflexivity|].
    split; [intros; unfold at_; destruct (_ && _); lia|].
    split; [intros; destruct (_ =? _); lia|]. split; [intros; lia|reflexivity].
  - intros H. apply bind_Ok in H. destruct H as (tokens & Et & H). apply ok_or_Ok in Et.
    apply bind_Ok in H. destruct H as (balance & Eb & H). apply ok_or_Ok in Eb.
    assert (EB : bal s user token = balance).
    { unfold bal, balm. rewrite Et. cbn [from_option id]. rewrite Eb. reflexivity. }
    assert (R : forall s1 v1, (if bool_decide (delete token tokens = ∅)
            then Ok (set_balances (delete user (s_balances s)) s, balance)
            else Ok (set_balances (<[user:=delete token tokens]> (s_balances s)) s, balance)) = Ok (s1, v1) ->
        v1 = balance /\ s1 = (if bool_decide (delete token tokens = ∅)
             then set_balances (delete user (s_balances s)) s
             else set_balances (<[user := delete token tokens]> (s_balances s)) s)).
    { intros s1 v1. destruct (bool_decide _); intros [= <- <-]; auto. }
    assert (RR : forall v1, (if bool_decide (delete token tokens = ∅)
            then Ok (set_balances (delete user (s_balances s)) s, balance)
            else Ok (set_balances (<[user:=delete token tokens]> (s_balances s)) s, balance)) = Ok (s', v1) ->
        v1 = balance /\ (exists B, s' = set_balances B s) /\
        (forall u t, bal s' u t = bal s u t - at_ user token balance u t) /\
        (forall t, bal_total s' t = bal_total s t - (if t =? token then balance else 0)) /\
        (balance <> 0 -> balance <= bal s user token)).
    { intros v1 H1. apply R in H1 as [-> ->]. split; [reflexivity|].
      split; [destruct (bool_decide _); eexists; reflexivity|].
      split; [intros u t; rewrite (bal_remove s user tokens token Et); unfold at_;
              destruct (Z.eqb_spec u user) as [->|]; cbn [andb]; [|lia];
              destruct (Z.eqb_spec t token) as [->|]; [rewrite EB|]; lia|].
      split; [intros t; rewrite (bal_total_remove s user tokens token Et), Eb; cbn [from_option id]; reflexivity|].
      intros. lia. }
    destruct amount as [a|].
    + destruct (Z.eqb_spec a balance) as [->|Ha]; cbn [negb] in H.
      * apply RR in H as (-> & H1 & H2 & H3 & H4). auto 10.
      * apply bind_Ok in H. destruct H as (b & Hb & H). apply map_err_Ok in Hb.
        unfold dec_checked_sub in Hb. inv_res.
        split; [eexists; reflexivity|]. split; [|split; [|split; [lia|reflexivity]]].
        -- intros u t. unfold bal, balm, at_. cbn [set_balances s_balances].
           destruct (Z.eqb_spec u user) as [->|Hu]; cbn [andb].
           ++ rewrite lookup_insert, Et. cbn [from_option id]. destruct (Z.eqb_spec t token) as [->|Ht].
              ** rewrite lookup_insert, Eb. reflexivity.
              ** rewrite lookup_insert_ne by congruence. lia.
           ++ rewrite lookup_insert_ne by congruence. lia.
        -- intros t. unfold bal_total. cbn [set_balances s_balances]. rewrite msum_put, Et. cbn [fopt].
           destruct (Z.eqb_spec t token) as [->|Ht].
           ++ rewrite lookup_insert, Eb. cbn. lia.
           ++ rewrite lookup_insert_ne by congruence. lia.
    + apply RR in H as (-> & H1 & H2 & H3 & H4). auto 10.
Qed.
