(** Sums of real numbers over finite maps. *)
From Verif Require Import Base SpecSum SpecSolv.
From stdpp Require Import gmap.
From Coq Require Import ZArith Reals Lra Lia.
Open Scope R_scope.

Section RSum.
  Context `{Countable K} {A : Type}.
  Implicit Types (f g : K -> A -> R) (m : gmap K A).

  Lemma rsum_empty f : rsum f (∅ : gmap K A) = 0.
  Proof. apply map_fold_empty. Qed.
  Lemma rsum_insert f m i x : m !! i = None -> rsum f (<[i := x]> m) = f i x + rsum f m.
  Proof. intros. unfold rsum. rewrite map_fold_insert_L; auto. intros; lra. Qed.
  Lemma rsum_delete f m i x : m !! i = Some x -> rsum f (delete i m) = rsum f m - f i x.
  Proof.
    intros E. rewrite <- (insert_delete m i x) at 2 by auto.
    rewrite rsum_insert by apply lookup_delete. lra.
  Qed.
  Lemma rsum_update f m i x y : m !! i = Some x -> rsum f (<[i := y]> m) = rsum f m - f i x + f i y.
  Proof.
    intros E. rewrite <- insert_delete_insert, rsum_insert by apply lookup_delete.
    rewrite (rsum_delete f m i x) by auto. lra.
  Qed.
  Lemma rsum_rel (P : R -> R -> Prop) f g m :
    P 0 0 -> (forall i x a b, m !! i = Some x -> P a b -> P (f i x + a) (g i x + b)) ->
    P (rsum f m) (rsum g m).
  Proof.
    revert P. induction m as [|i x m Hi IH] using map_ind; intros P H0 HS.
    - rewrite !rsum_empty. auto.
    - rewrite !rsum_insert by auto. apply (HS i); [apply lookup_insert|].
      apply IH; auto. intros j y a b Hj. apply (HS j). rewrite lookup_insert_ne; auto. congruence.
  Qed.
  Lemma rsum_ext f g m : (forall i x, m !! i = Some x -> f i x = g i x) -> rsum f m = rsum g m.
  Proof. intros E. apply (rsum_rel eq); auto. intros i x a b Hx ->. rewrite (E i x); auto. Qed.
  Lemma rsum_le f g m : (forall i x, m !! i = Some x -> f i x <= g i x) -> rsum f m <= rsum g m.
  Proof. intros E. apply (rsum_rel Rle); [lra|]. intros i x a b Hx ?. specialize (E i x Hx). lra. Qed.
  Lemma rsum_add f g m : rsum (fun i x => f i x + g i x) m = rsum f m + rsum g m.
  Proof.
    induction m as [|i x m Hi IH] using map_ind.
    - rewrite !rsum_empty. lra.
    - rewrite !rsum_insert by auto. lra.
  Qed.
  Lemma rsum_scale c f m : rsum (fun i x => f i x * c) m = rsum f m * c.
  Proof.
    induction m as [|i x m Hi IH] using map_ind.
    - rewrite !rsum_empty. lra.
    - rewrite !rsum_insert by auto. rewrite IH. lra.
  Qed.
  Lemma rsum_nonneg f m : (forall i x, m !! i = Some x -> 0 <= f i x) -> 0 <= rsum f m.
  Proof.
    intros E. rewrite <- (rsum_scale 0 f m) at 1 || idtac.
    apply Rle_trans with (rsum (fun _ _ => 0) m).
    - apply (rsum_rel (fun a b => 0 <= b) (fun _ _ => 0) (fun _ _ => 0)); [lra|]. intros; lra.
    - apply rsum_le. auto.
  Qed.
  Lemma rsum_ge_one f m i x : (forall j y, m !! j = Some y -> 0 <= f j y) -> m !! i = Some x -> f i x <= rsum f m.
  Proof.
    intros Hf Hx. rewrite <- (insert_delete m i x) by auto.
    rewrite rsum_insert by apply lookup_delete.
    assert (0 <= rsum f (delete i m)); [|lra]. apply rsum_nonneg.
    intros j y Hj. apply (Hf j). apply lookup_delete_Some in Hj. apply Hj.
  Qed.
  Lemma rsum_msum (f : A -> Z) m : rsum (fun _ x => IZR (f x)) m = IZR (msum f m).
  Proof.
    induction m as [|i x m Hi IH] using map_ind.
    - rewrite rsum_empty, msum_empty. reflexivity.
    - rewrite rsum_insert, msum_insert, plus_IZR, IH by auto. reflexivity.
  Qed.
  Lemma rsum_zsum (f : K -> A -> Z) m : rsum (fun k x => IZR (f k x)) m = IZR (zsum f m).
  Proof.
    unfold zsum. induction m as [|i x m Hi IH] using map_ind.
    - rewrite rsum_empty, map_fold_empty. reflexivity.
    - rewrite rsum_insert by auto. rewrite map_fold_insert_L by (auto; intros; lia). rewrite plus_IZR, IH. reflexivity.
  Qed.

  Lemma zsum_empty (f : K -> A -> Z) : zsum f (∅ : gmap K A) = 0%Z.
  Proof. apply map_fold_empty. Qed.
  Lemma zsum_insert (f : K -> A -> Z) m i x : m !! i = None -> zsum f (<[i := x]> m) = (f i x + zsum f m)%Z.
  Proof. intros. unfold zsum. rewrite map_fold_insert_L; auto. intros; lia. Qed.
  Lemma zsum_delete (f : K -> A -> Z) m i x : m !! i = Some x -> zsum f (delete i m) = (zsum f m - f i x)%Z.
  Proof.
    intros E. rewrite <- (insert_delete m i x) at 2 by auto.
    rewrite zsum_insert by apply lookup_delete. lia.
  Qed.
  Lemma zsum_update (f : K -> A -> Z) m i x y : m !! i = Some x -> zsum f (<[i := y]> m) = (zsum f m - f i x + f i y)%Z.
  Proof.
    intros E. rewrite <- insert_delete_insert, zsum_insert by apply lookup_delete.
    rewrite (zsum_delete f m i x) by auto. lia.
  Qed.
  Lemma zsum_nonneg (f : K -> A -> Z) m : (forall i x, m !! i = Some x -> (0 <= f i x)%Z) -> (0 <= zsum f m)%Z.
  Proof.
    intros E. apply le_IZR. rewrite <- rsum_zsum. apply rsum_nonneg. intros i x Hx. apply IZR_le. eauto.
  Qed.
End RSum.
