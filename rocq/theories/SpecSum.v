(** Sum of a function over the values of a finite map (specification). *)
From stdpp Require Import gmap.
From Coq Require Import ZArith.
Open Scope Z_scope.

Definition msum `{Countable K} {A} (f : A -> Z) (m : gmap K A) : Z :=
  map_fold (fun _ v acc => f v + acc) 0 m.

Section Msum.
  Context `{Countable K} {A : Type}.
  Implicit Types (f g : A -> Z) (m : gmap K A).

  Lemma msum_empty f : msum f (∅ : gmap K A) = 0.
  Proof. apply map_fold_empty. Qed.
  Lemma msum_insert f m i x : m !! i = None -> msum f (<[i := x]> m) = f x + msum f m.
  Proof. intros. unfold msum. rewrite map_fold_insert_L; auto. intros; lia. Qed.
  Lemma msum_delete f m i x : m !! i = Some x -> msum f (delete i m) = msum f m - f x.
  Proof.
    intros E. rewrite <- (insert_delete m i x) at 2 by auto.
    rewrite msum_insert by apply lookup_delete. lia.
  Qed.
  Lemma msum_update f m i x y : m !! i = Some x -> msum f (<[i := y]> m) = msum f m - f x + f y.
  Proof.
    intros E. rewrite <- insert_delete_insert, msum_insert by apply lookup_delete.
    rewrite (msum_delete f m i x) by auto. lia.
  Qed.
  (** All four cases of a point update at once. *)
  Definition fopt f (o : option A) : Z := match o with Some x => f x | None => 0 end.
  Lemma msum_put f m i y : msum f (<[i := y]> m) = msum f m - fopt f (m !! i) + f y.
  Proof.
    destruct (m !! i) as [x|] eqn:E; cbn.
    - apply msum_update; auto.
    - rewrite msum_insert by auto. lia.
  Qed.
  Lemma msum_del f m i : msum f (delete i m) = msum f m - fopt f (m !! i).
  Proof.
    destruct (m !! i) as [x|] eqn:E; cbn.
    - apply msum_delete; auto.
    - rewrite delete_notin by auto. lia.
  Qed.

  Lemma msum_ind (P : Z -> Prop) f m :
    P 0 -> (forall i x acc, m !! i = Some x -> P acc -> P (f x + acc)) -> P (msum f m).
  Proof.
    intros H0 HS. unfold msum.
    assert (G : (fun r m' => m' ⊆ m -> P r) (map_fold (fun _ v acc => f v + acc) 0 m) m).
    { apply (map_fold_ind (fun r m' => m' ⊆ m -> P r)); [auto|].
      intros i x m' r Hi IH Hs. apply (HS i).
      - eapply lookup_weaken; [apply lookup_insert|exact Hs].
      - apply IH. etransitivity; [apply (insert_subseteq _ i x); auto|exact Hs]. }
    apply G. reflexivity.
  Qed.
  Lemma msum_rel (R : Z -> Z -> Prop) f g m :
    R 0 0 -> (forall i x a b, m !! i = Some x -> R a b -> R (f x + a) (g x + b)) ->
    R (msum f m) (msum g m).
  Proof.
    revert R. induction m as [|i x m Hi IH] using map_ind; intros R H0 HS.
    - rewrite !msum_empty. auto.
    - rewrite !msum_insert by auto. apply (HS i); [apply lookup_insert|].
      apply IH; auto. intros j y a b Hj. apply (HS j). rewrite lookup_insert_ne; auto. congruence.
  Qed.
  Lemma msum_ext f g m : (forall i x, m !! i = Some x -> f x = g x) -> msum f m = msum g m.
  Proof. intros E. apply (msum_rel eq); auto. intros i x a b Hx ->. rewrite (E i x); auto. Qed.
  Lemma msum_le f g m : (forall i x, m !! i = Some x -> f x <= g x) -> msum f m <= msum g m.
  Proof. intros E. apply (msum_rel Z.le); [lia|]. intros i x a b Hx ?. specialize (E i x Hx). lia. Qed.
  Lemma msum_nonneg f m : (forall i x, m !! i = Some x -> 0 <= f x) -> 0 <= msum f m.
  Proof. intros E. apply msum_ind; [lia|]. intros i x a Hx ?. specialize (E i x Hx). lia. Qed.
  Lemma msum_add f g m : msum (fun x => f x + g x) m = msum f m + msum g m.
  Proof.
    induction m as [|i x m Hi IH] using map_ind.
    - rewrite !msum_empty. lia.
    - rewrite !msum_insert by auto. lia.
  Qed.
  Lemma msum_sub f g m : msum (fun x => f x - g x) m = msum f m - msum g m.
  Proof.
    induction m as [|i x m Hi IH] using map_ind.
    - rewrite !msum_empty. lia.
    - rewrite !msum_insert by auto. lia.
  Qed.
  Lemma msum_scale c f m : msum (fun x => c * f x) m = c * msum f m.
  Proof.
    induction m as [|i x m Hi IH] using map_ind.
    - rewrite !msum_empty. lia.
    - rewrite !msum_insert by auto. lia.
  Qed.
  Lemma msum_zero m : msum (fun _ => 0) m = 0.
  Proof. apply (msum_ind (fun z => z = 0)); [auto|]. intros; lia. Qed.
  Lemma msum_ge_one f m i x : (forall j y, m !! j = Some y -> 0 <= f y) -> m !! i = Some x -> f x <= msum f m.
  Proof.
    intros Hf Hx. rewrite <- (insert_delete m i x) by auto.
    rewrite msum_insert by apply lookup_delete.
    assert (0 <= msum f (delete i m)); [|lia]. apply msum_nonneg.
    intros j y Hj. apply (Hf j). apply lookup_delete_Some in Hj. apply Hj.
  Qed.
  Lemma msum_pos_ex f m : 0 < msum f m -> exists i x, m !! i = Some x /\ 0 < f x.
  Proof.
    induction m as [|i x m Hi IH] using map_ind.
    - rewrite msum_empty. lia.
    - rewrite msum_insert by auto. intros Hp.
      destruct (Z.lt_ge_cases 0 (f x)).
      + exists i, x. rewrite lookup_insert. auto.
      + destruct IH as (j & y & Hj & ?); [lia|]. exists j, y. split; auto.
        rewrite lookup_insert_ne; auto. congruence.
  Qed.
End Msum.
