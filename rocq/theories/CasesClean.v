(** Checking by computation that a concrete history satisfies [regular]. *)
From Verif Require Import Base Types StateM ServiceM SpecMath SpecHistory SpecClean P_History Cases.
From stdpp Require Import gmap list.
From Coq Require Import ZArith Lia Bool.
Open Scope Z_scope.

(** Splits a conjunction and evaluates each part. *)
Ltac crunch := repeat match goal with |- _ /\ _ => split end; vm_compute; reflexivity.

Definition passesb (c c' i : Z) : bool := ((c' <? i) && (i <=? c)) || ((c <? i) && (i <=? c')).

Definition clean_resultb (s : state) (k : pool_key) (r : calculate_swap_result) : bool :=
  match s_pools s !! k with
  | None => true
  | Some p =>
      forallb (fun kt : pool_key * Z * tick =>
        negb (bool_decide (fst (fst kt) = k))
        || Bool.eqb (existsb (Z.eqb (snd (fst kt))) (map t_index (cs_ticks r)))
             (passesb (p_current_tick_index p) (p_current_tick_index (cs_pool r)) (snd (fst kt))))
        (map_to_list (s_ticks s))
  end.

Lemma passesb_spec c c' i : passesb c c' i = true <-> passes c c' i.
Proof. unfold passesb, passes. rewrite orb_true_iff, !andb_true_iff. lia. Qed.

Lemma existsb_elem i l : existsb (Z.eqb i) l = true <-> i ∈ l.
Proof.
  rewrite existsb_exists, elem_of_list_In. split.
  - intros (x & Hx & E). apply Z.eqb_eq in E. subst. exact Hx.
  - intros H. exists i. split; [exact H|apply Z.eqb_refl].
Qed.

Lemma clean_resultb_spec s k r : clean_resultb s k r = true -> clean_result s k r.
Proof.
  unfold clean_resultb. intros H p i Hp [t Ht]. rewrite Hp in H. rewrite forallb_forall in H.
  specialize (H (k, i, t)). cbn [fst snd] in H.
  rewrite bool_decide_eq_true_2 in H by reflexivity. cbn [negb orb] in H.
  specialize (H ltac:(apply elem_of_list_In, elem_of_map_to_list; exact Ht)).
  apply Bool.eqb_prop in H. rewrite <- existsb_elem, <- passesb_spec, H. reflexivity.
Qed.

Fixpoint clean_routeb (e : env) (s : state) (amount : Z) (hops : list swap_hop) : bool :=
  match hops with
  | [] => true
  | h :: t =>
      match swap e s (h_pool_key h) (h_x_to_y h) amount true (hop_limit (h_x_to_y h)) with
      | Ok (s', r) => clean_resultb s (h_pool_key h) r && clean_routeb e s' (cs_amount_out r) t
      | _ => true
      end
  end.

Lemma clean_routeb_spec e hops : forall s a, clean_routeb e s a hops = true -> clean_route e s a hops.
Proof.
  induction hops as [|h t IH]; cbn [clean_routeb clean_route]; intros s a H; [exact I|].
  intros s' r E. rewrite E in H. apply andb_true_iff in H as [H1 H2]. split; [apply clean_resultb_spec; auto|auto].
Qed.

Definition cleanb (s : state) (ev : event) : bool :=
  match ev with
  | Call e (OpSwap k d a bi lim) =>
      match swap e s k d a bi lim with Ok (_, r) => clean_resultb s k r | _ => true end
  | Call e (OpSwapRoute a _ _ hops) => clean_routeb e s a hops
  | _ => true
  end.

Lemma cleanb_spec s ev : cleanb s ev = true -> clean s ev.
Proof.
  destruct ev as [e o| | |]; cbn [cleanb clean]; auto. destruct o; auto.
  - intros H s' r E. rewrite E in H. apply clean_resultb_spec. exact H.
  - apply clean_routeb_spec.
Qed.

Fixpoint clean_run (s : state) (evs : list event) : bool :=
  match evs with [] => true | ev :: t => cleanb s ev && clean_run (exec_event s ev) t end.

Lemma clean_run_app evs ev : forall s, clean_run s (evs ++ [ev]) = true ->
  clean_run s evs = true /\ cleanb (fold_left exec_event evs s) ev = true.
Proof.
  induction evs as [|x evs IH]; cbn [app clean_run fold_left]; intros s H.
  - apply andb_true_iff in H as [H _]. auto.
  - apply andb_true_iff in H as [H1 H2]. apply IH in H2 as [H2 H3]. rewrite H1, H2. auto.
Qed.

Lemma run_regular admin fee evs : u128 fee -> Forall event_wf evs -> Z.of_nat (length evs) < 2 ^ 32 - 1 ->
  clean_run (init_state admin fee) evs = true -> history regular evs (run_events admin fee evs).
Proof.
  intros Hf. induction evs as [|ev evs IH] using rev_ind; intros HW HL HC.
  - constructor. auto.
  - apply clean_run_app in HC as [C1 C2]. rewrite app_length in HL. cbn [length] in HL.
    apply Forall_app in HW as [W1 W2]. inversion W2; subst.
    pose proof (run_events_history admin fee evs Hf W1) as HR. apply history_room in HR as [_ HR]; [|lia].
    unfold run_events in *. rewrite fold_left_app. cbn [fold_left]. constructor; [apply IH; auto; lia|auto|].
    split; [|apply cleanb_spec; auto]. intros a. specialize (HR a). lia.
Qed.

Lemma s_traded_regular : history regular evs_traded s_traded.
Proof.
  apply run_regular; [unfold u128; lia| |reflexivity|vm_compute; reflexivity].
  unfold evs_traded, setup, positions3, swaps. wf_events.
Qed.
