(** What the pools owe is covered in every interleaving. *)
From Verif Require Import Base Decimal SqrtPriceM LogM ClammM FeeGrowthM Types TickmapM StorageM
  CollectionsM StateM ServiceM AsyncM Arith SpecMath SpecFees SpecSum SpecState SpecHistory SpecClean SpecSolv SpecAsync SpecHeld
  P_Balance P_Effects P_History P_Inv P_InvHist P_Active P_Bals P_RSum P_Claims P_Owed P_Solv P_Async.
From stdpp Require Import gmap list.
From Coq Require Import ZArith Lia Bool Reals Lra.
Open Scope Z_scope.

Lemma no_call_maps s ev : no_call ev -> s_pools (exec_event s ev) = s_pools s /\ s_ticks (exec_event s ev) = s_ticks s /\
  s_positions (exec_event s ev) = s_positions s.
Proof.
  destruct ev as [e o|u t a|u t a|m]; cbn [no_call exec_event]; intros H; [contradiction| | |auto].
  - destruct (increase_token_balance s t u a) as [s'| | |] eqn:E; auto. apply increase_spec in E as ((B & ->) & _). auto.
  - destruct (decrease_token_balance s t u a) as [[s' v]| | |] eqn:E; auto. apply decrease_spec in E as ((B & ->) & _). auto.
Qed.

Lemma no_calls_maps l : forall s, Forall no_call l -> s_pools (exec_events s l) = s_pools s /\ s_ticks (exec_events s l) = s_ticks s /\
  s_positions (exec_events s l) = s_positions s.
Proof.
  induction l as [|ev l IH]; intros s H; [auto|]. inversion H; subst. specialize (IH (exec_event s ev) H3).
  unfold exec_events in *. cbn [fold_left]. destruct IH as (-> & -> & ->). apply no_call_maps. auto.
Qed.

Lemma wroundings_snoc acts a : wroundings (acts ++ [a]) = wroundings acts + match a with ACall e o => roundings (Call e o) | _ => 0 end.
Proof. induction acts as [|b acts IH]; cbn [app wroundings]; [destruct a; lia|]. destruct b; rewrite IH; lia. Qed.
Lemma wroundings_nonneg acts : 0 <= wroundings acts.
Proof. induction acts as [|a acts IH]; cbn [wroundings]; [lia|]. destruct a as [e []| | | | |]; cbn [roundings]; lia. Qed.

(** A call either runs or has no effect on the state. *)
Lemma call_cases w e o : w_state (wexec w (ACall e o)) = w_state w \/ run_op e (w_state w) o = Ok (w_state (wexec w (ACall e o))).
Proof.
  cbn [wexec]. destruct o; unfold call;
    try (match goal with |- context [match run_op ?e ?s ?o with _ => _ end] => destruct (run_op e s o) as [s'| | |]; cbn [w_state]; auto end).
  destruct (withdraw_vara e (w_state w) value) as [[s' paid]| | |] eqn:E; auto. destruct (paid <=? _); auto.
  right. cbn [run_op w_state]. rewrite E. reflexivity.
Qed.

Lemma interleaving_regular w0 acts w : is_init w0 -> interleaving wregular w0 acts w ->
  WI w /\ exists evs, history regular evs (w_state w).
Proof.
  intros H0. induction 1 as [|acts w a H [W [evs HE]] HW Hg].
  { destruct (WI_init w0 H0) as [? _]. split; [auto|]. destruct H0 as (admin & fee & held & Hf & _ & ->). exists []. constructor. auto. }
  assert (B : bals_ok (w_state w)) by (eapply bals_history; [|exact HE]; intros ? ? []; auto).
  split; [apply WI_step; auto|]. destruct Hg as [Hr Hc].
  destruct (step_events w a W HW) as [(e & o & -> & E)|(l & L1 & L2 & E)].
  - exists (evs ++ [Call e o]). rewrite E. constructor; auto. split; auto.
  - exists (evs ++ l). rewrite E. apply history_app; auto. intros l1 ev l2 ->. apply Forall_app in L2 as [L2 L3].
    split.
    + eapply (quiet_room (w_state w)); [apply no_calls_quiet; auto|exact Hr]. Unshelve. exact ev.
    + inversion L3; subst. destruct ev; cbn; auto. contradiction.
Qed.

Lemma owed_interleaving w0 acts w t : is_init w0 -> interleaving wregular w0 acts w ->
  (owed (w_state w) t <= IZR (reserves w0 acts t) + IZR (wroundings acts) * eps)%R.
Proof.
  intros H0 H. pose proof eps_pos as He. induction H as [|acts w a H IH HW Hg].
  - destruct H0 as (admin & fee & held & _ & _ & ->). cbn [reserves wroundings init_world w_state]. rewrite owed_init. lra.
  - rewrite reserves_snoc, (interleaving_fold _ _ _ _ H), wroundings_snoc, !plus_IZR.
    destruct (interleaving_regular w0 acts w H0 H) as (W & evs & HE).
    destruct (active_history evs (w_state w) HE) as (I & _ & A).
    pose proof (interleaving_snoc wregular w0 acts w a H HW Hg) as H'.
    destruct (interleaving_regular w0 _ _ H0 H') as (_ & evs' & HE').
    destruct (active_history evs' _ HE') as (I' & _ & _).
    destruct a as [e o|e ok1 ok2 o|id moved r|id hook|n|t' a].
    + destruct (call_cases w e o) as [E|E].
      * rewrite (owed_same (w_state w)) by (rewrite E; reflexivity).
        assert (paid_in w (ACall e o) t = 0) as ->.
        { unfold paid_in, wtotal. rewrite E. destruct o; lia. }
        assert (0 <= IZR (roundings (Call e o)))%R by (apply IZR_le; destruct o; cbn; lia). nra.
      * pose proof (owed_op (w_state w) e o _ t I I' A (proj2 HW) (proj2 Hg) E) as O.
        assert (EP : paid_in w (ACall e o) t = if moves_outside o then 0 else bal_total (w_state w) t - bal_total (w_state (wexec w (ACall e o))) t)
          by (destruct o; reflexivity).
        rewrite EP. lra.
    + destruct (step_events w _ W HW) as [(e' & o' & [=] & E)|(l & L1 & L2 & E)].
      destruct (no_calls_maps l (w_state w) L2) as (E1 & E2 & E3). rewrite (owed_same (w_state w)) by (rewrite E; auto). cbn [paid_in]. lra.
    + destruct (step_events w _ W HW) as [(e' & o' & [=] & E)|(l & L1 & L2 & E)].
      destruct (no_calls_maps l (w_state w) L2) as (E1 & E2 & E3). rewrite (owed_same (w_state w)) by (rewrite E; auto). cbn [paid_in]. lra.
    + destruct (step_events w _ W HW) as [(e' & o' & [=] & E)|(l & L1 & L2 & E)].
      destruct (no_calls_maps l (w_state w) L2) as (E1 & E2 & E3). rewrite (owed_same (w_state w)) by (rewrite E; auto). cbn [paid_in]. lra.
    + destruct (step_events w _ W HW) as [(e' & o' & [=] & E)|(l & L1 & L2 & E)].
      destruct (no_calls_maps l (w_state w) L2) as (E1 & E2 & E3). rewrite (owed_same (w_state w)) by (rewrite E; auto). cbn [paid_in]. lra.
    + destruct (step_events w _ W HW) as [(e' & o' & [=] & E)|(l & L1 & L2 & E)].
      destruct (no_calls_maps l (w_state w) L2) as (E1 & E2 & E3). rewrite (owed_same (w_state w)) by (rewrite E; auto). cbn [paid_in]. lra.
Qed.
