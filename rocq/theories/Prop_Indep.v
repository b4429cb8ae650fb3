(** C70: pools and users do not influence one another. *)
From Verif Require Import Base Decimal SqrtPriceM LogM ClammM FeeGrowthM Types TickmapM StorageM
  CollectionsM StateM ServiceM SpecMath SpecHistory SpecIndep P_Indep P_History Cases.
From stdpp Require Import gmap list.
From Coq Require Import ZArith Lia Bool.
Open Scope Z_scope.

(** A call, successful or not, changes nothing but the parts listed by [changes]. *)
Theorem C70_untouched s ev c : c ∉ changes s ev -> same_part c s (exec_event s ev).
Proof. apply call_keeps. Qed.

(** Its answer and its effect depend on nothing but the parts listed by [concerns]
    (and on who the administrator is). *)
Theorem C70_depends_only_on s s' ev : s_admin s = s_admin s' ->
  (forall c, c ∈ concerns s ev -> same_part c s s') ->
  answer s ev = answer s' ev /\ forall c, c ∈ concerns s ev -> same_part c (exec_event s ev) (exec_event s' ev).
Proof.
  intros A H. destruct (call_same (concerns s ev) s s' ev) as [E [_ E']]; [auto|split; auto|]. split; auto.
Qed.

(** Independent calls can be made in either order: each gets the same answer, and
    the exchange ends in the same state. *)
Theorem C70_either_order s a b : independent s a b ->
  answer (exec_event s a) b = answer s b /\ answer (exec_event s b) a = answer s a /\
  exec_event (exec_event s a) b = exec_event (exec_event s b) a.
Proof.
  intros H. destruct (commute s a b H) as [E1 E2]. destruct (commute s b a (independent_sym _ _ _ H)) as [E3 _]. auto.
Qed.

(** Trades, new positions and fee withdrawals of different users in different pools
    are independent. *)
Definition about (k : pool_key) (o : op) : Prop :=
  match o with
  | OpSwap k' _ _ _ _ | OpCreatePosition k' _ _ _ _ _ | OpWithdrawProtocolFee k' => k' = k
  | _ => False
  end.
Theorem C70_users_in_different_pools s e o k e' o' k' :
  e_caller e <> e_caller e' -> k <> k' -> about k o -> about k' o' -> independent s (Call e o) (Call e' o').
Proof.
  intros Hu Hk H H'. destruct o; try contradiction; destruct o'; try contradiction; cbn [about] in *; subst;
    split; intros c; cbn [changes concerns]; rewrite ?elem_of_cons, elem_of_nil; intros Hc;
    intuition (subst; congruence).
Qed.

(** Two parties that keep to parts of their own: however their calls are
    interleaved, each party gets the answers it would get alone, and the exchange
    ends in the state it reaches when one party acts after the other. *)
Theorem C70_any_interleaving (W1 R1 W2 R2 : part -> Prop) sched s :
  (forall c, W1 c -> ~ R2 c) -> (forall c, W2 c -> ~ R1 c) ->
  keeps_to W1 R1 s (calls_of true sched) -> keeps_to W2 R2 s (calls_of false sched) ->
  answers_to true s sched = answers s (calls_of true sched) /\
  answers_to false s sched = answers s (calls_of false sched) /\
  run s (map snd sched) = run (run s (calls_of true sched)) (calls_of false sched).
Proof.
  intros D1 D2 K1 K2. destruct (interleaving_lemma W1 R1 W2 R2 D1 D2 sched s K1 K2) as (E & E1 & E2). auto.
Qed.

(** As long as nobody acts on a pool and the administrator leaves the protocol fee
    alone, quotes and queries about the pool keep their answers, whatever happens
    elsewhere. *)
Theorem C70_quotes_stay_valid evs s k :
  keeps_to (fun c => c <> PoolPart k /\ c <> SettingsPart) (fun _ => True) s evs ->
  (forall e d a b lim, quote e (run s evs) k d a b lim = quote e s k d a b lim) /\
  (forall x y ft, pool_key_new x y ft = Ok k -> get_pool (run s evs) x y ft = get_pool s x y ft) /\
  (forall i, get_tick (run s evs) k i = get_tick s k i) /\
  (forall i, is_tick_initialized (run s evs) k i = is_tick_initialized s k i) /\
  get_tickmap (run s evs) k = get_tickmap s k.
Proof.
  intros K.
  assert (H : eqon [PoolPart k; SettingsPart] s (run s evs)).
  { split; [apply admin_run|]. intros c Hc. apply untouched_run. revert K. apply keeps_to_weaken; [|auto].
    intros c' [N1 N2]. rewrite !elem_of_cons, elem_of_nil in Hc. destruct Hc as [->|[->|[]]]; assumption. }
  assert (Hk : PoolPart k ∈ [PoolPart k; SettingsPart]) by left.
  assert (HS : SettingsPart ∈ [PoolPart k; SettingsPart]) by (right; left).
  split; [|split; [|split; [|split]]].
  - intros. unfold quote. now rewrite (calculate_swap_same _ _ _ _ _ _ _ _ _ H Hk HS).
  - intros x y ft E. unfold get_pool. rewrite E. cbn. symmetry. exact (pools_get_same _ _ _ H k Hk).
  - intros i. symmetry. exact (ticks_get_same _ _ _ H k i Hk).
  - intros i. unfold is_tick_initialized, tickmap_get. apply bind_ext. intros [c bit].
    now rewrite (chunk_at_same _ _ _ H k c Hk).
  - unfold get_tickmap, tickmap_slice. apply bind_ext. intros m. apply (f_equal Ok).
    destruct (proj2 H _ Hk) as (_ & _ & E). generalize (range 0 (m + 1)). intros l.
    induction l as [|c l IH]; [reflexivity|]. cbn. rewrite E, IH. reflexivity.
Qed.

(** In one pool the order does matter: of two traders with the same order, the one
    who comes first gets more. *)
Theorem C70_one_pool_refuted :
  exists evs s a b, history anything evs s /\ event_wf a /\ event_wf b /\
    (forall c, c ∈ changes s a -> c ∈ changes s b -> c = PoolPart pool1) /\
    answer (exec_event s a) b <> answer s b.
Proof.
  exists evs_open, s_open, (Call (by_ bob) (OpSwap pool1 true 3000 true 15258932000000000000)),
    (Call (by_ carol) (OpSwap pool1 true 3000 true 15258932000000000000)).
  split; [apply s_open_history|]. split; [|split].
  1, 2: unfold event_wf, env_wf, op_wf, u64, u32, u128, u256; cbn; lia.
  split.
  - intros c. cbn [changes by_ e_caller]. rewrite !elem_of_cons, !elem_of_nil. intros [->|[->|[]]] [E|[E|[]]]; first [reflexivity | discriminate E].
  - intros E. apply (f_equal (fun r => match r with Ok (RSwap r) => cs_amount_out r | _ => 0 end)) in E.
    vm_compute in E. discriminate E.
Qed.

(** A concrete case: Alice creates a pool and trades in it while Bob trades in
    another one and closes a position there. *)
Definition pool2 : pool_key := mkPoolKey tokA tokB tier2.
Definition sched70 : list (bool * event) := [
  (true, Call (by_ alice) (OpCreatePool tokA tokB tier2 1000000000000000000000000 0));
  (false, Call (by_ bob) (OpSwap pool1 true 500 true 15258932000000000000));
  (true, Call (by_ alice) (OpCreatePosition pool2 (-20) 30 100000000000 0 any_price));
  (false, Call (by_ bob) (OpRemovePosition 0));
  (true, Call (by_ alice) (OpSwap pool2 false 20 true any_price));
  (false, Call (by_ bob) (OpSwap pool1 false 300 true any_price)) ].
Definition alices (c : part) : Prop := c = UserPart alice \/ c = PoolPart pool2 \/ c = RegistryPart.
Definition bobs (c : part) : Prop := c = UserPart bob \/ c = PoolPart pool1.
Definition or_settings (W : part -> Prop) (c : part) : Prop := W c \/ c = SettingsPart.
Definition all_ok (l : list (res reply)) : bool := forallb is_Ok l.

Example C70_case :
  (forall c, alices c -> ~ or_settings bobs c) /\ (forall c, bobs c -> ~ or_settings alices c) /\
  keeps_to alices (or_settings alices) s_open (calls_of true sched70) /\
  keeps_to bobs (or_settings bobs) s_open (calls_of false sched70) /\
  all_ok (answers_to true s_open sched70) = true /\ all_ok (answers_to false s_open sched70) = true.
Proof.
  split; [|split; [|split; [|split; [|split]]]].
  - unfold alices, bobs, or_settings. intros c [->|[->| ->]] [ [E|E] |E]; discriminate E.
  - unfold alices, bobs, or_settings. intros c [->| ->] [ [E|[E|E] ] |E]; discriminate E.
  - cbn [keeps_to calls_of sched70 List.filter fst snd map Bool.eqb].
    split; [|split; [|split; [|split; [|split; [|split; [|exact I]]]]]]; intros c; cbn [changes concerns by_ e_caller];
      rewrite !elem_of_cons, elem_of_nil; unfold or_settings, alices, pool2; cbn [Z.min Z.max tokA tokB]; intuition.
  - cbn [keeps_to calls_of sched70 List.filter fst snd map Bool.eqb].
    split; [|split; [|split; [|split; [|split; [|split; [|exact I]]]]]]; intros c; cbn [changes concerns by_ e_caller].
    3, 4: match goal with |- context [pool_of_position ?s ?u ?i] =>
            assert (E : pool_of_position s u i = [PoolPart pool1]) by (vm_compute; reflexivity); rewrite E end.
    all: rewrite !elem_of_cons, elem_of_nil; unfold or_settings, bobs; intuition.
  - vm_compute. reflexivity.
  - vm_compute. reflexivity.
Qed.

(** ** Assumptions *)
Print Assumptions C70_untouched.
Print Assumptions C70_depends_only_on.
Print Assumptions C70_either_order.
Print Assumptions C70_users_in_different_pools.
Print Assumptions C70_any_interleaving.
Print Assumptions C70_quotes_stay_valid.
Print Assumptions C70_one_pool_refuted.
