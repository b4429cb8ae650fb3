(** C57: a swap is a walk along the curve of the open positions. *)
From Verif Require Import Base Decimal SqrtPriceM LogM ClammM FeeGrowthM Types TickmapM StorageM
  CollectionsM StateM ServiceM Arith SpecMath SpecFees SpecSum SpecState SpecHistory SpecClean SpecPath
  P_Fees P_Balance P_Effects P_Positions P_History P_Inv P_InvHist P_Active P_Path Cases CasesClean Prop_State Prop_Ticks.
From stdpp Require Import gmap list.
From Coq Require Import ZArith Lia Bool.
Open Scope Z_scope.

(** Every swap, after any history without unclean swaps: there are segments that
    lead from the pool's old price to its new one, each priced at the liquidity of
    the curve, and what the swap charges, pays, reports as fee and books for the
    protocol and for the liquidity providers is what these segments add up to. *)
Theorem C57_swap_walks_the_curve evs s e k d a bi lim s' r :
  history regular evs s -> u256 a -> swap e s k d a bi lim = Ok (s', r) ->
  exists p p' segs, pools_get s k = Ok p /\ pools_get s' k = Ok p' /\
    walk s k d bi p p' (cs_amount_in r) (cs_amount_out r) (cs_fee r) segs.
Proof.
  intros H Ha HS. assert (HR : history room evs s) by (apply (history_weaken regular room); [intros ? ? [? _]; assumption|exact H]).
  apply room_Inv in HR as I. apply swap_inv in HS as (B & HC & -> & _).
  destruct (calculate_swap_pool _ _ _ _ _ _ _ _ HC) as [p0 Hp0].
  assert (Hg : pools_get s k = Ok p0) by (apply pools_get_Ok; exact Hp0).
  pose proof (C23_active_liquidity_guarded _ _ _ _ H Hg) as HA.
  destruct (walk_swap s I _ k d bi a lim p0 Hp0 Ha (eq_sym HA) r HC) as [segs W].
  exists p0, (cs_pool r), segs. split; [exact Hg|]. split; [|exact W].
  unfold pools_get. cbn [set_balances set_pools s_pools]. rewrite lookup_insert. reflexivity.
Qed.

(** The same for a quote, which moves nothing: its amounts and its price are those
    of such a walk. *)
Theorem C57_quote_walks_the_curve evs s e k d a bi lim q :
  history regular evs s -> u256 a -> quote e s k d a bi lim = Ok q ->
  exists p p' fee segs, pools_get s k = Ok p /\ p_sqrt_price p' = q_target_sqrt_price q /\
    walk s k d bi p p' (q_amount_in q) (q_amount_out q) fee segs.
Proof.
  intros H Ha HQ. unfold quote in HQ. apply bind_Ok in HQ as (r & HC & HQ). injection HQ as <-.
  assert (HR : history room evs s) by (apply (history_weaken regular room); [intros ? ? [? _]; assumption|exact H]).
  apply room_Inv in HR as I. destruct (calculate_swap_pool _ _ _ _ _ _ _ _ HC) as [p0 Hp0].
  assert (Hg : pools_get s k = Ok p0) by (apply pools_get_Ok; exact Hp0).
  pose proof (C23_active_liquidity_guarded _ _ _ _ H Hg) as HA.
  destruct (walk_swap s I _ k d bi a lim p0 Hp0 Ha (eq_sym HA) r HC) as [segs W].
  exists p0, (cs_pool r), (cs_fee r), segs. cbn. auto.
Qed.

(** Carol's first swap left the price between the ticks -20 and -10; buying x back
    takes it over the tick -10, where the curve goes from 300000000000 up to
    400000000000. *)
Definition summary (s : state) (d : bool) (a : Z) (bi : bool) (lim : Z) : option (Z * Z * Z * Z * list Z) :=
  match swap (by_ carol) s pool1 d a bi lim with
  | Ok (_, r) => Some (cs_amount_in r, cs_amount_out r, cs_fee r, p_sqrt_price (cs_pool r), map t_index (cs_ticks r))
  | _ => None
  end.
Example C57_case :
  history regular evs_traded s_traded /\
    curve s_traded pool1 999500149965000000000000 = 400000000000 /\
    curve s_traded pool1 999500149964999999999999 = 300000000000 /\
    match pools_get s_traded pool1 with Ok p => p_sqrt_price p | _ => 0 end = 999211189370072007762822 /\
    summary s_traded false 2000 true 65535383934512647000000000000 = Some (2000, 1979, 21, 999778149965000000000000, [-10]) /\
    summary s_traded false 2000 false 65535383934512647000000000000 = Some (2021, 2000, 21, 999783197003724406267633, [-10]) /\
    summary s_traded true 500 true 15258932000000000000 = Some (500, 494, 5, 999046476731060687948232, []).
Proof. split; [exact s_traded_regular|]. crunch. Qed.

(** One unit more than the 2022 that take the price exactly to the tick -10 cannot
    move it further: it is left over and kept as a fee that is not reported. *)
Example C57_case_leftover :
  history regular evs_open s_open /\
  curve s_open pool1 999500149965000000000000 = 400000000000 /\
  summary s_open true 2022 true 15258932000000000000 = Some (2022, 1999, 21, 999500149965000000000000, []) /\
  summary s_open true 2023 true 15258932000000000000 = Some (2023, 1999, 21, 999500149965000000000000, []) /\
  summary s_open true 2024 true 15258932000000000000 = Some (2024, 1999, 22, 999499816964927684521577, [-10]).
Proof.
  split.
  - apply run_regular; [unfold u128; lia| |reflexivity|vm_compute; reflexivity]. unfold evs_open, setup, positions3. wf_events.
  - crunch.
Qed.

(** ** Assumptions *)
Print Assumptions C57_swap_walks_the_curve.
Print Assumptions C57_quote_walks_the_curve.
