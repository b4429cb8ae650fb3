(** A concrete history used beside the theorems to show that their hypotheses
    are met: an administrator lists two fee tiers, a user opens a pool, two users
    provide liquidity in three overlapping ranges, a third one swaps through a
    tick boundary, fees are claimed and a position changes hands. *)
From Verif Require Import Base Decimal SqrtPriceM Types CollectionsM StateM ServiceM SpecMath SpecHistory P_History.
From stdpp Require Import gmap list.
From Coq Require Import ZArith Lia.
Open Scope Z_scope.

Definition admin := 7.
Definition alice := 11.
Definition bob := 12.
Definition carol := 13.
Definition tokA := 101.
Definition tokB := 102.
Definition by_ (caller : Z) : env := mkEnv caller 1000 5 0 1000000000000 99.

(** 1% and 0.3% tiers, spacings 10 and 1. *)
Definition tier1 : fee_tier := mkFeeTier 10000000000 10.
Definition tier2 : fee_tier := mkFeeTier 3000000000 1.
Definition pool1 : pool_key := mkPoolKey tokA tokB tier1.
Definition any_price : Z := 340282366920938463463374607431768211455.

Definition setup : list event := [
  Call (by_ admin) (OpAddFeeTier tier1);
  Call (by_ admin) (OpAddFeeTier tier2);
  Call (by_ bob) (OpCreatePool tokB tokA tier1 1000000000000000000000000 0);
  Credit alice tokA 1000000; Credit alice tokB 1000000;
  Credit bob tokA 1000000; Credit bob tokB 1000000;
  Credit carol tokA 1000000; Credit carol tokB 1000000 ].
Definition positions3 : list event := [
  Call (by_ alice) (OpCreatePosition pool1 (-20) 30 100000000000 0 any_price);
  Call (by_ alice) (OpCreatePosition pool1 (-10) 10 300000000000 0 any_price);
  Call (by_ bob) (OpCreatePosition pool1 (-30) (-10) 200000000000 0 any_price) ].
Definition swaps : list event := [
  Call (by_ carol) (OpSwap pool1 true 3000 true 15258932000000000000);
  Call (by_ carol) (OpSwap pool1 false 100 false any_price) ].

Definition evs_setup := setup.
Definition evs_open := setup ++ positions3.
Definition evs_traded := setup ++ positions3 ++ swaps.

Definition s_setup : state := run_events admin 10000000000 evs_setup.
Definition s_open : state := run_events admin 10000000000 evs_open.
Definition s_traded : state := run_events admin 10000000000 evs_traded.

Ltac wf_events :=
  repeat first [apply Forall_cons; split | apply Forall_nil];
  unfold event_wf, env_wf, op_wf, tier_wf, u16, u32, u64, i32, u128, u256; cbn; try lia;
  repeat split; cbn; try lia; try discriminate.

Lemma s_traded_history : history anything evs_traded s_traded.
Proof. apply run_events_history; [unfold u128; lia|]. unfold evs_traded, setup, positions3, swaps. wf_events. Qed.
Lemma s_open_history : history anything evs_open s_open.
Proof. apply run_events_history; [unfold u128; lia|]. unfold evs_open, setup, positions3. wf_events. Qed.
Lemma s_setup_history : history anything evs_setup s_setup.
Proof. apply run_events_history; [unfold u128; lia|]. unfold evs_setup, setup. wf_events. Qed.

Lemma s_traded_room : history room evs_traded s_traded.
Proof. apply history_room; [apply s_traded_history|reflexivity]. Qed.
Lemma s_open_room : history room evs_open s_open.
Proof. apply history_room; [apply s_open_history|reflexivity]. Qed.
Lemma s_setup_room : history room evs_setup s_setup.
Proof. apply history_room; [apply s_setup_history|reflexivity]. Qed.

(** What a user sees of a pool. *)
Definition pool_view (s : state) : option (Z * Z * Z * Z * Z) :=
  match get_pool s tokA tokB tier1 with
  | Ok p => Some (p_liquidity p, p_sqrt_price p, p_current_tick_index p,
                  p_fee_growth_global_x p, p_fee_protocol_token_x p)
  | _ => None
  end.
Definition is_Ok {A} (r : res A) : bool := match r with Ok _ => true | _ => false end.

Example s_traded_view :
  pool_view s_open = Some (400000000000, 1000000000000000000000000, 0, 0, 0) /\
  pool_view s_traded = Some (300000000000, 999211189370072007762822, -20, 80000000000000000000000, 2).
Proof. split; vm_compute; reflexivity. Qed.
