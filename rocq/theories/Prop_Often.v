(** C72: claiming fees is nobody else's business, and claiming often does not pay.

    [due x s pos] is what a claim of the position pays in the state [s] (C62). *)
From Verif Require Import Base Decimal SqrtPriceM LogM ClammM FeeGrowthM Types TickmapM StorageM
  CollectionsM StateM ServiceM Arith SpecMath SpecFees SpecSum SpecState SpecHistory SpecSolv SpecShare SpecIndep SpecTrace SpecOften
  P_Clamm P_Fees P_Effects P_History P_Inv P_InvHist P_Indep P_Trace P_OpenClose P_Solv P_Often Cases.
From stdpp Require Import gmap list.
From Coq Require Import ZArith Lia Bool.
Open Scope Z_scope.

Local Lemma room_Inv evs s : history room evs s -> Inv s.
Proof. apply Inv_history. auto. Qed.

(** A claim changes nothing but the claimant's balances and position. *)
Theorem C72_claim_unnoticed evs s e i s' xy : history room evs s -> event_wf (Call e (OpClaimFee i)) -> room s (Call e (OpClaimFee i)) ->
  claim_fee e s i = Ok (s', xy) -> same_for_others (e_caller e) s s'.
Proof.
  intros H W R E. destruct xy as [x y].
  assert (H' : history room (evs ++ [Call e (OpClaimFee i)]) s').
  { replace s' with (exec_event s (Call e (OpClaimFee i))); [constructor; auto|].
    cbn [exec_event]. unfold exec_op. cbn [run_op]. rewrite E. reflexivity. }
  apply room_Inv in H, H'. apply sim_for_others. exact (claim_sim _ _ _ _ _ _ H H' E).
Qed.

(** States that are the same for the others answer the others alike, for ever. *)
Theorem C72_others_continue evs s u s' later : history room evs s -> same_for_others u s s' ->
  Forall event_wf later -> Forall (not_by u) later ->
  Forall2 same_answer (answers s later) (answers s' later) /\ same_for_others u (run s later) (run s' later).
Proof.
  intros H S W N. apply room_Inv in H. destruct (run_sim false u later W N s s' (others_sim _ _ _ H S)) as [A B].
  split; [exact A|]. now apply sim_for_others.
Qed.

(** Sums of rounded parts. *)
Lemma parts_le L Us : 0 <= L -> Forall (fun U => 0 <= U) Us ->
  sumZ (fun U => L * U / 10 ^ 33) Us <= L * sumZ id Us / 10 ^ 33.
Proof.
  intros HL H. induction H as [|U Us HU _ IH]; cbn [sumZ]; [rewrite Z.mul_0_r; reflexivity|]. unfold id at 1.
  assert (B : L * U / 10 ^ 33 + L * sumZ id Us / 10 ^ 33 <= L * (U + sumZ id Us) / 10 ^ 33).
  { apply Z.div_le_lower_bound; [lia|]. pose proof (Z.mul_div_le (L * U) (10 ^ 33)). pose proof (Z.mul_div_le (L * sumZ id Us) (10 ^ 33)). lia. }
  lia.
Qed.
Lemma parts_ge L Us : 0 <= L -> Us <> [] ->
  L * sumZ id Us / 10 ^ 33 <= sumZ (fun U => L * U / 10 ^ 33) Us + (Z.of_nat (length Us) - 1).
Proof.
  intros HL. induction Us as [|U Us IH]; intros N; [congruence|]. cbn [sumZ length]. unfold id at 1.
  destruct Us as [|V Us]; [cbn [sumZ length]; rewrite !Z.add_0_r; cbn; lia|].
  specialize (IH ltac:(congruence)). set (R := V :: Us) in *.
  assert (B : L * (U + sumZ id R) / 10 ^ 33 <= L * U / 10 ^ 33 + L * sumZ id R / 10 ^ 33 + 1).
  { apply Z.lt_succ_r, Z.div_lt_upper_bound; [lia|].
    pose proof (Z.mul_succ_div_gt (L * U) (10 ^ 33)). pose proof (Z.mul_succ_div_gt (L * sumZ id R) (10 ^ 33)). lia. }
  lia.
Qed.

(** Claiming after every turn, compared with claiming once at the end: up to one
    unit is lost with each additional claim; and nothing is gained, provided the
    growth collected since the last claim before stays below 2^128, where the
    counter wraps around. *)
Theorem C72_claim_often evs s s' u i pos (ts : list turn) cs (x : bool) :
  history room evs s -> get_position s u i = Ok pos -> Forall (turn_of u) ts -> ts <> [] ->
  trace room s (with_claims i ts) s' -> claims i s ts = Some cs ->
  let once := run s (without_claims ts) in
  get_position once u i = Ok pos /\
  due x once pos <= paid_out x cs + (Z.of_nat (length ts) - 1) /\
  (collected x u i cs < 2 ^ 128 -> paid_out x cs <= due x once pos).
Proof.
  intros H HP HT N T C once. apply positions_get_Ok in HP.
  pose proof (so_liq _ _ (I_pos _ (room_Inv _ _ H) _ _ _ HP)) as HL.
  destruct (claims_grow x u i ts evs s s' pos cs H HP HT T C N) as (Us & L1 & L2 & NN & E1 & E2 & E3).
  fold once in E3.
  assert (NE : Us <> []) by (intros ->; destruct ts; [congruence|discriminate L1]).
  assert (S0 : 0 <= sumZ id Us) by (clear - NN; induction NN; cbn [sumZ]; unfold id in *; lia).
  split; [|split].
  - apply positions_get_Ok. unfold once. rewrite (aside_keeps u); [exact HP|]. clear - HT. unfold without_claims.
    induction HT as [|t ts (_ & _ & A) _ IH]; cbn; [constructor|]. apply Forall_app. auto.
  - unfold due. rewrite E3, E2, <- L1. pose proof (parts_ge (pos_liquidity pos) Us ltac:(lia) NE) as B.
    etransitivity; [|exact B]. apply Z.div_le_mono; [lia|]. apply Z.mul_le_mono_nonneg_l; [lia|].
    unfold wrap. apply Z.mod_le; [exact S0|reflexivity].
  - intros HW. unfold due. rewrite E3, E2. rewrite E1 in HW. rewrite wrap_id by (unfold u128; lia).
    apply parts_le; [lia|exact NN].
Qed.

(** The proviso is needed: with a fee of 99.9999%, a position of little liquidity
    and two large swaps, the growth counter wraps around within one claim. *)
Definition tierH : fee_tier := mkFeeTier 999999000000 100.
Definition poolH : pool_key := mkPoolKey tokA tokB tierH.
Definition setupH : list event := [
  Call (by_ admin) (OpAddFeeTier tierH);
  Call (by_ bob) (OpCreatePool tokB tokA tierH 1000000000000000000000000 0);
  Credit alice tokA 1000000; Credit alice tokB 1000000;
  Credit carol tokA 1000000000000; Credit carol tokB 1000000;
  Call (by_ alice) (OpCreatePosition poolH (-221800) 221800 1000000 0 any_price) ].
Definition sH : state := run_events admin 10000000000 setupH.
Definition bigswap : event := Call (by_ carol) (OpSwap poolH true 210000000000 true 0).
Definition back : event := Call (by_ carol) (OpSwap poolH false 499800 false any_price).
Definition turnsH : list turn := [([bigswap], by_ alice); ([back; bigswap], by_ alice)].

Lemma run_trace_room adm fee evs0 evs : u128 fee -> Forall event_wf (evs0 ++ evs) -> Z.of_nat (length (evs0 ++ evs)) < 2 ^ 32 - 1 ->
  trace room (run_events adm fee evs0) evs (run_events adm fee (evs0 ++ evs)).
Proof.
  intros Hf. induction evs as [|ev evs IH] using rev_ind; intros HW HL.
  - rewrite app_nil_r. constructor.
  - rewrite app_assoc in HW, HL |- *. rewrite app_length in HL. cbn [length] in HL.
    apply Forall_app in HW as [W1 W2]. inversion W2; subst.
    pose proof (run_events_history adm fee _ Hf W1) as HR. apply history_room in HR as [_ HR]; [|lia].
    assert (E' : run_events adm fee ((evs0 ++ evs) ++ [ev]) = exec_event (run_events adm fee (evs0 ++ evs)) ev) by (unfold run_events; rewrite (fold_left_app _ _ [ev]); reflexivity).
    rewrite E'. constructor; [apply IH; auto; lia|auto|]. intros a; specialize (HR a); lia.
Qed.

Definition position_at (s : state) (u : actor_id) (i : Z) : position :=
  match get_position s u i with Ok pos => pos | _ => mkPosition pool1 0 0 0 0 0 0 0 0 end.
Definition claims_at (i : Z) (s : state) (ts : list turn) : list (state * (Z * Z)) :=
  match claims i s ts with Some cs => cs | None => [] end.
Lemma position_at_ok s u i : is_Ok (get_position s u i) = true -> get_position s u i = Ok (position_at s u i).
Proof. unfold position_at. destruct (get_position s u i); cbn; intros E; try discriminate E. reflexivity. Qed.
Lemma claims_at_ok i s ts : (match claims i s ts with Some _ => true | None => false end) = true -> claims i s ts = Some (claims_at i s ts).
Proof. unfold claims_at. destruct (claims i s ts); intros E; [reflexivity|discriminate E]. Qed.

(** Claiming after each of two swaps pays 415799049079, claiming once 75516682158. *)
Theorem C72_wrap_refuted :
  exists evs s s' u i pos ts cs, history room evs s /\ get_position s u i = Ok pos /\ Forall (turn_of u) ts /\
    trace room s (with_claims i ts) s' /\ claims i s ts = Some cs /\
    paid_out true cs = 415799049079 /\ due true (run s (without_claims ts)) pos = 75516682158.
Proof.
  exists setupH, sH, (run_events admin 10000000000 (setupH ++ with_claims 0 turnsH)), alice, 0, (position_at sH alice 0), turnsH, (claims_at 0 sH turnsH).
  split; [|split; [|split; [|split; [|split; [|split]]]]].
  - apply history_room; [|reflexivity]. apply run_events_history; [unfold u128; lia|]. unfold setupH. wf_events.
  - apply position_at_ok. vm_compute. reflexivity.
  - unfold turnsH, turn_of, bigswap, back. repeat constructor; cbn; unfold u64, u32, u128, u256; cbn; try lia; intros E; discriminate E.
  - apply run_trace_room; [unfold u128; lia| |reflexivity]. unfold setupH, with_claims, turnsH, bigswap, back. cbn [map concat app fst snd]. wf_events.
  - apply claims_at_ok. vm_compute. reflexivity.
  - vm_compute. reflexivity.
  - vm_compute. reflexivity.
Qed.

(** A concrete case: Alice claims after each of three swaps and gets 12 and 0;
    claiming once at the end pays 12 and 1. *)
Definition turns72 : list turn := [
  ([Call (by_ carol) (OpSwap pool1 false 300 true any_price)], by_ alice);
  ([Call (by_ carol) (OpSwap pool1 false 300 true any_price)], by_ alice);
  ([Call (by_ bob) (OpSwap pool1 true 1400 true 15258932000000000000)], by_ alice) ].
Example C72_case :
  history room evs_traded s_traded /\ get_position s_traded alice 0 = Ok (position_at s_traded alice 0) /\
  Forall (turn_of alice) turns72 /\
  trace room s_traded (with_claims 0 turns72) (run_events admin 10000000000 (evs_traded ++ with_claims 0 turns72)) /\
  claims 0 s_traded turns72 = Some (claims_at 0 s_traded turns72) /\
  (paid_out true (claims_at 0 s_traded turns72), paid_out false (claims_at 0 s_traded turns72)) = (12, 0) /\
  (due true (run s_traded (without_claims turns72)) (position_at s_traded alice 0),
   due false (run s_traded (without_claims turns72)) (position_at s_traded alice 0)) = (12, 1) /\
  collected true alice 0 (claims_at 0 s_traded turns72) < 2 ^ 128.
Proof.
  split; [exact s_traded_room|]. split; [apply position_at_ok; vm_compute; reflexivity|].
  split; [unfold turns72, turn_of; repeat constructor; cbn; unfold u64, u32, u128, u256; cbn; try lia; intros E; discriminate E|].
  split; [apply run_trace_room; [unfold u128; lia| |reflexivity]; unfold evs_traded, setup, positions3, swaps, with_claims, turns72; cbn [map concat app fst snd]; wf_events|].
  split; [apply claims_at_ok; vm_compute; reflexivity|].
  split; [vm_compute; reflexivity|]. split; vm_compute; reflexivity.
Qed.

(** ** Assumptions *)
Print Assumptions C72_claim_unnoticed.
Print Assumptions C72_others_continue.
Print Assumptions C72_claim_often.
Print Assumptions C72_wrap_refuted.
