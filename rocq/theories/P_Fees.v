(** Fee growth arithmetic (C10 - C12). *)
From Verif Require Import Base Decimal FeeGrowthM Types StorageM Arith SpecMath SpecFees P_Clamm P_Step.
From Coq Require Import ZArith Lia Bool List.
Import ListNotations.
Open Scope Z_scope.

(** ** C10 *)
Lemma wrap_u128 v : u128 (wrap v).
Proof. unfold u128, wrap. apply Z.mod_pos_bound. reflexivity. Qed.
Lemma wrap_id v : u128 v -> wrap v = v.
Proof. unfold u128, wrap. intros. apply Z.mod_small; auto. Qed.

Lemma unchecked_add_wrap a b : u128 a -> u128 b -> unchecked_add a b = wrap (a + b).
Proof.
  intros Ha%u128_M Hb%u128_M. unfold unchecked_add, FG_MAX, wrap. change (2 ^ 128) with M128.
  destruct (Z.ltb_spec (M128 - 1 - a) b).
  - apply Z.mod_unique_pos with 1; lia.
  - symmetry. apply Z.mod_small. lia.
Qed.
Lemma unchecked_sub_wrap a b : u128 a -> u128 b -> unchecked_sub a b = wrap (a - b).
Proof.
  intros Ha%u128_M Hb%u128_M. unfold unchecked_sub, FG_MAX, wrap. change (2 ^ 128) with M128.
  destruct (Z.ltb_spec a b).
  - apply Z.mod_unique_pos with (-1); lia.
  - symmetry. apply Z.mod_small. lia.
Qed.
Lemma unchecked_add_u128 a b : u128 a -> u128 b -> u128 (unchecked_add a b).
Proof. intros. rewrite unchecked_add_wrap by auto. apply wrap_u128. Qed.
Lemma unchecked_sub_u128 a b : u128 a -> u128 b -> u128 (unchecked_sub a b).
Proof. intros. rewrite unchecked_sub_wrap by auto. apply wrap_u128. Qed.

Lemma wrap_sub_l a b : wrap (wrap a - b) = wrap (a - b).
Proof. unfold wrap. apply Zminus_mod_idemp_l. Qed.
Lemma wrap_sub_r a b : wrap (a - wrap b) = wrap (a - b).
Proof. unfold wrap. apply Zminus_mod_idemp_r. Qed.
Lemma wrap_add_l a b : wrap (wrap a + b) = wrap (a + b).
Proof. unfold wrap. apply Zplus_mod_idemp_l. Qed.
Lemma wrap_add_r a b : wrap (a + wrap b) = wrap (a + b).
Proof. unfold wrap. apply Zplus_mod_idemp_r. Qed.
Lemma wrap_wrap a : wrap (wrap a) = wrap a.
Proof. apply wrap_id, wrap_u128. Qed.

Lemma growth_below_u128 i cur g o : u128 o -> u128 (growth_below i cur g o).
Proof. intros. unfold growth_below. destruct (i <=? cur); auto using wrap_u128. Qed.

Lemma add_sub_restore a b : u128 a -> u128 b -> unchecked_sub (unchecked_add a b) b = a.
Proof.
  intros. rewrite unchecked_sub_wrap by auto using unchecked_add_u128. rewrite unchecked_add_wrap by auto.
  rewrite wrap_sub_l. replace (a + b - b) with a by lia. apply wrap_id; auto.
Qed.
Lemma sub_add_restore a b : u128 a -> u128 b -> unchecked_add (unchecked_sub a b) b = a.
Proof.
  intros. rewrite unchecked_add_wrap by auto using unchecked_sub_u128. rewrite unchecked_sub_wrap by auto.
  rewrite wrap_add_l. replace (a - b + b) with a by lia. apply wrap_id; auto.
Qed.

Lemma fee_growth_inside_eq lo lo_out up up_out cur g :
  u128 lo_out -> u128 up_out -> u128 g ->
  fee_growth_inside_one lo lo_out up up_out cur g =
    wrap (growth_below up cur g up_out - growth_below lo cur g lo_out).
Proof.
  intros Hl Hu Hg. unfold fee_growth_inside_one.
  set (below := if lo <=? cur then lo_out else unchecked_sub g lo_out).
  assert (Hb : below = growth_below lo cur g lo_out).
  { unfold below, growth_below. destruct (lo <=? cur); auto using unchecked_sub_wrap. }
  rewrite Hb. clearbody below. clear Hb below.
  pose proof (growth_below_u128 lo cur g lo_out Hl) as Hb. set (bl := growth_below lo cur g lo_out) in *. clearbody bl.
  assert (Ha : u128 (if cur <? up then up_out else unchecked_sub g up_out))
    by (destruct (cur <? up); auto using unchecked_sub_u128).
  rewrite unchecked_sub_wrap by auto using unchecked_sub_u128.
  rewrite (unchecked_sub_wrap g bl) by auto. rewrite wrap_sub_l.
  unfold growth_below. destruct (Z.ltb_spec cur up); destruct (Z.leb_spec up cur); try lia.
  - rewrite wrap_sub_l. f_equal. lia.
  - rewrite unchecked_sub_wrap by auto. rewrite wrap_sub_r. f_equal. lia.
Qed.

(** ** Conversions between fees and growth *)
Definition E33 : Z := 1000000000000000000000000000000000.

Lemma from_fee_inv L fee g : u256 L -> u256 fee -> from_fee L fee = Ok g ->
  0 < L /\ g = fee * E33 / L /\ u128 g.
Proof.
  intros HL%u256_M Hf%u256_M H. unfold from_fee in H. inv_res. subst.
  assert (0 < L) by lia. split; auto.
  replace (fee * FEE_GROWTH_ONE * LIQUIDITY_ONE) with (fee * E33) in * by (unfold FEE_GROWTH_ONE, LIQUIDITY_ONE, E33; lia).
  split; auto. apply u128_I. split; auto. apply div_nonneg; [auto|unfold E33; lia].
Qed.

Lemma to_fee_inv g L v : u128 g -> u256 L -> to_fee g L = Ok v ->
  v = g * L / E33 /\ u256 v.
Proof.
  intros Hg%u128_M HL%u256_M H. unfold to_fee in H. inv_res. subst.
  rewrite div_div in * by reflexivity.
  change (LIQUIDITY_ONE * FEE_GROWTH_ONE) with E33 in *. split; auto.
  apply u256_I. split; auto. apply div_nonneg; [reflexivity|nia].
Qed.

Lemma to_fee_le g L v : u128 g -> u256 L -> to_fee g L = Ok v -> 0 <= v /\ v * E33 <= g * L.
Proof.
  intros Hg HL H. apply to_fee_inv in H as [-> H]; auto. apply u256_M in H. split; [lia|].
  pose proof (div_bounds (g * L) E33 eq_refl). lia.
Qed.

Lemma from_fee_le L fee g : u256 L -> u256 fee -> from_fee L fee = Ok g -> g * L <= fee * E33.
Proof.
  intros HL Hf H. apply from_fee_inv in H as (H0 & -> & _); auto.
  pose proof (div_bounds (fee * E33) L H0). lia.
Qed.

(** ** C11: distribution *)

(** What can happen to a range with fixed positions: a fee is collected, or a
    position collects its share. *)
Inductive fee_event : Type :=
| FeeIn (fee : Z)
| Collect (j : nat).

(** Liquidity and last seen growth of each position; global growth; collected; paid. *)
Record fee_acct : Type := mkAcct {
  fa_positions : list (Z * Z); fa_growth : Z; fa_collected : Z; fa_paid : Z }.

Fixpoint set_snap (l : list (Z * Z)) (j : nat) (g : Z) : list (Z * Z) :=
  match l, j with
  | [], _ => []
  | (lq, _) :: l', O => (lq, g) :: l'
  | a :: l', S j' => a :: set_snap l' j' g
  end.

(** An event that fails leaves everything unchanged (the call is rolled back). *)
Definition fee_event_step (L : Z) (a : fee_acct) (e : fee_event) : fee_acct :=
  match e with
  | FeeIn fee =>
      match from_fee L fee with
      | Ok g => mkAcct (fa_positions a) (unchecked_add (fa_growth a) g) (fa_collected a + fee) (fa_paid a)
      | _ => a
      end
  | Collect j =>
      match nth_error (fa_positions a) j with
      | Some (lq, snap) =>
          match to_fee (unchecked_sub (fa_growth a) snap) lq with
          | Ok v => mkAcct (set_snap (fa_positions a) j (fa_growth a)) (fa_growth a) (fa_collected a) (fa_paid a + v)
          | _ => a
          end
      | None => a
      end
  end.

Definition pending (G : Z) (l : list (Z * Z)) : Z := sumZ (fun '(lq, s) => lq * wrap (G - s)) l.

Definition acct_ok (L : Z) (a : fee_acct) : Prop :=
  sumZ fst (fa_positions a) = L /\
  Forall (fun '(lq, s) => 0 <= lq /\ u128 s) (fa_positions a) /\
  u128 (fa_growth a) /\
  fa_paid a * E33 + pending (fa_growth a) (fa_positions a) <= fa_collected a * E33.

Lemma wrap_step G g s : u128 s -> u128 G -> 0 <= g -> wrap (wrap (G + g) - s) <= wrap (G - s) + g.
Proof.
  intros Hs HG Hg. rewrite wrap_sub_l. replace (G + g - s) with ((G - s) + g) by lia.
  rewrite <- wrap_add_l. unfold wrap at 1. apply Z.mod_le; [|reflexivity].
  pose proof (wrap_u128 (G - s)). apply u128_M in H. lia.
Qed.

Lemma pending_step G g l : u128 G -> 0 <= g -> Forall (fun '(lq, s) => 0 <= lq /\ u128 s) l ->
  pending (wrap (G + g)) l <= pending G l + g * sumZ fst l.
Proof.
  intros HG Hg. induction 1 as [|[lq s] l [Hl Hs] _ IH]; unfold pending in *; cbn [sumZ]; [lia|].
  cbn [fst]. pose proof (wrap_step G g s Hs HG Hg). nia.
Qed.

Lemma pending_nonneg G l : Forall (fun '(lq, s) => 0 <= lq /\ u128 s) l -> 0 <= pending G l.
Proof.
  induction 1 as [|[lq s] l [Hl Hs] _ IH]; unfold pending in *; cbn [sumZ]; [lia|].
  pose proof (wrap_u128 (G - s)) as Hw. apply u128_M in Hw. nia.
Qed.

Lemma set_snap_spec l j G lq s : nth_error l j = Some (lq, s) -> u128 G ->
  Forall (fun '(lq, s) => 0 <= lq /\ u128 s) l ->
  sumZ fst (set_snap l j G) = sumZ fst l /\
  Forall (fun '(lq, s) => 0 <= lq /\ u128 s) (set_snap l j G) /\
  pending G (set_snap l j G) = pending G l - lq * wrap (G - s).
Proof.
  revert j. induction l as [|[lq' s'] l IH]; intros [|j] Hn HG HF; cbn in Hn; try discriminate;
    apply Forall_cons_iff in HF as [[Hl Hs] HF']; cbn [set_snap sumZ fst].
  - inversion Hn; subst. unfold pending. cbn [sumZ]. split; [auto|]. split; [constructor; auto|].
    rewrite Z.sub_diag. change (wrap 0) with 0. lia.
  - destruct (IH j Hn HG HF') as (H1 & H2 & H3). unfold pending in *. cbn [sumZ].
    repeat split; auto; lia.
Qed.

Lemma fee_event_ok L a e : u256 L -> (forall f, e = FeeIn f -> u256 f) ->
  acct_ok L a -> acct_ok L (fee_event_step L a e).
Proof.
  intros HL He Hok. pose proof Hok as (H1 & H2 & H3 & H4). destruct e as [fee|j]; cbn [fee_event_step].
  - specialize (He fee eq_refl). destruct (from_fee L fee) eqn:E; try exact Hok.
    pose proof (from_fee_le L fee a0 HL He E) as HB. apply from_fee_inv in E as (HL0 & _ & Hg); auto.
    unfold acct_ok. cbn [fa_positions fa_growth fa_collected fa_paid].
    split; [auto|]. split; [auto|]. split; [auto using unchecked_add_u128|].
    rewrite unchecked_add_wrap by auto.
    pose proof (pending_step (fa_growth a) a0 _ H3 (proj1 (u128_M _ Hg)) H2) as HP.
    rewrite H1 in HP. lia.
  - destruct (nth_error (fa_positions a) j) as [[lq s]|] eqn:En; [|exact Hok].
    destruct (to_fee _ lq) eqn:E; try exact Hok.
    assert (Hls : 0 <= lq /\ u128 s).
    { rewrite Forall_forall in H2. apply nth_error_In in En. apply (H2 _ En). }
    destruct Hls as [Hl Hs].
    assert (Hlq : u256 lq).
    { apply u256_I. apply u256_M in HL. split; auto.
      eapply Z.le_lt_trans; [|apply HL]. rewrite <- H1.
      clear - En H2. revert j En. induction H2 as [|[lq' s'] l [Hl _] HF IH]; intros [|j] En; cbn in En; try discriminate.
      - inversion En; subst. cbn. assert (0 <= sumZ fst l); [|lia].
        clear IH En. induction HF as [|[? ?] ? [? _] ? IHF]; cbn; lia.
      - cbn. specialize (IH j En). lia. }
    destruct (set_snap_spec _ j (fa_growth a) lq s En H3 H2) as (S1 & S2 & S3).
    rewrite unchecked_sub_wrap in E by auto.
    apply to_fee_le in E as [E0 E]; auto using wrap_u128.
    unfold acct_ok. cbn [fa_positions fa_growth fa_collected fa_paid].
    split; [lia|]. split; [auto|]. split; [auto|]. lia.
Qed.

Lemma fees_distributed_le_collected L lqs es :
  u256 L -> sumZ (fun l => l) lqs = L -> Forall (fun l => 0 <= l) lqs ->
  Forall (fun e => forall f, e = FeeIn f -> u256 f) es ->
  let a := fold_left (fee_event_step L) es (mkAcct (map (fun l => (l, 0)) lqs) 0 0 0) in
  0 <= fa_paid a <= fa_collected a.
Proof.
  intros HL HS HP HE. cbv zeta.
  assert (H0 : acct_ok L (mkAcct (map (fun l => (l, 0)) lqs) 0 0 0) /\
               0 <= fa_paid (mkAcct (map (fun l => (l, 0)) lqs) 0 0 0)).
  { split; [|cbn; lia]. split; [|split; [|split]]; cbn [fa_positions fa_growth fa_collected fa_paid].
    - rewrite <- HS. clear. induction lqs; cbn; auto; lia.
    - rewrite Forall_map. revert HP. apply Forall_impl. intros; split; auto. unfold u128. lia.
    - unfold u128. lia.
    - assert (E : pending 0 (map (fun l => (l, 0)) lqs) = 0); [|lia].
      unfold pending. clear. induction lqs as [|l lqs IH]; cbn [map sumZ]; auto.
      rewrite IH. change (wrap (0 - 0)) with 0. lia. }
  revert H0. generalize (mkAcct (map (fun l => (l, 0)) lqs) 0 0 0). clear HS HP.
  induction HE as [|e es He _ IH]; intros a [Ha Hp]; cbn [fold_left].
  - split; auto. destruct Ha as (_ & H2 & _ & H4). pose proof (pending_nonneg (fa_growth a) _ H2). unfold E33 in *. lia.
  - apply IH. split; [apply fee_event_ok; auto|].
    destruct e as [fee|j]; cbn [fee_event_step].
    + destruct (from_fee L fee); cbn; auto.
    + destruct (nth_error _ j) as [[lq s]|] eqn:En; [|auto]. destruct (to_fee _ lq) eqn:E; cbn; auto.
      destruct Ha as (_ & H2 & H3 & _).
      assert (Hls : 0 <= lq /\ u128 s).
      { rewrite Forall_forall in H2. apply nth_error_In in En. apply (H2 _ En). }
      unfold to_fee in E. inv_res. subst.
      assert (0 <= unchecked_sub (fa_growth a) s) by (apply u128_M; apply unchecked_sub_u128; tauto).
      assert (0 <= unchecked_sub (fa_growth a) s * lq / LIQUIDITY_ONE / FEE_GROWTH_ONE); [|lia].
      apply div_nonneg; [reflexivity|]. apply div_nonneg; [reflexivity|]. nia.
Qed.

(** ** C12 *)
Lemma pool_add_fee_spec p amount in_x pf p' :
  u256 amount -> 0 <= pf -> u256 (p_liquidity p) ->
  pool_add_fee p amount in_x pf = Ok p' ->
  exists part rest,
    part + rest = amount /\ 0 <= part /\ 0 <= rest /\ is_ceil part (amount * pf) (10 ^ 12) /\
    ((p' = p /\ (amount = 0 \/ p_liquidity p = 0)) \/
     (exists g, from_fee (p_liquidity p) rest = Ok g /\
        p' = (if in_x
              then set_fees_x (unchecked_add (p_fee_growth_global_x p) g) (p_fee_protocol_token_x p + part) p
              else set_fees_y (unchecked_add (p_fee_growth_global_y p) g) (p_fee_protocol_token_y p + part) p) /\
        (if in_x then p_fee_protocol_token_x p + part < 2 ^ 256 else p_fee_protocol_token_y p + part < 2 ^ 256))).
Proof.
  intros Ha%u256_M Hpf HL%u256_M H. unfold pool_add_fee, dec_sub, dec_add in H.
  apply bind_Ok in H as (part & H1 & H). apply bind_Ok in H as (rest & H2 & H).
  unfold token_big_mul_up_percentage, big_mul_up in H1. inv_res. subst.
  change PERCENTAGE_ONE with E12 in *. rewrite !cdiv_eq_div in * by reflexivity.
  set (part := cdiv (amount * pf) E12) in *.
  assert (Hc : 0 <= part) by (apply cdiv_nonneg; [reflexivity|nia]).
  exists part, (amount - part). split; [lia|]. split; [lia|]. split; [lia|]. split.
  { unfold is_ceil. change (10 ^ 12) with E12. pose proof (cdiv_bounds (amount * pf) E12 eq_refl) as HB. fold part in HB. lia. }
  destruct (((amount - part =? 0) && (part =? 0)) || (p_liquidity p =? 0)) eqn:E.
  - left. inv_res. split; auto. apply orb_prop in E as [E|E].
    + apply andb_prop in E as [E1 E2]. apply Z.eqb_eq in E1, E2. left. lia.
    + apply Z.eqb_eq in E. auto.
  - right. inv_res. exists x. split; auto. destruct in_x; inv_res; subst; split; auto.
Qed.

Lemma pool_add_fee_over p amount in_x pf :
  u256 amount -> 0 < amount -> 10 ^ 12 < pf < 2 ^ 128 ->
  pool_add_fee p amount in_x pf = Panic.
Proof.
  intros Ha%u256_M H0 Hpf. unfold pool_add_fee, token_big_mul_up_percentage, big_mul_up.
  change (10 ^ 12) with E12 in *. change (2 ^ 128) with M128 in *.
  assert (HB : amount * pf <= (M256 - 1) * (M128 - 1)) by (apply mul_bound; unfold E12 in *; lia).
  assert ((M256 - 1) * (M128 - 1) < M512 - E12) by reflexivity.
  rewrite checked_mul_ok by (unfold E12 in *; lia). cbn [bind expect].
  change PERCENTAGE_ONE with E12.
  rewrite checked_add_ok by lia. cbn [bind expect].
  rewrite checked_div_ok by (unfold E12; lia). cbn [bind expect].
  rewrite cdiv_eq_div by reflexivity.
  pose proof (cdiv_bounds (amount * pf) E12 eq_refl).
  assert (amount < cdiv (amount * pf) E12) by (unfold E12 in *; nia).
  unfold checked_cast. destruct (_ <? M256); cbn [bind expect]; auto.
  unfold dec_sub, checked_sub. destruct (Z.leb_spec (cdiv (amount * pf) E12) amount); [lia|]. reflexivity.
Qed.
