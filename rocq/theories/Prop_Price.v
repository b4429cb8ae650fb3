(** C69: the price at which a swap is executed. *)
From Verif Require Import Base Decimal SqrtPriceM LogM ClammM FeeGrowthM Types TickmapM StorageM
  CollectionsM StateM ServiceM Arith SpecMath SpecFees SpecSum SpecState SpecHistory SpecClean SpecPath SpecPrice
  P_Fees P_Balance P_Effects P_Positions P_History P_TickPrice P_Tickmap P_Closer P_Inv P_InvSwap P_Swap P_InvHist P_Active P_Path P_Price Cases CasesClean Prop_State Prop_Ticks Prop_Path.
From stdpp Require Import gmap list.
From Coq Require Import ZArith Lia Bool.
Open Scope Z_scope.

(** At most how many steps a swap takes that moves the pool from [p] to [p']. *)
Definition steps (k : pool_key) (p p' : pool) : Z :=
  Z.abs (p_current_tick_index p' - p_current_tick_index p) + ft_tick_spacing (pk_fee_tier k) + 1.

Lemma swap_walk evs s e k d a bi lim s' r p p' :
  history regular evs s -> u256 a -> swap e s k d a bi lim = Ok (s', r) -> pools_get s k = Ok p -> pools_get s' k = Ok p' ->
  Inv s /\ price_in_range (p_sqrt_price p) /\ price_in_range (p_sqrt_price p') /\ 0 <= ft_fee (pk_fee_tier k) <= 10 ^ 12 /\
  exists segs, walk s k d bi p p' (cs_amount_in r) (cs_amount_out r) (cs_fee r) segs /\
    (d = true \/ bi = true -> Z.of_nat (length segs) <= steps k p p').
Proof.
  intros H Ha HS Hp Hp'. assert (HR : history room evs s) by (apply (history_weaken regular room); [intros ? ? [? _]; assumption|exact H]).
  apply room_Inv in HR as I. destruct (Inv_swap _ _ _ _ _ _ _ _ _ I Ha HS) as (I' & _ & _). apply swap_inv in HS as (B & HC & Es & _).
  pose proof (C23_active_liquidity_guarded _ _ _ _ H Hp) as HA.
  assert (E : p' = cs_pool r).
  { rewrite Es in Hp'. unfold pools_get in Hp'. cbn [set_balances set_pools s_pools] in Hp'. rewrite lookup_insert in Hp'. cbn in Hp'. congruence. }
  apply pools_get_Ok in Hp, Hp'. pose proof (I_pool _ I _ _ Hp) as PO. pose proof (I_pool _ I' _ _ Hp') as PO'.
  split; [exact I|]. split; [apply PO|]. split; [apply PO'|]. split; [pose proof (po_tier _ _ PO) as [T1 T2]; lia|].
  destruct (walk_count s I _ k d bi a lim p Hp Ha (eq_sym HA) r HC) as (segs & W & HN).
  exists segs. rewrite E. split; [exact W|exact HN].
Qed.

(** Nobody trades better than at the price of the pool before the swap: without the
    fee, what is paid out is worth at most what is paid in. *)
Theorem C69_no_better_than_before evs s e k d a bi lim s' r p p' :
  history regular evs s -> u256 a -> swap e s k d a bi lim = Ok (s', r) -> pools_get s k = Ok p -> pools_get s' k = Ok p' ->
  worth_at_most d (p_sqrt_price p) (steps k p p') (cs_amount_in r - cs_fee r) (cs_amount_out r).
Proof.
  intros H Ha HS Hp Hp'. destruct (swap_walk _ _ _ _ _ _ _ _ _ _ _ _ H Ha HS Hp Hp') as (I & R & R' & _ & segs & W & HN).
  pose proof (walk_at_most s I k d bi p p' _ _ _ segs W R R') as M. unfold worth_at_most in *. destruct d; [|exact M].
  specialize (HN ltac:(auto)). lia.
Qed.

(** Exact in: hardly worse than at the price after the swap.  But for the fee rate,
    for a unit of either token in each step and for what is too little to move the
    price, all that is paid in is converted, and at that price or a better one. *)
Theorem C69_exact_in_no_worse_than_after evs s e k d a lim s' r p p' :
  history regular evs s -> u256 a -> swap e s k d a true lim = Ok (s', r) -> pools_get s k = Ok p -> pools_get s' k = Ok p' ->
  exists net little q,
    0 <= net <= cs_amount_in r - cs_fee r /\
    worth_at_least d (p_sqrt_price p') (steps k p p') net (cs_amount_out r) /\
    cs_amount_in r * (10 ^ 12 - ft_fee (pk_fee_tier k)) <= (net + (steps k p p' + 1) + 2 * little) * 10 ^ 12 /\
    0 <= little /\ too_little d little (p_sqrt_price p') (curve s k q) /\
    Z.min (p_sqrt_price p) (p_sqrt_price p') - 1 <= q <= Z.max (p_sqrt_price p) (p_sqrt_price p').
Proof.
  intros H Ha HS Hp Hp'. destruct (swap_walk _ _ _ _ _ _ _ _ _ _ _ _ H Ha HS Hp Hp') as (I & R & R' & HF & segs & W & HN).
  specialize (HN ltac:(auto)).
  destruct (walk_at_least s I k d true p p' _ _ _ segs W R R' HF eq_refl) as (net & g & q & N1 & Q1 & G1 & T & B & M).
  exists net, g, q. split; [exact N1|]. split; [|split; [lia|auto]]. unfold price_in_range in R, R'.
  pose proof (wk_out _ _ _ _ _ _ _ _ _ _ W) as EO.
  unfold worth_at_least in *. destruct d.
  - set (Q := p_sqrt_price p' * p_sqrt_price p' - 10 ^ 24) in *. assert (0 <= Q) by (unfold Q; nia).
    assert ((net - steps k p p') * Q <= (net - Z.of_nat (length segs)) * Q) by (apply Z.mul_le_mono_nonneg_r; lia). lia.
  - set (Q := p_sqrt_price p' * p_sqrt_price p' + 10 ^ 24) in *. assert (0 <= Q) by (unfold Q; nia).
    assert ((cs_amount_out r + Z.of_nat (length segs)) * Q <= (cs_amount_out r + steps k p p') * Q) by (apply Z.mul_le_mono_nonneg_r; lia). lia.
Qed.

(** A quote, which moves nothing, promises nothing better than the price of the pool
    either. *)
Theorem C69_quote_no_better_than_the_price evs s e k d a bi lim q p :
  history regular evs s -> u256 a -> quote e s k d a bi lim = Ok q -> pools_get s k = Ok p ->
  worth_at_most d (p_sqrt_price p) 443737 (q_amount_in q) (q_amount_out q).
Proof.
  intros H Ha HQ Hp. assert (HR : history room evs s) by (apply (history_weaken regular room); [intros ? ? [? _]; assumption|exact H]).
  apply room_Inv in HR as I. unfold quote in HQ. apply bind_Ok in HQ as (r & HC & HQ). injection HQ as <-. cbn [q_amount_in q_amount_out].
  pose proof (C23_active_liquidity_guarded _ _ _ _ H Hp) as HA. apply pools_get_Ok in Hp. pose proof (I_pool _ I _ _ Hp) as PO.
  destruct (walk_count s I _ k d bi a lim p Hp Ha (eq_sym HA) r HC) as (segs & W & HN).
  assert (PO' : pool_ok k (cs_pool r)).
  { destruct (Inv_calculate_swap _ _ _ _ _ _ _ _ I Ha HC) as (I2 & _). refine (I_pool _ I2 k _ _). unfold swapped. cbn [set_pools s_pools]. apply lookup_insert. }
  pose proof (walk_at_most s I k d bi p (cs_pool r) _ _ _ segs W (po_range _ _ PO) (po_range _ _ PO')) as M.
  pose proof (okt_valid _ _ (po_tick _ _ PO)) as V. pose proof (okt_valid _ _ (po_tick _ _ PO')) as V'. pose proof (pool_spacing _ _ PO) as SP.
  assert (F0 : 0 <= cs_fee r).
  { rewrite (wk_fee _ _ _ _ _ _ _ _ _ _ W). pose proof (wk_segments _ _ _ _ _ _ _ _ _ _ W) as HF. clear - HF.
    induction segs as [|g l IH]; cbn [sumZ]; [lia|]. inversion HF as [|? ? G]; subst. specialize (IH ltac:(auto)).
    destruct (oc_fee _ _ _ _ _ _ G) as [L0 _]. lia. }
  unfold worth_at_most, valid_tick in *. destruct d; [|lia]. specialize (HN ltac:(auto)).
  assert (0 <= cs_fee r * (p_sqrt_price p * p_sqrt_price p)) by (apply Z.mul_nonneg_nonneg; [exact F0|apply Z.square_nonneg]). lia.
Qed.

(** Carol's swap over the tick -10 (C57): without the fee 1979 units are converted,
    worth 1982 at the price before and 1979 at the price after; 1979 are paid. *)
Definition price_summary (s : state) (d : bool) (a : Z) (bi : bool) (lim : Z) : option (Z * Z * Z * Z) :=
  match pools_get s pool1, swap (by_ carol) s pool1 d a bi lim with
  | Ok p, Ok (_, r) =>
      let v q := (cs_amount_in r - cs_fee r) * (if d then q * q else 10 ^ 48) / (if d then 10 ^ 48 else q * q) in
      Some (cs_amount_out r, v (p_sqrt_price p), v (p_sqrt_price (cs_pool r)), steps pool1 p (cs_pool r))
  | _, _ => None
  end.
Example C69_case :
  history regular evs_traded s_traded /\
    price_summary s_traded false 2000 true 65535383934512647000000000000 = Some (1979, 1982, 1979, 21) /\
    price_summary s_traded true 500 true 15258932000000000000 = Some (494, 494, 494, 11).
Proof. split; [exact s_traded_regular|]. crunch. Qed.

(** ** Assumptions *)
Print Assumptions C69_no_better_than_before.
Print Assumptions C69_exact_in_no_worse_than_after.
Print Assumptions C69_quote_no_better_than_the_price.
