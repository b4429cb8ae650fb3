(** * C63 – fixed-point arithmetic rounds as its name says and never wraps around *)
From Verif Require Import Base Decimal DecimalLibM SpecDecimal P_Decimal.
From Coq Require Import ZArith QArith Lia Bool List.
Import ListNotations.
Open Scope Z_scope.

Ltac open_ops := unfold d_add, d_sub, d_mul, d_div, d_mul_up, d_div_up, d_checked_add, d_checked_sub, d_checked_div,
  d_big_mul, d_big_mul_up, d_big_div, d_checked_big_div, d_big_div_up, d_by_number, d_checked_by_number, d_by_number_up,
  d_checked_by_number_up, d_mul_to_value, d_mul_to_value_up, d_from_integer, cast, checked_add, checked_sub, checked_mul, checked_div, checked_cast.
Ltac step := match goal with
  | |- context [?x <? ?y] => destruct (Z.ltb_spec x y)
  | |- context [?x <=? ?y] => destruct (Z.leb_spec x y)
  | |- context [?x =? ?y] => destruct (Z.eqb_spec x y)
  end; cbn [expect ok_or bind].
(** The calls are run symbolically; each branch returns, or is one of the refusals. *)
Ltac good := left; split; [|eexists; split; [reflexivity|]].
Ltac bad := right; split; [|reflexivity].

Section Ops.
  Context (t u : dtype) (St : sound_type t) (Su : sound_type u) (a b : Z) (Ha : of_type t a).

  Ltac start := open_ops; rewrite ?(one_Ok t St), ?(one_Ok u Su), ?(almost_one_Ok u Su); cbn [bind];
    destruct St as [Ss SB]; destruct Su as [Sw SB'];
    pose proof (pow10_pos _ (proj1 Ss)) as Ps; pose proof (pow10_pos _ (proj1 Sw)) as Pw;
    unfold of_type in *;
    set (s := t_scale t) in *; set (w := t_scale u) in *; set (B := t_bound t) in *; set (G := t_big t) in *; set (B' := t_bound u) in *;
    clearbody s w B G B'.

  (** Sums and differences are exact. *)
  Theorem C63_add_sub : of_type t b ->
    returns_or Panic (a + b < t_bound t) (fun r => of_type t r /\ value (t_scale t) r == value (t_scale t) a + value (t_scale t) b)%Q (d_add t a b) /\
    returns_or Panic (b <= a) (fun r => of_type t r /\ value (t_scale t) r == value (t_scale t) a - value (t_scale t) b)%Q (d_sub t a b) /\
    (exists r, d_sub_abs t a b = Ok r /\ r = Z.abs (a - b) /\ of_type t r) /\
    returns_or (Err ETrack) (a + b < t_bound t) (fun r => d_add t a b = Ok r) (d_checked_add t a b) /\
    returns_or (Err ETrack) (b <= a) (fun r => d_sub t a b = Ok r) (d_checked_sub t a b).
  Proof.
    intros Hb. unfold d_sub_abs. rewrite Z.gtb_ltb. start.
    assert (E1 : (value s (a + b) == value s a + value s b)%Q)
      by (unfold value; rewrite inject_Z_plus; field; apply inj_nz; auto).
    assert (E2 : (value s (a - b) == value s a - value s b)%Q)
      by (unfold value, Z.sub; rewrite inject_Z_plus, inject_Z_opp; field; apply inj_nz; auto).
    repeat apply conj.
    - step; [good|bad]; cbn beta; repeat split; auto; lia.
    - step; [good|bad]; cbn beta; repeat split; auto; lia.
    - repeat step; try lia; eexists; repeat split; auto; lia.
    - step; [good|bad]; cbn beta; repeat split; auto; lia.
    - step; [good|bad]; cbn beta; repeat split; auto; lia.
  Qed.

  (** Products and quotients in the underlying type. *)
  Theorem C63_mul_div : of_type u b ->
    let fits := b < t_bound t /\ 10 ^ t_scale u < t_bound t in
    let product := (value (t_scale t) a * value (t_scale u) b)%Q in
    let quotient := (value (t_scale t) a / value (t_scale u) b)%Q in
    returns_or Panic (fits /\ a * b < t_bound t) (fun r => of_type t r /\ rounds_down (t_scale t) r product) (d_mul t u a b) /\
    returns_or Panic (fits /\ a * b + (10 ^ t_scale u - 1) < t_bound t)
      (fun r => of_type t r /\ rounds_up (t_scale t) r product) (d_mul_up t u a b) /\
    returns_or Panic (fits /\ b <> 0 /\ a * 10 ^ t_scale u < t_bound t)
      (fun r => of_type t r /\ rounds_down (t_scale t) r quotient) (d_div t u a b) /\
    returns_or Panic (fits /\ b <> 0 /\ a * 10 ^ t_scale u + (b - 1) < t_bound t)
      (fun r => of_type t r /\ rounds_up (t_scale t) r quotient) (d_div_up t u a b).
  Proof.
    intros Hb. cbn zeta. start.
    assert (0 <= a * b) by (apply Z.mul_nonneg_nonneg; lia). assert (0 <= a * 10 ^ w) by (apply Z.mul_nonneg_nonneg; lia).
    set (W := 10 ^ w) in *. repeat apply conj.
    - repeat step; first [bad; lia|good; [lia|]|exfalso; lia].
      split; [split; [apply fl_nonneg; auto|pose proof (fl_le (a * b) W Pw); lia]|].
      apply down_mul; [lia|lia|apply (fl _ _ Pw)].
    - repeat step; first [bad; lia|good; [lia|]|exfalso; lia].
      pose proof (fl_le (a * b + (W - 1)) W Pw).
      split; [split; [apply fl_nonneg; lia|lia]|].
      apply up_mul; [lia|lia|apply (ce _ _ Pw)].
    - repeat step; first [bad; lia|good; [lia|]|exfalso; lia].
      pose proof (fl_le (a * W) b ltac:(lia)).
      split; [split; [apply fl_nonneg; lia|lia]|].
      apply down_div; [lia|lia|lia|apply (fl (a * W) b); lia].
    - repeat step; first [bad; lia|good; [lia|]|exfalso; lia].
      pose proof (fl_le (a * W + (b - 1)) b ltac:(lia)).
      split; [split; [apply fl_nonneg; lia|lia]|].
      apply up_div; [lia|lia|lia|apply (ce (a * W) b); lia].
  Qed.

  (** Products and quotients by way of the big type: the exact product has to fit into
      the big type and the result into the underlying type. *)
  Theorem C63_big_mul_div : of_type u b ->
    let fits := b < t_big t /\ 10 ^ t_scale u < t_big t in
    let product := (value (t_scale t) a * value (t_scale u) b)%Q in
    let quotient := (value (t_scale t) a / value (t_scale u) b)%Q in
    returns_or Panic (fits /\ a * b < t_big t /\ a * b < t_bound t * 10 ^ t_scale u)
      (fun r => of_type t r /\ rounds_down (t_scale t) r product) (d_big_mul t u a b) /\
    returns_or Panic (fits /\ a * b + (10 ^ t_scale u - 1) < t_big t /\ a * b <= (t_bound t - 1) * 10 ^ t_scale u)
      (fun r => of_type t r /\ rounds_up (t_scale t) r product) (d_big_mul_up t u a b) /\
    returns_or Panic (fits /\ b <> 0 /\ a * 10 ^ t_scale u < t_big t /\ a * 10 ^ t_scale u < t_bound t * b)
      (fun r => of_type t r /\ rounds_down (t_scale t) r quotient) (d_big_div t u a b) /\
    returns_or Panic (fits /\ b <> 0 /\ a * 10 ^ t_scale u + b < t_big t /\ a * 10 ^ t_scale u <= (t_bound t - 1) * b)
      (fun r => of_type t r /\ rounds_up (t_scale t) r quotient) (d_big_div_up t u a b).
  Proof.
    intros Hb. cbn zeta. start.
    assert (0 <= a * b) by (apply Z.mul_nonneg_nonneg; lia). assert (0 <= a * 10 ^ w) by (apply Z.mul_nonneg_nonneg; lia).
    set (W := 10 ^ w) in *. repeat apply conj.
    - pose proof (div_lt (a * b) W B Pw). repeat step; first [bad; lia|good; [lia|]|exfalso; lia].
      split; [split; [apply fl_nonneg; auto|lia]|].
      apply down_mul; [lia|lia|apply (fl _ _ Pw)].
    - pose proof (ceil_lt (a * b) W B Pw). repeat step; first [bad; lia|good; [lia|]|exfalso; lia].
      split; [split; [apply fl_nonneg; lia|lia]|].
      apply up_mul; [lia|lia|apply (ce _ _ Pw)].
    - destruct (Z.eq_dec b 0) as [->|Nb]; [repeat step; first [bad; lia|exfalso; lia]|].
      pose proof (div_lt (a * W) b B ltac:(lia)). repeat step; first [bad; lia|good; [lia|]|exfalso; lia].
      split; [split; [apply fl_nonneg; lia|lia]|].
      apply down_div; [lia|lia|lia|apply (fl (a * W) b); lia].
    - destruct (Z.eq_dec b 0) as [->|Nb]; [repeat step; first [bad; lia|exfalso; lia]|].
      pose proof (ceil_lt (a * W) b B ltac:(lia)). assert (E : a * W + b - 1 = a * W + (b - 1)) by lia.
      repeat (step; rewrite ?E); first [bad; lia|good; [lia|]|exfalso; lia].
      split; [split; [apply fl_nonneg; lia|lia]|].
      apply up_div; [lia|lia|lia|apply (ce (a * W) b); lia].
  Qed.

  (** Products that are returned in the big type. *)
  Theorem C63_mul_to_value : of_type u b ->
    let fits := b < t_big t /\ 10 ^ t_scale u < t_big t in
    let product := (value (t_scale t) a * value (t_scale u) b)%Q in
    returns_or Panic (fits /\ a * b < t_big t) (fun r => 0 <= r < t_big t /\ rounds_down (t_scale t) r product) (d_mul_to_value t u a b) /\
    returns_or Panic (fits /\ a * b + (10 ^ t_scale u - 1) < t_big t)
      (fun r => 0 <= r < t_big t /\ rounds_up (t_scale t) r product) (d_mul_to_value_up t u a b).
  Proof.
    intros Hb. cbn zeta. start.
    assert (0 <= a * b) by (apply Z.mul_nonneg_nonneg; lia).
    set (W := 10 ^ w) in *. apply conj.
    - repeat step; first [bad; lia|good; [lia|]|exfalso; lia]. pose proof (fl_le (a * b) W Pw).
      split; [split; [apply fl_nonneg; auto|lia]|].
      apply down_mul; [lia|lia|apply (fl _ _ Pw)].
    - repeat step; first [bad; lia|good; [lia|]|exfalso; lia]. pose proof (fl_le (a * b + (W - 1)) W Pw).
      split; [split; [apply fl_nonneg; lia|lia]|].
      apply up_mul; [lia|lia|apply (ce _ _ Pw)].
  Qed.

  (** The checked quotients return an error instead of panicking, if the type of the
      divisor fits into the big type. *)
  Theorem C63_checked_div : of_type u b -> t_bound u <= t_big t ->
    returns_or (Err ETrack) (b <> 0 /\ a * 10 ^ t_scale u < t_big t /\ a * 10 ^ t_scale u < t_bound t * b)
      (fun r => d_big_div t u a b = Ok r) (d_checked_big_div t u a b) /\
    (u = t -> returns_or (Err ETrack) (b <> 0 /\ a * 10 ^ t_scale t < t_bound t) (fun r => d_div t t a b = Ok r) (d_checked_div t a b)).
  Proof.
    intros Hb Hu. split.
    - revert Hu. start. intros Hu. assert (0 <= a * 10 ^ w) by (apply Z.mul_nonneg_nonneg; lia). set (W := 10 ^ w) in *.
      destruct (Z.eq_dec b 0) as [->|Nb]; [repeat step; first [bad; lia|exfalso; lia]|].
      pose proof (div_lt (a * W) b B ltac:(lia)).
      repeat step; first [bad; lia|good; [lia|reflexivity]|exfalso; lia].
    - intros E. assert (Hb' : of_type t b) by (rewrite <- E; exact Hb). clear Hu Hb E. revert Hb'. start. intros Hb'.
      assert (0 <= a * 10 ^ s) by (apply Z.mul_nonneg_nonneg; lia). set (W := 10 ^ s) in *.
      repeat step; first [bad; lia|good; [lia|reflexivity]|exfalso; lia].
  Qed.

  (** Division by a number: the number is read with the digits of the receiver. *)
  Theorem C63_by_number n : 0 <= n < t_big t ->
    let quotient := (value (t_scale t) a / value (t_scale t) n)%Q in
    let fits := n <> 0 /\ a * 10 ^ t_scale t < t_big t /\ a * 10 ^ t_scale t < t_bound t * n in
    let fits_up := n <> 0 /\ a * 10 ^ t_scale t + (n - 1) < t_big t /\ a * 10 ^ t_scale t <= (t_bound t - 1) * n in
    returns_or Panic fits (fun r => of_type t r /\ rounds_down (t_scale t) r quotient) (d_by_number t a n) /\
    returns_or Panic fits_up (fun r => of_type t r /\ rounds_up (t_scale t) r quotient) (d_by_number_up t a n) /\
    returns_or (Err ETrack) fits (fun r => d_by_number t a n = Ok r) (d_checked_by_number t a n) /\
    (n <> 0 -> returns_or (Err ETrack) fits_up (fun r => d_by_number_up t a n = Ok r) (d_checked_by_number_up t a n)).
  Proof.
    intros Hn. cbn zeta. start. assert (0 <= a * 10 ^ s) by (apply Z.mul_nonneg_nonneg; lia). set (W := 10 ^ s) in *.
    destruct (Z.eq_dec n 0) as [->|Nn].
    - repeat apply conj; try (intros X; exfalso; lia); repeat step; first [bad; lia|exfalso; lia].
    - pose proof (div_lt (a * W) n B ltac:(lia)). pose proof (ceil_lt (a * W) n B ltac:(lia)). repeat apply conj; try intros _.
      + repeat step; first [bad; lia|good; [lia|]|exfalso; lia].
        split; [split; [apply fl_nonneg; lia|lia]|]. apply down_div; [lia|lia|lia|apply (fl (a * W) n); lia].
      + repeat step; first [bad; lia|good; [lia|]|exfalso; lia].
        split; [split; [apply fl_nonneg; lia|lia]|]. apply up_div; [lia|lia|lia|apply (ce (a * W) n); lia].
      + repeat step; first [bad; lia|good; [lia|reflexivity]|exfalso; lia].
      + repeat step; first [bad; lia|good; [lia|reflexivity]|exfalso; lia].
  Qed.
End Ops.

(** The variants that round up exceed those that round down by at most one unit. *)
Theorem C63_up_exceeds_down t u a b d p : sound_type t -> sound_type u -> of_type t a -> of_type u b ->
  (d_mul t u a b = Ok d /\ d_mul_up t u a b = Ok p) \/ (d_div t u a b = Ok d /\ d_div_up t u a b = Ok p) \/
  (d_big_mul t u a b = Ok d /\ d_big_mul_up t u a b = Ok p) \/ (d_big_div t u a b = Ok d /\ d_big_div_up t u a b = Ok p) \/
  (d_mul_to_value t u a b = Ok d /\ d_mul_to_value_up t u a b = Ok p) ->
  d <= p <= d + 1.
Proof.
  intros St Su Ha Hb H.
  assert (X : forall P Q fits fits' o o', returns_or Panic fits P o -> returns_or Panic fits' Q o' -> o = Ok d -> o' = Ok p -> P d /\ Q p).
  { intros P Q fits fits' o o' [(_ & r & E & HP)|(_ & E)] [(_ & r' & E' & HQ)|(_ & E')] Eo Eo'; rewrite Eo in E; rewrite Eo' in E'; try discriminate E; try discriminate E'.
    injection E as ->. injection E' as ->. auto. }
  destruct St as [Ss SB] eqn:ES. 
  destruct (C63_mul_div t u St Su a b Ha Hb) as (M1 & M2 & M3 & M4).
  destruct (C63_big_mul_div t u St Su a b Ha Hb) as (B1 & B2 & B3 & B4).
  destruct (C63_mul_to_value t u St Su a b Ha Hb) as (V1 & V2).
  destruct H as [[E1 E2]|[[E1 E2]|[[E1 E2]|[[E1 E2]|[E1 E2]]]]].
  - destruct (X _ _ _ _ _ _ M1 M2 E1 E2) as [[_ X1] [_ X2]]. eapply up_down; eauto; lia.
  - destruct (X _ _ _ _ _ _ M3 M4 E1 E2) as [[_ X1] [_ X2]]. eapply up_down; eauto; lia.
  - destruct (X _ _ _ _ _ _ B1 B2 E1 E2) as [[_ X1] [_ X2]]. eapply up_down; eauto; lia.
  - destruct (X _ _ _ _ _ _ B3 B4 E1 E2) as [[_ X1] [_ X2]]. eapply up_down; eauto; lia.
  - destruct (X _ _ _ _ _ _ V1 V2 E1 E2) as [[_ X1] [_ X2]]. eapply up_down; eauto; lia.
Qed.

(** A checked operation that panics: division by the number zero, rounding up. *)
Theorem C63_checked_by_number_up_refuted : ~ (forall t a n, In t decimal_types -> of_type t a -> 0 <= n < t_big t ->
  d_checked_by_number_up t a n <> Panic).
Proof.
  intros H. refine (H T_FixedPoint 5 0 _ _ _ eq_refl); [cbn; tauto|vm_compute; split; [discriminate|reflexivity]|vm_compute; split; [discriminate|reflexivity]].
Qed.

(** The eight types of the code are types the theorems above apply to. *)
Theorem C63_types : Forall sound_type decimal_types /\
  Forall (fun t => d_one t = Ok (10 ^ t_scale t) /\ d_almost_one t = Ok (10 ^ t_scale t - 1)) decimal_types.
Proof.
  assert (X : Forall sound_type decimal_types) by (repeat constructor; vm_compute; try discriminate; try reflexivity).
  split; [exact X|]. eapply Forall_impl; [|exact X]. intros t St. split; [apply one_Ok|apply almost_one_Ok]; exact St.
Qed.

(** The arithmetic the model of the contract uses ([Decimal.v]) is this library's. *)
Lemma cast_id m v : v < m -> cast m v = Ok v.
Proof. intros H. unfold cast, checked_cast. rewrite (proj2 (Z.ltb_lt _ _)) by auto. reflexivity. Qed.

Lemma big_ops_agree t u a b : sound_type t -> sound_type u -> t_bound u <= t_big t -> of_type t a -> of_type u b ->
  big_mul (t_bound t) (t_big t) (10 ^ t_scale u) a b = d_big_mul t u a b /\
  big_mul_up (t_bound t) (t_big t) (10 ^ t_scale u) a b = d_big_mul_up t u a b /\
  big_mul_to_value (t_big t) (10 ^ t_scale u) a b = d_mul_to_value t u a b /\
  big_mul_to_value_up (t_big t) (10 ^ t_scale u) a b = d_mul_to_value_up t u a b.
Proof.
  intros St Su HB [Ha HaB] [Hb HbB]. unfold d_big_mul, d_big_mul_up, d_mul_to_value, d_mul_to_value_up.
  rewrite (one_Ok u Su), (almost_one_Ok u Su). destruct St as [St1 St2], Su as [Su1 Su2]. cbn [bind].
  rewrite !cast_id by lia. cbn [bind]. repeat split; reflexivity.
Qed.

Theorem C63_contract_arithmetic a p q l x y f : of_type T_TokenAmount a -> of_type T_Percentage f -> of_type T_SqrtPrice p -> of_type T_SqrtPrice q ->
  of_type T_Liquidity l -> of_type T_TokenAmount x -> of_type T_TokenAmount y ->
  token_big_mul_percentage a f = d_big_mul T_TokenAmount T_Percentage a f /\
  token_big_mul_up_percentage a f = d_big_mul_up T_TokenAmount T_Percentage a f /\
  sqrt_price_mul_liquidity p l = d_mul_to_value T_SqrtPrice T_Liquidity p l /\
  sqrt_price_mul_liquidity_up p l = d_mul_to_value_up T_SqrtPrice T_Liquidity p l /\
  sqrt_price_mul_sqrt_price p q = d_mul_to_value T_SqrtPrice T_SqrtPrice p q /\
  sqrt_price_mul_sqrt_price_up p q = d_mul_to_value_up T_SqrtPrice T_SqrtPrice p q /\
  sqrt_price_mul_token p x = d_mul_to_value T_SqrtPrice T_TokenAmount p x /\
  dec_add M256 x y = d_add T_TokenAmount x y /\ dec_sub x y = d_sub T_TokenAmount x y /\
  dec_checked_add M256 x y = d_checked_add T_TokenAmount x y /\ dec_checked_sub x y = d_checked_sub T_TokenAmount x y.
Proof.
  intros Ha Hf Hp Hq Hl Hx Hy. destruct C63_types as [S _]. unfold decimal_types in S.
  repeat match goal with H : Forall _ (_ :: _) |- _ => inversion H as [|? ? ? ?]; clear H; subst end.
  pose proof (big_ops_agree T_TokenAmount T_Percentage a f) as X1. pose proof (big_ops_agree T_SqrtPrice T_Liquidity p l) as X2.
  pose proof (big_ops_agree T_SqrtPrice T_SqrtPrice p q) as X3. pose proof (big_ops_agree T_SqrtPrice T_TokenAmount p x) as X4.
  specialize (X1 ltac:(auto) ltac:(auto) ltac:(vm_compute; congruence) Ha Hf). specialize (X2 ltac:(auto) ltac:(auto) ltac:(vm_compute; congruence) Hp Hl).
  specialize (X3 ltac:(auto) ltac:(auto) ltac:(vm_compute; congruence) Hp Hq). specialize (X4 ltac:(auto) ltac:(auto) ltac:(vm_compute; congruence) Hp Hx).
  destruct X1 as (A1 & A2 & _ & _), X2 as (_ & _ & B1 & B2), X3 as (_ & _ & D1 & D2), X4 as (_ & _ & E1 & _).
  repeat apply conj; first [exact A1|exact A2|exact B1|exact B2|exact D1|exact D2|exact E1|reflexivity].
Qed.

(** 0.333333333333 * 2/3, 1 / 3, an amount times a percentage, and a product that does
    not fit into 128 bits but does by way of 256. *)
Example C63_case :
  d_mul T_Percentage T_Percentage 333333333333 666666666667 = Ok 222222222222 /\
  d_mul_up T_Percentage T_Percentage 333333333333 666666666667 = Ok 222222222223 /\
  d_div T_FixedPoint T_FixedPoint (10 ^ 12) (3 * 10 ^ 12) = Ok 333333333333 /\
  d_div_up T_FixedPoint T_FixedPoint (10 ^ 12) (3 * 10 ^ 12) = Ok 333333333334 /\
  d_big_mul_up T_TokenAmount T_Percentage 1001 6000000000 = Ok 7 /\
  d_mul T_FeeGrowth T_FeeGrowth (2 ^ 127) (10 ^ 28) = Panic /\ d_big_mul T_FeeGrowth T_FeeGrowth (2 ^ 127) (10 ^ 28) = Ok (2 ^ 127) /\
  d_big_div T_SqrtPrice T_SqrtPrice (10 ^ 24) 0 = Panic /\ d_checked_big_div T_SqrtPrice T_SqrtPrice (10 ^ 24) 0 = Err ETrack /\
  d_checked_by_number T_SqrtPrice (10 ^ 24) (2 * 10 ^ 24) = Ok (5 * 10 ^ 23) /\
  d_sub_abs T_Liquidity 3 10 = Ok 7 /\ d_checked_sub T_Liquidity 3 10 = Err ETrack.
Proof. vm_compute. repeat split; reflexivity. Qed.

(** ** Assumptions *)
Print Assumptions C63_add_sub.
Print Assumptions C63_mul_div.
Print Assumptions C63_big_mul_div.
Print Assumptions C63_mul_to_value.
Print Assumptions C63_checked_div.
Print Assumptions C63_by_number.
Print Assumptions C63_up_exceeds_down.
Print Assumptions C63_checked_by_number_up_refuted.
Print Assumptions C63_types.
Print Assumptions C63_contract_arithmetic.
