(** * C65 – conversions into fixed-point types, between them, and to text *)
From Verif Require Import Base Decimal DecimalLibM SpecDecimal P_Decimal SecondsM SdkUtilM.
From Coq Require Import ZArith QArith Lia Bool List.
Import ListNotations.
Open Scope Z_scope.

Ltac step := match goal with
  | |- context [?x <? ?y] => destruct (Z.ltb_spec x y)
  | |- context [?x <=? ?y] => destruct (Z.leb_spec x y)
  | |- context [?x =? ?y] => destruct (Z.eqb_spec x y)
  end; cbn [expect ok_or bind].
Ltac good := left; split; [|eexists; split; [reflexivity|]].
Ltac bad := right; split; [|reflexivity].

Lemma split_pow s e : 0 <= s -> 0 <= e -> 10 ^ (s + e) = 10 ^ s * 10 ^ e.
Proof. intros. apply Z.pow_add_r; auto. Qed.

(** A product with a power of ten is exact, a quotient rounds down, or up. *)
Lemma exact_scale s c n : 0 <= c <= s -> (value s (n * 10 ^ (s - c)) == value c n)%Q.
Proof.
  intros H. unfold value. apply frac_eq; [apply pow10_pos; lia..|]. rewrite <- Z.mul_assoc, <- Z.pow_add_r by lia. do 2 f_equal. lia.
Qed.
Lemma exact_down s c r n : 0 <= s -> (value s r == value c n)%Q -> rounds_down s r (value c n).
Proof.
  intros Hs E. unfold rounds_down. rewrite <- E. split; [apply Qle_refl|]. unfold value. pose proof (pow10_pos s Hs). apply frac_lt; nia.
Qed.
Lemma exact_up s c r n : 0 <= s -> (value s r == value c n)%Q -> rounds_up s r (value c n).
Proof.
  intros Hs E. unfold rounds_up. rewrite <- E. split; [|apply Qle_refl]. unfold value. pose proof (pow10_pos s Hs). apply frac_lt; nia.
Qed.
Lemma down_scale s c n : 0 <= s <= c -> rounds_down s (n / 10 ^ (c - s)) (value c n).
Proof.
  intros H. unfold rounds_down, value. pose proof (pow10_pos s ltac:(lia)) as P. pose proof (pow10_pos (c - s) ltac:(lia)) as D.
  pose proof (fl n _ D) as F. rewrite frac_le, frac_lt by (apply pow10_pos; lia).
  assert (EC : 10 ^ c = 10 ^ s * 10 ^ (c - s)) by (rewrite <- split_pow by lia; f_equal; lia). rewrite EC. set (X := 10 ^ s) in *. set (Y := 10 ^ (c - s)) in *. clearbody X Y. nia.
Qed.
Lemma up_scale s c n : 0 <= s <= c -> rounds_up s ((n + (10 ^ (c - s) - 1)) / 10 ^ (c - s)) (value c n).
Proof.
  intros H. unfold rounds_up, value. pose proof (pow10_pos s ltac:(lia)) as P. pose proof (pow10_pos (c - s) ltac:(lia)) as D.
  pose proof (ce n _ D) as F. rewrite frac_le, frac_lt by (apply pow10_pos; lia).
  assert (EC : 10 ^ c = 10 ^ s * 10 ^ (c - s)) by (rewrite <- split_pow by lia; f_equal; lia). rewrite EC. set (X := 10 ^ s) in *. set (Y := 10 ^ (c - s)) in *. clearbody X Y. nia.
Qed.

(** ** Integers and scaled integers into a type *)

(** When an integer [n] with [c] digits after the point can be converted. *)
Definition convertible (t : dtype) (n c : Z) : Prop :=
  n < t_bound t /\ (c < t_scale t -> n * 10 ^ (t_scale t - c) < t_bound t) /\ (t_scale t <= c -> 10 ^ (c - t_scale t) < t_bound t).

Theorem C65_from_integer t n : sound_type t -> 0 <= n ->
  returns_or Panic (n * 10 ^ t_scale t < t_bound t) (fun r => of_type t r /\ (value (t_scale t) r == inject_Z n)%Q) (d_from_integer t n).
Proof.
  intros St Hn. unfold d_from_integer, cast, checked_cast, checked_mul. rewrite (one_Ok t St). destruct St as [Ss SB].
  pose proof (pow10_pos _ (proj1 Ss)) as Ps. unfold of_type. set (s := t_scale t) in *. set (B := t_bound t) in *. set (S := 10 ^ s) in *.
  assert (E : (value s (n * S) == inject_Z n)%Q) by (unfold value; fold S; rewrite inject_Z_mult; clearbody S; field; apply inj_nz; auto).
  step; [step|]; [good; [lia|]; split; [nia|exact E]|bad; lia|bad; nia].
Qed.

Theorem C65_from_scale t n c : sound_type t -> 0 <= n -> 0 <= c ->
  returns_or Panic (convertible t n c) (fun r => of_type t r /\ rounds_down (t_scale t) r (value c n)) (d_from_scale t n c) /\
  returns_or Panic (convertible t n c /\ (t_scale t <= c -> n + (10 ^ (c - t_scale t) - 1) < t_bound t))
    (fun r => of_type t r /\ rounds_up (t_scale t) r (value c n)) (d_from_scale_up t n c) /\
  (n < t_bound t -> returns_or (Err ETrack) (convertible t n c) (fun r => d_from_scale t n c = Ok r) (d_checked_from_scale t n c)) /\
  (c <= t_scale t -> forall r, d_from_scale t n c = Ok r \/ d_from_scale_up t n c = Ok r -> (value (t_scale t) r == value c n)%Q).
Proof.
  intros St Hn Hc. unfold d_from_scale, d_from_scale_up, d_checked_from_scale, convertible, cast, checked_cast, checked_pow, checked_mul, checked_div, checked_add, checked_sub.
  destruct St as [Ss SB]. unfold of_type. set (s := t_scale t) in *. set (B := t_bound t) in *. rewrite Z.gtb_ltb.
  destruct (Z.ltb_spec n B) as [HnB|HnB]; cbn [expect ok_or bind].
  2:{ split; [bad; lia|]. split; [bad; lia|]. split; [intros; lia|]. intros _ r [E|E]; discriminate E. }
  destruct (Z.ltb_spec c s) as [L|L].
  - pose proof (pow10_pos (s - c) ltac:(lia)) as P. pose proof (exact_scale s c n ltac:(lia)) as E.
    assert (PB : 10 ^ (s - c) < B). { eapply Z.le_lt_trans; [|apply SB]. apply Z.pow_le_mono_r; lia. }
    set (X := 10 ^ (s - c)) in *. assert (0 <= n * X) by (apply Z.mul_nonneg_nonneg; lia).
    rewrite (proj2 (Z.ltb_lt X B)) by auto. cbn [expect ok_or bind]. split; [|split; [|split]].
    + step; [good; [lia|]; split; [lia|]; apply exact_down; [lia|exact E]|bad; lia].
    + step; [good; [lia|]; split; [lia|]; apply exact_up; [lia|exact E]|bad; lia].
    + intros _. step; [good; [lia|reflexivity]|bad; lia].
    + intros _ r Hr. destruct (Z.ltb_spec (n * X) B); cbn [expect] in Hr; destruct Hr as [Hr|Hr]; try discriminate Hr; injection Hr as <-; exact E.
  - pose proof (pow10_pos (c - s) ltac:(lia)) as P. pose proof (down_scale s c n ltac:(lia)) as E. pose proof (up_scale s c n ltac:(lia)) as E'.
    set (X := 10 ^ (c - s)) in *. pose proof (fl_le n X P Hn) as Q. pose proof (fl_nonneg n X P Hn) as Q'.
    split; [|split; [|split]].
    + step; [|bad; lia]. step; [exfalso; lia|]. good; [lia|]. split; [lia|exact E].
    + step; [|bad; lia]. step; [|exfalso; lia]. step; [|bad; lia]. step; [exfalso; lia|]. good; [lia|].
      pose proof (fl_le (n + (X - 1)) X P ltac:(lia)). pose proof (fl_nonneg (n + (X - 1)) X P ltac:(lia)). split; [lia|exact E'].
    + intros _. step; [|bad; lia]. step; [exfalso; lia|]. good; [lia|]. reflexivity.
    + intros Hcs r Hr. assert (c = s) by lia. subst c. assert (X1 : X = 1) by (unfold X; rewrite Z.sub_diag; reflexivity). clearbody X. subst X.
      destruct (Z.ltb_spec 1 B); cbn [expect bind] in Hr; [|destruct Hr as [Hr|Hr]; discriminate Hr].
      change (1 =? 0) with false in Hr. change (1 <=? 1) with true in Hr. cbn [expect bind] in Hr. change (1 - 1) with 0 in Hr. rewrite Z.add_0_r, Z.div_1_r in Hr.
      destruct (Z.ltb_spec n B); [|lia]. cbn [expect bind] in Hr. destruct Hr as [Hr|Hr]; injection Hr as <-; rewrite ?Z.div_1_r; apply Qeq_refl.
Qed.

(** The checked conversion panics if the integer is of a larger type and does not fit. *)
Theorem C65_checked_from_scale_refuted : ~ (forall t n c, In t decimal_types -> 0 <= n < 2 ^ 256 -> 0 <= c <= 255 ->
  d_checked_from_scale t n c <> Panic).
Proof. intros H. refine (H T_FeeGrowth (2 ^ 128) 28 _ _ _ eq_refl); [cbn; tauto|lia|lia]. Qed.

(** ** Between the types of the code *)
Lemma types_bounds t : In t decimal_types -> sound_type t /\ t_scale t <= 28 /\ 10 ^ 38 < t_bound t /\ t_bound t * 10 ^ t_scale t <= t_big t.
Proof.
  cbn [decimal_types In]. intros H. repeat (destruct H as [<-|H]; [vm_compute; repeat split; congruence|]). destruct H.
Qed.

Theorem C65_between t u a : In t decimal_types -> In u decimal_types -> of_type u a ->
  (t_scale u < t_scale t ->
     returns_or Panic (a * 10 ^ (t_scale t - t_scale u) < t_bound t)
       (fun r => of_type t r /\ (value (t_scale t) r == value (t_scale u) a)%Q) (d_from_decimal t u a)) /\
  (t_scale t <= t_scale u ->
     returns_or Panic (a < t_bound t) (fun r => of_type t r /\ rounds_down (t_scale t) r (value (t_scale u) a)) (d_from_decimal t u a) /\
     (a + (10 ^ (t_scale u - t_scale t) - 1) < t_bound t ->
        exists r, d_from_decimal_up t u a = Ok r /\ of_type t r /\ rounds_up (t_scale t) r (value (t_scale u) a))).
Proof.
  intros Ht Hu Ha. apply types_bounds in Ht as (St & Ht1 & Ht2 & _). apply types_bounds in Hu as (Su & Hu1 & _). unfold d_from_decimal, d_from_decimal_up.
  pose proof (proj1 (proj1 Su)) as Hs. pose proof (proj1 (proj1 St)) as Hs'.
  destruct (C65_from_scale t a (t_scale u) St (proj1 Ha) Hs) as (D & U & _ & E). unfold convertible in *. split.
  - intros L. pose proof (pow10_pos (t_scale t - t_scale u) ltac:(lia)) as P. destruct Ha as [Ha _].
    assert (Q : a <= a * 10 ^ (t_scale t - t_scale u)) by (set (X := 10 ^ (t_scale t - t_scale u)) in *; clearbody X; clear - P Ha; nia).
    destruct D as [(F & r & R & O & _)|(F & R)]; [left|right].
    + split; [lia|]. exists r. split; [auto|]. split; [exact O|]. apply E; [lia|auto].
    + split; [lia|exact R].
  - intros L. assert (10 ^ (t_scale u - t_scale t) < t_bound t).
    { eapply Z.le_lt_trans; [|exact Ht2]. apply Z.pow_le_mono_r; lia. }
    split.
    + destruct D as [(F & r & R)|(F & R)]; [left|right]; (split; [lia|]); eauto.
    + intros HU. destruct U as [(F & r & R & O)|(F & R)]; [eauto|]. exfalso. apply F. repeat split; try lia.
Qed.

(** To a finer type and back is the identity; to a coarser one and back loses less than
    one of its units and never gains. *)
Theorem C65_round_trip t u a r a' : In t decimal_types -> In u decimal_types -> of_type u a ->
  d_from_decimal t u a = Ok r -> d_from_decimal u t r = Ok a' ->
  a' <= a < a' + Z.max 1 (10 ^ (t_scale u - t_scale t)) /\ (t_scale u <= t_scale t -> a' = a).
Proof.
  intros Ht Hu Ha E1 E2. apply types_bounds in Ht as (St & Ht1 & Ht2 & _). apply types_bounds in Hu as (Su & Hu1 & Hu2 & _).
  pose proof (proj1 (proj1 Su)) as Hs. pose proof (proj1 (proj1 St)) as Hs'. destruct Ha as [Ha _].
  unfold d_from_decimal, d_from_scale, cast, checked_cast, checked_pow, checked_mul, checked_div in *. rewrite Z.gtb_ltb in *.
  destruct (Z.ltb_spec a (t_bound t)); [|discriminate E1]. cbn [expect bind] in E1.
  destruct (Z.ltb_spec r (t_bound u)); [|discriminate E2]. cbn [expect bind] in E2.
  destruct (Z.ltb_spec (t_scale u) (t_scale t)) as [L|L].
  - destruct (Z.ltb_spec (t_scale t) (t_scale u)); [lia|]. pose proof (pow10_pos (t_scale t - t_scale u) ltac:(lia)) as P.
    rewrite (Z.pow_neg_r 10) by lia. set (X := 10 ^ (t_scale t - t_scale u)) in *.
    destruct (X <? t_bound t); [|discriminate E1]. cbn [expect bind] in E1. destruct (a * X <? t_bound t); [|discriminate E1]. injection E1 as <-.
    destruct (X <? t_bound u); [|discriminate E2]. cbn [expect bind] in E2. destruct (Z.eqb_spec X 0); [lia|]. injection E2 as <-.
    rewrite Z.div_mul by lia. lia.
  - pose proof (pow10_pos (t_scale u - t_scale t) ltac:(lia)) as P. set (X := 10 ^ (t_scale u - t_scale t)) in *.
    destruct (X <? t_bound t); [|discriminate E1]. cbn [expect bind] in E1. destruct (Z.eqb_spec X 0); [lia|]. injection E1 as <-.
    pose proof (fl a X P) as F. destruct (Z.ltb_spec (t_scale t) (t_scale u)) as [L'|L'].
    + destruct (X <? t_bound u); [|discriminate E2]. cbn [expect bind] in E2. destruct (a / X * X <? t_bound u); [|discriminate E2]. injection E2 as <-.
      rewrite Z.max_r by lia. split; [lia|lia].
    + assert (EX : X = 1) by (unfold X; replace (t_scale u - t_scale t) with 0 by lia; reflexivity).
      replace (t_scale t - t_scale u) with 0 in E2 by lia. change (10 ^ 0) with 1 in E2. destruct (1 <? t_bound u); [|discriminate E2]. cbn [expect bind] in E2.
      injection E2 as <-. rewrite EX, !Z.div_1_r. lia.
Qed.

(** Into the big type: values of the type itself are converted exactly or rounded down
    and never panic; larger values can panic. *)
Theorem C65_to_value_guarded t n c : In t decimal_types -> of_type t n -> 0 <= c ->
  returns_or (Err ETrack) (c - t_scale t <= 38) (fun r => 0 <= r < t_big t /\ rounds_down (t_scale t) r (value c n)) (d_checked_from_scale_to_value t n c).
Proof.
  intros Ht [Hn HnB] Hc. apply types_bounds in Ht as (St & Ht1 & Ht2 & Ht3). destruct St as [Ss SB].
  unfold d_checked_from_scale_to_value, cast, checked_cast, checked_pow, checked_mul, checked_div. rewrite Z.gtb_ltb.
  assert (M : forall e, 0 <= e -> (10 ^ e < M128 <-> e <= 38)).
  { intros e He. split; intros H.
    - apply Z.nlt_ge. intros C. assert (10 ^ 39 <= 10 ^ e) by (apply Z.pow_le_mono_r; lia). assert (M128 < 10 ^ 39) by reflexivity. lia.
    - assert (10 ^ e <= 10 ^ 38) by (apply Z.pow_le_mono_r; lia). assert (10 ^ 38 < M128) by reflexivity. lia. }
  set (s := t_scale t) in *. set (B := t_bound t) in *. set (G := t_big t) in *.
  rewrite (proj2 (Z.ltb_lt n G)) by lia. cbn [expect bind]. destruct (Z.ltb_spec c s) as [L|L].
  - specialize (M (s - c) ltac:(lia)). pose proof (pow10_pos (s - c) ltac:(lia)) as P. pose proof (exact_scale s c n ltac:(lia)) as E.
    assert (PS : 10 ^ (s - c) <= 10 ^ s) by (apply Z.pow_le_mono_r; lia). set (X := 10 ^ (s - c)) in *.
    rewrite (proj2 (Z.ltb_lt X M128)) by (apply M; lia). cbn [ok_or bind]. set (S := 10 ^ s) in *.
    assert (0 <= n * X < B * S) by (clear - Hn HnB P PS; nia).
    rewrite (proj2 (Z.ltb_lt (n * X) G)) by lia. cbn [expect]. good; [lia|]. split; [lia|]. apply exact_down; [lia|exact E].
  - specialize (M (c - s) ltac:(lia)). pose proof (pow10_pos (c - s) ltac:(lia)) as P. pose proof (down_scale s c n ltac:(lia)) as E. set (X := 10 ^ (c - s)) in *.
    pose proof (fl_le n X P Hn) as Q. pose proof (fl_nonneg n X P Hn) as Q'.
    step; [|bad; lia]. step; [exfalso; lia|]. good; [lia|]. split; [lia|exact E].
Qed.

(** The checked conversions between the types: for a number that fits the target's integer
    type they return what the unchecked ones return, an error instead of a panic when the
    result does not fit, and the one to a plain value always succeeds. *)
Theorem C65_between_checked t u a : In t decimal_types -> In u decimal_types -> of_type u a -> a < t_bound t ->
  (t_scale u < t_scale t ->
     returns_or (Err ETrack) (a * 10 ^ (t_scale t - t_scale u) < t_bound t)
       (fun r => of_type t r /\ (value (t_scale t) r == value (t_scale u) a)%Q) (d_checked_from_decimal t u a)) /\
  (t_scale t <= t_scale u ->
     exists r, d_checked_from_decimal t u a = Ok r /\ of_type t r /\ rounds_down (t_scale t) r (value (t_scale u) a)) /\
  (exists r, d_checked_from_decimal_to_value t u a = Ok r /\ rounds_down (t_scale t) r (value (t_scale u) a)).
Proof.
  intros Ht Hu Ha HB. pose proof (C65_between t u a Ht Hu Ha) as (B1 & B2).
  pose proof (types_bounds t Ht) as (St & Ht1 & Ht2 & _). pose proof (types_bounds u Hu) as (Su & Hu1 & _).
  pose proof (proj1 (proj1 Su)) as Hs. pose proof (proj1 (proj1 St)) as Hs'.
  destruct (C65_from_scale t a (t_scale u) St (proj1 Ha) Hs) as (_ & _ & K & _). specialize (K HB).
  unfold d_checked_from_decimal, d_checked_from_decimal_to_value, d_from_decimal in *. split; [|split].
  - intros L. specialize (B1 L). destruct B1 as [(F & r & R & O)|(F & R)]; destruct K as [(F' & r' & R' & O')|(F' & R')].
    + left. split; [exact F|]. exists r'. rewrite R in O'. injection O' as <-. auto.
    + exfalso. apply F'. unfold convertible. repeat split; try lia.
    + rewrite R in O'. discriminate O'.
    + right. auto.
  - intros L. specialize (B2 L) as (B2 & _). destruct B2 as [(F & r & R & O)|(F & R)]; [|lia].
    destruct K as [(F' & r' & R' & O')|(F' & R')].
    + exists r'. rewrite R in O'. injection O' as <-. auto.
    + exfalso. apply F'. unfold convertible. assert (10 ^ (t_scale u - t_scale t) < t_bound t).
      { eapply Z.le_lt_trans; [|exact Ht2]. apply Z.pow_le_mono_r; lia. } repeat split; try lia.
  - destruct (C65_to_value_guarded t a (t_scale u) Ht (conj (proj1 Ha) HB) Hs) as [(F & r & R & O & D)|(F & R)]; [eauto|lia].
Qed.

Theorem C65_to_value_refuted : ~ (forall t n c, In t decimal_types -> 0 <= n < t_big t -> 0 <= c <= 255 ->
  d_checked_from_scale_to_value t n c <> Panic).
Proof. intros H. refine (H T_FixedPoint (2 ^ 191) 0 _ _ _ eq_refl); [cbn; tauto|vm_compute; split; congruence|lia]. Qed.

(** ** The conversions of the SDK *)
Theorem C65_sdk t v c : In t decimal_types -> 0 <= v < 2 ^ 64 -> 0 <= c <= 255 ->
  returns_or Panic ((c < t_scale t -> v * 10 ^ (t_scale t - c) < t_bound t) /\ 10 ^ (c - t_scale t) < t_bound t)
    (fun r => of_type t r /\ rounds_down (t_scale t) r (value c v) /\ (c <= t_scale t -> (value (t_scale t) r == value c v)%Q)) (sdk_to t v c) /\
  sdk_denominator t = Ok (10 ^ t_scale t).
Proof.
  intros Ht Hv Hc. pose proof Ht as Ht'. apply types_bounds in Ht as (St & Ht1 & Ht2 & Ht3). unfold sdk_to. rewrite Z.mod_small by lia. split.
  - destruct (C65_from_scale t v c St (proj1 Hv) (proj1 Hc)) as (D & _ & _ & E). unfold convertible in D.
    assert (2 ^ 64 < 10 ^ 38) by reflexivity. destruct D as [(F & r & R & O & RD)|(F & R)]; [left|right].
    + split.
      * split; [apply F|]. destruct (Z.lt_ge_cases c (t_scale t)); [rewrite Z.pow_neg_r by lia; lia|apply F; lia].
      * exists r. split; [exact R|]. split; [exact O|]. split; [exact RD|]. intros L. apply E; auto.
    + split; [|exact R]. intros [F1 F2]. apply F. split; [lia|]. split; [exact F1|]. intros _. exact F2.
  - unfold sdk_denominator, d_from_integer, cast, checked_cast, checked_mul. rewrite (one_Ok t St). destruct St as [Ss SB]. pose proof (pow10_pos _ (proj1 Ss)).
    rewrite (proj2 (Z.ltb_lt 1 (t_bound t))) by lia. cbn [expect bind]. rewrite Z.mul_1_l, (proj2 (Z.ltb_lt _ _)) by lia. reflexivity.
Qed.

(** A scale of 256 or more is taken modulo 256, and values that round to zero are not
    always converted. *)
Theorem C65_sdk_refuted :
  ~ (forall t v c r, In t decimal_types -> 0 <= v < 2 ^ 64 -> 0 <= c < 2 ^ 64 -> sdk_to t v c = Ok r -> rounds_down (t_scale t) r (value c v)) /\
  ~ (forall t v c, In t decimal_types -> 0 <= v < 2 ^ 64 -> 0 <= c <= 255 -> rounds_down (t_scale t) 0 (value c v) -> sdk_to t v c = Ok 0).
Proof.
  split; intros H.
  - assert (X : rounds_down 12 (10 ^ 12) (value 256 1)) by (apply (H T_Percentage 1 256 (10 ^ 12)); [cbn; tauto|lia|lia|reflexivity]).
    destruct X as [X _]. unfold value in X. rewrite frac_le in X by (apply pow10_pos; lia). vm_compute in X. auto.
  - assert (X : sdk_to T_FixedPoint 5 60 = Ok 0); [|vm_compute in X; discriminate X]. apply (H T_FixedPoint 5 60); [cbn; tauto|lia|lia|].
    change (t_scale T_FixedPoint) with 12. pose proof (down_scale 12 60 5 ltac:(lia)) as D. rewrite Z.div_small in D; [exact D|]. vm_compute. split; congruence.
Qed.

(** ** Text *)

(** The text of a value means exactly the value; behind the point it has as many digits
    as the type, one more for whole numbers. *)
Theorem C65_display t a : sound_type t -> of_type t a ->
  exists x, d_display t a = Ok x /\ proper_text x /\ (read_text x == value (t_scale t) a)%Q /\
    match x_fraction x with
    | None => t_scale t = 0
    | Some f => 0 < t_scale t /\ Z.of_nat (length f) = t_scale t + (if a mod 10 ^ t_scale t =? 0 then 1 else 0)
    end.
Proof.
  intros St [Ha _]. unfold d_display. rewrite Z.gtb_ltb. destruct (Z.ltb_spec 0 (t_scale t)) as [L|L].
  - rewrite (one_Ok t St). cbn [bind]. destruct St as [Ss SB]. pose proof (pow10_pos _ (proj1 Ss)) as P. unfold checked_div, checked_sub.
    set (s := t_scale t) in *. set (S := 10 ^ s) in *. destruct (Z.eqb_spec S 0); [lia|]. cbn [expect bind].
    pose proof (Z.mod_pos_bound a S P) as RB. pose proof (Z.div_mod a S ltac:(lia)) as DM. set (m := a mod S) in *. set (q := a / S) in *.
    assert (0 <= q) by (apply Z.div_pos; lia). clearbody m q.
    destruct (digits_spec q ltac:(lia)) as (k & K1 & K2 & _ & _ & K5 & K6). destruct (digits_spec m ltac:(lia)) as (j & J1 & J2 & J3 & J4 & J5 & J6).
    set (f := Datatypes.S (Z.to_nat (Z.log2 m))).
    assert (T : (m = 0 /\ tail_fuel f m 0 = 0 /\ j = 1) \/ (0 < m /\ tail_fuel f m 0 = j /\ j <= s)).
    { destruct (Z.eq_dec m 0) as [->|Nm]; [left|right].
      - split; [reflexivity|]. split; [unfold f; reflexivity|]. rewrite <- J2. reflexivity.
      - split; [lia|]. destruct (tail_spec f m 0) as (i & I1 & I2 & I3 & I4); [lia|unfold f; pose proof (Z.log2_nonneg m); lia|].
        specialize (J4 ltac:(lia)). assert (i = j) by (eapply (pow10_unique m); eauto). subst i. split; [lia|].
        assert (X : 10 ^ (j - 1) < 10 ^ s) by (fold S; lia). apply Z.pow_lt_mono_r_iff in X; lia. }
    assert (Lz : 0 <= s - tail_fuel f m 0) by (destruct T as [(_ & -> & _)|(_ & -> & ?)]; lia).
    rewrite (proj2 (Z.leb_le _ _)) by lia. cbn [expect bind].
    eexists. split; [reflexivity|]. set (z := Z.to_nat (s - tail_fuel f m 0)).
    assert (Nd : forall y, 1 <= Z.of_nat (length (digits y)) -> digits y <> []) by (intros y Hy C; rewrite C in Hy; cbn in Hy; lia).
    split; [|split].
    + unfold proper_text. cbn [x_whole x_fraction]. split; [apply Nd; lia|]. split; [exact K5|]. split.
      * intros C. apply app_eq_nil in C as [_ C]. revert C. apply Nd. lia.
      * apply Forall_app. split; [|exact J5]. apply Forall_forall. intros x Hx. apply repeat_spec in Hx. subst x. unfold digit. lia.
    + unfold read_text. cbn [x_whole x_fraction]. rewrite read_zeros, K6, J6, app_length, repeat_length, Nat2Z.inj_add, J2. unfold z. rewrite Z2Nat.id by lia.
      unfold value. fold S. assert (E : a = q * S + m) by lia. rewrite E, inject_Z_plus, inject_Z_mult.
      destruct T as [(-> & -> & ->)|(_ & -> & _)].
      * setoid_replace (inject_Z 0 / inject_Z (10 ^ (s - 0 + 1)))%Q with 0%Q by (unfold Qdiv; apply Qmult_0_l). change (inject_Z 0) with 0%Q. field. apply inj_nz; auto.
      * replace (s - j + j) with s by lia. fold S. field. apply inj_nz; auto.
    + cbn [x_fraction]. split; [exact L|]. rewrite app_length, repeat_length, Nat2Z.inj_add, J2. unfold z. rewrite Z2Nat.id by lia.
      destruct T as [(-> & -> & ->)|(Hm & -> & _)]; [rewrite Z.eqb_refl; lia|]. destruct (Z.eqb_spec m 0); lia.
  - assert (E : t_scale t = 0) by (destruct St as [Ss _]; lia). rewrite E. destruct (digits_spec a Ha) as (k & K1 & K2 & _ & _ & K5 & K6).
    eexists. split; [reflexivity|]. unfold proper_text, read_text. cbn [x_whole x_fraction]. split; [|split; [|reflexivity]].
    + split; [|auto]. intros C. rewrite C in K2. cbn in K2. lia.
    + rewrite K6. unfold value. change (10 ^ 0) with 1. field.
Qed.

(** The denominators the SDK reports are the units the contract computes with, and a price is
    the square of its square root in the units reported for both. *)
Theorem C65_denominators :
  sdk_denominator T_SqrtPrice = Ok SQRT_PRICE_ONE /\ sdk_denominator T_Percentage = Ok PERCENTAGE_ONE /\
  sdk_denominator T_Liquidity = Ok LIQUIDITY_ONE /\ sdk_denominator T_FeeGrowth = Ok FEE_GROWTH_ONE /\
  sdk_denominator T_SecondsPerLiquidity = Ok SPL_ONE /\ sdk_denominator T_FixedPoint = Ok (10 ^ 12) /\
  sdk_denominator T_TokenAmount = Ok 1 /\
  (forall p root one, 0 <= p -> sdk_denominator T_SqrtPrice = Ok root -> sdk_denominator T_Price = Ok one ->
    sqrt_price_to_price p * (root * root) <= p * p * one < (sqrt_price_to_price p + 1) * (root * root)).
Proof.
  do 7 (split; [vm_compute; reflexivity|]). intros p root one Hp Hr Ho.
  assert (Er : root = SQRT_PRICE_ONE) by (assert (X : sdk_denominator T_SqrtPrice = Ok SQRT_PRICE_ONE) by (vm_compute; reflexivity); congruence).
  assert (Eo : one = SQRT_PRICE_ONE) by (assert (X : sdk_denominator T_Price = Ok SQRT_PRICE_ONE) by (vm_compute; reflexivity); congruence).
  subst. clear. unfold sqrt_price_to_price. rewrite Z.quot_div_nonneg by (unfold SQRT_PRICE_ONE; nia).
  pose proof (Z.div_mod (p * p) SQRT_PRICE_ONE ltac:(unfold SQRT_PRICE_ONE; lia)) as D.
  pose proof (Z.mod_pos_bound (p * p) SQRT_PRICE_ONE ltac:(unfold SQRT_PRICE_ONE; lia)) as B.
  set (q := p * p / SQRT_PRICE_ONE) in *. set (r := (p * p) mod SQRT_PRICE_ONE) in *. rewrite D.
  assert (0 < SQRT_PRICE_ONE) by (unfold SQRT_PRICE_ONE; lia). generalize dependent SQRT_PRICE_ONE. clear. intros. clear D. nia.
Qed.


(** A fee of 0.6% into a fixed point and back, a price, and the text of 12.03. *)
Example C65_case :
  sdk_to T_Percentage 6 3 = Ok 6000000000 /\ sdk_to T_Percentage 1 256 = Ok (10 ^ 12) /\ sdk_to T_TokenAmount 1999 3 = Ok 1 /\ sdk_to T_FixedPoint 5 60 = Panic /\
  d_from_decimal T_FixedPoint T_Percentage 6000000000 = Ok 6000000000 /\ d_from_decimal T_SqrtPrice T_FixedPoint (15 * 10 ^ 11) = Ok (15 * 10 ^ 23) /\
  d_from_decimal T_FixedPoint T_SqrtPrice (15 * 10 ^ 23 + 7) = Ok (15 * 10 ^ 11) /\ d_from_decimal_up T_FixedPoint T_SqrtPrice (15 * 10 ^ 23 + 7) = Ok (15 * 10 ^ 11 + 1) /\
  d_from_decimal T_SqrtPrice T_TokenAmount (2 ^ 60) = Panic /\
  d_checked_from_scale_to_value T_SqrtPrice 3 0 = Ok (3 * 10 ^ 24) /\
  d_display T_Liquidity 1203000 = Ok (Text [1; 2] (Some [0; 3; 0; 0; 0])) /\ d_display T_Liquidity 1200000 = Ok (Text [1; 2] (Some [0; 0; 0; 0; 0; 0])) /\
  d_display T_TokenAmount 407 = Ok (Text [4; 0; 7] None).
Proof. vm_compute. repeat split; reflexivity. Qed.

(** ** Assumptions *)
Print Assumptions C65_from_integer.
Print Assumptions C65_from_scale.
Print Assumptions C65_checked_from_scale_refuted.
Print Assumptions C65_between.
Print Assumptions C65_round_trip.
Print Assumptions C65_to_value_guarded.
Print Assumptions C65_between_checked.
Print Assumptions C65_to_value_refuted.
Print Assumptions C65_sdk.
Print Assumptions C65_sdk_refuted.
Print Assumptions C65_display.
Print Assumptions C65_denominators.
