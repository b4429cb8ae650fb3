(** Result monad, machine integers and checked arithmetic.

    Everything numeric is [Z].  A Rust value of an unsigned type with [n] bits
    is a [Z] in [0, 2^n); the operations below check exactly the bound that the
    Rust operation checks. *)
From Coq Require Import ZArith Bool List Lia.
Import ListNotations.
Open Scope Z_scope.

(** /repo/src/contracts/errors.rs:4-41 (every constructor), plus [ETrack] for
    the string errors of the [traceable_result] crate (TrackableResult): their
    text is dropped, a [TrackableError] is only ever tested for being an error. *)
Inductive error : Type :=
| NotAdmin | NotFeeReceiver | PoolAlreadyExist | PoolNotFound | TickAlreadyExist
| InvalidTickIndexOrTickSpacing | PositionNotFound | TickNotFound | FeeTierNotFound
| PoolKeyNotFound | AmountIsZero | WrongLimit | PriceLimitReached | NoGainSwap
| InvalidTickSpacing | FeeTierAlreadyExist | PoolKeyAlreadyExist
| UnauthorizedFeeReceiver | ZeroLiquidity | RecoverableTransferError
| UnrecoverableTransferError | TransferError | TokensAreSame
| AmountUnderMinimumAmountOut | InvalidFee | NotEmptyTickDeinitialization
| InvalidInitTick | InvalidInitSqrtPrice | NotEnoughGasToExecute | TickLimitReached
| InvalidTickIndex | NoBalanceForTheToken | FailedToChangeTokenBalance
| ReplyHandlingFailed | InvalidVaraDepositAttempt | InvalidVaraWithdrawAttempt
| ETrack.

(** Outcome of a Rust function: a value, an [Err] value, or a panic.
    [Loop] is not a Rust outcome: it marks exhaustion of the iteration budget
    of the model of a [while] loop (proved unreachable, see C27). *)
Inductive res (A : Type) : Type :=
| Ok (a : A)
| Err (e : error)
| Panic
| Loop.
Arguments Ok {A} _.
Arguments Err {A} _.
Arguments Panic {A}.
Arguments Loop {A}.

(** The [?] operator. *)
Definition bind {A B} (r : res A) (k : A -> res B) : res B :=
  match r with
  | Ok a => k a
  | Err e => Err e
  | Panic => Panic
  | Loop => Loop
  end.

Notation "'let*' x := r 'in' k" := (bind r (fun x => k))
  (at level 200, x pattern, r at level 100, k at level 200, right associativity).

(** [Result::unwrap] and the [unwrap!] macro of traceable_result. *)
Definition unwrap {A} (r : res A) : res A :=
  match r with Ok a => Ok a | Loop => Loop | _ => Panic end.

(** [map_err(|_| e)] *)
Definition map_err {A} (r : res A) (e : error) : res A :=
  match r with Err _ => Err e | r => r end.

(** [Option::unwrap] / [unwrap_or_else(|| panic!(..))] *)
Definition expect {A} (o : option A) : res A :=
  match o with Some a => Ok a | None => Panic end.

(** [Option::ok_or_else(|| err!(..))] *)
Definition ok_or {A} (o : option A) (e : error) : res A :=
  match o with Some a => Ok a | None => Err e end.

(** [if c { return Err(e) }] and [assert!(c)] *)
Definition fail_if (c : bool) (e : error) : res unit := if c then Err e else Ok tt.
Definition assert (c : bool) : res unit := if c then Ok tt else Panic.

Definition is_ok {A} (r : res A) : bool := match r with Ok _ => true | _ => false end.

(** 2^n for the widths used by the code. *)
Definition M16  : Z := 65536.
Definition M32  : Z := 4294967296.
Definition M64  : Z := 18446744073709551616.
Definition M128 : Z := 340282366920938463463374607431768211456.
Definition M192 : Z := Eval vm_compute in 2 ^ 192.
Definition M256 : Z := Eval vm_compute in 2 ^ 256.
Definition M384 : Z := Eval vm_compute in 2 ^ 384.
Definition M448 : Z := Eval vm_compute in 2 ^ 448.
Definition M512 : Z := Eval vm_compute in 2 ^ 512.

(** checked_add / checked_sub / checked_mul / checked_div of an unsigned type
    whose exclusive upper bound is [m] (Rust primitive integers and
    [construct_uint!] types alike). *)
Definition checked_add (m a b : Z) : option Z := if a + b <? m then Some (a + b) else None.
Definition checked_sub (a b : Z) : option Z := if b <=? a then Some (a - b) else None.
Definition checked_mul (m a b : Z) : option Z := if a * b <? m then Some (a * b) else None.
Definition checked_div (a b : Z) : option Z := if b =? 0 then None else Some (a / b).

(** /repo/calc/decimal/src/traits.rs, decimal_core/src/uint_casts.rs:
    [checked_from_value]/[try_into] to a type of bound [m]; an upcast never
    fails, a downcast fails iff the value does not fit.
    Simplification: the limb manipulation is not modelled (only values). *)
Definition checked_cast (m a : Z) : option Z := if a <? m then Some a else None.

(** i32 arithmetic. Rust's [/] and [%] truncate towards zero. *)
Definition i32_div (a b : Z) : res Z := if b =? 0 then Panic else Ok (Z.quot a b).
Definition i32_rem (a b : Z) : res Z := if b =? 0 then Panic else Ok (Z.rem a b).

(** [i32::abs] in a release build: wraps at i32::MIN. *)
Definition i32_min : Z := -2147483648.
Definition i32_max : Z := 2147483647.
Definition i32_abs (a : Z) : Z := if a =? i32_min then i32_min else Z.abs a.
Definition is_i32 (a : Z) : Prop := i32_min <= a <= i32_max.

(** A few lemmas used everywhere. *)
Lemma bind_Ok {A B} (r : res A) (k : A -> res B) v :
  bind r k = Ok v <-> exists a, r = Ok a /\ k a = Ok v.
Proof.
  destruct r; simpl; split; intros H; try discriminate; eauto;
    destruct H as (x & H1 & H2); congruence.
Qed.

Lemma expect_Ok {A} (o : option A) v : expect o = Ok v <-> o = Some v.
Proof. destruct o; simpl; split; congruence. Qed.
Lemma ok_or_Ok {A} (o : option A) e v : ok_or o e = Ok v <-> o = Some v.
Proof. destruct o; simpl; split; congruence. Qed.
Lemma unwrap_Ok {A} (r : res A) v : unwrap r = Ok v <-> r = Ok v.
Proof. destruct r; simpl; split; congruence. Qed.
Lemma map_err_Ok {A} (r : res A) e v : map_err r e = Ok v <-> r = Ok v.
Proof. destruct r; simpl; split; congruence. Qed.
Lemma fail_if_Ok c e v : fail_if c e = Ok v <-> c = false.
Proof. destruct c, v; simpl; split; congruence. Qed.
Lemma assert_Ok c v : assert c = Ok v <-> c = true.
Proof. destruct c, v; simpl; split; congruence. Qed.

Lemma checked_add_Some m a b v : checked_add m a b = Some v <-> v = a + b /\ a + b < m.
Proof.
  unfold checked_add. destruct (Z.ltb_spec (a + b) m); split; intros E;
    [inversion E; auto | destruct E; subst; auto | discriminate | lia].
Qed.
Lemma checked_sub_Some a b v : checked_sub a b = Some v <-> v = a - b /\ b <= a.
Proof.
  unfold checked_sub. destruct (Z.leb_spec b a); split; intros E;
    [inversion E; auto | destruct E; subst; auto | discriminate | lia].
Qed.
Lemma checked_mul_Some m a b v : checked_mul m a b = Some v <-> v = a * b /\ a * b < m.
Proof.
  unfold checked_mul. destruct (Z.ltb_spec (a * b) m); split; intros E;
    [inversion E; auto | destruct E; subst; auto | discriminate | lia].
Qed.
Lemma checked_div_Some a b v : checked_div a b = Some v <-> v = a / b /\ b <> 0.
Proof.
  unfold checked_div. destruct (Z.eqb_spec b 0); split; intros E;
    [discriminate | lia | inversion E; auto | destruct E; subst; auto].
Qed.
Lemma checked_cast_Some m a v : checked_cast m a = Some v <-> v = a /\ a < m.
Proof.
  unfold checked_cast. destruct (Z.ltb_spec a m); split; intros E;
    [inversion E; subst; auto | destruct E; subst; auto | discriminate | lia].
Qed.

(** Inversion tactic: destructs every hypothesis [... = Ok _]. *)
Ltac inv_res :=
  repeat match goal with
  | H : bind _ _ = Ok _ |- _ => apply bind_Ok in H; destruct H as (? & ? & ?)
  | H : expect _ = Ok _ |- _ => apply expect_Ok in H
  | H : ok_or _ _ = Ok _ |- _ => apply ok_or_Ok in H
  | H : unwrap _ = Ok _ |- _ => apply unwrap_Ok in H
  | H : map_err _ _ = Ok _ |- _ => apply map_err_Ok in H
  | H : fail_if _ _ = Ok _ |- _ => apply fail_if_Ok in H
  | H : assert _ = Ok _ |- _ => apply assert_Ok in H
  | H : checked_add _ _ _ = Some _ |- _ => apply checked_add_Some in H; destruct H as (? & ?)
  | H : checked_sub _ _ = Some _ |- _ => apply checked_sub_Some in H; destruct H as (? & ?)
  | H : checked_mul _ _ _ = Some _ |- _ => apply checked_mul_Some in H; destruct H as (? & ?)
  | H : checked_div _ _ = Some _ |- _ => apply checked_div_Some in H; destruct H as (? & ?)
  | H : checked_cast _ _ = Some _ |- _ => apply checked_cast_Some in H; destruct H as (? & ?)
  | H : Ok _ = Ok _ |- _ => inversion H; clear H; try subst
  | H : Some _ = Some _ |- _ => inversion H; clear H; try subst
  | H : Err _ = Ok _ |- _ => discriminate H
  | H : Panic = Ok _ |- _ => discriminate H
  | H : Loop = Ok _ |- _ => discriminate H
  end.
