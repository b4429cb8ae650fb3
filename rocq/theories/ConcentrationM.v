(** The SDK's helpers for choosing a range by its concentration,
    /repo/sdk/src/utils.ts:726-783, and /repo/sdk/src/wasm/storage/fee_tier.rs:33-38.

    JavaScript computes them in double precision; here they are computed in real
    numbers, without rounding.  [tickSpacing], [minimumRange], [n] and [currentTick]
    are integers, as the callers pass them. *)
From Verif Require Import Base Decimal SqrtPriceM LogM DecimalLibM.
From Coq Require Import ZArith List Bool Reals.
Import ListNotations.
Open Scope R_scope.

(** consts.ts:66 *)
Definition CONCENTRATION_FACTOR : R := IZR 100001526069123 / IZR 100000000000000.

(** [Math.ceil] *)
Definition ceil (x : R) : Z := (- Int_part (- x))%Z.

(** utils.ts:730-733; [None] is [Infinity], the quotient 1 / 0. *)
Definition calculate_concentration (tick_spacing minimum_range n : Z) : option R :=
  let e := (- tick_spacing * (minimum_range + 2 * n))%Z in
  if Z.eqb e 0 then None
  else Some (1 / (1 - Rpower (1 + / 10000) (IZR e / 4)) / CONCENTRATION_FACTOR).

(** utils.ts:735-747; [None] is [NaN] or [Infinity], for a logarithm of a number not above 0. *)
Definition calculate_tick_delta (tick_spacing minimum_range : Z) (concentration : R) : option Z :=
  let base := Rpower (1 + / 10000) (- (IZR tick_spacing / 4)) in
  let log_arg := (1 - 1 / (concentration * CONCENTRATION_FACTOR)) /
                 Rpower (1 + / 10000) (IZR (- tick_spacing * minimum_range) / 4) in
  if Rle_dec log_arg 0 then None else Some (ceil (ln log_arg / ln base / 2)).

(** utils.ts:760-766, the first loop: one round pushes a concentration and goes on if it
    is at least 1 below the last one.  An infinite concentration is followed by a
    difference that is not a number, which ends the loop. *)
Fixpoint concentration_loop (fuel : nat) (tick_spacing minimum_range counter : Z) (last : R) : res (list (option R)) :=
  match fuel with
  | O => Loop
  | S fuel =>
      match calculate_concentration tick_spacing minimum_range counter with
      | None => Ok [None]
      | Some c =>
          if Rle_dec 1 (last - c) then
            let* l := concentration_loop fuel tick_spacing minimum_range (counter + 1) c in Ok (Some c :: l)
          else Ok [Some c]
      end
  end.

(** utils.ts:769-772, the second loop: [while (concentration > 1)]. *)
Fixpoint descend (fuel : nat) (concentration : Z) : res (list R) :=
  if Z.ltb 1 concentration then
    match fuel with
    | O => Loop
    | S fuel => let* l := descend fuel (concentration - 1) in Ok (IZR concentration :: l)
    end
  else Ok [].

(** utils.ts:749-783.  The rounds of the loops are bounded by the first concentration,
    which theorem C67_array shows to be enough.  If the first concentration is infinite,
    so are all values of the second loop ([Infinity - 1 = Infinity]): it never ends. *)
Definition get_concentration_array (tick_spacing minimum_range current_tick : Z) : res (list R) :=
  match calculate_concentration tick_spacing minimum_range 0 with
  | None => Loop
  | Some first =>
      let* l := concentration_loop (Z.to_nat (ceil first) + 3) tick_spacing minimum_range 0 (first + 1) in
      match last l None with
      | None => Loop
      | Some lowest =>
          let concentration := ceil lowest in
          let* d := descend (Z.to_nat concentration) concentration in
          let* max1 := get_max_tick 1 in
          let* max_tick := align_tick_to_spacing max1 tick_spacing in
          let room := IZR (max_tick - Z.abs current_tick) in
          let half := IZR minimum_range / 2 * IZR tick_spacing in
          if Rlt_dec room half then Err TickLimitReached
          else
            let limit_index := (room - half) / IZR tick_spacing in
            Ok (firstn (Z.to_nat (Int_part limit_index))
                  (map (fun o => match o with Some c => c | None => 0 end) l ++ d))
      end
  end.

Open Scope Z_scope.

(** fee_tier.rs:19-38 (wasm) and utils.ts:566-568: the fee has to fit into 128 bits, the
    spacing into 64; then the spacing is cut to 16 bits.  The result is the fee and the spacing. *)
Definition sdk_new_fee_tier (fee tick_spacing : Z) : res (Z * Z) :=
  if negb ((0 <=? fee) && (fee <? 2 ^ 128)) then Err ETrack
  else if negb ((0 <=? tick_spacing) && (tick_spacing <? 2 ^ 64)) then Err ETrack
  else
    let spacing := tick_spacing mod 2 ^ 16 in
    if (spacing =? 0) || (100 <? spacing) then Err InvalidTickSpacing
    else if PERCENTAGE_ONE <? fee then Err InvalidFee
    else Ok (fee, spacing).

(** utils.ts:726-728: the fee is [tickCount * toPercentage(1n, 4n)]. *)
Definition fee_tier_with_linear_ratio (tick_count : Z) : res (Z * Z) :=
  let* unit_fee := sdk_to T_Percentage 1 4 in
  sdk_new_fee_tier (tick_count * unit_fee) tick_count.
