(** Model of math/*.rs. *)
From Verif Require Import Base.

(** ** math/safe_math.rs:15-113.  Checked arithmetic; [mx] is the maximum of the integer type. *)
Definition safe_add (mx a b : Z) : res Z :=
  if a + b <=? mx then Ok (a + b) else Err MathOverflow.
Definition safe_sub (a b : Z) : res Z :=
  if b <=? a then Ok (a - b) else Err MathOverflow.
Definition safe_mul (mx a b : Z) : res Z :=
  if a * b <=? mx then Ok (a * b) else Err MathOverflow.
Definition safe_div (a b : Z) : res Z :=
  if b =? 0 then Err MathOverflow else Ok (a / b).

(** [checked_shl] on u128 (safe_math.rs:79-88): fails only if the shift amount is >= 128; bits
    shifted out are lost. *)
Definition safe_shl128 (a k : Z) : res Z :=
  if k <? 128 then Ok (Z.shiftl a k mod (U128MAX + 1)) else Err MathOverflow.

(** u128 -> u64 [safe_cast], safe_math.rs:119-137. *)
Definition cast64 (a : Z) : res Z := if a <=? U64MAX then Ok a else Err MathOverflow.

(** i64 -> u64 [safe_cast], safe_math.rs:138 (used on [Clock::unix_timestamp]). *)
Definition cast_i64_u64 (a : Z) : res Z := if 0 <=? a then Ok a else Err MathOverflow.

(** [u128::div_ceil] for a positive divisor. *)
Definition div_ceil (a b : Z) : Z := a / b + (if a mod b =? 0 then 0 else 1).

(** [saturating_sub] on u64. *)
Definition sat_sub (a b : Z) : Z := Z.max 0 (a - b).

(** spl_token_2022 MAX_FEE_BASIS_POINTS (fee_math.rs:2, claim_math.rs:2, params.rs:1). *)
Definition MAX_FEE_BASIS_POINTS : Z := 10000.

(** constants.rs:1-23. *)
Definition MINIMUM_PRESALE_DURATION : Z := 60.
Definition MAXIMUM_PRESALE_DURATION : Z := 60 * 60 * 24 * 30.
Definition MAXIMUM_DURATION_UNTIL_PRESALE : Z := 60 * 60 * 24 * 30.
Definition MAXIMUM_LOCK_AND_VEST_DURATION : Z := 60 * 60 * 24 * 365 * 10.
Definition SCALE_OFFSET : Z := 64.
Definition SCALE_MULTIPLIER : Z := 18446744073709551616.
Definition MAX_PRESALE_REGISTRY_COUNT : Z := 5.
Definition MAX_DEPOSIT_FEE_BPS : Z := 5000.
Definition DEFAULT_PERMISSIONLESS_REGISTRY_INDEX : Z := 0.

(** ** math/fee_math.rs *)

(** fee_math.rs:4-7 *)
Inductive rounding := RoundUp | RoundDown.

(** fee_math.rs:14-35; returns (fee, amount_included_fee). *)
Definition calculate_deposit_fee_included_amount
    (deposit_amount fee_bps : Z) (r : rounding) : res (Z * Z) :=
  let* denominator := safe_sub MAX_FEE_BASIS_POINTS fee_bps in
  let* adjust := safe_mul U128MAX deposit_amount MAX_FEE_BASIS_POINTS in
  let* adjusted :=
    match r with
    | RoundUp => let* d1 := safe_sub denominator 1 in safe_add U128MAX adjust d1
    | RoundDown => Ok adjust
    end in
  let* included := safe_div adjusted denominator in
  let* fee := safe_sub included deposit_amount in
  let* fee64 := cast64 fee in
  let* included64 := cast64 included in
  Ok (fee64, included64).

(** ** math/claim_math.rs *)

(** claim_math.rs:9-24; returns (immediate_released_amount, vested_amount). *)
Definition calculate_immediate_release_token (total_sold_token immediate_release_bps : Z)
    : res (Z * Z) :=
  let* m := safe_mul U128MAX total_sold_token immediate_release_bps in
  let* d := safe_div m MAX_FEE_BASIS_POINTS in
  let* immediate := cast64 d in
  let* vested := safe_sub total_sold_token immediate in
  Ok (immediate, vested).

(** claim_math.rs:26-37 *)
Definition calculate_immediate_release_token_for_user
    (release_amount user_deposit total_deposit : Z) : res Z :=
  let* m := safe_mul U128MAX release_amount user_deposit in
  let* d := safe_div m total_deposit in
  cast64 d.

(** claim_math.rs:39-68 *)
Definition calculate_dripped_amount_for_user
    (vesting_start_time vest_duration current_timestamp vested_amount user_deposit
     total_deposit : Z) : res Z :=
  if current_timestamp <? vesting_start_time then Ok 0 else
  let* dripped_total :=
    if vest_duration =? 0 then Ok vested_amount else
    let* e := safe_sub current_timestamp vesting_start_time in
    let elapsed := Z.min e vest_duration in
    let* m := safe_mul U128MAX vested_amount elapsed in
    safe_div m vest_duration in
  let* m := safe_mul U128MAX dripped_total user_deposit in
  safe_div m total_deposit.

(** claim_math.rs:70-111 *)
Definition calculate_cumulative_claimable_amount_for_user
    (immediate_release_bps immediate_release_timestamp total_sold_token vesting_start_time
     vest_duration current_timestamp user_deposit total_deposit : Z) : res Z :=
  if (user_deposit =? 0) || (total_deposit =? 0) then Ok 0 else
  let* '(immediate_released_amount, vested_amount) :=
    calculate_immediate_release_token total_sold_token immediate_release_bps in
  let* user_immediate :=
    if immediate_release_timestamp <=? current_timestamp then
      calculate_immediate_release_token_for_user immediate_released_amount user_deposit
        total_deposit
    else Ok 0 in
  let* dripped :=
    calculate_dripped_amount_for_user vesting_start_time vest_duration current_timestamp
      vested_amount user_deposit total_deposit in
  let* dripped64 := cast64 dripped in
  safe_add U64MAX user_immediate dripped64.
