(** Arithmetic facts: the checked computations of the program agree with the specification
    whenever the operands are in range. *)
From Coq Require Import Lia.
From Verif Require Import Base Math State Handlers Spec Tactics Sums.

Ltac num := unfold U8MAX, U16MAX, U64MAX, U128MAX, I64MAX, MAX_FEE_BASIS_POINTS, SCALE_MULTIPLIER,
  SCALE_OFFSET, scale, MAX_DEPOSIT_FEE_BPS, MAX_PRESALE_REGISTRY_COUNT in *.

Lemma in_u64_iff x : in_u64 x = true <-> 0 <= x <= U64MAX.
Proof. unfold in_u64. rewrite andb_true_iff, !Z.leb_le. reflexivity. Qed.

(** * Floor division *)

Lemma div_0_den a : a / 0 = 0.
Proof. destruct a; reflexivity. Qed.

Lemma fl_add x y t : x / t + y / t <= (x + y) / t \/ t <= 0.
Proof.
  destruct (Z.le_gt_cases t 0); [right; assumption|left].
  apply Z.div_le_lower_bound; [lia|].
  pose proof (Z.mul_div_le x t ltac:(lia)). pose proof (Z.mul_div_le y t ltac:(lia)). nia.
Qed.

Lemma fl_super a x y t : 0 <= t -> a * x / t + a * y / t <= a * (x + y) / t.
Proof.
  intros Ht. destruct (Z.eq_dec t 0) as [->|Hn].
  - rewrite !div_0_den. lia.
  - rewrite Z.mul_add_distr_l. destruct (fl_add (a * x) (a * y) t); lia.
Qed.

Lemma fl_super_l a x y t : 0 <= t -> x * a / t + y * a / t <= (x + y) * a / t.
Proof. intros Ht. rewrite !(Z.mul_comm _ a). apply fl_super. assumption. Qed.

Lemma fl_nonneg a b t : 0 <= a -> 0 <= b -> 0 <= t -> 0 <= a * b / t.
Proof.
  intros Ha Hb Ht. destruct (Z.eq_dec t 0) as [->|Hn].
  - rewrite div_0_den. lia.
  - apply Z.div_pos; nia.
Qed.

Lemma fl_le_self a b t : 0 <= a -> 0 <= b <= t -> a * b / t <= a.
Proof.
  intros Ha Hb. destruct (Z.eq_dec t 0) as [->|Hn].
  - rewrite div_0_den. lia.
  - apply Z.div_le_upper_bound; nia.
Qed.

Lemma fl_le_self_r a b t : 0 <= b -> 0 <= a <= t -> a * b / t <= b.
Proof. intros. rewrite Z.mul_comm. apply fl_le_self; assumption. Qed.

Lemma fl_mono a b c d t :
  0 <= a <= c -> 0 <= b <= d -> 0 <= t -> a * b / t <= c * d / t.
Proof.
  intros Ha Hb Ht. destruct (Z.eq_dec t 0) as [->|Hn].
  - rewrite !div_0_den. lia.
  - apply Z.div_le_mono; nia.
Qed.

Lemma div_ceil_spec a b : 0 < b -> div_ceil a b = (a + b - 1) / b.
Proof.
  intros Hb. unfold div_ceil. pose proof (Z.div_mod a b ltac:(lia)) as Hd.
  pose proof (Z.mod_pos_bound a b Hb) as Hm.
  destruct (Z.eqb_spec (a mod b) 0) as [H0|H0].
  - replace (a + b - 1) with ((a / b) * b + (b - 1)) by lia.
    rewrite Z.div_add_l by lia. rewrite (Z.div_small (b - 1) b) by lia. reflexivity.
  - replace (a + b - 1) with ((a / b + 1) * b + (a mod b - 1)) by lia.
    rewrite Z.div_add_l by lia. rewrite (Z.div_small (a mod b - 1) b) by lia. lia.
Qed.

Lemma div_ceil_bounds a b : 0 < b -> a <= b * div_ceil a b < a + b.
Proof.
  intros Hb. unfold div_ceil. pose proof (Z.div_mod a b ltac:(lia)) as Hd.
  pose proof (Z.mod_pos_bound a b Hb) as Hm.
  destruct (Z.eqb_spec (a mod b) 0) as [H0|H0]; nia.
Qed.

Lemma div_ceil_least a b n : 0 < b -> a <= b * n -> div_ceil a b <= n.
Proof. intros Hb Hn. pose proof (div_ceil_bounds a b Hb). nia. Qed.

Lemma div_ceil_nonneg a b : 0 <= a -> 0 < b -> 0 <= div_ceil a b.
Proof. intros Ha Hb. pose proof (div_ceil_bounds a b Hb). nia. Qed.

(** * u64 x u64 fits in u128 *)
Lemma mul_u128 a b : 0 <= a <= U64MAX -> 0 <= b <= U64MAX -> a * b <= U128MAX.
Proof. num. nia. Qed.

Lemma safe_mul_u64 a b : 0 <= a <= U64MAX -> 0 <= b <= U64MAX -> safe_mul U128MAX a b = Ok (a * b).
Proof. intros. apply safe_mul_Ok. split; [reflexivity|]. apply mul_u128; assumption. Qed.

Lemma safe_div_pos a b : b <> 0 -> safe_div a b = Ok (a / b).
Proof. intros. apply safe_div_Ok. auto. Qed.
Lemma cast64_le a : a <= U64MAX -> cast64 a = Ok a.
Proof. intros. apply cast64_Ok. auto. Qed.
Lemma safe_sub_le a b : b <= a -> safe_sub a b = Ok (a - b).
Proof. intros. apply safe_sub_Ok. auto. Qed.
Lemma safe_add_le mx a b : a + b <= mx -> safe_add mx a b = Ok (a + b).
Proof. intros. apply safe_add_Ok. auto. Qed.

(** * Token price *)
Lemma token_bought_ok q a : 0 < q -> 0 <= a <= U64MAX -> calculate_token_bought q a = Ok (bought q a).
Proof.
  intros Hq Ha. unfold calculate_token_bought, safe_shl128, bought.
  replace (SCALE_OFFSET <? 128) with true by reflexivity. cbn [rbind].
  rewrite safe_div_pos by lia. f_equal. f_equal.
  rewrite Z.shiftl_mul_pow2 by (unfold SCALE_OFFSET; lia).
  change (2 ^ SCALE_OFFSET) with scale.
  apply Z.mod_small. num. lia.
Qed.

Lemma token_bought_inv q a b :
  0 <= q -> 0 <= a <= U64MAX -> calculate_token_bought q a = Ok b -> 0 < q /\ b = bought q a.
Proof.
  intros Hq Ha Hb. assert (0 < q).
  { unfold calculate_token_bought in Hb. inv Hb. lia. }
  rewrite token_bought_ok in Hb by assumption. apply Ok_inj in Hb. auto.
Qed.

Lemma bought_nonneg q a : 0 < q -> 0 <= a -> 0 <= bought q a.
Proof. intros. unfold bought. apply Z.div_pos; num; lia. Qed.

Lemma bought_mono q a b : 0 < q -> a <= b -> bought q a <= bought q b.
Proof. intros. unfold bought. apply Z.div_le_mono; num; lia. Qed.

Lemma without_surplus_ok q a :
  0 < q -> 0 <= a <= U64MAX ->
  calculate_quote_token_without_surplus q a = Ok (div_ceil (bought q a * q) scale) /\
  0 <= div_ceil (bought q a * q) scale <= a.
Proof.
  intros Hq Ha. unfold calculate_quote_token_without_surplus.
  rewrite token_bought_ok by assumption. cbn [rbind].
  pose proof (bought_nonneg q a Hq ltac:(lia)) as Hb0.
  assert (Hle : bought q a * q <= a * scale).
  { unfold bought. pose proof (Z.mul_div_le (a * scale) q Hq). lia. }
  assert (Hneed : 0 <= div_ceil (bought q a * q) scale <= a).
  { split; [apply div_ceil_nonneg; [nia|reflexivity]|].
    apply div_ceil_least; [reflexivity|lia]. }
  split; [|assumption].
  assert (Hm : safe_mul U128MAX (bought q a) q = Ok (bought q a * q)).
  { apply safe_mul_Ok. split; [reflexivity|]. num. nia. }
  rewrite Hm. cbn [rbind]. change SCALE_MULTIPLIER with scale.
  rewrite cast64_le by lia. cbn [rbind].
  rewrite require_true by (apply Z.leb_le; lia). reflexivity.
Qed.

Lemma without_surplus_inv q a n :
  0 < q -> 0 <= a <= U64MAX -> calculate_quote_token_without_surplus q a = Ok n ->
  n = div_ceil (bought q a * q) scale /\ 0 <= n <= a.
Proof.
  intros Hq Ha Hn. destruct (without_surplus_ok q a Hq Ha) as [He Hb].
  rewrite He in Hn. apply Ok_inj in Hn. subst n. auto.
Qed.

(** * Deposit fee *)
Lemma deposit_fee_spec d bps r fee inc :
  0 <= d -> 0 <= bps <= MAX_DEPOSIT_FEE_BPS ->
  calculate_deposit_fee_included_amount d bps r = Ok (fee, inc) ->
  0 <= fee /\ inc = d + fee /\ inc <= U64MAX /\
  inc = match r with RoundUp => div_ceil (d * 10000) (10000 - bps)
                   | RoundDown => d * 10000 / (10000 - bps) end.
Proof.
  intros Hd Hb Hf. unfold calculate_deposit_fee_included_amount in Hf.
  assert (Hb' : 0 <= bps <= 5000) by (num; lia). clear Hb.
  destruct r.
  - inv Hf. injection Hf as <- <-. subst. num.
    rewrite div_ceil_spec by lia.
    replace (d * 10000 + (10000 - bps - 1)) with (d * 10000 + (10000 - bps) - 1) in * by lia.
    repeat split; lia.
  - inv Hf. injection Hf as <- <-. subst. num. repeat split; lia.
Qed.

(** * Claims *)
Definition claim_range (bps soldt d t : Z) : Prop :=
  0 <= bps <= 10000 /\ 0 <= soldt <= U64MAX /\ 0 <= d <= t /\ t <= U64MAX.

Lemma imm_range soldt bps : 0 <= bps <= 10000 -> 0 <= soldt -> 0 <= soldt * bps / 10000 <= soldt.
Proof.
  intros Hb Hs. split; [apply Z.div_pos; nia|]. apply Z.div_le_upper_bound; nia.
Qed.

Lemma immediate_ok soldt bps :
  0 <= bps <= 10000 -> 0 <= soldt <= U64MAX ->
  calculate_immediate_release_token soldt bps
  = Ok (soldt * bps / 10000, soldt - soldt * bps / 10000).
Proof.
  intros Hb Hs. unfold calculate_immediate_release_token.
  rewrite safe_mul_u64 by (num; lia). cbn [rbind].
  change MAX_FEE_BASIS_POINTS with 10000. rewrite safe_div_pos by lia. cbn [rbind].
  pose proof (imm_range soldt bps Hb ltac:(lia)).
  rewrite cast64_le by lia. cbn [rbind]. rewrite safe_sub_le by lia. reflexivity.
Qed.

Lemma vested_range v e dur : 0 <= v -> 0 <= e -> 0 < dur -> 0 <= v * Z.min e dur / dur <= v.
Proof.
  intros Hv He Hd. split; [apply Z.div_pos; nia|]. apply Z.div_le_upper_bound; nia.
Qed.

Lemma cumulative_ok bps imm_ts soldt vs vd now d t :
  claim_range bps soldt d t -> 0 <= vs -> 0 <= vd <= U64MAX -> 0 <= now ->
  calculate_cumulative_claimable_amount_for_user bps imm_ts soldt vs vd now d t =
  Ok ((if imm_ts <=? now then soldt * bps / 10000 * d / t else 0)
      + (if now <? vs then 0
         else if vd =? 0 then soldt - soldt * bps / 10000
         else (soldt - soldt * bps / 10000) * Z.min (now - vs) vd / vd) * d / t).
Proof.
  intros (Hb & Hs & Hd & Ht) Hvs Hvd Hnow.
  unfold calculate_cumulative_claimable_amount_for_user.
  destruct (Z.eqb_spec d 0) as [->|Hd0].
  { cbn [orb]. f_equal. rewrite !Z.mul_0_r.
    destruct (imm_ts <=? now), (Z.eq_dec t 0) as [->|Hn];
      rewrite ?div_0_den, ?Z.div_0_l by assumption; reflexivity. }
  destruct (Z.eqb_spec t 0) as [->|Ht0]; [lia|]. cbn [orb].
  rewrite immediate_ok by assumption. cbn [rbind].
  set (I := soldt * bps / 10000). set (V := soldt - I).
  assert (HI : 0 <= I <= soldt) by (apply imm_range; lia).
  assert (HV : 0 <= V <= soldt) by (subst V; lia).
  assert (Huser : (if imm_ts <=? now then calculate_immediate_release_token_for_user I d t
                   else Ok 0) = Ok (if imm_ts <=? now then I * d / t else 0)).
  { destruct (imm_ts <=? now); [|reflexivity].
    unfold calculate_immediate_release_token_for_user.
    rewrite safe_mul_u64 by lia. cbn [rbind]. rewrite safe_div_pos by lia. cbn [rbind].
    apply cast64_le. pose proof (fl_le_self I d t ltac:(lia) ltac:(lia)). lia. }
  rewrite Huser. cbn [rbind]. clear Huser.
  set (D := if now <? vs then 0 else if vd =? 0 then V else V * Z.min (now - vs) vd / vd).
  assert (HD : 0 <= D <= V).
  { subst D. destruct (Z.ltb_spec now vs); [lia|]. destruct (Z.eqb_spec vd 0); [lia|].
    apply vested_range; lia. }
  assert (Hdrip : calculate_dripped_amount_for_user vs vd now V d t = Ok (D * d / t)).
  { unfold calculate_dripped_amount_for_user. subst D.
    destruct (Z.ltb_spec now vs).
    - rewrite Z.mul_0_l, Z.div_0_l by lia. reflexivity.
    - destruct (Z.eqb_spec vd 0).
      + cbn [rbind]. rewrite safe_mul_u64 by lia. cbn [rbind]. apply safe_div_pos. lia.
      + rewrite safe_sub_le by lia. cbn [rbind]. rewrite safe_mul_u64 by lia. cbn [rbind].
        rewrite safe_div_pos by lia. cbn [rbind]. rewrite safe_mul_u64 by lia. cbn [rbind].
        apply safe_div_pos. lia. }
  rewrite Hdrip. cbn [rbind]. clear Hdrip.
  pose proof (fl_le_self I d t ltac:(lia) ltac:(lia)).
  pose proof (fl_le_self D d t ltac:(lia) ltac:(lia)).
  rewrite cast64_le by lia. cbn [rbind]. apply safe_add_le.
  destruct (imm_ts <=? now); lia.
Qed.
