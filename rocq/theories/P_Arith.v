(** C18, C20-C24, C33: the arithmetic of entitlements, locks, prices and fees. *)
From Coq Require Import Lia.
From Verif Require Import Base Math State Handlers Token World Instr Exec Tactics Sums Spec Arith
  TokenFacts Inv Acct Funs Steps Init Preserve Reach Did Trans Flow Scenario P_Solvency P_History.

(** * C23: the deposit fee *)

(** [f] covers the fee rate [bps] on the gross amount [d + f]. *)
Definition covers (bps d f : Z) : Prop := bps * (d + f) <= 10000 * f.

(** The fee of the program (deposits use [RoundUp]) is the least one that covers the rate; it is
    the rate applied to the gross amount, rounded up. *)
Theorem C23_deposit_fee d bps fee inc :
  0 <= d -> 0 <= bps <= 5000 ->
  calculate_deposit_fee_included_amount d bps RoundUp = Ok (fee, inc) ->
  inc = d + fee /\ 0 <= fee /\ covers bps d fee /\
  (forall f, covers bps d f -> fee <= f) /\
  10000 * fee < bps * inc + 10000 /\
  (bps = 0 -> fee = 0).
Proof.
  intros Hd Hb Hx. destruct (deposit_fee_spec d bps RoundUp fee inc Hd Hb Hx) as (Hf & Hi & _ & He).
  pose proof (div_ceil_bounds (d * 10000) (10000 - bps) ltac:(lia)) as Hc. rewrite <- He in Hc.
  subst inc. unfold covers. split; [reflexivity|]. split; [lia|]. split; [lia|]. split; [|split].
  - intros f Hcv. cut (d + fee <= d + f); [lia|]. rewrite He. apply div_ceil_least; lia.
  - lia.
  - intros ->. lia.
Qed.

(** The computation succeeds whenever the gross amount fits. *)
Theorem C23_deposit_fee_defined d bps f :
  0 <= d -> 0 <= bps <= 5000 -> 0 <= f -> covers bps d f -> d + f <= U64MAX ->
  exists fee inc, calculate_deposit_fee_included_amount d bps RoundUp = Ok (fee, inc).
Proof.
  intros Hd Hb Hf Hc Hle. unfold calculate_deposit_fee_included_amount, covers in *.
  rewrite safe_sub_le by (num; lia). cbn [rbind].
  rewrite safe_mul_u64 by (num; lia). cbn [rbind].
  rewrite safe_sub_le by (num; lia). cbn [rbind].
  rewrite safe_add_le by (num; lia). cbn [rbind].
  rewrite safe_div_pos by (num; lia). cbn [rbind].
  set (inc := (_ + _) / _).
  assert (Hinc : inc = div_ceil (d * 10000) (10000 - bps)).
  { rewrite div_ceil_spec by lia. subst inc. num. f_equal. lia. }
  assert (d <= inc).
  { pose proof (div_ceil_bounds (d * 10000) (10000 - bps) ltac:(lia)). nia. }
  assert (inc <= d + f) by (rewrite Hinc; apply div_ceil_least; nia).
  rewrite safe_sub_le by lia. cbn [rbind]. rewrite cast64_le by lia. cbn [rbind].
  rewrite cast64_le by lia. cbn [rbind]. eauto.
Qed.

(** More deposit never costs less fee, and splitting a deposit never saves fees. *)
Theorem C23_fee_monotone d d' bps fee fee' inc inc' :
  0 <= d <= d' -> 0 <= bps <= 5000 ->
  calculate_deposit_fee_included_amount d bps RoundUp = Ok (fee, inc) ->
  calculate_deposit_fee_included_amount d' bps RoundUp = Ok (fee', inc') ->
  fee <= fee'.
Proof.
  intros Hd Hb Hx Hx'.
  destruct (C23_deposit_fee d _ _ _ ltac:(lia) Hb Hx) as (_ & _ & _ & Hl & _).
  destruct (C23_deposit_fee d' _ _ _ ltac:(lia) Hb Hx') as (_ & _ & Hc & _).
  apply Hl. unfold covers in *. pose proof (Z.mul_le_mono_nonneg_l d d' bps). lia.
Qed.
Theorem C23_splitting_never_cheaper d d' bps fee fee' fee2 inc inc' inc2 :
  0 <= d -> 0 <= d' -> 0 <= bps <= 5000 ->
  calculate_deposit_fee_included_amount d bps RoundUp = Ok (fee, inc) ->
  calculate_deposit_fee_included_amount d' bps RoundUp = Ok (fee', inc') ->
  calculate_deposit_fee_included_amount (d + d') bps RoundUp = Ok (fee2, inc2) ->
  fee2 <= fee + fee'.
Proof.
  intros Hd Hd' Hb Hx Hx' Hx2.
  destruct (C23_deposit_fee _ _ _ _ Hd Hb Hx) as (_ & _ & Hc & _).
  destruct (C23_deposit_fee _ _ _ _ Hd' Hb Hx') as (_ & _ & Hc' & _).
  destruct (C23_deposit_fee (d + d') _ _ _ ltac:(lia) Hb Hx2) as (_ & _ & _ & Hl & _).
  apply Hl. unfold covers in *. lia.
Qed.

(** 2.5% on 397: 10.18 rounded up. *)
Example C23_example : calculate_deposit_fee_included_amount 397 250 RoundUp = Ok (11, 408).
Proof. vm_compute. reflexivity. Qed.

(** * C24: transfer fees of Token-2022 mints *)

(** What the token program withholds from a transfer of [x]. *)
Definition withheld (m : mint) (x : Z) : Z :=
  match m_prog m, m_fee m with
  | Token2022, Some f => Z.min ((x * f_bps f + 9999) / 10000) (f_max f)
  | _, _ => 0
  end.

Lemma spl_fee_eq f x : fee_ok f -> 0 <= x ->
  spl_calculate_fee f x = Z.min ((x * f_bps f + 9999) / 10000) (f_max f).
Proof.
  intros [Hb Hm] Hx. unfold spl_calculate_fee.
  destruct (Z.eqb_spec (f_bps f) 0) as [->|Hb0]; cbn [orb].
  { rewrite Z.mul_0_r. change ((0 + 9999) / 10000) with 0. lia. }
  destruct (Z.eqb_spec x 0) as [->|Hx0]; [change ((0 * f_bps f + 9999) / 10000) with 0; lia|].
  rewrite div_ceil_spec by reflexivity. change MAX_FEE_BASIS_POINTS with 10000.
  do 2 f_equal. lia.
Qed.

Lemma tok_fee_withheld m x : mint_fee_ok m -> 0 <= x -> tok_fee m x = withheld m x.
Proof.
  intros Hm Hx. unfold tok_fee, withheld, get_epoch_transfer_fee. destruct (m_prog m); [reflexivity|].
  destruct (m_fee m) as [f|] eqn:Hf; [|reflexivity]. apply spl_fee_eq; auto.
Qed.

Lemma ceil_le a n : (a + 9999) / 10000 <= n <-> a <= 10000 * n.
Proof.
  split; intros Hx.
  - pose proof (Z.div_mod (a + 9999) 10000 ltac:(lia)). pose proof (Z.mod_pos_bound (a + 9999) 10000 ltac:(lia)). lia.
  - apply Z.lt_succ_r. apply Z.div_lt_upper_bound; lia.
Qed.

(** The inverse fee of the token program, followed by the program's own check. *)
Lemma inverse_fee f n :
  fee_ok f -> 0 < n -> n <= U64MAX ->
  let net x := x - Z.min ((x * f_bps f + 9999) / 10000) (f_max f) in
  exists g, n <= g /\ net g = n /\ (forall x, 0 <= x -> n <= net x -> g <= x) /\
    (if f_bps f =? MAX_FEE_BASIS_POINTS then Some (f_max f)
     else if g <=? U64MAX then spl_inverse_fee f n else Some (g - n)) = Some (g - n) /\
    (U64MAX < g -> f_bps f <> MAX_FEE_BASIS_POINTS -> spl_inverse_fee f n = None).
Proof.
  intros Hf Hn Hn64 net. pose proof Hf as [Hb Hm].
  assert (Hnet : forall x t, x - t <= net x <-> (x * f_bps f <= 10000 * t \/ f_max f <= t)).
  { intros x t. unfold net. rewrite <- (ceil_le (x * f_bps f) t). lia. }
  assert (Hnet' : forall x t, x - t < net x <-> (x * f_bps f <= 10000 * (t - 1) \/ f_max f <= t - 1)).
  { intros x t. rewrite <- (Hnet x (t - 1)). lia. }
  unfold spl_inverse_fee, spl_pre_fee_amount.
  destruct (Z.eqb_spec (f_bps f) MAX_FEE_BASIS_POINTS) as [H1|H1].
  { (* 100% *)
    exists (n + f_max f). split; [lia|]. split; [|split; [|split]].
    - pose proof (proj2 (Hnet (n + f_max f) (f_max f)) (or_intror (Z.le_refl _))).
      pose proof (Hnet' (n + f_max f) (f_max f)). num. lia.
    - intros x Hx Hle. destruct (Z.le_gt_cases (n + f_max f) x); [assumption|exfalso].
      pose proof (proj1 (Hnet x (x - n)) ltac:(lia)). num. lia.
    - f_equal. lia.
    - congruence. }
  destruct (Z.eqb_spec (f_bps f) 0) as [H0|H0].
  { exists n. split; [lia|]. rewrite H0 in *. split; [|split; [|split]].
    - unfold net. rewrite H0, Z.mul_0_r. change ((0 + 9999) / 10000) with 0. lia.
    - intros x Hx. unfold net. rewrite H0, Z.mul_0_r. change ((0 + 9999) / 10000) with 0. lia.
    - replace (n <=? U64MAX) with true by lia. unfold spl_calculate_fee. rewrite H0. cbn. f_equal. lia.
    - lia. }
  destruct (Z.eqb_spec n 0); [lia|].
  change MAX_FEE_BASIS_POINTS with 10000 in *.
  set (raw := div_ceil (n * 10000) (10000 - f_bps f)).
  pose proof (div_ceil_bounds (n * 10000) (10000 - f_bps f) ltac:(lia)) as Hc. fold raw in Hc.
  assert (Hraw : n <= raw) by nia.
  destruct (Z.leb_spec (f_max f) (raw - n)) as [Hcap|Hcap].
  - (* the maximum fee applies *)
    exists (n + f_max f). split; [lia|].
    assert (Hneq : net (n + f_max f) = n).
    { pose proof (proj2 (Hnet (n + f_max f) (f_max f)) (or_intror (Z.le_refl _))).
      pose proof (proj1 (Hnet' (n + f_max f) (f_max f))) as Hq.
      destruct (Z.le_gt_cases (net (n + f_max f)) n); [lia|]. exfalso.
      destruct Hq as [Hq|Hq]; [lia| |lia]. nia. }
    split; [assumption|split; [|split]].
    + intros x Hx Hle. destruct (Z.le_gt_cases (n + f_max f) x); [assumption|exfalso].
      destruct (proj1 (Hnet x (x - n)) ltac:(lia)) as [Hq|Hq]; [|lia].
      assert (raw <= x); [|lia]. unfold raw. apply div_ceil_least; lia.
    + destruct (Z.leb_spec (n + f_max f) U64MAX); [|f_equal; lia].
      rewrite spl_fee_eq by (assumption || lia). f_equal. unfold net in Hneq. lia.
    + intros Hbig _. replace (n + f_max f <=? U64MAX) with false by lia. reflexivity.
  - exists raw. split; [lia|].
    assert (Hneq : net raw = n).
    { pose proof (proj2 (Hnet raw (raw - n)) ltac:(left; lia)).
      pose proof (proj1 (Hnet' raw (raw - n))) as Hq.
      destruct (Z.le_gt_cases (net raw) n); [lia|]. exfalso.
      destruct Hq as [Hq|Hq]; [lia| |lia]. nia. }
    split; [assumption|split; [|split]].
    + intros x Hx Hle. destruct (Z.le_gt_cases raw x); [assumption|exfalso].
      destruct (proj1 (Hnet x (x - n)) ltac:(lia)) as [Hq|Hq]; [|lia].
      assert (raw <= x); [|lia]. unfold raw. apply div_ceil_least; lia.
    + destruct (Z.leb_spec raw U64MAX); [|f_equal; lia].
      rewrite spl_fee_eq by (assumption || lia). f_equal. unfold net in Hneq. lia.
    + intros Hbig _. replace (raw <=? U64MAX) with false by lia. reflexivity.
Qed.

(** The gross amount asked from the payer is the least one whose net amount is what is needed; the
    only way to fail is that this amount does not fit in 64 bits.  In particular the
    [unreachable!] branch is never reached. *)
Theorem C24_gross_amount m n :
  mint_fee_ok m -> 0 <= n <= U64MAX ->
  exists g, g - withheld m g = n /\ n <= g /\
    (forall x, 0 <= x -> n <= x - withheld m x -> g <= x) /\
    calculate_transfer_fee_included_amount m n = if g <=? U64MAX then Ok g else Err MathOverflow.
Proof.
  intros Hm Hn. unfold calculate_transfer_fee_included_amount, withheld, get_epoch_transfer_fee.
  destruct (Z.eqb_spec n 0) as [->|H0].
  { exists 0.
    assert (0 - match m_prog m with SplToken => 0 | Token2022 => match m_fee m with
       | Some f => Z.min ((0 * f_bps f + 9999) / 10000) (f_max f) | None => 0 end end = 0).
    { destruct (m_prog m); [reflexivity|]. destruct (m_fee m) as [f|] eqn:Hf; [|reflexivity].
      destruct (Hm f Hf) as [_ ?]. change ((0 * f_bps f + 9999) / 10000) with 0. lia. }
    split; [assumption|]. split; [lia|]. split; [intros; lia|]. reflexivity. }
  destruct (m_prog m) eqn:Hp.
  { exists n. split; [lia|]. split; [lia|]. split; [intros; lia|].
    replace (n <=? U64MAX) with true by lia. reflexivity. }
  destruct (m_fee m) as [f|] eqn:Hf.
  2: { exists n. split; [lia|]. split; [lia|]. split; [intros; lia|].
       replace (n <=? U64MAX) with true by lia. reflexivity. }
  specialize (Hm f Hf). destruct (inverse_fee f n Hm ltac:(lia) ltac:(lia)) as (g & Hg & Hnet & Hl & Hi & Hbig).
  exists g. split; [assumption|]. split; [assumption|]. split; [assumption|].
  destruct (Z.leb_spec g U64MAX) as [Hle|Hgt].
  - assert (Hfee : (if f_bps f =? MAX_FEE_BASIS_POINTS then Ok (f_max f)
                    else ok_or (spl_inverse_fee f n) MathOverflow) = Ok (g - n)).
    { destruct (f_bps f =? MAX_FEE_BASIS_POINTS); [congruence|]. rewrite Hi. reflexivity. }
    rewrite Hfee. cbn [rbind]. rewrite safe_add_le by lia. cbn [rbind].
    replace (n + (g - n)) with g by lia. rewrite spl_fee_eq by (assumption || lia).
    rewrite require_true; [reflexivity|]. lia.
  - destruct (Z.eqb_spec (f_bps f) MAX_FEE_BASIS_POINTS) as [Hb|Hb].
    + injection Hi as Hi. cbn [rbind]. unfold safe_add.
      replace (n + f_max f <=? U64MAX) with false by lia. reflexivity.
    + rewrite (Hbig Hgt Hb). reflexivity.
Qed.

Theorem C24_inverse_fee_never_panics m n :
  mint_fee_ok m -> 0 <= n <= U64MAX -> calculate_transfer_fee_included_amount m n <> Err Panic.
Proof.
  intros Hm Hn. destruct (C24_gross_amount m n Hm Hn) as (g & _ & _ & _ & ->).
  destruct (g <=? U64MAX); discriminate.
Qed.

(** * C18: the release schedule, as computed by the program *)

(** The claim computation for arguments in range: [bps] released at [its], the rest linearly over
    [vd] seconds after [vs], of [s] tokens for a deposit [d] out of [t]. *)
Definition claimable (bps its s vs vd d t now : Z) : res Z :=
  calculate_cumulative_claimable_amount_for_user bps its s vs vd now d t.

Lemma claimable_ok bps its s vs vd d t now :
  claim_range bps s d t -> 0 <= vs -> 0 <= vd <= U64MAX -> 0 <= now ->
  exists x, claimable bps its s vs vd d t now = Ok x.
Proof. intros. unfold claimable. rewrite cumulative_ok by assumption. eauto. Qed.

Theorem C18_entitlement_monotone bps its s vs vd d t now now' :
  claim_range bps s d t -> 0 <= vs -> 0 <= vd <= U64MAX -> 0 <= now <= now' ->
  exists x y, claimable bps its s vs vd d t now = Ok x /\
              claimable bps its s vs vd d t now' = Ok y /\ 0 <= x <= y.
Proof.
  intros Hr Hvs Hvd Hnow. unfold claimable. rewrite !cumulative_ok by (assumption || lia).
  eexists _, _. split; [reflexivity|]. split; [reflexivity|].
  destruct Hr as (Hb & Hs & Hd & Ht).
  pose proof (imm_range s bps Hb ltac:(lia)) as HI. set (I := s * bps / 10000) in *.
  pose proof (fl_nonneg I d t ltac:(lia) ltac:(lia) ltac:(lia)).
  assert (Hv : 0 <= (if now <? vs then 0 else if vd =? 0 then s - I else (s - I) * Z.min (now - vs) vd / vd)
      <= (if now' <? vs then 0 else if vd =? 0 then s - I else (s - I) * Z.min (now' - vs) vd / vd)).
  { destruct (Z.ltb_spec now vs), (Z.ltb_spec now' vs); try lia;
      destruct (Z.eqb_spec vd 0); try lia.
    - pose proof (fl_nonneg (s - I) (Z.min (now' - vs) vd) vd). lia.
    - pose proof (fl_nonneg (s - I) (Z.min (now - vs) vd) vd).
      pose proof (fl_mono (s - I) (Z.min (now - vs) vd) (s - I) (Z.min (now' - vs) vd) vd). lia. }
  set (V := if now <? vs then _ else _) in *. set (V' := if now' <? vs then _ else _) in *.
  pose proof (fl_nonneg V d t ltac:(lia) ltac:(lia) ltac:(lia)).
  pose proof (fl_mono V d V' d t ltac:(lia) ltac:(lia) ltac:(lia)).
  clearbody V V' I. set (x := V * d / t) in *. set (y := V' * d / t) in *. set (z := I * d / t) in *.
  clearbody x y z. clear - Hnow H H0 H1.
  destruct (Z.leb_spec its now), (Z.leb_spec its now'); lia.
Qed.

Theorem C18_nothing_before_release bps its s vs vd d t now :
  claim_range bps s d t -> 0 <= vs -> 0 <= vd <= U64MAX -> 0 <= now ->
  now < its -> now < vs -> claimable bps its s vs vd d t now = Ok 0.
Proof.
  intros Hr Hvs Hvd Hnow Hi Hv. unfold claimable. rewrite cumulative_ok by assumption.
  replace (its <=? now) with false by lia. replace (now <? vs) with true by lia.
  rewrite Z.mul_0_l. destruct (Z.eq_dec t 0) as [->|]; [rewrite div_0_den|rewrite Z.div_0_l by assumption];
    reflexivity.
Qed.

(** At the end of the schedule: the share of the sold tokens, at most one unit below the exact
    share rounded down (and equal to it if only one of the two parts is used). *)
Theorem C18_full_share bps its s vs vd d t now :
  claim_range bps s d t -> 0 <= vs -> 0 <= vd <= U64MAX -> 0 < t ->
  its <= now -> vs + vd <= now ->
  exists x, claimable bps its s vs vd d t now = Ok x /\
    x * t <= s * d < (x + 2) * t /\
    (bps = 0 \/ bps = 10000 -> x = s * d / t).
Proof.
  intros Hr Hvs Hvd Ht Hi Hv. unfold claimable. rewrite cumulative_ok by (assumption || lia).
  eexists. split; [reflexivity|]. destruct Hr as (Hb & Hs & Hd & _).
  replace (its <=? now) with true by lia. replace (now <? vs) with false by lia.
  assert (Hz : forall v, (if vd =? 0 then v else v * Z.min (now - vs) vd / vd) = v).
  { intros v. destruct (Z.eqb_spec vd 0); [reflexivity|]. rewrite Z.min_r by lia. apply Z.div_mul. assumption. }
  rewrite Hz. pose proof (imm_range s bps Hb ltac:(lia)) as HI.
  split.
  - set (I := s * bps / 10000) in *.
    pose proof (Z.div_mod (I * d) t ltac:(lia)). pose proof (Z.mod_pos_bound (I * d) t Ht).
    pose proof (Z.div_mod ((s - I) * d) t ltac:(lia)). pose proof (Z.mod_pos_bound ((s - I) * d) t Ht).
    set (u := I * d / t) in *. set (v := (s - I) * d / t) in *. lia.
  - intros [->| ->].
    + rewrite Z.mul_0_r. change (0 / 10000) with 0. rewrite Z.mul_0_l, Z.div_0_l by lia.
      rewrite Z.sub_0_r. lia.
    + rewrite Z.div_mul by lia. rewrite Z.sub_diag, Z.mul_0_l, Z.div_0_l by lia. lia.
Qed.

(** A quarter at 2000, the rest from 2010 to 2110; 700 of 2000 deposited, 5000 sold. *)
Example C18_example :
  map (claimable 2500 2000 5000 2010 100 700 2000) [1999; 2000; 2009; 2035; 2110; 9999]
  = [Ok 0; Ok 437; Ok 437; Ok 764; Ok 1749; Ok 1749].
Proof. vm_compute. reflexivity. Qed.

(** * C22: rounding of fixed price deposits *)

(** The accepted amount is the least one buying as many tokens as the requested amount [a]. *)
Theorem C22_least_deposit price a :
  0 < price -> 0 <= a <= U64MAX ->
  exists n, calculate_quote_token_without_surplus price a = Ok n /\
    0 <= n <= a /\ n * scale / price = a * scale / price /\
    forall b, a * scale / price <= b * scale / price -> n <= b.
Proof.
  intros Hq Ha. destruct (without_surplus_ok price a Hq Ha) as [He Hr].
  eexists. split; [exact He|]. split; [assumption|]. unfold bought in *.
  set (t := a * scale / price) in *. set (n := div_ceil (t * price) scale) in *.
  assert (Hs : 0 < scale) by reflexivity.
  pose proof (div_ceil_bounds (t * price) scale Hs) as Hc. fold n in Hc.
  assert (Hleast : forall b, t <= b * scale / price -> n <= b).
  { intros b Hb. apply div_ceil_least; [assumption|].
    pose proof (Z.mul_div_le (b * scale) price Hq) as Hm.
    pose proof (Z.mul_le_mono_nonneg_l _ _ price ltac:(lia) Hb). rewrite (Z.mul_comm t), (Z.mul_comm scale).
    etransitivity; eassumption. }
  split; [|exact Hleast]. apply Z.le_antisymm.
  - subst t. apply Z.div_le_mono; [assumption|]. apply Z.mul_le_mono_nonneg_r; [discriminate|apply Hr].
  - apply Z.div_le_lower_bound; [assumption|]. rewrite Z.mul_comm, (Z.mul_comm n). apply Hc.
Qed.

Example C22_example : calculate_quote_token_without_surplus fx_price 199 = Ok 198.
Proof. vm_compute. reflexivity. Qed.

Section WithCrypto.
Context `{Crypto}.

(** * C24 at the vaults *)

(** A deposit: the vault grows by exactly what is credited as deposit and fee; the payer pays
    exactly the least gross amount for it. *)
Theorem C24_deposit_credited w k qv qm ek pt payer pr mx h w' l :
  reachable w -> step w (IDeposit k qv qm ek pt payer pr mx h) = Ok (w', l) ->
  exists p p' e e' m g,
    w_presales w !! k = Some p /\ w_presales w' !! k = Some p' /\
    w_escrows w !! ek = Some e /\ w_escrows w' !! ek = Some e' /\
    w_mints w !! p_qmint p = Some m /\
    let n := (e_deposit e' - e_deposit e) + (e_fee e' - e_fee e) in
    n = (p_deposit p' - p_deposit p) + (p_fee p' - p_fee p) /\ 0 < n /\
    bal w' (PQuoteVault k) = bal w (PQuoteVault k) + n /\
    bal w' pt = bal w pt - g /\ g - withheld m g = n /\
    (forall x, 0 <= x -> n <= x - withheld m x -> g <= x).
Proof.
  intros Hw Hs. pose proof (reachable_inv _ Hw) as Hi. pose proof Hs as Hs0. cbn in Hs0.
  apply deposit_inv in Hs0 as
    (p0 & e0 & r0 & m0 & hh & quota & amount0 & fee0 & p20 & gross0 & hooks & rest & w10 & lx0 &
     _ & _ & Hp0 & _ & Hqm0 & Hm0 & He0 & _ & _ & _ & _ & _ & _ & _ & Hapos & Hr0 & Hfee & _ & _ & _ & _ & _ & _ &
     _ & Hend & Hgross & _ & _ & Htr0 & Hw' & _).
  cbn in Hs. apply deposit_did in Hs; [|assumption].
  destruct Hs as (p & p2 & e & r & m & amount & fee & gross & w1 & lx & D). destruct D.
  assert (p0 = p) as -> by congruence. assert (e0 = e) as -> by congruence.
  assert (r0 = r) as -> by congruence.
  destruct dd_mint as [-> Hm]. assert (m0 = m) as -> by congruence.
  pose proof (tk_fee _ (i_tokens _ Hi) _ _ Hm) as Hmf. subst qv.
  pose proof (payer_not_vault _ _ _ _ _ _ _ _ _ _ Hi dd_presale dd_signed dd_transfer) as Hne.
  assert (Hrb : 0 <= r_fee_bps r <= MAX_DEPOSIT_FEE_BPS).
  { destruct (s_idx _ _ _ _ _ (at_esc _ _ _ _ _ _ dd_at)) as [Hi0 Hi1].
    destruct (c_regs _ _ (at_cfg _ _ _ _ _ _ dd_at) _ _ dd_reg) as [Hz|[Hz _]];
      [unfold MAX_DEPOSIT_FEE_BPS; lia|]. rewrite Z2Nat.id in Hz by lia. lia. }
  destruct (deposit_fee_spec _ _ _ _ _ (Z.lt_le_incl _ _ Hapos) Hrb Hfee) as (Hf0 & _ & Hinc & _).
  destruct (C24_gross_amount m (amount0 + fee0) Hmf ltac:(lia)) as (g & Hg1 & Hg2 & Hg3 & Hg4).
  rewrite Hgross in Hg4. destruct (g <=? U64MAX); [|discriminate]. apply Ok_inj in Hg4. subst gross0.
  clear Hqm0.
  assert (Hsame : esc_deposited e amount0 fee0 = esc_deposited e amount fee).
  { assert (He' : w_escrows w' !! ek = Some (esc_deposited e amount0 fee0)) by (rewrite Hw'; cbn; apply lookup_insert).
    rewrite dd_world in He'. cbn in He'. rewrite lookup_insert in He'. congruence. }
  assert (amount0 = amount /\ fee0 = fee) as [-> ->].
  { pose proof (f_equal e_deposit Hsame). pose proof (f_equal e_fee Hsame). cbn in *. lia. }
  assert (Htok : w_tokens w' = w_tokens w10) by (rewrite Hw'; reflexivity).
  pose proof (transfer_bal _ _ _ _ _ _ _ _ _ _ _ Htr0 Hm0) as Hbal.
  assert (Hp2 : p_deposit p2 = p_deposit p + amount /\ p_fee p2 = p_fee p + fee).
  { destruct dd_end as [(_ & _ & ->)|(_ & ->)]; cbn; auto. }
  exists p, p2, e, (esc_deposited e amount fee), m, g.
  split; [assumption|]. split; [rewrite dd_world; cbn; apply lookup_insert|].
  split; [assumption|]. split; [rewrite dd_world; cbn; apply lookup_insert|].
  split; [assumption|]. cbn [e_deposit e_fee esc_deposited].
  rewrite (bal_ext w10 w' _ Htok), (Hbal (PQuoteVault k)).
  rewrite (bal_ext w10 w' _ Htok), (Hbal pt).
  rewrite !(decide_False (P := pt = PQuoteVault k)) by assumption.
  rewrite (decide_False (P := PQuoteVault k = pt)) by congruence.
  rewrite !decide_True by reflexivity.
  rewrite tok_fee_withheld by (assumption || lia).
  destruct Hp2 as [-> ->].
  replace (e_deposit (esc_deposited e amount fee)) with (e_deposit e + amount) by reflexivity.
  replace (e_fee (esc_deposited e amount fee)) with (e_fee e + fee) by reflexivity.
  replace (e_deposit e + amount - e_deposit e + (e_fee e + fee - e_fee e)) with (amount + fee) by lia.
  cbv zeta. repeat (split; [lia|]). assumption.
Qed.

(** The creator's funding: the base vault of a new presale holds exactly the supply. *)
Theorem C24_supply_funded w base bmint qmint pt creator payer bp qp a h w' l :
  reachable w -> step w (IInitPresale base bmint qmint pt creator payer bp qp a h) = Ok (w', l) ->
  let k := PPresale base bmint qmint in
  exists p, w_presales w' !! k = Some p /\ bal w' (PBaseVault k) = p_supply p /\
    p_supply p = lsum ra_supply (ia_regs a) /\ bal w' (PQuoteVault k) = 0.
Proof.
  intros Hw Hs k. pose proof (reachable_inv _ Hw) as Hi. cbn in Hs. apply init_did in Hs; [|assumption].
  destruct Hs as (k' & p & bm & qm & gross & w1 & lx & D). destruct D. subst k'. fold k in di_new, di_presale, di_transfer, di_world.
  exists p. assert (Hp : w_presales w' !! k = Some p) by (rewrite di_world; cbn; apply lookup_insert).
  split; [assumption|]. destruct di_mints as (Hbm & _ & _ & _ & Hsup0 & _).
  assert (Hbm' : w_mints (with_vaults k bmint qmint w) !! bmint = Some bm) by exact Hbm.
  pose proof (transfer_bal _ _ _ _ _ _ _ _ _ _ _ di_transfer Hbm') as Hbal.
  assert (Hpt : pt <> PBaseVault k /\ pt <> PQuoteVault k).
  { apply tok_transfer_inv in di_transfer as (m & s & d & dl & Hm & Hsrc & _ & _ & _ & _ & _ & _ & _ & Hau & _).
    destruct di_signed as [_ Hpay].
    assert (m = bm) as -> by congruence.
    assert (Hsup : is_supported_mint bm = true) by assumption.
    assert (Hv : s = new_vault bmint \/ s = new_vault qmint -> False).
    { intros Hv. unfold tok_authorize in Hau. rewrite (supported_no_delegate _ Hsup) in Hau.
      assert (t_owner s = PAuth /\ t_delegate s = None) as [Ho Hd0] by (destruct Hv; subst s; auto).
      rewrite Ho, Hd0 in Hau. bq Hau Hb. cbn in Hb. apply beq_addr_true in Hb. subst payer. discriminate. }
    unfold with_vaults in Hsrc. cbn in Hsrc. split; intros ->; apply Hv.
    - rewrite lookup_insert_ne in Hsrc by discriminate. rewrite lookup_insert in Hsrc. left. congruence.
    - rewrite lookup_insert in Hsrc. right. congruence. }
  destruct Hpt as [Hpt1 Hpt2]. subst w'.
  rewrite (bal_ext w1 (upd_presale k p w1)) by reflexivity.
  rewrite (bal_ext w1 (upd_presale k p w1)) by reflexivity.
  rewrite !Hbal. rewrite !(decide_False (P := pt = PBaseVault k)) by assumption.
  rewrite (decide_False (P := PBaseVault k = pt)) by congruence.
  rewrite (decide_False (P := PQuoteVault k = pt)) by congruence.
  rewrite (decide_True (P := PBaseVault k = PBaseVault k)) by reflexivity.
  rewrite (decide_False (P := PQuoteVault k = PBaseVault k)) by discriminate.
  unfold bal, with_vaults. cbn. rewrite lookup_insert_ne by discriminate. rewrite !lookup_insert. cbn.
  split; [lia|]. split; [apply (n_supply _ _ _ _ _ _ _ _ _ _ di_presale)|reflexivity].
Qed.

(** * C18 for the registries of reachable presales *)

Lemma final_bounds k p i r d :
  cfg k p -> p_regs p !! i = Some r -> 0 < r_deposit r -> 0 <= d ->
  final p r d * r_deposit r <= sold p r * d < (final p r d + 2) * r_deposit r.
Proof.
  intros Hc Hr Ht Hd. destruct (parts_range k p i r Hc Hr ltac:(lia)) as (_ & _ & Hs).
  unfold final. rewrite <- Hs. set (I := imm_part p r) in *. set (V := vest_part p r) in *.
  pose proof (Z.div_mod (I * d) (r_deposit r) ltac:(lia)). pose proof (Z.mod_pos_bound (I * d) _ Ht).
  pose proof (Z.div_mod (V * d) (r_deposit r) ltac:(lia)). pose proof (Z.mod_pos_bound (V * d) _ Ht).
  set (u := I * d / r_deposit r) in *. set (v := V * d / r_deposit r) in *. lia.
Qed.

Theorem C18_reachable_schedule w k p i r d now now' :
  reachable w -> w_presales w !! k = Some p -> p_regs p !! i = Some r ->
  0 < r_deposit r -> 0 <= d -> now <= now' ->
  0 <= entitled p r d now <= entitled p r d now' /\
  (now < p_imm_ts p -> now < p_vs p -> entitled p r d now = 0) /\
  (p_ve p <= now -> entitled p r d now = final p r d) /\
  final p r d * r_deposit r <= sold p r * d < (final p r d + 2) * r_deposit r.
Proof.
  intros Hw Hp Hr Ht Hd Hnow. pose proof (reachable_inv _ Hw) as Hi.
  pose proof (q_cfg _ _ _ (i_presales _ Hi _ _ Hp)) as Hc.
  split; [|split; [|split]].
  - split; [eapply entitled_nonneg|eapply entitled_mono]; try eassumption; lia.
  - intros H1 H2. unfold entitled, vested_by. replace (p_imm_ts p <=? now) with false by lia.
    replace (now <? p_vs p) with true by lia. rewrite Z.mul_0_l, Z.div_0_l by lia. reflexivity.
  - intros H1. eapply entitled_final; try eassumption; [lia|].
    destruct (c_vs _ _ Hc) as [[_ Hv]|(H2 & H3 & H4 & H5 & _)]; lia.
  - eapply final_bounds; eassumption.
Qed.

(** * C20: locks *)

Lemma escrow_context l ek e p r :
  w_escrows (run genesis l) !! ek = Some e -> w_presales (run genesis l) !! e_presale e = Some p ->
  p_regs p !! Z.to_nat (e_idx e) = Some r ->
  at_escrow (run genesis l) (e_presale e) ek p e r.
Proof.
  intros He Hp Hr. apply at_intro; try assumption; try reflexivity. exact (reachable_inv _ (ex_intro _ l eq_refl)).
Qed.

(** What an escrow has ever received from the base vault, at any moment of any history: nothing
    before the end; before the lock is over at most the share of the immediate part, and none of
    that part before its release time; while vesting at most the linear fraction of the vested
    part. *)
Theorem C20_locks l ek e p r :
  w_escrows (run genesis l) !! ek = Some e -> w_presales (run genesis l) !! e_presale e = Some p ->
  p_regs p !! Z.to_nat (e_idx e) = Some r ->
  let now := w_now (run genesis l) in
  let got := lifetime (base_out ek) genesis l in
  let d := e_deposit e in let t := r_deposit r in
  (now < p_end p -> got = 0) /\
  (now < p_end p + p_lock p -> now < p_imm_ts p -> got = 0) /\
  (now < p_end p + p_lock p -> got * t <= imm_part p r * d) /\
  (p_end p + p_lock p <= now -> exists i v, got <= i + v /\
     i * t <= imm_part p r * d /\ (now < p_imm_ts p -> i = 0) /\
     v * t <= vest_part p r * d /\
     v * t * p_vest p <= vest_part p r * d * (now - (p_end p + p_lock p))).
Proof.
  intros He Hp Hr. cbv zeta. destruct (C35_base_lifetime l ek e He) as [-> _].
  destruct (escrow_context _ _ _ _ _ He Hp Hr) as [_ Hc Ha Hb _ Hs Hra Hre].
  destruct (s_reg _ _ _ _ _ Hs _ Hr) as (_ & _ & Hcl). pose proof (s_pending _ _ _ _ _ Hs).
  pose proof (s_claimed _ _ _ _ _ Hs) as Hc0.
  set (now := w_now (run genesis l)) in *. set (c := e_claimed e) in *. set (d := e_deposit e) in *.
  assert (Hle : c <= entitled p r d now) by lia.
  destruct (parts_range _ _ _ _ Hc Hr ltac:(lia)) as (HI & HV & _).
  destruct (c_dur _ _ Hc) as [Hlk Hvd].
  assert (Hend : now < p_end p -> c = 0).
  { intros Hn. destruct (f_esc _ _ _ (a_fresh _ _ _ _ Ha Hn) _ _ He eq_refl) as (? & _). assumption. }
  assert (Hvs : p_end p + p_lock p <= now -> now < p_vs p -> False).
  { intros H1 H2. destruct (c_vs _ _ Hc) as [[H3 _]|(H3 & _ & H4 & _)]; [lia|].
    pose proof (c_time _ _ Hc). lia. }
  assert (Hpre : now < p_end p + p_lock p -> p_end p <= now -> now < p_vs p).
  { intros H1 H2. destruct (c_vs _ _ Hc) as [[H3 _]|(H3 & _ & H4 & _)]; lia. }
  assert (Hfl : forall x, 0 <= x -> (x * d / r_deposit r) * r_deposit r <= x * d).
  { intros x Hx. rewrite Z.mul_comm. destruct (Z.eq_dec (r_deposit r) 0) as [->|Hne].
    - rewrite Z.mul_0_l. apply Z.mul_nonneg_nonneg; lia.
    - apply Z.mul_div_le. lia. }
  assert (Hdiv0 : 0 * d / r_deposit r = 0).
  { rewrite Z.mul_0_l. destruct (Z.eq_dec (r_deposit r) 0) as [->|Hne]; [apply div_0_den|apply Z.div_0_l; assumption]. }
  split; [assumption|]. split; [|split].
  - intros H1 H2. destruct (Z.lt_ge_cases now (p_end p)) as [Hn|Hn]; [auto|].
    unfold entitled, vested_by in Hle. replace (p_imm_ts p <=? now) with false in Hle by lia.
    replace (now <? p_vs p) with true in Hle by (specialize (Hpre H1 Hn); lia). rewrite Hdiv0 in Hle. lia.
  - intros H1. destruct (Z.lt_ge_cases now (p_end p)) as [Hn|Hn].
    { rewrite (Hend Hn). rewrite Z.mul_0_l. apply Z.mul_nonneg_nonneg; lia. }
    unfold entitled, vested_by in Hle.
    replace (now <? p_vs p) with true in Hle by (specialize (Hpre H1 Hn); lia). rewrite Hdiv0 in Hle.
    specialize (Hfl (imm_part p r) ltac:(lia)). pose proof (fl_nonneg (imm_part p r) d (r_deposit r) ltac:(lia) ltac:(lia) ltac:(lia)).
    assert (c <= imm_part p r * d / r_deposit r) by (destruct (p_imm_ts p <=? now); lia).
    etransitivity; [apply Z.mul_le_mono_nonneg_r; [|eassumption]; lia|assumption].
  - intros H1. unfold entitled in Hle.
    exists (if p_imm_ts p <=? now then imm_part p r * d / r_deposit r else 0),
      (vested_by p now (vest_part p r) * d / r_deposit r).
    split; [assumption|]. split; [|split].
    { destruct (_ <=? now); [apply Hfl; lia|]. rewrite Z.mul_0_l. apply Z.mul_nonneg_nonneg; lia. }
    { intros H2. replace (p_imm_ts p <=? now) with false by lia. reflexivity. }
    pose proof (vested_by_range p now (vest_part p r) ltac:(lia) Hvd) as Hvr.
    pose proof (Hfl (vested_by p now (vest_part p r)) ltac:(lia)) as Hf2.
    split.
    { etransitivity; [exact Hf2|]. apply Z.mul_le_mono_nonneg_r; lia. }
    etransitivity; [apply Z.mul_le_mono_nonneg_r; [exact Hvd|exact Hf2]|].
    assert (Hlin : vested_by p now (vest_part p r) * p_vest p <= vest_part p r * (now - (p_end p + p_lock p))).
    { unfold vested_by. destruct (Z.ltb_spec now (p_vs p)) as [Hx|Hx]; [exfalso; auto|].
      destruct (Z.eqb_spec (p_vest p) 0) as [->|Hv0].
      { rewrite Z.mul_0_r. apply Z.mul_nonneg_nonneg; lia. }
      assert (p_vs p = p_end p + p_lock p) as Hpv.
      { destruct (c_vs _ _ Hc) as [[H3 _]|(_ & _ & _ & H4 & _)]; [assumption|contradiction]. }
      rewrite Z.mul_comm. etransitivity; [apply Z.mul_div_le; lia|].
      apply Z.mul_le_mono_nonneg_l; lia. }
    replace (vested_by p now (vest_part p r) * d * p_vest p)
      with (vested_by p now (vest_part p r) * p_vest p * d) by lia.
    replace (vest_part p r * d * (now - (p_end p + p_lock p)))
      with (vest_part p r * (now - (p_end p + p_lock p)) * d) by lia.
    apply Z.mul_le_mono_nonneg_r; [lia|assumption].
Qed.

(** Before the end of a presale no operation of anybody lowers its base vault. *)
Theorem C20_base_vault_untouched w o w' l k p :
  reachable w -> step w o = Ok (w', l) -> w_presales w !! k = Some p -> w_now w < p_end p ->
  bal w (PBaseVault k) <= bal w' (PBaseVault k).
Proof.
  intros Hw Hs Hp Hn. pose proof (reachable_inv _ Hw) as Hi.
  destruct (step_takes _ _ _ _ _ _ (PBaseVault k) Hi Hs Hp ltac:(auto)) as [Ht|Hle]; [exfalso|assumption].
  inversion Ht; subst.
  - destruct H2. destruct dm_when. assert (p0 = p) by congruence. subst. lia.
  - destruct H2. destruct H3. assert (p0 = p) by congruence. subst. lia.
  - destruct H2. destruct du_when. assert (p0 = p) by congruence. subst. lia.
Qed.

(** * C21: the fixed price is a floor *)

Lemma sold_price k p i r :
  cfg k p -> p_regs p !! i = Some r -> 0 <= r_deposit r -> p_mode p = 0 ->
  0 < p_raw0 p /\ sold p r * p_raw0 p <= r_deposit r * scale.
Proof.
  intros Hc Hr Hd Hm. destruct (c_price _ _ Hc Hm) as [Hq _]. split; [lia|].
  unfold sold. rewrite Hm. cbn [Z.eqb]. destruct (Z.eqb_spec (r_deposit r) 0) as [->|_]; [lia|].
  etransitivity; [apply (Z.mul_le_mono_nonneg_r _ (bought (p_raw0 p) (r_deposit r))); lia|].
  unfold bought. rewrite Z.mul_comm. apply Z.mul_div_le. lia.
Qed.

(** Tokens ever received, and tokens ever to be received, by a buyer, at the configured price,
    never cost more than the buyer's deposit. *)
Theorem C21_price_floor l ek e p r :
  w_escrows (run genesis l) !! ek = Some e -> w_presales (run genesis l) !! e_presale e = Some p ->
  p_regs p !! Z.to_nat (e_idx e) = Some r -> p_mode p = 0 ->
  lifetime (base_out ek) genesis l * p_raw0 p <= e_deposit e * scale /\
  final p r (e_deposit e) * p_raw0 p <= e_deposit e * scale.
Proof.
  intros He Hp Hr Hm. destruct (C35_base_lifetime l ek e He) as [-> (p' & r' & Hp' & Hr' & Hle)].
  assert (p' = p) as -> by congruence. assert (r' = r) as -> by congruence.
  destruct (escrow_context _ _ _ _ _ He Hp Hr) as [_ Hc Ha Hb _ Hs Hra Hre].
  destruct (sold_price _ _ _ _ Hc Hr ltac:(lia) Hm) as [Hq Hsp].
  assert (Hf : final p r (e_deposit e) * p_raw0 p <= e_deposit e * scale).
  { destruct (Z.eq_dec (r_deposit r) 0) as [H0|H0].
    { assert (e_deposit e = 0) as -> by lia. unfold final. rewrite H0, !div_0_den. lia. }
    destruct (final_bounds _ _ _ _ (e_deposit e) Hc Hr ltac:(lia) ltac:(lia)) as [Hfb _].
    apply (Z.mul_le_mono_pos_r _ _ (r_deposit r)); [lia|].
    replace (final p r (e_deposit e) * p_raw0 p * r_deposit r)
      with (final p r (e_deposit e) * r_deposit r * p_raw0 p) by lia.
    etransitivity; [apply Z.mul_le_mono_nonneg_r; [|exact Hfb]; lia|].
    replace (sold p r * e_deposit e * p_raw0 p) with (sold p r * p_raw0 p * e_deposit e) by lia.
    replace (e_deposit e * scale * r_deposit r) with (r_deposit r * scale * e_deposit e) by lia.
    apply Z.mul_le_mono_nonneg_r; [lia|assumption]. }
  split; [|assumption]. etransitivity; [apply Z.mul_le_mono_nonneg_r; [|exact Hle]; lia|assumption].
Qed.

(** Per registry: everything ever claimed plus everything still to be claimed never exceeds the
    supply of the registry nor what its deposits buy. *)
Theorem C21_registry_total w k p i r :
  reachable w -> w_presales w !! k = Some p -> p_regs p !! i = Some r -> p_mode p = 0 ->
  let outstanding := esum k i (fun e => final p r (e_deposit e) - e_claimed e) (w_escrows w) in
  p_min_cap p <= p_deposit p ->
  r_claimed r + outstanding <= r_supply r /\
  (r_claimed r + outstanding) * p_raw0 p <= r_deposit r * scale.
Proof.
  intros Hw Hp Hr Hm out Hs. pose proof (reachable_inv _ Hw) as Hi.
  pose proof (i_presales _ Hi _ _ Hp) as Hok. pose proof (q_cfg _ _ _ Hok) as Hc.
  pose proof (q_acct _ _ _ Hok) as Ha. pose proof (a_books _ _ _ _ Ha) as Hb.
  destruct (b_nonneg _ _ _ Hb _ _ Hr) as (Hd & _).
  destruct (sold_price _ _ _ _ Hc Hr Hd Hm) as [Hq Hsp].
  assert (Hle : r_claimed r + out <= sold p r) by (eapply registry_claims; eassumption).
  pose proof (sold_range _ _ _ _ Hc Hr Hd). split; [lia|].
  etransitivity; [apply Z.mul_le_mono_nonneg_r; [|exact Hle]; lia|assumption].
Qed.

(** * C33: fairness and dust *)

(** Entitlement depends on the deposit only, and is monotone in it. *)
Theorem C33_more_deposit_never_less w k p i r d d' now :
  reachable w -> w_presales w !! k = Some p -> p_regs p !! i = Some r ->
  0 <= d <= d' -> entitled p r d now <= entitled p r d' now.
Proof.
  intros Hw Hp Hr Hd. pose proof (reachable_inv _ Hw) as Hi.
  pose proof (i_presales _ Hi _ _ Hp) as Hok. pose proof (q_cfg _ _ _ Hok) as Hc.
  destruct (b_nonneg _ _ _ (a_books _ _ _ _ (q_acct _ _ _ Hok)) _ _ Hr) as (Hd0 & _).
  destruct (parts_range _ _ _ _ Hc Hr Hd0) as (HI & HV & _). destruct (c_dur _ _ Hc) as [_ Hvd].
  pose proof (vested_by_range p now (vest_part p r) ltac:(lia) Hvd) as Hvr. unfold entitled.
  pose proof (fl_mono (imm_part p r) d (imm_part p r) d' (r_deposit r) ltac:(lia) ltac:(lia) Hd0).
  pose proof (fl_mono (vested_by p now (vest_part p r)) d (vested_by p now (vest_part p r)) d' (r_deposit r)
    ltac:(lia) ltac:(lia) Hd0).
  destruct (_ <=? now); lia.
Qed.

(** Two buyers of the same registry with equal deposits have received the same in total right
    after claiming, whatever the order of their claims. *)
Theorem C33_equal_treatment l k bv bm ek1 ot1 o1 pr1 h1 ek2 ot2 o2 pr2 h2 w1 x1 w2 x2 e1 e2 :
  step (run genesis l) (IClaim k bv bm ek1 ot1 o1 pr1 h1) = Ok (w1, x1) ->
  step (run genesis l) (IClaim k bv bm ek2 ot2 o2 pr2 h2) = Ok (w2, x2) ->
  w_escrows (run genesis l) !! ek1 = Some e1 -> w_escrows (run genesis l) !! ek2 = Some e2 ->
  e_idx e1 = e_idx e2 -> e_deposit e1 = e_deposit e2 ->
  lifetime (base_out ek1) genesis (l ++ [IClaim k bv bm ek1 ot1 o1 pr1 h1]) =
  lifetime (base_out ek2) genesis (l ++ [IClaim k bv bm ek2 ot2 o2 pr2 h2]).
Proof.
  intros H1 H2 He1 He2 Hidx Hd.
  destruct (C19_claim_history _ _ _ _ _ _ _ _ _ _ _ H1) as (p & e & r & Hp & He & Hr & ->).
  destruct (C19_claim_history _ _ _ _ _ _ _ _ _ _ _ H2) as (p' & e' & r' & Hp' & He' & Hr' & ->).
  congruence.
Qed.

(** Number of open escrows of registry [i] with a deposit. *)
Definition depositors (k : addr) (i : nat) (E : gmap addr escrow) : Z :=
  esum k i (fun e => if 0 <? e_deposit e then 1 else 0) E.

Lemma esum_scale k i c f E : esum k i (fun e => c * f e) E = c * esum k i f E.
Proof.
  unfold esum, msum. apply (map_fold_ind (fun y m => map_fold (fun k0 x acc => in_reg k i (fun e => c * f e) k0 x + acc) 0 m
    = c * y)).
  - rewrite map_fold_empty. lia.
  - intros ek e m y Hn IH. rewrite (map_fold_insert_L (fun k0 x acc => in_reg k i (fun e => c * f e) k0 x + acc) 0 ek e m).
    + rewrite IH. unfold in_reg. destruct (bool_decide _); lia.
    + intros. lia.
    + assumption.
Qed.

Lemma floor_dust k i a t E :
  0 < t -> 0 <= a -> (forall ek e, E !! ek = Some e -> e_presale e = k -> e_idx e = Z.of_nat i -> 0 <= e_deposit e) ->
  t * a = a * esum k i e_deposit E ->
  a = 0 \/ a + 1 <= esum k i (fun e => a * e_deposit e / t) E + depositors k i E.
Proof.
  intros Ht Ha Hd Hsum. destruct (Z.eq_dec a 0) as [|Ha0]; [auto|right].
  set (F := esum k i (fun e => a * e_deposit e / t) E). set (N := depositors k i E).
  assert (Hle : a * esum k i e_deposit E <= t * F + (t - 1) * N).
  { unfold F, N, depositors. rewrite <- !esum_scale, <- esum_add. apply esum_le.
    intros ek e He Hk Hi. specialize (Hd ek e He Hk Hi).
    pose proof (Z.div_mod (a * e_deposit e) t ltac:(lia)). pose proof (Z.mod_pos_bound (a * e_deposit e) t Ht).
    destruct (Z.ltb_spec 0 (e_deposit e)); [lia|].
    assert (e_deposit e = 0) as -> by lia. rewrite Z.mul_0_r, Z.div_0_l by lia. lia. }
  assert (HN : 0 < N).
  { destruct (Z.lt_ge_cases 0 N) as [|HN]; [assumption|exfalso].
    assert (Hz : esum k i e_deposit E <= 0).
    { rewrite <- (esum_zero k i E). apply esum_le. intros ek e He Hk Hi.
      destruct (Z.lt_ge_cases 0 (e_deposit e)) as [Hpos|]; [exfalso|assumption].
      pose proof (esum_member k i (fun e => if 0 <? e_deposit e then 1 else 0) E ek e He Hk Hi) as Hm.
      cbv beta in Hm. replace (0 <? e_deposit e) with true in Hm by lia.
      fold (depositors k i E) in Hm. fold N in Hm.
      assert (1 <= N); [|lia]. apply Hm. intros ek' e' _ _ _. destruct (0 <? e_deposit e'); lia. }
    assert (0 < t * a) by (apply Z.mul_pos_pos; lia).
    assert (a * esum k i e_deposit E <= 0) by (apply Z.mul_nonneg_nonpos; lia). lia. }
  rewrite <- Hsum in Hle. clear - Hle HN Ht.
  assert (t * (a - F - N) < 0) by lia.
  destruct (Z.lt_ge_cases (a - F - N) 0); [lia|]. assert (0 <= t * (a - F - N)) by (apply Z.mul_nonneg_nonneg; lia).
  lia.
Qed.

(** As long as no escrow of the registry has been closed after the end (the open escrows hold all
    deposits of the registry), the final entitlements add up to all tokens sold, up to less than
    one unit per depositor and release part. *)
Theorem C33_dust w k p i r :
  reachable w -> w_presales w !! k = Some p -> p_regs p !! i = Some r ->
  r_deposit r = esum k i e_deposit (w_escrows w) ->
  let all := esum k i (fun e => final p r (e_deposit e)) (w_escrows w) in
  all <= sold p r /\
  (0 < r_deposit r -> sold p r <= all + 2 * (depositors k i (w_escrows w) - 1)).
Proof.
  intros Hw Hp Hr Hopen all. pose proof (reachable_inv _ Hw) as Hi.
  pose proof (i_presales _ Hi _ _ Hp) as Hok. pose proof (q_cfg _ _ _ Hok) as Hc.
  pose proof (q_acct _ _ _ Hok) as Ha.
  destruct (b_nonneg _ _ _ (a_books _ _ _ _ Ha) _ _ Hr) as (Hd0 & _).
  destruct (parts_range _ _ _ _ Hc Hr Hd0) as (HI & HV & Hs).
  assert (Hsplit : all = esum k i (fun e => imm_part p r * e_deposit e / r_deposit r) (w_escrows w)
                      + esum k i (fun e => vest_part p r * e_deposit e / r_deposit r) (w_escrows w)).
  { unfold all, final. rewrite esum_add. reflexivity. }
  assert (Hde : forall ek e, w_escrows w !! ek = Some e -> e_presale e = k -> e_idx e = Z.of_nat i -> 0 <= e_deposit e).
  { intros ek e He Hk _. apply (s_deposit _ _ _ _ _ (a_esc _ _ _ _ Ha _ _ He Hk)). }
  split.
  - assert (Hup : forall x, 0 <= x -> esum k i (fun e => x * e_deposit e / r_deposit r) (w_escrows w) <= x).
    { intros x Hx. pose proof (esum_floor k i x (r_deposit r) e_deposit (w_escrows w) Hd0) as Hf.
      rewrite (esum_ext k i _ (fun e => e_deposit e * x / r_deposit r)) by (intros; f_equal; lia).
      rewrite <- Hopen in Hf. etransitivity; [exact Hf|].
      destruct (Z.eq_dec (r_deposit r) 0) as [->|]; [rewrite div_0_den; assumption|].
      rewrite Z.mul_comm, Z.div_mul by assumption. lia. }
    pose proof (Hup (imm_part p r) ltac:(lia)). pose proof (Hup (vest_part p r) ltac:(lia)). lia.
  - intros Hpos.
    assert (HN : 1 <= depositors k i (w_escrows w)).
    { destruct (floor_dust k i 1 (r_deposit r) (w_escrows w) Hpos ltac:(lia) Hde) as [|Hf]; [lia|discriminate|].
      assert (esum k i (fun e => 1 * e_deposit e / r_deposit r) (w_escrows w) <= 1); [|lia].
      pose proof (esum_floor k i 1 (r_deposit r) e_deposit (w_escrows w) Hd0) as Hf2.
      rewrite (esum_ext k i _ (fun e => e_deposit e * 1 / r_deposit r)) by (intros; f_equal; lia).
      rewrite <- Hopen in Hf2. rewrite Z.mul_1_r, Z.div_same in Hf2 by lia. assumption. }
    pose proof (floor_dust k i (imm_part p r) (r_deposit r) (w_escrows w) Hpos ltac:(lia) Hde ltac:(lia)) as H1.
    pose proof (floor_dust k i (vest_part p r) (r_deposit r) (w_escrows w) Hpos ltac:(lia) Hde ltac:(lia)) as H2.
    assert (Hnn : forall x, 0 <= x -> 0 <= esum k i (fun e => x * e_deposit e / r_deposit r) (w_escrows w)).
    { intros x Hx. apply esum_nonneg. intros ek e He Hk Hj. apply fl_nonneg; [assumption| |lia]. eauto. }
    pose proof (Hnn (imm_part p r) ltac:(lia)). pose proof (Hnn (vest_part p r) ltac:(lia)). lia.
Qed.
End WithCrypto.

(** Non-vacuity of the statements about reachable states. *)
#[local] Existing Instance toy.
(** A deposit of 800 with a fee of 1% pays 809 into the vault; the funding of 5700 base tokens pays
    the 2% transfer fee on top. *)
Example C24_example :
  bal w_pr_open (PQuoteVault k1) = 1567 /\ bal w_pr_open (PBaseVault k1) = 5700 /\
  bal w_pr_open creator_b = 100000 - 5817 /\ tok_fee (plain Token2022 (Some (mkFee 200 1000000))) 5817 = 117.
Proof. vm_compute. auto. Qed.
(** Inside the vesting period, with the immediate part and part of the vested part released. *)
Example C20_example : exists p e r, w_presales w_pr_over !! k1 = Some p /\
  w_escrows w_pr_over !! esc alice 0 = Some e /\ p_regs p !! Z.to_nat (e_idx e) = Some r /\
  p_end p + p_lock p <= w_now w_pr_over < p_ve p /\
  entitled p r (e_deposit e) 1999 = 0 /\
  0 < entitled p r (e_deposit e) 2000 < entitled p r (e_deposit e) (w_now w_pr_over) /\
  entitled p r (e_deposit e) (w_now w_pr_over) < final p r (e_deposit e).
Proof.
  eexists _, _, _. split; [vm_compute; reflexivity|]. split; [vm_compute; reflexivity|].
  split; [vm_compute; reflexivity|]. vm_compute. repeat split; congruence.
Qed.
(** Two buyers at a price of 2.5: 319 tokens for a deposit of 798 and 80 for 200. *)
Example C21_example : exists p e r, w_presales w_fx_paid !! k1 = Some p /\
  w_escrows w_fx_paid !! esc alice 0 = Some e /\ p_regs p !! Z.to_nat (e_idx e) = Some r /\ p_mode p = 0 /\
  p_min_cap p <= p_deposit p /\ lifetime (base_out (esc alice 0)) genesis fx_paid = e_claimed e /\ 0 < e_claimed e /\
  (2 * e_deposit e, 5 * e_claimed e) = (1600, 1595).
Proof.
  eexists _, _, _. split; [vm_compute; reflexivity|]. split; [vm_compute; reflexivity|].
  split; [vm_compute; reflexivity|]. vm_compute. repeat split; congruence.
Qed.
(** The two buyers of registry 0 together get 4998 or 4999 of the 5000 tokens sold. *)
Example C33_example : exists p r, w_presales w_pr_over !! k1 = Some p /\ p_regs p !! 0%nat = Some r /\
  r_deposit r = esum k1 0 e_deposit (w_escrows w_pr_over) /\ 0 < r_deposit r /\
  depositors k1 0 (w_escrows w_pr_over) = 2 /\ sold p r = 5000 /\
  esum k1 0 (fun e => final p r (e_deposit e)) (w_escrows w_pr_over) = 4998.
Proof.
  eexists _, _. split; [vm_compute; reflexivity|]. split; [vm_compute; reflexivity|].
  vm_compute. repeat split; congruence.
Qed.
