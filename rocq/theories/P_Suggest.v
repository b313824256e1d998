(** C80, C81: the repository's own property tests of the fixed price arithmetic
    (fixed_price_presale.rs:425-512), for all inputs instead of sampled ones. *)
From Coq Require Import Lia.
From Verif Require Import Base Math State Handlers Tactics Spec Arith P_Arith.

(** * Specification, free of the model's helpers *)

(** Quotient rounded up: the least [n] with [a <= n * b]. *)
Definition up (a b : Z) : Z := - ((- a) / b).

(** Tokens that [a] quote lamports buy at price [q / 2^64], and what [t] tokens cost. *)
Definition buys (q a : Z) : Z := a * 2 ^ 64 / q.
Definition costs (q t : Z) : Z := up (t * q) (2 ^ 64).

(** The maximum cap the tests compute for a supply: its cost, cut off at the largest [u64]. *)
Definition natural_cap (q supply : Z) : Z := Z.min (costs q supply) U64MAX.

Lemma up_spec a b : 0 < b -> a <= up a b * b < a + b.
Proof.
  intros Hb. unfold up. pose proof (Z.div_mod (- a) b ltac:(lia)).
  pose proof (Z.mod_pos_bound (- a) b Hb). nia.
Qed.
Lemma up_least a b n : 0 < b -> a <= n * b -> up a b <= n.
Proof. intros Hb Hn. pose proof (up_spec a b Hb). nia. Qed.
Lemma up_div_ceil a b : 0 < b -> up a b = div_ceil a b.
Proof.
  intros Hb. pose proof (up_spec a b Hb). pose proof (div_ceil_bounds a b Hb).
  apply Z.le_antisymm; [apply up_least|apply div_ceil_least]; lia.
Qed.
Lemma scale_pos : 0 < 2 ^ 64. Proof. reflexivity. Qed.

Lemma buys_spec q a : 0 < q -> buys q a * q <= a * 2 ^ 64 < buys q a * q + q.
Proof.
  intros Hq. unfold buys. pose proof (Z.div_mod (a * 2 ^ 64) q ltac:(lia)).
  pose proof (Z.mod_pos_bound (a * 2 ^ 64) q Hq). nia.
Qed.
Lemma costs_spec q t : t * q <= costs q t * 2 ^ 64 < t * q + 2 ^ 64.
Proof. apply up_spec. reflexivity. Qed.

(** Buying and costing are adjoint: [a] is enough for [t] tokens exactly if it covers their cost. *)
Lemma adjoint q a t : 0 < q -> t <= buys q a <-> costs q t <= a.
Proof.
  intros Hq. pose proof (buys_spec q a Hq). pose proof (costs_spec q t). generalize (2 ^ 64) scale_pos. intros S HS.
  split; intros Hle.
  - unfold costs. apply up_least; [reflexivity|]. nia.
  - unfold buys. apply Z.div_le_lower_bound; [lia|]. revert H0. nia.
Qed.

Lemma suggest_eq q a :
  0 < q -> 0 <= a <= U64MAX ->
  calculate_quote_token_without_surplus q a = Ok (costs q (buys q a)).
Proof.
  intros Hq Ha. destruct (without_surplus_ok q a Hq Ha) as [-> _]. f_equal.
  unfold costs. rewrite up_div_ceil by reflexivity. reflexivity.
Qed.

Lemma suggest_le q a : 0 < q -> costs q (buys q a) <= a.
Proof. intros Hq. apply adjoint; [assumption|lia]. Qed.
Lemma costs_mono q s t : 0 < q -> s <= t -> costs q s <= costs q t.
Proof.
  intros Hq Hst. unfold costs. apply up_least; [reflexivity|].
  pose proof (costs_spec q t). fold (costs q t). nia.
Qed.
Lemma costs_nonneg q t : 0 < q -> 0 <= t -> 0 <= costs q t.
Proof. intros Hq Ht. pose proof (costs_spec q t). nia. Qed.
Lemma buys_nonneg q a : 0 < q -> 0 <= a -> 0 <= buys q a.
Proof. intros Hq Ha. unfold buys. apply Z.div_pos; nia. Qed.
Lemma buys_mono q a b : 0 < q -> a <= b -> buys q a <= buys q b.
Proof. intros Hq Hab. unfold buys. apply Z.div_le_mono; nia. Qed.

(** The cost of something is its own suggestion. *)
Lemma suggest_costs q t : 0 < q -> costs q (buys q (costs q t)) = costs q t.
Proof.
  intros Hq. apply Z.le_antisymm; [apply suggest_le; assumption|].
  apply costs_mono; [assumption|]. apply adjoint; [assumption|lia].
Qed.
(** At a price of at most one, every amount is its own suggestion. *)
Lemma suggest_cheap q a : 0 < q <= 2 ^ 64 -> costs q (buys q a) = a.
Proof.
  intros [Hq Hs]. apply Z.le_antisymm; [apply suggest_le; assumption|].
  pose proof (costs_spec q (buys q a)). pose proof (buys_spec q a Hq). nia.
Qed.

(** * test_calculate_quote_token_without_surplus_prop *)

(** The test draws whole-number prices; this is for all prices, and adds that the suggestion never
    fails, buys as much as the offer did, and suggesting again changes nothing.  The last part says
    which amounts are accepted unchanged: the costs of a number of tokens. *)
Theorem C80_suggestion q a :
  0 < q -> 0 <= a <= U64MAX ->
  exists n, calculate_quote_token_without_surplus q a = Ok n /\ 0 <= n <= a /\ buys q n = buys q a /\
    calculate_quote_token_without_surplus q n = Ok n /\
    (n = a <-> exists t, 0 <= t /\ a = costs q t).
Proof.
  intros Hq Ha. exists (costs q (buys q a)).
  pose proof (suggest_le q a Hq) as Hle.
  pose proof (buys_nonneg q a Hq ltac:(lia)) as Hb.
  pose proof (costs_nonneg q _ Hq Hb) as Hn.
  split; [apply suggest_eq; assumption|]. split; [lia|]. split; [|split; [|split]].
  - apply Z.le_antisymm; [apply buys_mono; assumption|]. apply adjoint; [assumption|lia].
  - rewrite suggest_eq by lia. f_equal. apply suggest_costs. assumption.
  - intros He. exists (buys q a). auto.
  - intros (t & _ & ->). apply suggest_costs. assumption.
Qed.

(** * test_suggest_deposit_amount_on_presale_maximum_cap_prop *)

Lemma natural_cap_buys q supply :
  0 < q <= U64MAX * 2 ^ 64 -> 0 < supply -> 1 <= buys q (natural_cap q supply).
Proof.
  intros [Hq Hm] Hs. unfold natural_cap. apply Z.min_case_strong; intros _.
  - pose proof (proj2 (adjoint q (costs q supply) supply Hq) ltac:(lia)). lia.
  - unfold buys. apply Z.div_le_lower_bound; lia.
Qed.

(** The adjusted cap is what the tokens bought at the natural cap cost.  Somebody deposits one less
    than that, then the rest.  The second suggestion is either all of the rest, or zero; it is zero
    exactly if the rest does not pay for one token, which takes a price above one. *)
Theorem C80_reach_cap q supply :
  0 < q <= U64MAX * 2 ^ 64 -> 0 < supply ->
  let full := costs q (buys q (natural_cap q supply)) in
  0 < full <= natural_cap q supply /\
  exists d1 d2,
    calculate_quote_token_without_surplus q (full - 1) = Ok d1 /\
    calculate_quote_token_without_surplus q (full - d1) = Ok d2 /\
    (d2 = 0 \/ d1 + d2 = full) /\
    (d2 = 0 <-> (full - d1) * 2 ^ 64 < q) /\
    (d2 = 0 -> 2 ^ 64 < q).
Proof.
  intros Hq Hs full. destruct Hq as [Hq Hm].
  pose proof (natural_cap_buys q supply (conj Hq Hm) Hs) as Hb.
  assert (Hfull : 0 < full <= natural_cap q supply).
  { split; [|apply suggest_le; assumption].
    subst full. pose proof (costs_spec q (buys q (natural_cap q supply))). nia. }
  assert (Hcap : natural_cap q supply <= U64MAX) by apply Z.le_min_r.
  split; [assumption|].
  set (t := buys q (natural_cap q supply)) in *.
  set (d1 := costs q (buys q (full - 1))).
  assert (Hd1 : 0 <= d1 <= full - 1).
  { split; [|apply suggest_le; assumption].
    apply costs_nonneg; [assumption|]. apply buys_nonneg; lia. }
  exists d1, (costs q (buys q (full - d1))).
  split; [apply suggest_eq; lia|]. split; [apply suggest_eq; lia|].
  set (r := full - d1). set (d2 := costs q (buys q r)).
  assert (Hzero : d2 = 0 <-> r * 2 ^ 64 < q).
  { pose proof (buys_spec q r Hq) as Hbr. pose proof (costs_spec q (buys q r)) as Hcr. fold d2 in Hcr.
    pose proof (buys_nonneg q r Hq ltac:(subst r; lia)) as Hbn.
    split; intros Hx.
    - assert (buys q r = 0) as Hb0 by (apply Z.le_antisymm; nia). rewrite Hb0 in Hbr. lia.
    - assert (buys q r = 0) as Hb0 by (apply Z.le_antisymm; nia). rewrite Hb0 in Hcr. lia. }
  assert (Hcheap : q <= 2 ^ 64 -> d2 = r) by (intros; apply suggest_cheap; lia).
  split; [|split; [assumption|]].
  - destruct (Z_le_gt_dec q (2 ^ 64)) as [Hc|Hc]; [right; rewrite Hcheap by assumption; subst r; lia|].
    destruct (Z.eq_dec d2 0) as [|Hnz]; [left; assumption|right].
    assert (Hr : q <= r * 2 ^ 64) by lia.
    (* dearer than one: one less pays for one token less *)
    assert (Hless : buys q (full - 1) = t - 1).
    { apply Z.le_antisymm.
      - cut (~ t <= buys q (full - 1)); [lia|]. rewrite adjoint by assumption. fold full. lia.
      - apply adjoint; [assumption|].
        pose proof (costs_spec q (t - 1)). pose proof (costs_spec q t) as Ht. fold full in Ht. nia. }
    assert (Hone : buys q r = 1).
    { apply Z.le_antisymm; [|unfold buys; apply Z.div_le_lower_bound; lia].
      pose proof (costs_spec q (t - 1)) as H1. rewrite <- Hless in H1. fold d1 in H1. rewrite Hless in H1.
      pose proof (costs_spec q t) as Ht. fold full in Ht.
      pose proof (buys_spec q r Hq). subst r. nia. }
    pose proof (costs_spec q (t - 1)) as H1. rewrite <- Hless in H1. fold d1 in H1. rewrite Hless in H1.
    pose proof (costs_spec q t) as Ht. fold full in Ht.
    pose proof (costs_spec q 1) as Hc1. subst d2. rewrite Hone. subst r. nia.
  - intros Hz. cut (~ q <= 2 ^ 64); [lia|]. intros Hc. specialize (Hcheap Hc). subst r. lia.
Qed.

(** The test goes on to claim that the natural cap buys exactly the supply.  At prices of at least
    one that holds ... *)
Theorem C81_cap_buys_supply q supply :
  2 ^ 64 <= q -> 0 <= supply -> costs q supply <= U64MAX ->
  buys q (natural_cap q supply) = supply /\
  costs q (buys q (natural_cap q supply)) = natural_cap q supply.
Proof.
  intros Hq Hs Hc. unfold natural_cap. rewrite Z.min_l by assumption.
  assert (He : buys q (costs q supply) = supply).
  { apply Z.le_antisymm; [|apply adjoint; lia].
    pose proof (costs_spec q supply). pose proof (buys_spec q (costs q supply) ltac:(lia)). nia. }
  rewrite He. auto.
Qed.

(** ... and in general exactly if the cap does not pay for one more token. *)
Theorem C81_cap_buys_supply_iff q supply :
  0 < q -> 0 <= supply -> costs q supply <= U64MAX ->
  (buys q (natural_cap q supply) = supply <-> costs q supply < costs q (supply + 1)).
Proof.
  intros Hq Hs Hc. unfold natural_cap. rewrite Z.min_l by assumption.
  pose proof (proj2 (adjoint q (costs q supply) supply Hq) ltac:(lia)) as H1.
  pose proof (adjoint q (costs q supply) (supply + 1) Hq) as H2. lia.
Qed.

(** The literal claim of the test, within the ranges the test draws from, is false: at a third of a
    quote lamport per token, a supply of 100 costs 34, and 34 buy 102.  Uniformly drawn prices almost
    never are that low, so the test does not see it. *)
Theorem C81_cap_buys_supply_refuted :
  exists q supply, 1 <= q < 2 ^ 127 /\ 100 <= supply < 100000000 /\ costs q supply < U64MAX /\
    exists d1 d2,
      let full := costs q (buys q (natural_cap q supply)) in
      calculate_quote_token_without_surplus q (full - 1) = Ok d1 /\
      calculate_quote_token_without_surplus q (full - d1) = Ok d2 /\ d2 <> 0 /\
      calculate_token_bought q (d1 + d2) = Ok 102 /\ supply = 100.
Proof.
  exists (2 ^ 64 / 3), 100.
  split; [split; vm_compute; congruence|]. split; [split; vm_compute; congruence|].
  split; [vm_compute; reflexivity|].
  exists 33, 1. cbv zeta.
  split; [vm_compute; reflexivity|]. split; [vm_compute; reflexivity|]. split; [discriminate|].
  split; vm_compute; reflexivity.
Qed.

(** What the program makes of it: a maximum cap is only accepted if it buys no more than the supply
    (ensure_enough_presale_supply).  A cap that sells all of the supply exists exactly if the supply
    costs less than one token more; if it does not, some of the supply stays unsold for ever. *)
Theorem C81_sellable q supply :
  0 < q -> 0 <= supply <= U64MAX -> costs q supply <= U64MAX ->
  ((exists cap, 0 <= cap <= U64MAX /\ ensure_enough_presale_supply q supply cap = Ok tt /\
      calculate_token_bought q cap = Ok supply)
   <-> costs q supply < costs q (supply + 1)) /\
  (costs q supply = costs q (supply + 1) ->
   ensure_enough_presale_supply q supply (costs q supply) = Err InvalidTokenPrice /\
   forall cap, 0 <= cap <= U64MAX -> ensure_enough_presale_supply q supply cap = Ok tt ->
     buys q cap < supply).
Proof.
  intros Hq Hs Hc. pose proof (costs_nonneg q supply Hq ltac:(lia)) as Hn.
  assert (Hens : forall cap, 0 <= cap <= U64MAX ->
    ensure_enough_presale_supply q supply cap = require (buys q cap <=? supply) InvalidTokenPrice).
  { intros cap Hcap. unfold ensure_enough_presale_supply.
    rewrite token_bought_ok by assumption. reflexivity. }
  assert (Hok : forall cap, 0 <= cap <= U64MAX ->
    ensure_enough_presale_supply q supply cap = Ok tt -> buys q cap <= supply).
  { intros cap Hcap. rewrite Hens by assumption. unfold require.
    destruct (buys q cap <=? supply) eqn:E; [lia|discriminate]. }
  split; [split|].
  - intros (cap & Hcap & _ & Hb). rewrite token_bought_ok in Hb by assumption. apply Ok_inj in Hb.
    change (bought q cap) with (buys q cap) in Hb.
    pose proof (adjoint q cap supply Hq). pose proof (adjoint q cap (supply + 1) Hq). lia.
  - intros Hlt. exists (costs q supply). split; [lia|].
    pose proof (proj2 (C81_cap_buys_supply_iff q supply Hq ltac:(lia) Hc) Hlt) as He.
    unfold natural_cap in He. rewrite Z.min_l in He by assumption.
    rewrite Hens by lia. rewrite token_bought_ok by lia.
    change (bought q (costs q supply)) with (buys q (costs q supply)). rewrite He.
    split; [|reflexivity]. apply require_true. lia.
  - intros He.
    assert (Hmore : forall cap, costs q supply <= cap -> supply + 1 <= buys q cap).
    { intros cap Hcap. apply adjoint; lia. }
    split.
    + rewrite Hens by lia. specialize (Hmore (costs q supply) ltac:(lia)). unfold require.
      destruct (_ <=? _) eqn:E; [lia|reflexivity].
    + intros cap Hcap Ho. specialize (Hok cap Hcap Ho).
      cut (~ costs q supply <= cap); [|intros Hx; specialize (Hmore cap Hx); lia].
      intros Hx. pose proof (adjoint q cap supply Hq). lia.
Qed.

(** * test_presale_min_max_gap_completion_prop *)

(** The minimum cap is the cost of one token less than the maximum cap buys, the smallest gap the
    program lets pass.  A deposit of the minimum is accepted as it is; another one fits. *)
Theorem C80_gap q cap :
  0 < q -> 0 <= cap <= U64MAX -> 1 <= buys q cap ->
  let low := costs q (buys q cap - 1) in
  calculate_quote_token_without_surplus q low = Ok low /\
  exists d2, calculate_quote_token_without_surplus q (cap - low) = Ok d2 /\ 0 <= d2 /\
    low <= low + d2 <= cap.
Proof.
  intros Hq Hcap Hb low.
  assert (Hlow : 0 <= low <= cap).
  { split; [apply costs_nonneg; lia|]. apply adjoint; lia. }
  split.
  - rewrite suggest_eq by lia. f_equal. apply suggest_costs. assumption.
  - exists (costs q (buys q (cap - low))). split; [apply suggest_eq; lia|].
    pose proof (suggest_le q (cap - low) Hq).
    pose proof (costs_nonneg q _ Hq (buys_nonneg q (cap - low) Hq ltac:(lia))). lia.
Qed.

(** Price 3 / 2, supply 100: the cap is 150.  Depositing 149 takes 149, and the last one buys
    nothing: the sale stays open one lamport short, with one token left. *)
Example C80_example :
  let q := 3 * 2 ^ 63 in
  (natural_cap q 100, buys q 150, calculate_quote_token_without_surplus q 149,
   calculate_quote_token_without_surplus q 1, calculate_quote_token_without_surplus q 148,
   costs q 100, costs q 101)
  = (150, 100, Ok 149, Ok 0, Ok 147, 150, 152).
Proof. vm_compute. reflexivity. Qed.

(** A third per token: 33 and 34 are the choices for a supply of 100; one buys 98, the other is rejected. *)
Example C81_example :
  let q := 2 ^ 64 / 3 + 1 in
  (costs q 100, costs q 101, buys q 33, ensure_enough_presale_supply q 100 33,
   ensure_enough_presale_supply q 100 34)
  = (34, 34, 98, Ok tt, Err InvalidTokenPrice).
Proof. vm_compute. reflexivity. Qed.
