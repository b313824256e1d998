(** C42 to C46: statements one might expect of the program that do not hold.  Each is refuted by a
    concrete history, next to the strongest variant that does hold. *)
From Coq Require Import Lia.
From Verif Require Import Base Math State Handlers Token World Instr Exec Tactics Sums Spec Arith
  TokenFacts Inv Acct Funs Steps Init Preserve Reach Did Trans Flow Scenario P_Solvency P_History
  P_Payout P_Arith P_Deposit P_Config.

(** * Prices *)

Lemma bought_mono q a b : 0 < q -> a <= b -> bought q a <= bought q b.
Proof.
  intros Hq Hab. unfold bought. apply Z.div_le_mono; [assumption|].
  apply Z.mul_le_mono_nonneg_r; [unfold scale; lia|assumption].
Qed.

(** [cost] is the least amount that buys [n] tokens. *)
Lemma cost_least q n a : 0 < q -> cost q n <= a <-> n <= bought q a.
Proof.
  intros Hq. rewrite cost_ceil. assert (Hs : 0 < scale) by reflexivity. split.
  - intros Hc. unfold bought. apply Z.div_le_lower_bound; [assumption|].
    pose proof (div_ceil_bounds (n * q) scale Hs). set (s := scale) in *. clearbody s.
    assert (s * div_ceil (n * q) s <= s * a) by (apply Z.mul_le_mono_nonneg_l; lia). lia.
  - intros Hb. apply div_ceil_least; [assumption|]. unfold bought in Hb.
    pose proof (Z.mul_div_le (a * scale) q Hq). set (s := scale) in *. clearbody s.
    assert (q * n <= q * (a * s / q)) by (apply Z.mul_le_mono_nonneg_l; lia). lia.
Qed.

Lemma bought_cost q n : 0 < q -> n <= bought q (cost q n).
Proof. intros Hq. apply cost_least; [assumption|]. reflexivity. Qed.

Lemma bought_0 q : bought q 0 = 0.
Proof. unfold bought. rewrite Z.mul_0_l. apply Zdiv_0_l. Qed.

Lemma bought_add q a b : 0 < q -> bought q a + bought q b <= bought q (a + b).
Proof.
  intros Hq. unfold bought. apply Z.div_le_lower_bound; [assumption|].
  pose proof (Z.mul_div_le (a * scale) q Hq). pose proof (Z.mul_div_le (b * scale) q Hq). lia.
Qed.

Lemma cost_mono q n m : 0 < q -> n <= m -> cost q n <= cost q m.
Proof. intros Hq Hn. apply cost_least; [assumption|]. etransitivity; [exact Hn|]. apply bought_cost; assumption. Qed.

(** The least amount that buys [n] tokens is taken in full. *)
Lemma takes_cost p n : p_mode p = 0 -> 0 < p_raw0 p -> takes_amount p (cost (p_raw0 p) n) (cost (p_raw0 p) n).
Proof.
  intros Hm Hq. unfold takes_amount. rewrite Hm. cbn [Z.eqb]. split; [lia|]. split; [reflexivity|].
  intros b Hb. apply cost_least; [assumption|]. etransitivity; [|exact Hb]. apply bought_cost; assumption.
Qed.

(** The settlement bounds need the registry to have all it sold in stock. *)
Definition in_stock (p : presale) (r : registry) : Prop := bought (p_raw0 p) (r_deposit r) <= r_supply r.

(** [shape] of a registry: what its terms fix. *)
Lemma terms_regs p p' i r' :
  terms_of p' = terms_of p -> p_regs p' !! i = Some r' ->
  exists r, p_regs p !! i = Some r /\ r_supply r' = r_supply r /\ r_min_cap r' = r_min_cap r /\
    r_max_cap r' = r_max_cap r.
Proof.
  unfold terms_of. intros Ht Hr. injection Ht. intros Hl _ _ _ _ _ _ _ _ _ _ _ _ _ _ _ _ _ _ _ _ _ _ _.
  assert (Hm : map (fun r => (r_supply r, r_min_cap r, r_max_cap r, r_fee_bps r)) (p_regs p') !! i =
    Some (r_supply r', r_min_cap r', r_max_cap r', r_fee_bps r')).
  { rewrite list_lookup_fmap, Hr. reflexivity. }
  rewrite Hl, list_lookup_fmap in Hm. destruct (p_regs p !! i) as [r|]; [|discriminate]. cbn in Hm.
  injection Hm as E1 E2 E3 _. exists r. auto.
Qed.

Lemma deposits_regs p p' i r' :
  deposits_of p' = deposits_of p -> p_regs p' !! i = Some r' ->
  exists r, p_regs p !! i = Some r /\ r_deposit r' = r_deposit r.
Proof.
  unfold deposits_of. intros Ht Hr. injection Ht. intros Hl _ _.
  assert (Hm : map (fun r => (r_deposit r, r_fee r)) (p_regs p') !! i = Some (r_deposit r', r_fee r')).
  { rewrite list_lookup_fmap, Hr. reflexivity. }
  rewrite Hl, list_lookup_fmap in Hm. destruct (p_regs p !! i) as [r|]; [|discriminate]. cbn in Hm.
  injection Hm as E1 _. exists r. auto.
Qed.

Section WithCrypto.
Context `{Crypto}.

Lemma reachable_run w l : reachable w -> reachable (run w l).
Proof. intros [l0 ->]. exists (l0 ++ l). symmetry. apply run_app. Qed.

(** With one registry the totals of the presale are those of the registry. *)
Lemma one_registry k p E r :
  cfg k p -> books k p E -> p_nreg p = 1 -> p_regs p !! 0%nat = Some r ->
  r_deposit r = p_deposit p /\ r_supply r = p_supply p.
Proof.
  intros Hc Hb Hn Hr. rewrite (b_deposit _ _ _ Hb), (c_supply _ _ Hc).
  assert (Hrest : forall i x, p_regs p !! S i = Some x -> x = reg_zero).
  { intros i x Hx. destruct (c_regs _ _ Hc _ _ Hx) as [[Hl _]|[_ Hl]]; [lia|assumption]. }
  destruct (p_regs p) as [|r0 rs]; [discriminate|]. cbn in Hr. injection Hr as ->.
  assert (Hz : forall f : registry -> Z, f reg_zero = 0 -> lsum f rs = 0).
  { intros f Hf. rewrite <- (lsum_zero rs). apply lsum_ext. intros x Hx.
    apply elem_of_list_lookup in Hx as [i Hx]. rewrite (Hrest i x Hx). exact Hf. }
  cbn. rewrite !Hz by reflexivity. lia.
Qed.

(** A presale without withdrawals in which every deposit is rejected keeps its totals for ever. *)
Lemma frozen w k p l :
  reachable w -> w_presales w !! k = Some p -> ~ withdrawals_on p ->
  (forall w1 p1 qv qm ek pt payer pr mx h w2 fx, reachable w1 -> w_presales w1 !! k = Some p1 ->
     terms_of p1 = terms_of p -> deposits_of p1 = deposits_of p ->
     step w1 (IDeposit k qv qm ek pt payer pr mx h) <> Ok (w2, fx)) ->
  exists p', w_presales (run w l) !! k = Some p' /\ terms_of p' = terms_of p /\ deposits_of p' = deposits_of p.
Proof.
  intros Hw Hp Hoff Hblk. induction l as [|o l IH] using rev_ind.
  { exists p. auto. }
  rewrite run_app. change (run (run w l) [o]) with (exec (run w l) o).
  destruct IH as (p1 & Hp1 & Ht1 & Hd1).
  pose proof (reachable_run _ l Hw) as Hw1. pose proof (reachable_inv _ Hw1) as Hi1.
  unfold exec. destruct (step (run w l) o) as [[w2 fx]|] eqn:Hs; [|exists p1; auto].
  cbn [fst]. destruct (presale_moves _ _ _ _ _ _ Hi1 Hs Hp1) as (p2 & Hp2 & Hm).
  exists p2. split; [assumption|]. split; [rewrite (mv_terms _ _ _ Hm); assumption|].
  rewrite <- Hd1. clear Hm.
  destruct (does_presale _ _ _ _ k (step_does _ _ _ _ Hi1 Hs)) as
    [Hn|base bm0 qm0 pt cr pay bp qp a h0 p0 bm qm gross w1 lx Ho D Hnone Hn|owner idx cap p0 r Ho D Hn
    |qv qm ek pt payer pr mx h0 p0 p3 e r m amount fee gross w1 lx Ho D Hn
    |qv qm ek ot owner pr mx h0 p0 e r m amount w1 lx Ho D Hn
    |qv qm ek ot owner pr h0 p0 e r m w1 lx Ho D Hn|bv bm ek ot owner pr h0 p0 e r m w1 lx Ho D Hn
    |ek owner rr p0 e r Ho D Hn|ot owner pr h0 p0 m w1 lx Ho D Hn|qv qm rcv owner pr h0 p0 m w1 lx Ho D Hn
    |bv bm ct pr h0 p0 m w1 lx Ho D Hn].
  1: congruence.
  1: congruence.
  2: { exfalso. subst o. eapply Hblk; eassumption. }
  2: { exfalso. destruct D. same_p Hp1. apply Hoff. unfold withdrawals_on in *.
       unfold terms_of in Ht1. injection Ht1 as. destruct dw_mode as [?|[? ?]]; [left|right]; try split; congruence. }
  all: rewrite Hp2 in Hn; apply Some_inj in Hn; subst p2; destruct D; same_p Hp1; same_regs.
Qed.

(** * C42: reaching the minimum *)

(** Once the gap to the maximum cap buys no token and nobody can withdraw, the totals are final. *)
Lemma gap_too_small w k p l :
  reachable w -> w_presales w !! k = Some p -> p_mode p = 0 -> ~ withdrawals_on p ->
  bought (p_raw0 p) (p_max_cap p - p_deposit p) = 0 ->
  exists p', w_presales (run w l) !! k = Some p' /\ terms_of p' = terms_of p /\ p_deposit p' = p_deposit p.
Proof.
  intros Hw Hp Hm Hoff Hgap.
  destruct (frozen w k p l Hw Hp Hoff) as (p' & Hp' & Ht & Hd).
  - intros w1 p1 qv qm ek pt payer pr mx h0 w2 fx Hw1 Hp1 Ht Hd Hs.
    destruct (C39_deposit_exact _ _ _ _ _ _ _ _ _ _ _ _ Hw1 Hs)
      as (p0 & e & r & a & f & Hp0 & He & Hek & Hr & Htk & Ha & _).
    assert (p0 = p1) as -> by congruence.
    unfold terms_of in Ht. injection Ht as. unfold deposits_of in Hd. injection Hd as.
    assert (Hm1 : p_mode p1 = 0) by congruence.
    assert (Hq : p_raw0 p1 = p_raw0 p) by congruence.
    pose proof (q_cfg _ _ _ (i_presales _ (reachable_inv _ Hw) _ _ Hp)) as Hc.
    destruct (c_price _ _ Hc Hm) as (Hq0 & _).
    unfold takes_amount in Htk. rewrite Hm1 in Htk. cbn [Z.eqb] in Htk. destruct Htk as (T1 & T2 & T3).
    rewrite Hq in *.
    assert (Hle : Z.min (room p1 r e) mx <= p_max_cap p - p_deposit p).
    { unfold room. rewrite Hm1. cbn [Z.eqb Pos.eqb]. replace (p_max_cap p1) with (p_max_cap p) by congruence.
      replace (p_deposit p1) with (p_deposit p) by congruence. lia. }
    pose proof (bought_mono (p_raw0 p) _ _ ltac:(lia) Hle) as Hb.
    specialize (T3 0). rewrite bought_0 in T3. lia.
  - exists p'. split; [assumption|]. split; [assumption|]. unfold deposits_of in Hd. congruence.
Qed.

(** The gap between minimum and maximum cap leaves room for one more token at any deposit total
    below the minimum. *)
Definition wide_gap (p : presale) : Prop := p_min_cap p + cost (p_raw0 p) 1 - 1 <= p_max_cap p.

(** With such a gap a presale with one registry never gets stuck below its minimum: any escrow
    whose own limit still buys a token can buy one. *)
Theorem C42_wide_gap_never_stuck w k p ek e r :
  reachable w -> w_presales w !! k = Some p -> w_escrows w !! ek = Some e -> e_presale e = k ->
  p_regs p !! Z.to_nat (e_idx e) = Some r -> p_mode p = 0 -> p_nreg p = 1 -> wide_gap p ->
  p_deposit p < p_min_cap p -> 0 < bought (p_raw0 p) (e_cap e - e_deposit e) ->
  cost (p_raw0 p) 1 <= room p r e /\ takes_amount p (cost (p_raw0 p) 1) (cost (p_raw0 p) 1) /\
  0 < cost (p_raw0 p) 1.
Proof.
  intros Hw Hp He Hk Hr Hm Hn Hgap Hlow Hown. pose proof (reachable_inv _ Hw) as Hi.
  pose proof (at_intro _ _ _ _ _ _ Hi Hp He Hk Hr) as [Hok Hc Ha Hb Hkp Hs Hra Hre].
  destruct (c_price _ _ Hc Hm) as (Hq & Hsup & _).
  destruct (s_idx _ _ _ _ _ Hs) as [Hi0 Hi1].
  assert (Hz : Z.to_nat (e_idx e) = 0%nat) by lia. rewrite Hz in Hr.
  destruct (one_registry _ _ _ _ Hc Hb Hn Hr) as [Hd Hsu].
  unfold wide_gap in Hgap.
  assert (Hfit : cost (p_raw0 p) 1 <= p_max_cap p - p_deposit p) by lia.
  apply cost_least in Hfit as Hf1; [|lia].
  pose proof (bought_add (p_raw0 p) (p_deposit p) (p_max_cap p - p_deposit p) ltac:(lia)) as Hadd.
  replace (p_deposit p + (p_max_cap p - p_deposit p)) with (p_max_cap p) in Hadd by lia.
  assert (Hso : sold p r <= bought (p_raw0 p) (p_deposit p)).
  { unfold sold. rewrite Hm, Hd. cbn [Z.eqb]. destruct (Z.eqb_spec (p_deposit p) 0) as [->|_]; [rewrite bought_0; lia|lia]. }
  split; [|split].
  - unfold room. rewrite Hm. cbn [Z.eqb Pos.eqb].
    assert (cost (p_raw0 p) 1 <= e_cap e - e_deposit e) by (apply cost_least; lia).
    assert (cost (p_raw0 p) 1 <= cost (p_raw0 p) (r_supply r - sold p r)) by (apply cost_mono; lia). lia.
  - apply takes_cost; [assumption|lia].
  - destruct (Z.lt_ge_cases 0 (cost (p_raw0 p) 1)) as [|Hc0]; [assumption|].
    apply cost_least in Hc0; [|lia]. rewrite bought_0 in Hc0. lia.
Qed.

(** * C43: a first deposit *)

(** A registry whose stock is too expensive to compute with takes no first deposit. *)
Lemma unpriceable w k p qv qm ek pt payer pr mx h w' l :
  reachable w -> w_presales w !! k = Some p -> p_mode p = 0 -> p_deposit p = 0 ->
  (forall i r, p_regs p !! i = Some r -> Z.of_nat i < p_nreg p -> U64MAX < cost (p_raw0 p) (r_supply r)) ->
  step w (IDeposit k qv qm ek pt payer pr mx h) <> Ok (w', l).
Proof.
  intros Hw Hp Hm Hz Hbig Hs. pose proof (reachable_inv _ Hw) as Hi. cbn [step] in Hs.
  apply deposit_inv in Hs as
    (p' & e & r & m & hh & quota & amount & fee & p2 & gross & hooks & rest & w1 & lx &
     Hmx & Hnow & Hp' & Hqv & Hqm & Hmm & He & Hk & Hpay & Hop & Hhh & Hquota & Hpos & _ & _ & Hr & _).
  assert (p' = p) as -> by congruence.
  pose proof (at_intro _ _ _ _ _ _ Hi Hp He Hk Hr) as [Hok Hc Ha Hb Hkp Hs Hra Hre].
  destruct (s_idx _ _ _ _ _ Hs) as [Hi0 Hi1].
  specialize (Hbig _ _ Hr ltac:(lia)).
  assert (Hd : r_deposit r = 0).
  { pose proof (b_deposit _ _ _ Hb) as Hbd. destruct (b_nonneg _ _ _ Hb _ _ Hr) as (Hd0 & _).
    assert (r_deposit r <= lsum r_deposit (p_regs p)); [|lia].
    apply (lsum_member r_deposit _ _ _ Hr). intros y Hy. apply elem_of_list_lookup in Hy as [j Hy].
    apply (b_nonneg _ _ _ Hb _ _ Hy). }
  destruct (handler_mode _ _ Hhh) as [[_ ->]|[[Hm' _]|[Hm' _]]]; [|lia..].
  cbn [handler_remaining_quota] in Hquota. unfold fixed_remaining_quota in Hquota.
  bi Hquota rq Hrq. bi Hquota r' Hr'. apply get_reg_Ok in Hr'. assert (r' = r) as -> by congruence.
  rewrite Hd in Hquota. cbn [Z.ltb Z.compare rbind] in Hquota.
  pose proof (reg_supply_nonneg _ _ _ _ Hc Hr) as Hsn.
  destruct (c_price _ _ Hc Hm) as (Hq & _).
  destruct (Z.eqb_spec 0 (r_supply r)) as [Hs0|_].
  { rewrite <- Hs0 in Hbig. assert (cost (p_raw0 p) 0 <= 0) by (apply cost_least; [lia|rewrite bought_0; lia]). num. lia. }
  bi Hquota x Hx. apply safe_sub_Ok in Hx as [-> _]. rewrite Z.sub_0_r in Hquota.
  bi Hquota y Hy. apply safe_mul_Ok in Hy as [-> _].
  bi Hquota z Hzz. apply cast64_Ok in Hzz as [-> Hle]. rewrite cost_ceil in Hbig. change SCALE_MULTIPLIER with scale in Hle. lia.
Qed.

Lemma unpriceable_forever w k p l :
  reachable w -> w_presales w !! k = Some p -> p_mode p = 0 -> p_deposit p = 0 -> ~ withdrawals_on p ->
  (forall i r, p_regs p !! i = Some r -> Z.of_nat i < p_nreg p -> U64MAX < cost (p_raw0 p) (r_supply r)) ->
  exists p', w_presales (run w l) !! k = Some p' /\ terms_of p' = terms_of p /\ p_deposit p' = 0.
Proof.
  intros Hw Hp Hm Hz Hoff Hbig.
  destruct (frozen w k p l Hw Hp Hoff) as (p' & Hp' & Ht & Hd).
  - intros w1 p1 qv qm ek pt payer pr mx h0 w2 fx Hw1 Hp1 Ht Hd.
    pose proof Ht as Ht'. unfold terms_of in Ht'. injection Ht' as. unfold deposits_of in Hd. injection Hd as.
    eapply unpriceable; [exact Hw1|exact Hp1|congruence|congruence|].
    intros i r Hr Hlt. destruct (terms_regs _ _ _ _ Ht Hr) as (r0 & Hr0 & -> & _).
    replace (p_raw0 p1) with (p_raw0 p) by congruence. apply (Hbig i r0 Hr0). congruence.
  - exists p'. split; [assumption|]. split; [assumption|]. unfold deposits_of in Hd. congruence.
Qed.

(** Buyer limits between which no whole number of tokens has its price take no deposit. *)
Lemma no_price_between w k p qv qm ek pt payer pr mx h w' l :
  reachable w -> w_presales w !! k = Some p -> p_mode p = 0 -> p_deposit p = 0 ->
  (forall i r n, p_regs p !! i = Some r -> Z.of_nat i < p_nreg p ->
     r_min_cap r <= cost (p_raw0 p) n <= r_max_cap r -> False) ->
  step w (IDeposit k qv qm ek pt payer pr mx h) <> Ok (w', l).
Proof.
  intros Hw Hp Hm Hz Hno Hs. pose proof (reachable_inv _ Hw) as Hi.
  destruct (C39_deposit_exact _ _ _ _ _ _ _ _ _ _ _ _ Hw Hs)
      as (p0 & e & r & a & f & Hp0 & He & Hek & Hr & Htk & Ha & _ & _ & _ & _ & Hlim).
  assert (p0 = p) as -> by congruence.
  pose proof (at_intro _ _ _ _ _ _ Hi Hp He Hek Hr) as [Hok Hc Hacc Hb Hkp Hes Hra Hre].
  destruct (s_idx _ _ _ _ _ Hes) as [Hi0 Hi1]. destruct (s_reg _ _ _ _ _ Hes r Hr) as (Hcap & _ & _).
  destruct (c_price _ _ Hc Hm) as (Hq & _).
  assert (Hd : e_deposit e = 0).
  { pose proof (b_deposit _ _ _ Hb) as Hbd.
    assert (r_deposit r <= lsum r_deposit (p_regs p)).
    { apply (lsum_member r_deposit _ _ _ Hr). intros y Hy. apply elem_of_list_lookup in Hy as [j Hy].
      apply (b_nonneg _ _ _ Hb _ _ Hy). }
    pose proof (s_deposit _ _ _ _ _ Hes). lia. }
  unfold takes_amount in Htk. rewrite Hm in Htk. cbn [Z.eqb] in Htk. destruct Htk as (T1 & T2 & T3).
  set (n := bought (p_raw0 p) (Z.min (room p r e) mx)) in *.
  assert (Hcn : cost (p_raw0 p) n = a).
  { apply Z.le_antisymm; [apply cost_least; lia|]. apply T3. apply bought_cost. lia. }
  apply (Hno _ r n Hr ltac:(lia)). lia.
Qed.

Lemma no_price_between_forever w k p l :
  reachable w -> w_presales w !! k = Some p -> p_mode p = 0 -> p_deposit p = 0 -> ~ withdrawals_on p ->
  (forall i r n, p_regs p !! i = Some r -> Z.of_nat i < p_nreg p ->
     r_min_cap r <= cost (p_raw0 p) n <= r_max_cap r -> False) ->
  exists p', w_presales (run w l) !! k = Some p' /\ terms_of p' = terms_of p /\ p_deposit p' = 0.
Proof.
  intros Hw Hp Hm Hz Hoff Hno.
  destruct (frozen w k p l Hw Hp Hoff) as (p' & Hp' & Ht & Hd).
  - intros w1 p1 qv qm ek pt payer pr mx h0 w2 fx Hw1 Hp1 Ht Hd.
    pose proof Ht as Ht'. unfold terms_of in Ht'. injection Ht' as. unfold deposits_of in Hd. injection Hd as.
    eapply no_price_between; [exact Hw1|exact Hp1|congruence|congruence|].
    intros i r n Hr Hlt. destruct (terms_regs _ _ _ _ Ht Hr) as (r0 & Hr0 & _ & -> & ->).
    replace (p_raw0 p1) with (p_raw0 p) by congruence. apply (Hno i r0 n Hr0). congruence.
  - exists p'. split; [assumption|]. split; [assumption|]. unfold deposits_of in Hd. congruence.
Qed.

(** What is needed beyond acceptance: the price of the whole stock fits in 64 bits (then it stays
    computable for ever), and some number of tokens [n] costs an amount within the buyer limits.
    Then a first buyer who can pay for [n] tokens is served, for exactly their price. *)
Theorem C43_priceable_always w k p i r :
  reachable w -> w_presales w !! k = Some p -> p_regs p !! i = Some r -> p_mode p = 0 ->
  cost (p_raw0 p) (r_supply r) <= U64MAX -> stock_fits p r.
Proof.
  intros Hw Hp Hr Hm Hfit _ Hne. pose proof (reachable_inv _ Hw) as Hi.
  pose proof (i_presales _ Hi _ _ Hp) as Hok. pose proof (q_cfg _ _ _ Hok) as Hc.
  pose proof (a_books _ _ _ _ (q_acct _ _ _ Hok)) as Hb.
  destruct (c_price _ _ Hc Hm) as (Hq & _). destruct (b_nonneg _ _ _ Hb _ _ Hr) as (Hd & _).
  pose proof (sold_range _ _ _ _ Hc Hr Hd) as Hso.
  assert (Hcost : cost (p_raw0 p) (r_supply r - sold p r) <= U64MAX).
  { etransitivity; [apply cost_mono; [lia|]|exact Hfit]. lia. }
  split; [|assumption].
  rewrite cost_ceil in Hcost.
  pose proof (div_ceil_bounds ((r_supply r - sold p r) * p_raw0 p) scale ltac:(reflexivity)) as Hbd.
  etransitivity; [apply Hbd|]. etransitivity; [apply Z.mul_le_mono_nonneg_l; [discriminate|exact Hcost]|]. vm_compute. discriminate.
Qed.

Theorem C43_first_buyer_served w k p ek e r pt payer pr n h m f :
  reachable w -> w_presales w !! k = Some p -> w_escrows w !! ek = Some e -> e_presale e = k ->
  p_regs p !! Z.to_nat (e_idx e) = Some r -> open_for_deposits p (w_now w) -> p_mode p = 0 ->
  p_deposit p = 0 -> cost (p_raw0 p) (r_supply r) <= U64MAX ->
  let price := cost (p_raw0 p) n in
  0 < n <= r_supply r -> r_min_cap r <= price <= e_cap e ->
  is_wallet payer = true -> 0 <= f -> covers (r_fee_bps r) price f ->
  payable w (PQuoteVault k) (p_qmint p) pt payer pr h m (price + f) ->
  exists w' l e', step w (IDeposit k (PQuoteVault k) (p_qmint p) ek pt payer pr price h) = Ok (w', l) /\
    w_escrows w' !! ek = Some e' /\ e_deposit e' = price.
Proof.
  intros Hw Hp He Hk Hr Hop Hm Hz Hfit price Hn Hlim Hsg Hf Hcov Hpay. pose proof (reachable_inv _ Hw) as Hi.
  pose proof (at_intro _ _ _ _ _ _ Hi Hp He Hk Hr) as [Hok Hc Hacc Hb Hkp Hes Hra Hre].
  destruct (s_idx _ _ _ _ _ Hes) as [Hi0 Hi1]. destruct (s_reg _ _ _ _ _ Hes r Hr) as (Hcap & _ & _).
  destruct (c_price _ _ Hc Hm) as (Hq & _).
  assert (Hrd : r_deposit r = 0).
  { pose proof (b_deposit _ _ _ Hb) as Hbd. destruct (b_nonneg _ _ _ Hb _ _ Hr) as (Hd0 & _).
    assert (r_deposit r <= lsum r_deposit (p_regs p)); [|lia].
    apply (lsum_member r_deposit _ _ _ Hr). intros y Hy. apply elem_of_list_lookup in Hy as [j Hy].
    apply (b_nonneg _ _ _ Hb _ _ Hy). }
  assert (Hd : e_deposit e = 0) by (pose proof (s_deposit _ _ _ _ _ Hes); lia).
  assert (Hp0 : 0 < price).
  { destruct (Z.lt_ge_cases 0 price) as [|Hc0]; [assumption|]. apply cost_least in Hc0; [|lia]. rewrite bought_0 in Hc0. lia. }
  assert (Hrm : r_max_cap r <= p_max_cap p).
  { destruct (c_regs _ _ Hc _ _ Hr) as [Hx|[Hx _]]; lia. }
  assert (Hso : sold p r = 0) by (unfold sold; rewrite Hrd; reflexivity).
  assert (Hroom : price <= room p r e).
  { unfold room. rewrite Hm. cbn [Z.eqb Pos.eqb]. rewrite Hso, Z.sub_0_r.
    assert (price <= cost (p_raw0 p) (r_supply r)) by (apply cost_mono; lia). lia. }
  pose proof (c_caps _ _ Hc).
  destruct (C39_fixed_price_deposit_succeeds w k p ek e r pt payer pr price h m price f) as (w' & l & e' & H1 & H2 & H3 & _);
    try assumption; try lia.
  - eapply C43_priceable_always; eassumption.
  - apply takes_cost; [assumption|lia].
  - exists w', l, e'. split; [assumption|]. split; [assumption|]. lia.
Qed.

(** * C44: the unsold-token action *)

(** Whatever byte is given is stored, and every byte other than 1 means refund. *)
Theorem C44_other_bytes_refund w base bmint qmint pt creator payer bp qp a h w' l :
  reachable w -> step w (IInitPresale base bmint qmint pt creator payer bp qp a h) = Ok (w', l) ->
  let k := PPresale base bmint qmint in
  forall ops p bv bm ct pr h' w2 fx, w_presales (run w' ops) !! k = Some p ->
    step (run w' ops) (IUnsold k bv bm ct pr h') = Ok (w2, fx) ->
    exists w1 lx,
      (pa_unsold (ia_params a) = 1 -> tok_burn (run w' ops) pr bv bm PAuth (unsold p) = Ok (w1, lx)) /\
      (pa_unsold (ia_params a) <> 1 -> ct = Ata creator bm pr /\
         tok_transfer (run w' ops) pr bv bm ct PAuth (unsold p) (h_ok h') = Ok (w1, lx)).
Proof.
  intros Hw Hs k ops p bv bm ct pr h' w2 fx Hp Hu.
  destruct (C25_accepted_config _ _ _ _ _ _ _ _ _ _ _ _ _ Hw Hs) as (_ & _ & p0 & Hp0 & Hcg & _ & _ & Hown & _).
  assert (Hw' : reachable w').
  { destruct Hw as [l0 ->]. exists (l0 ++ [IInitPresale base bmint qmint pt creator payer bp qp a h]).
    rewrite run_app. change (run (run genesis l0) [?o]) with (exec (run genesis l0) o). unfold exec. rewrite Hs. reflexivity. }
  destruct (run_keeps (fun _ q => terms_of q = terms_of p0) w' ops k p0 (reachable_inv _ Hw') Hp0 eq_refl) as (p1 & Hp1 & Ht & _).
  { intros now now' q q' _ Hm _ He. rewrite (mv_terms _ _ _ Hm). assumption. }
  assert (p1 = p) as -> by congruence.
  cbn [step] in Hu. apply (unsold_did _ _ _ _ _ _ _ _ _ (reachable_inv _ (reachable_run _ ops Hw'))) in Hu as (p2 & m & w1 & lx & D).
  destruct D. assert (p2 = p) as -> by congruence.
  destruct (cg_modes _ _ _ _ Hcg) as (_ & _ & Hun). rewrite <- Hun.
  assert (E1 : p_unsold p0 = p_unsold p) by (unfold terms_of in Ht; congruence).
  assert (E2 : p_owner p0 = p_owner p) by (unfold terms_of in Ht; congruence).
  rewrite E1. exists w1, lx. destruct du_what as [(Hx & Hy)|(Hx & Hy)]; (split; intros Hz; [|]); try contradiction; try assumption.
  split; [|assumption]. destruct du_to as [-> _]. congruence.
Qed.

(** * C45: who sets the price *)

(** [o] was accepted at some point of the history [l]. *)
Definition happened (l : list op) (o : op) : Prop :=
  exists l1 l2 w fx, l = l1 ++ o :: l2 /\ step (run genesis l1) o = Ok (w, fx).

Lemma happened_more l o o' : happened l o -> happened (l ++ [o']) o.
Proof.
  intros (l1 & l2 & w & fx & -> & Hs). exists l1, (l2 ++ [o']), w, fx. split; [|assumption].
  rewrite <- app_assoc. reflexivity.
Qed.

Lemma fixed_published l k x :
  w_fixed (run genesis l) !! PFixedArgs k = Some x ->
  exists payer, happened l (IInitFixedArgs k (x_owner x) payer (x_disable_withdraw x) (x_qprice x)).
Proof.
  revert x. induction l as [|o l IH] using rev_ind; intros x Hx; [discriminate|].
  rewrite run_app in Hx. change (run (run genesis l) [o]) with (exec (run genesis l) o) in Hx.
  assert (Hw : reachable (run genesis l)) by (exists l; reflexivity).
  unfold exec in Hx. destruct (step (run genesis l) o) as [[w' fx]|] eqn:Hs; cbn [fst] in Hx.
  2: { destruct (IH x Hx) as (payer & Hh). exists payer. apply happened_more. assumption. }
  destruct (step_helpers _ _ _ _ (reachable_inv _ Hw) Hs) as (_ & _ & _ & Hf).
  assert (Hold : w_fixed (run genesis l) !! PFixedArgs k = Some x ->
    exists payer, happened (l ++ [o]) (IInitFixedArgs k (x_owner x) payer (x_disable_withdraw x) (x_qprice x))).
  { intros Ho. destruct (IH x Ho) as (payer & Hh). exists payer. apply happened_more. assumption. }
  destruct o; try (rewrite Hf in Hx; apply Hold; exact Hx); cbn [step] in Hs.
  - pose proof Hs as Hs0. apply init_fixed_inv in Hs as (_ & _ & _ & _ & -> & _). cbn [w_fixed put_fixed] in Hx.
    destruct (decide (presale = k)) as [->|Hne].
    + rewrite lookup_insert in Hx. apply Some_inj in Hx. subst x. cbn. exists payer.
      exists l, []. eexists. exists fx. split; [reflexivity|]. cbn [step]. exact Hs0.
    + rewrite lookup_insert_ne in Hx by congruence. apply Hold. exact Hx.
  - apply close_fixed_inv in Hs as (y & _ & _ & _ & -> & _). cbn [w_fixed put_fixed] in Hx.
    apply lookup_delete_Some in Hx as [_ Hx]. apply Hold. exact Hx.
Qed.

(** Published arguments cannot be replaced, and only the owner named in them can remove them. *)
Lemma args_taken w k x : w_fixed w !! PFixedArgs k = Some x ->
  forall owner payer dw q w' l, step w (IInitFixedArgs k owner payer dw q) <> Ok (w', l).
Proof. intros Hx owner payer dw q w' l Hs. cbn [step] in Hs. apply init_fixed_inv in Hs as (_ & Hn & _). congruence. Qed.
Lemma args_owned w k x : w_fixed w !! PFixedArgs k = Some x ->
  forall owner w' l, owner <> x_owner x -> step w (ICloseFixedArgs (PFixedArgs k) owner) <> Ok (w', l).
Proof. intros Hx owner w' l Ho Hs. cbn [step] in Hs. apply close_fixed_inv in Hs as (y & Hy & Hyo & _). congruence. Qed.

(** The price and the withdraw flag of a fixed price presale are the ones some earlier accepted
    [initialize_fixed_price_presale_args] for this very presale asked for; by whom is not
    restricted (C45_front_run_refuted). *)
Theorem C45_price_published l k p :
  w_presales (run genesis l) !! k = Some p -> p_mode p = 0 ->
  exists owner payer dw, happened l (IInitFixedArgs k owner payer dw (p_raw0 p)) /\
    p_raw1 p mod 256 = dw.
Proof.
  revert p. induction l as [|o l IH] using rev_ind; intros p Hp Hm; [discriminate|].
  rewrite run_app in Hp. change (run (run genesis l) [o]) with (exec (run genesis l) o) in Hp.
  assert (Hw : reachable (run genesis l)) by (exists l; reflexivity). pose proof (reachable_inv _ Hw) as Hi.
  destruct (w_presales (run genesis l) !! k) as [q|] eqn:Hq.
  - destruct (exec_moves _ o _ _ Hi Hq) as (p' & Hp' & Hmv). assert (p' = p) as -> by congruence.
    pose proof (mv_terms _ _ _ Hmv) as Ht. unfold terms_of in Ht. injection Ht as.
    destruct (IH q eq_refl ltac:(congruence)) as (owner & payer & dw & Hh & Hd).
    exists owner, payer, dw. split; [apply happened_more; congruence|congruence].
  - unfold exec in Hp. destruct (step (run genesis l) o) as [[w' fx]|] eqn:Hs; cbn [fst] in Hp; [|congruence].
    destruct (does_presale _ _ _ _ k (step_does _ _ _ _ Hi Hs)) as
      [Hn|base bm0 qm0 pt cr pay bp qp a h0 p0 bm qm gross w1 lx Ho D Hnone Hn|owner idx cap p0 r Ho D Hn
      |qv qm ek pt payer pr mx h0 p0 p3 e r m amount fee gross w1 lx Ho D Hn
      |qv qm ek ot owner pr mx h0 p0 e r m amount w1 lx Ho D Hn
      |qv qm ek ot owner pr h0 p0 e r m w1 lx Ho D Hn|bv bm ek ot owner pr h0 p0 e r m w1 lx Ho D Hn
      |ek owner rr p0 e r Ho D Hn|ot owner pr h0 p0 m w1 lx Ho D Hn|qv qm rcv owner pr h0 p0 m w1 lx Ho D Hn
      |bv bm ct pr h0 p0 m w1 lx Ho D Hn].
    1: congruence.
    2-10: exfalso; destruct D; congruence.
    assert (p0 = p) as -> by congruence. destruct D. destruct di_presale.
    rewrite Hm in n_raw. destruct n_raw as (x & Hx & _ & R0 & R1).
    destruct (fixed_published _ _ _ Hx) as (payer & Hh).
    exists (x_owner x), payer, (x_disable_withdraw x). rewrite R0. split; [apply happened_more; assumption|].
    rewrite R1. destruct (i_fixed _ Hi _ _ Hx) as (_ & _ & Hdw).
    rewrite Z.add_comm, Z.mod_add by lia. apply Z.mod_small. lia.
Qed.

(** * C46: what a fixed price buyer gets *)

(** With one registry the cap of the presale keeps the registry in stock. *)
Theorem C46_one_registry_in_stock w k p r :
  reachable w -> w_presales w !! k = Some p -> p_mode p = 0 -> p_nreg p = 1 -> p_regs p !! 0%nat = Some r ->
  in_stock p r.
Proof.
  intros Hw Hp Hm Hn Hr. pose proof (i_presales _ (reachable_inv _ Hw) _ _ Hp) as Hok.
  pose proof (q_cfg _ _ _ Hok) as Hc. pose proof (a_caps _ _ _ _ (q_acct _ _ _ Hok)) as Hkp.
  destruct (one_registry _ _ _ _ Hc (a_books _ _ _ _ (q_acct _ _ _ Hok)) Hn Hr) as [Hd Hs].
  destruct (c_price _ _ Hc Hm) as (Hq & Hsup & _). unfold in_stock. rewrite Hd, Hs.
  etransitivity; [|exact Hsup]. apply bought_mono; [lia|]. apply (k_cap _ Hkp). lia.
Qed.

(** The buyer never gets more than the deposit buys, and misses at most two tokens of it as long
    as the registry is in stock. *)
Theorem C46_at_most_two_short w ek e p r :
  reachable w -> w_escrows w !! ek = Some e -> w_presales w !! e_presale e = Some p ->
  p_regs p !! Z.to_nat (e_idx e) = Some r -> p_mode p = 0 -> in_stock p r ->
  bought (p_raw0 p) (e_deposit e) - 2 <= final p r (e_deposit e) <= bought (p_raw0 p) (e_deposit e).
Proof.
  intros [l ->] He Hp Hr Hm Hst.
  destruct (escrow_context _ _ _ _ _ He Hp Hr) as [_ Hc Ha Hb Hkp Hs Hra Hre].
  destruct (c_price _ _ Hc Hm) as (Hq & _). pose proof (s_deposit _ _ _ _ _ Hs) as Hd0.
  split.
  2: { apply Z.div_le_lower_bound; [lia|]. rewrite Z.mul_comm. eapply C21_price_floor; eassumption. }
  destruct (Z.eq_dec (e_deposit e) 0) as [Hz|Hz].
  { rewrite Hz, bought_0. unfold final. rewrite !Z.mul_0_r, !Zdiv_0_l. lia. }
  assert (Hpos : 0 < r_deposit r) by lia.
  destruct (final_bounds _ _ _ _ (e_deposit e) Hc Hr Hpos ltac:(lia)) as [_ Hfb].
  assert (Hsold : sold p r = bought (p_raw0 p) (r_deposit r)).
  { unfold sold. rewrite Hm, (proj2 (Z.eqb_neq _ _)) by lia. cbn [Z.eqb]. unfold in_stock in Hst. lia. }
  assert (HS : 0 < scale) by reflexivity. unfold bought in Hsold |- *.
  pose proof (Z.mul_div_le (e_deposit e * scale) (p_raw0 p) ltac:(lia)) as H1.
  pose proof (Z.mul_succ_div_gt (r_deposit r * scale) (p_raw0 p) ltac:(lia)) as H2.
  rewrite <- Hsold in H2.
  set (B := e_deposit e * scale / p_raw0 p) in *. set (F := final p r (e_deposit e)) in *.
  set (so := sold p r) in *. set (S := scale) in *. set (q := p_raw0 p) in *. set (d := e_deposit e) in *.
  set (D := r_deposit r) in *. clearbody B F so S q d D.
  destruct (Z.le_gt_cases (B - 2) F) as [|Hgt]; [assumption|exfalso].
  assert (A1 : q * (F + 3) <= d * S) by (etransitivity; [|exact H1]; apply Z.mul_le_mono_nonneg_l; lia).
  assert (A2 : q * (F + 3) * D <= d * S * D) by (apply Z.mul_le_mono_nonneg_r; lia).
  assert (A3 : D * S * d < q * Z.succ so * d) by (apply Z.mul_lt_mono_pos_r; lia).
  assert (A4 : q * ((F + 3) * D) < q * (Z.succ so * d)) by lia.
  apply Z.mul_lt_mono_pos_l in A4; lia.
Qed.

(** When a registry among several sells out it may take one unit of quote too many, which dilutes
    its buyers: what a buyer misses is still worth at most one unit of quote and three tokens. *)
Theorem C46_worst_case w ek e p r :
  reachable w -> w_escrows w !! ek = Some e -> w_presales w !! e_presale e = Some p ->
  p_regs p !! Z.to_nat (e_idx e) = Some r -> p_mode p = 0 ->
  bought (p_raw0 p) (e_deposit e) - bought (p_raw0 p) 1 - 3 <= final p r (e_deposit e).
Proof.
  intros Hw He Hp Hr Hm.
  destruct (Z.le_gt_cases (bought (p_raw0 p) (r_deposit r)) (r_supply r)) as [Hst|Hover].
  { pose proof (C46_at_most_two_short _ _ _ _ _ Hw He Hp Hr Hm Hst).
    pose proof (q_cfg _ _ _ (i_presales _ (reachable_inv _ Hw) _ _ Hp)) as Hc.
    destruct (c_price _ _ Hc Hm) as (Hq & _).
    assert (0 <= bought (p_raw0 p) 1) by (apply bought_nonneg; lia). lia. }
  destruct Hw as [l ->].
  destruct (escrow_context _ _ _ _ _ He Hp Hr) as [_ Hc Ha Hb Hkp Hs Hra Hre].
  destruct (c_price _ _ Hc Hm) as (Hq & _). pose proof (s_deposit _ _ _ _ _ Hs) as Hd0.
  destruct (s_idx _ _ _ _ _ Hs) as [Hi0 Hi1].
  assert (HB1 : 0 <= bought (p_raw0 p) 1) by (apply bought_nonneg; lia).
  destruct (Z.eq_dec (e_deposit e) 0) as [Hz|Hz].
  { rewrite Hz, bought_0. unfold final. rewrite !Z.mul_0_r, !Zdiv_0_l. lia. }
  assert (Hpos : 0 < r_deposit r) by lia.
  destruct (final_bounds _ _ _ _ (e_deposit e) Hc Hr Hpos ltac:(lia)) as [_ Hfb].
  assert (Hsold : sold p r = r_supply r).
  { unfold sold. rewrite Hm, (proj2 (Z.eqb_neq _ _)) by lia. cbn [Z.eqb]. lia. }
  pose proof (k_fixed _ Hkp Hm _ _ Hr ltac:(lia)) as Hk.
  pose proof (reg_supply_nonneg _ _ _ _ Hc Hr) as Hsn.
  assert (HS : 0 < scale) by reflexivity. rewrite <- Hsold in *. unfold bought in *.
  pose proof (Z.mul_div_le (e_deposit e * scale) (p_raw0 p) ltac:(lia)) as H1.
  pose proof (Z.mul_succ_div_gt (1 * scale) (p_raw0 p) ltac:(lia)) as H2.
  set (B := e_deposit e * scale / p_raw0 p) in *. set (B1 := 1 * scale / p_raw0 p) in *. set (F := final p r (e_deposit e)) in *.
  set (so := sold p r) in *. set (S := scale) in *. set (q := p_raw0 p) in *. set (d := e_deposit e) in *.
  set (D := r_deposit r) in *. clearbody B B1 F so S q d D. clear Hover.
  destruct (Z.le_gt_cases (B - B1 - 3) F) as [|Hgt]; [assumption|exfalso].
  assert (A1 : q * (F + B1 + 4) <= d * S) by (etransitivity; [|exact H1]; apply Z.mul_le_mono_nonneg_l; lia).
  assert (A2 : q * (F + B1 + 4) * D <= d * S * D) by (apply Z.mul_le_mono_nonneg_r; lia).
  assert (A3 : D * S * d < ((so + 1) * q + S) * d) by (apply Z.mul_lt_mono_pos_r; lia).
  assert (A5 : S * d <= q * Z.succ B1 * d) by (apply Z.mul_le_mono_nonneg_r; lia).
  assert (A4 : q * ((F + B1 + 4) * D) < q * ((so + B1 + 2) * d)) by lia.
  apply Z.mul_lt_mono_pos_l in A4; [|lia].
  assert (d * (B1 + 2) <= D * (B1 + 2)) by (apply Z.mul_le_mono_nonneg_r; lia). lia.
Qed.

End WithCrypto.

(** * The counterexamples *)

#[local] Existing Instance toy.
Lemma after_Ok w o w' l : step w o = Ok (w', l) -> after w o = w'.
Proof. unfold after, exec. intros ->. reflexivity. Qed.
Lemma ok_step_Ok w o : ok_step w o = true -> exists w' l, step w o = Ok (w', l).
Proof. unfold ok_step. destruct (step w o) as [[w' l]|]; [eauto|discriminate]. Qed.

(** C42: 10.5 quote per token, minimum 31, maximum 32, three tokens in stock, withdrawals off. *)
Definition q105 : Z := 193690812773950291968.
Definition gap_init : op :=
  IInitPresale base1 bmint qmint creator_b creator creator Token2022 SplToken
    (mkInitArgs (mkPreArgs 32 31 1000 2000 0 0 1 0) (mkLocked 0 0 0 0 []) [mkRegArgs 11 32 3 0])
    (mkHenv [PFixedArgs k1] [] true).
Definition gap_open : list op := setup ++ [
  IInitFixedArgs k1 creator creator 1 q105; gap_init;
  IEscrowPermissionless k1 alice alice; IEscrowPermissionless k1 bob bob;
  dep alice alice_q alice 0 11; dep bob bob_q bob 0 11 ].

(** Two buyers take one token each.  The sale is open, a third of the cap and a token are left, but
    the minimum is out of reach for ever. *)
Theorem C42_minimum_unreachable_refuted :
  exists w k p, reachable w /\ w_presales w !! k = Some p /\ p_mode p = 0 /\
    open_for_deposits p (w_now w) /\ p_deposit p < p_min_cap p /\ 0 < unsold p /\
    forall l, exists p', w_presales (run w l) !! k = Some p' /\ p_deposit p' < p_min_cap p'.
Proof.
  assert (Hex : exists p, w_presales (run genesis gap_open) !! k1 = Some p /\ p_mode p = 0 /\
    (p_start p <= w_now (run genesis gap_open) < p_end p) /\ p_deposit p = 22 /\ p_min_cap p = 31 /\
    p_max_cap p = 32 /\ p_raw0 p = q105 /\ p_raw1 p = 1 /\ unsold p = 1).
  { eexists. split; [vm_compute; reflexivity|]. split; [reflexivity|].
    split; [vm_compute; split; [discriminate|reflexivity]|].
    do 5 (split; [vm_compute; reflexivity|]). vm_compute. reflexivity. }
  destruct Hex as (p & Hp & H1 & H2 & H3 & H4 & H5 & H6 & H7 & H8).
  exists (run genesis gap_open), k1, p. split; [apply reach|]. split; [exact Hp|].
  split; [exact H1|]. split; [exact H2|]. split; [lia|]. split; [lia|]. intros l.
  destruct (gap_too_small (run genesis gap_open) k1 p l (reach _) Hp H1) as (p' & Hp' & Ht & Hd).
  - unfold withdrawals_on. rewrite H1, H7. intros [?|[_ ?]]; discriminate.
  - rewrite H3, H5, H6. vm_compute. reflexivity.
  - exists p'. split; [exact Hp'|]. assert (p_min_cap p' = p_min_cap p) by (unfold terms_of in Ht; congruence). lia.
Qed.

(** The same sale with a gap of eleven is never stuck (C42_wide_gap_never_stuck applies). *)
Definition wide_init : op :=
  IInitPresale base1 bmint qmint creator_b creator creator Token2022 SplToken
    (mkInitArgs (mkPreArgs 42 31 1000 2000 0 0 1 0) (mkLocked 0 0 0 0 []) [mkRegArgs 11 42 4 0])
    (mkHenv [PFixedArgs k1] [] true).
Definition wide_open : list op := setup ++ [
  IInitFixedArgs k1 creator creator 1 q105; wide_init;
  IEscrowPermissionless k1 alice alice; IEscrowPermissionless k1 bob bob;
  dep alice alice_q alice 0 11; dep bob bob_q bob 0 11 ].
Example C42_wide_gap_example :
  exists p e r, w_presales (run genesis wide_open) !! k1 = Some p /\
    w_escrows (run genesis wide_open) !! esc alice 0 = Some e /\ e_presale e = k1 /\
    p_regs p !! Z.to_nat (e_idx e) = Some r /\ p_mode p = 0 /\ p_nreg p = 1 /\ wide_gap p /\
    p_deposit p < p_min_cap p /\ 0 < bought (p_raw0 p) (e_cap e - e_deposit e) /\
    ok_step (run genesis wide_open) (dep alice alice_q alice 0 11) = true.
Proof.
  eexists _, _, _. split; [vm_compute; reflexivity|]. split; [vm_compute; reflexivity|].
  split; [vm_compute; reflexivity|]. split; [vm_compute; reflexivity|]. split; [vm_compute; reflexivity|].
  split; [vm_compute; reflexivity|]. split; [vm_compute; discriminate|]. split; [vm_compute; reflexivity|].
  split; [vm_compute; reflexivity|]. vm_compute. reflexivity.
Qed.

(** C43: a price of 2^56 quote per token and a stock of 5000.  Accepted, but the price of the stock
    does not fit in 64 bits, so no deposit is ever accepted. *)
Definition q56 : Z := 2 ^ 120.
Definition dear_init : op :=
  IInitPresale base1 bmint qmint creator_b creator creator Token2022 SplToken
    (mkInitArgs (mkPreArgs (2 ^ 60) (2 ^ 57) 1000 2000 0 0 1 0) (mkLocked 0 0 0 0 [])
       [mkRegArgs (2 ^ 56) (2 ^ 60) 5000 0])
    (mkHenv [PFixedArgs k1] [] true).
Definition dear_open : list op := setup ++ [IInitFixedArgs k1 creator creator 1 q56; dear_init].

Theorem C43_unpriceable_stock_refuted :
  exists w k p, reachable w /\ w_presales w !! k = Some p /\ p_mode p = 0 /\
    open_for_deposits p (w_now w) /\
    forall l, exists p', w_presales (run w l) !! k = Some p' /\ terms_of p' = terms_of p /\ p_deposit p' = 0.
Proof.
  assert (Hex : exists p r, w_presales (run genesis dear_open) !! k1 = Some p /\ p_mode p = 0 /\
    (p_start p <= w_now (run genesis dear_open) < p_end p) /\ p_deposit p = 0 /\ p_nreg p = 1 /\
    p_raw0 p = q56 /\ p_raw1 p = 1 /\ p_regs p !! 0%nat = Some r /\ r_supply r = 5000).
  { eexists _, _. split; [vm_compute; reflexivity|]. split; [reflexivity|].
    split; [vm_compute; split; [discriminate|reflexivity]|].
    do 5 (split; [vm_compute; reflexivity|]). vm_compute. reflexivity. }
  destruct Hex as (p & r & Hp & H1 & H2 & H3 & H4 & H5 & H6 & H7 & H8).
  exists (run genesis dear_open), k1, p. split; [apply reach|]. split; [exact Hp|].
  split; [exact H1|]. split; [exact H2|]. intros l.
  apply unpriceable_forever; [apply reach|exact Hp|exact H1|exact H3| |].
  - unfold withdrawals_on. rewrite H1, H6. intros [?|[_ ?]]; discriminate.
  - intros i r' Hr Hi. assert (i = 0%nat) as -> by lia. assert (r' = r) as -> by congruence.
    rewrite H5, H8. vm_compute. reflexivity.
Qed.

(** C43: buyer limits 12 and 20 at 10.5 quote per token.  Accepted, but one token costs 11 and two
    cost 21, so no deposit is ever accepted. *)
Definition narrow_init : op :=
  IInitPresale base1 bmint qmint creator_b creator creator Token2022 SplToken
    (mkInitArgs (mkPreArgs 1000 31 1000 2000 0 0 1 0) (mkLocked 0 0 0 0 []) [mkRegArgs 12 20 5000 0])
    (mkHenv [PFixedArgs k1] [] true).
Definition narrow_open : list op := setup ++ [IInitFixedArgs k1 creator creator 1 q105; narrow_init].

Theorem C43_narrow_limits_refuted :
  exists w k p, reachable w /\ w_presales w !! k = Some p /\ p_mode p = 0 /\
    open_for_deposits p (w_now w) /\
    forall l, exists p', w_presales (run w l) !! k = Some p' /\ terms_of p' = terms_of p /\ p_deposit p' = 0.
Proof.
  assert (Hex : exists p r, w_presales (run genesis narrow_open) !! k1 = Some p /\ p_mode p = 0 /\
    (p_start p <= w_now (run genesis narrow_open) < p_end p) /\ p_deposit p = 0 /\ p_nreg p = 1 /\
    p_raw0 p = q105 /\ p_raw1 p = 1 /\ p_regs p !! 0%nat = Some r /\ r_min_cap r = 12 /\ r_max_cap r = 20).
  { eexists _, _. split; [vm_compute; reflexivity|]. split; [reflexivity|].
    split; [vm_compute; split; [discriminate|reflexivity]|].
    do 6 (split; [vm_compute; reflexivity|]). vm_compute. reflexivity. }
  destruct Hex as (p & r & Hp & H1 & H2 & H3 & H4 & H5 & H6 & H7 & H8 & H9).
  exists (run genesis narrow_open), k1, p. split; [apply reach|]. split; [exact Hp|].
  split; [exact H1|]. split; [exact H2|]. intros l.
  apply no_price_between_forever; [apply reach|exact Hp|exact H1|exact H3| |].
  - unfold withdrawals_on. rewrite H1, H6. intros [?|[_ ?]]; discriminate.
  - intros i r' n Hr Hi. assert (i = 0%nat) as -> by lia. assert (r' = r) as -> by congruence.
    rewrite H5, H8, H9. intros [L U].
    destruct (Z.le_gt_cases n 1) as [Hn|Hn].
    + pose proof (cost_mono q105 n 1 ltac:(reflexivity) Hn) as Hc. change (cost q105 1) with 11 in Hc. lia.
    + pose proof (cost_mono q105 2 n ltac:(reflexivity) ltac:(lia)) as Hc. change (cost q105 2) with 21 in Hc. lia.
Qed.

(** The hypotheses of C43_first_buyer_served on a concrete sale. *)
Definition first_open : list op := setup ++ [
  IInitFixedArgs k1 creator creator 0 fx_price; fx_init; IEscrowPermissionless k1 alice alice].
Example C43_first_buyer_example :
  exists p e r, w_presales (run genesis first_open) !! k1 = Some p /\
    w_escrows (run genesis first_open) !! esc alice 0 = Some e /\ e_presale e = k1 /\
    p_regs p !! Z.to_nat (e_idx e) = Some r /\ p_mode p = 0 /\ p_deposit p = 0 /\
    cost (p_raw0 p) (r_supply r) = 2500 /\ r_min_cap r <= cost (p_raw0 p) 7 <= e_cap e /\
    cost (p_raw0 p) 7 = 18 /\ covers (r_fee_bps r) 18 1 /\
    (exists e', w_escrows (after (run genesis first_open) (dep alice alice_q alice 0 18)) !! esc alice 0 = Some e' /\
      e_deposit e' = 18).
Proof.
  eexists _, _, _. split; [vm_compute; reflexivity|]. split; [vm_compute; reflexivity|].
  split; [vm_compute; reflexivity|]. split; [vm_compute; reflexivity|]. split; [vm_compute; reflexivity|].
  split; [vm_compute; reflexivity|]. split; [vm_compute; reflexivity|].
  split; [vm_compute; split; discriminate|]. split; [vm_compute; reflexivity|].
  split; [vm_compute; discriminate|]. eexists. split; [vm_compute; reflexivity|]. reflexivity.
Qed.

(** C44: action 77 is accepted; the unsold tokens go back to the creator. *)
Definition odd_args : init_args :=
  mkInitArgs (mkPreArgs 2000 100 1000 2000 0 0 77 1) (mkLocked 0 0 0 0 []) [mkRegArgs 3 1500 1000 50].
Definition odd_init : op :=
  IInitPresale base1 bmint qmint creator_b creator creator Token2022 SplToken odd_args
    (mkHenv [PFixedArgs k1] [] true).
Definition odd_before : list op := setup ++ [IInitFixedArgs k1 creator creator 0 fx_price].
Definition odd_over : list op := odd_before ++ [odd_init;
  IEscrowPermissionless k1 alice alice; dep alice alice_q alice 0 1000; EClock 2000 ].

Theorem C44_unknown_action_refuted :
  exists w base bmint qmint pt creator payer bp qp a h w' l,
    reachable w /\ pa_unsold (ia_params a) <> 0 /\ pa_unsold (ia_params a) <> 1 /\
    step w (IInitPresale base bmint qmint pt creator payer bp qp a h) = Ok (w', l).
Proof.
  destruct (ok_step_Ok (run genesis odd_before) odd_init) as (w' & l & Hs); [vm_compute; reflexivity|].
  eexists (run genesis odd_before), base1, bmint, qmint, creator_b, creator, creator, Token2022, SplToken,
    odd_args, (mkHenv [PFixedArgs k1] [] true), w', l.
  split; [apply reach|]. split; [discriminate|]. split; [discriminate|]. unfold odd_init in Hs. exact Hs.
Qed.
Example C44_refund_example :
  exists p, w_presales (run genesis odd_over) !! k1 = Some p /\ p_unsold p = 77 /\ unsold p = 600 /\
    bal (run genesis odd_over) creator_b = 98979 /\ bal (after (run genesis odd_over) us) creator_b = 98979 + 588.
Proof.
  eexists. split; [vm_compute; reflexivity|]. split; [vm_compute; reflexivity|]. split; [vm_compute; reflexivity|].
  split; [vm_compute; reflexivity|]. vm_compute. reflexivity.
Qed.

(** C45: somebody else publishes the arguments first.  Neither the creator nor anybody else can
    change or remove them, and the creator's own presale takes the other party's price (3 instead of
    2.5) and withdraw flag. *)
Definition q3 : Z := 3 * 2 ^ 64.
Definition front_run : list op := setup ++ [IInitFixedArgs k1 bob bob 1 q3].

Theorem C45_front_run_refuted :
  exists w k, reachable w /\
    (forall owner payer dw q w' l, step w (IInitFixedArgs k owner payer dw q) <> Ok (w', l)) /\
    (forall owner w' l, owner <> bob -> step w (ICloseFixedArgs (PFixedArgs k) owner) <> Ok (w', l)) /\
    exists w' l p, step w fx_init = Ok (w', l) /\ w_presales w' !! k = Some p /\
      p_owner p = creator /\ creator <> bob /\ p_raw0 p = q3 /\ p_raw0 p <> fx_price /\ ~ withdrawals_on p.
Proof.
  assert (Hf : exists x, w_fixed (run genesis front_run) !! PFixedArgs k1 = Some x /\ x_owner x = bob).
  { eexists. split; [vm_compute; reflexivity|]. reflexivity. }
  destruct Hf as (x & Hx & Hxo).
  exists (run genesis front_run), k1. split; [apply reach|]. split; [|split].
  - eapply args_taken. exact Hx.
  - rewrite <- Hxo. eapply args_owned. exact Hx.
  - destruct (ok_step_Ok (run genesis front_run) fx_init) as (w' & l & Hs); [vm_compute; reflexivity|].
    assert (Hw' : w' = after (run genesis front_run) fx_init) by (symmetry; eapply after_Ok; exact Hs).
    assert (Hp : exists p, w_presales (after (run genesis front_run) fx_init) !! k1 = Some p /\
      p_owner p = creator /\ p_raw0 p = q3 /\ p_mode p = 0 /\ p_raw1 p mod 256 = 1).
    { eexists. split; [vm_compute; reflexivity|]. split; [vm_compute; reflexivity|]. split; [vm_compute; reflexivity|].
      split; [vm_compute; reflexivity|]. vm_compute. reflexivity. }
    destruct Hp as (p & Hp & P1 & P2 & P3 & P4). exists w', l, p. split; [exact Hs|]. rewrite Hw'.
    split; [exact Hp|]. split; [exact P1|]. split; [discriminate|]. split; [exact P2|].
    split; [rewrite P2; discriminate|]. unfold withdrawals_on. rewrite P3, P4. intros [?|[_ ?]]; discriminate.
Qed.

(** C46: 2.5 quote per token; deposits of 5 (two tokens) and 3 (one token).  The three tokens sold
    are shared 5:3, so the first buyer gets one token only. *)
Definition short_init : op :=
  IInitPresale base1 bmint qmint creator_b creator creator Token2022 SplToken
    (mkInitArgs (mkPreArgs 100 5 1000 2000 0 0 1 1) (mkLocked 0 0 0 0 []) [mkRegArgs 3 100 1000 0])
    (mkHenv [PFixedArgs k1] [] true).
Definition short_paid : list op := setup ++ [
  IInitFixedArgs k1 creator creator 0 fx_price; short_init;
  IEscrowPermissionless k1 alice alice; IEscrowPermissionless k1 bob bob;
  dep alice alice_q alice 0 5; dep bob bob_q bob 0 3; EClock 2000; getb alice alice_b 0; getb bob bob_b 0 ].

Theorem C46_short_by_rounding_refuted :
  exists l ek e p r, w_escrows (run genesis l) !! ek = Some e /\
    w_presales (run genesis l) !! e_presale e = Some p /\ p_regs p !! Z.to_nat (e_idx e) = Some r /\
    p_mode p = 0 /\ succeeded p (w_now (run genesis l)) /\ p_ve p <= w_now (run genesis l) /\
    e_claimed e = final p r (e_deposit e) /\
    lifetime (base_out ek) genesis l = 1 /\ bought (p_raw0 p) (e_deposit e) = 2.
Proof.
  eexists short_paid, (esc alice 0), _, _, _. split; [vm_compute; reflexivity|]. split; [vm_compute; reflexivity|].
  split; [vm_compute; reflexivity|]. split; [vm_compute; reflexivity|].
  split; [vm_compute; split; discriminate|]. split; [vm_compute; discriminate|].
  split; [vm_compute; reflexivity|]. split; [vm_compute; reflexivity|]. vm_compute. reflexivity.
Qed.

(** C46: 0.001 quote per token, two registries with 1001 and 5000 tokens.  The first deposit of 1
    buys 1000 tokens and leaves one token, whose price is rounded up to 1, so a second deposit of 1
    is taken and halves what the first buyer gets (C46_worst_case bounds this by one unit of quote). *)
Definition milli : Z := 2 ^ 64 / 1000.
Definition dilute_init : op :=
  IInitPresale base1 bmint qmint creator_b creator creator Token2022 SplToken
    (mkInitArgs (mkPreArgs 6 1 1000 2000 2 0 1 1) (mkLocked 0 0 0 0 [])
       [mkRegArgs 1 6 1001 0; mkRegArgs 1 6 5000 0])
    (mkHenv [PFixedArgs k1] [] true).
Definition dilute_paid : list op := setup ++ [
  IInitFixedArgs k1 creator creator 0 milli; dilute_init; ICreateOperator oper creator;
  IEscrowCreator k1 alice (POperator creator oper) oper alice 0 6;
  IEscrowCreator k1 bob (POperator creator oper) oper bob 0 6;
  dep alice alice_q alice 0 1; dep bob bob_q bob 0 1; EClock 2000; getb alice alice_b 0; getb bob bob_b 0 ].

Theorem C46_diluted_refuted :
  exists l ek e p r, w_escrows (run genesis l) !! ek = Some e /\
    w_presales (run genesis l) !! e_presale e = Some p /\ p_regs p !! Z.to_nat (e_idx e) = Some r /\
    p_mode p = 0 /\ succeeded p (w_now (run genesis l)) /\ p_ve p <= w_now (run genesis l) /\
    e_claimed e = final p r (e_deposit e) /\
    lifetime (base_out ek) genesis l = 500 /\ bought (p_raw0 p) (e_deposit e) = 1000.
Proof.
  eexists dilute_paid, (esc alice 0), _, _, _. split; [vm_compute; reflexivity|]. split; [vm_compute; reflexivity|].
  split; [vm_compute; reflexivity|]. split; [vm_compute; reflexivity|].
  split; [vm_compute; split; discriminate|]. split; [vm_compute; discriminate|].
  split; [vm_compute; reflexivity|]. split; [vm_compute; reflexivity|]. vm_compute. reflexivity.
Qed.

(** The hypotheses of C46_at_most_two_short and C46_worst_case hold in these histories. *)
Example C46_example :
  exists p r, w_presales (run genesis short_paid) !! k1 = Some p /\ p_regs p !! 0%nat = Some r /\
    p_nreg p = 1 /\ in_stock p r /\ final p r 5 = 1 /\ bought (p_raw0 p) 5 = 2.
Proof.
  eexists _, _. split; [vm_compute; reflexivity|]. split; [vm_compute; reflexivity|].
  split; [vm_compute; reflexivity|]. split; [vm_compute; discriminate|].
  split; [vm_compute; reflexivity|]. vm_compute. reflexivity.
Qed.
