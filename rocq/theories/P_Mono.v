(** C91: more in, more out. *)
From Coq Require Import Lia.
From Verif Require Import Base Math State Handlers Token World Instr Exec Tactics Sums Spec Arith
  TokenFacts Inv Acct Funs Steps Init Preserve Reach Did Trans Flow Scenario P_Arith P_Solvency P_History
  P_Payout P_State P_Deposit P_Limits P_Merkle P_Exit P_Price.

Section WithCrypto.
Context `{Crypto}.

Lemma share_mono I I' d R a :
  0 <= I <= I' -> 0 <= d <= R -> 0 <= a -> I * d / R <= I' * (d + a) / (R + a).
Proof.
  intros HI Hd Ha. destruct (Z.eq_dec R 0) as [->|HR].
  - rewrite Zdiv_0_r. destruct (Z.eq_dec a 0) as [->|Ha0]; [rewrite Zdiv_0_r; lia|].
    apply Z.div_pos; [apply Z.mul_nonneg_nonneg; lia|lia].
  - pose proof (Z.mul_div_le (I * d) R ltac:(lia)) as Hq. assert (Hq0 : 0 <= I * d / R) by (apply Z.div_pos; nia).
    set (q := I * d / R) in *. apply Z.div_le_lower_bound; [lia|].
    apply (Z.mul_le_mono_pos_l _ _ R); [lia|].
    assert (H1 : R * q * (R + a) <= I * d * (R + a)) by (apply Z.mul_le_mono_nonneg_r; lia).
    assert (H2 : d * (R + a) <= (d + a) * R) by nia.
    assert (H3 : I * (d * (R + a)) <= I * ((d + a) * R)) by (apply Z.mul_le_mono_nonneg_l; lia).
    assert (H4 : I * ((d + a) * R) <= I' * ((d + a) * R)) by (apply Z.mul_le_mono_nonneg_r; nia).
    lia.
Qed.

Lemma sold_mono k p i r r' :
  cfg k p -> p_regs p !! i = Some r -> r_supply r' = r_supply r -> 0 <= r_deposit r <= r_deposit r' ->
  0 <= sold p r <= sold p r'.
Proof.
  intros Hc Hr Hs Hd. pose proof (sold_range k p i r Hc Hr ltac:(lia)) as Hr0. split; [lia|].
  pose proof (reg_supply_nonneg k p i r Hc Hr) as Hsu. unfold sold in *.
  destruct (Z.eqb_spec (r_deposit r) 0) as [E|E], (Z.eqb_spec (r_deposit r') 0) as [E'|E']; try lia.
  - destruct (Z.eqb_spec (p_mode p) 0) as [Hm|_]; [|lia].
    destruct (c_price k p Hc Hm) as [Hq _]. pose proof (bought_nonneg (p_raw0 p) (r_deposit r') ltac:(lia) ltac:(lia)). lia.
  - destruct (Z.eqb_spec (p_mode p) 0) as [Hm|_]; [|lia]. destruct (c_price k p Hc Hm) as [Hq _].
    rewrite Hs. apply Z.min_le_compat_r. unfold bought. apply Z.div_le_mono; [lia|].
    apply Z.mul_le_mono_nonneg_r; [unfold scale; lia|lia].
Qed.

Lemma final_mono k p i r r' d a :
  cfg k p -> p_regs p !! i = Some r -> r_supply r' = r_supply r ->
  0 <= d <= r_deposit r -> 0 <= a -> r_deposit r' = r_deposit r + a ->
  final p r d <= final p r' (d + a).
Proof.
  intros Hc Hr Hs Hd Ha HR. pose proof (sold_mono k p i r r' Hc Hr Hs ltac:(lia)) as Hso.
  pose proof (c_bps k p Hc) as Hb. unfold final. rewrite HR.
  assert (Hi : 0 <= imm_part p r <= imm_part p r').
  { unfold imm_part. split; [apply Z.div_pos; nia|]. apply Z.div_le_mono; nia. }
  assert (Hv : 0 <= vest_part p r <= vest_part p r').
  { unfold vest_part, imm_part. set (x := sold p r) in *. set (y := sold p r') in *.
    pose proof (Z.mul_div_le (x * p_bps p) 10000 ltac:(lia)). pose proof (Z.mul_succ_div_gt (x * p_bps p) 10000 ltac:(lia)).
    pose proof (Z.mul_div_le (y * p_bps p) 10000 ltac:(lia)).
    set (u := x * p_bps p / 10000) in *. set (v := y * p_bps p / 10000) in *. nia. }
  apply Z.add_le_mono; apply share_mono; lia.
Qed.

(** A deposit never lowers what the escrow deposited into gets in the end. *)
Theorem C91_deposit_never_lowers_own_tokens w k qv qm ek pt payer pr mx h w' l p e r :
  reachable w -> step w (IDeposit k qv qm ek pt payer pr mx h) = Ok (w', l) ->
  w_presales w !! k = Some p -> w_escrows w !! ek = Some e -> p_regs p !! Z.to_nat (e_idx e) = Some r ->
  exists p' e' r', w_presales w' !! k = Some p' /\ w_escrows w' !! ek = Some e' /\
    p_regs p' !! Z.to_nat (e_idx e') = Some r' /\ e_deposit e < e_deposit e' /\
    final p r (e_deposit e) <= final p' r' (e_deposit e').
Proof.
  intros Hw Hs Hp He Hr. pose proof (reachable_inv _ Hw) as Hi. cbn in Hs. apply deposit_did in Hs; [|assumption].
  destruct Hs as (p1 & p2 & e1 & r1 & m & amount & fee & gross & w1 & lx & D). destruct D.
  assert (p1 = p) as -> by congruence. assert (e1 = e) as -> by congruence. assert (r1 = r) as -> by congruence.
  set (r' := set_r_fee (r_fee r + fee) (set_r_deposit (r_deposit r + amount) r)).
  assert (Hr2 : p_regs p2 !! Z.to_nat (e_idx e) = Some r' /\ p_mode p2 = p_mode p /\ p_raw0 p2 = p_raw0 p /\
    p_bps p2 = p_bps p).
  { apply lookup_lt_Some in Hr as Hlt.
    destruct dd_end as [(_ & _ & ->)|(_ & ->)]; unfold ended_at, deposited; destruct p; cbn in *;
      (split; [apply list_lookup_insert; exact Hlt|auto]). }
  destruct Hr2 as (Hr2 & Hm2 & Hq2 & Hb2).
  exists p2, (esc_deposited e amount fee), r'.
  split; [subst w'; cbn; apply lookup_insert|]. split; [subst w'; cbn; apply lookup_insert|].
  split; [exact Hr2|]. split; [cbn; lia|]. rewrite (final_terms p p2 r' _ Hm2 Hq2 Hb2).
  cbn [esc_deposited set_e_fee set_e_deposit e_deposit].
  pose proof (at_range _ _ _ _ _ _ dd_at) as [Hra _].
  apply (final_mono k p (Z.to_nat (e_idx e)) r r' _ _ (at_cfg _ _ _ _ _ _ dd_at) Hr).
  - unfold r'; destruct r; reflexivity.
  - lia.
  - lia.
  - unfold r'; destruct r; reflexivity.
Qed.

(** Nor does it lower, by more than one rounded unit, what the owner pays in the end. *)
Theorem C91_deposit_never_lowers_own_payment w k qv qm ek pt payer pr mx h w' l p e r :
  reachable w -> step w (IDeposit k qv qm ek pt payer pr mx h) = Ok (w', l) ->
  w_presales w !! k = Some p -> w_escrows w !! ek = Some e -> p_regs p !! Z.to_nat (e_idx e) = Some r ->
  exists p' e' r', w_presales w' !! k = Some p' /\ w_escrows w' !! ek = Some e' /\
    p_regs p' !! Z.to_nat (e_idx e') = Some r' /\
    e_deposit e - share_deposit p r (e_deposit e) <= e_deposit e' - share_deposit p' r' (e_deposit e') + 1.
Proof.
  intros Hw Hs Hp He Hr. pose proof (reachable_inv _ Hw) as Hi. pose proof (reachable_ok _ _ _ _ Hw Hs) as Hw'.
  destruct (C91_deposit_never_lowers_own_tokens _ _ _ _ _ _ _ _ _ _ _ _ _ _ _ Hw Hs Hp He Hr)
    as (p' & e' & r' & Hp' & He' & Hr' & Hlt & _).
  exists p', e', r'. split; [assumption|]. split; [assumption|]. split; [assumption|].
  cbn in Hs. apply deposit_did in Hs; [|assumption].
  destruct Hs as (p1 & p2 & e1 & r1 & m & amount & fee & gross & w1 & lx & D). destruct D.
  assert (p1 = p) as -> by congruence. assert (e1 = e) as -> by congruence.
  assert (Hx : p' = p2 /\ e' = esc_deposited e amount fee).
  { subst w'. cbn in Hp', He'. rewrite lookup_insert in Hp'. rewrite lookup_insert in He'. split; congruence. }
  destruct Hx as [-> ->].
  assert (Hde : e_deposit (esc_deposited e amount fee) = e_deposit e + amount) by reflexivity.
  assert (Hpd : p_deposit p2 = p_deposit p + amount /\ p_max_cap p2 = p_max_cap p).
  { destruct dd_end as [(_ & _ & ->)|(_ & ->)]; destruct p; auto. }
  destruct Hpd as [Hpd Hpc].
  destruct (at_intro _ _ _ _ _ _ Hi Hp He dd_link Hr) as [_ Hc _ _ _ Hes Hra Hre].
  pose proof (s_deposit _ _ _ _ _ Hes) as Hd0. pose proof (c_caps _ _ Hc) as Hcap.
  (* without excess the whole deposit is paid *)
  assert (Hno : forall q rr d, p_deposit q <= p_max_cap q -> share_deposit q rr d = 0).
  { intros q rr d Hq. unfold share_deposit, reg_excess, excess. rewrite Z.max_l by lia.
    rewrite Z.mul_0_l. destruct (Z.eq_dec (p_deposit q) 0) as [->|]; [rewrite Zdiv_0_r|rewrite Z.div_0_l by assumption];
    rewrite Z.mul_0_r; (destruct (Z.eq_dec (r_deposit rr) 0) as [->|]; [apply Zdiv_0_r|apply Z.div_0_l; assumption]). }
  rewrite Hde.
  destruct (Z.leb_spec (p_deposit p2) (p_max_cap p2)) as [H1|H1].
  { rewrite (Hno p2), (Hno p) by lia. lia. }
  pose proof (C59_pays_share_of_cap w' k p2 ek _ r' Hw' Hp' ltac:(lia) He' dd_link Hr' ltac:(rewrite Hde; lia)) as [[B _] _].
  rewrite Hde, Hpd, Hpc in B. set (paid' := e_deposit e + amount - _) in *.
  destruct (Z.leb_spec (p_deposit p) (p_max_cap p)) as [H2|H2].
  { rewrite (Hno p) by lia. assert (e_deposit e <= paid'); [|lia].
    apply (Z.mul_le_mono_pos_r _ _ (p_deposit p + amount)); [lia|]. nia. }
  destruct (Z.eq_dec (e_deposit e) 0) as [H0|H0].
  { rewrite H0. unfold share_deposit. rewrite Z.mul_0_l.
    assert (0 <= paid'); [|destruct (Z.eq_dec (r_deposit r) 0) as [->|]; [rewrite Zdiv_0_r|rewrite Z.div_0_l by assumption]; lia].
    apply (Z.mul_le_mono_pos_r _ _ (p_deposit p + amount)); [lia|]. nia. }
  pose proof (C59_pays_share_of_cap w k p ek e r Hw Hp ltac:(lia) He dd_link Hr ltac:(lia)) as [[_ A] _].
  set (paid := e_deposit e - _) in *.
  set (Dp := p_deposit p) in *. set (C := p_max_cap p) in *. set (d := e_deposit e) in *.
  assert (E1 : (paid - 2) * Dp < d * C) by lia.
  assert (Hd1 : d * amount <= Dp * amount) by (apply Z.mul_le_mono_nonneg_r; lia).
  assert (Hd2 : C * (d * amount) <= C * (Dp * amount)) by (apply Z.mul_le_mono_nonneg_l; lia).
  assert (E2 : d * C * (Dp + amount) <= (d + amount) * C * Dp) by lia.
  pose proof (Zmult_lt_compat_r _ _ (Dp + amount) ltac:(lia) E1) as E3.
  pose proof (Z.mul_le_mono_nonneg_r _ _ Dp ltac:(lia) B) as E4.
  assert (E5 : 0 < Dp * (Dp + amount)) by (apply Z.mul_pos_pos; lia).
  assert (paid - 2 < paid'); [|lia].
  apply (Z.mul_lt_mono_pos_r (Dp * (Dp + amount))); [exact E5|]. lia.
Qed.

(** A withdrawal never raises what the escrow gets. *)
Theorem C91_withdrawal_never_raises_own_tokens w k qv qm ek ot owner pr mx h w' l p e r :
  reachable w -> step w (IWithdraw k qv qm ek ot owner pr mx h) = Ok (w', l) ->
  w_presales w !! k = Some p -> w_escrows w !! ek = Some e -> p_regs p !! Z.to_nat (e_idx e) = Some r ->
  exists p' e' r', w_presales w' !! k = Some p' /\ w_escrows w' !! ek = Some e' /\
    p_regs p' !! Z.to_nat (e_idx e') = Some r' /\ e_deposit e' < e_deposit e /\
    final p' r' (e_deposit e') <= final p r (e_deposit e).
Proof.
  intros Hw Hs Hp He Hr. pose proof (reachable_inv _ Hw) as Hi. pose proof (reachable_ok _ _ _ _ Hw Hs) as Hw'.
  cbn in Hs. apply withdraw_did in Hs; [|assumption].
  destruct Hs as (p1 & e1 & r1 & m & amount & w1 & lx & D). destruct D.
  assert (p1 = p) as -> by congruence. assert (e1 = e) as -> by congruence. assert (r1 = r) as -> by congruence.
  set (r' := set_r_deposit (r_deposit r - amount) r).
  assert (Hr2 : p_regs (withdrawn p e r amount) !! Z.to_nat (e_idx e) = Some r').
  { apply lookup_lt_Some in Hr as Hlt. unfold withdrawn; destruct p; cbn in *. apply list_lookup_insert; exact Hlt. }
  assert (Hp' : w_presales w' !! k = Some (withdrawn p e r amount)) by (subst w'; cbn; apply lookup_insert).
  assert (He' : w_escrows w' !! ek = Some (set_e_deposit (e_deposit e - amount) e)) by (subst w'; cbn; apply lookup_insert).
  exists (withdrawn p e r amount), (set_e_deposit (e_deposit e - amount) e), r'.
  split; [exact Hp'|]. split; [exact He'|].
  split; [exact Hr2|]. split; [cbn; lia|].
  cbn [set_e_deposit e_deposit].
  destruct (at_intro w' k ek _ _ r' (reachable_inv _ Hw') Hp' He' dw_link Hr2) as [_ Hc' _ _ _ _ [Hra _] _].
  cbn [set_e_deposit e_deposit] in Hra.
  pose proof (final_mono k (withdrawn p e r amount) (Z.to_nat (e_idx e)) r' r (e_deposit e - amount) amount Hc' Hr2
    ltac:(unfold r'; destruct r; reflexivity) Hra ltac:(lia) ltac:(unfold r'; destruct r; cbn; lia)) as Hx.
  replace (e_deposit e - amount + amount) with (e_deposit e) in Hx by lia.
  rewrite (final_terms p (withdrawn p e r amount) r) in Hx by (destruct p; reflexivity). exact Hx.
Qed.

End WithCrypto.

#[local] Existing Instance toy.

(** Bob brings 30 more and gets 2281 instead of 2221 tokens; or takes 100 back and gets 2000. *)
Example C91_met :
  let tokens w := match found w bob 0 with
    | Some (p, e, r) => Some (e_deposit e, final p r (e_deposit e), e_deposit e - share_deposit p r (e_deposit e))
    | None => None end in
  reachable w_pr_open /\ accepted w_pr_open [dep bob bob_q bob 0 30] = [true] /\
  accepted w_pr_open [back bob bob_q 0 100] = [true] /\
  tokens w_pr_open = Some (600, 2221, 388) /\
  tokens (exec w_pr_open (dep bob bob_q bob 0 30)) = Some (630, 2281, 399) /\
  tokens (exec w_pr_open (back bob bob_q 0 100)) = Some (500, 2000, 345).
Proof.
  cbv zeta. split; [apply reach|]. split; [vm_compute; reflexivity|]. split; [vm_compute; reflexivity|].
  split; [vm_compute; reflexivity|]. split; vm_compute; reflexivity.
Qed.
