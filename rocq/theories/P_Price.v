(** C87-C88: the most a token can cost in a presale without fixed price, and who can change what a
    buyer gets. *)
From Coq Require Import Lia.
From Verif Require Import Base Math State Handlers Token World Instr Exec Tactics Sums Spec Arith
  TokenFacts Inv Acct Funs Steps Init Preserve Reach Did Trans Flow Scenario P_Solvency P_History
  P_Payout P_State P_Limits P_Merkle P_Exit.

Section WithCrypto.
Context `{Crypto}.

(** * C87: no token costs more than the maximum cap spread over the supply of the registry *)

(** What a deposit gets is its proportion of the supply, less at most two rounded down units. *)
Lemma dynamic_share w k p ek e r :
  inv w -> w_presales w !! k = Some p -> p_mode p <> 0 ->
  w_escrows w !! ek = Some e -> e_presale e = k -> p_regs p !! Z.to_nat (e_idx e) = Some r ->
  0 < e_deposit e ->
  final p r (e_deposit e) * r_deposit r <= r_supply r * e_deposit e
    < (final p r (e_deposit e) + 2) * r_deposit r.
Proof.
  intros Hi Hp Hm He Hk Hr Hd.
  destruct (at_intro _ _ _ _ _ _ Hi Hp He Hk Hr) as [Hok Hc Ha Hb Hkp Hs Hra Hre].
  pose proof (parts_range k p _ r Hc Hr ltac:(lia)) as (Hi0 & Hv0 & Hsum).
  assert (Hso : sold p r = r_supply r).
  { unfold sold. destruct (Z.eqb_spec (r_deposit r) 0); [lia|].
    destruct (Z.eqb_spec (p_mode p) 0); [contradiction|reflexivity]. }
  unfold final. set (d := e_deposit e) in *. set (R := r_deposit r) in *.
  set (a := imm_part p r) in *. set (b := vest_part p r) in *.
  pose proof (Z.mul_div_le (a * d) R ltac:(lia)). pose proof (Z.mul_succ_div_gt (a * d) R ltac:(lia)).
  pose proof (Z.mul_div_le (b * d) R ltac:(lia)). pose proof (Z.mul_succ_div_gt (b * d) R ltac:(lia)).
  assert (Hab : r_supply r * d = a * d + b * d) by (rewrite <- Hso, <- Hsum; ring).
  set (x := a * d / R) in *. set (y := b * d / R) in *. lia.
Qed.

(** [paid / got] is at most [p_max_cap p / r_supply r], up to two units of each token. *)
Theorem C87_price_ceiling w k p ek e r :
  reachable w -> w_presales w !! k = Some p -> p_mode p <> 0 ->
  w_escrows w !! ek = Some e -> e_presale e = k -> p_regs p !! Z.to_nat (e_idx e) = Some r ->
  0 < e_deposit e ->
  let paid := e_deposit e - share_deposit p r (e_deposit e) in
  let got := final p r (e_deposit e) in
  (paid - 2) * r_supply r < (got + 2) * p_max_cap p.
Proof.
  intros Hw Hp Hm He Hk Hr Hd paid got. pose proof (reachable_inv _ Hw) as Hi.
  pose proof (dynamic_share _ _ _ _ _ _ Hi Hp Hm He Hk Hr Hd) as Hg. fold got in Hg.
  pose proof (at_intro _ _ _ _ _ _ Hi Hp He Hk Hr) as [Hok Hc Ha Hb Hkp Hs Hra Hre].
  pose proof (c_caps _ _ Hc) as Hcap.
  pose proof (reg_supply_nonneg k p _ r Hc Hr) as Hsu.
  destruct (Z.leb_spec (p_max_cap p) (p_deposit p)) as [HM|HM].
  - pose proof (C59_pays_share_of_cap w k p ek e r Hw Hp HM He Hk Hr Hd) as [[_ B] _]. fold paid in B.
    set (D := p_deposit p) in *. set (C := p_max_cap p) in *. set (R := r_deposit r) in *.
    set (S := r_supply r) in *. set (d := e_deposit e) in *.
    apply (Z.mul_lt_mono_pos_r D); [lia|].
    assert (H1 : (paid - 2) * D < d * C) by lia.
    assert (H2 : S * d < (got + 2) * D).
    { assert (0 < (got + 2) * R) by (pose proof (Z.mul_nonneg_nonneg S d ltac:(lia) ltac:(lia)); lia).
      assert (0 < got + 2) by nia. nia. }
    assert (H3 : (paid - 2) * D * S <= d * C * S) by nia.
    assert (H4 : S * d * C < (got + 2) * D * C) by nia. lia.
  - assert (Hp0 : share_deposit p r (e_deposit e) = 0).
    { unfold share_deposit, reg_excess, excess. rewrite Z.max_l by lia. rewrite Z.mul_0_l, Z.div_0_l by lia.
      rewrite Z.mul_0_r. apply Z.div_0_l. lia. }
    unfold paid. rewrite Hp0.
    set (D := p_deposit p) in *. set (C := p_max_cap p) in *. set (R := r_deposit r) in *.
    set (S := r_supply r) in *. set (d := e_deposit e) in *.
    assert (0 < (got + 2) * R) by (pose proof (Z.mul_nonneg_nonneg S d ltac:(lia) ltac:(lia)); lia).
    assert (0 < got + 2) by nia. nia.
Qed.

(** While the cap is not exceeded, which in a first come first served presale is always, nothing of
    the deposit comes back and only the tokens are rounded. *)
Theorem C87_price_ceiling_within_cap w k p ek e r :
  reachable w -> w_presales w !! k = Some p -> p_mode p <> 0 -> p_mode p = 2 \/ p_deposit p <= p_max_cap p ->
  w_escrows w !! ek = Some e -> e_presale e = k -> p_regs p !! Z.to_nat (e_idx e) = Some r ->
  0 < e_deposit e ->
  share_deposit p r (e_deposit e) = 0 /\
  e_deposit e * r_supply r < (final p r (e_deposit e) + 2) * p_max_cap p.
Proof.
  intros Hw Hp Hm Hcase He Hk Hr Hd. pose proof (reachable_inv _ Hw) as Hi.
  pose proof (dynamic_share _ _ _ _ _ _ Hi Hp Hm He Hk Hr Hd) as Hg.
  pose proof (at_intro _ _ _ _ _ _ Hi Hp He Hk Hr) as [Hok Hc Ha Hb Hkp Hs Hra Hre].
  assert (HM : p_deposit p <= p_max_cap p).
  { destruct Hcase as [H2|H2]; [apply (k_cap _ Hkp); lia|exact H2]. }
  pose proof (c_caps _ _ Hc) as Hcap.
  pose proof (reg_supply_nonneg k p _ r Hc Hr) as Hsu.
  split.
  - unfold share_deposit, reg_excess, excess. rewrite Z.max_l by lia. rewrite Z.mul_0_l, Z.div_0_l by lia.
    rewrite Z.mul_0_r. apply Z.div_0_l. lia.
  - set (got := final p r (e_deposit e)) in *.
    set (D := p_deposit p) in *. set (C := p_max_cap p) in *. set (R := r_deposit r) in *.
    set (S := r_supply r) in *. set (d := e_deposit e) in *.
    assert (0 < (got + 2) * R) by (pose proof (Z.mul_nonneg_nonneg S d ltac:(lia) ltac:(lia)); lia).
    assert (0 < got + 2) by nia. nia.
Qed.

(** * C88: only deposits, withdrawals, claims, refunds, openings and closings of escrows of a
    registry change that registry *)

(** The registry an instruction is about: that of the escrow passed, or of the escrow created. *)
Definition about (w : world) (o : op) : option (addr * Z) :=
  match o with
  | IDeposit k _ _ ek _ _ _ _ _ | IWithdraw k _ _ ek _ _ _ _ _
  | IWithdrawRemaining k _ _ ek _ _ _ _ | IClaim k _ _ ek _ _ _ _ | ICloseEscrow k ek _ _ =>
      e ← w_escrows w !! ek; Some (k, e_idx e)
  | IEscrowPermissionless k _ _ => Some (k, 0)
  | IEscrowCreator k _ _ _ _ i _ | IEscrowMerkle k _ _ _ _ i _ => Some (k, i)
  | _ => None
  end.

(** Everything [final] reads of a presale besides the registry. *)
Lemma final_terms p p' r d : p_mode p' = p_mode p -> p_raw0 p' = p_raw0 p -> p_bps p' = p_bps p ->
  final p' r d = final p r d.
Proof. intros H1 H2 H3. unfold final, imm_part, vest_part, sold, imm_part, sold. rewrite H1, H2, H3. reflexivity. Qed.

Theorem C88_registries_isolated w o w' l k p i r :
  reachable w -> step w o = Ok (w', l) -> w_presales w !! k = Some p ->
  p_regs p !! i = Some r ->
  (forall idx, about w o = Some (k, idx) -> Z.to_nat idx <> i) ->
  exists p', w_presales w' !! k = Some p' /\ p_regs p' !! i = Some r /\
    forall d, final p' r d = final p r d.
Proof.
  intros Hw Hs Hp Hr Hab. pose proof (reachable_inv _ Hw) as Hi.
  pose proof (does_presale w o w' l k (step_does _ _ _ _ Hi Hs)) as Hc.
  destruct Hc as [He|? ? ? ? ? ? ? ? ? ? p2 ? ? ? ? ? ? ? Hnone ?|? idx ? p2 ? Hcr D Hp'
    |? ? ? ? ? ? ? ? p2 ? ? ? ? ? ? ? ? ? -> D Hp'|? ? ? ? ? ? ? ? p2 ? ? ? ? ? ? -> D Hp'
    |? ? ? ? ? ? ? p2 ? ? ? ? ? -> D Hp'|? ? ? ? ? ? ? p2 ? ? ? ? ? -> D Hp'
    |? ? ? p2 ? ? -> D Hp'|? ? ? ? p2 ? ? ? -> D Hp'|? ? ? ? ? ? p2 ? ? ? -> D Hp'|? ? ? ? ? p2 ? ? ? -> D Hp'].
  - exists p. rewrite He. auto.
  - congruence.
  - destruct D. assert (p2 = p) as -> by congruence. eexists. split; [exact Hp'|].
    assert (Hne : i <> Z.to_nat idx).
    { intros ->. destruct o; try discriminate; cbn in Hcr; injection Hcr as -> _ <-; apply (Hab _ eq_refl eq_refl). }
    split; [|intros d; apply final_terms; destruct p; reflexivity].
    rewrite <- Hr. destruct p. cbn. apply list_lookup_insert_ne. congruence.
  - destruct D. cbn in Hab. rewrite dd_escrow in Hab. cbn in Hab.
    assert (p2 = p) as -> by congruence. eexists. split; [exact Hp'|].
    assert (Hne : i <> Z.to_nat (e_idx e)) by (intros ->; apply (Hab _ eq_refl eq_refl)).
    assert (Hd : p_regs (deposited p e r0 amount fee) !! i = Some r).
    { rewrite <- Hr. unfold deposited. destruct p. cbn. apply list_lookup_insert_ne. congruence. }
    destruct dd_end as [(_ & _ & ->)|(_ & ->)].
    + split; [rewrite <- Hd; destruct p; reflexivity|intros d; apply final_terms; destruct p; reflexivity].
    + split; [exact Hd|intros d; apply final_terms; destruct p; reflexivity].
  - destruct D. cbn in Hab. rewrite dw_escrow in Hab. cbn in Hab.
    assert (p2 = p) as -> by congruence. eexists. split; [exact Hp'|].
    assert (Hne : i <> Z.to_nat (e_idx e)) by (intros ->; apply (Hab _ eq_refl eq_refl)).
    split; [|intros d; apply final_terms; destruct p; reflexivity].
    rewrite <- Hr. unfold withdrawn. destruct p. cbn. apply list_lookup_insert_ne. congruence.
  - destruct D. cbn in Hab. rewrite dr_escrow in Hab. cbn in Hab.
    assert (p2 = p) as -> by congruence. eexists. split; [exact Hp'|].
    assert (Hne : i <> Z.to_nat (e_idx e)) by (intros ->; apply (Hab _ eq_refl eq_refl)).
    split; [|intros d; apply final_terms; destruct p; reflexivity].
    rewrite <- Hr. destruct p. cbn. apply list_lookup_insert_ne. congruence.
  - destruct D. cbn in Hab. rewrite dm_escrow in Hab. cbn in Hab.
    assert (p2 = p) as -> by congruence. eexists. split; [exact Hp'|].
    assert (Hne : i <> Z.to_nat (e_idx e)) by (intros ->; apply (Hab _ eq_refl eq_refl)).
    split; [|intros d; apply final_terms; destruct p; reflexivity].
    rewrite <- Hr. destruct p. cbn. apply list_lookup_insert_ne. congruence.
  - destruct D. cbn in Hab. rewrite dx_escrow in Hab. cbn in Hab.
    assert (p2 = p) as -> by congruence. eexists. split; [exact Hp'|].
    assert (Hne : i <> Z.to_nat (e_idx e)) by (intros ->; apply (Hab _ eq_refl eq_refl)).
    split; [|intros d; apply final_terms; destruct p; reflexivity].
    rewrite <- Hr. destruct p. cbn. apply list_lookup_insert_ne. congruence.
  - destruct D. assert (p2 = p) as -> by congruence. eexists. split; [exact Hp'|].
    split; [rewrite <- Hr; destruct p; reflexivity|intros d; apply final_terms; destruct p; reflexivity].
  - destruct D. assert (p2 = p) as -> by congruence. eexists. split; [exact Hp'|].
    split; [rewrite <- Hr; destruct p; reflexivity|intros d; apply final_terms; destruct p; reflexivity].
  - destruct D. assert (p2 = p) as -> by congruence. eexists. split; [exact Hp'|].
    split; [rewrite <- Hr; destruct p; reflexivity|intros d; apply final_terms; destruct p; reflexivity].
Qed.

(** Over any course of events: no operation in [l], as executed from [w], is about registry [i]. *)
Fixpoint quiet (w : world) (l : list op) (k : addr) (i : nat) : Prop :=
  match l with
  | [] => True
  | o :: l' => (forall idx, about w o = Some (k, idx) -> Z.to_nat idx <> i) /\ quiet (exec w o) l' k i
  end.

Theorem C88_isolated_over_time l : forall w k p i r,
  reachable w -> w_presales w !! k = Some p -> p_regs p !! i = Some r -> quiet w l k i ->
  exists p', w_presales (run w l) !! k = Some p' /\ p_regs p' !! i = Some r /\
    forall d, final p' r d = final p r d.
Proof.
  induction l as [|o l IH]; intros w k p i r Hw Hp Hr Hq.
  - exists p. auto.
  - destruct Hq as [Ho Hq].
    assert (Hx : exists p1, w_presales (exec w o) !! k = Some p1 /\ p_regs p1 !! i = Some r /\
      forall d, final p1 r d = final p r d).
    { unfold exec. destruct (step w o) as [[w' lx]|] eqn:Es; [|exists p; auto].
      eapply C88_registries_isolated; eassumption. }
    destruct Hx as (p1 & Hp1 & Hr1 & Hf1).
    destruct (IH (exec w o) k p1 i r (reachable_run _ [o] Hw) Hp1 Hr1 Hq) as (p2 & Hp2 & Hr2 & Hf2).
    exists p2. split; [exact Hp2|]. split; [exact Hr2|]. intros d. rewrite Hf2. apply Hf1.
Qed.

(** A deposit by somebody else into the same registry leaves the supply shared in proportion to the
    deposits: everybody else's tokens shrink by the factor [R / (R + amount)], up to two units. *)
Theorem C88_dilution w k qv qm ek2 pt payer pr mx h w' l p ek e r e2 :
  reachable w -> step w (IDeposit k qv qm ek2 pt payer pr mx h) = Ok (w', l) ->
  w_presales w !! k = Some p -> p_mode p <> 0 ->
  w_escrows w !! ek = Some e -> e_presale e = k -> p_regs p !! Z.to_nat (e_idx e) = Some r ->
  0 < e_deposit e -> ek2 <> ek -> w_escrows w !! ek2 = Some e2 -> e_idx e2 = e_idx e ->
  exists amount p' r', 0 < amount <= mx /\ w_presales w' !! k = Some p' /\ w_escrows w' !! ek = Some e /\
    p_regs p' !! Z.to_nat (e_idx e) = Some r' /\ r_deposit r' = r_deposit r + amount /\
    final p' r' (e_deposit e) <= final p r (e_deposit e) /\
    final p r (e_deposit e) * r_deposit r < (final p' r' (e_deposit e) + 2) * (r_deposit r + amount).
Proof.
  intros Hw Hs Hp Hm He Hk Hr Hd Hne He2 Hix. pose proof (reachable_inv _ Hw) as Hi.
  pose proof Hs as Hs0. cbn in Hs. apply deposit_did in Hs; [|assumption].
  destruct Hs as (p1 & p2 & e1 & r1 & m & amount & fee & gross & w1 & lx & D). destruct D.
  assert (p1 = p) as -> by congruence. assert (e1 = e2) as -> by congruence. rewrite Hix in dd_reg.
  assert (r1 = r) as -> by congruence.
  set (r' := set_r_fee (r_fee r + fee) (set_r_deposit (r_deposit r + amount) r)).
  assert (Hr2 : p_regs p2 !! Z.to_nat (e_idx e) = Some r' /\ p_mode p2 = p_mode p /\ p_raw0 p2 = p_raw0 p /\
    p_bps p2 = p_bps p).
  { apply lookup_lt_Some in Hr as Hlt.
    destruct dd_end as [(_ & _ & ->)|(_ & ->)]; unfold ended_at, deposited; destruct p; cbn in *;
      rewrite Hix; (split; [apply list_lookup_insert; exact Hlt|auto]). }
  destruct Hr2 as (Hr2 & Hm2 & Hq2 & Hb2).
  assert (Hp' : w_presales w' !! k = Some p2) by (subst w'; cbn; apply lookup_insert).
  rest_of dd_transfer.
  assert (He' : w_escrows w' !! ek = Some e).
  { subst w'. cbn. rewrite lookup_insert_ne by congruence. congruence. }
  exists amount, p2, r'. split; [assumption|]. split; [exact Hp'|]. split; [exact He'|]. split; [exact Hr2|].
  split; [unfold r'; destruct r; reflexivity|].
  pose proof (dynamic_share _ _ _ _ _ _ Hi Hp Hm He Hk Hr Hd) as B1.
  assert (Hi' : inv w').
  { apply reachable_inv. replace w' with (exec w (IDeposit k qv qm ek2 pt payer pr mx h)) by (unfold exec; rewrite Hs0; reflexivity).
    apply (reachable_run _ [_]). assumption. }
  pose proof (dynamic_share w' k p2 ek e r' Hi' Hp' ltac:(congruence) He' Hk Hr2 Hd) as B2.
  assert (Hd2 : r_deposit r' = r_deposit r + amount) by (unfold r'; destruct r; reflexivity).
  assert (Hs2 : r_supply r' = r_supply r) by (unfold r'; destruct r; reflexivity).
  rewrite Hd2, Hs2 in B2.
  destruct (at_intro _ _ _ _ _ _ Hi Hp He Hk Hr) as [Hok Hc Ha Hb Hkp Hes Hra Hre].
  split; [|lia].
  rewrite (final_terms p p2 r' _ Hm2 Hq2 Hb2).
  pose proof (parts_range k p _ r Hc Hr ltac:(lia)) as (Hi0 & Hv0 & Hsum).
  assert (Hpart : imm_part p r' = imm_part p r /\ vest_part p r' = vest_part p r).
  { assert (sold p r' = sold p r).
    { unfold sold. rewrite Hd2, Hs2. destruct (Z.eqb_spec (p_mode p) 0); [contradiction|].
      destruct (Z.eqb_spec (r_deposit r + amount) 0); [lia|]. destruct (Z.eqb_spec (r_deposit r) 0); [lia|reflexivity]. }
    unfold vest_part, imm_part. rewrite H0. auto. }
  destruct Hpart as [Hpi Hpv]. unfold final. rewrite Hpi, Hpv, Hd2.
  apply Z.add_le_mono; apply Z.div_le_compat_l; try (split; lia); apply Z.mul_nonneg_nonneg; lia.
Qed.

End WithCrypto.

#[local] Existing Instance toy.

(** The oversubscribed prorata presale: bob deposited 600 and gets 212 back, pays 388 for 2221 tokens; at
    1000 for 5000 they would pay at most 444. In the first come first served presale alice pays all. *)
Example C87_met :
  reachable w_pr_over /\ reachable w_fc_open /\
  (exists p e r, found w_pr_over bob 0 = Some (p, e, r) /\ e_presale e = k1 /\ p_mode p = 1 /\
     e_deposit e = 600 /\ e_deposit e - share_deposit p r (e_deposit e) = 388 /\
     final p r (e_deposit e) = 2221 /\ r_supply r = 5000 /\ p_max_cap p = 1000) /\
  (exists p e r, found w_fc_open alice 0 = Some (p, e, r) /\ e_presale e = k1 /\ p_mode p = 2 /\
     0 < e_deposit e).
Proof.
  split; [apply reach|]. split; [apply reach|]. split.
  - eexists _, _, _. split; [vm_compute; reflexivity|]. vm_compute. repeat split; reflexivity.
  - eexists _, _, _. split; [vm_compute; reflexivity|]. vm_compute. repeat split; reflexivity.
Qed.

(** Alice deposits 10 more and bob takes 5 back in registry 0, nobody touches carol's registry 1; the first
    of the two dilutes bob. *)
Example C88_met :
  let l := [dep alice alice_q alice 0 10; back bob bob_q 0 5] in
  map (about w_pr_open) l = [Some (k1, 0); Some (k1, 0)] /\
  quiet w_pr_open l k1 1 /\ accepted w_pr_open l = [true; true] /\
  (exists p e r, found w_pr_open bob 0 = Some (p, e, r) /\ final p r (e_deposit e) = 2221) /\
  (exists p e r, found (exec w_pr_open (dep alice alice_q alice 0 10)) bob 0 = Some (p, e, r) /\
     e_deposit e = 600 /\ final p r (e_deposit e) = 2205).
Proof.
  cbv zeta. split; [vm_compute; reflexivity|]. split.
  { assert (Ha : about w_pr_open (dep alice alice_q alice 0 10) = Some (k1, 0)) by (vm_compute; reflexivity).
    assert (Hb : about (exec w_pr_open (dep alice alice_q alice 0 10)) (back bob bob_q 0 5) = Some (k1, 0))
      by (vm_compute; reflexivity).
    split; [|split; [|exact I]].
    - intros idx Hx. rewrite Ha in Hx. injection Hx as <-. discriminate.
    - intros idx Hx. rewrite Hb in Hx. injection Hx as <-. discriminate. }
  split; [vm_compute; reflexivity|]. split.
  - eexists _, _, _. split; [vm_compute; reflexivity|]. vm_compute. reflexivity.
  - eexists _, _, _. split; [vm_compute; reflexivity|]. vm_compute. repeat split; reflexivity.
Qed.
