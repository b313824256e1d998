(** C64: filling a first come first served presale. *)
From Coq Require Import Lia.
From Verif Require Import Base Math State Handlers Token World Instr Exec Tactics Sums Spec Arith
  TokenFacts Inv Acct Funs Steps Init Preserve Reach Did Trans Flow Scenario P_Solvency P_State
  P_History P_Payout P_Arith P_Deposit P_Config P_Limits.

Section WithCrypto.
Context `{Crypto}.

(** Every escrow of the presale is empty or at its limit. *)
Definition all_full (w : world) (k : addr) : Prop :=
  forall ek e, w_escrows w !! ek = Some e -> e_presale e = k -> e_deposit e = 0 \/ e_deposit e = e_cap e.

(** The rest of the cap is smaller than the smallest first deposit of any registry. *)
Definition rest_too_small (p : presale) : Prop :=
  forall i r, p_regs p !! i = Some r -> (i < Z.to_nat (p_nreg p))%nat -> p_max_cap p - p_deposit p < r_min_cap r.

Lemma fcfs_blocked w k p qv qm ek pt payer pr mx h w' l :
  reachable w -> w_presales w !! k = Some p -> p_mode p = 2 -> all_full w k -> rest_too_small p ->
  step w (IDeposit k qv qm ek pt payer pr mx h) <> Ok (w', l).
Proof.
  intros Hw Hp Hm Hfull Hrest Hs. pose proof (reachable_inv _ Hw) as Hi. cbn [step] in Hs.
  apply (deposit_did _ _ _ _ _ _ _ _ _ _ _ _ Hi) in Hs as (p0 & p2 & e & r & m & a & f & g & w1 & lx & D).
  destruct D. assert (p0 = p) as -> by congruence.
  destruct (s_idx _ _ _ _ _ (at_esc _ _ _ _ _ _ dd_at)) as [I0 I1].
  pose proof (Hrest _ _ dd_reg ltac:(lia)) as Hlt. specialize (dd_cap ltac:(lia)).
  destruct (Hfull _ _ dd_escrow dd_link) as [Hz|Hz]; lia.
Qed.

Lemma full_step w k p o w' l :
  reachable w -> w_presales w !! k = Some p -> p_mode p = 2 -> all_full w k -> rest_too_small p ->
  step w o = Ok (w', l) -> all_full w' k.
Proof.
  intros Hw Hp Hm Hfull Hrest Hs ek e' He' Hk.
  destruct (does_escrow _ _ _ _ ek (step_does _ _ _ _ (reachable_inv _ Hw) Hs)) as
    [Hsame|k0 owner idx cap p0 r Ho Hek D He|k0 qv qm pt payer pr mx h0 p0 p2 e r m amount fee gross w1 lx Ho D He
    |k0 qv qm ot owner pr mx h0 p0 e r m amount w1 lx Ho D He|k0 qv qm ot owner pr h0 p0 e r m w1 lx Ho D He
    |k0 bv bm ot owner pr h0 p0 e r m w1 lx Ho D He|k0 p0 e e1 r Ho D He|k0 owner rr p0 e r Ho D He].
  - apply (Hfull ek); congruence.
  - rewrite He in He'. apply Some_inj in He'. subst e'. left. reflexivity.
  - exfalso. rewrite He in He'. apply Some_inj in He'. subst e'. subst o. destruct D.
    change (e_presale e = k) in Hk. assert (k0 = k) as -> by congruence.
    exact (fcfs_blocked _ _ _ _ _ _ _ _ _ _ _ _ _ Hw Hp Hm Hfull Hrest Hs).
  - exfalso. rewrite He in He'. apply Some_inj in He'. subst e'. subst o. destruct D.
    change (e_presale e = k) in Hk. assert (k0 = k) as -> by congruence. assert (p0 = p) as -> by congruence.
    unfold withdrawals_on in dw_mode. lia.
  - rewrite He in He'. apply Some_inj in He'. subst e'. destruct D. apply (Hfull ek e); assumption.
  - rewrite He in He'. apply Some_inj in He'. subst e'. destruct D. apply (Hfull ek e); assumption.
  - rewrite He in He'. apply Some_inj in He'. subst e'. destruct D.
    destruct df_what as [(_ & _ & ->)|(_ & ->)]; apply (Hfull ek e); assumption.
  - congruence.
Qed.

(** Without withdrawals only a deposit changes the deposit totals. *)
Lemma quiet_step w k p o w' l :
  reachable w -> step w o = Ok (w', l) -> w_presales w !! k = Some p -> ~ withdrawals_on p ->
  (forall qv qm ek pt payer pr mx h, o <> IDeposit k qv qm ek pt payer pr mx h) ->
  exists p', w_presales w' !! k = Some p' /\ terms_of p' = terms_of p /\ deposits_of p' = deposits_of p.
Proof.
  intros Hw Hs Hp Hoff Hno. pose proof (reachable_inv _ Hw) as Hi.
  destruct (presale_moves _ _ _ _ _ _ Hi Hs Hp) as (p2 & Hp2 & Hm).
  exists p2. split; [assumption|]. split; [apply (mv_terms _ _ _ Hm)|]. clear Hm.
  destruct (does_presale _ _ _ _ k (step_does _ _ _ _ Hi Hs)) as
    [Hn|base bm0 qm0 pt cr pay bp qp a h0 p0 bm qm gross w1 lx Ho D Hnone Hn|owner idx cap p0 r Ho D Hn
    |qv qm ek pt payer pr mx h0 p0 p3 e r m amount fee gross w1 lx Ho D Hn
    |qv qm ek ot owner pr mx h0 p0 e r m amount w1 lx Ho D Hn
    |qv qm ek ot owner pr h0 p0 e r m w1 lx Ho D Hn|bv bm ek ot owner pr h0 p0 e r m w1 lx Ho D Hn
    |ek owner rr p0 e r Ho D Hn|ot owner pr h0 p0 m w1 lx Ho D Hn|qv qm rcv owner pr h0 p0 m w1 lx Ho D Hn
    |bv bm ct pr h0 p0 m w1 lx Ho D Hn].
  1: congruence.
  1: congruence.
  2: { exfalso. eapply Hno. exact Ho. }
  2: { exfalso. destruct D. same_p Hp. exact (Hoff dw_mode). }
  all: rewrite Hp2 in Hn; apply Some_inj in Hn; subst p2; destruct D; same_p Hp; same_regs.
Qed.

(** Once every buyer is at their limit and the rest of the cap is smaller than the smallest first
    deposit, nothing is ever deposited again. *)
Lemma fcfs_stuck w k p l :
  reachable w -> w_presales w !! k = Some p -> p_mode p = 2 -> all_full w k -> rest_too_small p ->
  exists p', w_presales (run w l) !! k = Some p' /\ terms_of p' = terms_of p /\ deposits_of p' = deposits_of p /\
    all_full (run w l) k.
Proof.
  intros Hw Hp Hm Hfull Hrest. induction l as [|o l IH] using rev_ind; [exists p; auto|].
  destruct IH as (p1 & Hp1 & Ht1 & Hd1 & Hf1). pose proof (reachable_run _ l Hw) as Hw1.
  assert (Hm1 : p_mode p1 = 2) by (unfold terms_of in Ht1; congruence).
  assert (Hr1 : rest_too_small p1).
  { intros i r Hr Hi. destruct (terms_regs _ _ _ _ Ht1 Hr) as (r0 & Hr0 & _ & -> & _).
    assert (p_nreg p1 = p_nreg p) by (unfold terms_of in Ht1; congruence).
    assert (p_max_cap p1 = p_max_cap p) by (unfold terms_of in Ht1; congruence).
    assert (p_deposit p1 = p_deposit p) by (unfold deposits_of in Hd1; congruence).
    specialize (Hrest _ _ Hr0 ltac:(congruence)). lia. }
  rewrite run_app. change (run (run w l) [o]) with (exec (run w l) o).
  destruct (step (run w l) o) as [[w2 fx]|] eqn:Hs.
  2: { unfold exec. rewrite Hs. exists p1. auto. }
  destruct (quiet_step _ k p1 _ _ _ Hw1 Hs Hp1) as (p2 & Hp2 & Ht2 & Hd2).
  - unfold withdrawals_on. lia.
  - intros qv qm ek pt payer pr mx h0 ->. exact (fcfs_blocked _ _ _ _ _ _ _ _ _ _ _ _ _ Hw1 Hp1 Hm1 Hf1 Hr1 Hs).
  - unfold exec. rewrite Hs. exists p2. split; [exact Hp2|]. split; [congruence|]. split; [congruence|].
    eapply full_step; eassumption.
Qed.

(** The limit of an escrow lies within the limits of its registry, always. *)
Theorem C10_limit_in_range w k p ek e r :
  reachable w -> w_presales w !! k = Some p -> w_escrows w !! ek = Some e -> e_presale e = k ->
  p_regs p !! Z.to_nat (e_idx e) = Some r -> 0 < e_cap e /\ r_min_cap r <= e_cap e <= r_max_cap r.
Proof.
  intros [l ->]. revert k p ek e r. induction l as [|o l IH] using rev_ind; intros k p ek e r Hp He Hk Hr; [discriminate|].
  rewrite run_app in Hp, He. change (run (run genesis l) [o]) with (exec (run genesis l) o) in Hp, He.
  assert (Hw : reachable (run genesis l)) by (exists l; reflexivity). pose proof (reachable_inv _ Hw) as Hi.
  unfold exec in Hp, He. destruct (step (run genesis l) o) as [[w' fx]|] eqn:Hs; [|eapply IH; eassumption].
  assert (Hold : forall p0 idx cap, w_presales (run genesis l) !! k = Some p0 -> e_idx e = idx -> e_cap e = cap ->
    (forall r0, p_regs p0 !! Z.to_nat idx = Some r0 -> 0 < cap /\ r_min_cap r0 <= cap <= r_max_cap r0) ->
    0 < e_cap e /\ r_min_cap r <= e_cap e <= r_max_cap r).
  { intros p0 idx cap Hp0 <- <- Hall. destruct (presale_moves _ _ _ _ _ _ Hi Hs Hp0) as (p2 & Hp2 & Hmv).
    assert (p2 = p) as -> by congruence.
    destruct (terms_regs _ _ _ _ (mv_terms _ _ _ Hmv) Hr) as (r0 & Hr0 & _ & -> & ->). apply Hall. assumption. }
  assert (Hkeep : forall e0, w_escrows (run genesis l) !! ek = Some e0 -> e_presale e0 = k -> e_idx e = e_idx e0 ->
    e_cap e = e_cap e0 -> 0 < e_cap e /\ r_min_cap r <= e_cap e <= r_max_cap r).
  { intros e0 He0 Hk0 Hx Hc. destruct (i_escrows _ Hi _ _ He0) as [p0 Hp0]. rewrite Hk0 in Hp0.
    apply (Hold p0 (e_idx e0) (e_cap e0) Hp0 Hx Hc). intros r0 Hr0. exact (IH _ _ _ _ _ Hp0 He0 Hk0 Hr0). }
  destruct (does_escrow _ _ _ _ ek (step_does _ _ _ _ Hi Hs)) as
    [Hsame|k0 owner idx cap p0 r0 Ho Hek D He0|k0 qv qm pt payer pr mx h0 p0 p2 e0 r0 m amount fee gross w1 lx Ho D He0
    |k0 qv qm ot owner pr mx h0 p0 e0 r0 m amount w1 lx Ho D He0|k0 qv qm ot owner pr h0 p0 e0 r0 m w1 lx Ho D He0
    |k0 bv bm ot owner pr h0 p0 e0 r0 m w1 lx Ho D He0|k0 p0 e0 e1 r0 Ho D He0|k0 owner rr p0 e0 r0 Ho D He0].
  - apply (Hkeep e); congruence.
  - rewrite He in He0. apply Some_inj in He0. subst e. destruct D. cbn in Hk. subst k0.
    apply (Hold p0 idx cap dc_presale eq_refl eq_refl). intros r1 Hr1. assert (r1 = r0) as -> by congruence. exact dc_cap.
  - rewrite He in He0. apply Some_inj in He0. subst e. destruct D. change (e_presale e0 = k) in Hk. apply (Hkeep e0); auto.
  - rewrite He in He0. apply Some_inj in He0. subst e. destruct D. change (e_presale e0 = k) in Hk. apply (Hkeep e0); auto.
  - rewrite He in He0. apply Some_inj in He0. subst e. destruct D. change (e_presale e0 = k) in Hk. apply (Hkeep e0); auto.
  - rewrite He in He0. apply Some_inj in He0. subst e. destruct D. change (e_presale e0 = k) in Hk. apply (Hkeep e0); auto.
  - rewrite He in He0. apply Some_inj in He0. subst e. destruct D.
    destruct df_what as [(_ & _ & ->)|(_ & ->)]; change (e_presale e0 = k) in Hk; apply (Hkeep e0); auto.
  - congruence.
Qed.

(** A presale that has not reached its minimum still has room for a first deposit of every registry
    when the gap between its caps is at least as wide as the smallest first deposit. *)
Definition gap_fits (p : presale) : Prop :=
  forall i r, p_regs p !! i = Some r -> (i < Z.to_nat (p_nreg p))%nat -> r_min_cap r <= p_max_cap p - p_min_cap p + 1.

Theorem C64_wide_gap_never_stuck w k p ek e r pt payer pr h m f :
  reachable w -> w_presales w !! k = Some p -> w_escrows w !! ek = Some e -> e_presale e = k ->
  p_regs p !! Z.to_nat (e_idx e) = Some r -> open_for_deposits p (w_now w) -> p_mode p = 2 ->
  gap_fits p -> p_deposit p < p_min_cap p -> e_deposit e < e_cap e ->
  let n := Z.max 1 (r_min_cap r - e_deposit e) in
  is_wallet payer = true -> 0 <= f -> covers (r_fee_bps r) n f ->
  payable w (PQuoteVault k) (p_qmint p) pt payer pr h m (n + f) ->
  exists w' l p', step w (IDeposit k (PQuoteVault k) (p_qmint p) ek pt payer pr n h) = Ok (w', l) /\
    w_presales w' !! k = Some p' /\ p_deposit p' = p_deposit p + n.
Proof.
  intros Hw Hp He Hk Hr Hop Hm Hgap Hlow Hroom n Hsg Hf Hcov Hpay.
  pose proof (reachable_inv _ Hw) as Hi. pose proof (at_intro _ _ _ _ _ _ Hi Hp He Hk Hr) as Hat.
  pose proof (at_esc _ _ _ _ _ _ Hat) as Hes. destruct (s_idx _ _ _ _ _ Hes) as [I0 I1].
  destruct (s_reg _ _ _ _ _ Hes r Hr) as (Hcap & _ & Hmin). pose proof (s_deposit _ _ _ _ _ Hes) as Hd0.
  pose proof (Hgap _ _ Hr ltac:(lia)) as Hg. pose proof (C10_limit_in_range _ _ _ _ _ _ Hw Hp He Hk Hr) as Hrg.
  pose proof (c_caps _ _ (at_cfg _ _ _ _ _ _ Hat)) as Hcs.
  assert (Hn : n = Z.max 1 (r_min_cap r - e_deposit e)) by reflexivity. clearbody n.
  destruct (C39_deposit_succeeds w k p ek e r pt payer pr n h m f) as (w' & l & e' & Hs & He' & Hd & _);
    try assumption; try lia; try (intros; lia).
  exists w', l.
  pose proof Hs as Hx. cbn [step] in Hx.
  apply (deposit_did _ _ _ _ _ _ _ _ _ _ _ _ Hi) in Hx as (p0 & p2 & e0 & r0 & m0 & a & f0 & g & w1 & lx & D).
  destruct D. assert (p0 = p) as -> by congruence. assert (e0 = e) as -> by congruence.
  exists p2. split; [assumption|]. subst w'. cbn in He'.
  rewrite lookup_insert in He'. apply Some_inj in He'. subst e'. cbn in Hd.
  assert (a = n) as -> by lia.
  split; [cbn; rewrite lookup_insert; reflexivity|].
  destruct dd_end as [(_ & _ & ->)|(_ & ->)]; reflexivity.
Qed.

End WithCrypto.

(** * The counterexample *)

#[local] Existing Instance toy.

(** Between 95 and 100 wanted, 30 to 45 per buyer: three buyers can fill the presale. *)
Definition fill_args : init_args :=
  mkInitArgs (mkPreArgs 100 95 1000 2000 0 2 0 0) (mkLocked 0 0 0 0 []) [mkRegArgs 30 45 3000 0].
Definition fill_pre : list op := setup ++ [
  IInitPresale base1 bmint qmint creator_b creator creator Token2022 SplToken fill_args noh;
  IEscrowPermissionless k1 alice alice; IEscrowPermissionless k1 bob bob; IEscrowPermissionless k1 carol carol ].
Definition fill_good : list op := [dep alice alice_q alice 0 35; dep bob bob_q bob 0 35; dep carol carol_q carol 0 30].
(** Two of them depositing their limit make that impossible. *)
Definition fill_bad : list op := [dep alice alice_q alice 0 45; dep bob bob_q bob 0 45].

Definition full_b (k : addr) (e : escrow) : bool :=
  negb (beq_addr (e_presale e) k) || (e_deposit e =? 0) || (e_deposit e =? e_cap e).
Lemma full_check w k : bool_decide (map_Forall (fun _ e => full_b k e = true) (w_escrows w)) = true -> all_full w k.
Proof.
  intros Hb ek e He Hk. apply bool_decide_eq_true_1 in Hb. specialize (Hb ek e He). cbv beta in Hb.
  unfold full_b in Hb. rewrite Hk, beq_addr_refl in Hb. cbn in Hb.
  apply orb_true_iff in Hb as [Hb|Hb]; apply Z.eqb_eq in Hb; auto.
Qed.

(** An open first come first served presale whose minimum can be reached; two accepted deposits later
    it is still open and below its minimum, and will fail whatever anybody does. *)
Theorem C64_minimum_blocked_refuted :
  exists w k l1 l2, reachable w /\
    (exists p, w_presales (run w l1) !! k = Some p /\ p_min_cap p <= p_deposit p) /\
    forallb id (accepted w l2) = true /\
    (exists p, w_presales (run w l2) !! k = Some p /\ p_mode p = 2 /\
       open_for_deposits p (w_now (run w l2)) /\ p_deposit p < p_min_cap p) /\
    forall l, exists p, w_presales (run (run w l2) l) !! k = Some p /\ p_deposit p < p_min_cap p.
Proof.
  exists (run genesis fill_pre), k1, fill_good, fill_bad.
  split; [apply reach|]. split.
  { assert (Hg : option_map (fun p => p_min_cap p <=? p_deposit p) (w_presales (run (run genesis fill_pre) fill_good) !! k1) = Some true)
      by (vm_compute; reflexivity).
    destruct (w_presales (run (run genesis fill_pre) fill_good) !! k1) as [p|]; [|discriminate].
    exists p. split; [reflexivity|]. cbn in Hg. injection Hg as Hg. apply Z.leb_le. assumption. }
  split; [vm_compute; reflexivity|].
  set (w := run (run genesis fill_pre) fill_bad).
  assert (Hw : reachable w) by (apply reachable_run, reach).
  assert (Hg : option_map (fun p => (p_mode p, p_start p, p_end p, p_deposit p, p_min_cap p, p_max_cap p, p_nreg p,
      map r_min_cap (p_regs p))) (w_presales w !! k1) =
    Some (2, 1000, 2000, 90, 95, 100, 1, [30; 0; 0; 0; 0])) by (vm_compute; reflexivity).
  assert (Hn : w_now w = 1000) by (vm_compute; reflexivity).
  assert (Hf : all_full w k1) by (apply full_check; vm_compute; reflexivity).
  clearbody w. destruct (w_presales w !! k1) as [p|] eqn:Hp; [|discriminate]. cbn [option_map] in Hg.
  injection Hg as G1 G2 G3 G4 G5 G6 G7 G8.
  assert (Hr : rest_too_small p).
  { intros i r Hr Hi. rewrite G7 in Hi. assert (i = 0%nat) as -> by lia.
    assert (Hm : map r_min_cap (p_regs p) !! 0%nat = Some (r_min_cap r)) by (rewrite list_lookup_fmap, Hr; reflexivity).
    rewrite G8 in Hm. injection Hm as <-. lia. }
  split.
  { exists p. split; [reflexivity|]. split; [assumption|]. split; [|lia]. unfold open_for_deposits. lia. }
  intros l. destruct (fcfs_stuck w k1 p l Hw Hp G1 Hf Hr) as (p' & Hp' & Ht & Hd & _).
  exists p'. split; [assumption|].
  assert (p_min_cap p' = p_min_cap p) by (unfold terms_of in Ht; congruence).
  assert (p_deposit p' = p_deposit p) by (unfold deposits_of in Hd; congruence). lia.
Qed.

(** The hypotheses of C64_wide_gap_never_stuck and C10_limit_in_range are met: the presale of
    [ff_args] asks for 500 to 1000 with first deposits of 10, and stands at 400. *)
Example C64_example :
  match w_presales w_ff_open !! k1, w_escrows w_ff_open !! esc alice 0 with
  | Some p, Some e =>
      (p_mode p =? 2) && (p_deposit p <? p_min_cap p) && (e_deposit e <? e_cap e) && (p_start p <=? w_now w_ff_open)
      && (w_now w_ff_open <? p_end p) && (p_nreg p =? 1)
      && match p_regs p !! 0%nat with Some r => r_min_cap r <=? p_max_cap p - p_min_cap p + 1 | None => false end
      && ok_step w_ff_open (dep alice alice_q alice 0 1)
  | _, _ => false
  end = true.
Proof. vm_compute. reflexivity. Qed.
