(** The remaining operations preserve the invariant; every reachable state satisfies it. *)
From Coq Require Import Lia.
From Verif Require Import Base Math State Handlers Token World Instr Exec Spec Tactics Sums Arith
  TokenFacts Inv Acct Funs Steps Init Preserve.

(** * Facts available at an escrow of a state satisfying the invariant *)
Record at_escrow (w : world) (k ek : addr) (p : presale) (e : escrow) (r : registry) : Prop := {
  at_ok : presale_ok w k p;
  at_cfg : cfg k p;
  at_acct : acct (w_now w) k p (w_escrows w);
  at_books : books k p (w_escrows w);
  at_caps : caps p;
  at_esc : esc_ok (w_now w) k p ek e;
  at_range : 0 <= e_deposit e <= r_deposit r /\ 0 <= e_fee e <= r_fee r;
  at_reg : 0 <= r_deposit r <= p_deposit p /\ 0 <= r_fee r <= p_fee p /\
           0 <= r_claimed r <= p_claimed p /\ 0 <= r_refunded r <= p_refunded p
}.
Lemma at_intro w k ek p e r :
  inv w -> w_presales w !! k = Some p -> w_escrows w !! ek = Some e -> e_presale e = k ->
  p_regs p !! Z.to_nat (e_idx e) = Some r -> at_escrow w k ek p e r.
Proof.
  intros Hi Hp He Hk Hr. pose proof (i_presales _ Hi _ _ Hp) as Hok.
  pose proof (q_acct _ _ _ Hok) as Ha. constructor; try assumption.
  - apply (q_cfg _ _ _ Hok).
  - apply (a_books _ _ _ _ Ha).
  - apply (a_caps _ _ _ _ Ha).
  - apply (a_esc _ _ _ _ Ha _ _ He Hk).
  - eapply esc_le_reg; eassumption.
  - eapply books_reg_le; [apply (a_books _ _ _ _ Ha)|eassumption].
Qed.
Lemma at_exists w k ek p e :
  inv w -> w_presales w !! k = Some p -> w_escrows w !! ek = Some e -> e_presale e = k ->
  exists r, p_regs p !! Z.to_nat (e_idx e) = Some r.
Proof.
  intros Hi Hp He Hk. pose proof (i_presales _ Hi _ _ Hp) as Hok.
  eapply esc_reg; [apply (q_cfg _ _ _ Hok)|]. apply (a_esc _ _ _ _ (q_acct _ _ _ Hok) _ _ He Hk).
Qed.

(** A registry update that leaves supply, caps, fee rate, deposits and fees alone. *)
Lemma quiet_reg k p p' idx r r' :
  cfg k p -> p_regs p !! Z.to_nat idx = Some r -> 0 <= idx < p_nreg p ->
  reg_terms r' = reg_terms r -> r_deposit r' = r_deposit r -> r_fee r' = r_fee r ->
  p_regs p' = <[Z.to_nat idx := r']> (p_regs p) ->
  same_terms (set_reg p idx r') p' -> same_timing p p' -> p_deposit p' = p_deposit p ->
  same_terms p p' /\ cfg k p' /\ fee_income p' = fee_income p /\ unsold p' = unsold p.
Proof.
  intros Hc Hr Hidx Ht Hd Hf Hrs Hst Htm Hdep.
  assert (Hst' : same_terms p p').
  { eapply same_terms_trans; [|exact Hst]. eapply set_reg_terms; eassumption. }
  split; [assumption|]. split; [|split].
  - eapply cfg_same; try eassumption. intros i x Hx Hlt. rewrite Hrs in Hx.
    eapply (zero_tail_set p idx r r'); [apply (cfg_zero_tail _ _ Hc)|assumption|assumption|exact Hx|].
    rewrite (t_nreg_eq _ _ Hst') in Hlt. exact Hlt.
  - eapply fee_income_ext; try eassumption. apply (t_max_eq _ _ Hst').
  - eapply unsold_ext; try eassumption.
    + apply (t_supply_eq _ _ Hst').
    + apply (t_mode_eq _ _ Hst').
    + apply (t_raw0_eq _ _ Hst').
    + injection Ht. auto.
Qed.

(** * Refund of remaining quote *)

(** The amount a successful withdraw_remaining_quote pays. *)
Lemma refund_amount w k ek p e r rd rf :
  inv w -> w_presales w !! k = Some p -> w_escrows w !! ek = Some e -> e_presale e = k ->
  p_regs p !! Z.to_nat (e_idx e) = Some r -> escrow_remaining_quote p e (w_now w) = Ok (rd, rf) ->
  p_end p <= w_now w /\ 0 <= rd /\ 0 <= rf /\
  ((p_deposit p < p_min_cap p /\ rd = e_deposit e /\ rf = e_fee e) \/
   (p_min_cap p <= p_deposit p /\ p_mode p = 1 /\ rd = share_deposit p r (e_deposit e) /\
    rf = share_fee p r (e_fee e))).
Proof.
  intros Hi Hp He Hk Hr Hx. destruct (at_intro _ _ _ _ _ _ Hi Hp He Hk Hr).
  pose proof (remaining_inv k p at_cfg0 _ _ _ Hx) as [Hfl|[Hsu Hm]].
  - rewrite (remaining_failed k p at_cfg0) in Hx by assumption. apply Ok_inj in Hx. injection Hx as <- <-.
    destruct Hfl. split; [assumption|]. split; [lia|]. split; [lia|]. left. auto.
  - rewrite (remaining_completed k p _ at_cfg0 at_books0 e r) in Hx by (assumption || lia).
    apply Ok_inj in Hx. injection Hx as <- <-. destruct Hsu.
    pose proof (c_caps _ _ at_cfg0).
    split; [assumption|]. split; [apply share_deposit_range; lia|].
    split; [apply share_fee_range; lia|]. right. auto.
Qed.

Lemma pres_remaining w k qv qm ek ot owner pr h w' l :
  inv w -> withdraw_remaining_quote w k qv qm ek ot owner pr h = Ok (w', l) -> inv w'.
Proof.
  intros Hi Hx. apply remaining_quote_inv in Hx as
    (p & e & r & m & rd & rf & net & w1 & fx & Hnow & Hp & Hqv & Hqm & Hm & He & Hk & Ho & Hsg &
     Hfl & Hrem & H64 & Hr & Hr64 & Hp64 & Hpaid & _ & -> & _).
  destruct (at_intro _ _ _ _ _ _ Hi Hp He Hk Hr).
  destruct (refund_amount _ _ _ _ _ _ _ _ Hi Hp He Hk Hr Hrem) as (Hend & Hrd & Hrf & Hcase).
  set (x := rd + rf) in *.
  assert (Hx0 : 0 <= x) by lia.
  assert (Hpays : pays w w1 qv x) by (eapply paid_pays; [apply (i_tokens _ Hi)|eassumption|eassumption]).
  assert (Hflag : e_withdrawn e = 0) by (destruct (s_flag _ _ _ _ _ at_esc0); [assumption|contradiction]).
  set (p' := set_p_refunded _ _).
  set (r' := set_r_refunded (r_refunded r + x) r).
  destruct (quiet_reg k p p' (e_idx e) r r') as (Q1 & Q2 & Q3 & Q4);
    try assumption; try reflexivity; try (constructor; reflexivity).
  { apply (s_idx _ _ _ _ _ at_esc0). }
  destruct (upd_both w w1 k p' ek (set_e_withdrawn 1 e) (pay_rest _ _ _ _ Hpays))
    as (U1 & U2 & U3 & U4 & U5 & U6 & U7 & U8 & U9).
  eapply (inv_pay w w1 _ k p p' qv x); try eassumption.
  - rewrite U3. eapply others_update; [eassumption|assumption|exact Hk].
  - left. split; [rewrite <- Hqv; apply (c_qvault _ _ at_cfg0)|].
    unfold qneed, bneed. rewrite Q3, Q4. cbn. lia.
  - rewrite U3. eapply acct_refund; try eassumption.
    destruct (Z.leb_spec (p_min_cap p) (p_deposit p)); subst x.
    + destruct Hcase as [|(_ & _ & -> & ->)]; [lia|reflexivity].
    + destruct Hcase as [(_ & -> & ->)|]; [reflexivity|lia].
Qed.

(** * Claim and refresh *)

(** The pending amount after an update is what is owed and not yet claimed. *)
Lemma pending_after w k ek p e r hh e1 :
  inv w -> w_presales w !! k = Some p -> w_escrows w !! ek = Some e -> e_presale e = k ->
  p_regs p !! Z.to_nat (e_idx e) = Some r -> get_handler p = Ok hh ->
  handler_update_pending hh p e (w_now w) = Ok e1 ->
  e1 = set_e_refreshed (w_now w)
         (set_e_pending (entitled p r (e_deposit e) (w_now w) - e_claimed e) e) /\
  0 <= e_pending e <= entitled p r (e_deposit e) (w_now w) - e_claimed e.
Proof.
  intros Hi Hp He Hk Hr Hh Hx. destruct (at_intro _ _ _ _ _ _ Hi Hp He Hk Hr).
  apply update_pending_inv in Hx as (cum & Hcum & Hle & _ & _ & ->).
  pose proof (i_now _ Hi).
  rewrite (cumulative_spec k p _ at_cfg0 at_books0 at_caps0 hh e r) in Hcum by (assumption || lia).
  apply Ok_inj in Hcum. subst cum. pose proof (s_pending _ _ _ _ _ at_esc0).
  split; [|lia]. repeat apply f_equal2; lia || reflexivity.
Qed.

Lemma inv_refreshed w k ek p e r n :
  inv w -> w_presales w !! k = Some p -> w_escrows w !! ek = Some e -> e_presale e = k ->
  p_regs p !! Z.to_nat (e_idx e) = Some r -> succeeded p (w_now w) ->
  0 <= n -> e_claimed e + n <= entitled p r (e_deposit e) (w_now w) ->
  inv (upd_escrow ek (set_e_refreshed (w_now w) (set_e_pending n e)) w).
Proof.
  intros Hi Hp He Hk Hr [Hs1 Hs2] Hn Hle. destruct (at_intro _ _ _ _ _ _ Hi Hp He Hk Hr).
  eapply (inv_quiet w _ k p p); try eassumption; try reflexivity.
  - cbn. symmetry. apply insert_id. assumption.
  - cbn. eapply others_update; [eassumption|assumption|exact Hk].
  - apply same_terms_refl.
  - cbn. eapply acct_refresh; eassumption.
Qed.

Lemma pres_refresh w k ek w' l : inv w -> refresh_escrow w k ek = Ok (w', l) -> inv w'.
Proof.
  intros Hi Hx. apply refresh_inv in Hx as (p & e & e1 & Hnow & Hp & He & Hk & Hcase & -> & _).
  destruct (at_exists _ _ _ _ _ Hi Hp He Hk) as [r Hr].
  destruct Hcase as [(Hg & hh & Hh & Hu)|(_ & ->)].
  - apply progress_completed in Hg as [_ Hs].
    destruct (pending_after _ _ _ _ _ _ _ _ Hi Hp He Hk Hr Hh Hu) as [-> Hpe].
    eapply inv_refreshed; try eassumption; lia.
  - unfold upd_escrow. rewrite insert_id by assumption. destruct w; exact Hi.
Qed.

Lemma inv_paid_claim w w1 k ek p e r pr bm ot ok fx :
  inv w -> w_presales w !! k = Some p -> w_escrows w !! ek = Some e -> e_presale e = k ->
  p_regs p !! Z.to_nat (e_idx e) = Some r -> succeeded p (w_now w) ->
  tok_transfer w pr (PBaseVault k) bm ot PAuth (e_pending e) ok = Ok (w1, fx) ->
  inv (upd_escrow ek (set_e_pending 0 (set_e_claimed (e_claimed e + e_pending e) e))
        (upd_presale k (set_p_claimed (p_claimed p + e_pending e)
            (set_reg p (e_idx e) (set_r_claimed (r_claimed r + e_pending e) r))) w1)).
Proof.
  intros Hi Hp He Hk Hr [Hs1 Hs2] Htr. destruct (at_intro _ _ _ _ _ _ Hi Hp He Hk Hr).
  pose proof (s_pending _ _ _ _ _ at_esc0) as Hpe.
  pose proof (transfer_pays _ _ _ _ _ _ _ _ _ (i_tokens _ Hi) Hpe Htr) as Hpays.
  set (p' := set_p_claimed _ _).
  set (r' := set_r_claimed (r_claimed r + e_pending e) r).
  destruct (quiet_reg k p p' (e_idx e) r r') as (Q1 & Q2 & Q3 & Q4);
    try assumption; try reflexivity; try (constructor; reflexivity).
  { apply (s_idx _ _ _ _ _ at_esc0). }
  set (e' := set_e_pending 0 _).
  destruct (upd_both w w1 k p' ek e' (pay_rest _ _ _ _ Hpays))
    as (U1 & U2 & U3 & U4 & U5 & U6 & U7 & U8 & U9).
  eapply (inv_pay w w1 _ k p p' (PBaseVault k) (e_pending e)); try eassumption.
  - rewrite U3. eapply others_update; [eassumption|assumption|exact Hk].
  - right. split; [reflexivity|]. unfold qneed, bneed. rewrite Q3, Q4. cbn. lia.
  - rewrite U3. eapply acct_claim; eassumption.
Qed.

Lemma pres_claim w k bv bm ek ot owner pr h w' l :
  inv w -> claim w k bv bm ek ot owner pr h = Ok (w', l) -> inv w'.
Proof.
  intros Hi Hx. apply claim_inv in Hx as
    (p & e & m & hh & e1 & net & p2 & e2 & w1 & fx & Hnow & Hp & Hbv & Hbm & Hm & He & Hk & Ho & Hsg &
     Hg & Hh & Hu & Hcase & _ & -> & _).
  destruct (at_exists _ _ _ _ _ Hi Hp He Hk) as [r Hr].
  apply progress_completed in Hg as [_ Hs].
  destruct (pending_after _ _ _ _ _ _ _ _ Hi Hp He Hk Hr Hh Hu) as [He1 Hpe].
  assert (Hi1 : inv (upd_escrow ek e1 w)).
  { rewrite He1. eapply inv_refreshed; try eassumption; lia. }
  destruct Hcase as [(Hpos & r0 & Hr0 & _ & -> & -> & Htr)|(_ & -> & -> & -> & _)].
  - assert (r0 = r) as -> by congruence.
    pose proof (i_presales _ Hi _ _ Hp) as Hok.
    assert (Hbv' : bv = PBaseVault k) by (rewrite <- Hbv; apply (c_bvault _ _ (q_cfg _ _ _ Hok))).
    rewrite Hbv' in Htr.
    assert (Htr' : tok_transfer (upd_escrow ek e1 w) pr (PBaseVault k) bm ot PAuth (e_pending e1) (h_ok h)
                   = Ok (upd_escrow ek e1 w1, fx)).
    { revert Htr. unfold tok_transfer, get_mint, get_token. cbn. intros Htr.
      bi Htr a Ha. rewrite Ha. cbn. bi Htr b Hb. rewrite Hb. cbn. bi Htr c Hcc. rewrite Hcc. cbn.
      bi Htr u1 E1. rewrite E1. cbn. bi Htr u2 E2. rewrite E2. cbn. bi Htr u3 E3. rewrite E3. cbn.
      bi Htr u4 E4. rewrite E4. cbn. bi Htr u5 E5. rewrite E5. cbn.
      destruct (beq_addr (PBaseVault k) ot); [apply Ok_inj in Htr; injection Htr as <- <-; reflexivity|].
      bi Htr u6 E6. rewrite E6. cbn. bi Htr u7 E7. rewrite E7. cbn.
      apply Ok_inj in Htr. injection Htr as <- <-. reflexivity. }
    assert (Hfin := inv_paid_claim (upd_escrow ek e1 w) (upd_escrow ek e1 w1) k ek p e1 r pr bm ot (h_ok h) fx Hi1).
    assert (Hidx : e_idx e1 = e_idx e) by (rewrite He1; reflexivity).
    rewrite Hidx in Hfin.
    specialize (Hfin Hp). cbn in Hfin. rewrite lookup_insert in Hfin.
    specialize (Hfin eq_refl). rewrite He1 in Hfin at 1. specialize (Hfin Hk Hr Hs Htr').
    revert Hfin. unfold upd_escrow, upd_presale, put_escrows, put_presales. cbn.
    rewrite insert_insert. auto.
  - unfold upd_presale. rewrite insert_id by assumption.
    replace (put_presales (w_presales w) w) with w by (destruct w; reflexivity). assumption.
Qed.

(** * Creator instructions *)
Lemma regs_id p p' r : p_regs p' = p_regs p -> p_regs p !! 0%nat = Some r ->
  p_regs p' = <[0%nat := r]> (p_regs p).
Proof. intros -> Hr. symmetry. apply list_insert_id. assumption. Qed.

Lemma flags_facts k p p' :
  cfg k p -> same_terms p p' -> same_timing p p' -> p_regs p' = p_regs p ->
  p_deposit p' = p_deposit p ->
  cfg k p' /\ fee_income p' = fee_income p /\ unsold p' = unsold p.
Proof.
  intros Hc Hst Htm Hrs Hd. destruct (reg0_exists _ _ Hc) as [r Hr].
  split; [|split].
  - eapply cfg_same; try eassumption. intros i x Hx. rewrite Hrs in Hx.
    rewrite (t_nreg_eq _ _ Hst). apply (cfg_zero_tail _ _ Hc _ _ Hx).
  - eapply (fee_income_ext p p' 0%nat r r); try assumption; try reflexivity.
    + apply (t_max_eq _ _ Hst).
    + apply regs_id; assumption.
  - eapply (unsold_ext p p' 0%nat r r); try assumption; try reflexivity.
    + apply (t_supply_eq _ _ Hst).
    + apply (t_mode_eq _ _ Hst).
    + apply (t_raw0_eq _ _ Hst).
    + apply regs_id; assumption.
Qed.

Lemma upd_one w w1 k p' :
  same_rest w w1 ->
  let w' := upd_presale k p' w1 in
  w_now w' = w_now w /\ w_presales w' = <[k := p']> (w_presales w) /\
  w_escrows w' = w_escrows w /\
  w_fixed w' = w_fixed w /\ w_merkles w' = w_merkles w /\ w_opers w' = w_opers w /\
  w_servers w' = w_servers w /\ w_tokens w' = w_tokens w1 /\ w_mints w' = w_mints w1.
Proof. intros (H1 & H2 & H3 & H4 & H5 & H6 & H7). cbn. rewrite H2. auto 12. Qed.

Lemma pres_creator_withdraw w k ot owner pr h w' l :
  inv w -> creator_withdraw w k ot owner pr h = Ok (w', l) -> inv w'.
Proof.
  intros Hi Hx. apply creator_withdraw_inv in Hx as (p & m & net & w1 & fx & Hnow & Hp & _ & _ & Hcw & Hcase & ->).
  pose proof (i_presales _ Hi _ _ Hp) as Hok. pose proof (q_cfg _ _ _ Hok) as Hc.
  pose proof (q_acct _ _ _ Hok) as Ha. pose proof (a_books _ _ _ _ Ha) as Hb.
  pose proof (books_totals _ _ _ Hb) as Htot. pose proof (c_caps _ _ Hc) as Hcaps.
  set (p' := set_p_cwd 1 p).
  assert (Hst : same_terms p p') by (constructor; reflexivity).
  assert (Htm : same_timing p p') by (constructor; reflexivity).
  destruct (flags_facts k p p' Hc Hst Htm eq_refl eq_refl) as (Hc' & Hfi & Hun).
  assert (Hsup : 0 <= p_supply p).
  { rewrite (c_supply _ _ Hc). apply lsum_nonneg. apply (elem_reg (fun r => 0 <= r_supply r) p).
    intros i r Hr. eapply reg_supply_nonneg; eassumption. }
  assert (Hacct : p_end p <= w_now w -> acct (w_now w) k p' (w_escrows w)).
  { intros Hge. eapply (acct_flags (w_now w) k p (w_escrows w) Ha p'); try assumption; try reflexivity.
    - cbn. pose proof (b_flags _ _ _ Hb). tauto.
    - auto. }
  destruct Hcase as [(Hg & _ & Htr & _)|(Hg & _ & Htr & _)].
  - apply progress_completed in Hg as [_ [Hg1 Hg2]].
    assert (Hmin0 : 0 <= Z.min (p_deposit p) (p_max_cap p)) by lia.
    pose proof (transfer_pays _ _ _ _ _ _ _ _ _ (i_tokens _ Hi) Hmin0 Htr) as Hpays.
    destruct (upd_one w w1 k p' (pay_rest _ _ _ _ Hpays)) as (U1 & U2 & U3 & U4 & U5 & U6 & U7 & U8 & U9).
    eapply (inv_pay w w1 _ k p p' _ _); try eassumption.
    + rewrite U3. apply others_refl.
    + left. split; [apply (c_qvault _ _ Hc)|]. unfold qneed, bneed. rewrite Hfi, Hun, Hcw. cbn.
      rewrite (proj2 (Z.leb_le _ _) Hg2). destruct (Z.ltb_spec (p_deposit p) (p_min_cap p)); [lia|]. lia.
    + rewrite U3. auto.
  - apply progress_failed in Hg as [_ [Hg1 Hg2]].
    pose proof (transfer_pays _ _ _ _ _ _ _ _ _ (i_tokens _ Hi) Hsup Htr) as Hpays.
    destruct (upd_one w w1 k p' (pay_rest _ _ _ _ Hpays)) as (U1 & U2 & U3 & U4 & U5 & U6 & U7 & U8 & U9).
    eapply (inv_pay w w1 _ k p p' _ _); try eassumption.
    + rewrite U3. apply others_refl.
    + right. split; [apply (c_bvault _ _ Hc)|]. unfold qneed, bneed. rewrite Hfi, Hun, Hcw. cbn.
      destruct (Z.leb_spec (p_min_cap p) (p_deposit p)); [lia|].
      rewrite (proj2 (Z.ltb_lt _ _) Hg2). lia.
    + rewrite U3. auto.
Qed.

Lemma pres_collect_fee w k qv qm rcv owner pr h w' l :
  inv w -> creator_collect_fee w k qv qm rcv owner pr h = Ok (w', l) -> inv w'.
Proof.
  intros Hi Hx. apply collect_fee_inv in Hx as
    (p & m & n & net & w1 & fx & Hnow & Hp & _ & _ & Hqv & _ & _ & Hg & Hcol & Htot & Hpaid & _ & -> & _).
  pose proof (i_presales _ Hi _ _ Hp) as Hok. pose proof (q_cfg _ _ _ Hok) as Hc.
  pose proof (q_acct _ _ _ Hok) as Ha. pose proof (a_books _ _ _ _ Ha) as Hb.
  pose proof (a_caps _ _ _ _ Ha) as Hkp.
  set (p' := set_p_fee_col 1 p).
  assert (Hst : same_terms p p') by (constructor; reflexivity).
  assert (Htm : same_timing p p') by (constructor; reflexivity).
  destruct (flags_facts k p p' Hc Hst Htm eq_refl eq_refl) as (Hc' & Hfi & Hun).
  rewrite (collected_fee_spec k p _ Hc Hb Hkp) in Htot. apply Ok_inj in Htot. subst n.
  pose proof (fee_income_range k p _ Hc Hb) as Hfr.
  apply progress_completed in Hg as [_ [Hg1 Hg2]].
  assert (Hpays : pays w w1 qv (fee_income p)).
  { eapply paid_pays; [apply (i_tokens _ Hi)| |eassumption]. lia. }
  destruct (upd_one w w1 k p' (pay_rest _ _ _ _ Hpays)) as (U1 & U2 & U3 & U4 & U5 & U6 & U7 & U8 & U9).
  assert (Hcol0 : p_fee_col p = 0) by (pose proof (b_flags _ _ _ Hb); lia).
  eapply (inv_pay w w1 _ k p p' _ _); try eassumption.
  - rewrite U3. apply others_refl.
  - left. split; [rewrite <- Hqv; apply (c_qvault _ _ Hc)|].
    unfold qneed, bneed. rewrite Hfi, Hun, Hcol0. cbn. lia.
  - rewrite U3. eapply (acct_flags (w_now w) k p (w_escrows w) Ha p'); try assumption; try reflexivity.
    + cbn. pose proof (b_flags _ _ _ Hb). tauto.
    + intros. lia.
Qed.

Lemma pres_unsold w k bv bm ct pr h w' l :
  inv w -> perform_unsold_base_token_action w k bv bm ct pr h = Ok (w', l) -> inv w'.
Proof.
  intros Hi Hx. apply unsold_inv in Hx as
    (p & m & t & hh & n & w1 & fx & Hnow & Hp & Hbv & Hbm & _ & _ & _ & _ & _ & Hg & Hdone & Hh & Hn & Hpos &
     Hcase & -> & _).
  pose proof (i_presales _ Hi _ _ Hp) as Hok. pose proof (q_cfg _ _ _ Hok) as Hc.
  pose proof (q_acct _ _ _ Hok) as Ha. pose proof (a_books _ _ _ _ Ha) as Hb.
  pose proof (a_caps _ _ _ _ Ha) as Hkp.
  set (p' := set_p_unsold_done 1 p).
  assert (Hst : same_terms p p') by (constructor; reflexivity).
  assert (Htm : same_timing p p') by (constructor; reflexivity).
  destruct (flags_facts k p p' Hc Hst Htm eq_refl eq_refl) as (Hc' & Hfi & Hun).
  rewrite (unsold_spec k p _ Hc Hb hh Hh) in Hn. apply Ok_inj in Hn. subst n.
  apply progress_completed in Hg as [_ [Hg1 Hg2]].
  assert (Hn0 : 0 <= unsold p) by lia.
  assert (Hpays : pays w w1 bv (unsold p)).
  { destruct Hcase as [[_ Ht]|[_ Ht]].
    - eapply burn_pays; [apply (i_tokens _ Hi)|exact Hn0|eassumption].
    - eapply transfer_pays; [apply (i_tokens _ Hi)|exact Hn0|eassumption]. }
  destruct (upd_one w w1 k p' (pay_rest _ _ _ _ Hpays)) as (U1 & U2 & U3 & U4 & U5 & U6 & U7 & U8 & U9).
  eapply (inv_pay w w1 _ k p p' _ _); try eassumption.
  - rewrite U3. apply others_refl.
  - right. split; [rewrite <- Hbv; apply (c_bvault _ _ Hc)|].
    unfold qneed, bneed. rewrite Hfi, Hun, Hdone. cbn. lia.
  - rewrite U3. eapply (acct_flags (w_now w) k p (w_escrows w) Ha p'); try assumption; try reflexivity.
    + cbn. pose proof (b_flags _ _ _ Hb). tauto.
    + intros. lia.
Qed.

(** * A new presale *)
Lemma add_tokens w k t :
  tokens_ok w -> w_tokens w !! k = None -> t_amount t = 0 -> tokens_ok (upd_token k t w).
Proof.
  intros Hw Hn Ht.
  assert (Hs : forall x, msum (held x) (<[k := t]> (w_tokens w)) = msum (held x) (w_tokens w)).
  { intros x. rewrite msum_insert_new by assumption. unfold held at 1.
    destruct (bool_decide _); lia. }
  eapply (put_tokens_mints _ (<[k := t]> (w_tokens w)) (w_mints w)); try reflexivity.
  - intros x y Hx. apply lookup_insert_Some in Hx as [[_ <-]|[_ Hx]]; [lia|eapply tk_amount; eassumption].
  - intros mk m Hm. rewrite Hs. split; [eapply tk_fee; eassumption|].
    split; [eapply tk_withheld; eassumption|]. eapply tk_supply; eassumption.
  - intros mk Hm. rewrite Hs. apply tk_nomint; assumption.
Qed.
Lemma add_vault_has w k t mk b v :
  w_tokens w !! k = None -> vault_has w mk b v -> vault_has (upd_token k t w) mk b v.
Proof.
  intros Hn (x & Hx & ?). exists x. split; [|assumption]. cbn.
  rewrite lookup_insert_ne; [assumption|congruence].
Qed.

(** Adding a presale. *)
Lemma inv_new w w' k p :
  inv w -> w_presales w !! k = None ->
  w_now w' = w_now w -> w_presales w' = <[k := p]> (w_presales w) ->
  w_escrows w' = w_escrows w ->
  w_fixed w' = w_fixed w -> w_merkles w' = w_merkles w -> w_opers w' = w_opers w ->
  w_servers w' = w_servers w ->
  tokens_ok w' ->
  (forall mk pr, mint_good w pr mk -> mint_good w' pr mk) ->
  (forall mk pr b v, mint_good w pr mk -> vault_has w mk b v -> vault_has w' mk b v) ->
  presale_ok w' k p -> inv w'.
Proof.
  intros Hi Hk Hnow Hps Hes Hfx Hmk Hop Hsv Htk Hmg Hvk Hok.
  assert (Hkeep : forall k' q, w_presales w !! k' = Some q -> w_presales w' !! k' = Some q).
  { intros k' q Hk'. rewrite Hps. rewrite lookup_insert_ne by congruence. assumption. }
  constructor.
  - rewrite Hnow. apply (i_now _ Hi).
  - assumption.
  - intros k' q Hk'. rewrite Hps in Hk'. apply lookup_insert_Some in Hk' as [[<- <-]|[Hne Hk']];
      [assumption|].
    pose proof (i_presales _ Hi _ _ Hk') as Hok'. constructor.
    + apply (q_cfg _ _ _ Hok').
    + apply Hmg, (q_qmint _ _ _ Hok').
    + apply Hmg, (q_bmint _ _ _ Hok').
    + eapply Hvk; [apply (q_qmint _ _ _ Hok')|apply (q_qvault _ _ _ Hok')].
    + eapply Hvk; [apply (q_bmint _ _ _ Hok')|apply (q_bvault _ _ _ Hok')].
    + rewrite Hnow, Hes. apply (q_acct _ _ _ Hok').
  - rewrite Hes. intros ek e He. destruct (i_escrows _ Hi _ _ He) as [q Hq]. eauto.
  - rewrite Hfx. apply (i_fixed _ Hi).
  - rewrite Hop. apply (i_opers _ Hi).
  - rewrite Hmk. intros x c Hx. destruct (i_merkles _ Hi _ _ Hx) as (? & q & ? & ?). eauto.
  - rewrite Hsv. intros x c Hx. destruct (i_servers _ Hi _ _ Hx) as (? & q & ?). eauto.
Qed.

Lemma newly_zero w k bmint qmint creator base bp qp a p :
  newly w k bmint qmint creator base bp qp a p ->
  forall i r, p_regs p !! i = Some r ->
  r_deposit r = 0 /\ r_fee r = 0 /\ r_claimed r = 0 /\ r_refunded r = 0 /\ r_escrows r = 0.
Proof.
  intros Hn i r Hr. rewrite (n_regs _ _ _ _ _ _ _ _ _ _ Hn) in Hr.
  pose proof (c_nreg _ _ (n_cfg _ _ _ _ _ _ _ _ _ _ Hn)).
  rewrite (n_nreg _ _ _ _ _ _ _ _ _ _ Hn) in *.
  apply slots_lookup in Hr as [(x & _ & -> & _)|[_ ->]]; [auto 10|auto 10|lia].
Qed.

Lemma newly_acct w k bmint qmint creator base bp qp a p t E :
  newly w k bmint qmint creator base bp qp a p ->
  (forall ek e, E !! ek = Some e -> e_presale e <> k) -> acct t k p E.
Proof.
  intros Hn Hes. pose proof (n_cfg _ _ _ _ _ _ _ _ _ _ Hn) as Hc.
  pose proof (newly_zero _ _ _ _ _ _ _ _ _ _ Hn) as Hz.
  destruct (n_zero _ _ _ _ _ _ _ _ _ _ Hn) as (Z1 & Z2 & Z3 & Z4 & Z5).
  destruct (n_flags _ _ _ _ _ _ _ _ _ _ Hn) as (F1 & F2 & F3).
  assert (Hl : forall f : registry -> Z, (forall i r, p_regs p !! i = Some r -> f r = 0) -> lsum f (p_regs p) = 0).
  { intros f Hf. rewrite (lsum_ext f (fun _ => 0)).
    - apply lsum_zero.
    - intros r Hr. apply elem_of_list_lookup_1 in Hr as [i Hr]. eauto. }
  assert (Hs : forall i f, esum k i f E = 0) by (intros; apply esum_none; assumption).
  apply acct_of_fresh; try assumption.
  - constructor; rewrite ?Z1, ?Z2, ?Z3, ?Z4, ?Z5.
    1-5: symmetry; apply Hl; intros i r Hr; apply Hz in Hr; tauto.
    + num. lia.
    + intros i r Hr. apply Hz in Hr. lia.
    + intros i r Hr. rewrite Hs. apply Hz in Hr. tauto.
    + lia.
  - constructor.
    + intros _. rewrite Z1. pose proof (c_caps _ _ Hc). lia.
    + intros Hm i r Hr Hlt. destruct (Hz _ _ Hr) as (-> & _).
      destruct (c_price _ _ Hc Hm) as ((Hq & _) & _).
      destruct (c_regs _ _ Hc _ _ Hr) as [(_ & Hsp & _)|[Hge _]]; [|lia].
      unfold scale. nia.
  - constructor.
    + auto.
    + intros i r Hr. rewrite !Hs. apply Hz in Hr. tauto.
    + intros ek e He Hk. exfalso. eapply Hes; eassumption.
  - intros ek e He Hk. exfalso. eapply Hes; eassumption.
Qed.

Lemma pres_init_presale w base bmint qmint pt creator payer bp qp a h w' l :
  inv w -> initialize_presale w base bmint qmint pt creator payer bp qp a h = Ok (w', l) -> inv w'.
Proof.
  intros Hi Hx. apply init_inv in Hx as
    (bm & qm & p & rest & hooks & rest' & pool & amount & w2 & fx & Hdec & Hnow & Hbm & Hqm & _ &
     Hpay & Hk & Hbv & Hqv & Hbp & Hqp & Hval & Hqs & Hbs & Hcr & Hpool & Hinc & _ & _ & Htr & -> & _).
  set (k := PPresale base bmint qmint) in *.
  destruct (init_newly w k a bmint qmint creator base bp qp _ p rest Hi eq_refl Hdec Hval Hcr) as (Hn & _).
  set (wv := with_vaults k bmint qmint w) in *.
  assert (Htk : tokens_ok wv).
  { unfold wv, with_vaults. apply add_tokens; [apply add_tokens; [apply (i_tokens _ Hi)|assumption|reflexivity]| |reflexivity].
    cbn. rewrite lookup_insert_ne by congruence. assumption. }
  assert (Hpool' : 0 <= pool /\ pool = p_supply p).
  { apply sum_supplies_Ok in Hpool as [Hp _]. rewrite Z.add_0_l in Hp.
    rewrite (n_supply _ _ _ _ _ _ _ _ _ _ Hn), Hp. split; [|reflexivity].
    pose proof (c_supply _ _ (n_cfg _ _ _ _ _ _ _ _ _ _ Hn)) as Hcs.
    rewrite (n_supply _ _ _ _ _ _ _ _ _ _ Hn) in Hcs. rewrite Hcs.
    apply lsum_nonneg. apply (elem_reg (fun r => 0 <= r_supply r) p).
    intros i r Hr. eapply reg_supply_nonneg; [apply (n_cfg _ _ _ _ _ _ _ _ _ _ Hn)|eassumption]. }
  destruct Hpool' as [Hp0 Hpe].
  destruct (fee_included_exact bm pool amount Hp0) as (Hex & Hrg & _); [|assumption|].
  { eapply tk_fee; [apply (i_tokens _ Hi)|eassumption]. }
  assert (Hauth : payer <> PAuth) by (intros ->; discriminate).
  pose proof (tok_transfer_rest _ _ _ _ _ _ _ _ _ _ Htr) as Hrest.
  assert (Ham : 0 <= amount) by lia.
  pose proof (tok_transfer_ok _ _ _ _ _ _ _ _ _ _ Htk Ham Htr) as Htk2.
  pose proof (tok_transfer_kept _ _ _ _ _ _ _ _ _ _ Htk Ham Hauth Htr) as [Hvk Hmk].
  assert (Hmw : forall mk pr, mint_good w pr mk -> mint_good wv pr mk).
  { intros mk pr (m & Hm & ?). exists m. auto. }
  assert (Hvw : forall mk b v, vault_has w mk b v -> vault_has wv mk b v).
  { intros mk b v Hv. unfold wv, with_vaults. apply add_vault_has.
    - cbn. rewrite lookup_insert_ne by congruence. assumption.
    - apply add_vault_has; assumption. }
  destruct Hrest as (R1 & R2 & R3 & R4 & R5 & R6 & R7).
  assert (Hmint : forall mk pr, mint_good wv pr mk -> mint_good (upd_presale k p w2) pr mk).
  { intros mk pr Hg. apply Hmk in Hg. exact Hg. }
  assert (Hbg : mint_good wv bp bmint) by (exists bm; auto).
  assert (Hqg : mint_good wv qp qmint) by (exists qm; auto).
  eapply (inv_new w _ k p); try assumption; try (cbn; congruence).
  - cbn. rewrite R2. reflexivity.
  - eapply tokens_ok_ext; [| |exact Htk2]; reflexivity.
  - intros mk pr b v Hg Hv. apply Hmw in Hg. apply Hvw in Hv.
    exact (Hvk _ _ _ _ Hg Hv).
  - destruct (n_zero _ _ _ _ _ _ _ _ _ _ Hn) as (Z1 & Z2 & Z3 & Z4 & Z5).
    destruct (n_flags _ _ _ _ _ _ _ _ _ _ Hn) as (F1 & F2 & F3).
    constructor.
    + apply (n_cfg _ _ _ _ _ _ _ _ _ _ Hn).
    + rewrite (n_qprog _ _ _ _ _ _ _ _ _ _ Hn), (n_qmint _ _ _ _ _ _ _ _ _ _ Hn). auto.
    + rewrite (n_bprog _ _ _ _ _ _ _ _ _ _ Hn), (n_bmint _ _ _ _ _ _ _ _ _ _ Hn). auto.
    + rewrite (n_qmint _ _ _ _ _ _ _ _ _ _ Hn). unfold qneed. rewrite Z1, Z5, Z4, F1, F2. cbn.
      assert (Hv : vault_has wv qmint 0 (PQuoteVault k)).
      { exists (new_vault qmint). split; [cbn; apply lookup_insert|]. unfold plain. cbn. auto 8 with lia. }
      exact (Hvk _ _ _ _ Hqg Hv).
    + rewrite (n_bmint _ _ _ _ _ _ _ _ _ _ Hn). unfold bneed. rewrite Z3, F1, F3. cbn.
      assert (Hv : vault_has wv bmint 0 (PBaseVault k)).
      { exists (new_vault bmint). split.
        - cbn. rewrite lookup_insert_ne by congruence. apply lookup_insert.
        - unfold plain. cbn. auto 8 with lia. }
      eapply vault_has_le; [|eapply (tok_transfer_in wv bp pt bmint (PBaseVault k) payer amount (h_ok h) w2 fx 0 bm);
        try eassumption].
      lia.
    + cbn. rewrite R1, R3. eapply newly_acct; [exact Hn|].
      intros ek e He. destruct (i_escrows _ Hi _ _ He) as [q Hq]. congruence.
Qed.

(** * The environment *)
Lemma pres_clock w t w' l : inv w -> env_clock w t = Ok (w', l) -> inv w'.
Proof.
  intros Hi Hx. unfold env_clock, env_ok in Hx. bq Hx Ht. apply Ok_inj in Hx. injection Hx as <- <-.
  clean_bool. pose proof (i_now _ Hi).
  constructor; try apply Hi.
  - cbn. lia.
  - eapply tokens_ok_ext; [| |apply (i_tokens _ Hi)]; reflexivity.
  - intros k p Hk. pose proof (i_presales _ Hi _ _ Hk) as [Q1 Q2 Q3 Q4 Q5 Q6].
    constructor; try assumption. cbn. eapply acct_time; [assumption|exact Q6|assumption].
Qed.

(** A change of one token account which is not a vault's ownership or balance decrease. *)
Lemma pres_token w k t t' :
  inv w -> w_tokens w !! k = Some t -> t_owner t <> PAuth -> t_mint t' = t_mint t ->
  t_amount t' = t_amount t -> inv (upd_token k t' w).
Proof.
  intros Hi Ht Ho Hm Ha. pose proof (i_tokens _ Hi) as Hw. apply (inv_env w); try assumption.
  - repeat split.
  - assert (Hs : forall x, msum (held x) (<[k := t']> (w_tokens w)) = msum (held x) (w_tokens w)).
    { intros x. rewrite (msum_update _ _ _ t) by assumption. unfold held at 2 3.
      rewrite Hm, Ha. lia. }
    eapply (put_tokens_mints _ (<[k := t']> (w_tokens w)) (w_mints w)); try reflexivity.
    + intros x y Hx. apply lookup_insert_Some in Hx as [[_ <-]|[_ Hx]].
      * rewrite Ha. eapply tk_amount; eassumption.
      * eapply tk_amount; eassumption.
    + intros mk m Hmm. rewrite Hs. split; [eapply tk_fee; eassumption|].
      split; [eapply tk_withheld; eassumption|]. eapply tk_supply; eassumption.
    + intros mk Hmm. rewrite Hs. apply tk_nomint; assumption.
  - split.
    + intros mk b v pr _ (x & Hx & X1 & X2 & X3 & X4).
      assert (v <> k) by (intros ->; congruence).
      exists x. cbn. rewrite lookup_insert_ne by congruence. auto.
    + intros mk pr (m & ?). exists m. auto.
Qed.

Lemma pres_create_mint w k m w' l : inv w -> env_create_mint w k m = Ok (w', l) -> inv w'.
Proof.
  intros Hi Hx. unfold env_create_mint, env_ok in Hx. bq Hx Hb. apply Ok_inj in Hx. injection Hx as <- <-.
  pose proof (i_tokens _ Hi) as Hw. clean_bool.

  repeat match goal with Hb : bool_decide _ = true |- _ => apply bool_decide_eq_true_1 in Hb end.
  apply (inv_env w); try assumption.
  - repeat split.
  - eapply (put_tokens_mints _ (w_tokens w) (<[k := m]> (w_mints w))); try reflexivity.
    + apply Hw.
    + intros mk x Hx. apply lookup_insert_Some in Hx as [[<- <-]|[Hne Hx]].
      * split.
        -- intros f Hf. rewrite Hf in *.
           unfold in_u64, MAX_FEE_BASIS_POINTS in *. clean_bool. unfold fee_ok. lia.
        -- rewrite (tk_nomint w Hw k) by assumption. num. lia.
      * split; [eapply tk_fee; eassumption|].
        split; [eapply tk_withheld; eassumption|]. eapply tk_supply; eassumption.
    + intros mk Hmm. apply lookup_insert_None in Hmm as [Hmm _]. apply tk_nomint; assumption.
  - split.
    + intros mk b v pr _ (t & ?). exists t. assumption.
    + intros mk pr (x & Hx & ?). exists x. cbn. rewrite lookup_insert_ne by congruence. auto.
Qed.

Lemma pres_close_mint w k w' l : inv w -> env_close_mint w k = Ok (w', l) -> inv w'.
Proof.
  intros Hi Hx. unfold env_close_mint, env_ok in Hx. bi Hx m Hm. apply ok_or_Ok in Hm.
  bq Hx Hb. apply Ok_inj in Hx. injection Hx as <- <-. pose proof (i_tokens _ Hi) as Hw. clean_bool.
  repeat match goal with Hb : bool_decide _ = true |- _ => apply bool_decide_eq_true_1 in Hb end.
  apply (inv_env w); try assumption.
  - repeat split.
  - eapply (put_tokens_mints _ (w_tokens w) (delete k (w_mints w))); try reflexivity.
    + apply Hw.
    + intros mk x Hx. apply lookup_delete_Some in Hx as [_ Hx].
      split; [eapply tk_fee; eassumption|].
      split; [eapply tk_withheld; eassumption|]. eapply tk_supply; eassumption.
    + intros mk Hmm. apply lookup_delete_None in Hmm as [<-|Hmm].
      * destruct (tk_supply w Hw _ _ Hm) as [Hs _]. pose proof (tk_withheld w Hw _ _ Hm).
        assert (0 <= msum (held k) (w_tokens w)) by (apply msum_nonneg; apply held_nonneg; assumption).
        lia.
      * apply tk_nomint; assumption.
  - split.
    + intros mk b v pr _ (t & ?). exists t. assumption.
    + intros mk pr (x & Hx & Hpr & Hsup). exists x. cbn. rewrite lookup_delete_ne; [auto|].
      intros <-. assert (x = m) as -> by congruence. eapply supported_not_closable; eassumption.
Qed.

Lemma pres_create_token w k mk owner w' l : inv w -> env_create_token w k mk owner = Ok (w', l) -> inv w'.
Proof.
  intros Hi Hx. unfold env_create_token, env_ok in Hx. bi Hx m Hm. bq Hx Hb.
  apply Ok_inj in Hx. injection Hx as <- <-.
  apply andb_true_iff in Hb as [Hb Hb1]. apply bool_decide_eq_true_1 in Hb1.
  apply (inv_env w); try assumption.
  - repeat split.
  - apply add_tokens; [apply (i_tokens _ Hi)|assumption|reflexivity].
  - split.
    + intros x b v pr _ Hv. apply add_vault_has; assumption.
    + intros x pr (y & ?). exists y. assumption.
Qed.

Lemma signer_not_auth k u : signer k = Ok u -> k <> PAuth.
Proof. intros Hs ->. discriminate. Qed.

Lemma pres_close_token w k owner w' l : inv w -> env_close_token w k owner = Ok (w', l) -> inv w'.
Proof.
  intros Hi Hx. unfold env_close_token, env_ok in Hx. bi Hx t Ht. apply ok_or_Ok in Ht.
  bi Hx u Hu. apply signer_not_auth in Hu. bq Hx Hb. apply Ok_inj in Hx. injection Hx as <- <-.
  apply andb_true_iff in Hb as [Hb Hb1]. apply beq_addr_true in Hb. clean_bool.
  pose proof (i_tokens _ Hi) as Hw.
  assert (Hs : forall x, msum (held x) (delete k (w_tokens w)) = msum (held x) (w_tokens w)).
  { intros x. rewrite (msum_delete (held x) (w_tokens w) k t) by assumption. unfold held at 2.
    destruct (bool_decide _); lia. }
  apply (inv_env w); try assumption.
  - repeat split.
  - eapply (put_tokens_mints _ (delete k (w_tokens w)) (w_mints w)); try reflexivity.
    + intros x y Hx. apply lookup_delete_Some in Hx as [_ Hx]. eapply tk_amount; eassumption.
    + intros mk m Hmm. rewrite Hs. split; [eapply tk_fee; eassumption|].
      split; [eapply tk_withheld; eassumption|]. eapply tk_supply; eassumption.
    + intros mk Hmm. rewrite Hs. apply tk_nomint; assumption.
  - split.
    + intros mk b v pr _ (x & Hx & X1 & X2 & X3 & X4).
      assert (v <> k) by (intros ->; congruence).
      exists x. cbn. rewrite lookup_delete_ne by congruence. auto.
    + intros mk pr (m & ?). exists m. auto.
Qed.

Lemma pres_transfer w src mk dst auth pr n memo cpi ok w' l :
  inv w -> env_transfer w src mk dst auth pr n memo cpi ok = Ok (w', l) -> inv w'.
Proof.
  intros Hi Hx. unfold env_transfer, env_ok in Hx. bq Hx Hn. apply in_u64_iff in Hn. bi Hx u Hu.
  apply signer_not_auth in Hu. destruct Hn as [Hn _]. pose proof (i_tokens _ Hi). apply checked_Ok in Hx.
  apply (inv_env w); try assumption.
  - eapply tok_transfer_rest; eassumption.
  - eapply tok_transfer_ok; eassumption.
  - eapply tok_transfer_kept; eassumption.
Qed.
Lemma pres_burn w src mk auth pr n w' l :
  inv w -> env_burn w src mk auth pr n = Ok (w', l) -> inv w'.
Proof.
  intros Hi Hx. unfold env_burn, env_ok in Hx. bq Hx Hn. apply in_u64_iff in Hn. bi Hx u Hu.
  apply signer_not_auth in Hu. destruct Hn as [Hn _]. pose proof (i_tokens _ Hi).
  apply (inv_env w); try assumption.
  - eapply tok_burn_rest; eassumption.
  - eapply tok_burn_ok; eassumption.
  - eapply tok_burn_kept; eassumption.
Qed.

(** Tokens appear on an account, from new supply or from withheld fees. *)
Lemma pres_credit w mk dst m m' t n :
  inv w -> w_mints w !! mk = Some m -> w_tokens w !! dst = Some t -> t_mint t = mk -> 0 <= n ->
  m_prog m' = m_prog m -> is_supported_mint m' = is_supported_mint m -> m_fee m' = m_fee m ->
  0 <= m_withheld m' -> m_supply m' <= U64MAX ->
  m_supply m' - m_withheld m' = m_supply m - m_withheld m + n ->
  inv (upd_token dst (set_t_amount (t_amount t + n) t) (upd_mint mk m' w)).
Proof.
  intros Hi Hm Ht Htm Hn Hpr Hsup Hfee Hwh Hs64 Heq. pose proof (i_tokens _ Hi) as Hw.
  set (t' := set_t_amount (t_amount t + n) t).
  assert (Hs : forall x, msum (held x) (<[dst := t']> (w_tokens w)) =
     msum (held x) (w_tokens w) + if bool_decide (mk = x) then n else 0).
  { intros x. rewrite (msum_update _ _ _ t) by assumption. unfold held at 2 3. cbn. rewrite Htm.
    destruct (bool_decide _); lia. }
  apply (inv_env w); try assumption.
  - repeat split.
  - eapply (put_tokens_mints _ (<[dst := t']> (w_tokens w)) (<[mk := m']> (w_mints w))); try reflexivity.
    + intros x y Hx. apply lookup_insert_Some in Hx as [[_ <-]|[_ Hx]].
      * cbn. pose proof (tk_amount w Hw _ _ Ht). lia.
      * eapply tk_amount; eassumption.
    + intros x mx Hx. rewrite Hs. apply lookup_insert_Some in Hx as [[<- <-]|[Hne Hx]].
      * split; [intros f Hf; rewrite Hfee in Hf; eapply tk_fee; eassumption|].
        rewrite bool_decide_eq_true_2 by reflexivity.
        destruct (tk_supply w Hw _ _ Hm). lia.
      * rewrite bool_decide_eq_false_2 by congruence. rewrite Z.add_0_r.
        split; [eapply tk_fee; eassumption|].
        split; [eapply tk_withheld; eassumption|]. eapply tk_supply; eassumption.
    + intros x Hx. apply lookup_insert_None in Hx as [Hx Hne]. rewrite Hs.
      rewrite bool_decide_eq_false_2 by congruence. rewrite Z.add_0_r. apply tk_nomint; assumption.
  - split.
    + intros x b v pr _ (y & Hy & Y1 & Y2 & Y3 & Y4). unfold vault_has. cbn.
      destruct (decide (v = dst)) as [->|Hne].
      * rewrite lookup_insert. exists t'. assert (y = t) as -> by congruence. cbn. auto with lia.
      * rewrite lookup_insert_ne by congruence. exists y. auto.
    + intros x pr (y & Hy & Y1 & Y2). unfold mint_good. cbn. destruct (decide (x = mk)) as [->|Hne].
      * rewrite lookup_insert. exists m'. assert (y = m) as -> by congruence.
        split; [reflexivity|]. split; congruence.
      * rewrite lookup_insert_ne by congruence. exists y. auto.
Qed.

Lemma pres_mint_to w mk dst n w' l : inv w -> env_mint_to w mk dst n = Ok (w', l) -> inv w'.
Proof.
  intros Hi Hx. unfold env_mint_to, env_ok in Hx. bi Hx m Hm. apply ok_or_Ok in Hm.
  bi Hx t Ht. apply ok_or_Ok in Ht. bq Hx Hb. apply Ok_inj in Hx. injection Hx as <- <-.
  unfold in_u64 in Hb. clean_bool.
  pose proof (i_tokens _ Hi) as Hw.
  eapply pres_credit; try eassumption; try reflexivity; cbn; try lia.
  eapply tk_withheld; eassumption.
Qed.
Lemma pres_withheld w mk dst n w' l : inv w -> env_withdraw_withheld w mk dst n = Ok (w', l) -> inv w'.
Proof.
  intros Hi Hx. unfold env_withdraw_withheld, env_ok in Hx. bi Hx m Hm. apply ok_or_Ok in Hm.
  bi Hx t Ht. apply ok_or_Ok in Ht. bq Hx Hb. apply Ok_inj in Hx. injection Hx as <- <-.
  unfold in_u64 in Hb. clean_bool.
  pose proof (i_tokens _ Hi) as Hw.
  eapply pres_credit; try eassumption; try reflexivity; cbn; try lia.
  eapply tk_supply; eassumption.
Qed.

Lemma pres_approve w k owner d n w' l : inv w -> env_approve w k owner d n = Ok (w', l) -> inv w'.
Proof.
  intros Hi Hx. unfold env_approve, env_ok in Hx. bi Hx t Ht. apply ok_or_Ok in Ht.
  bi Hx u Hu. apply signer_not_auth in Hu. bq Hx Hb. apply Ok_inj in Hx. injection Hx as <- <-.
  repeat (apply andb_true_iff in Hb as [Hb ?]).
  match goal with Hq : beq_addr _ _ = true |- _ => apply beq_addr_true in Hq end.
  eapply pres_token; try eassumption; try reflexivity. congruence.
Qed.
Lemma pres_revoke w k owner w' l : inv w -> env_revoke w k owner = Ok (w', l) -> inv w'.
Proof.
  intros Hi Hx. unfold env_revoke, env_ok in Hx. bi Hx t Ht. apply ok_or_Ok in Ht.
  bi Hx u Hu. apply signer_not_auth in Hu. bq Hx Hb. apply Ok_inj in Hx. injection Hx as <- <-.
  apply andb_true_iff in Hb as [Hb ?]. apply beq_addr_true in Hb.
  eapply pres_token; try eassumption; try reflexivity. congruence.
Qed.
Lemma pres_set_owner w k owner n w' l : inv w -> env_set_owner w k owner n = Ok (w', l) -> inv w'.
Proof.
  intros Hi Hx. unfold env_set_owner, env_ok in Hx. bi Hx t Ht. apply ok_or_Ok in Ht.
  bi Hx u Hu. apply signer_not_auth in Hu. bq Hx Hb. apply Ok_inj in Hx. injection Hx as <- <-.
  apply andb_true_iff in Hb as [Hb ?]. apply beq_addr_true in Hb.
  eapply pres_token; try eassumption; try reflexivity. congruence.
Qed.

Lemma pres_set_memo w k owner b w' l : inv w -> env_set_memo w k owner b = Ok (w', l) -> inv w'.
Proof.
  intros Hi Hx. unfold env_set_memo, env_ok in Hx. bi Hx t Ht. apply ok_or_Ok in Ht. bi Hx m Hm.
  bi Hx u Hu. apply signer_not_auth in Hu. bq Hx Hb. apply Ok_inj in Hx. injection Hx as <- <-.
  apply andb_true_iff in Hb as [Hb _]. apply beq_addr_true in Hb.
  eapply pres_token; try eassumption; try reflexivity. congruence.
Qed.
Lemma pres_set_guard w k owner b w' l : inv w -> env_set_guard w k owner b = Ok (w', l) -> inv w'.
Proof.
  intros Hi Hx. unfold env_set_guard, env_ok in Hx. bi Hx t Ht. apply ok_or_Ok in Ht. bi Hx m Hm.
  bi Hx u Hu. apply signer_not_auth in Hu. bq Hx Hb. apply Ok_inj in Hx. injection Hx as <- <-.
  apply andb_true_iff in Hb as [Hb _]. apply beq_addr_true in Hb.
  eapply pres_token; try eassumption; try reflexivity. congruence.
Qed.

Lemma pres_freeze w k b w' l : inv w -> env_freeze w k b = Ok (w', l) -> inv w'.
Proof.
  intros Hi Hx. unfold env_freeze, env_ok in Hx. bi Hx t Ht. apply ok_or_Ok in Ht.
  bi Hx m Hm. bq Hx Hb. apply Ok_inj in Hx. injection Hx as <- <-.
  pose proof (i_tokens _ Hi) as Hw.
  set (t' := set_t_frozen b t).
  assert (Hs : forall x, msum (held x) (<[k := t']> (w_tokens w)) = msum (held x) (w_tokens w)).
  { intros x. rewrite (msum_update _ _ _ t) by assumption. unfold held at 2 3. cbn. lia. }
  apply (inv_env w); try assumption.
  - repeat split.
  - eapply (put_tokens_mints _ (<[k := t']> (w_tokens w)) (w_mints w)); try reflexivity.
    + intros x y Hx. apply lookup_insert_Some in Hx as [[_ <-]|[_ Hx]];
        [cbn; eapply tk_amount; eassumption|eapply tk_amount; eassumption].
    + intros mk mm Hmm. rewrite Hs. split; [eapply tk_fee; eassumption|].
      split; [eapply tk_withheld; eassumption|]. eapply tk_supply; eassumption.
    + intros mk Hmm. rewrite Hs. apply tk_nomint; assumption.
  - split.
    + intros x c v pr _ (y & Hy & Y1 & Y2 & Y3 & Y4). unfold vault_has. cbn.
      destruct (decide (v = k)) as [->|Hne].
      * rewrite lookup_insert. exists t'. assert (y = t) as -> by congruence. unfold plain in *. cbn. auto.
      * rewrite lookup_insert_ne by congruence. exists y. auto.
    + intros mk pr (mm & ?). exists mm. auto.
Qed.

(** A mint changes its fee or its hook. *)
Lemma pres_mint w mk m m' :
  inv w -> w_mints w !! mk = Some m -> m_prog m' = m_prog m ->
  is_supported_mint m' = is_supported_mint m -> mint_fee_ok m' ->
  m_withheld m' = m_withheld m -> m_supply m' = m_supply m -> inv (upd_mint mk m' w).
Proof.
  intros Hi Hm Hpr Hsup Hfee Hwh Hs. pose proof (i_tokens _ Hi) as Hw.
  apply (inv_env w); try assumption.
  - repeat split.
  - eapply (put_tokens_mints _ (w_tokens w) (<[mk := m']> (w_mints w))); try reflexivity.
    + apply Hw.
    + intros x mx Hx. apply lookup_insert_Some in Hx as [[<- <-]|[Hne Hx]].
      * split; [assumption|]. rewrite Hwh, Hs. split; [eapply tk_withheld; eassumption|].
        eapply tk_supply; eassumption.
      * split; [eapply tk_fee; eassumption|].
        split; [eapply tk_withheld; eassumption|]. eapply tk_supply; eassumption.
    + intros x Hx. apply lookup_insert_None in Hx as [Hx Hne]. apply tk_nomint; assumption.
  - split.
    + intros x b v pr _ (y & ?). exists y. assumption.
    + intros x pr (y & Hy & Y1 & Y2). unfold mint_good. cbn. destruct (decide (x = mk)) as [->|Hne].
      * rewrite lookup_insert. exists m'. assert (y = m) as -> by congruence.
        split; [reflexivity|]. split; congruence.
      * rewrite lookup_insert_ne by congruence. exists y. auto.
Qed.

Lemma pres_set_fee w mk f w' l : inv w -> env_set_fee w mk f = Ok (w', l) -> inv w'.
Proof.
  intros Hi Hx. unfold env_set_fee, env_ok in Hx. bi Hx m Hm. apply ok_or_Ok in Hm.
  bq Hx Hb. apply Ok_inj in Hx. injection Hx as <- <-.
  repeat (apply andb_true_iff in Hb as [Hb ?]). unfold in_u64, MAX_FEE_BASIS_POINTS in *. clean_bool.
  eapply pres_mint; try eassumption; try reflexivity.
  intros g Hg. cbn in Hg. injection Hg as <-. unfold fee_ok. lia.
Qed.
Lemma pres_set_hook w mk b w' l : inv w -> env_set_hook w mk b = Ok (w', l) -> inv w'.
Proof.
  intros Hi Hx. unfold env_set_hook, env_ok in Hx. bi Hx m Hm. apply ok_or_Ok in Hm.
  bq Hx Hb. apply Ok_inj in Hx. injection Hx as <- <-.
  eapply pres_mint; try eassumption; try reflexivity.
  intros f Hf. exact (tk_fee _ (i_tokens _ Hi) _ _ Hm f Hf).
Qed.

(** * Every reachable state *)
Section WithCrypto.
Context `{Crypto}.

Theorem inv_step w o w' l : inv w -> step w o = Ok (w', l) -> inv w'.
Proof.
  intros Hi Hx. destruct o; cbn [step] in Hx.
  - eapply pres_init_fixed; eassumption.
  - eapply pres_close_fixed; eassumption.
  - eapply pres_init_presale; eassumption.
  - eapply pres_create_merkle; eassumption.
  - eapply pres_close_merkle; eassumption.
  - eapply pres_permissionless; eassumption.
  - eapply pres_authority; eassumption.
  - eapply pres_merkle_escrow; eassumption.
  - eapply pres_create_operator; eassumption.
  - eapply pres_revoke_operator; eassumption.
  - eapply pres_deposit; eassumption.
  - eapply pres_withdraw; eassumption.
  - eapply pres_claim; eassumption.
  - eapply pres_remaining; eassumption.
  - eapply pres_unsold; eassumption.
  - eapply pres_close_escrow; eassumption.
  - eapply pres_creator_withdraw; eassumption.
  - eapply pres_refresh; eassumption.
  - eapply pres_create_server; eassumption.
  - eapply pres_close_server; eassumption.
  - eapply pres_collect_fee; eassumption.
  - eapply pres_clock; eassumption.
  - eapply pres_create_mint; eassumption.
  - eapply pres_close_mint; eassumption.
  - eapply pres_create_token; eassumption.
  - eapply pres_close_token; eassumption.
  - eapply pres_transfer; eassumption.
  - eapply pres_burn; eassumption.
  - eapply pres_mint_to; eassumption.
  - eapply pres_approve; eassumption.
  - eapply pres_revoke; eassumption.
  - eapply pres_set_owner; eassumption.
  - eapply pres_set_memo; eassumption.
  - eapply pres_set_guard; eassumption.
  - eapply pres_freeze; eassumption.
  - eapply pres_set_fee; eassumption.
  - eapply pres_set_hook; eassumption.
  - eapply pres_withheld; eassumption.
Qed.

Lemma inv_exec w o : inv w -> inv (exec w o).
Proof.
  intros Hi. unfold exec. destruct (step w o) as [[w' l]|] eqn:Hx; [|assumption].
  eapply inv_step; eassumption.
Qed.
Lemma inv_run w l : inv w -> inv (run w l).
Proof.
  revert w. induction l as [|o l IH]; intros w Hi; [assumption|]. cbn. apply IH, inv_exec. assumption.
Qed.
Lemma inv_genesis : inv genesis.
Proof.
  constructor; cbn; try (intros ? ? Hx; rewrite lookup_empty in Hx; discriminate).
  - num. lia.
  - constructor; cbn; try (intros ? ? Hx; rewrite lookup_empty in Hx; discriminate).
    intros. apply msum_empty.
Qed.
Theorem reachable_inv w : reachable w -> inv w.
Proof. intros [l ->]. apply inv_run, inv_genesis. Qed.

Lemma reachable_step w o : reachable w -> reachable (exec w o).
Proof. intros [l ->]. exists (l ++ [o]). unfold run. rewrite foldl_app. reflexivity. Qed.
Lemma reachable_run w l : reachable w -> reachable (run w l).
Proof. intros [l0 ->]. exists (l0 ++ l). unfold run. rewrite foldl_app. reflexivity. Qed.
Lemma reachable_ok w o w' l : reachable w -> step w o = Ok (w', l) -> reachable w'.
Proof. intros Hr Hx. replace w' with (exec w o) by (unfold exec; rewrite Hx; reflexivity). apply reachable_step. assumption. Qed.
Lemma reachable_genesis : reachable genesis.
Proof. exists []. reflexivity. Qed.

End WithCrypto.
