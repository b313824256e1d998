(** C89: the deposit fee cannot be avoided. *)
From Coq Require Import Lia.
From Verif Require Import Base Math State Handlers Token World Instr Exec Tactics Sums Spec Arith
  TokenFacts Inv Acct Funs Steps Init Preserve Reach Did Trans Flow Scenario P_Arith P_Solvency P_History
  P_Payout P_State P_Limits P_Merkle P_Exit.

Section WithCrypto.
Context `{Crypto}.

Lemma covers_mono bps d d' f : 0 <= bps -> d' <= d -> covers bps d f -> covers bps d' f.
Proof. unfold covers. intros. nia. Qed.
Lemma covers_add bps d f a g : covers bps d f -> covers bps a g -> covers bps (d + a) (f + g).
Proof. unfold covers. lia. Qed.
Lemma covers_of_ceil bps a f :
  0 <= bps <= 5000 -> a + f = div_ceil (a * 10000) (10000 - bps) -> covers bps a f.
Proof.
  intros Hb He. pose proof (div_ceil_bounds (a * 10000) (10000 - bps) ltac:(lia)) as [Hx _].
  rewrite <- He in Hx. unfold covers. lia.
Qed.

Lemma reg_bps k p i r : cfg k p -> p_regs p !! i = Some r -> 0 <= r_fee_bps r <= 5000.
Proof. intros Hc Hr. destruct (c_regs k p Hc i r Hr) as [(_ & _ & _ & _ & ?)|(_ & ->)]; [assumption|cbn; lia]. Qed.

Lemma terms_bps p p' i r' :
  terms_of p' = terms_of p -> p_regs p' !! i = Some r' ->
  exists r, p_regs p !! i = Some r /\ r_fee_bps r' = r_fee_bps r.
Proof.
  unfold terms_of. intros Ht Hr. injection Ht. intros Hl _ _ _ _ _ _ _ _ _ _ _ _ _ _ _ _ _ _ _ _ _ _ _.
  assert (Hm : map (fun r => (r_supply r, r_min_cap r, r_max_cap r, r_fee_bps r)) (p_regs p') !! i =
    Some (r_supply r', r_min_cap r', r_max_cap r', r_fee_bps r')).
  { rewrite list_lookup_fmap, Hr. reflexivity. }
  rewrite Hl, list_lookup_fmap in Hm. destruct (p_regs p !! i) as [r|]; [|discriminate]. cbn in Hm.
  injection Hm as _ _ _ E. exists r. auto.
Qed.

Definition fees_paid (w : world) : Prop :=
  (forall k p i r, w_presales w !! k = Some p -> p_regs p !! i = Some r ->
     covers (r_fee_bps r) (r_deposit r) (r_fee r)) /\
  (forall ek e p r, w_escrows w !! ek = Some e -> w_presales w !! e_presale e = Some p ->
     p_regs p !! Z.to_nat (e_idx e) = Some r -> covers (r_fee_bps r) (e_deposit e) (e_fee e)).

(** A registry of the list after one entry was replaced: another one, or the new one. *)
Lemma insert_cases (L : list registry) j x i r' :
  <[j:=x]> L !! i = Some r' -> (i = j /\ r' = x) \/ L !! i = Some r'.
Proof. intros Hx. apply list_lookup_insert_Some in Hx as [(-> & -> & _)|[_ Hx]]; auto. Qed.

Lemma step_fees w o w' l : inv w -> fees_paid w -> step w o = Ok (w', l) -> fees_paid w'.
Proof.
  intros Hi [HR HE] Hs. pose proof (step_does _ _ _ _ Hi Hs) as Hd.
  assert (Hi' : inv w') by (eapply inv_step; eassumption). split.
  - intros k p' i r' Hp' Hr'. pose proof (does_presale w o w' l k Hd) as Hc.
    destruct Hc as [He|? ? ? ? ? ? ? ? ? ? p2 ? ? ? ? ? _ D Hnone Hq|? idx ? p2 r0 Hcr D Hq
    |? ? ? ? ? ? ? ? p1 p2 e r0 ? amount fee ? ? ? -> D Hq|? ? ? ? ? ? ? ? p2 e r0 ? amount ? ? -> D Hq
    |? ? ? ? ? ? ? p2 e r0 ? ? ? -> D Hq|? ? ? ? ? ? ? p2 e r0 ? ? ? -> D Hq
    |? ? ? p2 e r0 -> D Hq|? ? ? ? p2 ? ? ? -> D Hq|? ? ? ? ? ? p2 ? ? ? -> D Hq|? ? ? ? ? p2 ? ? ? -> D Hq].
    + rewrite He in Hp'. eauto.
    + assert (p2 = p') as -> by congruence.
      pose proof (i_presales _ Hi' _ _ Hp') as Hok. pose proof (q_cfg _ _ _ Hok) as Hc.
      pose proof (reg_bps _ _ _ _ Hc Hr').
      pose proof (books_reg_le _ _ _ _ _ (a_books _ _ _ _ (q_acct _ _ _ Hok)) Hr') as B.
      destruct D. destruct (n_zero _ _ _ _ _ _ _ _ _ _ di_presale) as (Z1 & _). unfold covers. nia.
    + destruct D. rewrite Hq in Hp'. injection Hp' as <-. destruct p2; cbn in *.
      apply insert_cases in Hr' as [[-> ->]|Hr']; [|exact (HR _ _ _ _ dc_presale Hr')].
      specialize (HR _ _ _ _ dc_presale dc_reg). destruct r0. exact HR.
    + destruct D. rewrite Hq in Hp'. injection Hp' as <-.
      assert (Hr2 : p_regs (deposited p1 e r0 amount fee) !! i = Some r').
      { destruct dd_end as [(_ & _ & ->)|(_ & ->)]; [|exact Hr']. destruct p1; exact Hr'. }
      pose proof (reg_bps _ _ _ _ (at_cfg _ _ _ _ _ _ dd_at) dd_reg) as Hb.
      pose proof (HR _ _ _ _ dd_presale dd_reg) as Hv.
      pose proof (covers_of_ceil _ _ _ Hb (proj2 dd_fee)) as Hv2.
      assert (Hcase : (i = Z.to_nat (e_idx e) /\
        r' = set_r_fee (r_fee r0 + fee) (set_r_deposit (r_deposit r0 + amount) r0)) \/ p_regs p1 !! i = Some r').
      { unfold deposited, set_reg in Hr2. destruct p1; cbn in Hr2. apply insert_cases in Hr2. exact Hr2. }
      destruct Hcase as [[-> ->]|Hr3]; [|exact (HR _ _ _ _ dd_presale Hr3)].
      pose proof (covers_add _ _ _ _ _ Hv Hv2) as Hv3. destruct r0. exact Hv3.
    + destruct D. rewrite Hq in Hp'. injection Hp' as <-.
      pose proof (reg_bps _ _ _ _ (at_cfg _ _ _ _ _ _ dw_at) dw_reg) as Hb.
      pose proof (HR _ _ _ _ dw_presale dw_reg) as Hv.
      unfold withdrawn, set_reg in Hr'. destruct p2; cbn in *.
      apply insert_cases in Hr' as [[-> ->]|Hr3]; [|exact (HR _ _ _ _ dw_presale Hr3)].
      assert (Hv3 : covers (r_fee_bps r0) (r_deposit r0 - amount) (r_fee r0)) by (eapply covers_mono; [..|exact Hv]; lia).
      destruct r0. exact Hv3.
    + destruct D. rewrite Hq in Hp'. injection Hp' as <-. destruct p2; cbn in *.
      apply insert_cases in Hr' as [[-> ->]|Hr3]; [|exact (HR _ _ _ _ dr_presale Hr3)].
      specialize (HR _ _ _ _ dr_presale dr_reg). destruct r0. exact HR.
    + destruct D. rewrite Hq in Hp'. injection Hp' as <-. destruct p2; cbn in *.
      apply insert_cases in Hr' as [[-> ->]|Hr3]; [|exact (HR _ _ _ _ dm_presale Hr3)].
      specialize (HR _ _ _ _ dm_presale dm_reg). destruct r0. exact HR.
    + destruct D. rewrite Hq in Hp'. injection Hp' as <-. destruct p2; cbn in *.
      apply insert_cases in Hr' as [[-> ->]|Hr3]; [|exact (HR _ _ _ _ dx_presale Hr3)].
      specialize (HR _ _ _ _ dx_presale dx_reg). destruct r0. exact HR.
    + destruct D. rewrite Hq in Hp'. injection Hp' as <-. destruct p2; exact (HR _ _ _ _ dcw_presale Hr').
    + destruct D. rewrite Hq in Hp'. injection Hp' as <-. destruct p2; exact (HR _ _ _ _ dfe_presale Hr').
    + destruct D. rewrite Hq in Hp'. injection Hp' as <-. destruct p2; exact (HR _ _ _ _ du_presale Hr').
  - intros ek e' p' r' He' Hp' Hr'.
    (* the rate is that of the registry before the step *)
    assert (Hbps : forall p, w_presales w !! e_presale e' = Some p ->
      exists r, p_regs p !! Z.to_nat (e_idx e') = Some r /\ r_fee_bps r' = r_fee_bps r).
    { intros p Hp. destruct (presale_moves _ _ _ _ _ _ Hi Hs Hp) as (p1 & Hp1 & Hm).
      assert (p1 = p') as -> by congruence. eapply terms_bps; [apply (mv_terms _ _ _ Hm)|exact Hr']. }
    destruct (does_escrow w o w' l ek Hd) as [He|? ? ? ? ? ? _ _ D Hq
      |? ? ? ? ? ? ? ? p p2 e r ? amount fee ? ? ? -> D Hq|? ? ? ? ? ? ? ? p e r ? amount ? ? -> D Hq
      |? ? ? ? ? ? ? p e r ? ? ? -> D Hq|? ? ? ? ? ? ? p e r ? ? ? -> D Hq|? p e e1 r -> D Hq|? ? ? ? ? ? -> D Hq].
    + rewrite He in He'. destruct (i_escrows _ Hi _ _ He') as [p Hp].
      destruct (Hbps p Hp) as (r & Hr & ->). eauto.
    + rewrite Hq in He'. injection He' as <-. unfold covers. cbn. lia.
    + destruct D. rewrite Hq in He'. injection He' as <-.
      pose proof (reg_bps _ _ _ _ (at_cfg _ _ _ _ _ _ dd_at) dd_reg) as Hb.
      assert (Hl : w_presales w !! e_presale e = Some p) by (rewrite dd_link; exact dd_presale).
      pose proof (HE _ _ _ _ dd_escrow Hl dd_reg) as Hv.
      pose proof (covers_of_ceil _ _ _ Hb (proj2 dd_fee)) as Hv2.
      pose proof (covers_add _ _ _ _ _ Hv Hv2) as Hv3.
      destruct (Hbps p) as (r1 & Hr1 & ->); [destruct e; exact Hl|].
      assert (r1 = r) as -> by (destruct e; cbn in *; congruence). destruct e; exact Hv3.
    + destruct D. rewrite Hq in He'. injection He' as <-.
      pose proof (reg_bps _ _ _ _ (at_cfg _ _ _ _ _ _ dw_at) dw_reg) as Hb.
      assert (Hl : w_presales w !! e_presale e = Some p) by (rewrite dw_link; exact dw_presale).
      pose proof (HE _ _ _ _ dw_escrow Hl dw_reg) as Hv.
      assert (Hv3 : covers (r_fee_bps r) (e_deposit e - amount) (e_fee e)) by (eapply covers_mono; [..|exact Hv]; lia).
      destruct (Hbps p) as (r1 & Hr1 & ->); [destruct e; exact Hl|].
      assert (r1 = r) as -> by (destruct e; cbn in *; congruence). destruct e; exact Hv3.
    + destruct D. rewrite Hq in He'. injection He' as <-.
      assert (Hl : w_presales w !! e_presale e = Some p) by (rewrite dr_link; exact dr_presale).
      pose proof (HE _ _ _ _ dr_escrow Hl dr_reg) as Hv.
      destruct (Hbps p) as (r1 & Hr1 & ->); [destruct e; exact Hl|].
      assert (r1 = r) as -> by (destruct e; cbn in *; congruence). destruct e; exact Hv.
    + destruct D. rewrite Hq in He'. injection He' as <-.
      assert (Hl : w_presales w !! e_presale e = Some p) by (rewrite dm_link; exact dm_presale).
      pose proof (HE _ _ _ _ dm_escrow Hl dm_reg) as Hv.
      destruct (Hbps p) as (r1 & Hr1 & ->); [destruct e; exact Hl|].
      assert (r1 = r) as -> by (destruct e; cbn in *; congruence). destruct e; exact Hv.
    + destruct D. rewrite Hq in He'. injection He' as ->.
      assert (Hl : w_presales w !! e_presale e = Some p) by (rewrite df_link; exact df_presale).
      pose proof (HE _ _ _ _ df_escrow Hl df_reg) as Hv.
      assert (Hk : e_presale e' = e_presale e /\ e_idx e' = e_idx e /\ e_deposit e' = e_deposit e /\ e_fee e' = e_fee e).
      { destruct df_what as [(_ & _ & ->)|(_ & ->)]; destruct e; auto. }
      destruct Hk as (K1 & K2 & K3 & K4).
      destruct (Hbps p) as (r1 & Hr1 & ->); [rewrite K1; exact Hl|].
      rewrite K2 in Hr1. assert (r1 = r) as -> by congruence. rewrite K3, K4. exact Hv.
    + congruence.
Qed.

Lemma reachable_fees w : reachable w -> fees_paid w.
Proof.
  intros [l ->]. induction l as [|o l IH] using rev_ind.
  - split; intros; cbn in *; rewrite lookup_empty in *; discriminate.
  - unfold run. rewrite foldl_app. cbn [foldl]. change (foldl exec genesis l) with (run genesis l).
    unfold exec. destruct (step (run genesis l) o) as [[w' fx]|] eqn:Es; [|exact IH].
    eapply step_fees; [|exact IH|exact Es]. apply reachable_inv. exists l. reflexivity.
Qed.

(** However a buyer splits deposits and withdrawals, at any time the fees paid for an escrow cover the
    rate of its registry on what the escrow holds. *)
Theorem C89_fee_not_avoided w k p ek e r :
  reachable w -> w_presales w !! k = Some p -> w_escrows w !! ek = Some e -> e_presale e = k ->
  p_regs p !! Z.to_nat (e_idx e) = Some r -> covers (r_fee_bps r) (e_deposit e) (e_fee e).
Proof. intros Hw Hp He Hk Hr. destruct (reachable_fees _ Hw) as [_ HE]. subst k. eauto. Qed.

(** One deposit of what an escrow holds would not have cost more. *)
Theorem C89_one_deposit_is_cheapest w k p ek e r fee inc :
  reachable w -> w_presales w !! k = Some p -> w_escrows w !! ek = Some e -> e_presale e = k ->
  p_regs p !! Z.to_nat (e_idx e) = Some r ->
  calculate_deposit_fee_included_amount (e_deposit e) (r_fee_bps r) RoundUp = Ok (fee, inc) ->
  fee <= e_fee e.
Proof.
  intros Hw Hp He Hk Hr Hf. pose proof (C89_fee_not_avoided _ _ _ _ _ _ Hw Hp He Hk Hr) as Hc.
  destruct (at_intro _ _ _ _ _ _ (reachable_inv _ Hw) Hp He Hk Hr) as [Hok Hcf Ha Hb Hkp Hs Hra Hre].
  pose proof (s_deposit _ _ _ _ _ Hs). pose proof (s_fee _ _ _ _ _ Hs).
  destruct (C23_deposit_fee (e_deposit e) (r_fee_bps r) fee inc ltac:(lia) (reg_bps _ _ _ _ Hcf Hr) Hf) as (_ & _ & _ & Hmin & _).
  apply Hmin. exact Hc.
Qed.

(** The creator's share: after the refunds of a presale above its cap, the fees kept in a registry still
    cover the rate on the deposits kept. *)
Theorem C89_kept_fee_covers_kept_deposits w k p i r :
  reachable w -> w_presales w !! k = Some p -> p_regs p !! i = Some r ->
  covers (r_fee_bps r) (r_deposit r - reg_excess p r) (r_fee r - reg_fee_excess p r).
Proof.
  intros Hw Hp Hr. destruct (reachable_fees _ Hw) as [HR _]. pose proof (HR _ _ _ _ Hp Hr) as Hc.
  pose proof (i_presales _ (reachable_inv _ Hw) _ _ Hp) as Hok. pose proof (q_cfg _ _ _ Hok) as Hcf.
  pose proof (reg_bps _ _ _ _ Hcf Hr) as Hb.
  pose proof (books_reg_le _ _ _ _ _ (a_books _ _ _ _ (q_acct _ _ _ Hok)) Hr) as B.
  unfold covers in *. unfold reg_fee_excess.
  destruct (Z.eq_dec (r_deposit r) 0) as [H0|H0].
  { rewrite H0, Zdiv_0_r. unfold reg_excess. rewrite H0, Z.mul_0_r.
    destruct (Z.eq_dec (p_deposit p) 0) as [->|]; [rewrite Zdiv_0_r; nia|rewrite Z.div_0_l by assumption; nia]. }
  assert (Hx : 0 <= reg_excess p r).
  { unfold reg_excess, excess. apply Z.div_pos; [apply Z.mul_nonneg_nonneg; lia|lia]. }
  set (X := reg_excess p r) in *. set (R := r_deposit r) in *. set (F := r_fee r) in *. set (b := r_fee_bps r) in *.
  pose proof (Z.mul_div_le (F * X) R ltac:(lia)) as Hz. set (z := F * X / R) in *.
  assert (HX : X <= R).
  { subst X R. unfold reg_excess. apply Z.div_le_upper_bound; [lia|]. unfold excess.
    pose proof (c_caps _ _ Hcf). apply Z.mul_le_mono_nonneg_r; lia. }
  (* (10000 - b) F >= b R, and F - z >= F (R - X) / R *)
  assert (H1 : (10000 - b) * F >= b * R) by lia.
  assert (H2 : (F - z) * R >= F * (R - X)) by lia.
  assert (H3 : (10000 - b) * (F * (R - X)) >= b * R * (R - X)) by nia.
  assert (H4 : (10000 - b) * ((F - z) * R) >= (10000 - b) * (F * (R - X))) by nia.
  assert (H5 : (10000 - b) * (F - z) >= b * (R - X)); [|lia].
  apply Z.le_ge. apply (Z.mul_le_mono_pos_r _ _ R); [lia|]. lia.
Qed.

End WithCrypto.

#[local] Existing Instance toy.

(** Alice deposited 800 for a fee of 9 and took 50 back; one deposit of 750 costs 8. Of the 1350 deposited in
    their registry 871 are kept, and 11 of the 16 fees: the rate of one percent asks for 9. *)
Example C89_met :
  reachable w_pr_over /\
  exists p e r, found w_pr_over alice 0 = Some (p, e, r) /\ e_presale e = k1 /\ r_fee_bps r = 100 /\
    e_deposit e = 750 /\ e_fee e = 9 /\
    calculate_deposit_fee_included_amount (e_deposit e) (r_fee_bps r) RoundUp = Ok (8, 758) /\
    r_deposit r - reg_excess p r = 871 /\ r_fee r - reg_fee_excess p r = 11.
Proof.
  split; [apply reach|]. eexists _, _, _. split; [vm_compute; reflexivity|]. vm_compute. repeat split; reflexivity.
Qed.
