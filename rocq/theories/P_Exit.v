(** C57-C63: closing, leaving, fair shares of the cap, independence of the order of payouts,
    admission, refreshing, and the creator's controls. *)
From Coq Require Import Lia.
From Verif Require Import Base Math State Handlers Token World Instr Exec Tactics Sums Spec Arith
  TokenFacts Inv Acct Funs Steps Init Preserve Reach Did Trans Flow Scenario P_Solvency P_History
  P_Payout P_State P_Limits P_Merkle.

Section WithCrypto.
Context `{Crypto}.

(** * C57: an escrow can be closed exactly when nothing is left in it *)

Definition nothing_left (p : presale) (r : registry) (e : escrow) (now : Z) : Prop :=
  (open_for_deposits p now /\ e_deposit e = 0 /\ e_fee e = 0) \/
  (failed p now /\ (e_withdrawn e = 1 \/ (e_deposit e = 0 /\ e_fee e = 0))) \/
  (succeeded p now /\ e_claimed e = final p r (e_deposit e) /\
   (e_withdrawn e = 1 \/ share_deposit p r (e_deposit e) + share_fee p r (e_fee e) = 0)).

Lemma escrow_counts w k ek p e r :
  at_escrow w k ek p e r -> w_escrows w !! ek = Some e -> e_presale e = k ->
  p_regs p !! Z.to_nat (e_idx e) = Some r -> 1 <= r_escrows r /\ 1 <= p_escrows p.
Proof.
  intros Hat He Hk Hr. destruct Hat as [Hok Hc Ha Hb Hkp Hs Hra Hre].
  assert (Hn : forall i x, p_regs p !! i = Some x -> 0 <= r_escrows x).
  { intros i x Hx. rewrite (b_count _ _ _ Hb _ _ Hx). apply esum_nonneg. intros; unfold one; lia. }
  assert (H1 : 1 <= r_escrows r).
  { rewrite (b_count _ _ _ Hb _ _ Hr).
    apply (esum_member k (Z.to_nat (e_idx e)) one (w_escrows w) ek e); try assumption.
    - pose proof (s_idx _ _ _ _ _ Hs). lia.
    - intros; unfold one; lia. }
  split; [assumption|]. rewrite (b_escrows _ _ _ Hb).
  assert (r_escrows r <= lsum r_escrows (p_regs p)); [|lia].
  eapply lsum_member; [exact Hr|]. intros x Hx. apply elem_of_list_lookup in Hx as [i Hx]. eauto.
Qed.

Theorem C57_close_iff w k p ek e r rr :
  reachable w -> w_presales w !! k = Some p -> w_escrows w !! ek = Some e -> e_presale e = k ->
  p_regs p !! Z.to_nat (e_idx e) = Some r -> is_wallet (e_owner e) = true -> ek <> rr ->
  (exists w' l, step w (ICloseEscrow k ek (e_owner e) rr) = Ok (w', l)) <-> nothing_left p r e (w_now w).
Proof.
  intros Hw Hp He Hk Hr Hsg Hrr. pose proof (reachable_inv _ Hw) as Hi. split.
  - intros (w' & l & Hs). cbn in Hs. apply close_did in Hs; [|assumption].
    destruct Hs as (p1 & e1 & r1 & D). destruct D.
    assert (p1 = p) as -> by congruence. assert (e1 = e) as -> by congruence.
    assert (r1 = r) as -> by congruence.
    destruct dx_settled as [?|[?|(Hsu & Hcl & Hrf)]]; [left; assumption|right; left; assumption|].
    right; right. split; [assumption|]. split; [assumption|].
    destruct Hrf as [?|Hrf]; [left; assumption|right]. unfold refundable in Hrf.
    destruct Hsu as [_ Hsu]. rewrite (proj2 (Z.ltb_ge _ _)) in Hrf by assumption. assumption.
  - intros Hn. pose proof (at_intro _ _ _ _ _ _ Hi Hp He Hk Hr) as Hat.
    destruct (escrow_counts _ _ _ _ _ _ Hat He Hk Hr) as [Hn1 Hn2].
    pose proof Hat as [Hok Hc Ha Hb Hkp Hs Hra Hre].
    cbn [step]. unfold close_escrow. go_clock Hi. unfold get_presale, get_escrow. rewrite Hp, He. ok_bind.
    rewrite (has_one_ok (e_presale e)) by assumption. ok_bind.
    rewrite (has_one_ok (e_owner e)) by reflexivity. ok_bind. rewrite not_itself_ok by assumption. ok_bind.
    rewrite signer_ok by assumption. ok_bind.
    assert (Hgo : match get_progress p (w_now w) with
      | NotStarted => Err Panic
      | Ongoing => require ((e_deposit e =? 0) && (e_fee e =? 0)) EscrowNotEmpty
      | Completed => ensure_done_claim_and_refund p e (w_now w)
      | Failed => require (esc_is_withdrawn e || ((e_deposit e =? 0) && (e_fee e =? 0))) EscrowNotEmpty
      end = Ok tt).
    { destruct Hn as [(Ho & H1 & H2)|[(Hf & H1)|(Hsu & Hcl & Hrf)]].
      - rewrite (proj2 (progress_ongoing p (w_now w)) Ho). rewrite H1, H2. reflexivity.
      - rewrite (failed_progress k p Hc) by assumption. unfold esc_is_withdrawn.
        destruct H1 as [->|[-> ->]]; cbn; [reflexivity|]. rewrite orb_true_r. reflexivity.
      - rewrite (succeeded_progress k p Hc) by assumption. unfold ensure_done_claim_and_refund.
        assert (Hx : match escrow_remaining_quote p e (w_now w) with
          | Ok (rd, rf) => if (0 <? rd) || (0 <? rf) then require (esc_is_withdrawn e) EscrowNotEmpty else Ok tt
          | Err er => if bool_decide (er = PresaleNotOpenForWithdrawRemainingQuote) then Ok tt else Err er
          end = Ok tt).
        { destruct (Z.eq_dec (p_mode p) 1) as [Hm|Hm].
          - rewrite (remaining_completed k p _ Hc Hb e r) by (assumption || lia).
            destruct Hrf as [Hrf|Hrf].
            + unfold esc_is_withdrawn. rewrite Hrf. cbn. destruct (_ || _); reflexivity.
            + pose proof (share_deposit_range p r (e_deposit e)). pose proof (share_fee_range p r (e_fee e)).
              pose proof (c_caps _ _ Hc).
              rewrite (proj2 (Z.ltb_ge 0 _)) by lia. rewrite (proj2 (Z.ltb_ge 0 _)) by lia. reflexivity.
          - rewrite (remaining_err k p Hc) by assumption. rewrite bool_decide_eq_true_2; reflexivity. }
        rewrite Hx. ok_bind. destruct (handler_total _ _ Hc) as [hh Hhh]. rewrite Hhh. ok_bind.
        assert (Hve : 0 <= p_vs p + p_vest p <= U64MAX).
        { pose proof (c_ve64 _ _ Hc). pose proof (c_time _ _ Hc). destruct (c_dur _ _ Hc).
          destruct (c_vs _ _ Hc) as [[-> _]|(-> & _ & _ & -> & _)]; [lia|num; lia]. }
        rewrite safe_add_le by lia. ok_bind.
        rewrite (cumulative_spec k p _ Hc Hb Hkp hh e r _ Hhh Hr) by lia. ok_bind.
        rewrite (entitled_final k p _ r _ _ Hc Hr) by lia.
        rewrite Hcl, Z.eqb_refl. reflexivity. }
    rewrite Hgo. ok_bind.
    unfold presale_dec_escrow, reg_dec_escrow. rewrite (proj2 (get_reg_Ok _ _ _) Hr). ok_bind.
    rewrite safe_sub_le by lia. ok_bind. rewrite safe_sub_le by lia. ok_bind. eauto.
Qed.

(** * C58: nobody is locked in *)

(** Accounts and mints keep everything but amounts. *)
Definition same_shape (w w' : world) : Prop :=
  (forall a t', w_tokens w' !! a = Some t' ->
     exists t, w_tokens w !! a = Some t /\ t_mint t' = t_mint t /\ t_frozen t' = t_frozen t) /\
  (forall a t, w_tokens w !! a = Some t ->
     exists t', w_tokens w' !! a = Some t' /\ t_mint t' = t_mint t /\ t_frozen t' = t_frozen t) /\
  (forall a m, w_mints w !! a = Some m ->
     exists m', w_mints w' !! a = Some m' /\ m_prog m' = m_prog m /\ m_hook m' = m_hook m /\ m_fee m' = m_fee m).

Lemma shape_refl w w' : w_tokens w' = w_tokens w -> w_mints w' = w_mints w -> same_shape w w'.
Proof. intros Ht Hm. unfold same_shape. rewrite Ht, Hm. repeat split; intros; eauto 6. Qed.
Lemma shape_ext w w1 w' : same_shape w w1 -> w_tokens w' = w_tokens w1 -> w_mints w' = w_mints w1 -> same_shape w w'.
Proof. intros Hs Ht Hm. unfold same_shape. rewrite Ht, Hm. exact Hs. Qed.

Lemma transfer_shape w pr src mk dst auth n ok w' l :
  tok_transfer w pr src mk dst auth n ok = Ok (w', l) -> same_shape w w'.
Proof.
  intros Hx. apply tok_transfer_inv in Hx as
    (m & s & d & dl & Hm & Hs & Hd & _ & _ & _ & _ & _ & _ & _ & [(_ & -> & _)|(Hne & _ & _ & -> & _)]).
  { apply shape_refl; reflexivity. }
  split; [|split]; cbn.
  - intros a t' Ha. destruct (decide (a = dst)) as [->|]; [|rewrite lookup_insert_ne in Ha by congruence].
    { rewrite lookup_insert in Ha. injection Ha as <-. exists d. auto. }
    destruct (decide (a = src)) as [->|]; [|rewrite lookup_insert_ne in Ha by congruence; eauto].
    rewrite lookup_insert in Ha. injection Ha as <-. exists s. auto.
  - intros a t Ha. destruct (decide (a = dst)) as [->|]; [|rewrite lookup_insert_ne by congruence].
    { rewrite lookup_insert. eexists. split; [reflexivity|]. assert (t = d) as -> by congruence. auto. }
    destruct (decide (a = src)) as [->|]; [|rewrite lookup_insert_ne by congruence; eauto].
    rewrite lookup_insert. eexists. split; [reflexivity|]. assert (t = s) as -> by congruence. auto.
  - intros a x Ha. destruct (decide (a = mk)) as [->|]; [|rewrite lookup_insert_ne by congruence; eauto].
    rewrite lookup_insert. eexists. split; [reflexivity|]. assert (x = m) as -> by congruence. auto.
Qed.
Lemma paid_shape w pr src mk dst n ok w' l : paid w pr src mk dst n ok w' l -> same_shape w w'.
Proof.
  intros [[_ Hx]|(_ & -> & _)]; [eapply transfer_shape; eassumption|apply shape_refl; reflexivity].
Qed.

Lemma receivable_shape w w' v mk dst pr ty accts h m :
  same_shape w w' -> receivable w v mk dst pr ty accts h m ->
  exists m', receivable w' v mk dst pr ty accts h m' /\ m_fee m' = m_fee m /\ m_prog m' = m_prog m.
Proof.
  intros (S1 & S2 & S3) [Hm Hp Hv (d & Hd & Hdm & Hdf) Hh].
  destruct (S3 _ _ Hm) as (m' & Hm' & Hp' & Hh' & Hf'). exists m'. split; [|auto]. constructor.
  - assumption.
  - congruence.
  - intros t' Ht'. destruct (S1 _ _ Ht') as (t & Ht & _ & ->). eauto.
  - destruct (S2 _ _ Hd) as (d' & Hd' & ? & ?). exists d'. repeat split; congruence.
  - unfold hook_args in *. rewrite Hp', Hh'. assumption.
Qed.

(** * C60: after the end, what an escrow is owed no longer depends on anything that happens *)

(** Everything an escrow with deposit [d] and fee [f] in registry [r] is owed, now or at any later time. *)
Record same_rights (p : presale) (r : registry) (p' : presale) (r' : registry) : Prop := {
  sr_entitled : forall d t, entitled p' r' d t = entitled p r d t;
  sr_final : forall d, final p' r' d = final p r d;
  sr_deposit : forall d, share_deposit p' r' d = share_deposit p r d;
  sr_fee : forall f, share_fee p' r' f = share_fee p r f
}.

Lemma rights_same p r p' r' i :
  terms_of p' = terms_of p -> timing_of p' = timing_of p -> deposits_of p' = deposits_of p ->
  p_regs p !! i = Some r -> p_regs p' !! i = Some r' -> same_rights p r p' r'.
Proof.
  intros Ht Hti Hd Hr Hr'.
  destruct (terms_regs _ _ _ _ Ht Hr') as (r1 & Hr1 & Hsup & _). assert (r1 = r) as -> by congruence.
  assert (Hx : r_deposit r' = r_deposit r /\ r_fee r' = r_fee r).
  { injection Hd. intros Hl _ _.
    assert (Hm : map (fun r => (r_deposit r, r_fee r)) (p_regs p') !! i = Some (r_deposit r', r_fee r'))
      by (rewrite list_lookup_fmap, Hr'; reflexivity).
    rewrite Hl, list_lookup_fmap, Hr in Hm. cbn in Hm. injection Hm. auto. }
  destruct Hx as [Hrd Hrf].
  assert (Hso : sold p' r' = sold p r).
  { assert (Hmr : p_mode p' = p_mode p /\ p_raw0 p' = p_raw0 p) by (unfold terms_of in Ht; injection Ht; auto).
    destruct Hmr as [Hm0 Hr0]. unfold sold. rewrite Hrd, Hsup, Hm0, Hr0. reflexivity. }
  assert (Hbps : p_bps p' = p_bps p /\ p_vest p' = p_vest p /\ p_max_cap p' = p_max_cap p).
  { unfold terms_of in Ht. injection Ht. auto. }
  destruct Hbps as (Hbps & Hve & Hmax). unfold timing_of in Hti. injection Hti as _ Hit Hvs _.
  assert (Hdep : p_deposit p' = p_deposit p) by (injection Hd; auto).
  assert (Him : imm_part p' r' = imm_part p r) by (unfold imm_part; rewrite Hso, Hbps; reflexivity).
  assert (Hvp : vest_part p' r' = vest_part p r) by (unfold vest_part; rewrite Hso, Him; reflexivity).
  assert (Hre : reg_excess p' r' = reg_excess p r).
  { unfold reg_excess, excess. rewrite Hdep, Hmax, Hrd. reflexivity. }
  assert (Hrx : reg_fee_excess p' r' = reg_fee_excess p r).
  { unfold reg_fee_excess. rewrite Hre, Hrd, Hrf. reflexivity. }
  constructor; intros.
  - unfold entitled, vested_by. rewrite Him, Hvp, Hit, Hvs, Hve, Hrd. reflexivity.
  - unfold final. rewrite Him, Hvp, Hrd. reflexivity.
  - unfold share_deposit. rewrite Hre, Hrd. reflexivity.
  - unfold share_fee. rewrite Hrx, Hrf. reflexivity.
Qed.

Definition kept_escrow (w : world) (k ek : addr) (e : escrow) : Prop :=
  (exists p, w_presales w !! k = Some p /\ p_end p <= w_now w) /\
  (forall e', w_escrows w !! ek = Some e' -> e_presale e' = k /\ e_owner e' = e_owner e /\ e_idx e' = e_idx e /\
     e_deposit e' = e_deposit e /\ e_fee e' = e_fee e) /\
  (forall k' owner idx, ek = PEscrow k' owner idx -> k' = k).

Lemma kept_step w o w' l k ek e : inv w -> step w o = Ok (w', l) -> kept_escrow w k ek e -> kept_escrow w' k ek e.
Proof.
  intros Hi Hs ((p & Hp & Hov) & He & Hk). pose proof (step_does _ _ _ _ Hi Hs) as Hd.
  split; [|split; [|assumption]].
  - destruct (presale_moves _ _ _ _ _ _ Hi Hs Hp) as (p' & Hp' & Hm). exists p'. split; [assumption|].
    destruct (mv_over _ _ _ Hm Hov) as [Ht _]. injection Ht as -> _ _ _.
    destruct (does_now _ _ _ _ Hd) as [? _]. lia.
  - intros e' He'. destruct (does_escrow _ _ _ _ ek Hd) as
      [Hn|k0 owner idx cap p0 r Ho Hek D Hn
      |k0 qv qm pt payer pr mx h0 p0 p2 ex r m amount fee gross w1 lx Ho D Hn
      |k0 qv qm ot owner pr mx h0 p0 ex r m amount w1 lx Ho D Hn
      |k0 qv qm ot owner pr h0 p0 ex r m w1 lx Ho D Hn|k0 bv bm ot owner pr h0 p0 ex r m w1 lx Ho D Hn
      |k0 p0 ex e1 r Ho D Hn|k0 owner rr p0 ex r Ho D Hn].
    + apply He. congruence.
    + exfalso. specialize (Hk _ _ _ Hek). subst k0. destruct D. assert (p0 = p) as -> by congruence.
      unfold open_for_deposits in dc_open. lia.
    + exfalso. destruct D. destruct (He _ dd_escrow) as [Hx _]. assert (k0 = k) as -> by congruence.
      assert (p0 = p) as -> by congruence. unfold open_for_deposits in dd_open. lia.
    + exfalso. destruct D. destruct (He _ dw_escrow) as [Hx _]. assert (k0 = k) as -> by congruence.
      assert (p0 = p) as -> by congruence. unfold open_for_deposits in dw_open. lia.
    + destruct D. specialize (He _ dr_escrow). rewrite Hn in He'. injection He' as <-. exact He.
    + destruct D. specialize (He _ dm_escrow). rewrite Hn in He'. injection He' as <-. exact He.
    + destruct D. specialize (He _ df_escrow). rewrite Hn in He'. injection He' as <-.
      destruct df_what as [(_ & _ & ->)|(_ & ->)]; exact He.
    + congruence.
Qed.
Lemma kept_run w l k ek e : inv w -> kept_escrow w k ek e -> kept_escrow (run w l) k ek e.
Proof.
  revert w. induction l as [|o l IH]; intros w Hi Hs; [assumption|]. change (run w (o :: l)) with (run (exec w o) l). apply IH.
  - apply inv_exec. assumption.
  - unfold exec. destruct (step w o) as [[w' fx]|] eqn:Ho; [|assumption]. eapply kept_step; eassumption.
Qed.

Theorem C60_rights_fixed w l k p ek e r e' :
  reachable w -> w_presales w !! k = Some p -> p_end p <= w_now w ->
  w_escrows w !! ek = Some e -> e_presale e = k -> p_regs p !! Z.to_nat (e_idx e) = Some r ->
  w_escrows (run w l) !! ek = Some e' ->
  e_presale e' = k /\ e_owner e' = e_owner e /\ e_idx e' = e_idx e /\ e_deposit e' = e_deposit e /\ e_fee e' = e_fee e /\
  exists p' r', w_presales (run w l) !! k = Some p' /\ p_regs p' !! Z.to_nat (e_idx e) = Some r' /\
    p_mode p' = p_mode p /\ same_rights p r p' r' /\
    (succeeded p' (w_now (run w l)) <-> succeeded p (w_now w)) /\
    (failed p' (w_now (run w l)) <-> failed p (w_now w)).
Proof.
  intros Hw Hp Hov He Hk Hr He'. pose proof (reachable_inv _ Hw) as Hi.
  pose proof (at_esc _ _ _ _ _ _ (at_intro _ _ _ _ _ _ Hi Hp He Hk Hr)) as Hs.
  destruct (kept_run w l k ek e Hi) as (_ & Hkeep & _).
  { split; [eauto|]. split.
    - intros x Hx. assert (x = e) as -> by congruence. auto.
    - intros k' o i Hek. rewrite (s_key _ _ _ _ _ Hs) in Hek. congruence. }
  destruct (Hkeep _ He') as (K1 & K2 & K3 & K4 & K5). repeat (split; [assumption|]).
  destruct (C16_outcome_final w l k p Hw Hp Hov) as (p' & Hp' & Hti & Hde & Hte & _ & Hsu & Hfa).
  pose proof (reachable_inv _ (reachable_run _ l Hw)) as Hi'.
  destruct (at_exists _ _ _ _ _ Hi' Hp' He' K1) as [r' Hr']. rewrite K3 in Hr'.
  exists p', r'. split; [assumption|]. split; [assumption|].
  split; [unfold terms_of in Hte; injection Hte; auto|].
  split; [eapply rights_same; eassumption|]. auto.
Qed.

(** Whatever two futures do, a refund of the same escrow pays the same in both. *)
Theorem C60_refund_same w k p ek e l1 l2 qv1 qm1 ot1 o1 pr1 h1 w1 x1 qv2 qm2 ot2 o2 pr2 h2 w2 x2 :
  reachable w -> w_presales w !! k = Some p -> p_end p <= w_now w -> w_escrows w !! ek = Some e -> e_presale e = k ->
  step (run w l1) (IWithdrawRemaining k qv1 qm1 ek ot1 o1 pr1 h1) = Ok (w1, x1) ->
  step (run w l2) (IWithdrawRemaining k qv2 qm2 ek ot2 o2 pr2 h2) = Ok (w2, x2) ->
  exists n f1 f2, moved (run w l1) w1 (PQuoteVault k) ot1 n f1 /\ moved (run w l2) w2 (PQuoteVault k) ot2 n f2.
Proof.
  intros Hw Hp Hov He Hk S1 S2. destruct (at_exists _ _ _ _ _ (reachable_inv _ Hw) Hp He Hk) as [r Hr].
  destruct (C04_refund_exact _ _ _ _ _ _ _ _ _ _ _ (reachable_run _ l1 Hw) S1)
    as (p1 & e1 & r1 & m1 & Hp1 & He1 & Hk1 & _ & Hr1 & _ & _ & C1 & M1 & _).
  destruct (C04_refund_exact _ _ _ _ _ _ _ _ _ _ _ (reachable_run _ l2 Hw) S2)
    as (p2 & e2 & r2 & m2 & Hp2 & He2 & Hk2 & _ & Hr2 & _ & _ & C2 & M2 & _).
  destruct (C60_rights_fixed w l1 k p ek e r e1 Hw Hp Hov He Hk Hr He1)
    as (_ & _ & I1 & D1 & F1 & p1' & r1' & Hp1' & Hr1' & _ & R1 & Su1 & Fa1).
  destruct (C60_rights_fixed w l2 k p ek e r e2 Hw Hp Hov He Hk Hr He2)
    as (_ & _ & I2 & D2 & F2 & p2' & r2' & Hp2' & Hr2' & _ & R2 & Su2 & Fa2).
  assert (p1' = p1) as -> by congruence. assert (p2' = p2) as -> by congruence.
  rewrite I1 in Hr1. rewrite I2 in Hr2. assert (r1' = r1) as -> by congruence. assert (r2' = r2) as -> by congruence.
  assert (Heq : refundable p1 r1 e1 = refundable p2 r2 e2).
  { destruct R1, R2. destruct C1 as [[A1 ->]|(A1 & _ & -> & _)], C2 as [[A2 ->]|(A2 & _ & -> & _)].
    - rewrite D1, D2, F1, F2. reflexivity.
    - exfalso. apply Fa1 in A1. apply Su2 in A2. destruct A1, A2. lia.
    - exfalso. apply Su1 in A1. apply Fa2 in A2. destruct A1, A2. lia.
    - rewrite sr_deposit0, sr_deposit1, sr_fee0, sr_fee1, D1, D2, F1, F2. reflexivity. }
  rewrite <- Heq in M2. exists (refundable p1 r1 e1). eauto.
Qed.

(** Likewise two claims at the same time leave the escrow with the same total, whatever was claimed
    and done in between. *)
Theorem C60_claim_same w k p ek e l1 l2 bv1 bm1 ot1 o1 pr1 h1 w1 x1 bv2 bm2 ot2 o2 pr2 h2 w2 x2 :
  reachable w -> w_presales w !! k = Some p -> p_end p <= w_now w -> w_escrows w !! ek = Some e -> e_presale e = k ->
  step (run w l1) (IClaim k bv1 bm1 ek ot1 o1 pr1 h1) = Ok (w1, x1) ->
  step (run w l2) (IClaim k bv2 bm2 ek ot2 o2 pr2 h2) = Ok (w2, x2) ->
  w_now (run w l1) = w_now (run w l2) ->
  exists e1 e2, w_escrows w1 !! ek = Some e1 /\ w_escrows w2 !! ek = Some e2 /\ e_claimed e1 = e_claimed e2.
Proof.
  intros Hw Hp Hov He Hk S1 S2 Hnow. destruct (at_exists _ _ _ _ _ (reachable_inv _ Hw) Hp He Hk) as [r Hr].
  destruct (C05_claim_exact _ _ _ _ _ _ _ _ _ _ _ (reachable_run _ l1 Hw) S1)
    as (p1 & e1 & r1 & m1 & Hp1 & He1 & Hk1 & _ & Hr1 & _ & _ & _ & _ & x & Hx & Hcx & _).
  destruct (C05_claim_exact _ _ _ _ _ _ _ _ _ _ _ (reachable_run _ l2 Hw) S2)
    as (p2 & e2 & r2 & m2 & Hp2 & He2 & Hk2 & _ & Hr2 & _ & _ & _ & _ & y & Hy & Hcy & _).
  destruct (C60_rights_fixed w l1 k p ek e r e1 Hw Hp Hov He Hk Hr He1)
    as (_ & _ & I1 & D1 & F1 & p1' & r1' & Hp1' & Hr1' & _ & R1 & _).
  destruct (C60_rights_fixed w l2 k p ek e r e2 Hw Hp Hov He Hk Hr He2)
    as (_ & _ & I2 & D2 & F2 & p2' & r2' & Hp2' & Hr2' & _ & R2 & _).
  assert (p1' = p1) as -> by congruence. assert (p2' = p2) as -> by congruence.
  rewrite I1 in Hr1. rewrite I2 in Hr2. assert (r1' = r1) as -> by congruence. assert (r2' = r2) as -> by congruence.
  exists x, y. split; [assumption|]. split; [assumption|].
  rewrite Hcx, Hcy, (sr_entitled _ _ _ _ R1), (sr_entitled _ _ _ _ R2), D1, D2, Hnow. reflexivity.
Qed.

(** * C58: leaving *)

Lemma run_one w o w' l : step w o = Ok (w', l) -> run w [o] = w'.
Proof. intros Hs. cbn. unfold exec. rewrite Hs. reflexivity. Qed.
Lemma reachable_step w o w' l : reachable w -> step w o = Ok (w', l) -> reachable w'.
Proof. intros Hw Hs. rewrite <- (run_one _ _ _ _ Hs). apply reachable_run. assumption. Qed.
Lemma closed_gone w k ek owner rr w' l :
  reachable w -> step w (ICloseEscrow k ek owner rr) = Ok (w', l) -> w_escrows w' !! ek = None.
Proof.
  intros Hw Hs. cbn in Hs. apply close_did in Hs; [|apply reachable_inv; assumption].
  destruct Hs as (p & e & r & D). destruct D. subst w'. cbn. apply lookup_delete.
Qed.

(** After failure: refund, then close. *)
Theorem C58_exit_after_failure w k p ek e ot pr h m rr :
  reachable w -> w_presales w !! k = Some p -> failed p (w_now w) ->
  w_escrows w !! ek = Some e -> e_presale e = k -> e_withdrawn e = 0 -> is_wallet (e_owner e) = true -> ek <> rr ->
  receivable w (PQuoteVault k) (p_qmint p) ot pr TransferHookQuote (h_accounts h) h m ->
  exists w1 l1 w2 l2,
    step w (IWithdrawRemaining k (PQuoteVault k) (p_qmint p) ek ot (e_owner e) pr h) = Ok (w1, l1) /\
    moved w w1 (PQuoteVault k) ot (e_deposit e + e_fee e) (tok_fee m (e_deposit e + e_fee e)) /\
    step w1 (ICloseEscrow k ek (e_owner e) rr) = Ok (w2, l2) /\ w_escrows w2 !! ek = None.
Proof.
  intros Hw Hp Hf He Hk Hfl Hsg Hrr Hrc.
  destruct (C03_failed_refund_succeeds _ _ _ _ _ _ _ _ _ Hw Hp Hf He Hk Hfl Hsg Hrc) as (w1 & l1 & S1 & M1 & E1).
  pose proof (reachable_step _ _ _ _ Hw S1) as Hw1.
  destruct (at_exists _ _ _ _ _ (reachable_inv _ Hw) Hp He Hk) as [r Hr].
  rewrite <- (run_one _ _ _ _ S1) in E1.
  destruct (C60_rights_fixed w _ k p ek e r _ Hw Hp (proj1 Hf) He Hk Hr E1)
    as (_ & _ & _ & _ & _ & p1 & r1 & Hp1 & Hr1 & _ & _ & _ & Fa1).
  rewrite (run_one _ _ _ _ S1) in *.
  destruct (proj2 (C57_close_iff w1 k p1 ek (set_e_withdrawn 1 e) r1 rr Hw1 Hp1 E1 Hk Hr1 Hsg Hrr)) as (w2 & l2 & S2).
  { right. left. split; [apply Fa1; assumption|left; reflexivity]. }
  exists w1, l1, w2, l2. split; [assumption|]. split; [assumption|]. split; [assumption|].
  eapply closed_gone; [exact Hw1|exact S2].
Qed.

(** After success and past the vesting end, with no refund to wait for: claim, then close. *)
Theorem C58_exit_after_success w k p ek e r ot pr h m rr :
  reachable w -> w_presales w !! k = Some p -> succeeded p (w_now w) -> p_vs p + p_vest p <= w_now w ->
  w_escrows w !! ek = Some e -> e_presale e = k -> p_regs p !! Z.to_nat (e_idx e) = Some r ->
  e_withdrawn e = 1 \/ p_mode p <> 1 -> is_wallet (e_owner e) = true -> ek <> rr ->
  receivable w (PBaseVault k) (p_bmint p) ot pr TransferHookBase (h_accounts h) h m ->
  exists w1 l1 w2 l2,
    step w (IClaim k (PBaseVault k) (p_bmint p) ek ot (e_owner e) pr h) = Ok (w1, l1) /\
    moved w w1 (PBaseVault k) ot (final p r (e_deposit e) - e_claimed e) (tok_fee m (final p r (e_deposit e) - e_claimed e)) /\
    step w1 (ICloseEscrow k ek (e_owner e) rr) = Ok (w2, l2) /\ w_escrows w2 !! ek = None.
Proof.
  intros Hw Hp Hsu Hve He Hk Hr Hno Hsg Hrr Hrc. pose proof (reachable_inv _ Hw) as Hi.
  pose proof (at_intro _ _ _ _ _ _ Hi Hp He Hk Hr) as Hat. pose proof (at_cfg _ _ _ _ _ _ Hat) as Hc.
  destruct (C05_claim_succeeds _ _ _ _ _ _ _ _ _ _ Hw Hp Hsu He Hk Hr Hsg Hrc) as (w1 & l1 & S1 & M1 & e1 & E1 & Cl1).
  pose proof (at_reg _ _ _ _ _ _ Hat) as Hre.
  rewrite (entitled_final k p _ r _ _ Hc Hr) in M1, Cl1 by lia.
  pose proof (reachable_step _ _ _ _ Hw S1) as Hw1. pose proof E1 as E1'.
  rewrite <- (run_one _ _ _ _ S1) in E1'.
  destruct (C60_rights_fixed w _ k p ek e r _ Hw Hp (proj1 Hsu) He Hk Hr E1')
    as (K1 & O1 & I1 & D1 & F1 & p1 & r1 & Hp1 & Hr1 & Hm1 & Hri & Su1 & _).
  rewrite (run_one _ _ _ _ S1) in *. rewrite <- I1 in Hr1. rewrite <- O1 in Hsg.
  destruct (proj2 (C57_close_iff w1 k p1 ek e1 r1 rr Hw1 Hp1 E1 K1 Hr1 Hsg Hrr)) as (w2 & l2 & S2).
  { right. right. split; [apply Su1; assumption|]. destruct Hri.
    rewrite sr_final0, sr_deposit0, sr_fee0, D1. split; [assumption|].
    destruct Hno as [Hno|Hno].
    - left. cbn in S1. apply claim_did in S1; [|assumption].
      destruct S1 as (px & ex & rx & mx & wx & lx & D). destruct D. destruct dm_world as (p2 & e2 & -> & -> & _).
      cbn in E1. rewrite lookup_insert in E1. injection E1 as <-. assert (ex = e) as -> by congruence. exact Hno.
    - right. destruct (handler_total _ _ Hc) as [hh Hhh]. apply handler_mode in Hhh.
      assert (Hcap : p_deposit p <= p_max_cap p) by (apply (C09_hard_cap _ _ _ Hw Hp); intuition congruence).
      unfold share_deposit, share_fee, reg_fee_excess, reg_excess.
      assert (excess p = 0) as -> by (unfold excess; lia). cbn. rewrite !Z.mul_0_r.
      repeat rewrite ?Zdiv_0_l, ?Z.mul_0_r. reflexivity. }
  rewrite O1 in S2. exists w1, l1, w2, l2. split; [assumption|]. split; [assumption|]. split; [assumption|].
  eapply closed_gone; [exact Hw1|exact S2].
Qed.

(** Prorata: refund of the overflow, claim, then close. *)
Theorem C58_exit_prorata w k p ek e r qt qpr qh mq bt bpr bh mb rr :
  reachable w -> w_presales w !! k = Some p -> succeeded p (w_now w) -> p_vs p + p_vest p <= w_now w -> p_mode p = 1 ->
  w_escrows w !! ek = Some e -> e_presale e = k -> p_regs p !! Z.to_nat (e_idx e) = Some r ->
  e_withdrawn e = 0 -> is_wallet (e_owner e) = true -> ek <> rr ->
  receivable w (PQuoteVault k) (p_qmint p) qt qpr TransferHookQuote (h_accounts qh) qh mq ->
  receivable w (PBaseVault k) (p_bmint p) bt bpr TransferHookBase (h_accounts bh) bh mb ->
  exists w1 l1 w2 l2 w3 l3,
    step w (IWithdrawRemaining k (PQuoteVault k) (p_qmint p) ek qt (e_owner e) qpr qh) = Ok (w1, l1) /\
    (let n := share_deposit p r (e_deposit e) + share_fee p r (e_fee e) in
     moved w w1 (PQuoteVault k) qt n (tok_fee mq n)) /\
    step w1 (IClaim k (PBaseVault k) (p_bmint p) ek bt (e_owner e) bpr bh) = Ok (w2, l2) /\
    (let n := final p r (e_deposit e) - e_claimed e in
     moved w1 w2 (PBaseVault k) bt n (tok_fee mb n)) /\
    step w2 (ICloseEscrow k ek (e_owner e) rr) = Ok (w3, l3) /\ w_escrows w3 !! ek = None.
Proof.
  intros Hw Hp Hsu Hve Hmode He Hk Hr Hfl Hsg Hrr Hrq Hrb. pose proof (reachable_inv _ Hw) as Hi.
  destruct (C04_prorata_refund_succeeds _ _ _ _ _ _ _ _ _ _ Hw Hp Hsu Hmode He Hk Hr Hfl Hsg Hrq)
    as (w1 & l1 & S1 & M1 & E1). cbv zeta in M1.
  pose proof (reachable_step _ _ _ _ Hw S1) as Hw1. pose proof E1 as E1'.
  rewrite <- (run_one _ _ _ _ S1) in E1'.
  destruct (C60_rights_fixed w _ k p ek e r _ Hw Hp (proj1 Hsu) He Hk Hr E1')
    as (_ & _ & _ & _ & _ & p1 & r1 & Hp1 & Hr1 & Hm1 & Hri & Su1 & _).
  destruct (C16_outcome_final w [IWithdrawRemaining k (PQuoteVault k) (p_qmint p) ek qt (e_owner e) qpr qh]
    k p Hw Hp (proj1 Hsu)) as (p1' & Hp1' & Hti & _ & Hte & _).
  rewrite (run_one _ _ _ _ S1) in *. assert (p1' = p1) as -> by congruence.
  assert (Hx : w_now w1 = w_now w /\ same_shape w w1).
  { cbn in S1. apply refund_did in S1; [|assumption]. destruct S1 as (px & ex & rx & mx & wx & lx & D). destruct D.
    rest_of dr_paid. subst w1. split; [assumption|]. eapply shape_ext; [eapply paid_shape; exact dr_paid|reflexivity|reflexivity]. }
  destruct Hx as [Hnow Hsh].
  assert (Hb1 : p_bmint p1 = p_bmint p) by (unfold terms_of in Hte; injection Hte; auto).
  assert (Hve1 : p_vest p1 = p_vest p) by (unfold terms_of in Hte; injection Hte; auto).
  assert (Hvs1 : p_vs p1 = p_vs p) by (unfold timing_of in Hti; injection Hti; auto).
  destruct (receivable_shape _ _ _ _ _ _ _ _ _ _ Hsh Hrb) as (mb1 & Hrb1 & Hfee & Hprog). rewrite <- Hb1 in Hrb1.
  destruct (C58_exit_after_success w1 k p1 ek (set_e_withdrawn 1 e) r1 bt bpr bh mb1 rr)
    as (w2 & l2 & w3 & l3 & S2 & M2 & S3 & G); try assumption.
  - apply Su1. assumption.
  - rewrite Hvs1, Hve1, Hnow. assumption.
  - left. reflexivity.
  - exists w1, l1, w2, l2, w3, l3. split; [assumption|]. split; [assumption|].
    rewrite Hb1 in S2. split; [exact S2|]. split; [|split; [exact S3|exact G]]. cbv zeta.
    destruct Hri. cbn [e_deposit e_claimed set_e_withdrawn] in M2. rewrite sr_final0 in M2.
    replace (tok_fee mb _) with (tok_fee mb1 (final p r (e_deposit e) - e_claimed e)); [exact M2|].
    unfold tok_fee, get_epoch_transfer_fee. rewrite Hfee, Hprog. reflexivity.
Qed.

(** * C59: a prorata buyer pays their share of the cap *)

Lemma share_bounds D X R d :
  0 < D -> 0 <= X <= D -> 0 < R -> 0 <= d <= R ->
  let s := d * (X * R / D) / R in
  s * D <= d * X < (s + 2) * D.
Proof.
  intros HD HX HR Hd s. set (y := X * R / D) in *.
  assert (Hy : D * y <= X * R < D * (y + 1)).
  { unfold y. pose proof (Z.mul_div_le (X * R) D HD). pose proof (Z.mul_succ_div_gt (X * R) D HD). lia. }
  assert (Hs : R * s <= d * y < R * (s + 1)).
  { unfold s. pose proof (Z.mul_div_le (d * y) R HR). pose proof (Z.mul_succ_div_gt (d * y) R HR). lia. }
  split.
  - apply (Z.mul_le_mono_pos_r _ _ R HR). nia.
  - apply (Z.mul_lt_mono_pos_r R _ _ HR). nia.
Qed.

(** With deposits of [D] for a cap of [M <= D], a deposit of [d] costs [d * M / D], rounded up by
    less than two units; the refunded part of the fee never exceeds the proportion [(D - M) / D]. *)
Theorem C59_pays_share_of_cap w k p ek e r :
  reachable w -> w_presales w !! k = Some p -> p_max_cap p <= p_deposit p ->
  w_escrows w !! ek = Some e -> e_presale e = k -> p_regs p !! Z.to_nat (e_idx e) = Some r -> 0 < e_deposit e ->
  let paid := e_deposit e - share_deposit p r (e_deposit e) in
  e_deposit e * p_max_cap p <= paid * p_deposit p < e_deposit e * p_max_cap p + 2 * p_deposit p /\
  0 <= share_fee p r (e_fee e) /\
  share_fee p r (e_fee e) * p_deposit p <= e_fee e * (p_deposit p - p_max_cap p).
Proof.
  intros Hw Hp HM He Hk Hr Hd0. pose proof (reachable_inv _ Hw) as Hi.
  destruct (at_intro _ _ _ _ _ _ Hi Hp He Hk Hr) as [Hok Hc Ha Hb Hkp Hs Hra Hre].
  pose proof (c_caps _ _ Hc). cbv zeta. unfold share_deposit, reg_excess, excess.
  rewrite Z.max_r by lia.
  pose proof (share_bounds (p_deposit p) (p_deposit p - p_max_cap p) (r_deposit r) (e_deposit e)
    ltac:(lia) ltac:(lia) ltac:(lia) ltac:(lia)) as Hb1. cbv zeta in Hb1.
  set (X := p_deposit p - p_max_cap p) in *.
  split.
  { set (s := _ * _ / r_deposit r) in *. rewrite Z.mul_sub_distr_r. unfold X in *.
    rewrite Z.mul_sub_distr_l in Hb1. lia. }
  split.
  - apply share_fee_range; lia.
  - unfold share_fee, reg_fee_excess, reg_excess, excess. rewrite Z.max_r by lia. fold X.
    set (y := X * r_deposit r / p_deposit p).
    assert (Hy : p_deposit p * y <= X * r_deposit r) by (apply Z.mul_div_le; lia).
    assert (Hy0 : 0 <= y) by (apply Z.div_pos; nia).
    set (z := r_fee r * y / r_deposit r).
    assert (Hz : r_deposit r * z <= r_fee r * y) by (apply Z.mul_div_le; lia).
    destruct (Z.eq_dec (r_fee r) 0) as [Hf|Hf]; [rewrite Hf, div_0_den; pose proof (s_fee _ _ _ _ _ Hs); apply Z.mul_nonneg_nonneg; lia|].
    set (s := e_fee e * z / r_fee r).
    assert (Hs' : r_fee r * s <= e_fee e * z) by (apply Z.mul_div_le; lia).
    assert (H1 : s * r_deposit r <= e_fee e * y).
    { apply (Z.mul_le_mono_pos_r _ _ (r_fee r)); [lia|].
      pose proof (Z.mul_le_mono_nonneg_r _ _ (r_deposit r) ltac:(lia) Hs') as A1.
      pose proof (Z.mul_le_mono_nonneg_l _ _ (e_fee e) ltac:(lia) Hz) as A2. lia. }
    apply (Z.mul_le_mono_pos_r _ _ (r_deposit r)); [lia|].
    pose proof (Z.mul_le_mono_nonneg_r _ _ (p_deposit p) ltac:(lia) H1) as A1.
    pose proof (Z.mul_le_mono_nonneg_l _ _ (e_fee e) ltac:(lia) Hy) as A2. lia.
Qed.

(** Two buyers, of the same or of different registries, pay in proportion to their deposits, up to
    the rounding of one of them. *)
Theorem C59_proportional w k p ek1 e1 r1 ek2 e2 r2 :
  reachable w -> w_presales w !! k = Some p -> p_max_cap p <= p_deposit p ->
  w_escrows w !! ek1 = Some e1 -> e_presale e1 = k -> p_regs p !! Z.to_nat (e_idx e1) = Some r1 -> 0 < e_deposit e1 ->
  w_escrows w !! ek2 = Some e2 -> e_presale e2 = k -> p_regs p !! Z.to_nat (e_idx e2) = Some r2 -> 0 < e_deposit e2 ->
  let paid1 := e_deposit e1 - share_deposit p r1 (e_deposit e1) in
  let paid2 := e_deposit e2 - share_deposit p r2 (e_deposit e2) in
  paid1 * e_deposit e2 < (paid2 * e_deposit e1) + 2 * e_deposit e2.
Proof.
  intros Hw Hp HM He1 Hk1 Hr1 Hd1 He2 Hk2 Hr2 Hd2 paid1 paid2.
  pose proof (C59_pays_share_of_cap w k p ek1 e1 r1 Hw Hp HM He1 Hk1 Hr1 Hd1) as [B1 _]. fold paid1 in B1.
  pose proof (C59_pays_share_of_cap w k p ek2 e2 r2 Hw Hp HM He2 Hk2 Hr2 Hd2) as [B2 _]. fold paid2 in B2.
  destruct (at_intro _ _ _ _ _ _ (reachable_inv _ Hw) Hp He1 Hk1 Hr1) as [_ _ _ _ _ _ Hra Hre].
  apply (Z.mul_lt_mono_pos_r (p_deposit p)); [lia|].
  pose proof (Zmult_lt_compat_r _ _ (e_deposit e2) Hd2 (proj2 B1)) as A1.
  pose proof (Z.mul_le_mono_nonneg_r _ _ (e_deposit e1) ltac:(lia) (proj1 B2)) as A2. lia.
Qed.

(** * C61: whoever is allowed to have an escrow gets it *)

Lemma finish_none_ok w k owner p r :
  0 <= w_now w -> creatable w k owner 0 (r_max_cap r) p r ->
  exists w' l, finish_create_escrow w p k owner 0 None = Ok (w', l) /\
    w_escrows w' !! PEscrow k owner 0 = Some (esc_init k owner (w_now w) 0 (r_max_cap r)).
Proof.
  intros Hn [Hp Ho Hi Hr [Hc0 Hc1] Hnew [Hre Hpe]].
  unfold finish_create_escrow. rewrite bool_decide_true by exact Hnew. cbn [require rbind].
  unfold process_create_escrow, clock, cast_i64_u64.
  destruct (Z.leb_spec 0 (w_now w)); [|lia]. cbn [rbind].
  rewrite (proj2 (progress_ongoing p (w_now w)) Ho). cbn [beq_progress].
  rewrite require_true by reflexivity. cbn [rbind].
  rewrite require_true by (apply Z.ltb_lt; lia). cbn [rbind].
  rewrite (proj2 (get_reg_Ok p 0 r) Hr). cbn [rbind].
  unfold presale_inc_escrow, reg_inc_escrow. rewrite (proj2 (get_reg_Ok p 0 r) Hr). cbn [rbind].
  rewrite safe_add_le by lia. cbn [rbind]. rewrite safe_add_le by lia. cbn [rbind].
  eexists _, _. split; [reflexivity|]. cbn. apply lookup_insert.
Qed.

(** Permissionless: anyone, for anyone, with the maximum of registry 0 as cap. *)
Theorem C61_permissionless_escrow w k owner payer p r :
  reachable w -> p_wl p = 0 -> is_wallet payer = true ->
  w_presales w !! k = Some p -> open_for_deposits p (w_now w) -> p_regs p !! 0%nat = Some r ->
  w_escrows w !! PEscrow k owner 0 = None -> r_escrows r < U64MAX -> p_escrows p < U64MAX ->
  exists w' l, step w (IEscrowPermissionless k owner payer) = Ok (w', l) /\
    w_escrows w' !! PEscrow k owner 0 = Some (esc_init k owner (w_now w) 0 (r_max_cap r)).
Proof.
  intros Hw Hwl Hsg Hp Ho Hr Hnew Hre Hpe. pose proof (reachable_inv _ Hw) as Hi. pose proof (i_now _ Hi) as Hn.
  pose proof (q_cfg _ _ _ (i_presales _ Hi _ _ Hp)) as Hc. pose proof (c_nreg _ _ Hc) as Hnr.
  assert (Hct : creatable w k owner 0 (r_max_cap r) p r).
  { constructor; try assumption; [lia| |auto].
    destruct (c_regs _ _ Hc _ _ Hr) as [Hz|[Hz _]]; [lia|]. lia. }
  destruct (finish_none_ok w k owner p r ltac:(lia) Hct) as (w' & l & Hf & He).
  exists w', l. split; [|assumption]. cbn [step]. unfold create_permissionless_escrow, get_presale. rewrite Hp. ok_bind.
  rewrite signer_ok by assumption. ok_bind.
  unfold cast_wl. rewrite Hwl. change (wl_of_u8 0) with (Some Permissionless). ok_bind.
  rewrite require_true by reflexivity. ok_bind. exact Hf.
Qed.

(** With authority: whoever a live operator of the presale owner admits, in the registry and with
    the cap the operator chooses within the registry's limits. *)
Theorem C61_authority_escrow w k owner oa o payer idx cap p r :
  reachable w -> p_wl p = 2 -> is_wallet payer = true -> in_u8 idx = true -> in_u64 cap = true ->
  creatable w k owner idx cap p r ->
  w_opers w !! oa = Some o -> o_creator o = p_owner p -> is_wallet (o_owner o) = true ->
  exists w' l, step w (IEscrowCreator k owner oa (o_owner o) payer idx cap) = Ok (w', l) /\
    w_escrows w' !! PEscrow k owner idx = Some (esc_init k owner (w_now w) idx cap).
Proof.
  intros Hw Hwl Hsg Hi8 Hc64 Hct Ho Hoc Hos. pose proof (i_now _ (reachable_inv _ Hw)) as Hn.
  destruct (finish_create_ok w k owner idx cap p r ltac:(lia) Hct) as (w' & l & Hf & He).
  exists w', l. split; [|assumption]. cbn [step]. unfold create_permissioned_escrow_with_creator, get_presale.
  rewrite Hi8, Hc64. cbn [andb]. rewrite require_true by reflexivity. ok_bind.
  rewrite (ct_presale _ _ _ _ _ _ _ Hct). ok_bind. rewrite Ho. ok_bind.
  rewrite signer_ok by assumption. ok_bind. rewrite signer_ok by assumption. ok_bind.
  unfold cast_wl. rewrite Hwl. change (wl_of_u8 2) with (Some WithAuthority). ok_bind.
  rewrite require_true by (apply bool_decide_eq_true_2; reflexivity). ok_bind.
  rewrite require_true by apply beq_addr_refl. ok_bind.
  rewrite require_true by (rewrite Hoc; apply beq_addr_refl). ok_bind. exact Hf.
Qed.

(** * C62: anybody can refresh any escrow at any time, and that changes nothing of value *)
Theorem C62_refresh_succeeds w k p ek e r :
  reachable w -> w_presales w !! k = Some p -> w_escrows w !! ek = Some e -> e_presale e = k ->
  p_regs p !! Z.to_nat (e_idx e) = Some r ->
  exists w' e' l, step w (IRefresh k ek) = Ok (w', l) /\
    w' = upd_escrow ek e' w /\
    (succeeded p (w_now w) -> e' = set_e_refreshed (w_now w)
       (set_e_pending (entitled p r (e_deposit e) (w_now w) - e_claimed e) e)) /\
    (~ succeeded p (w_now w) -> e' = e).
Proof.
  intros Hw Hp He Hk Hr. pose proof (reachable_inv _ Hw) as Hi.
  pose proof (at_intro _ _ _ _ _ _ Hi Hp He Hk Hr) as Hat. pose proof (at_cfg _ _ _ _ _ _ Hat) as Hc.
  pose proof (i_now _ Hi) as Hnow.
  assert (Hs : exists w' l, step w (IRefresh k ek) = Ok (w', l)).
  { cbn [step]. unfold refresh_escrow, get_presale, get_escrow. go_clock Hi. rewrite Hp, He. ok_bind.
    rewrite (has_one_ok (e_presale e)) by assumption. ok_bind.
    destruct (beq_progress (get_progress p (w_now w)) Completed) eqn:Hg; [|ok_bind; eauto].
    assert (Hsu : succeeded p (w_now w)).
    { apply progress_completed. destruct (get_progress p (w_now w)); (reflexivity || discriminate Hg). }
    destruct (claim_room _ _ _ _ _ _ Hat He Hk Hr Hsu ltac:(lia)) as (R0 & R1 & R2 & R3 & R4 & R5 & R6 & R7).
    pose proof Hat as [Hok _ Ha Hb Hkp Hse Hra Hre].
    destruct (handler_total _ _ Hc) as [hh Hhh]. rewrite Hhh. ok_bind.
    unfold handler_update_pending.
    rewrite (cumulative_spec k p _ Hc Hb Hkp hh e r (w_now w) Hhh Hr ltac:(lia) ltac:(lia)). ok_bind.
    unfold esc_sum_claimed_pending, esc_accumulate.
    rewrite safe_add_le by lia. ok_bind. rewrite safe_sub_le by lia. ok_bind.
    rewrite safe_add_le by lia. ok_bind. eauto. }
  destruct Hs as (w' & l & Hs). pose proof Hs as Hs'. cbn in Hs'. apply refresh_did in Hs'; [|assumption].
  destruct Hs' as (p' & e' & e1 & r' & D). destruct D.
  assert (p' = p) as -> by congruence. assert (e' = e) as -> by congruence. assert (r' = r) as -> by congruence.
  exists w', e1, l. split; [assumption|]. split; [assumption|].
  destruct df_what as [(Hsu & _ & ->)|(Hns & ->)]; split; intros; try contradiction; reflexivity.
Qed.

(** * C63: the owner's controls work exactly when allowed *)

Ltac ok_req := rewrite require_true; [ok_bind|].

Theorem C63_operator_create_iff w oo c :
  (exists w' l, step w (ICreateOperator oo c) = Ok (w', l)) <->
  is_wallet c = true /\ w_opers w !! POperator c oo = None.
Proof.
  cbn [step]. unfold create_operator. split.
  - intros (w' & l & Hs). apply rbind_Ok in Hs as [u [Hu Hs]]. apply rbind_Ok in Hs as [v [Hv Hs]].
    apply require_Ok in Hu. apply require_Ok in Hv. apply bool_decide_eq_true_1 in Hv. auto.
  - intros [Hs Hn]. rewrite signer_ok by assumption. ok_bind.
    rewrite require_true by (apply bool_decide_eq_true_2; assumption). ok_bind. eauto.
Qed.

Theorem C63_operator_revoke_iff w oa c :
  (exists w' l, step w (IRevokeOperator oa c) = Ok (w', l)) <->
  is_wallet c = true /\ exists o, w_opers w !! oa = Some o /\ o_creator o = c.
Proof.
  cbn [step]. unfold revoke_operator. split.
  - intros (w' & l & Hs). apply rbind_Ok in Hs as [o [Ho Hs]]. apply rbind_Ok in Hs as [u [Hu Hs]].
    apply rbind_Ok in Hs as [v [Hv Hs]]. apply ok_or_Ok in Ho. apply require_Ok in Hu, Hv.
    apply beq_addr_true in Hu. eauto.
  - intros [Hs (o & Ho & Hc)]. rewrite Ho. ok_bind. rewrite has_one_ok by assumption. ok_bind.
    rewrite signer_ok by assumption. ok_bind. eauto.
Qed.

Theorem C63_root_publish_iff w k c root v :
  reachable w ->
  (exists w' l, step w (ICreateMerkle k c root v) = Ok (w', l)) <->
  is_wallet c = true /\ is_hash root = true /\ in_u64 v = true /\ w_merkles w !! PMerkle k v = None /\
  exists p, w_presales w !! k = Some p /\ p_owner p = c /\ p_wl p = 1 /\ w_now w < p_end p.
Proof.
  intros Hw. pose proof (reachable_inv _ Hw) as Hi.
  cbn [step]. unfold create_merkle_root_config, get_presale. go_clock Hi. split.
  - intros (w' & l & Hs). repeat match type of Hs with
      | rbind _ _ = Ok _ => let u := fresh "u" in let Hu := fresh "Hu" in
          apply rbind_Ok in Hs; destruct Hs as [u [Hu Hs]]; cbv beta in Hs end.
    apply require_Ok in Hu. apply andb_true_iff in Hu as [Hu1' Hu2'].
    apply ok_or_Ok in Hu0. apply require_Ok in Hu1, Hu2, Hu3, Hu4, Hu6.
    apply bool_decide_eq_true_1 in Hu1, Hu6. apply beq_addr_true in Hu3.
    unfold cast_wl in Hu5. apply ok_or_Ok in Hu5. subst u5.
    repeat (split; [assumption|]). exists u0. repeat (split; [assumption|]).
    split.
    + unfold wl_of_u8 in Hu5. destruct (Z.eqb_spec (p_wl u0) 0); [discriminate|].
      destruct (Z.eqb_spec (p_wl u0) 1); [assumption|]. destruct (p_wl u0 =? 2); discriminate.
    + destruct (Z.lt_ge_cases (w_now w) (p_end u0)); [assumption|exfalso].
      pose proof (q_cfg _ _ _ (i_presales _ Hi _ _ Hu0)) as Hc.
      destruct (Z.lt_ge_cases (p_deposit u0) (p_min_cap u0)).
      * rewrite (failed_progress k u0 Hc) in Hu4 by (split; assumption). discriminate.
      * rewrite (succeeded_progress k u0 Hc) in Hu4 by (split; assumption). discriminate.
  - intros (Hs & Hh & Hv & Hn & p & Hp & Ho & Hwl & Hnow). rewrite Hh, Hv. cbn [andb].
    rewrite require_true by reflexivity. ok_bind. rewrite Hp. ok_bind.
    rewrite require_true by (apply bool_decide_eq_true_2; assumption). ok_bind.
    rewrite signer_ok by assumption. ok_bind.
    rewrite require_true by (rewrite Ho; apply beq_addr_refl). ok_bind.
    assert (Hg : beq_progress (get_progress p (w_now w)) NotStarted || beq_progress (get_progress p (w_now w)) Ongoing = true).
    { unfold get_progress. destruct (Z.ltb_spec (w_now w) (p_start p)); [reflexivity|].
      destruct (Z.ltb_spec (w_now w) (p_end p)); [reflexivity|lia]. }
    rewrite Hg. rewrite require_true by reflexivity. ok_bind.
    unfold cast_wl. rewrite Hwl. change (wl_of_u8 1) with (Some WithMerkleProof). ok_bind.
    rewrite require_true by (apply bool_decide_eq_true_2; reflexivity). ok_bind. eauto.
Qed.

Theorem C63_root_close_iff w k a c rr :
  reachable w ->
  (exists w' l, step w (ICloseMerkle k a c rr) = Ok (w', l)) <->
  is_wallet c = true /\ a <> rr /\ (exists x, w_merkles w !! a = Some x /\ k_presale x = k) /\
  exists p, w_presales w !! k = Some p /\ p_owner p = c /\ ~ open_for_deposits p (w_now w).
Proof.
  intros Hw. pose proof (reachable_inv _ Hw) as Hi.
  cbn [step]. unfold close_merkle_root_config, get_presale. go_clock Hi. split.
  - intros (w' & l & Hs). repeat match type of Hs with
      | rbind _ _ = Ok _ => let u := fresh "u" in let Hu := fresh "Hu" in
          apply rbind_Ok in Hs; destruct Hs as [u [Hu Hs]]; cbv beta in Hs end.
    apply ok_or_Ok in Hu, Hu0. apply not_itself_Ok in Hu2. apply require_Ok in Hu1, Hu3, Hu4, Hu5. apply beq_addr_true in Hu1, Hu4.
    split; [assumption|]. split; [assumption|]. split; [eauto|]. exists u. split; [assumption|]. split; [assumption|].
    intros Ho. rewrite (proj2 (progress_ongoing u (w_now w)) Ho) in Hu5. discriminate.
  - intros (Hs & Hrr & (x & Hx & Hk) & p & Hp & Ho & Hno). rewrite Hp. ok_bind. rewrite Hx. ok_bind.
    rewrite has_one_ok by assumption. ok_bind. rewrite not_itself_ok by assumption. ok_bind. rewrite signer_ok by assumption. ok_bind.
    rewrite require_true by (rewrite Ho; apply beq_addr_refl). ok_bind.
    assert (Hg : get_progress p (w_now w) <> Ongoing) by (intros Hg; apply Hno, progress_ongoing; assumption).
    rewrite require_true; [ok_bind; eauto|]. destruct (get_progress p (w_now w)); try reflexivity. congruence.
Qed.

Theorem C63_metadata_create_iff w k c url :
  reachable w ->
  (exists w' l, step w (ICreateServer k c url) = Ok (w', l)) <->
  is_wallet c = true /\ w_servers w !! PServer k = None /\
  exists p, w_presales w !! k = Some p /\ p_owner p = c /\ (p_wl p = 1 \/ p_wl p = 2) /\ w_now w < p_end p.
Proof.
  intros Hw. pose proof (reachable_inv _ Hw) as Hi.
  cbn [step]. unfold create_permissioned_server_metadata, get_presale. go_clock Hi. split.
  - intros (w' & l & Hs). repeat match type of Hs with
      | rbind _ _ = Ok _ => let u := fresh "u" in let Hu := fresh "Hu" in
          apply rbind_Ok in Hs; destruct Hs as [u [Hu Hs]]; cbv beta in Hs end.
    apply ok_or_Ok in Hu. apply require_Ok in Hu0, Hu1, Hu2, Hu4, Hu5. apply beq_addr_true in Hu0.
    apply bool_decide_eq_true_1 in Hu2. unfold cast_wl in Hu3. apply ok_or_Ok in Hu3.
    split; [assumption|]. split; [assumption|]. exists u. split; [assumption|]. split; [assumption|]. split.
    + unfold wl_of_u8 in Hu3. destruct (Z.eqb_spec (p_wl u) 0); [injection Hu3 as <-; discriminate|].
      destruct (Z.eqb_spec (p_wl u) 1); [auto|]. destruct (Z.eqb_spec (p_wl u) 2); [auto|discriminate].
    + destruct (Z.lt_ge_cases (w_now w) (p_end u)); [assumption|exfalso].
      pose proof (q_cfg _ _ _ (i_presales _ Hi _ _ Hu)) as Hc.
      destruct (Z.lt_ge_cases (p_deposit u) (p_min_cap u)).
      * rewrite (failed_progress k u Hc) in Hu5 by (split; assumption). discriminate.
      * rewrite (succeeded_progress k u Hc) in Hu5 by (split; assumption). discriminate.
  - intros (Hs & Hn & p & Hp & Ho & Hwl & Hnow). rewrite Hp. ok_bind.
    rewrite has_one_ok by assumption. ok_bind. rewrite signer_ok by assumption. ok_bind.
    rewrite require_true by (apply bool_decide_eq_true_2; assumption). ok_bind.
    assert (Hg : beq_progress (get_progress p (w_now w)) Ongoing || beq_progress (get_progress p (w_now w)) NotStarted = true).
    { unfold get_progress. destruct (Z.ltb_spec (w_now w) (p_start p)); [reflexivity|].
      destruct (Z.ltb_spec (w_now w) (p_end p)); [reflexivity|lia]. }
    destruct Hwl as [Hwl|Hwl]; rewrite Hwl; unfold cast_wl.
    + change (wl_of_u8 1) with (Some WithMerkleProof). ok_bind. rewrite require_true by reflexivity. ok_bind.
      rewrite Hg. rewrite require_true by reflexivity. ok_bind. eauto.
    + change (wl_of_u8 2) with (Some WithAuthority). ok_bind. rewrite require_true by reflexivity. ok_bind.
      rewrite Hg. rewrite require_true by reflexivity. ok_bind. eauto.
Qed.

Theorem C63_metadata_close_iff w k a c rr :
  (exists w' l, step w (ICloseServer k a c rr) = Ok (w', l)) <->
  is_wallet c = true /\ a <> rr /\ (exists x, w_servers w !! a = Some x /\ s_presale x = k) /\
  exists p, w_presales w !! k = Some p /\ p_owner p = c.
Proof.
  cbn [step]. unfold close_permissioned_server_metadata, get_presale. split.
  - intros (w' & l & Hs). repeat match type of Hs with
      | rbind _ _ = Ok _ => let u := fresh "u" in let Hu := fresh "Hu" in
          apply rbind_Ok in Hs; destruct Hs as [u [Hu Hs]]; cbv beta in Hs end.
    apply ok_or_Ok in Hu, Hu1. apply require_Ok in Hu0, Hu2, Hu4. apply beq_addr_true in Hu0, Hu2.
    apply not_itself_Ok in Hu3. eauto 10.
  - intros (Hs & Hrr & (x & Hx & Hk) & p & Hp & Ho). rewrite Hp. ok_bind. rewrite has_one_ok by assumption. ok_bind.
    rewrite Hx. ok_bind. rewrite has_one_ok by assumption. ok_bind. rewrite not_itself_ok by assumption. ok_bind.
    rewrite signer_ok by assumption. ok_bind. eauto.
Qed.

(** The price account of a fixed price presale can be reclaimed by the owner it names at any time. *)
Theorem C63_price_account_close_iff w a c :
  (exists w' l, step w (ICloseFixedArgs a c) = Ok (w', l)) <->
  is_wallet c = true /\ exists x, w_fixed w !! a = Some x /\ x_owner x = c.
Proof.
  cbn [step]. unfold close_fixed_price_presale_args. split.
  - intros (w' & l & Hs). repeat match type of Hs with
      | rbind _ _ = Ok _ => let u := fresh "u" in let Hu := fresh "Hu" in
          apply rbind_Ok in Hs; destruct Hs as [u [Hu Hs]]; cbv beta in Hs end.
    apply ok_or_Ok in Hu. apply require_Ok in Hu0, Hu1. apply beq_addr_true in Hu0. eauto.
  - intros (Hs & x & Hx & Ho). rewrite Hx. ok_bind. rewrite has_one_ok by assumption. ok_bind.
    rewrite signer_ok by assumption. ok_bind. eauto.
Qed.

Theorem C63_price_account_create_iff w k owner payer dw q :
  (exists w' l, step w (IInitFixedArgs k owner payer dw q) = Ok (w', l)) <->
  is_wallet payer = true /\ w_fixed w !! PFixedArgs k = None /\ 0 < q <= U128MAX /\ (dw = 0 \/ dw = 1).
Proof.
  cbn [step]. unfold initialize_fixed_price_presale_args. split.
  - intros (w' & l & Hs). repeat match type of Hs with
      | rbind _ _ = Ok _ => let u := fresh "u" in let Hu := fresh "Hu" in
          apply rbind_Ok in Hs; destruct Hs as [u [Hu Hs]]; cbv beta in Hs end.
    apply require_Ok in Hu, Hu0, Hu1, Hu2, Hu3. apply bool_decide_eq_true_1 in Hu1.
    unfold in_u128, is_bool_u8 in *. clean_bool. split; [assumption|]. split; [assumption|]. lia.
  - intros (Hs & Hn & Hq & Hd). unfold in_u8, in_u128, is_bool_u8.
    rewrite require_true by (num; lia). ok_bind. rewrite signer_ok by assumption. ok_bind.
    rewrite require_true by (apply bool_decide_eq_true_2; assumption). ok_bind.
    rewrite require_true by lia. ok_bind. rewrite require_true by lia. ok_bind. eauto.
Qed.
End WithCrypto.

(** * Non-vacuity *)
#[local] Existing Instance toy.

(** The premises about accounts met, and the outcome, in one computation. *)
Definition found (w : world) (o : addr) (i : Z) : option (presale * escrow * registry) :=
  match w_presales w !! k1, w_escrows w !! esc o i with
  | Some p, Some e => match p_regs p !! Z.to_nat (e_idx e) with Some r => Some (p, e, r) | None => None end
  | _, _ => None
  end.

(** Closing: bob's untouched escrow cannot be closed after the end of the prorata presale nor after
    claiming, only once refunded as well; in a running fixed price presale an emptied escrow can. *)
Definition bye (o : addr) (i : Z) : op := ICloseEscrow k1 (esc o i) o o.
Definition w_pr_bob : world := run w_pr_paid [getb bob bob_b 0].
Definition w_pr_done : world := run w_pr_bob [refund bob bob_q 0].
Example C57_example :
  map (fun w => ok_step w (bye bob 0)) [w_pr_open; w_pr_over; w_pr_paid; w_pr_bob; w_pr_done]
    = [false; false; false; false; true] /\
  (exists p e r, found w_pr_done bob 0 = Some (p, e, r) /\
     e_claimed e = final p r (e_deposit e) /\ e_withdrawn e = 1 /\ 0 < e_claimed e) /\
  ok_step (run w_ff_over [refund alice alice_q 0]) (bye alice 0) = true /\ ok_step w_ff_over (bye alice 0) = false.
Proof.
  split; [vm_compute; reflexivity|]. split; [|split; vm_compute; reflexivity].
  eexists _, _, _. split; [vm_compute; reflexivity|]. split; [vm_compute; reflexivity|]. split; [reflexivity|].
  vm_compute. reflexivity.
Qed.

(** Leaving: bob in the failed presale; alice after the early end of the FCFS presale; bob in the
    prorata presale (all three steps). *)
Definition w_fc_late : world := run w_fc_paid [EClock 5000].
Example C58_example :
  (exists p e r m, found w_ff_paid bob 0 = Some (p, e, r) /\ p_deposit p < p_min_cap p /\ p_end p <= w_now w_ff_paid /\
     e_withdrawn e = 0 /\
     receivable w_ff_paid (PQuoteVault k1) (p_qmint p) bob_q SplToken TransferHookQuote [] noh m) /\
  (exists p e r m, found w_fc_late alice 0 = Some (p, e, r) /\ p_min_cap p <= p_deposit p /\
     p_vs p + p_vest p <= w_now w_fc_late /\ p_mode p <> 1 /\ 0 < e_claimed e < final p r (e_deposit e) /\
     receivable w_fc_late (PBaseVault k1) (p_bmint p) alice_b Token2022 TransferHookBase [] noh m) /\
  (exists p e r mq mb, found w_pr_paid bob 0 = Some (p, e, r) /\ p_min_cap p <= p_deposit p /\
     p_vs p + p_vest p <= w_now w_pr_paid /\ p_mode p = 1 /\ e_withdrawn e = 0 /\
     receivable w_pr_paid (PQuoteVault k1) (p_qmint p) bob_q SplToken TransferHookQuote [] noh mq /\
     receivable w_pr_paid (PBaseVault k1) (p_bmint p) bob_b Token2022 TransferHookBase [] noh mb).
Proof.
  split; [|split].
  - eexists _, _, _, _. split; [vm_compute; reflexivity|]. split; [vm_compute; reflexivity|].
    split; [vm_compute; congruence|]. split; [reflexivity|plain_ok].
  - eexists _, _, _, _. split; [vm_compute; reflexivity|]. split; [vm_compute; congruence|].
    split; [vm_compute; congruence|]. split; [vm_compute; congruence|]. split; [vm_compute; split; reflexivity|plain_ok].
  - eexists _, _, _, _, _. split; [vm_compute; reflexivity|]. split; [vm_compute; congruence|].
    split; [vm_compute; congruence|]. split; [reflexivity|]. split; [reflexivity|]. split; plain_ok.
Qed.

(** 1551 deposited for a cap of 1000: alice pays 484 for a deposit of 750, 483.55 is the exact share. *)
Example C59_example :
  exists p e r, found w_pr_over alice 0 = Some (p, e, r) /\ p_max_cap p < p_deposit p /\
    e_deposit e = 750 /\ p_deposit p = 1551 /\
    e_deposit e - share_deposit p r (e_deposit e) = 484 /\ 0 < share_fee p r (e_fee e) < e_fee e.
Proof.
  eexists _, _, _. split; [vm_compute; reflexivity|]. split; [vm_compute; reflexivity|].
  split; [reflexivity|]. split; [reflexivity|]. split; [vm_compute; reflexivity|]. vm_compute. split; reflexivity.
Qed.

(** Two different futures of the prorata presale: bob's refund before or after everybody else. *)
Example C60_example :
  let l1 := [] in
  let l2 := [refund alice alice_q 0; cw; cf; getb bob bob_b 0; EClock 3000; getb alice alice_b 0] in
  ok_step (run w_pr_over l1) (refund bob bob_q 0) = true /\ ok_step (run w_pr_over l2) (refund bob bob_q 0) = true /\
  bal (after (run w_pr_over l1) (refund bob bob_q 0)) bob_q - bal (run w_pr_over l1) bob_q
    = bal (after (run w_pr_over l2) (refund bob bob_q 0)) bob_q - bal (run w_pr_over l2) bob_q.
Proof. cbv zeta. split; [vm_compute; reflexivity|]. split; vm_compute; reflexivity. Qed.

(** Carol is admitted in the permissionless and in the authority presale. *)
Example C61_example :
  (exists p r, w_presales w_fx_open !! k1 = Some p /\ p_regs p !! 0%nat = Some r /\ p_wl p = 0 /\
     p_start p <= w_now w_fx_open < p_end p /\ w_escrows w_fx_open !! PEscrow k1 carol 0 = None /\
     r_escrows r = 2 /\ p_escrows p = 2) /\
  ok_step w_fx_open (IEscrowPermissionless k1 carol bob) = true /\
  (exists p r o, w_presales w_pr_open !! k1 = Some p /\ p_regs p !! 0%nat = Some r /\
     w_opers w_pr_open !! POperator creator oper = Some o /\ o_creator o = p_owner p /\ p_wl p = 2 /\
     creatable w_pr_open k1 carol 0 300 p r) /\
  ok_step w_pr_open (IEscrowCreator k1 carol (POperator creator oper) oper bob 0 300) = true.
Proof.
  split; [|split; [vm_compute; reflexivity|split; [|vm_compute; reflexivity]]].
  - eexists _, _. split; [vm_compute; reflexivity|]. split; [vm_compute; reflexivity|]. split; [reflexivity|].
    split; [vm_compute; split; congruence|]. split; [vm_compute; reflexivity|]. split; reflexivity.
  - eexists _, _, _. split; [vm_compute; reflexivity|]. split; [vm_compute; reflexivity|].
    split; [vm_compute; reflexivity|]. split; [reflexivity|]. split; [reflexivity|]. constructor.
    all: try (vm_compute; reflexivity). all: vm_compute; repeat split; congruence.
Qed.

(** Refreshing bob's escrow by nobody in particular: nothing before the end, the amount due after it. *)
Example C62_example :
  ok_step w_pr_open (IRefresh k1 (esc bob 0)) = true /\ ok_step w_pr_over (IRefresh k1 (esc bob 0)) = true /\
  (exists p e r, found w_pr_over bob 0 = Some (p, e, r) /\ p_end p <= w_now w_pr_over /\ p_min_cap p <= p_deposit p /\
     e_pending e = 0 /\ 0 < entitled p r (e_deposit e) (w_now w_pr_over) - e_claimed e /\
     option_map e_pending (w_escrows (after w_pr_over (IRefresh k1 (esc bob 0))) !! esc bob 0)
       = Some (entitled p r (e_deposit e) (w_now w_pr_over) - e_claimed e)).
Proof.
  split; [vm_compute; reflexivity|]. split; [vm_compute; reflexivity|].
  eexists _, _, _. split; [vm_compute; reflexivity|]. split; [vm_compute; congruence|]. split; [vm_compute; congruence|].
  split; [reflexivity|]. split; [vm_compute; reflexivity|]. vm_compute. reflexivity.
Qed.

(** Accepted and refused calls of each control. *)
Example C63_example :
  map (ok_step w_pr_open) [ICreateOperator bob creator; ICreateOperator oper creator;
    IRevokeOperator (POperator creator oper) creator; IRevokeOperator (POperator creator oper) oper]
    = [true; false; true; false] /\
  map (ok_step w_mk_pre) [ICreateMerkle k1 creator mk_root 8; ICreateMerkle k1 alice mk_root 8;
    ICreateMerkle k1 creator mk_root 7; ICloseMerkle k1 mk_cfg creator bob; ICloseMerkle k1 mk_cfg bob bob; ICloseMerkle k1 mk_cfg creator mk_cfg;
    ICloseServer k1 (PServer k1) creator alice; ICloseServer k1 (PServer k1) creator (PServer k1); ICreateServer k1 creator []]
    = [true; false; false; true; false; false; true; false; false] /\
  map (ok_step w_mk_open) [ICloseMerkle k1 mk_cfg creator bob; ICreateMerkle k1 creator mk_root 8] = [false; true] /\
  map (ok_step w_fx_open) [ICreateMerkle k1 creator mk_root 8; ICreateServer k1 creator [];
    ICloseFixedArgs (PFixedArgs k1) creator; ICloseFixedArgs (PFixedArgs k1) bob;
    IInitFixedArgs k1 bob bob 0 5; IInitFixedArgs bob bob bob 0 5; IInitFixedArgs bob bob bob 2 5]
    = [false; false; true; false; false; true; false].
Proof.
  split; [vm_compute; reflexivity|]. split; [vm_compute; reflexivity|].
  split; vm_compute; reflexivity.
Qed.
