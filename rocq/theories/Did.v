(** What an accepted instruction did, in the terms of [Spec]: for each instruction that touches a
    presale or an escrow, a record of the accounts it found, the amounts it moved and the state it
    produced.  Each follows from the inversion lemmas of [Steps] and the invariant. *)
From Coq Require Import Lia.
From Verif Require Import Base Math State Handlers Token World Instr Exec Spec Tactics Sums Arith
  TokenFacts Inv Acct Funs Steps Init Preserve Reach.

(** Early end is enabled for the presale: FCFS or fixed price, without the disable flag. *)
Definition ends_early (p : presale) : Prop :=
  (p_mode p = 0 /\ p_raw1 p / 256 mod 256 = 0) \/ (p_mode p = 2 /\ p_raw0 p mod 256 = 0).

(** Withdrawals before the end are enabled: prorata, or fixed price without the disable flag. *)
Definition withdrawals_on (p : presale) : Prop :=
  p_mode p = 1 \/ (p_mode p = 0 /\ p_raw1 p mod 256 = 0).

(** A presale that is ended at [now]. *)
Definition ended_at (now : Z) (p : presale) : presale :=
  set_p_imm_ts (now + Z.max 0 (p_imm_ts p - p_end p))
    (set_p_ve (now + p_lock p + p_vest p) (set_p_vs (now + p_lock p) (set_p_end now p))).

Lemma recalculate_spec p now p2 : recalculate_timing p now = Ok p2 -> p2 = ended_at now p.
Proof.
  unfold recalculate_timing, vest_lock_timings, sat_sub. intros Hb.
  bi Hb x Hx. destruct x as [vs ve]. bi Hx a Ha. apply safe_add_Ok in Ha as [-> Ha].
  bi Hx c Hcc. apply safe_add_Ok in Hcc as [-> Hcc]. apply Ok_inj in Hx. injection Hx as <- <-.
  bi Hb i Hi. apply safe_add_Ok in Hi as [-> Hi]. apply Ok_inj in Hb. auto.
Qed.

Lemma end_if_spec hh p now p2 :
  get_handler p = Ok hh -> handler_end_if_max_cap hh p now = Ok p2 ->
  (ends_early p /\ p_max_cap p <= p_deposit p /\ p2 = ended_at now p) \/
  (~ (ends_early p /\ p_max_cap p <= p_deposit p) /\ p2 = p).
Proof.
  intros Hh Hx. apply handler_mode in Hh. unfold ends_early.
  destruct Hh as [[Hm ->]|[[Hm ->]|[Hm ->]]]; cbn in Hx; unfold end_if_max_cap_reached in Hx.
  - destruct (Z.eqb_spec (p_raw1 p / 256 mod 256) 0) as [E|E]; cbn in Hx.
    + destruct (Z.leb_spec (p_max_cap p) (p_deposit p)) as [L|L].
      * left. auto using recalculate_spec.
      * apply Ok_inj in Hx. right. split; [intros [_ ?]; lia|auto].
    + apply Ok_inj in Hx. right. split; [intros [[[_ ?]|[? _]] _]; congruence|auto].
  - apply Ok_inj in Hx. right. split; [intros [[[? _]|[? _]] _]; congruence|auto].
  - destruct (Z.eqb_spec (p_raw0 p mod 256) 0) as [E|E]; cbn in Hx.
    + destruct (Z.leb_spec (p_max_cap p) (p_deposit p)) as [L|L].
      * left. auto using recalculate_spec.
      * apply Ok_inj in Hx. right. split; [intros [_ ?]; lia|auto].
    + apply Ok_inj in Hx. right. split; [intros [[[? _]|[_ ?]] _]; congruence|auto].
Qed.

(** The registry limits on a recorded deposit. *)
Definition deposit_allowed (r : registry) (d : Z) : Prop :=
  d = 0 \/ r_min_cap r <= d <= r_max_cap r.

(** * Escrow creation *)

Record did_create (w : world) (k owner : addr) (idx cap : Z) (w' : world) (l : list fx)
    (p : presale) (r : registry) : Prop := {
  dc_presale : w_presales w !! k = Some p;
  dc_cfg : cfg k p;
  dc_new : w_escrows w !! PEscrow k owner idx = None;
  dc_open : open_for_deposits p (w_now w);
  dc_idx : 0 <= idx < p_nreg p;
  dc_reg : p_regs p !! Z.to_nat idx = Some r;
  dc_cap : 0 < cap /\ r_min_cap r <= cap <= r_max_cap r;
  dc_world : w' = upd_escrow (PEscrow k owner idx) (esc_init k owner (w_now w) idx cap)
    (upd_presale k (set_p_escrows (p_escrows p + 1)
      (set_reg p idx (set_r_escrows (r_escrows r + 1) r))) w);
  dc_fx : l = [FxEvent (EvtEscrowCreate k owner (p_wl p) (p_escrows p + 1))]
}.

Lemma finish_did w p k owner idx cap w' l :
  inv w -> w_presales w !! k = Some p -> 0 <= idx ->
  finish_create_escrow w p k owner idx cap = Ok (w', l) ->
  exists r, did_create w k owner idx (created_cap r cap) w' l p r.
Proof.
  intros Hi Hp H0 Hx. apply finish_create_inv in Hx as (r & Hn & Ho & Hlt & Hr & Hcap & _ & _ & -> & ->).
  pose proof (q_cfg _ _ _ (i_presales _ Hi _ _ Hp)) as Hc.
  exists r. constructor; try assumption; try reflexivity; [lia|].
  destruct cap as [c|]; cbn; [apply Hcap; reflexivity|].
  destruct (c_regs _ _ Hc _ _ Hr) as [Hz|[Hz _]]; [lia|]. rewrite Z2Nat.id in Hz by lia. lia.
Qed.

(** * Deposit *)

Record did_deposit (w : world) (k qv qm ek pt payer : addr) (pr : prog) (mx : Z) (h : henv)
    (w' : world) (l : list fx) (p p2 : presale) (e : escrow) (r : registry) (m : mint)
    (amount fee gross : Z) (w1 : world) (lx : list fx) : Prop := {
  dd_presale : w_presales w !! k = Some p;
  dd_escrow : w_escrows w !! ek = Some e;
  dd_link : e_presale e = k;
  dd_reg : p_regs p !! Z.to_nat (e_idx e) = Some r;
  dd_at : at_escrow w k ek p e r;
  dd_signed : is_wallet payer = true;
  dd_open : open_for_deposits p (w_now w);
  dd_vault : qv = PQuoteVault k;
  dd_mint : qm = p_qmint p /\ w_mints w !! qm = Some m;
  dd_amount : 0 < amount <= mx;
  dd_price : p_mode p = 0 -> exists x, amount <= x <= mx /\
    amount = div_ceil (bought (p_raw0 p) x * p_raw0 p) scale;
  dd_cap : p_mode p <> 1 -> p_deposit p + amount <= p_max_cap p;
  dd_limit : r_min_cap r <= e_deposit e + amount <= Z.min (r_max_cap r) (e_cap e);
  dd_fee : 0 <= fee /\ amount + fee = div_ceil (amount * 10000) (10000 - r_fee_bps r);
  dd_gross : gross - tok_fee m gross = amount + fee /\ amount + fee <= gross;
  dd_transfer : tok_transfer w pr pt qm qv payer gross (h_ok h) = Ok (w1, lx);
  dd_end : (ends_early p /\ p_deposit p + amount = p_max_cap p /\
            p2 = ended_at (w_now w) (deposited p e r amount fee)) \/
           (~ (ends_early p /\ p_deposit p + amount = p_max_cap p) /\
            p2 = deposited p e r amount fee);
  dd_world : w' = upd_escrow ek (esc_deposited e amount fee) (upd_presale k p2 w1);
  dd_fx : l = lx ++ [FxEvent (EvtDeposit k ek amount (e_deposit e + amount) (p_deposit p + amount) payer fee)]
}.

Lemma deposit_did w k qv qm ek pt payer pr mx h w' l :
  inv w -> deposit w k qv qm ek pt payer pr mx h = Ok (w', l) ->
  exists p p2 e r m amount fee gross w1 lx,
    did_deposit w k qv qm ek pt payer pr mx h w' l p p2 e r m amount fee gross w1 lx.
Proof.
  intros Hi Hx. apply deposit_inv in Hx as
    (p & e & r & m & hh & quota & amount & fee & p2 & gross & hooks & rest & w1 & lx &
     Hmx & Hnow & Hp & Hqv & Hqm & Hm & He & Hk & Hpay & Hop & Hhh & Hquota & Hpos & Hsug & Hapos &
     Hr & Hfee & Hpd & Hpf & Hrd & Hrf & Hed & Hef & Hval & Hend & Hgross & _ & _ & Htr & -> & ->).
  destruct (at_intro _ _ _ _ _ _ Hi Hp He Hk Hr) as [Hok Hc Ha Hb Hkp Hs Hra Hre] eqn:Hat. clear Hat.
  destruct (reg_u64 k p _ Hb _ _ Hr) as [Hru _].
  pose proof (reg_supply_nonneg _ _ _ _ Hc Hr) as Hsup.
  destruct (s_idx _ _ _ _ _ Hs) as [Hi0 Hi1].
  assert (Hrc : 0 <= r_fee_bps r <= MAX_DEPOSIT_FEE_BPS).
  { destruct (c_regs _ _ Hc _ _ Hr) as [Hz|[Hz _]]; [unfold MAX_DEPOSIT_FEE_BPS; lia|].
    rewrite Z2Nat.id in Hz by lia. lia. }
  assert (Hmin : 0 <= Z.min quota mx <= U64MAX) by lia.
  assert (Ham0 : 0 <= amount) by lia.
  destruct (suggest_deposit_inv _ _ _ _ _ Hc Hhh Hmin Hsug) as (Hsle & Hfix & _).
  destruct (quota_inv _ _ _ _ _ _ Hc Hhh Hr Hru Hsup Hquota ltac:(lia)) as (Q1 & Q2 & Q3 & Q4).
  destruct (deposit_fee_spec _ _ _ _ _ Ham0 Hrc Hfee) as (Hfee0 & _ & Hinc & Hfeq).
  pose proof (tk_fee _ (i_tokens _ Hi) _ _ Hm) as Hmf.
  destruct (fee_included_exact m (amount + fee) gross ltac:(lia) Hmf Hgross) as (Hnet & Hg0 & _).
  assert (Hcap : p_mode p <> 1 -> p_deposit p + amount <= p_max_cap p).
  { intros Hm1. specialize (Q3 Hm1). lia. }
  assert (Hend' := Hend).
  apply end_if_spec in Hend; [|exact Hhh].
  assert (Hdep2 : p_deposit p2 = p_deposit p + amount).
  { destruct Hend as [(_ & _ & ->)|(_ & ->)]; reflexivity. }
  exists p, p2, e, r, m, amount, fee, gross, w1, lx. constructor; try assumption.
  - apply at_intro; assumption.
  - rewrite <- Hqv. apply (c_qvault _ _ Hc).
  - rewrite <- Hqm. auto. rewrite Hqm. auto.
  - lia.
  - intros Hm0. exists (Z.min quota mx). split; [lia|auto].
  - pose proof (s_deposit _ _ _ _ _ Hs). lia.
  - auto.
  - lia.
  - change (ends_early (deposited p e r amount fee)) with (ends_early p) in Hend.
    change (p_max_cap (deposited p e r amount fee)) with (p_max_cap p) in Hend.
    change (p_deposit (deposited p e r amount fee)) with (p_deposit p + amount) in Hend.
    destruct Hend as [(E1 & E2 & E3)|(E1 & E3)].
    + left. split; [assumption|]. split; [|assumption].
      assert (p_mode p <> 1) by (destruct E1 as [[? _]|[? _]]; lia). specialize (Hcap H). lia.
    + right. split; [|assumption]. intros [E4 E5]. apply E1. split; [assumption|lia].
  - reflexivity.
  - rewrite Hdep2. reflexivity.
Qed.

(** * Withdrawal *)

Record did_withdraw (w : world) (k qv qm ek ot owner : addr) (pr : prog) (mx : Z) (h : henv)
    (w' : world) (l : list fx) (p : presale) (e : escrow) (r : registry) (m : mint)
    (amount : Z) (w1 : world) (lx : list fx) : Prop := {
  dw_presale : w_presales w !! k = Some p;
  dw_escrow : w_escrows w !! ek = Some e;
  dw_link : e_presale e = k;
  dw_reg : p_regs p !! Z.to_nat (e_idx e) = Some r;
  dw_at : at_escrow w k ek p e r;
  dw_owner : e_owner e = owner;
  dw_signed : is_wallet owner = true;
  dw_open : open_for_deposits p (w_now w);
  dw_vault : qv = PQuoteVault k;
  dw_mint : qm = p_qmint p /\ w_mints w !! qm = Some m;
  dw_mode : withdrawals_on p;
  dw_amount : 0 < amount <= mx;
  dw_asked : mx <= e_deposit e;
  dw_exact : p_mode p = 1 \/ mx = e_deposit e -> amount = mx;
  dw_price : p_mode p = 0 -> mx <> e_deposit e ->
    amount = div_ceil (bought (p_raw0 p) mx * p_raw0 p) scale;
  dw_limit : deposit_allowed r (e_deposit e - amount);
  dw_transfer : tok_transfer w pr qv qm ot PAuth amount (h_ok h) = Ok (w1, lx);
  dw_world : w' = upd_escrow ek (set_e_deposit (e_deposit e - amount) e)
                    (upd_presale k (withdrawn p e r amount) w1);
  dw_fx : l = lx ++ [FxEvent (EvtWithdraw k ek (amount - tok_fee m amount) (e_deposit e - amount)
                                (p_deposit p - amount) owner)]
}.

Lemma can_withdraw_spec p hh :
  get_handler p = Ok hh -> handler_can_withdraw hh = true <-> withdrawals_on p.
Proof.
  intros Hh. apply handler_mode in Hh. unfold withdrawals_on.
  destruct Hh as [[Hm ->]|[[Hm ->]|[Hm ->]]]; cbn.
  - destruct (Z.eqb_spec (p_raw1 p mod 256) 0); cbn; intuition congruence.
  - intuition.
  - rewrite Hm. intuition congruence.
Qed.

Lemma withdraw_did w k qv qm ek ot owner pr mx h w' l :
  inv w -> withdraw w k qv qm ek ot owner pr mx h = Ok (w', l) ->
  exists p e r m amount w1 lx,
    did_withdraw w k qv qm ek ot owner pr mx h w' l p e r m amount w1 lx.
Proof.
  intros Hi Hx. apply withdraw_inv in Hx as
    (p & e & r & m & hh & amount & net & hooks & rest & w1 & lx &
     Hnow & Hmx & Hp & Hqv & Hqm & Hm & He & Hk & Ho & Hsg & Hop & Hhh & Hcan & Hsug & Hapos &
     Hr & Hed & Hrd & Hpd & Hval & _ & _ & Htr & Hnet & -> & ->).
  pose proof (at_intro _ _ _ _ _ _ Hi Hp He Hk Hr) as Hat.
  pose proof (at_cfg _ _ _ _ _ _ Hat) as Hc. pose proof (at_range _ _ _ _ _ _ Hat) as Hra.
  destruct (reg_u64 k p _ (at_books _ _ _ _ _ _ Hat) _ _ Hr) as [Hru _].
  assert (Hm64 : 0 <= mx <= U64MAX) by lia.
  destruct (suggest_withdraw_inv _ _ _ _ _ _ Hc Hhh Hcan Hm64 Hsug) as (S1 & S2 & S3 & S4).
  apply excluded_spec in Hnet; [|apply (tk_fee _ (i_tokens _ Hi) _ _ Hm)|lia]. subst net.
  exists p, e, r, m, amount, w1, lx. constructor; try assumption; try reflexivity.
  - rewrite <- Hqv. apply (c_qvault _ _ Hc).
  - auto.
  - eapply can_withdraw_spec; eassumption.
  - lia.
  - lia.
  - intros [Hm1|Hall]; [apply S4; lia|].
    destruct (c_mode _ _ Hc) as [Hm0|Hm0]; [|apply S4; lia]. destruct (S3 Hm0) as [[_ ?]|[? _]]; [assumption|lia].
  - intros Hm0 Hne. destruct (S3 Hm0) as [[? _]|[_ ?]]; [contradiction|assumption].
Qed.

(** * Refund of remaining quote *)

(** What is refundable: everything after failure, the share of the excess after success. *)
Definition refundable (p : presale) (r : registry) (e : escrow) : Z :=
  if p_deposit p <? p_min_cap p then e_deposit e + e_fee e
  else share_deposit p r (e_deposit e) + share_fee p r (e_fee e).

Record did_refund (w : world) (k qv qm ek ot owner : addr) (pr : prog) (h : henv)
    (w' : world) (l : list fx) (p : presale) (e : escrow) (r : registry) (m : mint)
    (w1 : world) (lx : list fx) : Prop := {
  dr_presale : w_presales w !! k = Some p;
  dr_escrow : w_escrows w !! ek = Some e;
  dr_link : e_presale e = k;
  dr_reg : p_regs p !! Z.to_nat (e_idx e) = Some r;
  dr_at : at_escrow w k ek p e r;
  dr_owner : e_owner e = owner;
  dr_signed : is_wallet owner = true;
  dr_vault : qv = PQuoteVault k;
  dr_mint : qm = p_qmint p /\ w_mints w !! qm = Some m;
  dr_when : failed p (w_now w) \/ (succeeded p (w_now w) /\ p_mode p = 1);
  dr_once : e_withdrawn e = 0;
  dr_amount : 0 <= refundable p r e <= e_deposit e + e_fee e;
  dr_paid : paid w pr qv qm ot (refundable p r e) (h_ok h) w1 lx;
  dr_world : w' = upd_escrow ek (set_e_withdrawn 1 e)
    (upd_presale k (set_p_refunded (p_refunded p + refundable p r e)
       (set_reg p (e_idx e) (set_r_refunded (r_refunded r + refundable p r e) r))) w1);
  dr_fx : l = lx ++ [FxEvent (EvtWithdrawRemainingQuote k ek owner
    (refundable p r e - tok_fee m (refundable p r e)) (p_refunded p + refundable p r e))]
}.

Lemma refund_did w k qv qm ek ot owner pr h w' l :
  inv w -> withdraw_remaining_quote w k qv qm ek ot owner pr h = Ok (w', l) ->
  exists p e r m w1 lx, did_refund w k qv qm ek ot owner pr h w' l p e r m w1 lx.
Proof.
  intros Hi Hx. apply remaining_quote_inv in Hx as
    (p & e & r & m & rd & rf & net & w1 & lx & Hnow & Hp & Hqv & Hqm & Hm & He & Hk & Ho & Hsg &
     Hfl & Hrem & H64 & Hr & Hr64 & Hp64 & Hpaid & Hnet & -> & ->).
  pose proof (at_intro _ _ _ _ _ _ Hi Hp He Hk Hr) as Hat.
  pose proof (at_cfg _ _ _ _ _ _ Hat) as Hc. pose proof (at_range _ _ _ _ _ _ Hat) as Hra.
  pose proof (at_reg _ _ _ _ _ _ Hat) as Hre. pose proof (c_caps _ _ Hc) as Hcp.
  destruct (refund_amount _ _ _ _ _ _ _ _ Hi Hp He Hk Hr Hrem) as (Hend & Hrd & Hrf & Hcase).
  assert (Hx : rd + rf = refundable p r e).
  { unfold refundable. destruct (Z.ltb_spec (p_deposit p) (p_min_cap p));
      destruct Hcase as [(? & -> & ->)|(? & ? & -> & ->)]; lia. }
  apply excluded_spec in Hnet; [|apply (tk_fee _ (i_tokens _ Hi) _ _ Hm)|lia]. subst net.
  rewrite Hx in *.
  exists p, e, r, m, w1, lx. constructor; try assumption; try reflexivity.
  - rewrite <- Hqv. apply (c_qvault _ _ Hc).
  - auto.
  - destruct Hcase as [(? & _)|(? & ? & _)]; [left|right; split]; try split; assumption.
  - destruct (s_flag _ _ _ _ _ (at_esc _ _ _ _ _ _ Hat)); [assumption|contradiction].
  - split; [lia|]. rewrite <- Hx. destruct Hcase as [(_ & -> & ->)|(_ & _ & -> & ->)]; [lia|].
    pose proof (share_deposit_range p r (e_deposit e)). pose proof (share_fee_range p r (e_fee e)). lia.
Qed.

(** * Claim and refresh *)

(** Base tokens due to an escrow at [now]: entitled and not yet claimed. *)
Definition due (p : presale) (r : registry) (e : escrow) (now : Z) : Z :=
  entitled p r (e_deposit e) now - e_claimed e.

Record did_claim (w : world) (k bv bm ek ot owner : addr) (pr : prog) (h : henv)
    (w' : world) (l : list fx) (p : presale) (e : escrow) (r : registry) (m : mint)
    (w1 : world) (lx : list fx) : Prop := {
  dm_presale : w_presales w !! k = Some p;
  dm_escrow : w_escrows w !! ek = Some e;
  dm_link : e_presale e = k;
  dm_reg : p_regs p !! Z.to_nat (e_idx e) = Some r;
  dm_at : at_escrow w k ek p e r;
  dm_owner : e_owner e = owner;
  dm_signed : is_wallet owner = true;
  dm_vault : bv = PBaseVault k;
  dm_mint : bm = p_bmint p /\ w_mints w !! bm = Some m;
  dm_when : succeeded p (w_now w);
  dm_due : 0 <= due p r e (w_now w);
  dm_paid : paid w pr bv bm ot (due p r e (w_now w)) (h_ok h) w1 lx;
  dm_world : exists p2 e2, w' = upd_escrow ek e2 (upd_presale k p2 w1) /\
    e2 = set_e_refreshed (w_now w) (set_e_pending 0
           (set_e_claimed (e_claimed e + due p r e (w_now w)) e)) /\
    p2 = set_p_claimed (p_claimed p + due p r e (w_now w))
           (set_reg p (e_idx e) (set_r_claimed (r_claimed r + due p r e (w_now w)) r));
  dm_fx : l = lx ++ [FxEvent (EvtClaim k ek (due p r e (w_now w) - tok_fee m (due p r e (w_now w)))
    (e_claimed e + due p r e (w_now w)) (p_claimed p + due p r e (w_now w)) owner)]
}.

Lemma set_reg_same p idx r : p_regs p !! Z.to_nat idx = Some r -> set_reg p idx r = p.
Proof. intros Hr. unfold set_reg, set_p_regs. rewrite list_insert_id by assumption. destruct p; reflexivity. Qed.

Lemma claim_did w k bv bm ek ot owner pr h w' l :
  inv w -> claim w k bv bm ek ot owner pr h = Ok (w', l) ->
  exists p e r m w1 lx, did_claim w k bv bm ek ot owner pr h w' l p e r m w1 lx.
Proof.
  intros Hi Hx. apply claim_inv in Hx as
    (p & e & m & hh & e1 & net & p2 & e2 & w1 & lx & Hnow & Hp & Hbv & Hbm & Hm & He & Hk & Ho & Hsg &
     Hg & Hh & Hu & Hcase & Hnet & -> & ->).
  destruct (at_exists _ _ _ _ _ Hi Hp He Hk) as [r Hr].
  pose proof (at_intro _ _ _ _ _ _ Hi Hp He Hk Hr) as Hat.
  pose proof (at_cfg _ _ _ _ _ _ Hat) as Hc.
  apply progress_completed in Hg as [_ Hs].
  destruct (pending_after _ _ _ _ _ _ _ _ Hi Hp He Hk Hr Hh Hu) as [He1 Hpe].
  fold (due p r e (w_now w)) in He1, Hpe.
  assert (Hpd : e_pending e1 = due p r e (w_now w)) by (rewrite He1; reflexivity).
  apply excluded_spec in Hnet; [|apply (tk_fee _ (i_tokens _ Hi) _ _ Hm)|lia]. subst net.
  assert (Hc1 : e_claimed e1 = e_claimed e) by (rewrite He1; reflexivity).
  assert (Hfin : paid w pr bv bm ot (due p r e (w_now w)) (h_ok h) w1 lx /\
    e2 = set_e_refreshed (w_now w) (set_e_pending 0
           (set_e_claimed (e_claimed e + due p r e (w_now w)) e)) /\
    p2 = set_p_claimed (p_claimed p + due p r e (w_now w))
           (set_reg p (e_idx e) (set_r_claimed (r_claimed r + due p r e (w_now w)) r)) /\
    e_claimed e2 = e_claimed e + due p r e (w_now w) /\
    p_claimed p2 = p_claimed p + due p r e (w_now w)).
  { destruct Hcase as [(Hpos & r0 & Hr0 & _ & -> & -> & Htr)|(Hle & -> & -> & -> & ->)].
    - assert (r0 = r) as -> by congruence. rewrite Hpd in *. split; [left; split; assumption|].
      rewrite Hc1. split; [rewrite He1; reflexivity|]. auto.
    - rewrite Hpd in Hle. assert (Hz : due p r e (w_now w) = 0) by lia. rewrite Hz in *.
      split; [right; auto with lia|]. rewrite !Z.add_0_r.
      split; [rewrite He1; destruct e; reflexivity|].
      split; [|rewrite Hc1; auto].
      replace (set_r_claimed (r_claimed r) r) with r by (destruct r; reflexivity).
      rewrite set_reg_same by assumption. destruct p; reflexivity. }
  destruct Hfin as (F1 & F2 & F3 & F4 & F5).
  exists p, e, r, m, w1, lx. constructor; try assumption.
  - rewrite <- Hbv. apply (c_bvault _ _ Hc).
  - auto.
  - lia.
  - eauto.
  - rewrite F4, F5, Hpd. reflexivity.
Qed.

Record did_refresh (w : world) (k ek : addr) (w' : world) (l : list fx)
    (p : presale) (e e1 : escrow) (r : registry) : Prop := {
  df_presale : w_presales w !! k = Some p;
  df_escrow : w_escrows w !! ek = Some e;
  df_link : e_presale e = k;
  df_reg : p_regs p !! Z.to_nat (e_idx e) = Some r;
  df_at : at_escrow w k ek p e r;
  df_what : (succeeded p (w_now w) /\ 0 <= e_pending e <= due p r e (w_now w) /\
      e1 = set_e_refreshed (w_now w) (set_e_pending (due p r e (w_now w)) e)) \/
    (~ succeeded p (w_now w) /\ e1 = e);
  df_world : w' = upd_escrow ek e1 w;
  df_fx : l = [FxEvent (EvtEscrowRefresh k ek (e_owner e) (w_now w) (e_pending e1))]
}.

Lemma refresh_did w k ek w' l :
  inv w -> refresh_escrow w k ek = Ok (w', l) -> exists p e e1 r, did_refresh w k ek w' l p e e1 r.
Proof.
  intros Hi Hx. apply refresh_inv in Hx as (p & e & e1 & Hnow & Hp & He & Hk & Hcase & -> & ->).
  destruct (at_exists _ _ _ _ _ Hi Hp He Hk) as [r Hr].
  pose proof (at_intro _ _ _ _ _ _ Hi Hp He Hk Hr) as Hat.
  exists p, e, e1, r.
  assert (Ho : e_owner e1 = e_owner e /\ ((succeeded p (w_now w) /\ 0 <= e_pending e <= due p r e (w_now w) /\
      e1 = set_e_refreshed (w_now w) (set_e_pending (due p r e (w_now w)) e)) \/
    (~ succeeded p (w_now w) /\ e1 = e))).
  { destruct Hcase as [(Hg & hh & Hh & Hu)|(Hg & ->)].
    - apply progress_completed in Hg as [_ Hs].
      destruct (pending_after _ _ _ _ _ _ _ _ Hi Hp He Hk Hr Hh Hu) as [-> Hpe].
      split; [reflexivity|]. left. auto.
    - split; [reflexivity|]. right. split; [|reflexivity]. intros Hs. apply Hg.
      eapply succeeded_progress; [apply (at_cfg _ _ _ _ _ _ Hat)|assumption]. }
  destruct Ho as [Ho Hw]. constructor; try assumption; try reflexivity. rewrite Ho. reflexivity.
Qed.

(** * Closing an escrow *)

Record did_close (w : world) (k ek owner rr : addr) (w' : world) (l : list fx)
    (p : presale) (e : escrow) (r : registry) : Prop := {
  dx_presale : w_presales w !! k = Some p;
  dx_escrow : w_escrows w !! ek = Some e;
  dx_link : e_presale e = k;
  dx_reg : p_regs p !! Z.to_nat (e_idx e) = Some r;
  dx_at : at_escrow w k ek p e r;
  dx_owner : e_owner e = owner;
  dx_signed : is_wallet owner = true;
  dx_receiver : ek <> rr;
  dx_settled :
    (open_for_deposits p (w_now w) /\ e_deposit e = 0 /\ e_fee e = 0) \/
    (failed p (w_now w) /\ (e_withdrawn e = 1 \/ (e_deposit e = 0 /\ e_fee e = 0))) \/
    (succeeded p (w_now w) /\ e_claimed e = final p r (e_deposit e) /\
     (e_withdrawn e = 1 \/ refundable p r e = 0));
  dx_world : w' = put_escrows (delete ek (w_escrows w))
    (upd_presale k (set_p_escrows (p_escrows p - 1)
       (set_reg p (e_idx e) (set_r_escrows (r_escrows r - 1) r))) w);
  dx_fx : l = [FxEvent (EvtEscrowClose k ek owner rr)]
}.

Lemma close_did w k ek owner rr w' l :
  inv w -> close_escrow w k ek owner rr = Ok (w', l) ->
  exists p e r, did_close w k ek owner rr w' l p e r.
Proof.
  intros Hi Hx. apply close_escrow_inv in Hx as
    (p & e & r & Hnow & Hp & He & Hk & Ho & Hsg & Hrr & Hr & Hcase & _ & _ & -> & ->).
  pose proof (at_intro _ _ _ _ _ _ Hi Hp He Hk Hr) as Hat.
  exists p, e, r. constructor; try assumption; try reflexivity.
  destruct Hcase as [(Hg & H1 & H2)|[(Hg & H1)|(Hg & H1)]].
  - apply progress_ongoing in Hg. auto.
  - apply progress_failed in Hg as [_ Hg]. auto.
  - apply progress_completed in Hg as [_ Hg]. right. right. split; [assumption|].
    destruct (done_inv _ _ _ _ _ _ _ (at_cfg _ _ _ _ _ _ Hat) (at_acct _ _ _ _ _ _ Hat) Hnow Hg He Hk Hr H1)
      as [D1 D2].
    split; [assumption|]. destruct D2 as [?|D2]; [auto|right]. unfold refundable. destruct Hg as [_ Hg].
    destruct (Z.ltb_spec (p_deposit p) (p_min_cap p)); [lia|assumption].
Qed.

(** * Creator instructions *)

(** What the creator withdraws: the raise after success, the supply after failure. *)
Definition raise (p : presale) : Z := Z.min (p_deposit p) (p_max_cap p).

Record did_creator (w : world) (k ot owner : addr) (pr : prog) (h : henv)
    (w' : world) (l : list fx) (p : presale) (m : mint) (w1 : world) (lx : list fx) : Prop := {
  dcw_presale : w_presales w !! k = Some p;
  dcw_ok : presale_ok w k p;
  dcw_owner : p_owner p = owner;
  dcw_signed : is_wallet owner = true;
  dcw_once : p_cwd p = 0;
  dcw_what :
    (succeeded p (w_now w) /\ w_mints w !! p_qmint p = Some m /\
     tok_transfer w pr (PQuoteVault k) (p_qmint p) ot PAuth (raise p) (h_ok h) = Ok (w1, lx) /\
     l = lx ++ [FxEvent (EvtCreatorWithdraw k (raise p - tok_fee m (raise p)) owner 2)]) \/
    (failed p (w_now w) /\ w_mints w !! p_bmint p = Some m /\
     tok_transfer w pr (PBaseVault k) (p_bmint p) ot PAuth (p_supply p) (h_ok h) = Ok (w1, lx) /\
     l = lx ++ [FxEvent (EvtCreatorWithdraw k (p_supply p - tok_fee m (p_supply p)) owner 3)]);
  dcw_world : w' = upd_presale k (set_p_cwd 1 p) w1
}.

Lemma supply_nonneg k p : cfg k p -> 0 < p_supply p.
Proof.
  intros Hc. rewrite (c_supply _ _ Hc). destruct (reg0_exists _ _ Hc) as [r Hr].
  assert (Hn : forall x, x ∈ p_regs p -> 0 <= r_supply x).
  { apply (elem_reg (fun r => 0 <= r_supply r) p). intros i x Hx. eapply reg_supply_nonneg; eassumption. }
  assert (Hle : r_supply r <= lsum r_supply (p_regs p)).
  { eapply lsum_member; [eassumption|assumption]. }
  pose proof (c_nreg _ _ Hc). destruct (c_regs _ _ Hc _ _ Hr) as [Hz|[Hz _]]; lia.
Qed.

Lemma creator_did w k ot owner pr h w' l :
  inv w -> creator_withdraw w k ot owner pr h = Ok (w', l) ->
  exists p m w1 lx, did_creator w k ot owner pr h w' l p m w1 lx.
Proof.
  intros Hi Hx. apply creator_withdraw_inv in Hx as
    (p & m & net & w1 & lx & Hnow & Hp & Ho & Hsg & Hcw & Hcase & ->).
  pose proof (i_presales _ Hi _ _ Hp) as Hok. pose proof (q_cfg _ _ _ Hok) as Hc.
  pose proof (books_totals _ _ _ (a_books _ _ _ _ (q_acct _ _ _ Hok))) as Htot.
  pose proof (c_caps _ _ Hc) as Hcp. pose proof (supply_nonneg _ _ Hc) as Hsup.
  exists p, m, w1, lx. constructor; try assumption; try reflexivity.
  destruct Hcase as [(Hg & Hm & Htr & Hnet & ->)|(Hg & Hm & Htr & Hnet & ->)].
  - left. apply progress_completed in Hg as [_ Hg]. rewrite (c_qvault _ _ Hc) in Htr.
    apply excluded_spec in Hnet; [|apply (tk_fee _ (i_tokens _ Hi) _ _ Hm)|lia]. subst net. auto.
  - right. apply progress_failed in Hg as [_ Hg]. rewrite (c_bvault _ _ Hc) in Htr.
    apply excluded_spec in Hnet; [|apply (tk_fee _ (i_tokens _ Hi) _ _ Hm)|lia]. subst net. auto.
Qed.

Record did_fee (w : world) (k qv qm rcv owner : addr) (pr : prog) (h : henv)
    (w' : world) (l : list fx) (p : presale) (m : mint) (w1 : world) (lx : list fx) : Prop := {
  dfe_presale : w_presales w !! k = Some p;
  dfe_ok : presale_ok w k p;
  dfe_owner : p_owner p = owner;
  dfe_signed : is_wallet owner = true;
  dfe_vault : qv = PQuoteVault k;
  dfe_mint : qm = p_qmint p /\ w_mints w !! qm = Some m;
  dfe_when : succeeded p (w_now w);
  dfe_once : p_fee_col p = 0;
  dfe_amount : 0 <= fee_income p <= p_fee p;
  dfe_paid : paid w pr qv qm rcv (fee_income p) (h_ok h) w1 lx;
  dfe_world : w' = upd_presale k (set_p_fee_col 1 p) w1;
  dfe_fx : l = lx ++ [FxEvent (EvtCreatorCollectFee k owner
                                (fee_income p - tok_fee m (fee_income p)))]
}.

Lemma fee_did w k qv qm rcv owner pr h w' l :
  inv w -> creator_collect_fee w k qv qm rcv owner pr h = Ok (w', l) ->
  exists p m w1 lx, did_fee w k qv qm rcv owner pr h w' l p m w1 lx.
Proof.
  intros Hi Hx. apply collect_fee_inv in Hx as
    (p & m & n & net & w1 & lx & Hnow & Hp & Ho & Hqm & Hqv & Hm & Hsg & Hg & Hcol & Htot & Hpaid & Hnet & -> & ->).
  pose proof (i_presales _ Hi _ _ Hp) as Hok. pose proof (q_cfg _ _ _ Hok) as Hc.
  pose proof (q_acct _ _ _ Hok) as Ha. pose proof (a_books _ _ _ _ Ha) as Hb.
  pose proof (a_caps _ _ _ _ Ha) as Hkp.
  rewrite (collected_fee_spec k p _ Hc Hb Hkp) in Htot. apply Ok_inj in Htot. subst n.
  pose proof (fee_income_range k p _ Hc Hb) as Hfr.
  apply progress_completed in Hg as [_ Hg].
  apply excluded_spec in Hnet; [|apply (tk_fee _ (i_tokens _ Hi) _ _ Hm)|lia]. subst net.
  exists p, m, w1, lx. constructor; try assumption; try reflexivity.
  - rewrite <- Hqv. apply (c_qvault _ _ Hc).
  - auto.
  - pose proof (b_flags _ _ _ Hb). lia.
Qed.

Record did_unsold (w : world) (k bv bm ct : addr) (pr : prog) (h : henv)
    (w' : world) (l : list fx) (p : presale) (m : mint) (w1 : world) (lx : list fx) : Prop := {
  du_presale : w_presales w !! k = Some p;
  du_ok : presale_ok w k p;
  du_vault : bv = PBaseVault k;
  du_mint : bm = p_bmint p /\ w_mints w !! bm = Some m;
  du_when : succeeded p (w_now w);
  du_once : p_unsold_done p = 0;
  du_amount : 0 < unsold p;
  du_to : ct = Ata (p_owner p) bm pr /\ m_prog m = pr /\
          exists t, w_tokens w !! ct = Some t /\ t_owner t = p_owner p;
  du_what :
    (p_unsold p = 1 /\ tok_burn w pr bv bm PAuth (unsold p) = Ok (w1, lx)) \/
    (p_unsold p <> 1 /\ tok_transfer w pr bv bm ct PAuth (unsold p) (h_ok h) = Ok (w1, lx));
  du_world : w' = upd_presale k (set_p_unsold_done 1 p) w1;
  du_fx : l = lx ++ [FxEvent (EvtPerformUnsoldBaseTokenAction k (unsold p)
                                (if p_unsold p =? 1 then 1 else 0))]
}.

Lemma unsold_did w k bv bm ct pr h w' l :
  inv w -> perform_unsold_base_token_action w k bv bm ct pr h = Ok (w', l) ->
  exists p m w1 lx, did_unsold w k bv bm ct pr h w' l p m w1 lx.
Proof.
  intros Hi Hx. apply unsold_inv in Hx as
    (p & m & t & hh & n & w1 & lx & Hnow & Hp & Hbv & Hbm & Hm & Ht & Hto & Hct & Hpr & Hg & Hdone & Hh & Hn & Hpos &
     Hcase & -> & ->).
  pose proof (i_presales _ Hi _ _ Hp) as Hok. pose proof (q_cfg _ _ _ Hok) as Hc.
  pose proof (q_acct _ _ _ Hok) as Ha. pose proof (a_books _ _ _ _ Ha) as Hb.
  pose proof (a_caps _ _ _ _ Ha) as Hkp.
  rewrite (unsold_spec k p _ Hc Hb hh Hh) in Hn. apply Ok_inj in Hn. subst n.
  apply progress_completed in Hg as [_ Hg].
  exists p, m, w1, lx. constructor; try assumption; try reflexivity.
  - rewrite <- Hbv. apply (c_bvault _ _ Hc).
  - auto.
  - eauto.
Qed.
