(** C22, C39, C53: deposits are accepted whenever there is room, for exactly the right amount;
    withdrawals before the end are honoured. *)
From Coq Require Import Lia.
From Verif Require Import Base Math State Handlers Token World Instr Exec Tactics Sums Spec Arith
  TokenFacts Inv Acct Funs Steps Init Preserve Reach Did Trans Flow Scenario P_Solvency P_History
  P_Payout P_Arith.

(** * Specification *)

(** Least amount of quote that buys [n] base tokens. *)
Definition cost (price n : Z) : Z := (n * price + scale - 1) / scale.

(** How much more the escrow [e] of registry [r] may deposit: up to its own cap; up to the cap of
    the presale, unless the excess is going to be shared out (prorata); and, at a fixed price, up
    to the price of the stock left in the registry. *)
Definition room (p : presale) (r : registry) (e : escrow) : Z :=
  let own := e_cap e - e_deposit e in
  let presale := p_max_cap p - p_deposit p in
  if p_mode p =? 1 then own
  else if p_mode p =? 2 then Z.min presale own
  else Z.min (Z.min presale own) (cost (p_raw0 p) (r_supply r - sold p r)).

(** At a fixed price the program computes the price of the stock left in 128 bits and wants it to
    fit in 64 bits (see C43 for what happens otherwise). *)
Definition stock_fits (p : presale) (r : registry) : Prop :=
  p_mode p = 0 -> sold p r <> r_supply r ->
  (r_supply r - sold p r) * p_raw0 p <= U128MAX /\
  cost (p_raw0 p) (r_supply r - sold p r) <= U64MAX.

(** The amount taken when [n] is offered: all of it, or at a fixed price the least amount that
    buys as many tokens. *)
Definition takes_amount (p : presale) (n a : Z) : Prop :=
  if p_mode p =? 0
  then a <= n /\ bought (p_raw0 p) a = bought (p_raw0 p) n /\
       forall b, bought (p_raw0 p) n <= bought (p_raw0 p) b -> a <= b
  else a = n.

(** A well-formed payment of [n] net of everything from the payer's token account [pt]. *)
Record payable (w : world) (v mk pt payer : addr) (pr : prog) (h : henv) (m : mint) (n : Z)
    : Prop := {
  py_mint : w_mints w !! mk = Some m;
  py_prog : m_prog m = pr;
  py_vault : forall t, w_tokens w !! v = Some t -> t_frozen t = false;
  py_src : exists s x, w_tokens w !! pt = Some s /\ t_mint s = mk /\ t_owner s = payer /\
    t_frozen s = false /\ t_guard s = false /\ (forall d y, t_delegate s = Some (d, y) -> d <> payer) /\
    0 <= x <= t_amount s /\ n <= x - withheld m x;
  py_hook : hook_args m TransferHookQuote (h_accounts h) h
}.

Lemma cost_ceil q n : cost q n = div_ceil (n * q) scale.
Proof. unfold cost. rewrite div_ceil_spec by reflexivity. reflexivity. Qed.

Lemma personal_ok e mx :
  0 <= e_deposit e <= e_cap e -> e_cap e <= mx -> esc_remaining_quota e mx = Ok (e_cap e - e_deposit e).
Proof.
  intros Hd Hc. unfold esc_remaining_quota. rewrite Z.min_r by lia.
  destruct (Z.leb_spec (e_cap e) (e_deposit e)); [f_equal; lia|]. apply safe_sub_le. lia.
Qed.

Section WithCrypto.
Context `{Crypto}.

(** The quota computed by the program is [room]. *)
Lemma quota_room w k ek p e r hh :
  at_escrow w k ek p e r -> p_regs p !! Z.to_nat (e_idx e) = Some r -> get_handler p = Ok hh ->
  (stock_fits p r -> handler_remaining_quota hh p e = Ok (room p r e)) /\
  (forall q, handler_remaining_quota hh p e = Ok q -> q = room p r e) /\ 0 <= room p r e.
Proof.
  intros [Hok Hc Ha Hb Hkp Hs Hra Hre] Hr Hhh.
  pose proof (s_deposit _ _ _ _ _ Hs) as Hd. destruct (s_reg _ _ _ _ _ Hs r Hr) as (Hcap & _ & _).
  pose proof (personal_ok e (r_max_cap r) Hd Hcap) as Hpo.
  pose proof (proj2 (get_reg_Ok p (e_idx e) r) Hr) as Hgr.
  pose proof (k_cap _ Hkp) as Hkc.
  destruct (reg_u64 k p _ Hb _ _ Hr) as [Hru _].
  unfold room, stock_fits.
  destruct (handler_mode _ _ Hhh) as [[Hm ->]|[[Hm ->]|[Hm ->]]]; rewrite Hm; cbn [Z.eqb Pos.eqb handler_remaining_quota].
  - specialize (Hkc ltac:(lia)).
    unfold fixed_remaining_quota, presale_remaining_quota. rewrite safe_sub_le by lia. cbn [rbind].
    rewrite Hgr. cbn [rbind].
    destruct (c_price _ _ Hc Hm) as (Hq0 & _).
    pose proof (fixed_bought_u64 k p _ Hc Hb Hkp _ _ Hm Hr) as Hbu.
    assert (Hsold : (if 0 <? r_deposit r
       then let* b := calculate_token_bought (p_raw0 p) (r_deposit r) in
            let* b64 := cast64 b in Ok (Z.min b64 (r_supply r))
       else Ok 0) = Ok (sold p r)).
    { unfold sold. rewrite Hm. cbn [Z.eqb].
      destruct (Z.ltb_spec 0 (r_deposit r)).
      - rewrite token_bought_ok by lia. cbn [rbind]. rewrite cast64_le by lia. cbn [rbind].
        rewrite (proj2 (Z.eqb_neq _ _)) by lia. reflexivity.
      - rewrite (proj2 (Z.eqb_eq _ _)) by lia. reflexivity. }
    rewrite Hsold. cbn [rbind].
    pose proof (sold_range _ _ _ _ Hc Hr ltac:(lia)) as Hsr.
    rewrite cost_ceil.
    destruct (Z.eqb_spec (sold p r) (r_supply r)) as [Heq|Hne].
    { rewrite Heq, Z.sub_diag, Z.mul_0_l. change (div_ceil 0 scale) with 0.
      rewrite (Z.min_r _ 0) by lia. split; [auto|]. split; [|lia]. intros q Hq. apply Ok_inj in Hq. auto. }
    rewrite safe_sub_le by lia. cbn [rbind].
    assert (0 <= div_ceil ((r_supply r - sold p r) * p_raw0 p) scale).
    { apply div_ceil_nonneg; [|reflexivity]. apply Z.mul_nonneg_nonneg; lia. }
    split; [|split; [|lia]].
    + intros Hf. destruct (Hf eq_refl Hne) as [Hf1 Hf2].
      rewrite (proj2 (safe_mul_Ok _ _ _ _)) by (split; [reflexivity|exact Hf1]). cbn [rbind].
      change SCALE_MULTIPLIER with scale. rewrite cast64_le by exact Hf2. cbn [rbind].
      rewrite Hpo. reflexivity.
    + intros q Hq. bi Hq m Hmm. apply safe_mul_Ok in Hmm as [-> _].
      bi Hq x Hx. apply cast64_Ok in Hx as [-> _]. rewrite Hpo in Hq. apply Ok_inj in Hq. auto.
  - rewrite Hgr. cbn [rbind]. rewrite Hpo. split; [auto|]. split; [|lia]. intros q Hq. apply Ok_inj in Hq. auto.
  - specialize (Hkc ltac:(lia)).
    unfold presale_remaining_quota. rewrite safe_sub_le by lia. cbn [rbind].
    rewrite Hgr. cbn [rbind]. rewrite Hpo. cbn [rbind].
    split; [auto|]. split; [|lia]. intros q Hq. apply Ok_inj in Hq. auto.
Qed.

(** The amount suggested by the program is the one taken. *)
Lemma suggest_takes k p hh n :
  cfg k p -> get_handler p = Ok hh -> 0 <= n <= U64MAX ->
  exists a, handler_suggest_deposit hh n = Ok a /\ takes_amount p n a /\ 0 <= a <= n.
Proof.
  intros Hc Hhh Hn. unfold takes_amount.
  destruct (handler_mode _ _ Hhh) as [[Hm ->]|[[Hm ->]|[Hm ->]]]; rewrite Hm; cbn [Z.eqb Pos.eqb handler_suggest_deposit].
  - destruct (c_price _ _ Hc Hm) as (Hq0 & _).
    destruct (C22_least_deposit (p_raw0 p) n ltac:(lia) Hn) as (a & Ha & Hle & Hb & Hl).
    exists a. split; [assumption|]. split; [|assumption]. split; [lia|]. split; [exact Hb|exact Hl].
  - exists n. split; [reflexivity|]. split; [reflexivity|lia].
  - exists n. split; [reflexivity|]. split; [reflexivity|lia].
Qed.

(** * Exact amounts *)

(** Whatever deposit is accepted, the escrow is credited with what [takes_amount] says for the
    offered amount limited to the room, plus nothing else; the fee is the least covering one. *)
Theorem C39_deposit_exact w k qv qm ek pt payer pr mx h w' l :
  reachable w -> step w (IDeposit k qv qm ek pt payer pr mx h) = Ok (w', l) ->
  exists p e r a f,
    w_presales w !! k = Some p /\ w_escrows w !! ek = Some e /\ e_presale e = k /\
    p_regs p !! Z.to_nat (e_idx e) = Some r /\
    takes_amount p (Z.min (room p r e) mx) a /\ 0 < a <= mx /\
    0 <= f /\ covers (r_fee_bps r) a f /\ (forall f', covers (r_fee_bps r) a f' -> f <= f') /\
    w_escrows w' !! ek = Some (set_e_fee (e_fee e + f) (set_e_deposit (e_deposit e + a) e)) /\
    r_min_cap r <= e_deposit e + a <= e_cap e.
Proof.
  intros Hw Hs. pose proof (reachable_inv _ Hw) as Hi. cbn in Hs.
  apply deposit_inv in Hs as
    (p & e & r & m & hh & quota & amount & fee & p2 & gross & hooks & rest & w1 & lx &
     Hmx & Hnow & Hp & Hqv & Hqm & Hm & He & Hk & Hpay & Hop & Hhh & Hquota & Hpos & Hsug & Hapos &
     Hr & Hfee & Hpd & Hpf & Hrd & Hrf & Hed & Hef & Hval & Hend & Hgross & _ & _ & Htr & -> & ->).
  pose proof (at_intro _ _ _ _ _ _ Hi Hp He Hk Hr) as Hat.
  destruct (quota_room _ _ _ _ _ _ _ Hat Hr Hhh) as (_ & Hq & Hr0). apply Hq in Hquota. subst quota. clear Hq.
  destruct (suggest_takes k p hh (Z.min (room p r e) mx) (at_cfg _ _ _ _ _ _ Hat) Hhh ltac:(lia))
    as (a & Ha & Htk & Hle). rewrite Hsug in Ha. apply Ok_inj in Ha. subst a.
  pose proof (at_esc _ _ _ _ _ _ Hat) as Hes. destruct (s_idx _ _ _ _ _ Hes) as [Hi0 Hi1].
  assert (Hrb : 0 <= r_fee_bps r <= 5000).
  { destruct (c_regs _ _ (at_cfg _ _ _ _ _ _ Hat) _ _ Hr) as [Hz|[Hz _]]; [lia|]. rewrite Z2Nat.id in Hz by lia. lia. }
  destruct (C23_deposit_fee _ _ _ _ (Z.lt_le_incl _ _ Hapos) Hrb Hfee) as (_ & F1 & F2 & F3 & _).
  exists p, e, r, amount, fee. repeat (split; [assumption|]).
  split; [lia|]. split; [assumption|]. split; [assumption|]. split; [assumption|].
  split; [cbn; apply lookup_insert|].
  pose proof (s_deposit _ _ _ _ _ Hes) as Hd.
  assert (room p r e <= e_cap e - e_deposit e).
  { unfold room. destruct (p_mode p =? 1); [lia|]. destruct (p_mode p =? 2); lia. }
  lia.
Qed.

(** C22 for an accepted deposit in a fixed price presale: least amount that buys as much as the
    quota-limited offer. *)
Theorem C22_accepted_deposit w k qv qm ek pt payer pr mx h w' l p :
  reachable w -> step w (IDeposit k qv qm ek pt payer pr mx h) = Ok (w', l) ->
  w_presales w !! k = Some p -> p_mode p = 0 ->
  exists e e' r, w_escrows w !! ek = Some e /\ w_escrows w' !! ek = Some e' /\
    p_regs p !! Z.to_nat (e_idx e) = Some r /\
    let offered := Z.min (room p r e) mx in
    let a := e_deposit e' - e_deposit e in
    0 < a <= offered /\ a * scale / p_raw0 p = offered * scale / p_raw0 p /\
    forall b, offered * scale / p_raw0 p <= b * scale / p_raw0 p -> a <= b.
Proof.
  intros Hw Hs Hp Hm. destruct (C39_deposit_exact _ _ _ _ _ _ _ _ _ _ _ _ Hw Hs)
    as (p' & e & r & a & f & Hp' & He & _ & Hr & Htk & Ha & _ & _ & _ & He' & _).
  assert (p' = p) as -> by congruence.
  unfold takes_amount in Htk. rewrite Hm in Htk. destruct Htk as (T1 & T2 & T3).
  eexists e, _, r. split; [assumption|]. split; [exact He'|]. split; [assumption|].
  cbv zeta. cbn [e_deposit set_e_fee set_e_deposit].
  replace (e_deposit e + a - e_deposit e) with a by lia.
  split; [lia|]. split; [exact T2|exact T3].
Qed.

(** * Deposits succeed *)

Lemma recalculate_ok k p now :
  cfg k p -> 0 <= now < p_end p -> now <= I64MAX -> exists p', recalculate_timing p now = Ok p'.
Proof.
  intros Hc Hn Hb. pose proof (c_ve64 _ _ Hc) as Hve. pose proof (c_dur _ _ Hc) as Hdu. pose proof (c_imm64 _ _ Hc) as Him.
  unfold recalculate_timing, vest_lock_timings, sat_sub.
  rewrite safe_add_le by lia. cbn [rbind]. rewrite safe_add_le by lia. cbn [rbind].
  rewrite safe_add_le by (num; lia). cbn [rbind]. eauto.
Qed.

Lemma recalculate_ext p p' now :
  p_imm_ts p' = p_imm_ts p -> p_end p' = p_end p -> p_lock p' = p_lock p -> p_vest p' = p_vest p ->
  (exists x, recalculate_timing p now = Ok x) -> exists x, recalculate_timing p' now = Ok x.
Proof.
  unfold recalculate_timing. intros -> -> -> ->.
  destruct (vest_lock_timings now (p_lock p) (p_vest p)) as [[vs ve]|]; cbn [rbind]; [|intros [x Hx]; discriminate].
  destruct (safe_add U64MAX now (sat_sub (p_imm_ts p) (p_end p))); cbn [rbind]; [|intros [x Hx]; discriminate].
  eauto.
Qed.

Lemma fresh_qneed k p E now : now < p_end p -> acct now k p E -> qneed p = p_deposit p + p_fee p.
Proof.
  intros Hn Ha. destruct (a_fresh _ _ _ _ Ha Hn) as [(F1 & F2 & F3) Fr _].
  pose proof (b_refunded _ _ _ (a_books _ _ _ _ Ha)) as Hrf.
  assert (lsum r_refunded (p_regs p) = 0).
  { etransitivity; [apply lsum_ext|apply (lsum_zero (p_regs p))].
    intros r Hr. apply elem_of_list_lookup in Hr as [i Hr]. apply (Fr i r Hr). }
  unfold qneed. rewrite F1, F2. cbn. lia.
Qed.

(** A deposit made while the presale is open, by a payer who can pay for it, is accepted. *)
Lemma deposit_live w k p ek e r pt payer pr mx h m a f :
  inv w -> w_presales w !! k = Some p -> w_escrows w !! ek = Some e -> e_presale e = k ->
  p_regs p !! Z.to_nat (e_idx e) = Some r -> open_for_deposits p (w_now w) -> stock_fits p r ->
  0 <= mx <= U64MAX -> takes_amount p (Z.min (room p r e) mx) a -> 0 < a ->
  r_min_cap r <= e_deposit e + a ->
  is_wallet payer = true -> 0 <= f -> covers (r_fee_bps r) a f ->
  payable w (PQuoteVault k) (p_qmint p) pt payer pr h m (a + f) ->
  exists w' l, step w (IDeposit k (PQuoteVault k) (p_qmint p) ek pt payer pr mx h) = Ok (w', l).
Proof.
  intros Hi Hp He Hk Hr Hop Hfit Hmx Htk Hapos Hmin Hsg Hf0 Hcov [Hm Hpr Hvf (s & x & Hs & Hsm & Hso & Hsf & Hsgu & Hsd & Hx & Hnet) Hh].
  pose proof (at_intro _ _ _ _ _ _ Hi Hp He Hk Hr) as Hat.
  pose proof Hat as [Hok Hc Ha Hb Hkp Hes Hra Hre].
  destruct (handler_total k p Hc) as [hh Hhh].
  destruct (quota_room _ _ _ _ _ _ _ Hat Hr Hhh) as (Hq & _ & Hr0). specialize (Hq Hfit).
  destruct (suggest_takes k p hh (Z.min (room p r e) mx) Hc Hhh ltac:(lia)) as (a' & Ha' & Htk' & Hle).
  assert (a' = a) as ->.
  { unfold takes_amount in Htk, Htk'. destruct (p_mode p =? 0); [|congruence].
    destruct Htk as (T1 & T2 & T3), Htk' as (T1' & T2' & T3').
    pose proof (T3 a' ltac:(lia)). pose proof (T3' a ltac:(lia)). lia. }
  clear Htk'.
  destruct (s_idx _ _ _ _ _ Hes) as [Hi0 Hi1].
  assert (Hrb : 0 <= r_fee_bps r <= 5000).
  { destruct (c_regs _ _ Hc _ _ Hr) as [Hz|[Hz _]]; [lia|]. rewrite Z2Nat.id in Hz by lia. lia. }
  pose proof (s_deposit _ _ _ _ _ Hes) as Hd. destruct (s_reg _ _ _ _ _ Hes r Hr) as (Hcap & _ & _).
  assert (Hroom : room p r e <= e_cap e - e_deposit e).
  { unfold room. destruct (p_mode p =? 1); [lia|]. destruct (p_mode p =? 2); lia. }
  (* the tokens of the payer and of the vault together fit in 64 bits *)
  pose proof (i_tokens _ Hi) as Hti.
  pose proof (q_qvault _ _ _ Hok) as (vt & Hvt & Hvm & Hvo & (Hvd & Hvmo & _) & Hvb).
  assert (Hne : pt <> PQuoteVault k).
  { intros ->. assert (vt = s) as -> by congruence. rewrite Hso in Hvo. rewrite Hvo in Hsg. discriminate Hsg. }
  pose proof (tk_two_u64 w pt s (PQuoteVault k) vt Hti Hs Hvt Hne ltac:(congruence)) as Hu.
  pose proof (tk_amount_u64 _ _ _ Hti Hs) as Hsu.
  destruct Hop as [Hop1 Hop2].
  rewrite (fresh_qneed _ _ _ _ Hop2 Ha) in Hvb.
  pose proof (tk_fee _ Hti _ _ Hm) as Hmf.
  pose proof (tok_fee_range m x Hmf ltac:(lia)) as Hxf. rewrite tok_fee_withheld in Hxf by (assumption || lia).
  destruct (C23_deposit_fee_defined a (r_fee_bps r) f ltac:(lia) Hrb Hf0 Hcov ltac:(lia)) as (fee & inc & Hfee).
  destruct (C23_deposit_fee _ _ _ _ (Z.lt_le_incl _ _ Hapos) Hrb Hfee) as (Hinc & F1 & F2 & F3 & _). specialize (F3 f Hcov). subst inc.
  destruct (C24_gross_amount m (a + fee) Hmf ltac:(lia)) as (g & G1 & G2 & G3 & G4).
  specialize (G3 x ltac:(lia) ltac:(lia)).
  rewrite (proj2 (Z.leb_le _ _)) in G4 by lia.
  destruct (parse_live _ _ _ _ Hh) as (hooks & rest & Hparse & Hchk & Hhok). cbn [hooks_of] in Hchk.
  cbn [step]. unfold deposit.
  rewrite require_true; [|apply andb_true_intro; split; [apply in_u64_iff; lia|eapply hook_args_decodes; exact Hh]].
  ok_bind. go_clock Hi.
  unfold get_presale, get_mint, get_token, get_escrow. rewrite Hp. ok_bind.
  rewrite (has_one_ok (p_qvault p)) by (apply (c_qvault _ _ Hc)). ok_bind.
  rewrite (has_one_ok (p_qmint p)) by reflexivity. ok_bind.
  rewrite Hm, He. ok_bind.
  rewrite (has_one_ok (e_presale e)) by assumption. ok_bind.
  rewrite signer_ok by assumption. ok_bind.
  rewrite require_true by (apply beq_progress_true, progress_ongoing; split; assumption). ok_bind.
  rewrite Hhh. ok_bind. rewrite Hq. ok_bind.
  rewrite require_true by (apply Z.ltb_lt; lia). ok_bind.
  rewrite Ha'. ok_bind. rewrite require_true by (apply Z.ltb_lt; lia). ok_bind.
  pose proof (proj2 (get_reg_Ok p (e_idx e) r) Hr) as Hgr.
  assert (Hdep : presale_deposit p e a = Ok (fee, a + fee, deposited p e r a fee, esc_deposited e a fee)).
  { unfold presale_deposit, reg_deposit_fee, reg_deposit, esc_deposit. rewrite Hgr. ok_bind.
    rewrite Hfee. ok_bind.
    rewrite (safe_add_le _ (r_deposit r)) by lia. ok_bind. rewrite (safe_add_le _ (r_fee r)) by lia. ok_bind.
    rewrite (safe_add_le _ (e_deposit e)) by lia. ok_bind. rewrite (safe_add_le _ (e_fee e)) by lia. ok_bind.
    rewrite (safe_add_le _ (p_deposit p)) by lia. ok_bind. rewrite (safe_add_le _ (p_fee p)) by lia. ok_bind.
    reflexivity. }
  rewrite Hdep. ok_bind.
  assert (Hgr' : get_reg (deposited p e r a fee) (e_idx (esc_deposited e a fee)) =
    Ok (set_r_fee (r_fee r + fee) (set_r_deposit (r_deposit r + a) r))).
  { apply get_reg_Ok. unfold deposited. cbn. apply list_lookup_insert. eapply lookup_lt_Some; eassumption. }
  rewrite Hgr'. ok_bind.
  assert (Hval : reg_validate_deposit (set_r_fee (r_fee r + fee) (set_r_deposit (r_deposit r + a) r))
     (esc_deposited e a fee) = Ok tt).
  { unfold reg_validate_deposit. cbn. destruct (e_deposit e + a =? 0); [reflexivity|].
    apply require_true. apply andb_true_intro. split; apply Z.leb_le; lia. }
  rewrite Hval. ok_bind.
  assert (Hend : exists p2, handler_end_if_max_cap hh (deposited p e r a fee) (w_now w) = Ok p2).
  { pose proof (c_time _ _ Hc) as Htm. pose proof (i_now _ Hi) as Hnw.
    destruct (recalculate_ok k p (w_now w) Hc ltac:(lia) ltac:(lia)) as (px & Hpx).
    destruct (recalculate_ext p (deposited p e r a fee) (w_now w) eq_refl eq_refl eq_refl eq_refl (ex_intro _ _ Hpx)) as (py & Hpy).
    assert (Hgen : forall b, exists p2, end_if_max_cap_reached (deposited p e r a fee) b (w_now w) = Ok p2).
    { intros []; unfold end_if_max_cap_reached; [eauto|]. destruct (_ <=? _); eauto. }
    destruct hh; cbn [handler_end_if_max_cap]; eauto. }
  destruct Hend as [p2 Hend]. rewrite Hend. ok_bind.
  rewrite G4. ok_bind. rewrite Hparse. ok_bind.
  rewrite (from_user_eq _ _ _ _ _ _ _ _ _ m s vt) by assumption. rewrite Hchk. ok_bind.
  unfold tok_transfer, get_mint, get_token. rewrite Hm, Hs, Hvt. ok_bind.
  rewrite require_true by (apply bool_decide_eq_true_2; assumption). ok_bind.
  rewrite require_true by (rewrite Hsf, (Hvf _ Hvt); reflexivity). ok_bind.
  rewrite require_true by (apply Z.leb_le; lia). ok_bind.
  rewrite require_true by (rewrite Hsm, Hvm, !beq_addr_refl; reflexivity). ok_bind.
  assert (Hau : tok_authorize m s payer g = Ok (t_delegate s)).
  { unfold tok_authorize. rewrite Hso, beq_addr_refl, orb_true_r. cbn [require rbind].
    destruct (t_delegate s) as [[d y]|]; [|reflexivity].
    rewrite (proj2 (beq_addr_false d payer)); [reflexivity|]. eapply Hsd. reflexivity. }
  rewrite Hau. ok_bind.
  rewrite (proj2 (beq_addr_false pt (PQuoteVault k)) Hne).
  rewrite tok_fee_withheld by (assumption || lia).
  rewrite require_true by (apply Z.leb_le; lia). ok_bind.
  rewrite require_true; [ok_bind; eauto|].
  destruct (has_transfer_hook_program m); [rewrite Hhok; reflexivity|reflexivity].
Qed.

(** Prorata and first come first served: any offer of at most the room that brings the escrow to
    the minimum is accepted in full. *)
Theorem C39_deposit_succeeds w k p ek e r pt payer pr n h m f :
  reachable w -> w_presales w !! k = Some p -> w_escrows w !! ek = Some e -> e_presale e = k ->
  p_regs p !! Z.to_nat (e_idx e) = Some r -> open_for_deposits p (w_now w) -> p_mode p <> 0 ->
  0 < n <= e_cap e - e_deposit e -> (p_mode p = 2 -> n <= p_max_cap p - p_deposit p) ->
  r_min_cap r <= e_deposit e + n ->
  is_wallet payer = true -> 0 <= f -> covers (r_fee_bps r) n f ->
  payable w (PQuoteVault k) (p_qmint p) pt payer pr h m (n + f) ->
  exists w' l e', step w (IDeposit k (PQuoteVault k) (p_qmint p) ek pt payer pr n h) = Ok (w', l) /\
    w_escrows w' !! ek = Some e' /\ e_deposit e' = e_deposit e + n /\
    e_fee e <= e_fee e' <= e_fee e + f.
Proof.
  intros Hw Hp He Hk Hr Hop Hm0 Hn Hcap Hmin Hsg Hf Hcov Hpay. pose proof (reachable_inv _ Hw) as Hi.
  pose proof (at_intro _ _ _ _ _ _ Hi Hp He Hk Hr) as Hat.
  assert (Hroom : n <= room p r e).
  { unfold room. destruct (c_mode _ _ (at_cfg _ _ _ _ _ _ Hat)) as [?|[Hm|Hm]]; [contradiction|..]; rewrite Hm; cbn [Z.eqb Pos.eqb]; [lia|].
    specialize (Hcap Hm). lia. }
  assert (Hbnd : n <= U64MAX).
  { destruct (s_reg _ _ _ _ _ (at_esc _ _ _ _ _ _ Hat) r Hr) as (Hc1 & _ & _).
    pose proof (s_deposit _ _ _ _ _ (at_esc _ _ _ _ _ _ Hat)).
    pose proof (c_caps _ _ (at_cfg _ _ _ _ _ _ Hat)).
    destruct (s_idx _ _ _ _ _ (at_esc _ _ _ _ _ _ Hat)) as [Hi0 Hi1].
    destruct (c_regs _ _ (at_cfg _ _ _ _ _ _ Hat) _ _ Hr) as [Hz|[Hz _]]; [lia|]. rewrite Z2Nat.id in Hz by lia. lia. }
  assert (Htk : takes_amount p (Z.min (room p r e) n) n).
  { unfold takes_amount. rewrite (proj2 (Z.eqb_neq _ _)) by assumption. lia. }
  destruct (deposit_live w k p ek e r pt payer pr n h m n f Hi Hp He Hk Hr Hop) as (w' & l & Hs);
    try assumption; [intros ?; contradiction|lia|lia|].
  destruct (C39_deposit_exact _ _ _ _ _ _ _ _ _ _ _ _ Hw Hs)
    as (p' & e' & r' & a & f' & Hp' & He' & _ & Hr' & Htk' & Ha & Hf' & Hc' & Hl' & Hee & _).
  assert (p' = p) as -> by congruence. assert (e' = e) as -> by congruence. assert (r' = r) as -> by congruence.
  unfold takes_amount in Htk'. rewrite (proj2 (Z.eqb_neq _ _)) in Htk' by assumption. rewrite Z.min_r in Htk' by assumption. subst a.
  eexists w', l, _. split; [assumption|]. split; [exact Hee|]. cbn. specialize (Hl' f Hcov). lia.
Qed.

(** Fixed price: the same for the least amount [a] that buys what is asked for, provided the price
    of the stock left can be computed. *)
Theorem C39_fixed_price_deposit_succeeds w k p ek e r pt payer pr n h m a f :
  reachable w -> w_presales w !! k = Some p -> w_escrows w !! ek = Some e -> e_presale e = k ->
  p_regs p !! Z.to_nat (e_idx e) = Some r -> open_for_deposits p (w_now w) -> p_mode p = 0 ->
  stock_fits p r -> 0 < n <= room p r e -> n <= U64MAX ->
  takes_amount p n a -> 0 < a -> r_min_cap r <= e_deposit e + a ->
  is_wallet payer = true -> 0 <= f -> covers (r_fee_bps r) a f ->
  payable w (PQuoteVault k) (p_qmint p) pt payer pr h m (a + f) ->
  exists w' l e', step w (IDeposit k (PQuoteVault k) (p_qmint p) ek pt payer pr n h) = Ok (w', l) /\
    w_escrows w' !! ek = Some e' /\ e_deposit e' = e_deposit e + a /\
    e_fee e <= e_fee e' <= e_fee e + f.
Proof.
  intros Hw Hp He Hk Hr Hop Hm0 Hfit Hn Hbnd Htk Ha Hmin Hsg Hf Hcov Hpay. pose proof (reachable_inv _ Hw) as Hi.
  assert (Hmn : Z.min (room p r e) n = n) by lia.
  destruct (deposit_live w k p ek e r pt payer pr n h m a f Hi Hp He Hk Hr Hop) as (w' & l & Hs);
    try assumption; [lia|rewrite Hmn; assumption|].
  destruct (C39_deposit_exact _ _ _ _ _ _ _ _ _ _ _ _ Hw Hs)
    as (p' & e' & r' & a' & f' & Hp' & He' & _ & Hr' & Htk' & Ha' & Hf' & Hc' & Hl' & Hee & _).
  assert (p' = p) as -> by congruence. assert (e' = e) as -> by congruence. assert (r' = r) as -> by congruence.
  rewrite Hmn in Htk'.
  assert (a' = a) as ->.
  { unfold takes_amount in Htk, Htk'. rewrite Hm0 in *. cbn [Z.eqb] in *.
    destruct Htk as (T1 & T2 & T3), Htk' as (T1' & T2' & T3').
    pose proof (T3 a' ltac:(lia)). pose proof (T3' a ltac:(lia)). lia. }
  eexists w', l, _. split; [assumption|]. split; [exact Hee|]. cbn. specialize (Hl' f Hcov). lia.
Qed.

(** * C53: withdrawals before the end *)

(** What a withdrawal request of [n] takes out: all of it, except that at a fixed price a partial
    withdrawal is lowered to the least amount that buys as many tokens. *)
Definition gives_back (p : presale) (e : escrow) (n a : Z) : Prop :=
  if (p_mode p =? 0) && negb (n =? e_deposit e) then takes_amount p n a else a = n.

Lemma suggest_gives k p hh e n :
  cfg k p -> get_handler p = Ok hh -> handler_can_withdraw hh = true -> 0 <= n <= U64MAX ->
  exists a, handler_suggest_withdraw hh e n = Ok a /\ gives_back p e n a /\ 0 <= a <= n.
Proof.
  intros Hc Hhh Hcan Hn. unfold gives_back.
  destruct (handler_mode _ _ Hhh) as [[Hm ->]|[[Hm ->]|[Hm ->]]]; cbn [handler_suggest_withdraw]; [..|discriminate].
  - rewrite (Z.eqb_sym n). rewrite Hm. cbn [Z.eqb andb]. destruct (Z.eqb_spec (e_deposit e) n) as [_|_]; cbn [negb].
    + exists n. split; [reflexivity|]. split; [reflexivity|lia].
    + destruct (suggest_takes k p _ n Hc Hhh Hn) as (a & Ha & Ht & Hl). exists a. cbn in Ha. auto.
  - rewrite Hm. cbn [Z.eqb andb]. exists n. split; [reflexivity|]. split; [reflexivity|lia].
Qed.

Lemma gives_back_det k p e n a a' :
  cfg k p -> gives_back p e n a -> gives_back p e n a' -> a' = a.
Proof.
  intros Hc. unfold gives_back. destruct ((p_mode p =? 0) && negb (n =? e_deposit e)); [|congruence].
  unfold takes_amount. destruct (p_mode p =? 0); [|congruence].
  intros (T1 & T2 & T3) (T1' & T2' & T3'). pose proof (T3 a' ltac:(lia)). pose proof (T3' a ltac:(lia)). lia.
Qed.

(** Whatever withdrawal is accepted takes exactly that amount from the vault and from the recorded
    deposit (the deposit fee stays), and leaves nothing or at least the minimum. *)
Theorem C53_withdraw_exact w k qv qm ek ot owner pr mx h w' l :
  reachable w -> step w (IWithdraw k qv qm ek ot owner pr mx h) = Ok (w', l) ->
  exists p e r m a,
    w_presales w !! k = Some p /\ w_escrows w !! ek = Some e /\ e_presale e = k /\ e_owner e = owner /\
    p_regs p !! Z.to_nat (e_idx e) = Some r /\ w_mints w !! p_qmint p = Some m /\
    open_for_deposits p (w_now w) /\ p_mode p <> 2 /\
    gives_back p e mx a /\ 0 < a <= mx /\ mx <= e_deposit e /\
    (e_deposit e - a = 0 \/ r_min_cap r <= e_deposit e - a) /\
    moved w w' (PQuoteVault k) ot a (tok_fee m a) /\
    w_escrows w' !! ek = Some (set_e_deposit (e_deposit e - a) e).
Proof.
  intros Hw Hs. pose proof (reachable_inv _ Hw) as Hi. cbn in Hs.
  pose proof Hs as Hs0.
  apply withdraw_inv in Hs0 as (p0 & e0 & r0 & m0 & hh & a0 & net & hooks & rest & w10 & fx0 &
    _ & Hmx & Hp0 & _ & _ & _ & He0 & _ & _ & _ & _ & Hhh & Hcan & Hsug & _ & _ & _ & _ & _ & Hrest).
  destruct (withdraw_did _ _ _ _ _ _ _ _ _ _ _ _ Hi Hs) as (p & e & r & m & a & w1 & lx & D). destruct D.
  assert (p0 = p) as -> by congruence. assert (e0 = e) as -> by congruence.
  pose proof (at_cfg _ _ _ _ _ _ dw_at) as Hc.
  assert (Hm64 : 0 <= mx <= U64MAX).
  { pose proof (at_range _ _ _ _ _ _ dw_at). pose proof (at_reg _ _ _ _ _ _ dw_at).
    pose proof (b_u64 _ _ _ (at_books _ _ _ _ _ _ dw_at)). lia. }
  destruct (suggest_gives k p hh e mx Hc Hhh Hcan Hm64) as (a1 & Ha1 & Hg & Hle).
  assert (a1 = a) as ->.
  { destruct (suggest_withdraw_inv _ _ _ _ _ _ Hc Hhh Hcan Hm64 Ha1) as (S1 & S2 & S3 & S4).
    destruct (c_mode _ _ Hc) as [Em|[Em|Em]]; [|rewrite S4 by lia; symmetry; auto|contradiction].
    destruct (S3 Em) as [[E ->]|[E ->]]; [rewrite dw_exact by auto; reflexivity|].
    symmetry. auto. }
  destruct dw_mint as [-> Hm]. subst qv.
  exists p, e, r, m, a. repeat (split; [assumption|]).
  split; [clear - dw_mode; destruct dw_mode as [Hx|[Hx _]]; lia|]. repeat (split; [assumption|]).
  split; [destruct dw_limit as [?|[? _]]; auto|]. split.
  - eapply (moved_ext _ w1); [subst w'; reflexivity|].
    eapply transfer_moved; eassumption.
  - subst w'. cbn. apply lookup_insert.
Qed.

Lemma withdraw_live w k p ek e r ot pr h m n a :
  inv w -> w_presales w !! k = Some p -> w_escrows w !! ek = Some e -> e_presale e = k ->
  p_regs p !! Z.to_nat (e_idx e) = Some r -> open_for_deposits p (w_now w) -> withdrawals_on p ->
  n <= e_deposit e -> gives_back p e n a -> 0 < a <= n ->
  e_deposit e - a = 0 \/ r_min_cap r <= e_deposit e - a ->
  is_wallet (e_owner e) = true ->
  receivable w (PQuoteVault k) (p_qmint p) ot pr TransferHookQuote (h_accounts h) h m ->
  exists w' l, step w (IWithdraw k (PQuoteVault k) (p_qmint p) ek ot (e_owner e) pr n h) = Ok (w', l).
Proof.
  intros Hi Hp He Hk Hr Hop Hon Hn Hg Ha Hmin Hsg Hrc.
  pose proof (at_intro _ _ _ _ _ _ Hi Hp He Hk Hr) as Hat.
  pose proof Hat as [Hok Hc Hac Hb Hkp Hes Hra Hre].
  destruct (handler_total k p Hc) as [hh Hhh].
  pose proof (proj2 (can_withdraw_spec p hh Hhh) Hon) as Hcan.
  pose proof (b_u64 _ _ _ Hb) as Hu64.
  destruct (suggest_gives k p hh e n Hc Hhh Hcan ltac:(lia)) as (a' & Ha' & Hg' & _).
  assert (a' = a) as -> by (eapply gives_back_det; eassumption). clear Hg'.
  pose proof (q_qvault _ _ _ Hok) as Hvh. destruct Hop as [Hop1 Hop2].
  rewrite (fresh_qneed _ _ _ _ Hop2 Hac) in Hvh.
  pose proof Hrc as [Hm Hpr Hvf Hd Hh].
  destruct (transfer_live w (PQuoteVault k) (p_qmint p) ot pr TransferHookQuote (h_accounts h) h m _
    a (i_tokens _ Hi) Hvh ltac:(lia) Hrc) as (hooks & rest & w1 & lx & Hparse & Htr).
  cbn [hooks_of] in Htr.
  cbn [step]. unfold withdraw.
  rewrite require_true; [|apply andb_true_intro; split; [apply in_u64_iff; lia|eapply hook_args_decodes; exact Hh]].
  ok_bind. go_clock Hi.
  unfold get_presale, get_mint, get_token, get_escrow. rewrite Hp. ok_bind.
  rewrite (has_one_ok (p_qvault p)) by (apply (c_qvault _ _ Hc)). ok_bind.
  rewrite (has_one_ok (p_qmint p)) by reflexivity. ok_bind.
  rewrite Hm, He. ok_bind.
  rewrite (has_one_ok (e_presale e)) by assumption. ok_bind.
  rewrite (has_one_ok (e_owner e)) by reflexivity. ok_bind.
  rewrite signer_ok by assumption. ok_bind.
  rewrite require_true by (apply beq_progress_true, progress_ongoing; split; assumption). ok_bind.
  rewrite require_true by (apply Z.ltb_lt; lia). ok_bind.
  rewrite require_true by (apply Z.leb_le; lia). ok_bind.
  rewrite Hhh. ok_bind. rewrite Hcan. cbn [require]. ok_bind. rewrite Ha'. ok_bind.
  rewrite require_true by (apply Z.ltb_lt; lia). ok_bind.
  assert (Hpw : handler_process_withdraw hh p e a =
    Ok (withdrawn p e r a, set_e_deposit (e_deposit e - a) e)).
  { assert (presale_withdraw p e a = Ok (withdrawn p e r a, set_e_deposit (e_deposit e - a) e)) as Hpw.
    { unfold presale_withdraw, reg_withdraw, esc_withdraw. rewrite (proj2 (get_reg_Ok p (e_idx e) r) Hr). ok_bind.
      rewrite (safe_sub_le (r_deposit r)) by lia. ok_bind. rewrite (safe_sub_le (e_deposit e)) by lia. ok_bind.
      rewrite (safe_sub_le (p_deposit p)) by lia. ok_bind. reflexivity. }
    destruct hh; [exact Hpw|exact Hpw|discriminate]. }
  rewrite Hpw. ok_bind.
  assert (Hgr' : get_reg (withdrawn p e r a) (e_idx (set_e_deposit (e_deposit e - a) e)) =
    Ok (set_r_deposit (r_deposit r - a) r)).
  { apply get_reg_Ok. unfold withdrawn. cbn. apply list_lookup_insert. eapply lookup_lt_Some; eassumption. }
  rewrite Hgr'. ok_bind.
  assert (Hval : reg_validate_deposit (set_r_deposit (r_deposit r - a) r) (set_e_deposit (e_deposit e - a) e) = Ok tt).
  { unfold reg_validate_deposit. cbn. destruct (Z.eqb_spec (e_deposit e - a) 0); [reflexivity|].
    pose proof (s_deposit _ _ _ _ _ Hes) as Hsd. destruct (s_reg _ _ _ _ _ Hes r Hr) as (Hcap & _ & _).
    apply require_true. apply andb_true_intro. split; apply Z.leb_le; lia. }
  rewrite Hval. ok_bind. rewrite Hparse. ok_bind.
  rewrite Htr. ok_bind.
  rewrite excluded_ok by (try apply (tk_fee _ (i_tokens _ Hi) _ _ Hm); lia). ok_bind. eauto.
Qed.

(** The owner can always take the whole recorded deposit back while the presale is open and
    withdrawals are enabled; in general any amount that leaves nothing or at least the minimum. *)
Theorem C53_withdraw_succeeds w k p ek e r ot pr h m n a :
  reachable w -> w_presales w !! k = Some p -> w_escrows w !! ek = Some e -> e_presale e = k ->
  p_regs p !! Z.to_nat (e_idx e) = Some r -> open_for_deposits p (w_now w) -> withdrawals_on p ->
  n <= e_deposit e -> gives_back p e n a -> 0 < a <= n ->
  e_deposit e - a = 0 \/ r_min_cap r <= e_deposit e - a ->
  is_wallet (e_owner e) = true ->
  receivable w (PQuoteVault k) (p_qmint p) ot pr TransferHookQuote (h_accounts h) h m ->
  exists w' l, step w (IWithdraw k (PQuoteVault k) (p_qmint p) ek ot (e_owner e) pr n h) = Ok (w', l) /\
    moved w w' (PQuoteVault k) ot a (tok_fee m a) /\
    w_escrows w' !! ek = Some (set_e_deposit (e_deposit e - a) e).
Proof.
  intros Hw Hp He Hk Hr Hop Hon Hn Hg Ha Hmin Hsg Hrc. pose proof (reachable_inv _ Hw) as Hi.
  destruct (withdraw_live w k p ek e r ot pr h m n a) as (w' & l & Hs); try assumption.
  exists w', l. split; [assumption|].
  destruct (C53_withdraw_exact _ _ _ _ _ _ _ _ _ _ _ _ Hw Hs)
    as (p' & e' & r' & m' & a' & Hp' & He' & _ & _ & Hr' & Hm' & _ & _ & Hg' & _ & _ & _ & Hmv & Hfin).
  assert (p' = p) as -> by congruence. assert (e' = e) as -> by congruence.
  pose proof (rc_mint _ _ _ _ _ _ _ _ _ Hrc). assert (m' = m) as -> by congruence.
  assert (a' = a) as ->.
  { eapply gives_back_det; [|exact Hg|exact Hg']. apply (q_cfg _ _ _ (i_presales _ Hi _ _ Hp)). }
  auto.
Qed.

Corollary C53_full_withdrawal_succeeds w k p ek e ot pr h m :
  reachable w -> w_presales w !! k = Some p -> w_escrows w !! ek = Some e -> e_presale e = k ->
  open_for_deposits p (w_now w) -> withdrawals_on p -> 0 < e_deposit e ->
  is_wallet (e_owner e) = true ->
  receivable w (PQuoteVault k) (p_qmint p) ot pr TransferHookQuote (h_accounts h) h m ->
  exists w' l, step w (IWithdraw k (PQuoteVault k) (p_qmint p) ek ot (e_owner e) pr (e_deposit e) h) = Ok (w', l) /\
    moved w w' (PQuoteVault k) ot (e_deposit e) (tok_fee m (e_deposit e)) /\
    w_escrows w' !! ek = Some (set_e_deposit 0 e).
Proof.
  intros Hw Hp He Hk Hop Hon Hpos Hsg Hrc. pose proof (reachable_inv _ Hw) as Hi.
  destruct (at_exists _ _ _ _ _ Hi Hp He Hk) as [r Hr].
  destruct (C53_withdraw_succeeds w k p ek e r ot pr h m (e_deposit e) (e_deposit e)) as (w' & l & Hs & Hmv & Hfin);
    try assumption; try lia.
  - unfold gives_back. rewrite Z.eqb_refl, andb_false_r. reflexivity.
  - exists w', l. rewrite Z.sub_diag in Hfin. auto.
Qed.
End WithCrypto.

#[local] Existing Instance toy.

Lemma payable_plain w v mk pt payer pr m n :
  w_mints w !! mk = Some m -> m_prog m = pr -> m_hook m = None ->
  (forall t, w_tokens w !! v = Some t -> t_frozen t = false) ->
  (exists s x, w_tokens w !! pt = Some s /\ t_mint s = mk /\ t_owner s = payer /\
    t_frozen s = false /\ t_guard s = false /\ (forall d y, t_delegate s = Some (d, y) -> d <> payer) /\
    0 <= x <= t_amount s /\ n <= x - withheld m x) ->
  payable w v mk pt payer pr noh m n.
Proof.
  intros Hm Hp Hh Hv Hs. constructor; try assumption. unfold hook_args. rewrite Hh.
  destruct (m_prog m); reflexivity.
Qed.

(** Carol adds 150 to the escrow (cap 400, no fee) in the open prorata presale, although the cap
    of the presale is exceeded already. *)
Example C39_example :
  exists p e r m, w_presales w_pr_open !! k1 = Some p /\ w_escrows w_pr_open !! esc carol 1 = Some e /\
    p_regs p !! 1%nat = Some r /\ p_mode p = 1 /\ p_max_cap p < p_deposit p /\
    p_start p <= w_now w_pr_open < p_end p /\
    150 <= room p r e < 200 /\ r_min_cap r <= e_deposit e + 150 /\ covers (r_fee_bps r) 150 0 /\
    payable w_pr_open (PQuoteVault k1) (p_qmint p) carol_q carol SplToken noh m 150 /\
    ok_step w_pr_open (dep carol carol_q carol 1 150) = true.
Proof.
  eexists _, _, _, _. split; [vm_compute; reflexivity|]. split; [vm_compute; reflexivity|].
  split; [vm_compute; reflexivity|]. split; [reflexivity|]. split; [vm_compute; reflexivity|].
  split; [vm_compute; split; congruence|]. split; [vm_compute; split; congruence|].
  split; [vm_compute; congruence|]. split; [vm_compute; congruence|].
  split; [eapply payable_plain; [vm_compute; reflexivity|reflexivity|reflexivity
    |intros t Ht; vm_compute in Ht; injection Ht as <-; reflexivity|]|vm_compute; reflexivity].
  exists (mkTok qmint carol 9799 false None false false), 150. split; [vm_compute; reflexivity|].
  repeat (split; [reflexivity|]). split; [discriminate|]. split; [|vm_compute; congruence].
  split; vm_compute; congruence.
Qed.

(** Bob offers 199 in the fixed price presale (2.5 per token): 198 are taken. *)
Example C39_fixed_example :
  exists p e r, w_presales w_fx_open !! k1 = Some p /\ w_escrows w_fx_open !! esc bob 0 = Some e /\
    p_regs p !! 0%nat = Some r /\ p_mode p = 0 /\ 199 <= room p r e /\
    sold p r <> r_supply r /\ (r_supply r - sold p r) * p_raw0 p <= U128MAX /\
    cost (p_raw0 p) (r_supply r - sold p r) <= U64MAX /\
    bought (p_raw0 p) 198 = bought (p_raw0 p) 199 /\ bought (p_raw0 p) 197 < bought (p_raw0 p) 199 /\
    exists e', w_escrows (after w_fx_open (dep bob bob_q bob 0 199)) !! esc bob 0 = Some e' /\
      e_deposit e' = e_deposit e + 198.
Proof.
  eexists _, _, _. do 3 (split; [vm_compute; reflexivity|]). split; [reflexivity|].
  split; [vm_compute; congruence|]. split; [vm_compute; congruence|]. split; [vm_compute; congruence|].
  split; [vm_compute; congruence|]. split; [vm_compute; reflexivity|]. split; [vm_compute; reflexivity|].
  eexists. split; vm_compute; reflexivity.
Qed.

(** Alice takes everything back before the end. *)
Example C53_example :
  exists p e m, w_presales w_pr_open !! k1 = Some p /\ w_escrows w_pr_open !! esc alice 0 = Some e /\
    withdrawals_on p /\ p_start p <= w_now w_pr_open < p_end p /\ e_deposit e = 750 /\ e_fee e = 9 /\
    receivable w_pr_open (PQuoteVault k1) (p_qmint p) alice_q SplToken TransferHookQuote [] noh m /\
    bal (after w_pr_open (back alice alice_q 0 750)) alice_q = bal w_pr_open alice_q + 750.
Proof.
  eexists _, _, _. do 2 (split; [vm_compute; reflexivity|]). split; [left; reflexivity|].
  split; [vm_compute; split; congruence|]. split; [reflexivity|]. split; [reflexivity|].
  split; [plain_ok|]. vm_compute. reflexivity.
Qed.
