(** C103: every move that the rules of Sale.v allow can be played: some call to the program is
    accepted and does exactly that, provided the accounts it needs are in order. *)
From Coq Require Import Lia.
From Verif Require Import Base Math State Handlers Token World Instr Exec Spec Tactics Sums Arith
  TokenFacts Inv Acct Funs Steps Init Preserve Reach Did Trans Flow Scenario P_Solvency P_History P_Payout
  P_Arith P_Deposit P_State P_Limits Merkle P_Merkle P_Exit P_Ledger Sale P_Sale.

(** What a move needs besides the rules. Payments need token accounts of the right mint and token
    program that are not frozen, the accounts of the transfer hook, and a signature of whoever pays
    or receives. At a fixed price, the program wants the price of the stock left to fit in 64 bits.
    Who may join is told by the whitelist mode. *)
Section Ready.
Context `{Crypto}.

Definition seat_signs (s : sale) (a owner : addr) : Prop :=
  exists x, sl_seats s !! a = Some x /\ sx_owner x = owner /\ is_wallet owner = true.

Definition admitted (w : world) (k : addr) (p : presale) (owner : addr) (idx cap : Z) : Prop :=
  (p_wl p = 0 /\ idx = 0 /\ exists r, p_regs p !! 0%nat = Some r /\ cap = r_max_cap r) \/
  (p_wl p = 1 /\ sized /\ exists mk c l version pf, w_merkles w !! mk = Some (mkMerkle (m_root c) k version) /\
     config_new l version = Ok c /\ last_entry l (mkNode owner idx cap pf)) \/
  (p_wl p = 2 /\ exists oa o, w_opers w !! oa = Some o /\ o_creator o = p_owner p /\ is_wallet (o_owner o) = true).

Definition ready (w : world) (k : addr) (p : presale) (s : sale) (m : move) : Prop :=
  match m with
  | Time t => t <= I64MAX
  | Join a owner i cap =>
      a = PEscrow k owner (Z.of_nat i) /\ Z.of_nat i < p_nreg p /\ w_escrows w !! a = None /\
      (exists payer, is_wallet payer = true) /\ admitted w k p owner (Z.of_nat i) cap /\
      p_escrows p < U64MAX /\ (forall r, p_regs p !! i = Some r -> r_escrows r < U64MAX)
  | PayIn a n fee =>
      exists pt payer pr h mm, is_wallet payer = true /\
        payable w (PQuoteVault k) (p_qmint p) pt payer pr h mm (n + fee) /\
        forall x r, sl_seats s !! a = Some x -> p_regs p !! sx_tier x = Some r -> stock_fits p r
  | PayOut a _ | Refund a _ =>
      exists owner ot pr h mm, seat_signs s a owner /\
        receivable w (PQuoteVault k) (p_qmint p) ot pr TransferHookQuote (h_accounts h) h mm
  | Take a _ =>
      exists owner ot pr h mm, seat_signs s a owner /\
        receivable w (PBaseVault k) (p_bmint p) ot pr TransferHookBase (h_accounts h) h mm
  | Leave a => exists owner, seat_signs s a owner
  | Raise _ =>
      is_wallet (p_owner p) = true /\ exists ot pr h rest mm, h_accounts h = PQuoteVault k :: p_qmint p :: rest /\
        receivable w (PQuoteVault k) (p_qmint p) ot pr TransferHookQuote rest h mm
  | Return _ =>
      is_wallet (p_owner p) = true /\ exists ot pr h rest mm, h_accounts h = PBaseVault k :: p_bmint p :: rest /\
        receivable w (PBaseVault k) (p_bmint p) ot pr TransferHookBase rest h mm
  | Fees _ =>
      is_wallet (p_owner p) = true /\ exists ot pr h mm,
        receivable w (PQuoteVault k) (p_qmint p) ot pr TransferHookQuote (h_accounts h) h mm
  | Rest _ =>
      exists t h mm, let ct := Ata (p_owner p) (p_bmint p) (m_prog mm) in
        (p_unsold p = 1 -> m_native mm = false) /\ w_tokens w !! ct = Some t /\ t_owner t = p_owner p /\
        receivable w (PBaseVault k) (p_bmint p) ct (m_prog mm) TransferHookBase (h_accounts h) h mm
  end.

(** * A move is determined by its name *)

Lemma plays_one R s m s' : plays R s [m] s' -> plays1 R s m s'.
Proof.
  intros Hp. inversion Hp as [|ms s1 m0 s2 H1 H2 Heq].
  destruct ms as [|x [|]]; try discriminate. injection Heq as ->. inversion H1 as [|ms' ? ? ? ? ? E]; [subst; assumption|].
  destruct ms'; discriminate.
Qed.

Lemma seat_of_shows w k p s a x : shows w k p s -> sl_seats s !! a = Some x ->
  exists e, w_escrows w !! a = Some e /\ e_presale e = k /\ x = seat_of e.
Proof.
  intros Sh Hx. rewrite (sh_seats _ _ _ _ Sh), seats_lookup in Hx.
  destruct (w_escrows w !! a) as [e|]; [|discriminate]. destruct (decide (e_presale e = k)); [|discriminate].
  injection Hx as <-. eauto.
Qed.

(** An accepted operation named like the legal move is that move. *)
Lemma played w o w' l k p s m s' :
  reachable w -> step w o = Ok (w', l) -> w_presales w !! k = Some p -> shows w k p s ->
  (forall ms s2 p', w_presales w' !! k = Some p' -> stands_for k o ms -> plays (rules_of p) s ms s2 -> shows w' k p' s2 ->
     ms = [m] /\ s2 = s') ->
  exists o w' l p', step w o = Ok (w', l) /\ stands_for k o [m] /\ w_presales w' !! k = Some p' /\
    rules_of p' = rules_of p /\ shows w' k p' s' /\ forall c, c <> KFunding -> flow k c o l = amount c m.
Proof.
  intros Hw Hs Hp Sh Hdet.
  destruct (C102_one_move _ _ _ _ _ _ _ Hw Hs Hp Sh) as (p' & ms & s2 & Hp' & Hru & Hpl & Hsh & Hst & Hfl).
  destruct (Hdet _ _ _ Hp' Hst Hpl Hsh) as [-> ->]. exists o, w', l, p'. repeat (split; [assumption|]).
  intros c Hc. rewrite (Hfl c Hc). cbn. lia.
Qed.

Lemma price_least price c b : 0 < price -> c * price <= b * scale -> div_ceil (c * price) scale <= b.
Proof.
  intros Hp Hb. rewrite div_ceil_spec by reflexivity. apply Z.lt_succ_r. apply Z.div_lt_upper_bound; [reflexivity|].
  unfold scale in *. lia.
Qed.
Lemma price_fix price x n : 0 < price -> n = div_ceil (bought price x * price) scale ->
  forall b, bought price n <= bought price b -> n <= b.
Proof.
  intros Hp Hn b Hb. set (c := bought price x) in *.
  assert (Hc : c <= bought price n).
  { unfold bought. apply Z.div_le_lower_bound; [lia|]. rewrite Hn, div_ceil_spec by reflexivity.
    pose proof (Z.div_mod (c * price + scale - 1) scale ltac:(discriminate)) as Hd.
    pose proof (Z.mod_pos_bound (c * price + scale - 1) scale ltac:(reflexivity)).
    unfold scale in *. lia. }
  rewrite Hn. apply price_least; [assumption|].
  assert (Hc2 : c <= bought price b) by lia. unfold bought in Hc2.
  pose proof (Z.mul_div_le (b * scale) price Hp). unfold scale in *. nia.
Qed.
Lemma price_takes k p n : cfg k p -> (exists x, n = price_of (rules_of p) x) -> takes_amount p n n.
Proof.
  intros Hc [x Hx]. rewrite (price_same k p Hc) in Hx. unfold takes_amount.
  destruct (Z.eqb_spec (p_mode p) 0) as [E|E]; [|reflexivity].
  destruct (c_price _ _ Hc E) as (Hq & _). split; [lia|]. split; [reflexivity|].
  apply (price_fix (p_raw0 p) x); [lia|assumption].
Qed.
Lemma price_le k p x : cfg k p -> price_of (rules_of p) x <= x.
Proof.
  intros Hc. rewrite (price_same k p Hc). destruct (Z.eqb_spec (p_mode p) 0) as [E|E]; [|lia].
  destruct (c_price _ _ Hc E) as (Hq & _). apply price_least; [lia|]. unfold bought.
  pose proof (Z.mul_div_le (x * scale) (p_raw0 p) ltac:(lia)). lia.
Qed.

(** * C103 *)

Theorem C103_every_move_can_be_played w k p s m s' :
  reachable w -> w_presales w !! k = Some p -> shows w k p s ->
  plays1 (rules_of p) s m s' -> ready w k p s m ->
  exists o w' l p', step w o = Ok (w', l) /\ stands_for k o [m] /\ w_presales w' !! k = Some p' /\
    rules_of p' = rules_of p /\ shows w' k p' s' /\ forall c, c <> KFunding -> flow k c o l = amount c m.
Proof.
  intros Hw Hp Sh Hm Hrd. pose proof (reachable_inv _ Hw) as Hi.
  pose proof (i_presales _ Hi _ _ Hp) as Hok. pose proof (q_cfg _ _ _ Hok) as Hc.
  pose proof (b_flags _ _ _ (a_books _ _ _ _ (q_acct _ _ _ Hok))) as Hflags.
  destruct Hm as
    [now Hnow|a owner i limit t Hop Ht Hnew Hone Hlim Hlt|a x t n Hop Hx Ht Hn Hpr Hlim Hcap Hstock
    |a x t n Hop Hex Hx Ht Hn Hpr Hlim|a x Hx Hb Hwhen|a x t Hx Ht Hsu|a x t Hx Ht Hset
    |Hsu Hto|Hfa Hto|Hsu Hto|Hsu Hto Hpos]; cbn in Hrd.
  - (* time *) exists (EClock now). eexists _, _, p. split; [|split; [right; eauto|split; [|split; [reflexivity|split]]]].
    + cbn. unfold env_clock. rewrite (sh_now _ _ _ _ Sh) in Hnow.
      rewrite (proj2 (Z.leb_le _ _) Hnow), (proj2 (Z.leb_le _ _) Hrd). reflexivity.
    + exact Hp.
    + destruct Sh. constructor; try assumption. reflexivity.
    + intros c _. destruct c; reflexivity.
  - (* join *) destruct Hrd as (Ha & Hi2 & Hnone & [payer Hpay] & Hadm & Hpe & Hre).
    assert (Hr : exists r, p_regs p !! i = Some r /\ t = tier_of r).
    { cbn in Ht. rewrite list_lookup_fmap in Ht. destruct (p_regs p !! i) as [r|]; [|discriminate].
      injection Ht as <-. eauto. }
    destruct Hr as (r & Hr & ->). cbn in Hlt.
    assert (Hct : creatable w k owner (Z.of_nat i) limit p r).
    { constructor.
      - assumption.
      - apply (open_same w k p s Sh). assumption.
      - lia.
      - rewrite Nat2Z.id. assumption.
      - lia.
      - rewrite <- Ha. assumption.
      - split; [apply Hre; assumption|assumption]. }
    pose proof (c_caps _ _ Hc) as Hcaps.
    assert (H64 : limit <= U64MAX).
    { destruct (c_regs _ _ Hc _ _ Hr) as [Hz|[Hz Hz2]]; lia. }
    pose proof (c_nreg _ _ Hc) as Hnr.
    assert (Hlive : exists o w' l, step w o = Ok (w', l) /\ creates o = Some (k, owner, Z.of_nat i) /\
      w_escrows w' !! PEscrow k owner (Z.of_nat i) = Some (esc_init k owner (w_now w) (Z.of_nat i) limit)).
    { destruct Hadm as [(Hwl & Hi0 & r0 & Hr0 & ->)|[(Hwl & Hsz & mk & c & lst & v & pf & Hmk & Hcn & Hle)|(Hwl & oa & o & Ho & Hoc & Hos)]].
      - assert (i = 0%nat) as -> by lia. assert (r0 = r) as -> by congruence.
        destruct (C61_permissionless_escrow w k owner payer p r) as (w' & l & Hs & He); try assumption.
        + apply (open_same w k p s Sh). assumption.
        + apply (ct_new _ _ _ _ _ _ _ Hct).
        + apply (ct_room _ _ _ _ _ _ _ Hct).
        + exists (IEscrowPermissionless k owner payer), w', l. auto.
      - destruct (C28_escrow_created w k lst v c owner (Z.of_nat i) limit pf p r mk payer) as (proof & w' & l & Hs & _ & He);
          try assumption; [lia|].
        exists (IEscrowMerkle k owner mk payer proof (Z.of_nat i) limit), w', l. auto.
      - destruct (C61_authority_escrow w k owner oa o payer (Z.of_nat i) limit p r) as (w' & l & Hs & He); try assumption.
        + unfold in_u8, U8MAX. lia.
        + apply in_u64_iff. lia.
        + exists (IEscrowCreator k owner oa (o_owner o) payer (Z.of_nat i) limit), w', l. auto. }
    destruct Hlive as (o & w' & l & Hs & Hcr & He). eapply played; try eassumption.
    intros ms s2 p' _ Hst Hpl Hsh.
    assert (Hms : exists n, ms = [Join (PEscrow k owner (Z.of_nat i)) owner (Z.to_nat (Z.of_nat i)) n]).
    { destruct o; try discriminate; injection Hcr as -> -> Hi3; cbn in Hst; rewrite decide_True in Hst by reflexivity;
        rewrite <- Hi3; exact Hst. }
    destruct Hms as [n ->]. rewrite Nat2Z.id in *. apply plays_one in Hpl.
    inversion Hpl as [|? ? ? ? ? _ _ _ _ _ _| | | | | | | | |]; subst.
    assert (Hx : sl_seats (put (PEscrow k owner (Z.of_nat i)) (mkSeat owner i n 0 0 0 false) s) !! PEscrow k owner (Z.of_nat i)
      = Some (seat_of (esc_init k owner (w_now w) (Z.of_nat i) limit))).
    { rewrite (sh_seats _ _ _ _ Hsh). apply seats_in; [assumption|reflexivity]. }
    cbn in Hx. rewrite lookup_insert in Hx. injection Hx as Hx. subst n. auto.
  - (* pay in *) destruct Hrd as (pt & payer & pr & h & mm & Hsg & Hpay & Hfit).
    destruct (seat_of_shows _ _ _ _ _ _ Sh Hx) as (e & He & Hk & ->).
    destruct (at_exists _ _ _ _ _ Hi Hp He Hk) as [r Hr].
    assert (t = tier_of r) as -> by (pose proof (tier_lookup _ _ _ Hr); cbn [seat_of sx_tier] in Ht; congruence).
    pose proof (at_intro _ _ _ _ _ _ Hi Hp He Hk Hr) as Hat. pose proof (at_esc _ _ _ _ _ _ Hat) as Hes.
    destruct (s_reg _ _ _ _ _ Hes _ Hr) as (Hcapm & _ & _). pose proof (s_deposit _ _ _ _ _ Hes) as Hdep.
    destruct (s_idx _ _ _ _ _ Hes) as [I0 I1]. pose proof (c_caps _ _ Hc) as Hcaps.
    assert (Hreg : r_max_cap r <= p_max_cap p /\ 0 <= r_fee_bps r <= 5000).
    { destruct (c_regs _ _ Hc _ _ Hr) as [Hz|[Hz _]]; [lia|]. rewrite Z2Nat.id in Hz by lia. lia. }
    cbn in Hlim. apply (open_same w k p s Sh) in Hop.
    assert (Hf : 0 <= fee_on (tier_of r) n /\ covers (r_fee_bps r) n (fee_on (tier_of r) n)).
    { unfold fee_on, covers, up. cbn.
      pose proof (Z.div_mod (n * 10000 + (10000 - r_fee_bps r) - 1) (10000 - r_fee_bps r) ltac:(lia)) as Hd.
      pose proof (Z.mod_pos_bound (n * 10000 + (10000 - r_fee_bps r) - 1) (10000 - r_fee_bps r) ltac:(lia)) as Hb.
      set (q := (n * 10000 + (10000 - r_fee_bps r) - 1) / (10000 - r_fee_bps r)) in *. nia. }
    assert (Hkind : p_mode p <> 1 -> n <= p_max_cap p - p_deposit p).
    { intros E. assert (ru_kind (rules_of p) <> Prorata) as Hk2 by (intros E2; apply E; apply (kind_prorata k p Hc); exact E2).
      specialize (Hcap Hk2). rewrite <- (sh_raised _ _ _ _ Sh) in Hcap. cbn in Hcap. lia. }
    assert (Hlive : exists w' l e', step w (IDeposit k (PQuoteVault k) (p_qmint p) a pt payer pr n h) = Ok (w', l) /\
      w_escrows w' !! a = Some e' /\ e_deposit e' = e_deposit e + n /\
      e_fee e <= e_fee e' <= e_fee e + fee_on (tier_of r) n).
    { destruct (Z.eqb_spec (p_mode p) 0) as [E|E].
      - eapply C39_fixed_price_deposit_succeeds; try eassumption; try lia.
        + apply (Hfit _ r Hx). exact Hr.
        + split; [assumption|]. unfold room. rewrite E. cbn [Z.eqb].
          specialize (Hstock (p_raw0 p)). cbn [rules_of ru_kind] in Hstock. specialize (Hstock (kind_fixed p E)).
          change (sx_tier (seat_of e)) with (Z.to_nat (e_idx e)) in Hstock.
          rewrite (sold_same w k p s Hc Sh _ r Hr) in Hstock.
          change (n <= cost (p_raw0 p) (r_supply r - sold p r)) in Hstock. specialize (Hkind ltac:(lia)). lia.
        + apply (price_takes k); assumption.
        + apply Hf.
      - eapply C39_deposit_succeeds; try eassumption; try lia. apply Hf. }
    destruct Hlive as (w' & l & e' & Hs & He' & Hd' & _). eapply played; try eassumption.
    intros ms s2 p' _ Hst Hpl Hsh. cbn in Hst. rewrite decide_True in Hst by reflexivity. destruct Hst as (n2 & f2 & ->).
    apply plays_one in Hpl. inversion Hpl as [| |? y t ? _ Hy Hty _ _ _ _ _| | | | | | | |]; subst.
    assert (y = seat_of e) as -> by congruence. assert (t = tier_of r) as -> by congruence.
    match type of Hsh with shows _ _ _ ?s2 => assert (Hx2 : sl_seats s2 !! a = Some (paying n2 (fee_on (tier_of r) n2) (seat_of e))) end.
    { cbv zeta. destruct (_ && _); cbn; apply lookup_insert. }
    rewrite (sh_seats _ _ _ _ Hsh), seats_lookup, He' in Hx2. destruct (decide _); [|discriminate].
    apply (f_equal (fun o => from_option sx_paid 0 o)) in Hx2. cbn in Hx2. assert (n2 = n) as -> by lia. auto.
  - (* pay out *) destruct Hrd as (owner & ot & pr & h & mm & (y & Hy & <- & Hsg) & Hrc). assert (y = x) as -> by congruence.
    destruct (seat_of_shows _ _ _ _ _ _ Sh Hx) as (e & He & Hk & ->).
    destruct (at_exists _ _ _ _ _ Hi Hp He Hk) as [r Hr].
    assert (t = tier_of r) as -> by (pose proof (tier_lookup _ _ _ Hr); cbn [seat_of sx_tier] in Ht; congruence).
    apply (open_same w k p s Sh) in Hop. apply exit_same in Hex. cbn in Hpr, Hlim.
    assert (Hle : n <= e_deposit e).
    { destruct Hpr as [->|(x & -> & Hx2)]; [lia|]. pose proof (price_le k p x Hc). lia. }
    assert (Hgb : gives_back p e n n).
    { unfold gives_back. destruct (_ && _) eqn:E; [|reflexivity]. apply (price_takes k); [assumption|].
      destruct Hpr as [->|(x & Hx2 & _)]; [|eauto]. rewrite Z.eqb_refl in E. rewrite andb_false_r in E. discriminate. }
    destruct (C53_withdraw_succeeds w k p a e r ot pr h mm n n) as (w' & l & Hs & _ & He'); try assumption; [lia| |].
    { destruct Hlim; [left; lia|right; lia]. }
    eapply played; try eassumption.
    intros ms s2 p' _ Hst Hpl Hsh. cbn in Hst. rewrite decide_True in Hst by reflexivity. destruct Hst as (n2 & ->).
    apply plays_one in Hpl. inversion Hpl as [| | |? y t ? _ _ Hy2 Hty _ _ _| | | | | | |]; subst.
    assert (y = seat_of e) as -> by congruence.
    assert (Hx2 : sl_seats (put a (paying (- n2) 0 (seat_of e)) s) !! a = Some (paying (- n2) 0 (seat_of e))) by apply lookup_insert.
    rewrite (sh_seats _ _ _ _ Hsh), seats_lookup, He' in Hx2. destruct (decide _); [|discriminate].
    apply (f_equal (fun o => from_option sx_paid 0 o)) in Hx2. cbn in Hx2. assert (n2 = n) as -> by lia. auto.
  - (* refund *) destruct Hrd as (owner & ot & pr & h & mm & (y & Hy & <- & Hsg) & Hrc). assert (y = x) as -> by congruence.
    destruct (seat_of_shows _ _ _ _ _ _ Sh Hx) as (e & He & Hk & ->).
    destruct (at_exists _ _ _ _ _ Hi Hp He Hk) as [r Hr].
    assert (Hfl : e_withdrawn e = 0).
    { destruct (s_flag _ _ _ _ _ (at_esc _ _ _ _ _ _ (at_intro _ _ _ _ _ _ Hi Hp He Hk Hr))) as [E|E]; [assumption|].
      cbn in Hb. rewrite E in Hb. discriminate. }
    assert (Hlive : exists w' l, step w (IWithdrawRemaining k (PQuoteVault k) (p_qmint p) a ot (e_owner e) pr h) = Ok (w', l)).
    { eapply refund_live; try eassumption. destruct Hwhen as [Hf|[Hs2 Hk2]].
      - left. apply (failure_same w k p s Sh). assumption.
      - right. split; [apply (success_same w k p s Sh); assumption|apply (kind_prorata k p Hc); assumption]. }
    destruct Hlive as (w' & l & Hs). eapply played; try eassumption.
    intros ms s2 p' _ Hst Hpl _. cbn in Hst. rewrite decide_True in Hst by reflexivity. destruct Hst as [n ->].
    apply plays_one in Hpl. inversion Hpl as [| | | |? y Hy2 _ _| | | | | |]; subst.
    assert (y = seat_of e) as -> by congruence. auto.
  - (* take *) destruct Hrd as (owner & ot & pr & h & mm & (y & Hy & <- & Hsg) & Hrc). assert (y = x) as -> by congruence.
    destruct (seat_of_shows _ _ _ _ _ _ Sh Hx) as (e & He & Hk & ->).
    destruct (at_exists _ _ _ _ _ Hi Hp He Hk) as [r Hr].
    destruct (C05_claim_succeeds w k p a e r ot pr h mm) as (w' & l & Hs & _); try assumption.
    { apply (success_same w k p s Sh). assumption. }
    eapply played; try eassumption.
    intros ms s2 p' _ Hst Hpl _. cbn in Hst. rewrite decide_True in Hst by reflexivity. destruct Hst as [n ->].
    apply plays_one in Hpl. inversion Hpl as [| | | | |? y t2 Hy2 Ht2 _| | | | |]; subst.
    assert (y = seat_of e) as -> by congruence. assert (t2 = t) as -> by congruence. auto.
  - (* leave *) destruct Hrd as (owner & y & Hy & <- & Hsg). assert (y = x) as -> by congruence.
    destruct (seat_of_shows _ _ _ _ _ _ Sh Hx) as (e & He & Hk & ->).
    destruct (at_exists _ _ _ _ _ Hi Hp He Hk) as [r Hr].
    assert (t = tier_of r) as -> by (pose proof (tier_lookup _ _ _ Hr); cbn [seat_of sx_tier] in Ht; congruence).
    pose proof (at_esc _ _ _ _ _ _ (at_intro _ _ _ _ _ _ Hi Hp He Hk Hr)) as Hes.
    assert (Hnl : nothing_left p r e (w_now w)).
    { unfold settled_up in Hset. rewrite (back_same w k p s Sh e r Hr), (full_same w k p s Hc Sh e r Hr) in Hset.
      cbn [seat_of sx_paid sx_fee sx_back sx_got] in Hset. rewrite Z.eqb_eq in Hset.
      destruct Hset as [(S1 & S2)|[(S1 & S2)|(S1 & S2 & S3)]].
      - left. split; [apply (open_same w k p s Sh); assumption|assumption].
      - right; left. split; [apply (failure_same w k p s Sh); assumption|].
        pose proof (s_deposit _ _ _ _ _ Hes). pose proof (s_fee _ _ _ _ _ Hes). destruct S2; [left; assumption|right; lia].
      - apply (success_same w k p s Sh) in S1. right; right. split; [assumption|]. split; [assumption|].
        destruct S3 as [S3|S3]; [left; assumption|right]. unfold refundable in S3. destruct S1 as [_ S1].
        rewrite (proj2 (Z.ltb_ge _ _)) in S3 by assumption. assumption. }
    assert (Hrr : a <> e_owner e).
    { rewrite (s_key _ _ _ _ _ Hes). intros E. apply (f_equal is_wallet) in E. cbn in E, Hsg. congruence. }
    destruct (proj2 (C57_close_iff w k p a e r (e_owner e) Hw Hp He Hk Hr Hsg Hrr) Hnl) as (w' & l & Hs).
    eapply played; try eassumption.
    intros ms s2 p' _ Hst Hpl _. cbn in Hst. rewrite decide_True in Hst by reflexivity. subst ms.
    apply plays_one in Hpl. inversion Hpl as [| | | | | |? y t2 Hy2 _ _| | | |]; subst.
    assert (y = seat_of e) as -> by congruence. auto.
  - (* raise *) destruct Hrd as (Hsg & ot & pr & h & rest & mm & Hacc & Hrc).
    pose proof (proj2 (success_same w k p s Sh) Hsu) as [Hend Hmin].
    destruct (C06_creator_withdraw_succeeds w k p ot pr h rest mm) as (w' & l & Hs & _); try assumption; [|auto|lia|].
    { rewrite (sh_took _ _ _ _ Sh) in Hto. apply Z.eqb_neq in Hto. destruct (proj1 Hflags); lia. }
    eapply played; try eassumption.
    intros ms s2 p' _ Hst Hpl _. cbn in Hst. rewrite decide_True in Hst by reflexivity.
    destruct Hst as (n & [->| ->]); apply plays_one in Hpl; inversion Hpl as [| | | | | | |_ _|Hfa _| |]; subst; [auto|].
    destruct Hfa, Hsu. lia.
  - (* return *) destruct Hrd as (Hsg & ot & pr & h & rest & mm & Hacc & Hrc).
    pose proof (proj2 (failure_same w k p s Sh) Hfa) as [Hend Hmin].
    destruct (C06_creator_withdraw_succeeds w k p ot pr h rest mm) as (w' & l & Hs & _); try assumption; [|lia|auto|].
    { rewrite (sh_took _ _ _ _ Sh) in Hto. apply Z.eqb_neq in Hto. destruct (proj1 Hflags); lia. }
    eapply played; try eassumption.
    intros ms s2 p' _ Hst Hpl _. cbn in Hst. rewrite decide_True in Hst by reflexivity.
    destruct Hst as (n & [->| ->]); apply plays_one in Hpl; inversion Hpl as [| | | | | | |Hsu _|_ _| |]; subst; [|auto].
    destruct Hfa, Hsu. lia.
  - (* fees *) destruct Hrd as (Hsg & ot & pr & h & mm & Hrc).
    destruct (C07_fee_succeeds w k p ot pr h mm) as (w' & l & Hs & _); try assumption.
    { apply (success_same w k p s Sh). assumption. }
    { rewrite (sh_fees _ _ _ _ Sh) in Hto. apply Z.eqb_neq in Hto. destruct (proj1 (proj2 Hflags)); lia. }
    eapply played; try eassumption.
    intros ms s2 p' _ Hst Hpl _. cbn in Hst. rewrite decide_True in Hst by reflexivity. destruct Hst as [n ->].
    apply plays_one in Hpl. inversion Hpl; subst. auto.
  - (* rest *) destruct Hrd as (t & h & mm & Hnat & Ht & Hto2 & Hrc).
    destruct (C08_unsold_succeeds w k p (Ata (p_owner p) (p_bmint p) (m_prog mm)) t h mm) as (w' & l & Hs); try assumption; [..|reflexivity|].
    { apply (success_same w k p s Sh). assumption. }
    { rewrite (sh_rest _ _ _ _ Sh) in Hto. apply Z.eqb_neq in Hto. destruct (proj2 (proj2 Hflags)); lia. }
    { rewrite (left_same w k p s Hc Sh) in Hpos. exact Hpos. }
    eapply played; try eassumption.
    intros ms s2 p' _ Hst Hpl _. cbn in Hst. rewrite decide_True in Hst by reflexivity. destruct Hst as [n ->].
    apply plays_one in Hpl. inversion Hpl; subst. auto.
Qed.
End Ready.

(** * Examples *)

#[local] Existing Instance toy.
Definition played_by (w : world) (P : presale -> sale -> Prop) : Prop :=
  exists p s, reachable w /\ w_presales w !! k1 = Some p /\ shows w k1 p s /\ P p s.

Lemma shown w k p : reachable w -> w_presales w !! k = Some p -> exists s, shows w k p s.
Proof. intros [l ->] Hp. destruct (C102_plays_by_the_rules l k p Hp) as (s0 & ms & s & _ & _ & Hs & _). eauto. Qed.

(** Two legal moves with their accounts in order. *)
Lemma fees_open w p s m :
  reachable w -> w_presales w !! k1 = Some p -> shows w k1 p s -> succeeded p (w_now w) -> p_fee_col p = 0 ->
  is_wallet (p_owner p) = true ->
  receivable w (PQuoteVault k1) (p_qmint p) creator_q SplToken TransferHookQuote [] noh m ->
  exists n s', plays1 (rules_of p) s (Fees n) s' /\ ready w k1 p s (Fees n).
Proof.
  intros Hw Hp Hs Hsu Hcol Hsg Hrc. eexists _, _. split.
  - apply pl_fees; [|rewrite (sh_fees _ _ _ _ Hs), Hcol; reflexivity]. apply (success_same _ _ _ _ Hs). assumption.
  - split; [assumption|]. exists creator_q, SplToken, noh, m. exact Hrc.
Qed.
Lemma refund_open w p s e m :
  reachable w -> w_presales w !! k1 = Some p -> shows w k1 p s -> succeeded p (w_now w) -> p_mode p = 1 ->
  w_escrows w !! esc bob 0 = Some e -> e_presale e = k1 -> e_withdrawn e = 0 -> is_wallet (e_owner e) = true ->
  receivable w (PQuoteVault k1) (p_qmint p) bob_q SplToken TransferHookQuote [] noh m ->
  exists n s', plays1 (rules_of p) s (Refund (esc bob 0) n) s' /\ ready w k1 p s (Refund (esc bob 0) n).
Proof.
  intros Hw Hp Hs Hsu Hm He Hk Hfl Hsg Hrc.
  pose proof (q_cfg _ _ _ (i_presales _ (reachable_inv _ Hw) _ _ Hp)) as Hc.
  assert (Hx : sl_seats s !! esc bob 0 = Some (seat_of e)).
  { rewrite (sh_seats _ _ _ _ Hs). apply seats_in; assumption. }
  eexists _, _. split.
  - eapply pl_refund; [exact Hx|cbn; rewrite Hfl; reflexivity|]. right.
    split; [apply (success_same _ _ _ _ Hs); assumption|apply (kind_prorata k1 p Hc); assumption].
  - exists (e_owner e), bob_q, SplToken, noh, m. split; [|exact Hrc]. exists (seat_of e). auto.
Qed.

(** After the end of a presale that took in too much: the creator may collect fees. *)
Example C103_example_fees : played_by w_pr_over (fun p s => exists n s',
  plays1 (rules_of p) s (Fees n) s' /\ ready w_pr_over k1 p s (Fees n)).
Proof.
  destruct C07_example as (p & m & Hp & Hmin & Hcol & _ & Hrc & _).
  assert (Hq : option_map (fun p => (is_wallet (p_owner p), p_end p <=? w_now w_pr_over)) (w_presales w_pr_over !! k1)
    = Some (true, true)) by (vm_compute; reflexivity).
  rewrite Hp in Hq. cbn [option_map] in Hq. apply (inj Some) in Hq. apply pair_equal_spec in Hq as [Hsg Hend].
  apply Z.leb_le in Hend.
  assert (Hw : reachable w_pr_over) by exact (reach pr_over). destruct (shown _ _ _ Hw Hp) as [s Hs].
  exists p, s. split; [exact Hw|]. split; [exact Hp|]. split; [exact Hs|].
  exact (fees_open _ _ _ _ Hw Hp Hs (conj Hend Hmin) Hcol Hsg Hrc).
Qed.

(** Later, with fees and raise taken: bob may have money back. *)
Example C103_example_refund : played_by w_pr_paid (fun p s => exists n s',
  plays1 (rules_of p) s (Refund (esc bob 0) n) s' /\ ready w_pr_paid k1 p s (Refund (esc bob 0) n)).
Proof.
  destruct C04_example as (p & e & r & m & Hp & He & _ & Hm & Hmin & Hend & _ & _ & Hfl & _ & _ & Hrc & _).
  assert (Hq : option_map (fun e => (is_wallet (e_owner e), bool_decide (e_presale e = k1))) (w_escrows w_pr_paid !! esc bob 0)
    = Some (true, true)) by (vm_compute; reflexivity).
  rewrite He in Hq. cbn [option_map] in Hq. apply (inj Some) in Hq. apply pair_equal_spec in Hq as [Hsg Hk].
  apply bool_decide_eq_true in Hk.
  assert (Hw : reachable w_pr_paid) by exact (reach pr_paid). destruct (shown _ _ _ Hw Hp) as [s Hs].
  exists p, s. split; [exact Hw|]. split; [exact Hp|]. split; [exact Hs|].
  exact (refund_open _ _ _ _ _ Hw Hp Hs (conj Hend Hmin) Hm He Hk Hfl Hsg Hrc).
Qed.
