(** C94: what a signed deposit or withdrawal can do, whatever happens before it is executed. *)
From Coq Require Import Lia.
From Verif Require Import Base Math State Handlers Token World Instr Exec Tactics Sums Spec Arith
  TokenFacts Inv Acct Funs Steps Init Preserve Reach Did Trans Flow Scenario P_Solvency P_History
  P_Payout P_Mints P_Immune P_Access.

(** What a deposit of [n] costs with the deposit fee of [r], before a transfer fee of the mint. *)
Definition cost_of (r : registry) (n : Z) : Z := div_ceil (n * 10000) (10000 - r_fee_bps r).
(** The token program takes nothing from transfers of the mint. *)
Definition feeless (m : mint) : Prop := m_prog m = SplToken \/ m_fee m = None.

Section WithCrypto.
Context `{Crypto}.

Lemma feeless_fee m n : feeless m -> tok_fee m n = 0.
Proof.
  unfold feeless, tok_fee, get_epoch_transfer_fee. intros [-> | ->]; [reflexivity|].
  destruct (m_prog m); reflexivity.
Qed.

Lemma feeless_stays w l k p m :
  reachable w -> w_presales w !! k = Some p -> w_mints w !! p_qmint p = Some m -> feeless m ->
  forall m', w_mints (run w l) !! p_qmint p = Some m' -> feeless m'.
Proof.
  intros Hw Hp Hm Hf m' Hm'.
  destruct (C79_mints_stay w l k p _ m Hw Hp (or_intror eq_refl) Hm) as (m1 & Hm1 & E1 & _ & E2 & _).
  assert (m1 = m') as -> by congruence. destruct Hf as [Hf|Hf]; [left; congruence|right; auto].
Qed.

(** The registry of an escrow key, and its terms, are the same at any later time. *)
Lemma same_terms w0 later k ek p0 e0 r0 p e r :
  reachable w0 ->
  w_presales w0 !! k = Some p0 -> w_escrows w0 !! ek = Some e0 -> e_presale e0 = k ->
  p_regs p0 !! Z.to_nat (e_idx e0) = Some r0 ->
  w_presales (run w0 later) !! k = Some p -> at_escrow (run w0 later) k ek p e r ->
  p_regs p !! Z.to_nat (e_idx e) = Some r ->
  e_owner e = e_owner e0 /\ e_idx e = e_idx e0 /\ terms_of p = terms_of p0 /\ r_fee_bps r = r_fee_bps r0.
Proof.
  intros Hw Hp0 He0 Hk0 Hr0 Hp Hat Hr.
  pose proof (s_key _ _ _ _ _ (at_esc _ _ _ _ _ _ Hat)) as K1.
  pose proof (s_key _ _ _ _ _ (at_esc _ _ _ _ _ _ (at_intro _ _ _ _ _ _ (reachable_inv _ Hw) Hp0 He0 Hk0 Hr0))) as K0.
  rewrite K1 in K0. injection K0 as Eo Ei.
  destruct (C15_terms_immutable w0 later k p0 Hw Hp0) as (p' & Hp' & Ht & _).
  assert (p' = p) as -> by congruence.
  split; [assumption|]. split; [assumption|]. split; [assumption|].
  assert (Em : map (fun r => (r_supply r, r_min_cap r, r_max_cap r, r_fee_bps r)) (p_regs p) =
               map (fun r => (r_supply r, r_min_cap r, r_max_cap r, r_fee_bps r)) (p_regs p0))
    by (unfold terms_of in Ht; congruence).
  apply (f_equal (fun l => l !! Z.to_nat (e_idx e0))) in Em. rewrite Ei in Hr.
  change (map ?f ?l) with (f <$> l) in Em. rewrite !list_lookup_fmap, Hr, Hr0 in Em. cbn in Em. congruence.
Qed.

Lemma cost_mono r n m : 0 <= r_fee_bps r < 10000 -> n <= m -> cost_of r n <= cost_of r m.
Proof.
  intros Hr Hn. unfold cost_of. rewrite !div_ceil_spec by lia.
  apply Z.div_le_mono; lia.
Qed.

(** Signed in [w0], executed in any later state: the deposit is positive and at most what was signed;
    deposit and fee together are what the fee rate of [w0] makes of it, hence at most what the payer
    could compute when signing; at a fixed price it is the cost of whole tokens at the price of [w0].
    The account that was named pays that amount plus the transfer fee of the moment; nothing but the
    vault receives, and only this escrow is credited. *)
Theorem C94_signed_deposit w0 later k ek p0 e0 r0 qv qm pt payer pr mx h w' l :
  reachable w0 ->
  w_presales w0 !! k = Some p0 -> w_escrows w0 !! ek = Some e0 -> e_presale e0 = k ->
  p_regs p0 !! Z.to_nat (e_idx e0) = Some r0 ->
  step (run w0 later) (IDeposit k qv qm ek pt payer pr mx h) = Ok (w', l) ->
  exists n net gross m e e',
    0 < n <= mx /\ net = cost_of r0 n /\ n <= net <= cost_of r0 mx /\
    (p_mode p0 = 0 -> exists x, n <= x <= mx /\ n = div_ceil (bought (p_raw0 p0) x * p_raw0 p0) scale) /\
    w_mints (run w0 later) !! p_qmint p0 = Some m /\ gross = net + tok_fee m gross /\ net <= gross /\
    moved (run w0 later) w' pt (PQuoteVault k) gross (tok_fee m gross) /\ pt <> PQuoteVault k /\
    w_escrows (run w0 later) !! ek = Some e /\ w_escrows w' !! ek = Some e' /\
    e_owner e = e_owner e0 /\ e_owner e' = e_owner e0 /\ e_idx e = e_idx e0 /\ e_idx e' = e_idx e0 /\
    e_deposit e' = e_deposit e + n /\ e_fee e' = e_fee e + (net - n) /\
    (forall x, x <> ek -> w_escrows w' !! x = w_escrows (run w0 later) !! x).
Proof.
  intros Hw Hp0 He0 Hk0 Hr0 Hs. set (w := run w0 later) in *.
  pose proof (reachable_run w0 later Hw) as Hwr. fold w in Hwr.
  pose proof (C38_depositor_pays _ _ _ _ _ _ _ _ _ _ _ _ Hwr Hs) as
    (p & e & r & m & t & p' & e' & n & fee & gross & Hp & Hp' & He & He' & Hk & Hr & Hm & Ht & _ & _ &
     Hn & Hfee & Hg & Hne & Hmv & Hb & Hd & Hf & _ & _ & Hoth & _).
  cbn in Hs. apply deposit_did in Hs; [|apply reachable_inv; assumption].
  destruct Hs as (p1 & p2 & e1 & r1 & m1 & n1 & fee1 & gross1 & w1 & lx & D). destruct D.
  assert (p1 = p) as -> by congruence. assert (e1 = e) as -> by congruence. assert (r1 = r) as -> by congruence.
  destruct dd_mint as [Eqm Hm1]. rewrite Eqm in Hm1. assert (m1 = m) as -> by congruence.
  assert (Ee : e' = esc_deposited e n1 fee1).
  { rewrite dd_world in He'. cbn in He'. rewrite lookup_insert in He'. congruence. }
  assert (n1 = n) as -> by (rewrite Ee in Hd; cbn in Hd; lia).
  assert (fee1 = fee) as -> by (rewrite Ee in Hf; cbn in Hf; lia).
  destruct (same_terms w0 later k ek p0 e0 r0 p e r Hw Hp0 He0 Hk0 Hr0 Hp dd_at Hr) as (Eo & Ei & Et & Ef).
  assert (E1 : p_qmint p = p_qmint p0) by (unfold terms_of in Et; congruence).
  assert (E2 : p_mode p = p_mode p0) by (unfold terms_of in Et; congruence).
  assert (E3 : p_raw0 p = p_raw0 p0) by (unfold terms_of in Et; congruence).
  assert (Hrb : 0 <= r_fee_bps r0 < 10000).
  { pose proof (at_cfg _ _ _ _ _ _ dd_at) as Hc. rewrite <- Ef.
    destruct (s_idx _ _ _ _ _ (at_esc _ _ _ _ _ _ dd_at)) as [Hi0 Hi1].
    destruct (c_regs _ _ Hc _ _ Hr) as [Hz|[Hz _]]; [unfold MAX_DEPOSIT_FEE_BPS in *; lia|].
    rewrite Z2Nat.id in Hz by lia. lia. }
  assert (Hnet : n + fee = cost_of r0 n) by (unfold cost_of; rewrite <- Ef; apply dd_fee).
  assert (Eg : gross = gross1).
  { pose proof (transfer_moved _ _ _ _ _ _ _ _ _ _ _ dd_transfer ltac:(rewrite Eqm; exact Hm) pt) as B1.
    assert (B2 : bal w' pt = bal w1 pt) by (rewrite dd_world; reflexivity).
    pose proof (Hmv pt) as B3. rewrite dd_vault in B1.
    rewrite !decide_False in B1, B3 by assumption. rewrite !decide_True in B1, B3 by reflexivity. lia. }
  exists n, (n + fee), gross, m, e, e'. rewrite <- E1, <- E2, <- E3.
  split_and!; try assumption; try lia.
  - rewrite Hnet. apply cost_mono; lia.
  - rewrite Ee. exact Eo.
  - rewrite Ee. exact Ei.
Qed.

(** If the quote token charges no transfers when the payer signs, the account is debited exactly
    deposit and fee, at most what the payer could compute when signing. *)
Theorem C94_signed_deposit_cost w0 later k ek p0 e0 r0 m0 qv qm pt payer pr mx h w' l :
  reachable w0 ->
  w_presales w0 !! k = Some p0 -> w_escrows w0 !! ek = Some e0 -> e_presale e0 = k ->
  p_regs p0 !! Z.to_nat (e_idx e0) = Some r0 -> w_mints w0 !! p_qmint p0 = Some m0 -> feeless m0 ->
  step (run w0 later) (IDeposit k qv qm ek pt payer pr mx h) = Ok (w', l) ->
  0 < bal (run w0 later) pt - bal w' pt <= cost_of r0 mx /\
  bal w' (PQuoteVault k) - bal (run w0 later) (PQuoteVault k) = bal (run w0 later) pt - bal w' pt /\
  forall a, a <> pt -> a <> PQuoteVault k -> bal w' a = bal (run w0 later) a.
Proof.
  intros Hw Hp0 He0 Hk0 Hr0 Hm0 Hf Hs.
  destruct (C94_signed_deposit _ _ _ _ _ _ _ _ _ _ _ _ _ _ _ _ Hw Hp0 He0 Hk0 Hr0 Hs) as
    (n & net & gross & m & e & e' & Hn & _ & Hc & _ & Hm & Hg & _ & Hmv & Hne & _).
  pose proof (feeless_stays _ later _ _ _ Hw Hp0 Hm0 Hf _ Hm) as Hfm.
  rewrite (feeless_fee _ _ Hfm) in Hg, Hmv.
  pose proof (Hmv pt) as B1. rewrite decide_False, decide_True in B1 by auto.
  pose proof (Hmv (PQuoteVault k)) as B2. rewrite decide_False, decide_False, decide_True in B2 by auto.
  split; [lia|]. split; [lia|]. intros a Ha Hv. rewrite (Hmv a). rewrite !decide_False by auto. reflexivity.
Qed.

(** A signed withdrawal: at most what was asked for, all of it in a prorata presale or when
    everything is asked for, otherwise the cost of whole tokens at the price of [w0]; it leaves the
    vault for the named account and only this escrow, of the signer, is debited. *)
Theorem C94_signed_withdrawal w0 later k ek p0 e0 r0 qv qm ot owner pr mx h w' l :
  reachable w0 ->
  w_presales w0 !! k = Some p0 -> w_escrows w0 !! ek = Some e0 -> e_presale e0 = k ->
  p_regs p0 !! Z.to_nat (e_idx e0) = Some r0 ->
  step (run w0 later) (IWithdraw k qv qm ek ot owner pr mx h) = Ok (w', l) ->
  exists n m e e',
    0 < n <= mx /\ owner = e_owner e0 /\ p_mode p0 <> 2 /\
    (p_mode p0 = 1 -> n = mx) /\
    (p_mode p0 = 0 -> n = mx \/ n = div_ceil (bought (p_raw0 p0) mx * p_raw0 p0) scale) /\
    w_mints (run w0 later) !! p_qmint p0 = Some m /\
    moved (run w0 later) w' (PQuoteVault k) ot n (tok_fee m n) /\
    w_escrows (run w0 later) !! ek = Some e /\ w_escrows w' !! ek = Some e' /\
    (mx = e_deposit e -> n = mx) /\
    e_deposit e' = e_deposit e - n /\ e_fee e' = e_fee e /\
    (forall x, x <> ek -> w_escrows w' !! x = w_escrows (run w0 later) !! x).
Proof.
  intros Hw Hp0 He0 Hk0 Hr0 Hs. set (w := run w0 later) in *.
  pose proof (reachable_run w0 later Hw) as Hwr. fold w in Hwr.
  cbn in Hs. apply withdraw_did in Hs; [|apply reachable_inv; assumption].
  destruct Hs as (p & e & r & m & n & w1 & lx & D). destruct D.
  destruct dw_mint as [Eqm Hm]. rewrite Eqm in *.
  destruct (same_terms w0 later k ek p0 e0 r0 p e r Hw Hp0 He0 Hk0 Hr0 dw_presale dw_at dw_reg) as (Eo & Ei & Et & Ef).
  assert (E1 : p_qmint p = p_qmint p0) by (unfold terms_of in Et; congruence).
  assert (E2 : p_mode p = p_mode p0) by (unfold terms_of in Et; congruence).
  assert (E3 : p_raw0 p = p_raw0 p0) by (unfold terms_of in Et; congruence).
  pose proof (transfer_moved _ _ _ _ _ _ _ _ _ _ _ dw_transfer Hm) as Hmv.
  rest_of dw_transfer. subst w'.
  exists n, m, e, (set_e_deposit (e_deposit e - n) e). rewrite <- E1, <- E2, <- E3.
  split_and!; try assumption; try lia; try congruence.
  - unfold withdrawals_on in dw_mode. intros Hx. rewrite Hx in dw_mode. destruct dw_mode as [?|[? _]]; lia.
  - eapply moved_ext; [|rewrite <- dw_vault; exact Hmv]. reflexivity.
  - apply lookup_insert.
  - reflexivity.
  - reflexivity.
  - intros x Hx. cbn. rewrite lookup_insert_ne by congruence. congruence.
Qed.

End WithCrypto.

#[local] Existing Instance toy.

Lemma accepted_cost w o a n :
  ok_step w o = true -> bal w a - bal (exec w o) a = n ->
  exists w' l, step w o = Ok (w', l) /\ bal w a - bal w' a = n.
Proof.
  unfold ok_step, exec. intros Hok. destruct (step w o) as [[w' l]|]; [|discriminate].
  intros Hn. exists w', l. split; [reflexivity|exact Hn].
Qed.

(** The maximum of a deposit is not a limit on the payment: the deposit fee comes on top ... *)
Definition signed_by_bob : op := dep bob bob_q bob 0 90.
Theorem C94_maximum_limits_payment_refuted :
  exists w, reachable w /\ exists w' l, step w signed_by_bob = Ok (w', l) /\ bal w bob_q - bal w' bob_q = 91.
Proof. exists w_pr_open. split; [apply reach|]. apply accepted_cost; vm_compute; reflexivity. Qed.

(** ... and so does a transfer fee, which the authority of the mint can raise after the payer has
    signed: the same deposit of 200, free of fees when signed, costs twice as much. *)
Definition tq_init : op :=
  IInitPresale base1 bmint qmint creator_b creator creator Token2022 Token2022
    (mkInitArgs (mkPreArgs 1000 500 1000 2000 0 1 0 0) (mkLocked 0 0 0 0 []) [mkRegArgs 1 1000 3000 0]) noh.
Definition tq_open : list op := [
  EClock 1000;
  ECreateMint bmint (plain Token2022 None); ECreateMint qmint (plain Token2022 (Some (mkFee 0 U64MAX)));
  ECreateToken creator_b bmint creator; ECreateToken alice_q qmint alice;
  EMintTo bmint creator_b 100000; EMintTo qmint alice_q 10000;
  tq_init; IEscrowPermissionless k1 alice alice ].
Definition tq_signed : op :=
  IDeposit k1 (PQuoteVault k1) qmint (esc alice 0) alice_q alice Token2022 200 noh.
Definition tq_raise : op := ESetFee qmint (mkFee 5000 U64MAX).
Theorem C94_payment_known_when_signed_refuted :
  exists w0, reachable w0 /\
    (exists w' l, step w0 tq_signed = Ok (w', l) /\ bal w0 alice_q - bal w' alice_q = 200) /\
    (exists w' l, step (run w0 [tq_raise]) tq_signed = Ok (w', l) /\
       bal (run w0 [tq_raise]) alice_q - bal w' alice_q = 400).
Proof.
  exists (run genesis tq_open). split; [apply reach|].
  split; apply accepted_cost; vm_compute; reflexivity.
Qed.

(** Bob signs a deposit at the beginning; others deposit and withdraw before it is executed. *)
Definition before_bob : list op := [dep alice alice_q alice 0 100; back alice alice_q 0 30; EClock 1500].
Definition C94_case (w : world) : bool :=
  match w_presales w !! k1, w_escrows w !! esc bob 0 with
  | Some p, Some e =>
      match p_regs p !! Z.to_nat (e_idx e), w_mints w !! p_qmint p with
      | Some r, Some m => beq_addr (e_presale e) k1 && bool_decide (m_prog m = SplToken) && (cost_of r 90 =? 91)
      | _, _ => false
      end
  | _, _ => false
  end.
Example C94_met :
  C94_case w_pr_open = true /\ ok_step (run w_pr_open before_bob) signed_by_bob = true /\
  ok_step (run w_pr_open before_bob) (back bob bob_q 0 90) = true.
Proof. vm_compute. auto. Qed.
