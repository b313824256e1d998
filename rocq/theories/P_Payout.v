(** C03-C08: what the payout instructions pay, and that they always can.

    For each instruction two kinds of theorem: whatever call is accepted pays exactly the specified
    amount ([…_exact]), and a call made by the right party in the right phase is accepted
    ([…_succeeds]), whatever happened before.  The conditions on the token side (accounts exist and
    are not frozen, the hook accounts are passed as the mint requires and the hook program does not
    reject) are the hypotheses [receivable]. *)
From Coq Require Import Lia.
From Verif Require Import Base Math State Handlers Token World Instr Exec Tactics Sums Spec Arith
  TokenFacts Inv Acct Funs Steps Init Preserve Reach Did Trans Flow Scenario P_Solvency P_History.

(** * A well-formed request to receive tokens from a vault *)

(** The remaining accounts announce the transfer hook accounts exactly when the mint has a hook,
    and the hook program accepts. *)
Definition hook_args (m : mint) (ty : accounts_type) (accts : list addr) (h : henv) : Prop :=
  match m_prog m, m_hook m with
  | Token2022, Some true => exists n, h_slices h = [mkSlice ty n] /\ 0 < n <= 255 /\
      n <= Z.of_nat (length accts) /\ h_ok h = true
  | _, _ => h_slices h = []
  end.

Record receivable (w : world) (v mk dst : addr) (pr : prog) (ty : accounts_type)
    (accts : list addr) (h : henv) (m : mint) : Prop := {
  rc_mint : w_mints w !! mk = Some m;
  rc_prog : m_prog m = pr;
  rc_vault : forall t, w_tokens w !! v = Some t -> t_frozen t = false;
  rc_dst : exists d, w_tokens w !! dst = Some d /\ t_mint d = mk /\ t_frozen d = false;
  rc_hook : hook_args m ty accts h
}.

(** * Successful evaluation, step by step *)

Lemma has_one_ok a b : a = b -> has_one a b = Ok tt.
Proof. intros ->. unfold has_one. apply require_true, beq_addr_refl. Qed.
Lemma signer_ok a : is_wallet a = true -> signer a = Ok tt.
Proof. intros Ha. unfold signer. apply require_true. assumption. Qed.
Lemma hook_args_decodes m ty accts h : hook_args m ty accts h -> henv_decodes h = true.
Proof.
  unfold hook_args, henv_decodes. intros Hh.
  assert (Hc : h_slices h = [] \/ exists n, h_slices h = [mkSlice ty n] /\ 0 < n <= 255).
  { destruct (m_prog m), (m_hook m) as [[]|]; try (left; exact Hh). right. destruct Hh as (n & H1 & H2 & _). eauto. }
  destruct Hc as [->|(n & -> & Hn)]; [reflexivity|]. cbn. rewrite andb_true_r.
  unfold in_u8. apply andb_true_intro. split; apply Z.leb_le; num; lia.
Qed.

Lemma auth_ok m s n : t_owner s = PAuth -> t_delegate s = None -> tok_authorize m s PAuth n = Ok None.
Proof.
  intros Ho Hd. unfold tok_authorize. rewrite Hd, Ho, beq_addr_refl, orb_true_r. reflexivity.
Qed.

(** The hook accounts handed to a transfer. *)
Definition hooks_of (ty : accounts_type) (x : parsed_hooks) : option (list addr) :=
  match ty with TransferHookBase => ph_base x | TransferHookQuote => ph_quote x end.

Lemma parse_live m ty accts h :
  hook_args m ty accts h ->
  exists hooks rest, parse_remaining_accounts_for_transfer_hook accts (h_slices h) [ty] = Ok (hooks, rest) /\
    check_hook_accounts m (hooks_of ty hooks) = Ok tt /\
    (has_transfer_hook_program m = true -> h_ok h = true).
Proof.
  unfold hook_args, check_hook_accounts, has_transfer_hook_program. intros Hh.
  destruct (m_prog m), (m_hook m) as [[]|];
    try (rewrite Hh; exists (mkParsed None None), accts; split; [reflexivity|]; destruct ty; split; [reflexivity|discriminate|reflexivity|discriminate]).
  destruct Hh as (n & -> & Hn & Hl & Hok).
  unfold parse_remaining_accounts_for_transfer_hook. cbn [parse_loop sl_type sl_len].
  rewrite bool_decide_eq_true_2 by (apply elem_of_list_singleton; reflexivity). cbn [negb].
  rewrite (proj2 (Z.eqb_neq _ _)) by lia. rewrite (proj2 (Z.ltb_ge _ _)) by lia.
  destruct ty; cbn; eexists _, _; (split; [reflexivity|]); split; auto.
Qed.

(** The memo and CPI guard checks, when they pass. *)
Lemma checked_pass w pr src mk dst auth n memo cpi ok m s d :
  w_mints w !! mk = Some m -> w_tokens w !! src = Some s -> w_tokens w !! dst = Some d ->
  (wants_memo m d = true -> memo = true) -> t_guard s = false ->
  tok_transfer_checked w pr src mk dst auth n memo cpi ok = tok_transfer w pr src mk dst auth n ok.
Proof.
  intros Hm Hs Hd Hmemo Hg. unfold tok_transfer_checked, get_mint, get_token. rewrite Hm, Hs, Hd. cbn [ok_or rbind].
  rewrite require_true by (destruct (wants_memo m d); [rewrite Hmemo; reflexivity|reflexivity]).
  cbn [rbind]. rewrite require_true; [reflexivity|].
  unfold guard_blocks. rewrite Hg, andb_false_r. destruct (m_prog m); reflexivity.
Qed.
Lemma to_user_eq w mk v dst pr n hooks ok m s d :
  w_mints w !! mk = Some m -> w_tokens w !! v = Some s -> w_tokens w !! dst = Some d -> t_guard s = false ->
  transfer_from_presale_to_user w mk v dst pr n true hooks ok =
  rbind (check_hook_accounts m hooks) (fun _ => tok_transfer w pr v mk dst PAuth n ok).
Proof.
  intros Hm Hs Hd Hg. unfold transfer_from_presale_to_user, sends_memo.
  assert (get_mint w mk = Ok m) as -> by (unfold get_mint; rewrite Hm; reflexivity).
  assert (get_token w dst = Ok d) as -> by (unfold get_token; rewrite Hd; reflexivity). cbn [rbind andb].
  destruct (check_hook_accounts m hooks); cbn [rbind]; [|reflexivity]. eapply checked_pass; eauto.
Qed.
Lemma from_user_eq w auth mk src v pr n hooks ok m s d :
  w_mints w !! mk = Some m -> w_tokens w !! src = Some s -> w_tokens w !! v = Some d ->
  t_memo d = false -> t_guard s = false ->
  transfer_from_user w auth mk src v pr n false hooks ok =
  rbind (check_hook_accounts m hooks) (fun _ => tok_transfer w pr src mk v auth n ok).
Proof.
  intros Hm Hs Hd Hmo Hg. unfold transfer_from_user, sends_memo.
  assert (get_mint w mk = Ok m) as -> by (unfold get_mint; rewrite Hm; reflexivity).
  assert (get_token w v = Ok d) as -> by (unfold get_token; rewrite Hd; reflexivity). cbn [rbind andb].
  destruct (check_hook_accounts m hooks); cbn [rbind]; [|reflexivity]. eapply checked_pass; eauto.
  unfold wants_memo. rewrite Hmo. destruct (m_prog m); discriminate.
Qed.

Lemma transfer_live w v mk dst pr ty accts h m b n :
  tokens_ok w -> vault_has w mk b v -> 0 <= n <= b -> receivable w v mk dst pr ty accts h m ->
  exists hooks rest w1 l,
    parse_remaining_accounts_for_transfer_hook accts (h_slices h) [ty] = Ok (hooks, rest) /\
    transfer_from_presale_to_user w mk v dst pr n true (hooks_of ty hooks) (h_ok h) = Ok (w1, l).
Proof.
  intros Hw (s & Hs & Hsm & Hso & (Hsd & _ & Hsg) & Hsb) Hn [Hm Hpr Hv (d & Hd & Hdm & Hdf) Hh].
  destruct (parse_live _ _ _ _ Hh) as (hooks & rest & Hparse & Hchk & Hok).
  exists hooks, rest. specialize (Hv _ Hs).
  rewrite (to_user_eq _ _ _ _ _ _ _ _ m s d) by assumption. rewrite Hchk. cbn [rbind].
  unfold tok_transfer, get_mint, get_token. rewrite Hm, Hs, Hd. cbn [ok_or rbind].
  rewrite require_true by (apply bool_decide_eq_true_2; assumption). cbn [rbind].
  rewrite require_true by (rewrite Hv, Hdf; reflexivity). cbn [rbind].
  rewrite require_true by (apply Z.leb_le; lia). cbn [rbind].
  rewrite require_true by (rewrite Hsm, Hdm, beq_addr_refl; reflexivity). cbn [rbind].
  rewrite auth_ok by assumption. cbn [rbind].
  destruct (beq_addr v dst) eqn:Hbe; [eexists _, _; split; [assumption|reflexivity]|].
  apply beq_addr_false in Hbe.
  pose proof (tok_fee_range m n (tk_fee _ Hw _ _ Hm) ltac:(lia)) as Hf.
  pose proof (tk_two_u64 w v s dst d Hw Hs Hd Hbe ltac:(congruence)) as Hu.
  rewrite require_true by (apply Z.leb_le; lia). cbn [rbind].
  rewrite require_true; [cbn [rbind]; eexists _, _; split; [assumption|reflexivity]|].
  destruct (has_transfer_hook_program m); [rewrite Hok; reflexivity|reflexivity].
Qed.

Ltac ok_bind := cbn [rbind ok_or]; cbv beta iota.
Ltac go_clock Hi := rewrite (clock_ok _ (proj1 (i_now _ Hi))); ok_bind.

Section WithCrypto.
Context `{Crypto}.

(** * Room for the amounts (no counter overflows) *)

Lemma escrow_sum_member E k f ek e :
  (forall a x, E !! a = Some x -> e_presale x = k -> 0 <= f x) ->
  E !! ek = Some e -> e_presale e = k -> f e <= escrow_sum E k f.
Proof.
  intros Hf He Hk. unfold escrow_sum.
  pose proof (msum_member (fun (_ : addr) x => if bool_decide (e_presale x = k) then f x else 0) E ek e He) as Hm.
  cbn in Hm. rewrite bool_decide_eq_true_2 in Hm by assumption. apply Hm.
  intros a x Hx. destruct (bool_decide (e_presale x = k)) eqn:Hb; [|lia].
  apply bool_decide_eq_true_1 in Hb. eauto.
Qed.

(** The refundable amount of an escrow not yet refunded is in the vault's reserve, and recording
    it does not overflow. *)
Lemma refund_room w k ek p e r :
  inv w -> at_escrow w k ek p e r -> w_escrows w !! ek = Some e -> e_presale e = k ->
  p_regs p !! Z.to_nat (e_idx e) = Some r -> p_end p <= w_now w -> e_withdrawn e = 0 ->
  0 <= refundable p r e /\ refundable p r e <= qneed p /\
  p_refunded p + refundable p r e <= p_deposit p + p_fee p.
Proof.
  intros Hi Hat He Hk Hr Hend Hfl. destruct Hat as [Hok Hc Ha Hb Hkp Hs Hra Hre].
  pose proof (c_caps _ _ Hc) as Hcp.
  assert (Hnn : forall a x, w_escrows w !! a = Some x -> e_presale x = k -> 0 <= e_deposit x /\ 0 <= e_fee x).
  { intros a x Hx Hxk. pose proof (a_esc _ _ _ _ Ha _ _ Hx Hxk) as Hsx.
    destruct (esc_reg _ _ _ _ _ Hc Hsx) as [rx Hrx].
    pose proof (esc_le_reg _ _ _ _ _ _ _ Ha Hx Hxk Hrx). lia. }
  pose proof (owed_quote_need _ _ _ _ Hc Ha) as Hneed. unfold owed_quote in Hneed.
  rewrite (proj2 (Z.ltb_ge _ _)) in Hneed by assumption.
  unfold refundable in *. destruct (Z.ltb_spec (p_deposit p) (p_min_cap p)) as [Hf|Hsu].
  - pose proof (escrow_sum_member (w_escrows w) k
      (fun e => if e_withdrawn e =? 1 then 0 else e_deposit e + e_fee e) ek e) as Hm.
    cbn beta in Hm. rewrite Hfl in Hm. cbn [Z.eqb] in Hm.
    assert (e_deposit e + e_fee e <= qneed p).
    { etransitivity; [apply Hm|exact Hneed]; try assumption. intros a x Hx Hxk.
      pose proof (Hnn a x Hx Hxk). destruct (e_withdrawn x =? 1); lia. }
    split; [lia|]. split; [assumption|].
    unfold qneed in *. destruct (a_failed _ _ _ _ Ha Hf) as [[Hcol _] _ _].
    rewrite Hcol in *. rewrite (proj2 (Z.leb_gt _ _)) in * by assumption. rewrite andb_false_r in *.
    cbn [Z.eqb] in *. lia.
  - set (f := fun e => if e_withdrawn e =? 1 then 0
         else match p_regs p !! Z.to_nat (e_idx e) with
              | Some r => share_deposit p r (e_deposit e) + share_fee p r (e_fee e)
              | None => 0 end) in *.
    assert (Hf0 : forall a x, w_escrows w !! a = Some x -> e_presale x = k -> 0 <= f x).
    { intros a x Hx Hxk. unfold f. destruct (e_withdrawn x =? 1); [lia|].
      destruct (p_regs p !! Z.to_nat (e_idx x)) as [rx|] eqn:Hrx; [|lia].
      pose proof (esc_le_reg _ _ _ _ _ _ _ Ha Hx Hxk Hrx).
      pose proof (books_reg_le _ _ _ _ _ Hb Hrx).
      pose proof (share_deposit_range p rx (e_deposit x)). pose proof (share_fee_range p rx (e_fee x)). lia. }
    pose proof (escrow_sum_member (w_escrows w) k f ek e Hf0 He Hk) as Hm.
    assert (Hfe : f e = share_deposit p r (e_deposit e) + share_fee p r (e_fee e)).
    { unfold f. rewrite Hfl, Hr. reflexivity. }
    rewrite Hfe in Hm.
    pose proof (share_deposit_range p r (e_deposit e)). pose proof (share_fee_range p r (e_fee e)).
    pose proof (fee_income_range k p _ Hc Hb).
    unfold qneed in *. rewrite (proj2 (Z.leb_le _ _)) in * by assumption. rewrite andb_true_r in *.
    destruct (p_cwd p =? 1), (p_fee_col p =? 1); lia.
Qed.

(** * Refunds: C03, C04 *)

Theorem C04_refund_exact w k qv qm ek ot owner pr h w' l :
  reachable w -> step w (IWithdrawRemaining k qv qm ek ot owner pr h) = Ok (w', l) ->
  exists p e r m,
    w_presales w !! k = Some p /\ w_escrows w !! ek = Some e /\ e_presale e = k /\ e_owner e = owner /\
    p_regs p !! Z.to_nat (e_idx e) = Some r /\ w_mints w !! p_qmint p = Some m /\
    e_withdrawn e = 0 /\
    ((failed p (w_now w) /\ refundable p r e = e_deposit e + e_fee e) \/
     (succeeded p (w_now w) /\ p_mode p = 1 /\
      refundable p r e = share_deposit p r (e_deposit e) + share_fee p r (e_fee e) /\
      0 <= share_deposit p r (e_deposit e) <= e_deposit e /\
      0 <= share_fee p r (e_fee e) <= e_fee e)) /\
    moved w w' (PQuoteVault k) ot (refundable p r e) (tok_fee m (refundable p r e)) /\
    w_escrows w' !! ek = Some (set_e_withdrawn 1 e).
Proof.
  intros Hw Hs. pose proof (reachable_inv _ Hw) as Hi. cbn in Hs.
  destruct (refund_did _ _ _ _ _ _ _ _ _ _ _ Hi Hs) as (p & e & r & m & w1 & lx & D). destruct D.
  destruct dr_mint as [-> Hm]. subst qv.
  exists p, e, r, m. repeat (split; [assumption|]).
  assert (Hre := at_reg _ _ _ _ _ _ dr_at). assert (Hra := at_range _ _ _ _ _ _ dr_at).
  assert (Hcp := c_caps _ _ (at_cfg _ _ _ _ _ _ dr_at)).
  pose proof (share_deposit_range p r (e_deposit e)). pose proof (share_fee_range p r (e_fee e)).
  split; [|split].
  - destruct dr_when as [Hf|[Hsu Hm1]].
    + left. split; [assumption|]. unfold refundable. destruct Hf as [_ Hf].
      rewrite (proj2 (Z.ltb_lt _ _)) by assumption. reflexivity.
    + right. split; [assumption|]. split; [assumption|]. unfold refundable. destruct Hsu as [_ Hsu].
      rewrite (proj2 (Z.ltb_ge _ _)) by assumption. split; [reflexivity|]. split; lia.
  - eapply (moved_ext _ w1); [subst w'; reflexivity|].
    eapply paid_moved; [apply (i_tokens _ Hi)|eassumption|assumption|lia].
  - subst w'. cbn. rewrite lookup_insert. reflexivity.
Qed.

Lemma refund_live w k p ek e r ot pr h m :
  inv w -> w_presales w !! k = Some p -> w_escrows w !! ek = Some e -> e_presale e = k ->
  p_regs p !! Z.to_nat (e_idx e) = Some r ->
  failed p (w_now w) \/ (succeeded p (w_now w) /\ p_mode p = 1) ->
  e_withdrawn e = 0 -> is_wallet (e_owner e) = true ->
  receivable w (PQuoteVault k) (p_qmint p) ot pr TransferHookQuote (h_accounts h) h m ->
  exists w' l, step w (IWithdrawRemaining k (PQuoteVault k) (p_qmint p) ek ot (e_owner e) pr h) = Ok (w', l).
Proof.
  intros Hi Hp He Hk Hr Hwhen Hfl Hsg Hrc.
  pose proof (at_intro _ _ _ _ _ _ Hi Hp He Hk Hr) as Hat.
  pose proof Hat as [Hok Hc Ha Hb Hkp Hs Hra Hre].
  assert (Hend : p_end p <= w_now w) by (destruct Hwhen as [[? _]|[[? _] _]]; assumption).
  destruct (refund_room _ _ _ _ _ _ Hi Hat He Hk Hr Hend Hfl) as (R0 & R1 & R2).
  assert (Hq : exists rd rf, escrow_remaining_quote p e (w_now w) = Ok (rd, rf) /\ rd + rf = refundable p r e).
  { unfold refundable. destruct Hwhen as [Hf|[Hsu Hm1]].
    - rewrite (remaining_failed k p Hc) by assumption. destruct Hf as [_ Hf].
      rewrite (proj2 (Z.ltb_lt _ _)) by assumption. eauto.
    - rewrite (remaining_completed k p _ Hc Hb e r) by (assumption || lia). destruct Hsu as [_ Hsu].
      rewrite (proj2 (Z.ltb_ge _ _)) by assumption. eauto. }
  destruct Hq as (rd & rf & Hq & Hsum).
  pose proof (b_u64 _ _ _ Hb) as Hu64.
  pose proof (q_qvault _ _ _ Hok) as Hvh. pose proof Hvh as (vt & Hvt & _).
  pose proof Hrc as [Hm Hpr Hvf Hd Hh]. destruct Hd as (d & Hd & Hdm & Hdf).
  destruct (transfer_live w (PQuoteVault k) (p_qmint p) ot pr TransferHookQuote (h_accounts h) h m _
    (refundable p r e) (i_tokens _ Hi) Hvh ltac:(lia) Hrc) as (hooks & rest & w1 & lx & Hparse & Htr).
  cbn [hooks_of] in Htr.
  cbn [step]. unfold withdraw_remaining_quote.
  rewrite require_true by (eapply hook_args_decodes; exact Hh). ok_bind. go_clock Hi.
  unfold get_presale, get_mint, get_token, get_escrow. rewrite Hp. ok_bind.
  rewrite (has_one_ok (p_qvault p)) by (apply (c_qvault _ _ Hc)). ok_bind.
  rewrite (has_one_ok (p_qmint p)) by reflexivity. ok_bind.
  rewrite Hm, Hvt, He. ok_bind.
  rewrite (has_one_ok (e_presale e)) by assumption. ok_bind.
  rewrite (has_one_ok (e_owner e)) by reflexivity. ok_bind.
  rewrite Hd. ok_bind. rewrite signer_ok by assumption. ok_bind.
  unfold esc_is_withdrawn. rewrite Hfl. cbn [Z.eqb negb]. rewrite require_true by reflexivity. ok_bind.
  rewrite Hq. ok_bind.
  rewrite safe_add_le by lia. ok_bind. rewrite Hsum.
  unfold presale_add_refunded, reg_add_refunded. rewrite (proj2 (get_reg_Ok _ _ _) Hr). ok_bind.
  rewrite safe_add_le by lia. ok_bind. rewrite safe_add_le by lia. ok_bind.
  rewrite Hparse. ok_bind.
  assert (Hpay : exists w1 lx, (if 0 <? refundable p r e
    then transfer_from_presale_to_user w (p_qmint p) (PQuoteVault k) ot pr (refundable p r e) true (ph_quote hooks) (h_ok h)
    else Ok (w, [])) = Ok (w1, lx)).
  { destruct (0 <? refundable p r e); eauto. }
  destruct Hpay as (w2 & lx2 & ->). ok_bind.
  rewrite excluded_ok by (try apply (tk_fee _ (i_tokens _ Hi) _ _ Hm); lia). ok_bind. eauto.
Qed.

Theorem C03_failed_refund_succeeds w k p ek e ot pr h m :
  reachable w -> w_presales w !! k = Some p -> failed p (w_now w) ->
  w_escrows w !! ek = Some e -> e_presale e = k -> e_withdrawn e = 0 -> is_wallet (e_owner e) = true ->
  receivable w (PQuoteVault k) (p_qmint p) ot pr TransferHookQuote (h_accounts h) h m ->
  exists w' l, step w (IWithdrawRemaining k (PQuoteVault k) (p_qmint p) ek ot (e_owner e) pr h) = Ok (w', l) /\
    moved w w' (PQuoteVault k) ot (e_deposit e + e_fee e) (tok_fee m (e_deposit e + e_fee e)) /\
    w_escrows w' !! ek = Some (set_e_withdrawn 1 e).
Proof.
  intros Hw Hp Hf He Hk Hfl Hsg Hrc. pose proof (reachable_inv _ Hw) as Hi.
  destruct (at_exists _ _ _ _ _ Hi Hp He Hk) as [r Hr].
  destruct (refund_live _ _ _ _ _ _ _ _ _ _ Hi Hp He Hk Hr (or_introl Hf) Hfl Hsg Hrc) as (w' & l & Hs).
  exists w', l. split; [assumption|].
  destruct (C04_refund_exact _ _ _ _ _ _ _ _ _ _ _ Hw Hs)
    as (p' & e' & r' & m' & Hp' & He' & _ & _ & Hr' & Hm' & _ & Hc & Hmv & Hfin).
  assert (p' = p) as -> by congruence. assert (e' = e) as -> by congruence.
  assert (m' = m) as -> by (pose proof (rc_mint _ _ _ _ _ _ _ _ _ Hrc); congruence).
  destruct Hc as [[_ Heq]|[[_ Hsu] _]]; [|destruct Hf; lia]. rewrite Heq in Hmv. auto.
Qed.

Theorem C04_prorata_refund_succeeds w k p ek e r ot pr h m :
  reachable w -> w_presales w !! k = Some p -> succeeded p (w_now w) -> p_mode p = 1 ->
  w_escrows w !! ek = Some e -> e_presale e = k -> p_regs p !! Z.to_nat (e_idx e) = Some r ->
  e_withdrawn e = 0 -> is_wallet (e_owner e) = true ->
  receivable w (PQuoteVault k) (p_qmint p) ot pr TransferHookQuote (h_accounts h) h m ->
  exists w' l, step w (IWithdrawRemaining k (PQuoteVault k) (p_qmint p) ek ot (e_owner e) pr h) = Ok (w', l) /\
    let n := share_deposit p r (e_deposit e) + share_fee p r (e_fee e) in
    moved w w' (PQuoteVault k) ot n (tok_fee m n) /\
    w_escrows w' !! ek = Some (set_e_withdrawn 1 e).
Proof.
  intros Hw Hp Hf Hm1 He Hk Hr Hfl Hsg Hrc. pose proof (reachable_inv _ Hw) as Hi.
  destruct (refund_live _ _ _ _ _ _ _ _ _ _ Hi Hp He Hk Hr (or_intror (conj Hf Hm1)) Hfl Hsg Hrc) as (w' & l & Hs).
  exists w', l. split; [assumption|].
  destruct (C04_refund_exact _ _ _ _ _ _ _ _ _ _ _ Hw Hs)
    as (p' & e' & r' & m' & Hp' & He' & _ & _ & Hr' & Hm' & _ & Hc & Hmv & Hfin).
  assert (p' = p) as -> by congruence. assert (e' = e) as -> by congruence.
  assert (r' = r) as -> by congruence.
  assert (m' = m) as -> by (pose proof (rc_mint _ _ _ _ _ _ _ _ _ Hrc); congruence).
  destruct Hc as [[[_ ?] _]|(_ & _ & Heq & _)]; [destruct Hf; lia|]. rewrite Heq in Hmv. auto.
Qed.

(** All refunds, made and to be made, are within the overflow plus the fee part refundable on it. *)
Theorem C04_refunds_within_overflow w k p :
  reachable w -> w_presales w !! k = Some p -> succeeded p (w_now w) ->
  p_refunded p + escrow_sum (w_escrows w) k (fun e =>
    if e_withdrawn e =? 1 then 0
    else match p_regs p !! Z.to_nat (e_idx e) with
         | Some r => share_deposit p r (e_deposit e) + share_fee p r (e_fee e)
         | None => 0 end)
  <= Z.max 0 (p_deposit p - p_max_cap p) + lsum (reg_fee_excess p) (p_regs p).
Proof.
  intros Hw Hp [_ Hs]. pose proof (i_presales _ (reachable_inv _ Hw) _ _ Hp) as Hok.
  pose proof (q_cfg _ _ _ Hok) as Hc. pose proof (q_acct _ _ _ Hok) as Ha.
  pose proof (a_books _ _ _ _ Ha) as Hb.
  set (f := fun e => _). fold (excess p).
  assert (Hsh : escrow_sum (w_escrows w) k f
    <= lsum (fun r => reg_excess p r + reg_fee_excess p r - r_refunded r) (p_regs p)).
  { apply (escrow_sum_le _ _ _ _ Hc Ha). intros i r Hr.
    pose proof (registry_refunds _ _ _ _ Hc Ha i r Hs Hr) as Hle.
    rewrite (esum_ext _ _ _ (unrefunded p r)); [lia|]. intros ek e He Hpk Hidx.
    unfold f, unrefunded. rewrite Hidx, Nat2Z.id, Hr. reflexivity. }
  rewrite lsum_sub, lsum_add in Hsh. rewrite <- (b_refunded _ _ _ Hb) in Hsh.
  pose proof (reg_excess_total _ _ _ _ Hc Ha). lia.
Qed.

(** * Claims: C05 *)

Theorem C05_claim_exact w k bv bm ek ot owner pr h w' l :
  reachable w -> step w (IClaim k bv bm ek ot owner pr h) = Ok (w', l) ->
  exists p e r m,
    w_presales w !! k = Some p /\ w_escrows w !! ek = Some e /\ e_presale e = k /\ e_owner e = owner /\
    p_regs p !! Z.to_nat (e_idx e) = Some r /\ w_mints w !! p_bmint p = Some m /\
    succeeded p (w_now w) /\
    let n := entitled p r (e_deposit e) (w_now w) - e_claimed e in
    0 <= n /\ moved w w' (PBaseVault k) ot n (tok_fee m n) /\
    exists e', w_escrows w' !! ek = Some e' /\ e_claimed e' = entitled p r (e_deposit e) (w_now w) /\
      e_pending e' = 0.
Proof.
  intros Hw Hs. pose proof (reachable_inv _ Hw) as Hi. cbn in Hs.
  destruct (claim_did _ _ _ _ _ _ _ _ _ _ _ Hi Hs) as (p & e & r & m & w1 & lx & D). destruct D.
  destruct dm_mint as [-> Hm]. subst bv. exists p, e, r, m. repeat (split; [assumption|]).
  cbv zeta. destruct dm_world as (p2 & e2 & -> & -> & ->).
  split.
  - eapply (moved_ext _ w1); [reflexivity|].
    eapply (paid_moved _ _ _ _ _ (due p r e (w_now w))); [apply (i_tokens _ Hi)|eassumption|assumption|lia].
  - eexists. cbn. rewrite lookup_insert. split; [reflexivity|]. cbn. unfold due. split; [lia|reflexivity].
Qed.

Lemma claim_room w k ek p e r :
  at_escrow w k ek p e r -> w_escrows w !! ek = Some e -> e_presale e = k ->
  p_regs p !! Z.to_nat (e_idx e) = Some r -> succeeded p (w_now w) -> 0 <= w_now w ->
  0 <= e_claimed e /\ 0 <= e_pending e /\ e_claimed e + e_pending e <= entitled p r (e_deposit e) (w_now w) /\
  due p r e (w_now w) <= bneed p /\ p_claimed p + due p r e (w_now w) <= p_supply p /\
  r_claimed r + due p r e (w_now w) <= p_supply p /\ p_supply p <= U64MAX /\
  entitled p r (e_deposit e) (w_now w) <= p_supply p.
Proof.
  intros Hat He Hk Hr [Hend Hsu] Hnow. destruct Hat as [Hok Hc Ha Hb Hkp Hs Hra Hre].
  assert (Hfin : forall a x, w_escrows w !! a = Some x -> e_presale x = k ->
    0 <= match p_regs p !! Z.to_nat (e_idx x) with Some r => final p r (e_deposit x) - e_claimed x | None => 0 end).
  { intros a x Hx Hxk. destruct (p_regs p !! Z.to_nat (e_idx x)) as [rx|] eqn:Hrx; [|lia].
    pose proof (a_esc _ _ _ _ Ha _ _ Hx Hxk) as Hsx.
    pose proof (esc_le_reg _ _ _ _ _ _ _ Ha Hx Hxk Hrx) as Hrax.
    pose proof (s_pending _ _ _ _ _ Hsx). destruct (s_reg _ _ _ _ _ Hsx _ Hrx) as (_ & _ & Hle).
    pose proof (books_reg_le _ _ _ _ _ Hb Hrx).
    pose proof (entitled_le_final k p _ rx (e_deposit x) (w_now w) Hc Hrx ltac:(lia) ltac:(lia)). lia. }
  pose proof (escrow_sum_member (w_escrows w) k _ ek e Hfin He Hk) as Hm. cbn beta in Hm. rewrite Hr in Hm.
  pose proof (owed_base_need _ _ _ _ Hc Ha) as Hneed. unfold owed_base in Hneed.
  rewrite (proj2 (Z.ltb_ge _ _)) in Hneed by assumption.
  rewrite (proj2 (Z.ltb_ge _ _)) in Hneed by assumption.
  pose proof (entitled_le_final k p _ r (e_deposit e) (w_now w) Hc Hr ltac:(lia) ltac:(lia)) as Hle.
  pose proof (final_le k p _ r (e_deposit e) Hc Hr ltac:(lia)) as Hfl.
  pose proof (total_sold_range k p _ Hc Hb) as Hts.
  destruct (s_reg _ _ _ _ _ Hs _ Hr) as (_ & _ & Hes).
  pose proof (s_claimed _ _ _ _ _ Hs). pose proof (s_pending _ _ _ _ _ Hs).
  pose proof (c_supply64 _ _ Hc).
  assert (Hso : sold p r <= total_sold p).
  { unfold total_sold. eapply lsum_member; [exact Hr|]. intros x Hx. apply elem_of_list_lookup in Hx as [i Hx].
    apply (sold_range k p i x Hc Hx). apply (b_nonneg _ _ _ Hb _ _ Hx). }
  set (S := escrow_sum _ _ _) in *. unfold due. unfold bneed, unsold in *.
  rewrite (proj2 (Z.ltb_ge (p_deposit p) _)) in * by assumption. rewrite andb_false_r in *.
  split; [assumption|]. split; [assumption|]. split; [assumption|].
  destruct (p_unsold_done p =? 1); repeat split; lia.
Qed.

Lemma claim_live w k p ek e ot pr h m :
  inv w -> w_presales w !! k = Some p -> succeeded p (w_now w) ->
  w_escrows w !! ek = Some e -> e_presale e = k -> is_wallet (e_owner e) = true ->
  receivable w (PBaseVault k) (p_bmint p) ot pr TransferHookBase (h_accounts h) h m ->
  exists w' l, step w (IClaim k (PBaseVault k) (p_bmint p) ek ot (e_owner e) pr h) = Ok (w', l).
Proof.
  intros Hi Hp Hsu He Hk Hsg Hrc. destruct (at_exists _ _ _ _ _ Hi Hp He Hk) as [r Hr].
  pose proof (at_intro _ _ _ _ _ _ Hi Hp He Hk Hr) as Hat.
  pose proof (i_now _ Hi) as Hnow.
  destruct (claim_room _ _ _ _ _ _ Hat He Hk Hr Hsu ltac:(lia)) as (R0 & R1 & R2 & R3 & R4 & R5 & R6 & R7).
  pose proof Hat as [Hok Hc Ha Hb Hkp Hs Hra Hre].
  destruct (handler_total _ _ Hc) as [hh Hhh].
  pose proof (cumulative_spec k p _ Hc Hb Hkp hh e r (w_now w) Hhh Hr ltac:(lia) ltac:(lia)) as Hcum.
  assert (Hupd : handler_update_pending hh p e (w_now w) =
    Ok (set_e_refreshed (w_now w) (set_e_pending (due p r e (w_now w)) e))).
  { unfold handler_update_pending. rewrite Hcum. ok_bind. unfold esc_sum_claimed_pending, esc_accumulate.
    rewrite safe_add_le by lia. ok_bind. rewrite safe_sub_le by lia. ok_bind.
    rewrite safe_add_le by lia. ok_bind. unfold due. do 3 f_equal. lia. }
  pose proof (q_bvault _ _ _ Hok) as Hvh. pose proof Hvh as (vt & Hvt & _).
  pose proof Hrc as [Hm Hpr Hvf Hd Hh]. destruct Hd as (d & Hd & Hdm & Hdf).
  assert (Hdue : 0 <= due p r e (w_now w)) by (unfold due; lia).
  destruct (transfer_live w (PBaseVault k) (p_bmint p) ot pr TransferHookBase (h_accounts h) h m _
    (due p r e (w_now w)) (i_tokens _ Hi) Hvh ltac:(lia) Hrc) as (hooks & rest & w1 & lx & Hparse & Htr).
  cbn [hooks_of] in Htr.
  cbn [step]. unfold claim.
  rewrite require_true by (eapply hook_args_decodes; exact Hh). ok_bind. go_clock Hi.
  unfold get_presale, get_mint, get_token, get_escrow. rewrite Hp. ok_bind.
  rewrite (has_one_ok (p_bvault p)) by (apply (c_bvault _ _ Hc)). ok_bind.
  rewrite (has_one_ok (p_bmint p)) by reflexivity. ok_bind.
  rewrite Hm, Hvt, He. ok_bind.
  rewrite (has_one_ok (e_presale e)) by assumption. ok_bind.
  rewrite (has_one_ok (e_owner e)) by reflexivity. ok_bind.
  rewrite Hd. ok_bind. rewrite signer_ok by assumption. ok_bind.
  rewrite (succeeded_progress k p Hc) by assumption. cbn [beq_progress].
  rewrite require_true by reflexivity. ok_bind. rewrite Hhh. ok_bind. rewrite Hupd. ok_bind.
  change (e_pending (set_e_refreshed (w_now w) (set_e_pending (due p r e (w_now w)) e)))
    with (due p r e (w_now w)).
  assert (Hpay : exists x, (if 0 <? due p r e (w_now w) then
      let* '(p2, e2) := presale_claim p (set_e_refreshed (w_now w) (set_e_pending (due p r e (w_now w)) e)) in
      let* '(hooks, _) := parse_remaining_accounts_for_transfer_hook (h_accounts h)
                            (h_slices h) [TransferHookBase] in
      let* '(w1, fx) := transfer_from_presale_to_user w (p_bmint p) (PBaseVault k) ot pr (due p r e (w_now w))
                          true (ph_base hooks) (h_ok h) in
      Ok (p2, e2, w1, fx)
    else Ok (p, set_e_refreshed (w_now w) (set_e_pending (due p r e (w_now w)) e), w, [])) = Ok x).
  { destruct (0 <? due p r e (w_now w)); [|eauto].
    unfold presale_claim, esc_claim, reg_add_claimed. cbn [e_idx set_e_refreshed set_e_pending].
    rewrite (proj2 (get_reg_Ok _ _ _) Hr). ok_bind.
    cbn [e_claimed e_pending set_e_refreshed set_e_pending].
    rewrite safe_add_le by (unfold due; lia). ok_bind.
    rewrite safe_add_le by lia. ok_bind. rewrite safe_add_le by lia. ok_bind.
    rewrite Hparse. ok_bind. rewrite Htr. ok_bind. eauto. }
  destruct Hpay as ([[[p2 e2] w2] lx2] & Hpay). rewrite Hpay. ok_bind.
  rewrite excluded_ok by (try apply (tk_fee _ (i_tokens _ Hi) _ _ Hm); lia). ok_bind. eauto.
Qed.

Theorem C05_claim_succeeds w k p ek e r ot pr h m :
  reachable w -> w_presales w !! k = Some p -> succeeded p (w_now w) ->
  w_escrows w !! ek = Some e -> e_presale e = k -> p_regs p !! Z.to_nat (e_idx e) = Some r ->
  is_wallet (e_owner e) = true ->
  receivable w (PBaseVault k) (p_bmint p) ot pr TransferHookBase (h_accounts h) h m ->
  exists w' l, step w (IClaim k (PBaseVault k) (p_bmint p) ek ot (e_owner e) pr h) = Ok (w', l) /\
    let n := entitled p r (e_deposit e) (w_now w) - e_claimed e in
    moved w w' (PBaseVault k) ot n (tok_fee m n) /\
    exists e', w_escrows w' !! ek = Some e' /\ e_claimed e' = entitled p r (e_deposit e) (w_now w).
Proof.
  intros Hw Hp Hsu He Hk Hr Hsg Hrc. pose proof (reachable_inv _ Hw) as Hi.
  destruct (claim_live _ _ _ _ _ _ _ _ _ Hi Hp Hsu He Hk Hsg Hrc) as (w' & l & Hs).
  exists w', l. split; [assumption|].
  destruct (C05_claim_exact _ _ _ _ _ _ _ _ _ _ _ Hw Hs)
    as (p' & e' & r' & m' & Hp' & He' & _ & _ & Hr' & Hm' & _ & _ & Hmv & e2 & He2 & Hc2 & _).
  assert (p' = p) as -> by congruence. assert (e' = e) as -> by congruence.
  assert (r' = r) as -> by congruence.
  assert (m' = m) as -> by (pose proof (rc_mint _ _ _ _ _ _ _ _ _ Hrc); congruence).
  cbv zeta. eauto.
Qed.

(** * Creator withdrawal: C06 *)

(** What the creator receives: the raise after success, the whole supply after failure. *)
Theorem C06_creator_withdraw_exact w k ot owner pr h w' l :
  reachable w -> step w (ICreatorWithdraw k ot owner pr h) = Ok (w', l) ->
  exists p m,
    w_presales w !! k = Some p /\ p_owner p = owner /\ is_wallet owner = true /\ p_cwd p = 0 /\
    w_presales w' !! k = Some (set_p_cwd 1 p) /\
    ((succeeded p (w_now w) /\ w_mints w !! p_qmint p = Some m /\
      let n := Z.min (p_deposit p) (p_max_cap p) in moved w w' (PQuoteVault k) ot n (tok_fee m n)) \/
     (failed p (w_now w) /\ w_mints w !! p_bmint p = Some m /\
      moved w w' (PBaseVault k) ot (p_supply p) (tok_fee m (p_supply p)))).
Proof.
  intros Hw Hs. pose proof (reachable_inv _ Hw) as Hi. cbn in Hs.
  destruct (creator_did _ _ _ _ _ _ _ _ Hi Hs) as (p & m & w1 & lx & D). destruct D.
  exists p, m. repeat (split; [assumption|]). subst w'. split; [cbn; apply lookup_insert|].
  destruct dcw_what as [(Hsu & Hm & Htr & _)|(Hf & Hm & Htr & _)]; [left|right]; repeat (split; [assumption|]);
    try cbv zeta; (eapply (moved_ext _ w1); [reflexivity|]; eapply transfer_moved; eassumption).
Qed.

Lemma creator_room w k p :
  presale_ok w k p -> p_end p <= w_now w -> p_cwd p = 0 ->
  (p_min_cap p <= p_deposit p -> 0 <= raise p <= qneed p) /\
  (p_deposit p < p_min_cap p -> 0 <= p_supply p <= bneed p).
Proof.
  intros Hok Hend Hcw. pose proof (q_cfg _ _ _ Hok) as Hc. pose proof (q_acct _ _ _ Hok) as Ha.
  pose proof (a_books _ _ _ _ Ha) as Hb. pose proof (c_caps _ _ Hc) as Hcp.
  pose proof (books_totals _ _ _ Hb) as Htot.
  pose proof (owed_quote_need _ _ _ _ Hc Ha) as Hq. pose proof (owed_base_need _ _ _ _ Hc Ha) as Hbb.
  unfold owed_quote in Hq. unfold owed_base in Hbb. rewrite !(proj2 (Z.ltb_ge (w_now w) _)) in * by assumption.
  rewrite Hcw in *. cbn [Z.eqb] in *. split; intros Hcase.
  - rewrite !(proj2 (Z.ltb_ge (p_deposit p) _)) in * by assumption.
    assert (0 <= escrow_sum (w_escrows w) k (fun e =>
        if e_withdrawn e =? 1 then 0
        else match p_regs p !! Z.to_nat (e_idx e) with
             | Some r => share_deposit p r (e_deposit e) + share_fee p r (e_fee e)
             | None => 0
             end)).
    { apply msum_nonneg. intros a x Hx. destruct (bool_decide (e_presale x = k)) eqn:Hbd; [|lia].
      apply bool_decide_eq_true_1 in Hbd. destruct (e_withdrawn x =? 1); [lia|].
      destruct (p_regs p !! Z.to_nat (e_idx x)) as [rx|] eqn:Hrx; [|lia].
      pose proof (esc_le_reg _ _ _ _ _ _ _ Ha Hx Hbd Hrx). pose proof (books_reg_le _ _ _ _ _ Hb Hrx).
      pose proof (share_deposit_range p rx (e_deposit x)). pose proof (share_fee_range p rx (e_fee x)). lia. }
    pose proof (fee_income_range k p _ Hc Hb). unfold raise in *.
    destruct (p_fee_col p =? 1); lia.
  - rewrite !(proj2 (Z.ltb_lt (p_deposit p) _)) in * by assumption.
    pose proof (supply_nonneg _ _ Hc). lia.
Qed.

(** The remaining accounts of creator_withdraw start with the vault and the mint. *)
Theorem C06_creator_withdraw_succeeds w k p ot pr h rest m :
  reachable w -> w_presales w !! k = Some p -> p_end p <= w_now w -> p_cwd p = 0 ->
  is_wallet (p_owner p) = true ->
  (p_min_cap p <= p_deposit p -> h_accounts h = PQuoteVault k :: p_qmint p :: rest /\
    receivable w (PQuoteVault k) (p_qmint p) ot pr TransferHookQuote rest h m) ->
  (p_deposit p < p_min_cap p -> h_accounts h = PBaseVault k :: p_bmint p :: rest /\
    receivable w (PBaseVault k) (p_bmint p) ot pr TransferHookBase rest h m) ->
  exists w' l, step w (ICreatorWithdraw k ot (p_owner p) pr h) = Ok (w', l) /\
    (p_min_cap p <= p_deposit p ->
      let n := Z.min (p_deposit p) (p_max_cap p) in moved w w' (PQuoteVault k) ot n (tok_fee m n)) /\
    (p_deposit p < p_min_cap p ->
      moved w w' (PBaseVault k) ot (p_supply p) (tok_fee m (p_supply p))).
Proof.
  intros Hw Hp Hend Hcw Hsg Hok1 Hok2. pose proof (reachable_inv _ Hw) as Hi.
  pose proof (i_presales _ Hi _ _ Hp) as Hok. pose proof (q_cfg _ _ _ Hok) as Hc.
  destruct (creator_room _ _ _ Hok Hend Hcw) as [R1 R2].
  assert (Hlive : exists w' l, step w (ICreatorWithdraw k ot (p_owner p) pr h) = Ok (w', l)).
  { cbn [step]. unfold creator_withdraw.
    assert (Hdec : henv_decodes h = true).
    { destruct (Z.lt_ge_cases (p_deposit p) (p_min_cap p)) as [Hl|Hg].
      - destruct (Hok2 Hl) as [_ Hrc]. eapply hook_args_decodes, (rc_hook _ _ _ _ _ _ _ _ _ Hrc).
      - destruct (Hok1 Hg) as [_ Hrc]. eapply hook_args_decodes, (rc_hook _ _ _ _ _ _ _ _ _ Hrc). }
    rewrite require_true by exact Hdec. ok_bind. go_clock Hi. unfold get_presale. rewrite Hp. ok_bind.
    rewrite has_one_ok by reflexivity. ok_bind. rewrite signer_ok by assumption. ok_bind.
    destruct (Z.lt_ge_cases (p_deposit p) (p_min_cap p)) as [Hl|Hg].
    - rewrite (failed_progress k p Hc) by (split; assumption). cbn [beq_progress orb].
      rewrite require_true by reflexivity. ok_bind. unfold has_creator_withdrawn. rewrite Hcw. cbn [Z.eqb negb].
      rewrite require_true by reflexivity. ok_bind. destruct (Hok2 Hl) as [-> Hrc].
      pose proof (q_bvault _ _ _ Hok) as Hvh. pose proof Hvh as (vt & Hvt & _).
      destruct (transfer_live w _ _ _ _ _ _ h m _ (p_supply p) (i_tokens _ Hi) Hvh (R2 Hl) Hrc)
        as (hooks & rst & w1 & lx & Hparse & Htr). cbn [hooks_of] in Htr.
      unfold take_vault_and_mint, get_token, get_mint. rewrite Hvt. ok_bind.
      rewrite (rc_mint _ _ _ _ _ _ _ _ _ Hrc). ok_bind.
      rewrite (c_bvault _ _ Hc), !beq_addr_refl. rewrite !require_true by reflexivity. ok_bind.
      rewrite Hparse. ok_bind. change (beq_progress Failed Completed) with false. ok_bind.
      rewrite Htr. ok_bind.
      rewrite excluded_ok by (try apply (tk_fee _ (i_tokens _ Hi) _ _ (rc_mint _ _ _ _ _ _ _ _ _ Hrc)); apply (R2 Hl)).
      ok_bind. eauto.
    - rewrite (succeeded_progress k p Hc) by (split; assumption). cbn [beq_progress orb].
      rewrite require_true by reflexivity. ok_bind. unfold has_creator_withdrawn. rewrite Hcw. cbn [Z.eqb negb].
      rewrite require_true by reflexivity. ok_bind. destruct (Hok1 Hg) as [-> Hrc].
      pose proof (q_qvault _ _ _ Hok) as Hvh. pose proof Hvh as (vt & Hvt & _).
      destruct (transfer_live w _ _ _ _ _ _ h m _ (raise p) (i_tokens _ Hi) Hvh (R1 Hg) Hrc)
        as (hooks & rst & w1 & lx & Hparse & Htr). cbn [hooks_of] in Htr.
      unfold take_vault_and_mint, get_token, get_mint. rewrite Hvt. ok_bind.
      rewrite (rc_mint _ _ _ _ _ _ _ _ _ Hrc). ok_bind.
      rewrite (c_qvault _ _ Hc), !beq_addr_refl. rewrite !require_true by reflexivity. ok_bind.
      rewrite Hparse. ok_bind. change (beq_progress Completed Completed) with true. ok_bind.
      fold (raise p). rewrite Htr. ok_bind.
      rewrite excluded_ok by (try apply (tk_fee _ (i_tokens _ Hi) _ _ (rc_mint _ _ _ _ _ _ _ _ _ Hrc)); apply (R1 Hg)).
      ok_bind. eauto. }
  destruct Hlive as (w' & l & Hs). exists w', l. split; [assumption|].
  destruct (C06_creator_withdraw_exact _ _ _ _ _ _ _ _ Hw Hs) as (p' & m' & Hp' & _ & _ & _ & _ & Hcase).
  assert (p' = p) as -> by congruence.
  destruct Hcase as [([_ Hsu] & Hm & Hmv)|([_ Hf] & Hm & Hmv)].
  - split; [|intros; lia]. intros _. destruct (Hok1 Hsu) as [_ Hrc].
    assert (m' = m) as -> by (pose proof (rc_mint _ _ _ _ _ _ _ _ _ Hrc); congruence). assumption.
  - split; [intros; lia|]. intros _. destruct (Hok2 Hf) as [_ Hrc].
    assert (m' = m) as -> by (pose proof (rc_mint _ _ _ _ _ _ _ _ _ Hrc); congruence). assumption.
Qed.

(** * Fee collection: C07 *)

Theorem C07_fee_exact w k qv qm rcv owner pr h w' l :
  reachable w -> step w (ICollectFee k qv qm rcv owner pr h) = Ok (w', l) ->
  exists p m,
    w_presales w !! k = Some p /\ p_owner p = owner /\ is_wallet owner = true /\
    succeeded p (w_now w) /\ p_fee_col p = 0 /\ w_mints w !! p_qmint p = Some m /\
    w_presales w' !! k = Some (set_p_fee_col 1 p) /\
    let n := p_fee p - lsum (reg_fee_excess p) (p_regs p) in
    0 <= n <= p_fee p /\ moved w w' (PQuoteVault k) rcv n (tok_fee m n).
Proof.
  intros Hw Hs. pose proof (reachable_inv _ Hw) as Hi. cbn in Hs.
  destruct (fee_did _ _ _ _ _ _ _ _ _ _ Hi Hs) as (p & m & w1 & lx & D). destruct D.
  destruct dfe_mint as [-> Hm]. subst qv. exists p, m. repeat (split; [assumption|]).
  subst w'. split; [cbn; apply lookup_insert|]. cbv zeta.
  assert (Heq : p_fee p - lsum (reg_fee_excess p) (p_regs p) = fee_income p).
  { unfold fee_income. rewrite lsum_sub, <- (b_fee _ _ _ (a_books _ _ _ _ (q_acct _ _ _ dfe_ok))). reflexivity. }
  rewrite Heq. split; [assumption|]. eapply (moved_ext _ w1); [reflexivity|].
  eapply paid_moved; [apply (i_tokens _ Hi)|eassumption|assumption|lia].
Qed.

Lemma fee_room w k p :
  presale_ok w k p -> succeeded p (w_now w) -> p_fee_col p = 0 -> 0 <= fee_income p <= qneed p.
Proof.
  intros Hok [Hend Hsu] Hcol. pose proof (q_cfg _ _ _ Hok) as Hc. pose proof (q_acct _ _ _ Hok) as Ha.
  pose proof (a_books _ _ _ _ Ha) as Hb. pose proof (c_caps _ _ Hc) as Hcp.
  pose proof (books_totals _ _ _ Hb) as Htot.
  pose proof (owed_quote_need _ _ _ _ Hc Ha) as Hq.
  unfold owed_quote in Hq. rewrite (proj2 (Z.ltb_ge (w_now w) _)) in Hq by assumption.
  rewrite (proj2 (Z.ltb_ge (p_deposit p) _)) in Hq by assumption.
  rewrite Hcol in Hq. cbn [Z.eqb] in Hq.
  assert (0 <= escrow_sum (w_escrows w) k (fun e =>
      if e_withdrawn e =? 1 then 0
      else match p_regs p !! Z.to_nat (e_idx e) with
           | Some r => share_deposit p r (e_deposit e) + share_fee p r (e_fee e)
           | None => 0
           end)).
  { apply msum_nonneg. intros a x Hx. destruct (bool_decide (e_presale x = k)) eqn:Hbd; [|lia].
    apply bool_decide_eq_true_1 in Hbd. destruct (e_withdrawn x =? 1); [lia|].
    destruct (p_regs p !! Z.to_nat (e_idx x)) as [rx|] eqn:Hrx; [|lia].
    pose proof (esc_le_reg _ _ _ _ _ _ _ Ha Hx Hbd Hrx). pose proof (books_reg_le _ _ _ _ _ Hb Hrx).
    pose proof (share_deposit_range p rx (e_deposit x)). pose proof (share_fee_range p rx (e_fee x)). lia. }
  pose proof (fee_income_range k p _ Hc Hb). destruct (p_cwd p =? 1); lia.
Qed.

Theorem C07_fee_succeeds w k p rcv pr h m :
  reachable w -> w_presales w !! k = Some p -> succeeded p (w_now w) -> p_fee_col p = 0 ->
  is_wallet (p_owner p) = true ->
  receivable w (PQuoteVault k) (p_qmint p) rcv pr TransferHookQuote (h_accounts h) h m ->
  exists w' l, step w (ICollectFee k (PQuoteVault k) (p_qmint p) rcv (p_owner p) pr h) = Ok (w', l) /\
    let n := p_fee p - lsum (reg_fee_excess p) (p_regs p) in
    moved w w' (PQuoteVault k) rcv n (tok_fee m n).
Proof.
  intros Hw Hp Hsu Hcol Hsg Hrc. pose proof (reachable_inv _ Hw) as Hi.
  pose proof (i_presales _ Hi _ _ Hp) as Hok. pose proof (q_cfg _ _ _ Hok) as Hc.
  pose proof (q_acct _ _ _ Hok) as Ha.
  pose proof (fee_room _ _ _ Hok Hsu Hcol) as Hroom.
  pose proof (q_qvault _ _ _ Hok) as Hvh. pose proof Hvh as (vt & Hvt & _).
  pose proof Hrc as [Hm Hpr Hvf Hd Hh]. destruct Hd as (d & Hd & Hdm & Hdf).
  destruct (transfer_live w _ _ _ _ _ _ h m _ (fee_income p) (i_tokens _ Hi) Hvh Hroom Hrc)
    as (hooks & rst & w1 & lx & Hparse & Htr). cbn [hooks_of] in Htr.
  assert (Hlive : exists w' l, step w (ICollectFee k (PQuoteVault k) (p_qmint p) rcv (p_owner p) pr h) = Ok (w', l)).
  { cbn [step]. unfold creator_collect_fee.
    rewrite require_true by (eapply hook_args_decodes; exact Hh). ok_bind. go_clock Hi.
    unfold get_presale, get_mint, get_token. rewrite Hp. ok_bind.
    rewrite (has_one_ok (p_owner p)) by reflexivity. ok_bind.
    rewrite (has_one_ok (p_qmint p)) by reflexivity. ok_bind.
    rewrite (has_one_ok (p_qvault p)) by (apply (c_qvault _ _ Hc)). ok_bind.
    rewrite Hm, Hvt, Hd. ok_bind. rewrite signer_ok by assumption. ok_bind.
    rewrite (succeeded_progress k p Hc) by assumption. unfold is_fee_collected. rewrite Hcol.
    rewrite require_true by reflexivity. ok_bind.
    rewrite (collected_fee_spec k p _ Hc (a_books _ _ _ _ Ha) (a_caps _ _ _ _ Ha)). ok_bind.
    assert (Hpay : exists w1 lx, (if 0 <? fee_income p then
        let* '(hooks, _) := parse_remaining_accounts_for_transfer_hook (h_accounts h)
                              (h_slices h) [TransferHookQuote] in
        transfer_from_presale_to_user w (p_qmint p) (PQuoteVault k) rcv pr (fee_income p) true (ph_quote hooks) (h_ok h)
      else Ok (w, [])) = Ok (w1, lx)).
    { destruct (0 <? fee_income p); [|eauto]. rewrite Hparse. ok_bind. eauto. }
    destruct Hpay as (w2 & lx2 & ->). ok_bind.
    rewrite excluded_ok by (try apply (tk_fee _ (i_tokens _ Hi) _ _ Hm); lia). ok_bind. eauto. }
  destruct Hlive as (w' & l & Hs). exists w', l. split; [assumption|].
  destruct (C07_fee_exact _ _ _ _ _ _ _ _ _ _ Hw Hs) as (p' & m' & Hp' & _ & _ & _ & _ & Hm' & _ & _ & Hmv).
  assert (p' = p) as -> by congruence. assert (m' = m) as -> by congruence. assumption.
Qed.

(** * Unsold tokens: C08 *)

(** [n] tokens are burned from [v] and no other balance changes. *)
Definition burned (w w' : world) (v mk : addr) (n : Z) : Prop :=
  (forall a, bal w' a = if decide (a = v) then bal w a - n else bal w a) /\
  exists m m', w_mints w !! mk = Some m /\ w_mints w' !! mk = Some m' /\ m_supply m' = m_supply m - n.

Theorem C08_unsold_exact w k bv bm ct pr h w' l :
  reachable w -> step w (IUnsold k bv bm ct pr h) = Ok (w', l) ->
  exists p m,
    w_presales w !! k = Some p /\ succeeded p (w_now w) /\ p_unsold_done p = 0 /\
    w_mints w !! p_bmint p = Some m /\ w_presales w' !! k = Some (set_p_unsold_done 1 p) /\
    let n := p_supply p - lsum (sold p) (p_regs p) in
    0 < n /\
    ((p_unsold p = 1 /\ burned w w' (PBaseVault k) (p_bmint p) n) \/
     (p_unsold p <> 1 /\ ct = Ata (p_owner p) (p_bmint p) (m_prog m) /\
      (exists t, w_tokens w !! ct = Some t /\ t_owner t = p_owner p /\ t_mint t = p_bmint p) /\
      moved w w' (PBaseVault k) ct n (tok_fee m n))).
Proof.
  intros Hw Hs. pose proof (reachable_inv _ Hw) as Hi. cbn in Hs.
  destruct (unsold_did _ _ _ _ _ _ _ _ _ Hi Hs) as (p & m & w1 & lx & D). destruct D.
  destruct du_mint as [-> Hm]. subst bv. exists p, m. repeat (split; [assumption|]).
  subst w'. split; [cbn; apply lookup_insert|]. cbv zeta. fold (total_sold p). fold (unsold p).
  split; [assumption|]. destruct du_to as (Hct & Hpr & t & Ht & Hto).
  destruct du_what as [[Hu Hbn]|[Hu Htr]]; [left|right]; (split; [assumption|]).
  - split.
    + intros a. rewrite (bal_ext w1) by reflexivity. eapply burn_bal; eassumption.
    + apply tok_burn_inv in Hbn. destruct Hbn as (m0 & s & dl & Hm0 & _ & _ & _ & _ & _ & _ & -> & _).
      exists m0. eexists. split; [assumption|]. split; [cbn; apply lookup_insert|reflexivity].
  - split; [congruence|]. split.
    + exists t. split; [assumption|]. split; [assumption|].
      apply tok_transfer_inv in Htr. destruct Htr as (m0 & s & d & dl & _ & _ & Hd & _ & _ & _ & Hdm & _).
      congruence.
    + eapply (moved_ext _ w1); [reflexivity|]. eapply transfer_moved; eassumption.
Qed.

Lemma unsold_room w k p :
  presale_ok w k p -> succeeded p (w_now w) -> p_unsold_done p = 0 -> 0 <= unsold p <= bneed p.
Proof.
  intros Hok [Hend Hsu] Hdone. pose proof (q_cfg _ _ _ Hok) as Hc. pose proof (q_acct _ _ _ Hok) as Ha.
  pose proof (a_books _ _ _ _ Ha) as Hb. pose proof (total_sold_range k p _ Hc Hb) as Hts.
  pose proof (owed_base_need _ _ _ _ Hc Ha) as Hq.
  unfold owed_base in Hq. rewrite (proj2 (Z.ltb_ge (w_now w) _)) in Hq by assumption.
  rewrite (proj2 (Z.ltb_ge (p_deposit p) _)) in Hq by assumption.
  rewrite Hdone in Hq. cbn [Z.eqb] in Hq.
  assert (0 <= escrow_sum (w_escrows w) k (fun e =>
        match p_regs p !! Z.to_nat (e_idx e) with
        | Some r => final p r (e_deposit e) - e_claimed e
        | None => 0
        end)).
  { apply msum_nonneg. intros a x Hx. destruct (bool_decide (e_presale x = k)) eqn:Hbd; [|lia].
    apply bool_decide_eq_true_1 in Hbd.
    destruct (p_regs p !! Z.to_nat (e_idx x)) as [rx|] eqn:Hrx; [|lia].
    pose proof (a_esc _ _ _ _ Ha _ _ Hx Hbd) as Hsx.
    pose proof (esc_le_reg _ _ _ _ _ _ _ Ha Hx Hbd Hrx) as Hrax.
    pose proof (s_pending _ _ _ _ _ Hsx). destruct (s_reg _ _ _ _ _ Hsx _ Hrx) as (_ & _ & Hle).
    pose proof (books_reg_le _ _ _ _ _ Hb Hrx).
    pose proof (entitled_le_final k p _ rx (e_deposit x) (w_now w) Hc Hrx ltac:(lia) ltac:(lia)). lia. }
  unfold unsold in *. lia.
Qed.

Lemma burn_live w v mk pr n b m :
  vault_has w mk b v -> n <= b -> w_mints w !! mk = Some m -> m_prog m = pr -> m_native m = false ->
  (forall t, w_tokens w !! v = Some t -> t_frozen t = false) ->
  exists w1 l, tok_burn_cpi w pr v mk PAuth n = Ok (w1, l).
Proof.
  intros (s & Hs & Hsm & Hso & (Hsd & _ & Hsg) & Hsb) Hn Hm Hpr Hnat Hfr. unfold tok_burn_cpi, tok_burn, get_mint, get_token.
  rewrite Hm, Hs. ok_bind.
  rewrite require_true by (unfold guard_blocks; rewrite Hsg, andb_false_r; destruct (m_prog m); reflexivity). ok_bind.
  rewrite require_true by (rewrite Hnat; reflexivity). ok_bind.
  rewrite require_true by (apply bool_decide_eq_true_2; assumption). ok_bind.
  rewrite require_true by (rewrite (Hfr _ Hs); reflexivity). ok_bind.
  rewrite require_true by (apply Z.leb_le; lia). ok_bind.
  rewrite require_true by (rewrite Hsm; apply beq_addr_refl). ok_bind.
  rewrite auth_ok by assumption. ok_bind. eauto.
Qed.

(** Anybody can trigger the action: the call names no signer. The one thing that cannot be done is
    burning wrapped SOL (C100). *)
Theorem C08_unsold_succeeds w k p ct t h m :
  reachable w -> w_presales w !! k = Some p -> succeeded p (w_now w) -> p_unsold_done p = 0 ->
  0 < p_supply p - lsum (sold p) (p_regs p) -> (p_unsold p = 1 -> m_native m = false) ->
  ct = Ata (p_owner p) (p_bmint p) (m_prog m) -> w_tokens w !! ct = Some t -> t_owner t = p_owner p ->
  receivable w (PBaseVault k) (p_bmint p) ct (m_prog m) TransferHookBase (h_accounts h) h m ->
  exists w' l, step w (IUnsold k (PBaseVault k) (p_bmint p) ct (m_prog m) h) = Ok (w', l).
Proof.
  intros Hw Hp Hsu Hdone Hpos Hnat Hct Ht Hto Hrc. pose proof (reachable_inv _ Hw) as Hi.
  pose proof (i_presales _ Hi _ _ Hp) as Hok. pose proof (q_cfg _ _ _ Hok) as Hc.
  pose proof (q_acct _ _ _ Hok) as Ha.
  fold (total_sold p) in Hpos. fold (unsold p) in Hpos.
  pose proof (unsold_room _ _ _ Hok Hsu Hdone) as Hroom.
  pose proof (q_bvault _ _ _ Hok) as Hvh. pose proof Hvh as (vt & Hvt & _).
  pose proof Hrc as [Hm Hpr Hvf Hd Hh]. destruct Hd as (d & Hd & Hdm & Hdf).
  assert (d = t) as -> by congruence.
  destruct (transfer_live w _ _ _ _ _ _ h m _ (unsold p) (i_tokens _ Hi) Hvh Hroom Hrc)
    as (hooks & rst & w1 & lx & Hparse & Htr). cbn [hooks_of] in Htr.
  destruct (handler_total _ _ Hc) as [hh Hhh].
  cbn [step]. unfold perform_unsold_base_token_action.
  rewrite require_true by (eapply hook_args_decodes; exact Hh). ok_bind. go_clock Hi.
  unfold get_presale, get_mint, get_token. rewrite Hp. ok_bind.
  rewrite (has_one_ok (p_bvault p)) by (apply (c_bvault _ _ Hc)). ok_bind.
  rewrite (has_one_ok (p_bmint p)) by reflexivity. ok_bind.
  rewrite Hm, Ht. ok_bind.
  rewrite require_true.
  2:{ rewrite Hto, Hdm, bool_decide_eq_true_2 by reflexivity. rewrite Hct, !beq_addr_refl. reflexivity. }
  ok_bind. rewrite (succeeded_progress k p Hc) by assumption. rewrite require_true by reflexivity. ok_bind.
  unfold is_unsold_done. rewrite Hdone. rewrite require_true by reflexivity. ok_bind.
  rewrite Hhh. ok_bind. rewrite (unsold_spec k p _ Hc (a_books _ _ _ _ Ha) hh Hhh). ok_bind.
  rewrite require_true by (apply Z.ltb_lt; assumption). ok_bind.
  unfold uaction_of_u8. destruct (Z.eqb_spec (p_unsold p) 1) as [Hb|Hb].
  - destruct (burn_live w _ _ (m_prog m) (unsold p) _ m Hvh ltac:(lia) Hm eq_refl (Hnat Hb) Hvf) as (wb & lb & Hburn).
    rewrite Hburn. ok_bind. eauto.
  - rewrite Hparse. ok_bind. rewrite Htr. ok_bind. eauto.
Qed.


(** * Fee collection and the unsold action never get in the way *)

Lemma still_succeeded w l k p p' :
  reachable w -> w_presales w !! k = Some p -> succeeded p (w_now w) ->
  w_presales (run w l) !! k = Some p' -> succeeded p' (w_now (run w l)).
Proof.
  intros Hw Hp Hs Hp'. destruct (C16_outcome_final w l k p Hw Hp (proj1 Hs)) as (q & Hq & _ & _ & _ & _ & Ho & _).
  assert (q = p') as -> by congruence. apply Ho. assumption.
Qed.

Lemma after_fee w k qv qm rcv owner pr h w1 fx later p :
  reachable w -> step w (ICollectFee k qv qm rcv owner pr h) = Ok (w1, fx) ->
  w_presales (run w1 later) !! k = Some p ->
  reachable (run w1 later) /\ succeeded p (w_now (run w1 later)).
Proof.
  intros Hw Hs Hp. assert (Hw1 : reachable w1) by (eapply reachable_ok; eassumption).
  split; [apply reachable_run; assumption|].
  destruct (C07_fee_exact _ _ _ _ _ _ _ _ _ _ Hw Hs) as (p0 & m & _ & _ & _ & Hsu & _ & _ & Hp1 & _).
  destruct (does_now _ _ _ _ (step_does _ _ _ _ (reachable_inv _ Hw) Hs)) as [Hn _].
  eapply still_succeeded; [exact Hw1|exact Hp1| |exact Hp].
  destruct Hsu as [Ha Hb]. split; cbn; lia.
Qed.

Lemma after_unsold w k bv bm ct pr h w1 fx later p :
  reachable w -> step w (IUnsold k bv bm ct pr h) = Ok (w1, fx) ->
  w_presales (run w1 later) !! k = Some p ->
  reachable (run w1 later) /\ succeeded p (w_now (run w1 later)).
Proof.
  intros Hw Hs Hp. assert (Hw1 : reachable w1) by (eapply reachable_ok; eassumption).
  split; [apply reachable_run; assumption|].
  destruct (C08_unsold_exact _ _ _ _ _ _ _ _ _ Hw Hs) as (p0 & m & _ & Hsu & _ & _ & Hp1 & _).
  destruct (does_now _ _ _ _ (step_does _ _ _ _ (reachable_inv _ Hw) Hs)) as [Hn _].
  eapply still_succeeded; [exact Hw1|exact Hp1| |exact Hp].
  destruct Hsu as [Ha Hb]. split; cbn; lia.
Qed.

(** Whatever happens after the fee collection, refunds and the creator's withdrawal still succeed,
    for the full amounts. *)
Theorem C07_refund_after_fee w k qv qm rcv owner pr h w1 fx later p ek e r ot pr' h' m :
  reachable w -> step w (ICollectFee k qv qm rcv owner pr h) = Ok (w1, fx) ->
  let w2 := run w1 later in
  w_presales w2 !! k = Some p -> p_mode p = 1 -> w_escrows w2 !! ek = Some e -> e_presale e = k ->
  p_regs p !! Z.to_nat (e_idx e) = Some r ->
  e_withdrawn e = 0 -> is_wallet (e_owner e) = true ->
  receivable w2 (PQuoteVault k) (p_qmint p) ot pr' TransferHookQuote (h_accounts h') h' m ->
  exists w' l, step w2 (IWithdrawRemaining k (PQuoteVault k) (p_qmint p) ek ot (e_owner e) pr' h') = Ok (w', l) /\
    let n := share_deposit p r (e_deposit e) + share_fee p r (e_fee e) in
    moved w2 w' (PQuoteVault k) ot n (tok_fee m n).
Proof.
  intros Hw Hs w2 Hp Hm1 He Hk Hr Hfl Hsg Hrc. destruct (after_fee _ _ _ _ _ _ _ _ _ _ later _ Hw Hs Hp) as [Hw2 Hsu].
  destruct (C04_prorata_refund_succeeds _ _ _ _ _ _ _ _ _ _ Hw2 Hp Hsu Hm1 He Hk Hr Hfl Hsg Hrc)
    as (w' & l & Hst & Hmv & _). eauto.
Qed.

Theorem C07_creator_after_fee w k qv qm rcv owner pr h w1 fx later p ot pr' h' rest m :
  reachable w -> step w (ICollectFee k qv qm rcv owner pr h) = Ok (w1, fx) ->
  let w2 := run w1 later in
  w_presales w2 !! k = Some p -> p_cwd p = 0 -> is_wallet (p_owner p) = true ->
  h_accounts h' = PQuoteVault k :: p_qmint p :: rest ->
  receivable w2 (PQuoteVault k) (p_qmint p) ot pr' TransferHookQuote rest h' m ->
  exists w' l, step w2 (ICreatorWithdraw k ot (p_owner p) pr' h') = Ok (w', l) /\
    let n := Z.min (p_deposit p) (p_max_cap p) in moved w2 w' (PQuoteVault k) ot n (tok_fee m n).
Proof.
  intros Hw Hs w2 Hp Hcw Hsg Hh Hrc. destruct (after_fee _ _ _ _ _ _ _ _ _ _ later _ Hw Hs Hp) as [Hw2 [Hend Hsu]].
  destruct (C06_creator_withdraw_succeeds w2 k p ot pr' h' rest m Hw2 Hp Hend Hcw Hsg) as (w' & l & Hst & Hmv & _).
  - auto.
  - intros; lia.
  - exists w', l. auto.
Qed.

(** Whatever happens after the unsold tokens left, every claim still succeeds for the full amount. *)
Theorem C08_claim_after_unsold w k bv bm ct pr h w1 fx later p ek e r ot pr' h' m :
  reachable w -> step w (IUnsold k bv bm ct pr h) = Ok (w1, fx) ->
  let w2 := run w1 later in
  w_presales w2 !! k = Some p -> w_escrows w2 !! ek = Some e -> e_presale e = k ->
  p_regs p !! Z.to_nat (e_idx e) = Some r -> is_wallet (e_owner e) = true ->
  receivable w2 (PBaseVault k) (p_bmint p) ot pr' TransferHookBase (h_accounts h') h' m ->
  exists w' l, step w2 (IClaim k (PBaseVault k) (p_bmint p) ek ot (e_owner e) pr' h') = Ok (w', l) /\
    let n := entitled p r (e_deposit e) (w_now w2) - e_claimed e in
    moved w2 w' (PBaseVault k) ot n (tok_fee m n).
Proof.
  intros Hw Hs w2 Hp He Hk Hr Hsg Hrc. destruct (after_unsold _ _ _ _ _ _ _ _ _ later _ Hw Hs Hp) as [Hw2 Hsu].
  destruct (C05_claim_succeeds _ _ _ _ _ _ _ _ _ _ Hw2 Hp Hsu He Hk Hr Hsg Hrc)
    as (w' & l & Hst & Hmv & _). eauto.
Qed.
End WithCrypto.

(** * Non-vacuity *)
#[local] Existing Instance toy.

(** [receivable] is met in the scenarios: without hooks ... *)
Lemma receivable_plain w v mk dst pr ty m :
  w_mints w !! mk = Some m -> m_prog m = pr -> m_hook m = None ->
  (forall t, w_tokens w !! v = Some t -> t_frozen t = false) ->
  (exists d, w_tokens w !! dst = Some d /\ t_mint d = mk /\ t_frozen d = false) ->
  receivable w v mk dst pr ty [] noh m.
Proof.
  intros Hm Hp Hh Hv Hd. constructor; try assumption. unfold hook_args. rewrite Hh.
  destruct (m_prog m); reflexivity.
Qed.
Ltac plain_ok := eapply receivable_plain;
  [vm_compute; reflexivity|vm_compute; reflexivity|vm_compute; reflexivity
  |intros t Ht; vm_compute in Ht; injection Ht as <-; reflexivity
  |eexists; split; [vm_compute; reflexivity|split; reflexivity]].

(** After failure: alice was refunded and the creator took the supply; bob is still paid 100 + 3. *)
Example C03_example :
  exists p e m, w_presales w_ff_paid !! k1 = Some p /\ w_escrows w_ff_paid !! esc bob 0 = Some e /\
    p_deposit p < p_min_cap p /\ p_end p <= w_now w_ff_paid /\ e_withdrawn e = 0 /\
    e_deposit e + e_fee e = 103 /\
    receivable w_ff_paid (PQuoteVault k1) (p_qmint p) bob_q SplToken TransferHookQuote [] noh m /\
    ok_step w_ff_paid (refund bob bob_q 0) = true /\
    bal (after w_ff_paid (refund bob bob_q 0)) bob_q = bal w_ff_paid bob_q + 103.
Proof.
  eexists _, _, _. split; [vm_compute; reflexivity|]. split; [vm_compute; reflexivity|].
  split; [vm_compute; reflexivity|]. split; [vm_compute; congruence|]. split; [reflexivity|].
  split; [reflexivity|]. split; [plain_ok|]. split; vm_compute; reflexivity.
Qed.

(** After success, alice refunded, raise and fees taken: bob still gets the share of the overflow. *)
Example C04_example :
  exists p e r m, w_presales w_pr_paid !! k1 = Some p /\ w_escrows w_pr_paid !! esc bob 0 = Some e /\
    p_regs p !! 0%nat = Some r /\ p_mode p = 1 /\ p_min_cap p <= p_deposit p /\ p_end p <= w_now w_pr_paid /\
    p_cwd p = 1 /\ p_fee_col p = 1 /\ e_withdrawn e = 0 /\
    0 < share_deposit p r (e_deposit e) /\ 0 < share_fee p r (e_fee e) /\
    receivable w_pr_paid (PQuoteVault k1) (p_qmint p) bob_q SplToken TransferHookQuote [] noh m /\
    ok_step w_pr_paid (refund bob bob_q 0) = true.
Proof.
  eexists _, _, _, _. split; [vm_compute; reflexivity|]. split; [vm_compute; reflexivity|].
  split; [vm_compute; reflexivity|]. split; [reflexivity|]. split; [vm_compute; congruence|].
  split; [vm_compute; congruence|]. split; [reflexivity|]. split; [reflexivity|]. split; [reflexivity|].
  split; [vm_compute; reflexivity|]. split; [vm_compute; reflexivity|].
  split; [plain_ok|]. vm_compute. reflexivity.
Qed.

(** Claiming after unsold tokens were burned and fees collected, with a transfer fee on the base token. *)
Example C05_example :
  exists p e r m, w_presales w_fx_paid !! k1 = Some p /\ w_escrows w_fx_paid !! esc bob 0 = Some e /\
    p_regs p !! 0%nat = Some r /\ p_unsold_done p = 1 /\ p_min_cap p <= p_deposit p /\
    0 < entitled p r (e_deposit e) (w_now w_fx_paid) - e_claimed e /\
    receivable w_fx_paid (PBaseVault k1) (p_bmint p) bob_b Token2022 TransferHookBase [] noh m /\
    ok_step w_fx_paid (getb bob bob_b 0) = true.
Proof.
  eexists _, _, _, _. split; [vm_compute; reflexivity|]. split; [vm_compute; reflexivity|].
  split; [vm_compute; reflexivity|]. split; [reflexivity|]. split; [vm_compute; congruence|].
  split; [vm_compute; reflexivity|]. split; [plain_ok|]. vm_compute. reflexivity.
Qed.

(** Creator withdrawal after the refunds of a failed presale and in a completed one. *)
Definition w_ff_back : world := after w_ff_over (refund alice alice_q 0).
Example C06_example :
  (exists p m, w_presales w_ff_back !! k1 = Some p /\ p_deposit p < p_min_cap p /\ p_cwd p = 0 /\
    receivable w_ff_back (PBaseVault k1) (p_bmint p) creator_b Token2022 TransferHookBase [] noh m) /\
  ok_step w_ff_back cwb = true /\
  (exists p m, w_presales w_pr_over !! k1 = Some p /\ p_min_cap p <= p_deposit p /\ p_cwd p = 0 /\
    receivable w_pr_over (PQuoteVault k1) (p_qmint p) creator_q SplToken TransferHookQuote [] noh m) /\
  ok_step w_pr_over cw = true /\ bal (after w_pr_over cw) creator_q = 1000.
Proof.
  split; [|split; [vm_compute; reflexivity|split; [|split; vm_compute; reflexivity]]].
  - eexists _, _. split; [vm_compute; reflexivity|]. split; [vm_compute; reflexivity|]. split; [reflexivity|plain_ok].
  - eexists _, _. split; [vm_compute; reflexivity|]. split; [vm_compute; congruence|]. split; [reflexivity|plain_ok].
Qed.

Example C07_example :
  exists p m, w_presales w_pr_over !! k1 = Some p /\ p_min_cap p <= p_deposit p /\ p_fee_col p = 0 /\
    0 < p_fee p - lsum (reg_fee_excess p) (p_regs p) < p_fee p /\
    receivable w_pr_over (PQuoteVault k1) (p_qmint p) creator_q SplToken TransferHookQuote [] noh m /\
    ok_step w_pr_over cf = true.
Proof.
  eexists _, _. split; [vm_compute; reflexivity|]. split; [vm_compute; congruence|]. split; [reflexivity|].
  split; [vm_compute; split; reflexivity|]. split; [plain_ok|]. vm_compute. reflexivity.
Qed.

Example C08_example :
  exists p t m, w_presales w_fx_over !! k1 = Some p /\ p_min_cap p <= p_deposit p /\ p_unsold_done p = 0 /\
    p_unsold p = 1 /\ 0 < p_supply p - lsum (sold p) (p_regs p) < p_supply p /\
    w_tokens w_fx_over !! creator_b = Some t /\ creator_b = Ata (p_owner p) (p_bmint p) (m_prog m) /\
    receivable w_fx_over (PBaseVault k1) (p_bmint p) creator_b (m_prog m) TransferHookBase [] noh m /\
    ok_step w_fx_over us = true.
Proof.
  eexists _, _, (mkMint Token2022 false [] (Some (mkFee 200 1000000)) None None false _ _).
  split; [vm_compute; reflexivity|]. split; [vm_compute; congruence|].
  split; [reflexivity|]. split; [reflexivity|]. split; [vm_compute; split; reflexivity|].
  split; [vm_compute; reflexivity|]. split; [vm_compute; reflexivity|]. split; [plain_ok|]. vm_compute. reflexivity.
Qed.

(** ... and with a transfer hook: the accounts of the hook are announced as one slice. *)
Example hook_args_example :
  hook_args (mkMint Token2022 false [] None (Some true) None false 0 0) TransferHookQuote [alice; bob]
    (mkHenv [alice; bob] [mkSlice TransferHookQuote 2] true).
Proof. exists 2. split; [reflexivity|]. split; [lia|]. split; [cbn; lia|reflexivity]. Qed.
