(** Vault balances: which steps can lower them, and which presale a step is about. *)
From Coq Require Import Lia.
From Verif Require Import Base Math State Handlers Token World Instr Exec Spec Tactics Sums Arith
  TokenFacts Inv Acct Funs Steps Init Preserve Reach Did Trans.

Lemma vault_bal w mk b v : vault_has w mk b v -> b <= bal w v.
Proof. intros (t & Ht & _ & _ & _ & Hb). unfold bal. rewrite Ht. assumption. Qed.
Lemma vault_self w mk b v : vault_has w mk b v -> vault_has w mk (bal w v) v.
Proof.
  intros (t & Ht & H1 & H2 & H3 & Hb). exists t. unfold bal. rewrite Ht. auto with lia.
Qed.

(** Token-side moves that never lower a vault. *)
Definition vault_safe (w w' : world) : Prop :=
  forall mk pr b v, mint_good w pr mk -> vault_has w mk b v -> bal w v <= bal w' v.

Lemma kept_safe w w' : vaults_kept w w' -> vault_safe w w'.
Proof. intros [Hk _] mk pr b v Hm Hv. eapply vault_bal, Hk, vault_self; eassumption. Qed.
Lemma safe_ext w w' : w_tokens w' = w_tokens w -> vault_safe w w'.
Proof. intros Ht mk pr b v _ _. rewrite (bal_ext _ _ _ Ht). lia. Qed.
Lemma safe_token w w' k t t' :
  w_tokens w !! k = Some t -> w_tokens w' = <[k := t']> (w_tokens w) -> t_amount t <= t_amount t' ->
  vault_safe w w'.
Proof.
  intros Ht Hw Ha mk pr b v _ _. unfold bal. rewrite Hw. destruct (decide (v = k)) as [->|Hne].
  - rewrite lookup_insert, Ht. assumption.
  - rewrite lookup_insert_ne by congruence. lia.
Qed.

(** * Exact movements *)

(** [n] tokens leave [src], [dst] receives them less the transfer fee [fee], and no other balance
    changes.  (A transfer from an account to itself moves nothing.) *)
Definition moved (w w' : world) (src dst : addr) (n fee : Z) : Prop :=
  forall a, bal w' a = if decide (src = dst) then bal w a
                       else if decide (a = src) then bal w a - n
                       else if decide (a = dst) then bal w a + (n - fee)
                       else bal w a.

Lemma moved_ext w w1 w2 src dst n fee :
  w_tokens w2 = w_tokens w1 -> moved w w1 src dst n fee -> moved w w2 src dst n fee.
Proof. intros Ht Hm a. rewrite (bal_ext _ _ a Ht). apply Hm. Qed.
Lemma transfer_moved w pr src mk dst auth n ok w' l m :
  tok_transfer w pr src mk dst auth n ok = Ok (w', l) -> w_mints w !! mk = Some m ->
  moved w w' src dst n (tok_fee m n).
Proof. intros Hx Hm a. eapply transfer_bal; eassumption. Qed.
Lemma paid_moved w pr src mk dst n ok w' l m :
  tokens_ok w -> paid w pr src mk dst n ok w' l -> w_mints w !! mk = Some m -> 0 <= n ->
  moved w w' src dst n (tok_fee m n).
Proof.
  intros Hw [[Hn Hx]|(Hn & -> & _)] Hm H0; [eapply transfer_moved; eassumption|].
  assert (n = 0) as -> by lia. intros a.
  pose proof (tok_fee_range m 0 (tk_fee _ Hw _ _ Hm) ltac:(lia)).
  repeat destruct (decide _); lia.
Qed.
Lemma moved_src w w' src dst n fee : moved w w' src dst n fee -> src <> dst -> bal w' src = bal w src - n.
Proof.
  intros Hm Hne. rewrite (Hm src). rewrite decide_False by assumption. rewrite decide_True by reflexivity.
  reflexivity.
Qed.

(** A single transfer effect of [n] out of [v] (none if [n = 0]), then the event. *)
Definition out_fx (l : list fx) (v dst mk : addr) (n fee : Z) (ev : event) : Prop :=
  l = (if n =? 0 then [] else [FxTransfer v dst PAuth mk n (if decide (v = dst) then 0 else fee)])
      ++ [FxEvent ev].

Lemma transfer_fx w pr src mk dst auth n ok w' l m :
  tok_transfer w pr src mk dst auth n ok = Ok (w', l) -> w_mints w !! mk = Some m ->
  l = [FxTransfer src dst auth mk n (if decide (src = dst) then 0 else tok_fee m n)].
Proof.
  intros Hx Hm. apply tok_transfer_inv in Hx as (m' & s & d & dl & Hm' & Hs & Hd & _ & _ & _ & _ & _ & _ & _ & Hc).
  assert (m' = m) as -> by congruence. destruct Hc as [(-> & _ & ->)|(Hne & _ & _ & _ & ->)].
  - rewrite decide_True by reflexivity. reflexivity.
  - rewrite decide_False by assumption. reflexivity.
Qed.
Lemma paid_fx w pr src mk dst n ok w' l m ev :
  paid w pr src mk dst n ok w' l -> w_mints w !! mk = Some m -> 0 <= n ->
  out_fx (l ++ [FxEvent ev]) src dst mk n (tok_fee m n) ev.
Proof.
  intros [[Hn Hx]|(Hn & _ & ->)] Hm H0; unfold out_fx.
  - rewrite (transfer_fx _ _ _ _ _ _ _ _ _ _ _ Hx Hm). destruct (Z.eqb_spec n 0); [lia|reflexivity].
  - destruct (Z.eqb_spec n 0); [reflexivity|lia].
Qed.

Section WithCrypto.
Context `{Crypto}.

Ltac binds Hs := repeat match type of Hs with
  | rbind _ _ = Ok _ => let u := fresh "u" in let Hu := fresh "Hu" in
      apply rbind_Ok in Hs; destruct Hs as [u [Hu Hs]]; cbv beta in Hs end.
Ltac fin Hs := apply Ok_inj in Hs; injection Hs as <- <-.

Lemma env_safe w o w' l : inv w -> env_op o = true -> step w o = Ok (w', l) -> vault_safe w w'.
Proof.
  intros Hi Ho Hs. destruct o; try discriminate Ho; cbn in Hs;
  unfold env_clock, env_create_mint, env_close_mint, env_create_token, env_close_token, env_transfer, env_burn,
    env_mint_to, env_approve, env_revoke, env_set_owner, env_set_memo, env_set_guard, env_freeze, env_set_fee, env_set_hook,
    env_withdraw_withheld, env_ok in Hs; binds Hs;
    try (fin Hs; apply safe_ext; reflexivity).
  - (* create token *) fin Hs. apply require_Ok in Hu0. clean_bool.
    intros mk0 pr b v _ (t & Ht & _). unfold bal. cbn. rewrite lookup_insert_ne by congruence. apply Z.le_refl.
  - (* close token *) fin Hs. apply ok_or_Ok in Hu. apply signer_not_auth in Hu0.
    apply require_Ok in Hu1. clean_bool.
    intros mk0 pr b v _ (t & Ht & _ & Hown & _). unfold bal. cbn.
    rewrite lookup_delete_ne by congruence. apply Z.le_refl.
  - (* transfer *) apply require_Ok in Hu. apply in_u64_iff in Hu. apply signer_not_auth in Hu0.
    apply checked_Ok in Hs. apply kept_safe. eapply tok_transfer_kept; [apply (i_tokens _ Hi)| |exact Hu0|exact Hs]. lia.
  - (* burn *) apply signer_not_auth in Hu0. apply kept_safe. eapply tok_burn_kept; eassumption.
  - (* mint to *) fin Hs. apply ok_or_Ok in Hu0. apply require_Ok in Hu1. unfold in_u64 in Hu1. clean_bool.
    eapply safe_token; [exact Hu0|reflexivity|cbn; lia].
  - fin Hs. apply ok_or_Ok in Hu. eapply safe_token; [exact Hu|reflexivity|cbn; lia].
  - fin Hs. apply ok_or_Ok in Hu. eapply safe_token; [exact Hu|reflexivity|cbn; lia].
  - fin Hs. apply ok_or_Ok in Hu. eapply safe_token; [exact Hu|reflexivity|cbn; lia].
  - fin Hs. apply ok_or_Ok in Hu. eapply safe_token; [exact Hu|reflexivity|cbn; lia].
  - fin Hs. apply ok_or_Ok in Hu. eapply safe_token; [exact Hu|reflexivity|cbn; lia].
  - fin Hs. apply ok_or_Ok in Hu. eapply safe_token; [exact Hu|reflexivity|cbn; lia].
  - (* withheld *) fin Hs. apply ok_or_Ok in Hu0. apply require_Ok in Hu1. unfold in_u64 in Hu1. clean_bool.
    eapply safe_token; [exact Hu0|reflexivity|cbn; lia].
Qed.

(** * Which vault a step takes tokens from *)

(** [takes w o w' v]: the step debits vault [v]. *)
Inductive takes (w : world) (o : op) (w' : world) (l : list fx) : addr -> Prop :=
| take_withdraw k qv qm ek ot owner pr mx h p e r m amount w1 lx :
    o = IWithdraw k qv qm ek ot owner pr mx h ->
    did_withdraw w k qv qm ek ot owner pr mx h w' l p e r m amount w1 lx ->
    takes w o w' l (PQuoteVault k)
| take_refund k qv qm ek ot owner pr h p e r m w1 lx :
    o = IWithdrawRemaining k qv qm ek ot owner pr h ->
    did_refund w k qv qm ek ot owner pr h w' l p e r m w1 lx -> takes w o w' l (PQuoteVault k)
| take_claim k bv bm ek ot owner pr h p e r m w1 lx :
    o = IClaim k bv bm ek ot owner pr h ->
    did_claim w k bv bm ek ot owner pr h w' l p e r m w1 lx -> takes w o w' l (PBaseVault k)
| take_creator_q k ot owner pr h p m w1 lx :
    o = ICreatorWithdraw k ot owner pr h -> did_creator w k ot owner pr h w' l p m w1 lx ->
    succeeded p (w_now w) -> takes w o w' l (PQuoteVault k)
| take_creator_b k ot owner pr h p m w1 lx :
    o = ICreatorWithdraw k ot owner pr h -> did_creator w k ot owner pr h w' l p m w1 lx ->
    failed p (w_now w) -> takes w o w' l (PBaseVault k)
| take_fee k qv qm rcv owner pr h p m w1 lx :
    o = ICollectFee k qv qm rcv owner pr h -> did_fee w k qv qm rcv owner pr h w' l p m w1 lx ->
    takes w o w' l (PQuoteVault k)
| take_unsold k bv bm ct pr h p m w1 lx :
    o = IUnsold k bv bm ct pr h -> did_unsold w k bv bm ct pr h w' l p m w1 lx ->
    takes w o w' l (PBaseVault k).

Lemma transfer_mint w pr src mk dst auth n ok w' l :
  tok_transfer w pr src mk dst auth n ok = Ok (w', l) -> exists m, w_mints w !! mk = Some m.
Proof. intros Hx. apply tok_transfer_inv in Hx as (m & s & d & dl & Hm & _). eauto. Qed.

(** A transfer signed by the program lowers only its source. *)
Lemma out_bal w pr src mk dst n ok w' l v :
  tokens_ok w -> 0 <= n -> tok_transfer w pr src mk dst PAuth n ok = Ok (w', l) -> v <> src ->
  bal w v <= bal w' v.
Proof.
  intros Hw Hn Hx Hne. destruct (transfer_mint _ _ _ _ _ _ _ _ _ _ Hx) as [m Hm].
  rewrite (transfer_bal _ _ _ _ _ _ _ _ _ _ _ Hx Hm v).
  pose proof (tok_fee_range m n (tk_fee _ Hw _ _ Hm) Hn).
  repeat destruct (decide _); try lia; congruence.
Qed.
Lemma paid_bal w pr src mk dst n ok w' l v :
  tokens_ok w -> paid w pr src mk dst n ok w' l -> v <> src -> bal w v <= bal w' v.
Proof.
  intros Hw [[Hn Hx]|(_ & -> & _)] Hne; [|lia]. eapply out_bal; try eassumption. lia.
Qed.
Lemma burn_out_bal w pr src mk auth n w' l v :
  tok_burn w pr src mk auth n = Ok (w', l) -> v <> src -> bal w v <= bal w' v.
Proof. intros Hx Hne. rewrite (burn_bal _ _ _ _ _ _ _ _ Hx v). rewrite decide_False by assumption. lia. Qed.

Theorem step_takes w o w' l k p v :
  inv w -> step w o = Ok (w', l) -> w_presales w !! k = Some p ->
  v = PQuoteVault k \/ v = PBaseVault k -> takes w o w' l v \/ bal w v <= bal w' v.
Proof.
  intros Hi Hs Hp Hv. pose proof (i_presales _ Hi _ _ Hp) as Hok. pose proof (i_tokens _ Hi) as Hw.
  assert (Hvault : exists mk pr b, mint_good w pr mk /\ vault_has w mk b v).
  { destruct Hv as [-> | ->].
    - exists (p_qmint p), (p_qprog p), (qneed p). split; apply Hok.
    - exists (p_bmint p), (p_bprog p), (bneed p). split; apply Hok. }
  destruct Hvault as (mk & pr & b & Hg & Hvh).
  destruct (env_op o) eqn:Ho.
  { right. eapply env_safe; eassumption. }
  pose proof (step_does _ _ _ _ Hi Hs) as Hd. destruct Hd.
  - congruence.
  - right. rewrite (bal_ext w w'); [lia|assumption].
  - right. destruct H1. subst w'. cbn.
    assert (Hwv : vaults_kept w (with_vaults k0 bmint qmint w)).
    { split.
      - intros mk' b' v' pr' _ Hh. unfold with_vaults. apply add_vault_has.
        + cbn. rewrite lookup_insert_ne by congruence. apply di_new.
        + apply add_vault_has; [apply di_new|assumption].
      - intros mk' pr' (m' & Hm' & ?). exists m'. auto. }
    assert (Htk : tokens_ok (with_vaults k0 bmint qmint w)).
    { unfold with_vaults. apply add_tokens; [apply add_tokens; [assumption|apply di_new|reflexivity]| |reflexivity].
      cbn. rewrite lookup_insert_ne by congruence. apply di_new. }
    pose proof (supply_nonneg _ _ (n_cfg _ _ _ _ _ _ _ _ _ _ di_presale)).
    assert (Hkk : vaults_kept w w1).
    { eapply vaults_kept_trans; [exact Hwv|]. eapply tok_transfer_kept; [exact Htk| |  |exact di_transfer].
      - lia.
      - intros ->. destruct di_signed as [_ ?]. discriminate. }
    change (bal (upd_presale k0 p0 w1) v) with (bal w1 v).
    eapply (kept_safe _ _ Hkk); eassumption.
  - right. destruct H1. subst w'. change (bal w v <= bal w v). lia.
  - right. destruct H1. subst w'. change (bal w v <= bal w1 v).
    apply (kept_safe w w1) with (mk := mk) (pr := pr) (b := b); [|assumption..].
    eapply tok_transfer_kept; [exact Hw| | |exact dd_transfer]; [lia|].
    intros ->. discriminate.
  - destruct (decide (v = PQuoteVault k0)) as [->|Hne].
    + left. eapply take_withdraw; eassumption.
    + right. destruct H1. subst w' qv. change (bal w v <= bal w1 v).
      eapply out_bal; [exact Hw| |exact dw_transfer|assumption]. lia.
  - destruct (decide (v = PQuoteVault k0)) as [->|Hne].
    + left. eapply take_refund; eassumption.
    + right. destruct H1. subst w' qv. change (bal w v <= bal w1 v).
      eapply paid_bal; eassumption.
  - destruct (decide (v = PBaseVault k0)) as [->|Hne].
    + left. eapply take_claim; eassumption.
    + right. destruct H1. destruct dm_world as (p2 & e2 & -> & _). subst bv. change (bal w v <= bal w1 v).
      eapply paid_bal; eassumption.
  - right. destruct H1. subst w'. change (bal w v <= bal w v). lia.
  - right. destruct H1. subst w'. change (bal w v <= bal w v). lia.
  - assert (Hdid := H1). destruct H1. destruct dcw_what as [(Hsu & _ & Ht & _)|(Hfa & _ & Ht & _)].
    + destruct (decide (v = PQuoteVault k0)) as [->|Hne].
      * left. eapply take_creator_q; eassumption.
      * right. subst w'. change (bal w v <= bal w1 v). eapply out_bal; [exact Hw| |exact Ht|assumption].
        unfold raise. pose proof (books_totals _ _ _ (a_books _ _ _ _ (q_acct _ _ _ dcw_ok))).
        pose proof (c_caps _ _ (q_cfg _ _ _ dcw_ok)). lia.
    + destruct (decide (v = PBaseVault k0)) as [->|Hne].
      * left. eapply take_creator_b; eassumption.
      * right. subst w'. change (bal w v <= bal w1 v). eapply out_bal; [exact Hw| |exact Ht|assumption].
        pose proof (supply_nonneg _ _ (q_cfg _ _ _ dcw_ok)). lia.
  - destruct (decide (v = PQuoteVault k0)) as [->|Hne].
    + left. eapply take_fee; eassumption.
    + right. destruct H1. subst w' qv. change (bal w v <= bal w1 v).
      eapply paid_bal; eassumption.
  - destruct (decide (v = PBaseVault k0)) as [->|Hne].
    + left. eapply take_unsold; eassumption.
    + right. destruct H1. subst w' bv. change (bal w v <= bal w1 v).
      destruct du_what as [(_ & Ht)|(_ & Ht)].
      * eapply burn_out_bal; eassumption.
      * eapply out_bal; [exact Hw| |exact Ht|assumption]. lia.
Qed.

(** * The helper accounts change only through their own instructions *)
Lemma step_helpers w o w' l :
  inv w -> step w o = Ok (w', l) ->
  match o with ICreateMerkle _ _ _ _ | ICloseMerkle _ _ _ _ => True | _ => w_merkles w' = w_merkles w end /\
  match o with ICreateOperator _ _ | IRevokeOperator _ _ => True | _ => w_opers w' = w_opers w end /\
  match o with ICreateServer _ _ _ | ICloseServer _ _ _ _ => True | _ => w_servers w' = w_servers w end /\
  match o with IInitFixedArgs _ _ _ _ _ | ICloseFixedArgs _ _ => True | _ => w_fixed w' = w_fixed w end.
Proof.
  intros Hi Hs.
  assert (Hall : aux_op o = false ->
    w_merkles w' = w_merkles w /\ w_opers w' = w_opers w /\ w_servers w' = w_servers w /\ w_fixed w' = w_fixed w).
  { intros Ha. pose proof (step_does _ _ _ _ Hi Hs) as Hd. destruct Hd.
    - destruct H1. auto.
    - congruence.
    - destruct H1. rest_of di_transfer. subst w'. cbn. auto.
    - destruct H1. subst w'. cbn. auto.
    - destruct H1. rest_of dd_transfer. subst w'. cbn. auto.
    - destruct H1. rest_of dw_transfer. subst w'. cbn. auto.
    - destruct H1. rest_of dr_paid. subst w'. cbn. auto.
    - destruct H1. rest_of dm_paid. destruct dm_world as (p2 & e2 & -> & _). cbn. auto.
    - destruct H1. subst w'. cbn. auto.
    - destruct H1. subst w'. cbn. auto.
    - destruct H1. subst w'. cbn. destruct dcw_what as [(_ & _ & Ht & _)|(_ & _ & Ht & _)]; rest_of Ht; auto.
    - destruct H1. rest_of dfe_paid. subst w'. cbn. auto.
    - destruct H1. subst w'. cbn. destruct du_what as [(_ & Ht)|(_ & Ht)]; rest_of Ht; auto. }
  destruct o; try (destruct (Hall eq_refl) as (-> & -> & -> & ->); tauto); clear Hall; cbn in Hs.
  - apply init_fixed_inv in Hs as (_ & _ & _ & _ & -> & ->). cbn. auto.
  - apply close_fixed_inv in Hs as (x & _ & _ & _ & -> & ->). cbn. auto.
  - apply create_merkle_inv in Hs as (p0 & _ & _ & _ & _ & _ & _ & _ & _ & -> & ->). cbn. auto.
  - apply close_merkle_inv in Hs as (p0 & c & _ & _ & _ & _ & _ & _ & _ & -> & ->). cbn. auto.
  - apply create_operator_inv in Hs as (_ & _ & -> & ->). cbn. auto.
  - apply revoke_operator_inv in Hs as (oo & _ & _ & _ & -> & ->). cbn. auto.
  - apply create_server_inv in Hs as (p & _ & _ & _ & _ & _ & _ & -> & ->). cbn. auto.
  - apply close_server_inv in Hs as (p & s & _ & _ & _ & _ & _ & _ & -> & ->). cbn. auto.
Qed.

End WithCrypto.
