(** Classification of the accepted steps, and what one step can do to balances. *)
From Coq Require Import Lia.
From Verif Require Import Base Math State Handlers Token World Instr Exec Spec Tactics Sums Arith
  TokenFacts Inv Acct Funs Steps Init Preserve Reach Did.

(** Balance of a token account (0 if there is none). *)
Definition bal (w : world) (a : addr) : Z :=
  match w_tokens w !! a with Some t => t_amount t | None => 0 end.

(** The operations that are not instructions of the presale program. *)
Definition env_op (o : op) : bool :=
  match o with
  | EClock _ | ECreateMint _ _ | ECloseMint _ | ECreateToken _ _ _ | ECloseToken _ _
  | ETransfer _ _ _ _ _ _ _ _ _ | EBurn _ _ _ _ _ | EMintTo _ _ _ | EApprove _ _ _ _ | ERevoke _ _
  | ESetOwner _ _ _ | ESetMemo _ _ _ | ESetGuard _ _ _ | EFreeze _ _ | ESetFee _ _ | ESetHook _ _ | EWithdrawWithheld _ _ _ => true
  | _ => false
  end.

(** The instructions that only touch helper accounts. *)
Definition aux_op (o : op) : bool :=
  match o with
  | IInitFixedArgs _ _ _ _ _ | ICloseFixedArgs _ _ | ICreateMerkle _ _ _ _ | ICloseMerkle _ _ _ _
  | ICreateOperator _ _ | IRevokeOperator _ _ | ICreateServer _ _ _ | ICloseServer _ _ _ _ => true
  | _ => false
  end.

(** The escrow an operation creates: presale, owner, registry. *)
Definition creates (o : op) : option (addr * addr * Z) :=
  match o with
  | IEscrowPermissionless k owner _ => Some (k, owner, 0)
  | IEscrowCreator k owner _ _ _ idx _ => Some (k, owner, idx)
  | IEscrowMerkle k owner _ _ _ idx _ => Some (k, owner, idx)
  | _ => None
  end.

Record same_program (w w' : world) : Prop := {
  sp_presales : w_presales w' = w_presales w;
  sp_escrows : w_escrows w' = w_escrows w;
  sp_fixed : w_fixed w' = w_fixed w;
  sp_merkles : w_merkles w' = w_merkles w;
  sp_opers : w_opers w' = w_opers w;
  sp_servers : w_servers w' = w_servers w
}.

Record did_init (w : world) (base bmint qmint pt creator payer : addr) (bp qp : prog)
    (a : init_args) (h : henv) (w' : world) (l : list fx) (k : addr) (p : presale) (bm qm : mint)
    (gross : Z) (w1 : world) (lx : list fx) : Prop := {
  di_key : k = PPresale base bmint qmint;
  di_new : w_presales w !! k = None /\ w_tokens w !! PBaseVault k = None /\
           w_tokens w !! PQuoteVault k = None;
  di_signed : is_wallet base = true /\ is_wallet payer = true;
  di_mints : w_mints w !! bmint = Some bm /\ w_mints w !! qmint = Some qm /\
             m_prog bm = bp /\ m_prog qm = qp /\
             is_supported_mint bm = true /\ is_supported_mint qm = true;
  di_presale : newly w k bmint qmint creator base bp qp a p;
  di_gross : gross - tok_fee bm gross = p_supply p /\ p_supply p <= gross;
  di_transfer : tok_transfer (with_vaults k bmint qmint w) bp pt bmint (PBaseVault k) payer gross
                  (h_ok h) = Ok (w1, lx);
  di_world : w' = upd_presale k p w1;
  di_fx : exists ev, l = lx ++ [FxEvent ev]
}.

Inductive does (w : world) (o : op) (w' : world) (l : list fx) : Prop :=
| do_env : env_op o = true -> same_program w w' -> w_now w <= w_now w' -> does w o w' l
| do_aux : aux_op o = true -> w_now w' = w_now w -> w_presales w' = w_presales w ->
    w_escrows w' = w_escrows w -> w_tokens w' = w_tokens w -> w_mints w' = w_mints w ->
    (exists ev, l = [FxEvent ev]) \/ l = [] -> does w o w' l
| do_init base bmint qmint pt creator payer bp qp a h k p bm qm gross w1 lx :
    o = IInitPresale base bmint qmint pt creator payer bp qp a h ->
    did_init w base bmint qmint pt creator payer bp qp a h w' l k p bm qm gross w1 lx ->
    does w o w' l
| do_create k owner idx cap p r :
    creates o = Some (k, owner, idx) -> did_create w k owner idx cap w' l p r -> does w o w' l
| do_deposit k qv qm ek pt payer pr mx h p p2 e r m amount fee gross w1 lx :
    o = IDeposit k qv qm ek pt payer pr mx h ->
    did_deposit w k qv qm ek pt payer pr mx h w' l p p2 e r m amount fee gross w1 lx ->
    does w o w' l
| do_withdraw k qv qm ek ot owner pr mx h p e r m amount w1 lx :
    o = IWithdraw k qv qm ek ot owner pr mx h ->
    did_withdraw w k qv qm ek ot owner pr mx h w' l p e r m amount w1 lx -> does w o w' l
| do_refund k qv qm ek ot owner pr h p e r m w1 lx :
    o = IWithdrawRemaining k qv qm ek ot owner pr h ->
    did_refund w k qv qm ek ot owner pr h w' l p e r m w1 lx -> does w o w' l
| do_claim k bv bm ek ot owner pr h p e r m w1 lx :
    o = IClaim k bv bm ek ot owner pr h ->
    did_claim w k bv bm ek ot owner pr h w' l p e r m w1 lx -> does w o w' l
| do_refresh k ek p e e1 r :
    o = IRefresh k ek -> did_refresh w k ek w' l p e e1 r -> does w o w' l
| do_close k ek owner rr p e r :
    o = ICloseEscrow k ek owner rr -> did_close w k ek owner rr w' l p e r -> does w o w' l
| do_creator k ot owner pr h p m w1 lx :
    o = ICreatorWithdraw k ot owner pr h -> did_creator w k ot owner pr h w' l p m w1 lx ->
    does w o w' l
| do_fee k qv qm rcv owner pr h p m w1 lx :
    o = ICollectFee k qv qm rcv owner pr h -> did_fee w k qv qm rcv owner pr h w' l p m w1 lx ->
    does w o w' l
| do_unsold k bv bm ct pr h p m w1 lx :
    o = IUnsold k bv bm ct pr h -> did_unsold w k bv bm ct pr h w' l p m w1 lx -> does w o w' l.

Section WithCrypto.
Context `{Crypto}.

Ltac binds Hs := repeat match type of Hs with
  | rbind _ _ = Ok _ => let u := fresh "u" in let Hu := fresh "Hu" in
      apply rbind_Ok in Hs; destruct Hs as [u [Hu Hs]]; cbv beta in Hs end.

Lemma env_step_rest w o w' l :
  env_op o = true -> step w o = Ok (w', l) -> same_program w w' /\ w_now w <= w_now w'.
Proof.
  intros Ho Hs. destruct o; try discriminate Ho; cbn in Hs.
  1: { unfold env_clock, env_ok in Hs. bq Hs Hb. apply Ok_inj in Hs. injection Hs as <- <-. clean_bool.
       cbn. split; [constructor; reflexivity|assumption]. }
  all: assert (Hr : same_rest w w');
    [|destruct Hr as (R1 & R2 & R3 & R4 & R5 & R6 & R7); rewrite R1; split; [constructor; assumption|lia]].
  all: unfold env_create_mint, env_close_mint, env_create_token, env_close_token, env_transfer, env_burn,
    env_mint_to, env_approve, env_revoke, env_set_owner, env_set_memo, env_set_guard, env_freeze, env_set_fee, env_set_hook,
    env_withdraw_withheld in Hs; binds Hs;
    try (apply Ok_inj in Hs; injection Hs as <- <-; repeat split; fail).
  - apply checked_Ok in Hs. eapply tok_transfer_rest; eassumption.
  - eapply tok_burn_rest; eassumption.
Qed.

Lemma init_did w base bmint qmint pt creator payer bp qp a h w' l :
  inv w -> initialize_presale w base bmint qmint pt creator payer bp qp a h = Ok (w', l) ->
  exists k p bm qm gross w1 lx,
    did_init w base bmint qmint pt creator payer bp qp a h w' l k p bm qm gross w1 lx.
Proof.
  intros Hi Hx. apply init_inv in Hx as
    (bm & qm & p & rest & hooks & rest' & pool & amount & w2 & fx & Hdec & Hnow & Hbm & Hqm & Hb &
     Hpay & Hk & Hbv & Hqv & Hbp & Hqp & Hval & Hqs & Hbs & Hcr & Hpool & Hinc & _ & _ & Htr & -> & ->).
  set (k := PPresale base bmint qmint) in *.
  destruct (init_newly w k a bmint qmint creator base bp qp _ p rest Hi eq_refl Hdec Hval Hcr) as (Hn & _).
  assert (Hpe : pool = p_supply p).
  { apply sum_supplies_Ok in Hpool as [Hp _]. rewrite Z.add_0_l in Hp.
    rewrite (n_supply _ _ _ _ _ _ _ _ _ _ Hn). assumption. }
  pose proof (supply_nonneg _ _ (n_cfg _ _ _ _ _ _ _ _ _ _ Hn)) as Hs0.
  destruct (fee_included_exact bm pool amount ltac:(lia)) as (Hex & Hrg & _); [|assumption|].
  { eapply tk_fee; [apply (i_tokens _ Hi)|eassumption]. }
  exists k, p, bm, qm, amount, w2, fx. constructor; try assumption; try reflexivity; auto 8.
  - lia.
  - eauto.
Qed.

Theorem step_does w o w' l : inv w -> step w o = Ok (w', l) -> does w o w' l.
Proof.
  intros Hi Hs. destruct (env_op o) eqn:Ho.
  { destruct (env_step_rest _ _ _ _ Ho Hs). apply do_env; assumption. }
  destruct o; try discriminate Ho; cbn in Hs.
  - apply init_fixed_inv in Hs as (_ & _ & _ & _ & -> & ->). apply do_aux; eauto.
  - apply close_fixed_inv in Hs as (x & _ & _ & _ & -> & ->). apply do_aux; eauto.
  - apply init_did in Hs; [|assumption]. destruct Hs as (k & p & bm & qm & gross & w1 & lx & Hd).
    eapply do_init; [reflexivity|exact Hd].
  - apply create_merkle_inv in Hs as (p0 & _ & _ & _ & _ & _ & _ & _ & _ & -> & ->). apply do_aux; eauto.
  - apply close_merkle_inv in Hs as (p0 & c & _ & _ & _ & _ & _ & _ & _ & -> & ->). apply do_aux; eauto.
  - apply create_permissionless_inv in Hs as (p0 & Hp0 & _ & _ & Hs).
    apply finish_did in Hs as [r Hd]; [|assumption..|lia]. eapply do_create; [reflexivity|exact Hd].
  - apply create_authority_inv in Hs as (p0 & oo & Hp0 & _ & _ & _ & _ & _ & _ & Hidx & _ & Hs).
    apply finish_did in Hs as [r Hd]; [|assumption..|lia]. eapply do_create; [reflexivity|exact Hd].
  - apply create_merkle_escrow_inv in Hs as (p0 & c & Hp0 & _ & _ & _ & _ & _ & _ & Hidx & _ & Hs).
    apply finish_did in Hs as [r Hd]; [|assumption..|lia]. eapply do_create; [reflexivity|exact Hd].
  - apply create_operator_inv in Hs as (_ & _ & -> & ->). apply do_aux; eauto.
  - apply revoke_operator_inv in Hs as (oo & _ & _ & _ & -> & ->). apply do_aux; eauto.
  - apply deposit_did in Hs; [|assumption]. destruct Hs as (p & p2 & e & r & m & am & fee & gr & w1 & lx & Hd).
    eapply do_deposit; [reflexivity|exact Hd].
  - apply withdraw_did in Hs; [|assumption]. destruct Hs as (p & e & r & m & am & w1 & lx & Hd).
    eapply do_withdraw; [reflexivity|exact Hd].
  - apply claim_did in Hs; [|assumption]. destruct Hs as (p & e & r & m & w1 & lx & Hd).
    eapply do_claim; [reflexivity|exact Hd].
  - apply refund_did in Hs; [|assumption]. destruct Hs as (p & e & r & m & w1 & lx & Hd).
    eapply do_refund; [reflexivity|exact Hd].
  - apply unsold_did in Hs; [|assumption]. destruct Hs as (p & m & w1 & lx & Hd).
    eapply do_unsold; [reflexivity|exact Hd].
  - apply close_did in Hs; [|assumption]. destruct Hs as (p & e & r & Hd).
    eapply do_close; [reflexivity|exact Hd].
  - apply creator_did in Hs; [|assumption]. destruct Hs as (p & m & w1 & lx & Hd).
    eapply do_creator; [reflexivity|exact Hd].
  - apply refresh_did in Hs; [|assumption]. destruct Hs as (p & e & e1 & r & Hd).
    eapply do_refresh; [reflexivity|exact Hd].
  - apply create_server_inv in Hs as (p & _ & _ & _ & _ & _ & _ & -> & ->). apply do_aux; eauto.
  - apply close_server_inv in Hs as (p & s & _ & _ & _ & _ & _ & _ & -> & ->). apply do_aux; eauto.
  - apply fee_did in Hs; [|assumption]. destruct Hs as (p & m & w1 & lx & Hd).
    eapply do_fee; [reflexivity|exact Hd].
Qed.

End WithCrypto.

(** * Balances *)

Lemma transfer_bal w pr src mk dst auth n ok w' l m :
  tok_transfer w pr src mk dst auth n ok = Ok (w', l) -> w_mints w !! mk = Some m ->
  forall a, bal w' a = if decide (src = dst) then bal w a
                       else if decide (a = src) then bal w a - n
                       else if decide (a = dst) then bal w a + (n - tok_fee m n)
                       else bal w a.
Proof.
  intros Hx Hm a. apply tok_transfer_inv in Hx as (m' & s & d & dl & Hm' & Hs & Hd & _ & _ & _ & _ & _ & _ & _ & Hc).
  assert (m' = m) as -> by congruence.
  destruct Hc as [(-> & -> & _)|(Hne & _ & _ & -> & _)].
  - rewrite decide_True by reflexivity. reflexivity.
  - rewrite decide_False by assumption. unfold bal. cbn.
    destruct (decide (a = src)) as [->|H1].
    + rewrite lookup_insert_ne by congruence. rewrite lookup_insert, Hs. reflexivity.
    + destruct (decide (a = dst)) as [->|H2].
      * rewrite lookup_insert, Hd. reflexivity.
      * rewrite !lookup_insert_ne by congruence. reflexivity.
Qed.

Lemma burn_bal w pr src mk auth n w' l :
  tok_burn w pr src mk auth n = Ok (w', l) ->
  forall a, bal w' a = if decide (a = src) then bal w a - n else bal w a.
Proof.
  intros Hx a. apply tok_burn_inv in Hx as (m & s & dl & _ & Hs & _ & _ & _ & _ & _ & -> & _).
  unfold bal. cbn. destruct (decide (a = src)) as [->|H1].
  - rewrite lookup_insert, Hs. reflexivity.
  - rewrite lookup_insert_ne by congruence. reflexivity.
Qed.

Lemma bal_ext w w' a : w_tokens w' = w_tokens w -> bal w' a = bal w a.
Proof. unfold bal. intros ->. reflexivity. Qed.

(** * What a step does to one escrow *)

Inductive echange (w : world) (o : op) (w' : world) (l : list fx) (ek : addr) : Prop :=
| ech_same : w_escrows w' !! ek = w_escrows w !! ek -> echange w o w' l ek
| ech_create k owner idx cap p r :
    creates o = Some (k, owner, idx) -> ek = PEscrow k owner idx ->
    did_create w k owner idx cap w' l p r ->
    w_escrows w' !! ek = Some (esc_init k owner (w_now w) idx cap) -> echange w o w' l ek
| ech_deposit k qv qm pt payer pr mx h p p2 e r m amount fee gross w1 lx :
    o = IDeposit k qv qm ek pt payer pr mx h ->
    did_deposit w k qv qm ek pt payer pr mx h w' l p p2 e r m amount fee gross w1 lx ->
    w_escrows w' !! ek = Some (esc_deposited e amount fee) -> echange w o w' l ek
| ech_withdraw k qv qm ot owner pr mx h p e r m amount w1 lx :
    o = IWithdraw k qv qm ek ot owner pr mx h ->
    did_withdraw w k qv qm ek ot owner pr mx h w' l p e r m amount w1 lx ->
    w_escrows w' !! ek = Some (set_e_deposit (e_deposit e - amount) e) -> echange w o w' l ek
| ech_refund k qv qm ot owner pr h p e r m w1 lx :
    o = IWithdrawRemaining k qv qm ek ot owner pr h ->
    did_refund w k qv qm ek ot owner pr h w' l p e r m w1 lx ->
    w_escrows w' !! ek = Some (set_e_withdrawn 1 e) -> echange w o w' l ek
| ech_claim k bv bm ot owner pr h p e r m w1 lx :
    o = IClaim k bv bm ek ot owner pr h ->
    did_claim w k bv bm ek ot owner pr h w' l p e r m w1 lx ->
    w_escrows w' !! ek = Some (set_e_refreshed (w_now w) (set_e_pending 0
           (set_e_claimed (e_claimed e + due p r e (w_now w)) e))) -> echange w o w' l ek
| ech_refresh k p e e1 r :
    o = IRefresh k ek -> did_refresh w k ek w' l p e e1 r ->
    w_escrows w' !! ek = Some e1 -> echange w o w' l ek
| ech_close k owner rr p e r :
    o = ICloseEscrow k ek owner rr -> did_close w k ek owner rr w' l p e r ->
    w_escrows w' !! ek = None -> echange w o w' l ek.

Lemma paid_rest w pr v mk dst n ok w1 fx : paid w pr v mk dst n ok w1 fx -> same_rest w w1.
Proof. intros [[_ Hx]|(_ & -> & _)]; [eapply tok_transfer_rest; eassumption|apply same_rest_refl]. Qed.

Ltac rest_of H := let R := fresh "R" in
  pose proof H as R; (apply tok_transfer_rest in R || apply tok_burn_rest in R || apply paid_rest in R);
  destruct R as (Rnow & Rp & Re & Rf & Rm & Ro & Rs).

Lemma does_escrow w o w' l ek : does w o w' l -> echange w o w' l ek.
Proof.
  intros Hd. destruct Hd.
  - apply ech_same. match goal with X : same_program _ _ |- _ => rewrite (sp_escrows _ _ X) end. reflexivity.
  - apply ech_same. congruence.
  - destruct H0. rest_of di_transfer0. apply ech_same. subst w'. cbn. rewrite Re. reflexivity.
  - assert (Hdid := H0). destruct H0.
    destruct (decide (ek = PEscrow k owner idx)) as [->|Hne].
    + eapply ech_create; [eassumption|reflexivity|exact Hdid|]. subst w'. cbn. apply lookup_insert.
    + apply ech_same. subst w'. cbn. rewrite lookup_insert_ne by congruence. reflexivity.
  - assert (Hdid := H0). destruct H0. rest_of dd_transfer.
    destruct (decide (ek = ek0)) as [->|Hne].
    + eapply ech_deposit; [eassumption|exact Hdid|]. subst w'. cbn. apply lookup_insert.
    + apply ech_same. subst w'. cbn. rewrite lookup_insert_ne by congruence. congruence.
  - assert (Hdid := H0). destruct H0. rest_of dw_transfer.
    destruct (decide (ek = ek0)) as [->|Hne].
    + eapply ech_withdraw; [eassumption|exact Hdid|]. subst w'. cbn. apply lookup_insert.
    + apply ech_same. subst w'. cbn. rewrite lookup_insert_ne by congruence. congruence.
  - assert (Hdid := H0). destruct H0. rest_of dr_paid.
    destruct (decide (ek = ek0)) as [->|Hne].
    + eapply ech_refund; [eassumption|exact Hdid|]. subst w'. cbn. apply lookup_insert.
    + apply ech_same. subst w'. cbn. rewrite lookup_insert_ne by congruence. congruence.
  - assert (Hdid := H0). destruct H0. rest_of dm_paid. destruct dm_world as (p2 & e2 & -> & -> & ->).
    destruct (decide (ek = ek0)) as [->|Hne].
    + eapply ech_claim; [eassumption|exact Hdid|]. cbn. apply lookup_insert.
    + apply ech_same. cbn. rewrite lookup_insert_ne by congruence. congruence.
  - assert (Hdid := H0). destruct H0.
    destruct (decide (ek = ek0)) as [->|Hne].
    + eapply ech_refresh; [eassumption|exact Hdid|]. subst w'. cbn. apply lookup_insert.
    + apply ech_same. subst w'. cbn. rewrite lookup_insert_ne by congruence. congruence.
  - assert (Hdid := H0). destruct H0.
    destruct (decide (ek = ek0)) as [->|Hne].
    + eapply ech_close; [eassumption|exact Hdid|]. subst w'. cbn. apply lookup_delete.
    + apply ech_same. subst w'. cbn. rewrite lookup_delete_ne by congruence. congruence.
  - destruct H0. apply ech_same. subst w'. cbn.
    destruct dcw_what as [(_ & _ & Ht & _)|(_ & _ & Ht & _)]; rest_of Ht; congruence.
  - destruct H0. apply ech_same. subst w'. cbn. rest_of dfe_paid. congruence.
  - destruct H0. apply ech_same. subst w'. cbn.
    destruct du_what as [(_ & Ht)|(_ & Ht)]; rest_of Ht; congruence.
Qed.

(** * What a step does to one presale *)

Inductive pchange (w : world) (o : op) (w' : world) (l : list fx) (k : addr) : Prop :=
| pch_same : w_presales w' !! k = w_presales w !! k -> pchange w o w' l k
| pch_init base bmint qmint pt creator payer bp qp a h p bm qm gross w1 lx :
    o = IInitPresale base bmint qmint pt creator payer bp qp a h ->
    did_init w base bmint qmint pt creator payer bp qp a h w' l k p bm qm gross w1 lx ->
    w_presales w !! k = None -> w_presales w' !! k = Some p -> pchange w o w' l k
| pch_create owner idx cap p r :
    creates o = Some (k, owner, idx) -> did_create w k owner idx cap w' l p r ->
    w_presales w' !! k = Some (set_p_escrows (p_escrows p + 1)
      (set_reg p idx (set_r_escrows (r_escrows r + 1) r))) -> pchange w o w' l k
| pch_deposit qv qm ek pt payer pr mx h p p2 e r m amount fee gross w1 lx :
    o = IDeposit k qv qm ek pt payer pr mx h ->
    did_deposit w k qv qm ek pt payer pr mx h w' l p p2 e r m amount fee gross w1 lx ->
    w_presales w' !! k = Some p2 -> pchange w o w' l k
| pch_withdraw qv qm ek ot owner pr mx h p e r m amount w1 lx :
    o = IWithdraw k qv qm ek ot owner pr mx h ->
    did_withdraw w k qv qm ek ot owner pr mx h w' l p e r m amount w1 lx ->
    w_presales w' !! k = Some (withdrawn p e r amount) -> pchange w o w' l k
| pch_refund qv qm ek ot owner pr h p e r m w1 lx :
    o = IWithdrawRemaining k qv qm ek ot owner pr h ->
    did_refund w k qv qm ek ot owner pr h w' l p e r m w1 lx ->
    w_presales w' !! k = Some (set_p_refunded (p_refunded p + refundable p r e)
       (set_reg p (e_idx e) (set_r_refunded (r_refunded r + refundable p r e) r))) ->
    pchange w o w' l k
| pch_claim bv bm ek ot owner pr h p e r m w1 lx :
    o = IClaim k bv bm ek ot owner pr h ->
    did_claim w k bv bm ek ot owner pr h w' l p e r m w1 lx ->
    w_presales w' !! k = Some (set_p_claimed (p_claimed p + due p r e (w_now w))
           (set_reg p (e_idx e) (set_r_claimed (r_claimed r + due p r e (w_now w)) r))) ->
    pchange w o w' l k
| pch_close ek owner rr p e r :
    o = ICloseEscrow k ek owner rr -> did_close w k ek owner rr w' l p e r ->
    w_presales w' !! k = Some (set_p_escrows (p_escrows p - 1)
       (set_reg p (e_idx e) (set_r_escrows (r_escrows r - 1) r))) -> pchange w o w' l k
| pch_creator ot owner pr h p m w1 lx :
    o = ICreatorWithdraw k ot owner pr h -> did_creator w k ot owner pr h w' l p m w1 lx ->
    w_presales w' !! k = Some (set_p_cwd 1 p) -> pchange w o w' l k
| pch_fee qv qm rcv owner pr h p m w1 lx :
    o = ICollectFee k qv qm rcv owner pr h -> did_fee w k qv qm rcv owner pr h w' l p m w1 lx ->
    w_presales w' !! k = Some (set_p_fee_col 1 p) -> pchange w o w' l k
| pch_unsold bv bm ct pr h p m w1 lx :
    o = IUnsold k bv bm ct pr h -> did_unsold w k bv bm ct pr h w' l p m w1 lx ->
    w_presales w' !! k = Some (set_p_unsold_done 1 p) -> pchange w o w' l k.

Lemma does_presale w o w' l k : does w o w' l -> pchange w o w' l k.
Proof.
  intros Hd. destruct Hd.
  - apply pch_same. match goal with X : same_program _ _ |- _ => rewrite (sp_presales _ _ X) end. reflexivity.
  - apply pch_same. congruence.
  - assert (Hdid := H0). destruct H0. rest_of di_transfer0.
    destruct (decide (k = k0)) as [->|Hne].
    + eapply pch_init; [eassumption|exact Hdid|apply di_new0|]. subst w'. cbn. apply lookup_insert.
    + apply pch_same. subst w'. cbn. rewrite lookup_insert_ne by congruence. rewrite Rp. reflexivity.
  - assert (Hdid := H0). destruct H0.
    destruct (decide (k = k0)) as [->|Hne].
    + eapply pch_create; [eassumption|exact Hdid|]. subst w'. cbn. apply lookup_insert.
    + apply pch_same. subst w'. cbn. rewrite lookup_insert_ne by congruence. reflexivity.
  - assert (Hdid := H0). destruct H0. rest_of dd_transfer.
    destruct (decide (k = k0)) as [->|Hne].
    + eapply pch_deposit; [eassumption|exact Hdid|]. subst w'. cbn. apply lookup_insert.
    + apply pch_same. subst w'. cbn. rewrite lookup_insert_ne by congruence. congruence.
  - assert (Hdid := H0). destruct H0. rest_of dw_transfer.
    destruct (decide (k = k0)) as [->|Hne].
    + eapply pch_withdraw; [eassumption|exact Hdid|]. subst w'. cbn. apply lookup_insert.
    + apply pch_same. subst w'. cbn. rewrite lookup_insert_ne by congruence. congruence.
  - assert (Hdid := H0). destruct H0. rest_of dr_paid.
    destruct (decide (k = k0)) as [->|Hne].
    + eapply pch_refund; [eassumption|exact Hdid|]. subst w'. cbn. apply lookup_insert.
    + apply pch_same. subst w'. cbn. rewrite lookup_insert_ne by congruence. congruence.
  - assert (Hdid := H0). destruct H0. rest_of dm_paid. destruct dm_world as (p2 & e2 & -> & -> & ->).
    destruct (decide (k = k0)) as [->|Hne].
    + eapply pch_claim; [eassumption|exact Hdid|]. cbn. apply lookup_insert.
    + apply pch_same. cbn. rewrite lookup_insert_ne by congruence. congruence.
  - destruct H0. apply pch_same. subst w'. reflexivity.
  - assert (Hdid := H0). destruct H0.
    destruct (decide (k = k0)) as [->|Hne].
    + eapply pch_close; [eassumption|exact Hdid|]. subst w'. cbn. apply lookup_insert.
    + apply pch_same. subst w'. cbn. rewrite lookup_insert_ne by congruence. congruence.
  - assert (Hdid := H0). destruct H0.
    assert (Hp : w_presales w1 = w_presales w).
    { destruct dcw_what as [(_ & _ & Ht & _)|(_ & _ & Ht & _)]; rest_of Ht; assumption. }
    destruct (decide (k = k0)) as [->|Hne].
    + eapply pch_creator; [eassumption|exact Hdid|]. subst w'. cbn. apply lookup_insert.
    + apply pch_same. subst w'. cbn. rewrite lookup_insert_ne by congruence. congruence.
  - assert (Hdid := H0). destruct H0. rest_of dfe_paid.
    destruct (decide (k = k0)) as [->|Hne].
    + eapply pch_fee; [eassumption|exact Hdid|]. subst w'. cbn. apply lookup_insert.
    + apply pch_same. subst w'. cbn. rewrite lookup_insert_ne by congruence. congruence.
  - assert (Hdid := H0). destruct H0.
    assert (Hp : w_presales w1 = w_presales w).
    { destruct du_what as [(_ & Ht)|(_ & Ht)]; rest_of Ht; assumption. }
    destruct (decide (k = k0)) as [->|Hne].
    + eapply pch_unsold; [eassumption|exact Hdid|]. subst w'. cbn. apply lookup_insert.
    + apply pch_same. subst w'. cbn. rewrite lookup_insert_ne by congruence. congruence.
Qed.

(** The clock. *)
Lemma does_now w o w' l : does w o w' l ->
  w_now w <= w_now w' /\ (env_op o = false -> w_now w' = w_now w).
Proof.
  intros Hd.
  assert (Hcase : (env_op o = true /\ w_now w <= w_now w') \/ w_now w' = w_now w).
  { destruct Hd; [left; auto|right..]; [assumption|destruct H0; clear H..].
    - subst w'. rest_of di_transfer0. exact Rnow.
    - subst w'. reflexivity.
    - subst w'. rest_of dd_transfer. exact Rnow.
    - subst w'. rest_of dw_transfer. exact Rnow.
    - subst w'. rest_of dr_paid. exact Rnow.
    - destruct dm_world as (p2 & e2 & -> & _). rest_of dm_paid. exact Rnow.
    - subst w'. reflexivity.
    - subst w'. reflexivity.
    - subst w'. destruct dcw_what as [(_ & _ & Ht & _)|(_ & _ & Ht & _)]; rest_of Ht; exact Rnow.
    - subst w'. rest_of dfe_paid. exact Rnow.
    - subst w'. destruct du_what as [(_ & Ht)|(_ & Ht)]; rest_of Ht; exact Rnow. }
  destruct Hcase as [[Ho Hle]|He]; [split; [assumption|intros Hf; congruence]|rewrite He; split; [lia|auto]].
Qed.
