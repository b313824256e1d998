(** C40: what the events say is what happened.  C54, C55: two fields that say something else than
    their name suggests. *)
From Coq Require Import Lia.
From Verif Require Import Base Math State Handlers Token World Instr Exec Tactics Sums Spec Arith
  TokenFacts Inv Acct Funs Steps Init Preserve Reach Did Trans Flow Scenario P_Solvency P_Access
  P_History P_Arith.

(** * Specification *)

(** [gross] left the vault [v] and [net] arrived at [dst]. *)
Definition pays (w w' : world) (v dst : addr) (gross net : Z) : Prop :=
  dst <> v -> bal w' v = bal w v - gross /\ bal w' dst = bal w dst + net.

(** The presale at [k] and the escrow at [ek] before and after. *)
Definition presales_are (w w' : world) (k : addr) (p p' : presale) : Prop :=
  w_presales w !! k = Some p /\ w_presales w' !! k = Some p'.
Definition escrows_are (w w' : world) (ek : addr) (e e' : escrow) : Prop :=
  w_escrows w !! ek = Some e /\ w_escrows w' !! ek = Some e'.

(** The event [ev], emitted by the operation [o] that led from [w] to [w'], is true: amounts are
    the changes of the accounts and balances, totals are the values after the operation. *)
Definition truthful (w w' : world) (o : op) (ev : event) : Prop :=
  match ev with
  | EvtFixedPricePresaleArgsCreate k q =>
    exists owner payer dw x, o = IInitFixedArgs k owner payer dw q /\
      w_fixed w !! PFixedArgs k = None /\ w_fixed w' !! PFixedArgs k = Some x /\
      x_presale x = k /\ x_qprice x = q
  | EvtPresaleVaultCreate bm qm regs lock vest wl mode start end_ max_cap min_cap =>
    exists base pt creator payer bp qp a h p,
      o = IInitPresale base bm qm pt creator payer bp qp a h /\
      w_presales w !! PPresale base bm qm = None /\ w_presales w' !! PPresale base bm qm = Some p /\
      p_bmint p = bm /\ p_qmint p = qm /\ p_lock p = lock /\ p_vest p = vest /\ p_wl p = wl /\
      p_mode p = mode /\ p_start p = Z.max start (w_now w) /\ p_end p = end_ /\
      p_max_cap p = max_cap /\ p_min_cap p = min_cap /\ p_nreg p = Z.of_nat (length regs) /\
      forall i x, regs !! i = Some x -> exists r, p_regs p !! i = Some r /\
        r_supply r = ra_supply x /\ r_min_cap r = ra_min x /\ r_max_cap r = ra_max x /\
        r_fee_bps r = ra_fee_bps x
  | EvtEscrowCreate k owner wl total =>
    exists idx p p' e, creates o = Some (k, owner, idx) /\ presales_are w w' k p p' /\
      w_escrows w !! PEscrow k owner idx = None /\ w_escrows w' !! PEscrow k owner idx = Some e /\
      e_presale e = k /\ e_owner e = owner /\ wl = p_wl p /\ total = p_escrows p' /\
      p_escrows p' = p_escrows p + 1
  | EvtMerkleRootConfigCreate owner c k v root =>
    exists p x, o = ICreateMerkle k owner root v /\ w_presales w !! k = Some p /\
      p_owner p = owner /\ w_merkles w !! c = None /\ w_merkles w' !! c = Some x /\
      k_presale x = k /\ k_version x = v /\ k_root x = root
  | EvtDeposit k ek amount escrow_total presale_total payer fee =>
    exists qv qm pt pr mx h e e' p p', o = IDeposit k qv qm ek pt payer pr mx h /\
      escrows_are w w' ek e e' /\ presales_are w w' k p p' /\ e_presale e = k /\
      e_deposit e' = e_deposit e + amount /\ e_fee e' = e_fee e + fee /\
      p_deposit p' = p_deposit p + amount /\ p_fee p' = p_fee p + fee /\
      escrow_total = e_deposit e' /\ presale_total = p_deposit p' /\ is_wallet payer = true /\
      bal w' (p_qvault p) = bal w (p_qvault p) + amount + fee
  | EvtWithdraw k ek net escrow_total presale_total owner =>
    exists qv qm ot pr mx h e e' p p' gross, o = IWithdraw k qv qm ek ot owner pr mx h /\
      escrows_are w w' ek e e' /\ presales_are w w' k p p' /\ e_presale e = k /\ e_owner e = owner /\
      e_deposit e' = e_deposit e - gross /\ p_deposit p' = p_deposit p - gross /\
      escrow_total = e_deposit e' /\ presale_total = p_deposit p' /\
      pays w w' (p_qvault p) ot gross net
  | EvtClaim k ek net escrow_total presale_total owner =>
    exists bv bm ot pr h e e' p p' gross, o = IClaim k bv bm ek ot owner pr h /\
      escrows_are w w' ek e e' /\ presales_are w w' k p p' /\ e_presale e = k /\ e_owner e = owner /\
      e_claimed e' = e_claimed e + gross /\ p_claimed p' = p_claimed p + gross /\
      escrow_total = e_claimed e' /\ presale_total = p_claimed p' /\
      pays w w' (p_bvault p) ot gross net
  | EvtWithdrawRemainingQuote k ek owner net presale_total =>
    exists qv qm ot pr h e e' p p' gross, o = IWithdrawRemaining k qv qm ek ot owner pr h /\
      escrows_are w w' ek e e' /\ presales_are w w' k p p' /\ e_presale e = k /\ e_owner e = owner /\
      e_withdrawn e = 0 /\ e_withdrawn e' = 1 /\
      p_refunded p' = p_refunded p + gross /\ presale_total = p_refunded p' /\
      pays w w' (p_qvault p) ot gross net
  | EvtPerformUnsoldBaseTokenAction k n action =>
    exists bv bm ct pr h p p' m, o = IUnsold k bv bm ct pr h /\ presales_are w w' k p p' /\
      p_unsold_done p = 0 /\ p_unsold_done p' = 1 /\ w_mints w !! p_bmint p = Some m /\
      n = unsold p /\ bal w' (p_bvault p) = bal w (p_bvault p) - n /\
      ((action = 1 /\ p_unsold p = 1 /\ bal w' ct = bal w ct) \/
       (action = 0 /\ p_unsold p <> 1 /\ bal w' ct = bal w ct + (n - tok_fee m n)))
  | EvtEscrowClose k ek owner rr =>
    exists e, o = ICloseEscrow k ek owner rr /\ w_escrows w !! ek = Some e /\ e_presale e = k /\
      e_owner e = owner /\ w_escrows w' !! ek = None
  | EvtCreatorWithdraw k net creator progress =>
    exists ot pr h p p' gross, o = ICreatorWithdraw k ot creator pr h /\ presales_are w w' k p p' /\
      p_owner p = creator /\ p_cwd p = 0 /\ p_cwd p' = 1 /\
      ((progress = 2 /\ succeeded p (w_now w) /\ gross = raise p /\ pays w w' (p_qvault p) ot gross net) \/
       (progress = 3 /\ failed p (w_now w) /\ gross = p_supply p /\ pays w w' (p_bvault p) ot gross net))
  | EvtEscrowRefresh k ek owner now pending =>
    exists e e', o = IRefresh k ek /\ escrows_are w w' ek e e' /\ e_presale e = k /\
      owner = e_owner e' /\ e_owner e' = e_owner e /\ now = w_now w /\ pending = e_pending e'
  | EvtOperatorCreate creator k owner =>
    exists x, o = ICreateOperator owner creator /\ w_opers w !! k = None /\ w_opers w' !! k = Some x /\
      o_owner x = owner /\ o_creator x = creator
  | EvtPermissionedServerMetadataCreate k s url =>
    exists owner x, o = ICreateServer k owner url /\ w_servers w !! s = None /\
      w_servers w' !! s = Some x /\ s_presale x = k /\ s_url x = url
  | EvtPermissionedServerMetadataClose k s =>
    exists owner rr x, o = ICloseServer k s owner rr /\ w_servers w !! s = Some x /\ s_presale x = k /\
      w_servers w' !! s = None
  | EvtCreatorCollectFee k owner net =>
    exists qv qm rcv pr h p p', o = ICollectFee k qv qm rcv owner pr h /\ presales_are w w' k p p' /\
      p_owner p = owner /\ p_fee_col p = 0 /\ p_fee_col p' = 1 /\
      pays w w' (p_qvault p) rcv (fee_income p) net
  | EvtCloseMerkleRootConfig k c owner =>
    exists p rr x, o = ICloseMerkle k c owner rr /\ w_presales w !! k = Some p /\ p_owner p = owner /\
      w_merkles w !! c = Some x /\ k_presale x = k /\ w_merkles w' !! c = None
  end.

(** The events among the effects of an operation. *)
Fixpoint events (l : list fx) : list event :=
  match l with
  | [] => []
  | FxEvent ev :: l => ev :: events l
  | _ :: l => events l
  end.

Lemma events_app a b : events (a ++ b) = events a ++ events b.
Proof. induction a as [|[] a IH]; cbn; rewrite ?IH; reflexivity. Qed.
Lemma elem_events ev l : FxEvent ev ∈ l <-> ev ∈ events l.
Proof.
  induction l as [|x l IH]; cbn.
  - split; intros Hx; inversion Hx.
  - rewrite elem_of_cons. destruct x; try (rewrite <- IH; split; [intros [?|?]; [discriminate|assumption]|auto]).
    rewrite elem_of_cons. rewrite IH. split; (intros [Hx|Hx]; [left; congruence|right; assumption]).
Qed.

(** The instructions without an event. *)
Definition silent (o : op) : bool :=
  match o with ICloseFixedArgs _ _ | IRevokeOperator _ _ => true | _ => env_op o end.

Lemma transfer_silent w pr src mk dst auth n ok w' l :
  tok_transfer w pr src mk dst auth n ok = Ok (w', l) -> events l = [].
Proof.
  intros Hx. apply tok_transfer_inv in Hx as (m' & s & d & dl & _ & _ & _ & _ & _ & _ & _ & _ & _ & _ & Hc).
  destruct Hc as [(_ & _ & ->)|(_ & _ & _ & _ & ->)]; reflexivity.
Qed.
Lemma burn_silent w pr src mk auth n w' l : tok_burn w pr src mk auth n = Ok (w', l) -> events l = [].
Proof. intros Hx. apply tok_burn_inv in Hx as (m & s & dl & _ & _ & _ & _ & _ & _ & _ & _ & ->). reflexivity. Qed.
Lemma paid_silent w pr v mk dst n ok w1 l : paid w pr v mk dst n ok w1 l -> events l = [].
Proof. intros [[_ Hx]|(_ & _ & ->)]; [eapply transfer_silent; eassumption|reflexivity]. Qed.

Lemma moved_pays w w' v dst n fee : moved w w' v dst n fee -> pays w w' v dst n (n - fee).
Proof.
  intros Hm Hne. split.
  - rewrite (Hm v). rewrite decide_False by congruence. rewrite decide_True by reflexivity. reflexivity.
  - rewrite (Hm dst). rewrite decide_False by congruence. rewrite decide_False by assumption.
    rewrite decide_True by reflexivity. reflexivity.
Qed.
Lemma pays_ext w w1 w2 v dst g n : w_tokens w2 = w_tokens w1 -> pays w w1 v dst g n -> pays w w2 v dst g n.
Proof. intros Ht Hp Hne. rewrite !(bal_ext _ _ _ Ht). apply Hp. assumption. Qed.

Lemma events_last l ev : events l = [] -> events (l ++ [FxEvent ev]) = [ev].
Proof. intros Hl. rewrite events_app, Hl. reflexivity. Qed.

Lemma env_silent `{Crypto} w o w' l : env_op o = true -> step w o = Ok (w', l) -> events l = [].
Proof.
  intros Ho Hs. destruct o; try discriminate Ho; cbn [step] in Hs.
  6: { unfold env_transfer in Hs. bi Hs u Hu. bi Hs u2 Hu2. apply checked_Ok in Hs. eapply transfer_silent; eassumption. }
  6: { unfold env_burn in Hs. bi Hs u Hu. bi Hs u2 Hu2. eapply burn_silent; eassumption. }
  all: unfold env_clock, env_create_mint, env_close_mint, env_create_token, env_close_token,
      env_mint_to, env_approve, env_revoke, env_set_owner, env_set_memo, env_set_guard, env_freeze, env_set_fee, env_set_hook,
      env_withdraw_withheld in Hs;
    repeat (let u := fresh in let Hu := fresh in bi Hs u Hu); apply Ok_inj in Hs; injection Hs as _ <-; reflexivity.
Qed.

Lemma slots_lookup l i x : (length l <= 5)%nat -> l !! i = Some x -> slots l !! i = Some (reg_init x).
Proof.
  intros Hl Hi. unfold slots. rewrite lookup_app_l.
  - change (map reg_init l) with (reg_init <$> l). rewrite list_lookup_fmap, Hi. reflexivity.
  - rewrite map_length. eapply lookup_lt_Some. eassumption.
Qed.

Section WithCrypto.
Context `{Crypto}.

(** Every accepted instruction emits exactly one event, as its last effect, and the event is
    true; closing fixed price arguments and revoking an operator emit none (lib.rs:62-66, 109-111),
    and neither does anything outside the program. *)
Theorem C40_events_truthful w o w' l :
  reachable w -> step w o = Ok (w', l) ->
  if silent o then events l = []
  else exists ev, events l = [ev] /\ list.last l = Some (FxEvent ev) /\ truthful w w' o ev.
Proof.
  intros Hw Hs. pose proof (reachable_inv _ Hw) as Hi.
  destruct (env_op o) eqn:Ho.
  { replace (silent o) with true by (destruct o; try discriminate; reflexivity). eapply env_silent; eassumption. }
  assert (Hlast : forall (a : list fx) ev, list.last (a ++ [FxEvent ev]) = Some (FxEvent ev)) by (intros; apply last_snoc).
  destruct o; try discriminate Ho; cbn [silent env_op]; cbn [step] in Hs.
  - apply init_fixed_inv in Hs as (_ & Hn & _ & _ & -> & ->). eexists. split; [reflexivity|]. split; [reflexivity|].
    cbn. eexists _, _, _, _. split; [reflexivity|]. split; [assumption|]. split; [apply lookup_insert|]. auto.
  - apply close_fixed_inv in Hs as (x & _ & _ & _ & -> & ->). reflexivity.
  - assert (Hd : exists k p bm qm gross w1 lx,
      did_init w base bmint qmint payer_token creator payer bprog qprog a h w' l k p bm qm gross w1 lx)
      by (apply init_did; assumption).
    destruct Hd as (k & p & bm & qm & gross & w1 & lx & D).
    apply init_inv in Hs as (bm' & qm' & p' & rest & hooks & rest' & pool & amount & w2 & fx & _ & _ & _ & _ & _ & _ & Hk & _ & _ & _ & _ & _ & _ & _ & _ & _ & _ & _ & _ & Htr & _ & ->).
    eexists. split; [apply events_last; eapply transfer_silent; exact Htr|]. split; [apply Hlast|].
    destruct D. subst k w'. cbn [truthful]. exists base, payer_token, creator, payer, bprog, qprog, a, h, p.
    split; [reflexivity|]. split; [assumption|]. split; [cbn; apply lookup_insert|].
    destruct di_presale. destruct n_lock as (Hlk & Hvs & Hbps & Himm).
    split; [assumption|]. split; [assumption|].
    assert (Hl : p_lock p = match locked_option (ia_locked a) with Some l => lv_lock l | None => 0 end /\
                 p_vest p = match locked_option (ia_locked a) with Some l => lv_vest l | None => 0 end).
    { unfold locked_option. destruct (_ && forallb _ _) eqn:Hz; [|auto]. rewrite !andb_true_iff in Hz. lia. }
    destruct Hl. split; [assumption|]. split; [assumption|]. split; [assumption|]. split; [assumption|].
    split; [assumption|]. split; [assumption|]. split; [assumption|]. split; [assumption|]. split; [assumption|].
    intros i x Hx. exists (reg_init x). split; [|cbn; auto]. rewrite n_regs. apply slots_lookup; [|assumption].
    pose proof (c_nreg _ _ n_cfg). lia.
  - apply create_merkle_inv in Hs as (p & Hp & Hpo & _ & Hn & _ & _ & _ & _ & -> & ->).
    eexists. split; [reflexivity|]. split; [reflexivity|]. cbn. eexists _, _.
    split; [reflexivity|]. split; [eassumption|]. split; [assumption|]. split; [assumption|]. split; [apply lookup_insert|].
    auto.
  - apply close_merkle_inv in Hs as (p & c & Hp & Hcc & Hk & Hpo & _ & _ & _ & -> & ->).
    eexists. split; [reflexivity|]. split; [reflexivity|]. cbn. eexists _, _, _.
    split; [reflexivity|]. split; [eassumption|]. split; [assumption|]. split; [eassumption|]. split; [assumption|].
    apply lookup_delete.
  - apply create_permissionless_inv in Hs as (p & Hp & _ & _ & Hs). apply finish_did in Hs as [r D]; [|assumption..|lia].
    destruct D. subst w' l. eexists. split; [reflexivity|]. split; [reflexivity|]. cbn [truthful].
    eexists 0, _, _, _. split; [reflexivity|]. split; [split; [eassumption|cbn; apply lookup_insert]|].
    split; [assumption|]. split; [cbn; apply lookup_insert|]. cbn. auto 6.
  - apply create_authority_inv in Hs as (p & oo & Hp & _ & _ & _ & _ & _ & _ & Hidx & _ & Hs). apply finish_did in Hs as [r D]; [|assumption..|lia].
    destruct D. subst w' l. eexists. split; [reflexivity|]. split; [reflexivity|]. cbn [truthful].
    eexists idx, _, _, _. split; [reflexivity|]. split; [split; [eassumption|cbn; apply lookup_insert]|].
    split; [assumption|]. split; [cbn; apply lookup_insert|]. cbn. auto 6.
  - apply create_merkle_escrow_inv in Hs as (p & c & Hp & _ & _ & _ & _ & _ & _ & Hidx & _ & Hs). apply finish_did in Hs as [r D]; [|assumption..|lia].
    destruct D. subst w' l. eexists. split; [reflexivity|]. split; [reflexivity|]. cbn [truthful].
    eexists idx, _, _, _. split; [reflexivity|]. split; [split; [eassumption|cbn; apply lookup_insert]|].
    split; [assumption|]. split; [cbn; apply lookup_insert|]. cbn. auto 6.
  - apply create_operator_inv in Hs as (_ & Hn & -> & ->). eexists. split; [reflexivity|]. split; [reflexivity|].
    cbn. eexists. split; [reflexivity|]. split; [assumption|]. split; [apply lookup_insert|]. auto.
  - apply revoke_operator_inv in Hs as (oo & _ & _ & _ & -> & ->). reflexivity.
  - apply deposit_did in Hs; [|assumption]. destruct Hs as (p & p2 & e & r & m & am & fee & gr & w1 & lx & D).
    destruct D. subst l w'. rest_of dd_transfer. eexists.
    split; [apply events_last; eapply transfer_silent; exact dd_transfer|]. split; [apply Hlast|]. cbn [truthful].
    destruct dd_mint as [-> Hm]. pose proof (at_cfg _ _ _ _ _ _ dd_at) as Hc.
    assert (Hp2 : p_deposit p2 = p_deposit p + am /\ p_fee p2 = p_fee p + fee).
    { destruct dd_end as [(_ & _ & ->)|(_ & ->)]; cbn; auto. }
    destruct Hp2 as [Hp2 Hf2].
    eexists _, _, _, _, _, _, e, (esc_deposited e am fee), p, p2. split; [reflexivity|].
    split; [split; [assumption|cbn; apply lookup_insert]|]. split; [split; [assumption|cbn; apply lookup_insert]|].
    split; [assumption|]. split; [reflexivity|]. split; [reflexivity|]. split; [assumption|]. split; [assumption|].
    split; [reflexivity|]. split; [symmetry; assumption|]. split; [assumption|].
    rewrite (c_qvault _ _ Hc). subst qvault.
    pose proof (payer_not_vault _ _ _ _ _ _ _ _ _ _ Hi dd_presale dd_signed dd_transfer) as Hne.
    pose proof (transfer_moved _ _ _ _ _ _ _ _ _ _ _ dd_transfer Hm (PQuoteVault presale)) as Hmv.
    rewrite decide_False in Hmv by assumption. rewrite decide_False in Hmv by congruence.
    rewrite decide_True in Hmv by reflexivity.
    change (bal w1 (PQuoteVault presale) = bal w (PQuoteVault presale) + am + fee). lia.
  - apply withdraw_did in Hs; [|assumption]. destruct Hs as (p & e & r & m & am & w1 & lx & D).
    destruct D. subst l w'. rest_of dw_transfer. eexists.
    split; [apply events_last; eapply transfer_silent; exact dw_transfer|]. split; [apply Hlast|]. cbn [truthful].
    destruct dw_mint as [-> Hm]. pose proof (at_cfg _ _ _ _ _ _ dw_at) as Hc.
    eexists _, _, _, _, _, _, e, _, p, _, am. split; [reflexivity|].
    split; [split; [assumption|cbn; apply lookup_insert]|]. split; [split; [assumption|cbn; apply lookup_insert]|].
    split; [assumption|]. split; [assumption|]. split; [reflexivity|]. split; [reflexivity|].
    split; [reflexivity|]. split; [reflexivity|].
    rewrite (c_qvault _ _ Hc). subst qvault. eapply pays_ext; [|apply moved_pays; eapply transfer_moved; eassumption].
    reflexivity.
  - apply claim_did in Hs; [|assumption]. destruct Hs as (p & e & r & m & w1 & lx & D).
    destruct D. destruct dm_world as (p2 & e2 & -> & -> & ->). subst l. eexists.
    split; [apply events_last; eapply paid_silent; exact dm_paid|]. split; [apply Hlast|]. cbn [truthful].
    destruct dm_mint as [-> Hm]. pose proof (at_cfg _ _ _ _ _ _ dm_at) as Hc.
    eexists _, _, _, _, _, e, _, p, _, (due p r e (w_now w)). split; [reflexivity|].
    split; [split; [assumption|cbn; apply lookup_insert]|]. split; [split; [assumption|cbn; apply lookup_insert]|].
    split; [assumption|]. split; [assumption|]. split; [reflexivity|]. split; [reflexivity|].
    split; [reflexivity|]. split; [reflexivity|].
    rewrite (c_bvault _ _ Hc). subst bvault.
    eapply pays_ext; [|apply moved_pays; eapply paid_moved; [exact (i_tokens _ Hi)|eassumption|eassumption|eassumption]].
    reflexivity.
  - apply refund_did in Hs; [|assumption]. destruct Hs as (p & e & r & m & w1 & lx & D).
    destruct D. subst l w'. eexists.
    split; [apply events_last; eapply paid_silent; exact dr_paid|]. split; [apply Hlast|]. cbn [truthful].
    destruct dr_mint as [-> Hm]. pose proof (at_cfg _ _ _ _ _ _ dr_at) as Hc.
    eexists _, _, _, _, _, e, _, p, _, (refundable p r e). split; [reflexivity|].
    split; [split; [assumption|cbn; apply lookup_insert]|]. split; [split; [assumption|cbn; apply lookup_insert]|].
    split; [assumption|]. split; [assumption|]. split; [assumption|]. split; [reflexivity|]. split; [reflexivity|].
    split; [reflexivity|].
    rewrite (c_qvault _ _ Hc). subst qvault.
    eapply pays_ext; [|apply moved_pays; eapply paid_moved; [exact (i_tokens _ Hi)|eassumption|eassumption|lia]].
    reflexivity.
  - apply unsold_did in Hs; [|assumption]. destruct Hs as (p & m & w1 & lx & D).
    destruct D. subst l w'. destruct du_mint as [-> Hm]. pose proof (q_cfg _ _ _ du_ok) as Hc.
    destruct du_to as (Hct & Hpr & _).
    assert (Hne : creator_token <> PBaseVault presale) by (rewrite Hct; discriminate).
    eexists. split.
    { apply events_last. destruct du_what as [[_ Hx]|[_ Hx]]; [eapply burn_silent; exact Hx|eapply transfer_silent; exact Hx]. }
    split; [apply Hlast|]. cbn [truthful]. eexists _, _, _, _, _, p, _, m. split; [reflexivity|].
    split; [split; [assumption|cbn; apply lookup_insert]|]. split; [assumption|]. split; [reflexivity|].
    split; [assumption|]. split; [reflexivity|]. rewrite (c_bvault _ _ Hc). subst bvault.
    change (bal (upd_presale presale (set_p_unsold_done 1 p) w1)) with (bal w1).
    destruct du_what as [[Ha Hx]|[Ha Hx]].
    + pose proof (burn_bal _ _ _ _ _ _ _ _ Hx) as Hb. rewrite !Hb. rewrite decide_True by reflexivity.
      rewrite decide_False by assumption. split; [reflexivity|]. left. rewrite Ha. auto.
    + destruct (moved_pays _ _ _ _ _ _ (transfer_moved _ _ _ _ _ _ _ _ _ _ _ Hx Hm) Hne) as [-> ->].
      split; [reflexivity|]. right. destruct (Z.eqb_spec (p_unsold p) 1); [lia|]. auto.
  - apply close_did in Hs; [|assumption]. destruct Hs as (p & e & r & D). destruct D. subst l w'.
    eexists. split; [reflexivity|]. split; [reflexivity|]. cbn. exists e. split; [reflexivity|]. split; [assumption|].
    split; [assumption|]. split; [assumption|]. apply lookup_delete.
  - apply creator_did in Hs; [|assumption]. destruct Hs as (p & m & w1 & lx & D). destruct D. subst w'.
    pose proof (q_cfg _ _ _ dcw_ok) as Hc.
    destruct dcw_what as [(Hg & Hm & Hx & ->)|(Hg & Hm & Hx & ->)].
    + eexists. split; [apply events_last; eapply transfer_silent; exact Hx|]. split; [apply Hlast|]. cbn [truthful].
      eexists _, _, _, p, _, (raise p). split; [reflexivity|]. split; [split; [assumption|cbn; apply lookup_insert]|].
      split; [assumption|]. split; [assumption|]. split; [reflexivity|]. left. split; [reflexivity|].
      split; [assumption|]. split; [reflexivity|]. rewrite (c_qvault _ _ Hc).
      eapply pays_ext; [|apply moved_pays; eapply transfer_moved; eassumption]. reflexivity.
    + eexists. split; [apply events_last; eapply transfer_silent; exact Hx|]. split; [apply Hlast|]. cbn [truthful].
      eexists _, _, _, p, _, (p_supply p). split; [reflexivity|]. split; [split; [assumption|cbn; apply lookup_insert]|].
      split; [assumption|]. split; [assumption|]. split; [reflexivity|]. right. split; [reflexivity|].
      split; [assumption|]. split; [reflexivity|]. rewrite (c_bvault _ _ Hc).
      eapply pays_ext; [|apply moved_pays; eapply transfer_moved; eassumption]. reflexivity.
  - apply refresh_did in Hs; [|assumption]. destruct Hs as (p & e & e1 & r & D). destruct D. subst l w'.
    assert (Ho1 : e_owner e1 = e_owner e) by (destruct df_what as [(_ & _ & ->)|(_ & ->)]; reflexivity).
    eexists. split; [reflexivity|]. split; [reflexivity|]. cbn. exists e, e1. split; [reflexivity|].
    split; [split; [assumption|cbn; apply lookup_insert]|]. split; [assumption|]. rewrite Ho1. auto 6.
  - apply create_server_inv in Hs as (p & Hp & _ & _ & Hn & _ & _ & -> & ->).
    eexists. split; [reflexivity|]. split; [reflexivity|]. cbn. eexists _, _. split; [reflexivity|]. split; [assumption|].
    split; [apply lookup_insert|]. auto.
  - apply close_server_inv in Hs as (p & s & Hp & Hn & _ & Hk & _ & _ & -> & ->).
    eexists. split; [reflexivity|]. split; [reflexivity|]. cbn. eexists _, _, _. split; [reflexivity|]. split; [eassumption|].
    split; [assumption|]. apply lookup_delete.
  - apply fee_did in Hs; [|assumption]. destruct Hs as (p & m & w1 & lx & D). destruct D. subst l w'.
    destruct dfe_mint as [-> Hm]. pose proof (q_cfg _ _ _ dfe_ok) as Hc.
    eexists. split; [apply events_last; eapply paid_silent; exact dfe_paid|]. split; [apply Hlast|]. cbn [truthful].
    eexists _, _, _, _, _, p, _. split; [reflexivity|]. split; [split; [assumption|cbn; apply lookup_insert]|].
    split; [assumption|]. split; [assumption|]. split; [reflexivity|]. rewrite (c_qvault _ _ Hc). subst qvault.
    eapply pays_ext; [|apply moved_pays; eapply paid_moved; [exact (i_tokens _ Hi)|eassumption|eassumption|lia]].
    reflexivity.
Qed.

End WithCrypto.

Section WithCrypto.
Context `{Crypto}.

(** * Who the events name *)

(** The person an event about an escrow names as its [owner], and the escrow. *)
Definition named (ev : event) : option (addr * addr) :=
  match ev with
  | EvtDeposit _ ek _ _ _ o _ | EvtWithdraw _ ek _ _ _ o | EvtClaim _ ek _ _ _ o
  | EvtWithdrawRemainingQuote _ ek o _ _ | EvtEscrowClose _ ek o _ | EvtEscrowRefresh _ ek o _ _ => Some (ek, o)
  | _ => None
  end.
Definition is_deposit (o : op) : bool := match o with IDeposit _ _ _ _ _ _ _ _ _ => true | _ => false end.

Lemma truthful_event w o w' l ev :
  reachable w -> step w o = Ok (w', l) -> FxEvent ev ∈ l -> truthful w w' o ev.
Proof.
  intros Hw Hs Hin. pose proof (C40_events_truthful _ _ _ _ Hw Hs) as Ht. apply elem_events in Hin.
  destruct (silent o).
  - rewrite Ht in Hin. inversion Hin.
  - destruct Ht as (ev' & He & _ & Ht). rewrite He in Hin. apply elem_of_list_singleton in Hin. subst ev'. assumption.
Qed.

(** All events about an escrow name its owner, except the deposit event, which names the payer. *)
Theorem C54_named_owner w o w' l ev ek who e :
  reachable w -> step w o = Ok (w', l) -> FxEvent ev ∈ l -> named ev = Some (ek, who) ->
  w_escrows w !! ek = Some e -> is_deposit o = false -> who = e_owner e.
Proof.
  intros Hw Hs Hin Hn He Hnd. pose proof (truthful_event _ _ _ _ _ Hw Hs Hin) as Ht.
  destruct ev; cbn in Hn; try discriminate Hn; injection Hn as -> ->; cbn in Ht.
  - destruct Ht as (qv & qm & pt & pr & mx & h & e1 & e2 & p & p2 & -> & _). discriminate.
  - destruct Ht as (qv & qm & pt & pr & mx & h & e1 & e2 & p & p2 & g & _ & [He1 _] & _ & _ & Hx & _). congruence.
  - destruct Ht as (qv & qm & pt & pr & h & e1 & e2 & p & p2 & g & _ & [He1 _] & _ & _ & Hx & _). congruence.
  - destruct Ht as (qv & qm & pt & pr & h & e1 & e2 & p & p2 & g & _ & [He1 _] & _ & _ & Hx & _). congruence.
  - destruct Ht as (e1 & _ & He1 & _ & Hx & _). congruence.
  - destruct Ht as (e1 & e2 & _ & [He1 _] & _ & Hx & Hy & _). congruence.
Qed.
Theorem C54_deposit_names_payer w o w' l k ek n a b who f :
  reachable w -> step w o = Ok (w', l) -> FxEvent (EvtDeposit k ek n a b who f) ∈ l ->
  exists qv qm pt pr mx h, o = IDeposit k qv qm ek pt who pr mx h /\ is_wallet who = true.
Proof.
  intros Hw Hs Hin. pose proof (truthful_event _ _ _ _ _ Hw Hs Hin) as Ht. cbn in Ht.
  destruct Ht as (qv & qm & pt & pr & mx & h & e1 & e2 & p & p2 & Ho & _ & _ & _ & _ & _ & _ & _ & _ & _ & Hwl & _).
  eauto 10.
Qed.

(** * The start announced *)
Theorem C55_start_announced w o w' l bm qm regs lock vest wl mode start end_ mx mn :
  reachable w -> step w o = Ok (w', l) ->
  FxEvent (EvtPresaleVaultCreate bm qm regs lock vest wl mode start end_ mx mn) ∈ l ->
  exists base p, w_presales w' !! PPresale base bm qm = Some p /\
    p_start p = Z.max start (w_now w) /\ (w_now w <= start -> p_start p = start).
Proof.
  intros Hw Hs Hin. pose proof (truthful_event _ _ _ _ _ Hw Hs Hin) as Ht. cbn in Ht.
  destruct Ht as (base & pt & cr & payer & bp & qp & a & h & p & _ & _ & Hp & _ & _ & _ & _ & _ & _ & Hst & _).
  exists base, p. split; [assumption|]. split; [assumption|]. lia.
Qed.

Lemma event_of w o w' l : reachable w -> step w o = Ok (w', l) -> silent o = false ->
  exists ev, FxEvent ev ∈ l /\ truthful w w' o ev.
Proof.
  intros Hw Hs Hn. pose proof (C40_events_truthful _ _ _ _ Hw Hs) as Ht. rewrite Hn in Ht.
  destruct Ht as (ev & He & _ & Ht). exists ev. split; [|assumption]. apply elem_events. rewrite He. left.
Qed.

(** A deposit paid by somebody else is announced under their name. *)
Lemma deposit_event_of w k qv qm ek pt payer pr mx h w' l e :
  reachable w -> step w (IDeposit k qv qm ek pt payer pr mx h) = Ok (w', l) ->
  w_escrows w !! ek = Some e ->
  exists n a b f, FxEvent (EvtDeposit k ek n a b payer f) ∈ l.
Proof.
  intros Hw Hs He. pose proof (reachable_inv _ Hw) as Hi. cbn [step] in Hs.
  apply deposit_did in Hs; [|assumption]. destruct Hs as (p & p2 & e' & r & m & am & fee & gr & w1 & lx & D).
  destruct D. subst l. eexists _, _, _, _. apply elem_of_app. right. left.
Qed.

Lemma init_event_of w base bm qm pt creator payer bp qp a h w' l :
  reachable w -> step w (IInitPresale base bm qm pt creator payer bp qp a h) = Ok (w', l) ->
  exists lock vest, FxEvent (EvtPresaleVaultCreate bm qm (ia_regs a) lock vest (pa_wl (ia_params a))
    (pa_mode (ia_params a)) (pa_start (ia_params a)) (pa_end (ia_params a)) (pa_max_cap (ia_params a))
    (pa_min_cap (ia_params a))) ∈ l.
Proof.
  intros Hw Hs. cbn [step] in Hs. apply init_inv in Hs as (bm' & qm' & p' & rest & hooks & rest' & pool & amount & w2 & fx & _ & _ & _ & _ & _ & _ & Hk & _ & _ & _ & _ & _ & _ & _ & _ & _ & _ & _ & _ & Htr & _ & ->).
  eexists _, _. apply elem_of_app. right. left.
Qed.
Lemma step_of w o : match step w o with Ok _ => true | Err _ => false end = true -> exists w' l, step w o = Ok (w', l).
Proof. destruct (step w o) as [[w' l]|]; [eauto|discriminate]. Qed.

End WithCrypto.

#[local] Existing Instance toy.

(** carol pays for the escrow of bob: the event names carol. *)
Theorem C54_deposit_event_owner_refuted :
  exists w o w' l k ek n a b who f e,
    reachable w /\ step w o = Ok (w', l) /\ FxEvent (EvtDeposit k ek n a b who f) ∈ l /\
    w_escrows w !! ek = Some e /\ who <> e_owner e.
Proof.
  assert (Hex : exists e, w_escrows w_fx_open !! esc bob 0 = Some e /\ carol <> e_owner e).
  { eexists. split; [vm_compute; reflexivity|]. vm_compute. discriminate. }
  destruct Hex as (e & He & Hne).
  destruct (step_of w_fx_open (dep bob carol_q carol 0 100) ltac:(vm_compute; reflexivity)) as (w' & l & Hs).
  assert (Hr : reachable w_fx_open) by exact (reach fx_open).
  unfold dep in Hs.
  destruct (deposit_event_of w_fx_open _ _ _ _ _ _ _ _ _ _ _ _ Hr Hs He) as (n & a & b & f & Hin).
  exists w_fx_open, (dep bob carol_q carol 0 100), w', l, k1, (esc bob 0), n, a, b, carol, f, e.
  split; [exact Hr|]. split; [exact Hs|]. split; [exact Hin|]. split; [exact He|exact Hne].
Qed.

(** A presale created at time 1500 with a requested start of 1000 starts at 1500; the event
    announces 1000. *)
Definition late_pre : list op := setup ++ [EClock 1500].
Definition w_late_pre : world := run genesis late_pre.
Theorem C55_start_announced_refuted :
  exists w o w' l base bm qm regs lock vest wl mode start end_ mx mn p,
    reachable w /\ step w o = Ok (w', l) /\
    FxEvent (EvtPresaleVaultCreate bm qm regs lock vest wl mode start end_ mx mn) ∈ l /\
    w_presales w' !! PPresale base bm qm = Some p /\ p_start p <> start.
Proof.
  assert (Hr : reachable w_late_pre) by exact (reach late_pre).
  destruct (step_of w_late_pre pr_init ltac:(vm_compute; reflexivity)) as (w' & l & Hs).
  unfold pr_init in Hs.
  destruct (init_event_of w_late_pre _ _ _ _ _ _ _ _ _ _ _ _ Hr Hs) as (lock & vest & Hin).
  destruct (C55_start_announced _ _ _ _ _ _ _ _ _ _ _ _ _ _ _ Hr Hs Hin) as (base & p & Hp & Hst & _).
  assert (Hn : w_now w_late_pre = 1500) by (vm_compute; reflexivity). rewrite Hn in Hst.
  eexists w_late_pre, _, w', l, base, _, _, _, _, _, _, _, _, _, _, _, p.
  split; [exact Hr|]. split; [exact Hs|]. split; [exact Hin|]. split; [exact Hp|].
  rewrite Hst. vm_compute. discriminate.
Qed.

(** Claims are paid net of the 2% transfer fee of the base token, and the event says so:
    the wallet gains 1196 of the 1221 base units that leave the vault. *)
Example C40_claim_example :
  match step w_pr_over (getb bob bob_b 0) with
  | Ok (w', l) => Some (events l, bal w' bob_b - bal w_pr_over bob_b)
  | Err _ => None
  end = Some ([EvtClaim k1 (esc bob 0) 1196 1221 1221 bob], 1196).
Proof. vm_compute. reflexivity. Qed.
(** A third party pays for bob's escrow: the event carries the payer, the escrow total and the
    presale total; the vault takes the deposit and the deposit fee. *)
Example C40_deposit_example :
  match step w_fx_open (dep bob carol_q carol 0 100) with
  | Ok (w', l) => Some (events l, bal w' (PQuoteVault k1) - bal w_fx_open (PQuoteVault k1))
  | Err _ => None
  end = Some ([EvtDeposit k1 (esc bob 0) 100 298 1098 carol 1], 101).
Proof. vm_compute. reflexivity. Qed.
