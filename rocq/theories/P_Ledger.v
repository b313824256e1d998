(** Whole-history accounts of one presale.
    C51: every token ever paid into or out of the two vaults by the program is explained by the
    fields of the presale account.  C52: nothing gets lost: what buyers receive over the whole
    life of a presale adds up to everything sold, up to rounding dust of the number of buyers. *)
From Coq Require Import Lia.
From Verif Require Import Base Math State Handlers Token World Instr Exec Spec Tactics Sums Arith
  TokenFacts Inv Acct Funs Steps Init Preserve Reach Did Trans Flow Scenario P_Solvency P_History P_Arith.

(** * Categories of token flow of a presale [k], read off the effects of a transaction *)

Inductive flow_kind :=
  | KFunding     (* base paid in at creation *)
  | KDeposit     (* quote paid in by deposits *)
  | KBack        (* quote withdrawn while the presale is open *)
  | KRefund      (* quote refunded after the end *)
  | KClaim       (* base claimed *)
  | KRaise       (* quote withdrawn by the creator *)
  | KReturned    (* base withdrawn by the creator of a failed presale *)
  | KFees        (* deposit fees collected by the creator *)
  | KUnsold.     (* unsold base burned or returned *)

Definition flow (k : addr) (c : flow_kind) (o : op) (l : list fx) : Z :=
  match o, c with
  | IInitPresale base bm qm _ _ _ _ _ _ _, KFunding =>
      if decide (PPresale base bm qm = k) then received_by (PBaseVault k) l else 0
  | IDeposit k' _ _ _ _ _ _ _ _, KDeposit => if decide (k' = k) then received_by (PQuoteVault k) l else 0
  | IWithdraw k' _ _ _ _ _ _ _ _, KBack => if decide (k' = k) then sent_from (PQuoteVault k) l else 0
  | IWithdrawRemaining k' _ _ _ _ _ _ _, KRefund =>
      if decide (k' = k) then sent_from (PQuoteVault k) l else 0
  | IClaim k' _ _ _ _ _ _ _, KClaim => if decide (k' = k) then sent_from (PBaseVault k) l else 0
  | ICreatorWithdraw k' _ _ _ _, KRaise => if decide (k' = k) then sent_from (PQuoteVault k) l else 0
  | ICreatorWithdraw k' _ _ _ _, KReturned => if decide (k' = k) then sent_from (PBaseVault k) l else 0
  | ICollectFee k' _ _ _ _ _ _, KFees => if decide (k' = k) then sent_from (PQuoteVault k) l else 0
  | IUnsold k' _ _ _ _ _, KUnsold => if decide (k' = k) then sent_from (PBaseVault k) l else 0
  | _, _ => 0
  end.

Definition reg_key (r : registry) :=
  ((r_supply r, r_min_cap r, r_max_cap r, r_fee_bps r), (r_deposit r, r_fee r)).

Lemma map_pair {A B C} (f : A -> B) (g : A -> C) l l' :
  map f l' = map f l -> map g l' = map g l -> map (fun x => (f x, g x)) l' = map (fun x => (f x, g x)) l.
Proof.
  revert l. induction l' as [|x l' IH]; intros [|y l] H1 H2; try discriminate; [reflexivity|].
  cbn in *. injection H1 as -> H1. injection H2 as -> H2. f_equal. auto.
Qed.
Lemma lsum_same {A B} (g : A -> B) (f f' : A -> Z) l l' :
  map g l' = map g l -> (forall r r', g r' = g r -> f' r' = f r) -> lsum f' l' = lsum f l.
Proof.
  intros Hm Hf. revert l Hm. induction l' as [|x l' IH]; intros [|y l] H1; try discriminate; [reflexivity|].
  cbn in *. injection H1 as Hx H1. rewrite (Hf y x Hx), (IH _ H1). reflexivity.
Qed.
Lemma map_lookup_same {A B} (g : A -> B) l l' i r' :
  map g l' = map g l -> l' !! i = Some r' -> exists r, l !! i = Some r /\ g r' = g r.
Proof.
  intros Hm Hr. assert (Hx : (g <$> l') !! i = Some (g r')) by (rewrite list_lookup_fmap, Hr; reflexivity).
  change (g <$> l') with (map g l') in Hx. rewrite Hm in Hx. change (map g l) with (g <$> l) in Hx.
  rewrite list_lookup_fmap in Hx. destruct (l !! i) as [r|]; [|discriminate]. injection Hx as Hx. eauto.
Qed.

(** Everything that the settlement depends on. *)
Lemma same_money p p' :
  terms_of p' = terms_of p -> deposits_of p' = deposits_of p ->
  p_supply p' = p_supply p /\ p_deposit p' = p_deposit p /\ p_fee p' = p_fee p /\
  p_min_cap p' = p_min_cap p /\ p_max_cap p' = p_max_cap p /\
  map reg_key (p_regs p') = map reg_key (p_regs p) /\
  fee_income p' = fee_income p /\ unsold p' = unsold p /\ raise p' = raise p.
Proof.
  intros Ht Hd. unfold terms_of, deposits_of in Ht, Hd.
  injection Hd as D1 D2 D3. injection Ht as T1 T2 T3 T4 T5 T6 T7 T8 T9 T10 T11 T12 T13 T14 T15 T16 T17 T18 T19 T20 T21 T22 T23 T24.
  pose proof (map_pair _ _ _ _ T24 D3) as Hk.
  fold reg_key in Hk. change (fun x : registry => (r_supply x, r_min_cap x, r_max_cap x, r_fee_bps x, (r_deposit x, r_fee x)))
    with reg_key in Hk.
  repeat (split; [assumption|]). split; [|split].
  - unfold fee_income. apply (lsum_same reg_key); [assumption|]. intros r r' Hr. injection Hr as R1 R2 R3 R4 R5 R6.
    unfold reg_fee_excess, reg_excess, excess. congruence.
  - unfold unsold, total_sold. f_equal; [assumption|]. apply (lsum_same reg_key); [assumption|].
    intros r r' Hr. injection Hr as R1 R2 R3 R4 R5 R6. unfold sold, bought.
    assert (Hmode : p_mode p' = p_mode p) by assumption. assert (Hraw : p_raw0 p' = p_raw0 p) by assumption.
    rewrite Hmode, Hraw, R1, R5. reflexivity.
  - unfold raise. congruence.
Qed.

(** * C51 *)

Record ledger_of (p : presale) (F : flow_kind -> Z) : Prop := {
  lg_funding : F KFunding = p_supply p;
  lg_deposit : F KDeposit - F KBack = p_deposit p + p_fee p;
  lg_refund : F KRefund = p_refunded p;
  lg_claim : F KClaim = p_claimed p;
  lg_raise : F KRaise = if (p_cwd p =? 1) && (p_min_cap p <=? p_deposit p)
                        then Z.min (p_deposit p) (p_max_cap p) else 0;
  lg_returned : F KReturned = if (p_cwd p =? 1) && (p_deposit p <? p_min_cap p) then p_supply p else 0;
  lg_fees : F KFees = if p_fee_col p =? 1 then fee_income p else 0;
  lg_unsold : F KUnsold = if p_unsold_done p =? 1 then unsold p else 0
}.
Definition ledger (w : world) (k : addr) (F : flow_kind -> Z) : Prop :=
  match w_presales w !! k with
  | Some p => ledger_of p F
  | None => forall c, F c = 0
  end.

Section WithCrypto.
Context `{Crypto}.

Lemma sent_other w pr src mk dst auth n ok w' l ev v :
  tok_transfer w pr src mk dst auth n ok = Ok (w', l) -> src <> v -> sent_from v (l ++ [FxEvent ev]) = 0.
Proof.
  intros Hx Hne. apply tok_transfer_inv in Hx as (m & s & d & dl & _ & _ & _ & _ & _ & _ & _ & _ & _ & _ & Hc).
  destruct Hc as [(_ & _ & ->)|(_ & _ & _ & _ & ->)]; cbn; rewrite decide_False by assumption; lia.
Qed.
Lemma burn_sent w pr src mk auth n w' l ev :
  tok_burn w pr src mk auth n = Ok (w', l) -> sent_from src (l ++ [FxEvent ev]) = n.
Proof.
  intros Hx. apply tok_burn_inv in Hx as (m & s & dl & _ & Hs & _ & _ & _ & _ & _ & _ & ->).
  cbn. rewrite decide_True by reflexivity. lia.
Qed.

Lemma ledger_ext w k F F' : (forall c, F' c = F c) -> ledger w k F -> ledger w k F'.
Proof.
  intros HF. unfold ledger. destruct (w_presales w !! k) as [p|].
  - intros []. constructor; rewrite ?HF; assumption.
  - intros Hx c. rewrite HF. apply Hx.
Qed.

Lemma ledger_step w o w' l k F :
  inv w -> step w o = Ok (w', l) -> ledger w k F -> ledger w' k (fun c => F c + flow k c o l).
Proof.
  intros Hi Hs HL. pose proof (step_does _ _ _ _ Hi Hs) as Hd.
  assert (Hkeep : (forall c, flow k c o l = 0) -> w_presales w' !! k = w_presales w !! k ->
                  ledger w' k (fun c => F c + flow k c o l)).
  { intros Hz Hn. apply (ledger_ext _ _ F); [intros c; rewrite Hz; lia|].
    unfold ledger in *. rewrite Hn. assumption. }
  assert (Hquiet : forall p p', w_presales w !! k = Some p -> w_presales w' !! k = Some p' ->
      terms_of p' = terms_of p -> deposits_of p' = deposits_of p ->
      forall (HF : ledger_of p F),
      F KFunding + flow k KFunding o l = p_supply p ->
      F KDeposit + flow k KDeposit o l - (F KBack + flow k KBack o l) = p_deposit p + p_fee p ->
      F KRefund + flow k KRefund o l = p_refunded p' -> F KClaim + flow k KClaim o l = p_claimed p' ->
      F KRaise + flow k KRaise o l = (if (p_cwd p' =? 1) && (p_min_cap p <=? p_deposit p)
                                      then Z.min (p_deposit p) (p_max_cap p) else 0) ->
      F KReturned + flow k KReturned o l =
        (if (p_cwd p' =? 1) && (p_deposit p <? p_min_cap p) then p_supply p else 0) ->
      F KFees + flow k KFees o l = (if p_fee_col p' =? 1 then fee_income p else 0) ->
      F KUnsold + flow k KUnsold o l = (if p_unsold_done p' =? 1 then unsold p else 0) ->
      ledger w' k (fun c => F c + flow k c o l)).
  { intros p p' Hp Hp' Ht Hdp HF F1 F2 F3 F4 F5 F6 F7 F8.
    destruct (same_money _ _ Ht Hdp) as (S1 & S2 & S3 & S4 & S5 & _ & S6 & S7 & _).
    unfold ledger. rewrite Hp'. constructor; rewrite ?S1, ?S2, ?S3, ?S4, ?S5, ?S6, ?S7; assumption. }
  unfold ledger in HL.
  destruct Hd as
    [Henv Hsp Hnow|Haux _ Hpr _ _ _ _
    |base bm0 qm0 pt cr pay bp qp a h0 k0 p0 bm qm gross w1 lx Ho D|k0 owner idx cap p0 r Ho D
    |k0 qv qm ek0 pt payer pr mx h0 p0 p2 e r m amount fee gross w1 lx Ho D
    |k0 qv qm ek0 ot owner pr mx h0 p0 e r m amount w1 lx Ho D
    |k0 qv qm ek0 ot owner pr h0 p0 e r m w1 lx Ho D|k0 bv bm ek0 ot owner pr h0 p0 e r m w1 lx Ho D
    |k0 ek0 p0 e e1 r Ho D|k0 ek0 owner rr p0 e r Ho D|k0 ot owner pr h0 p0 m w1 lx Ho D
    |k0 qv qm rcv owner pr h0 p0 m w1 lx Ho D
    |k0 bv bm ct pr h0 p0 m w1 lx Ho D].
  - apply Hkeep; [intros c; destruct o; try discriminate; destruct c; reflexivity|].
    rewrite (sp_presales _ _ Hsp). reflexivity.
  - apply Hkeep; [intros c; destruct o; try discriminate; destruct c; reflexivity|]. congruence.
  - subst o. destruct (decide (k0 = k)) as [->|Hne].
    + destruct D. destruct di_new as (Hnone & _ & _). rewrite Hnone in HL.
      unfold ledger. rewrite di_world. cbn [w_presales upd_presale]. cbn. rewrite lookup_insert.
      destruct di_fx as [ev ->].
      assert (Hrec : received_by (PBaseVault k) (lx ++ [FxEvent ev]) = p_supply p0).
      { assert (Hpt : pt <> PBaseVault k).
        { intros ->. apply tok_transfer_inv in di_transfer as (m0 & s & d & dl & Hm & Hsrc & _ & _ & _ & _ & _ & _ & _ & Hau & _).
          cbn in Hsrc. rewrite lookup_insert_ne in Hsrc by discriminate. rewrite lookup_insert in Hsrc.
          injection Hsrc as <-.
          destruct di_mints as (Hbm & _ & _ & _ & Hsup & _). cbn in Hm. assert (m0 = bm) as -> by congruence.
          unfold tok_authorize in Hau. rewrite (supported_no_delegate _ Hsup) in Hau. cbn in Hau.
          bq Hau Hb. cbn in Hb. apply beq_addr_true in Hb. destruct di_signed as [_ Hw]. subst pay. discriminate. }
        assert (Hmm : w_mints (with_vaults k bm0 qm0 w) !! bm0 = Some bm).
        { cbn. apply di_mints. }
        rewrite (transfer_fx _ _ _ _ _ _ _ _ _ _ _ di_transfer Hmm). cbn.
        rewrite decide_True by reflexivity. rewrite decide_False by assumption.
        destruct di_gross. lia. }
      destruct di_presale.
      assert (Hz : p_deposit p0 = 0 /\ p_fee p0 = 0 /\ p_refunded p0 = 0 /\ p_claimed p0 = 0 /\
        p_cwd p0 = 0 /\ p_fee_col p0 = 0 /\ p_unsold_done p0 = 0) by tauto.
      destruct Hz as (Z1 & Z2 & Z3 & Z4 & Z5 & Z6 & Z7).
      constructor; cbn [flow]; rewrite ?HL, ?Z1, ?Z2, ?Z3, ?Z4, ?Z5, ?Z6, ?Z7; cbn; try lia.
      rewrite decide_True by (symmetry; assumption). lia.
    + apply Hkeep.
      * intros c; destruct c; try reflexivity. cbn. destruct D. rewrite decide_False by congruence. reflexivity.
      * destruct D. rest_of di_transfer. subst w'. cbn. rewrite lookup_insert_ne by congruence. rewrite Rp. reflexivity.
  - destruct (decide (k0 = k)) as [->|Hne].
    + destruct D. rewrite dc_presale in HL.
      assert (Hz : forall c, flow k c o l = 0) by (intros c; destruct o; try discriminate; destruct c; reflexivity).
      eapply (Hquiet p0); [assumption|subst w'; cbn; apply lookup_insert|same_regs|same_regs|assumption|..];
        rewrite ?Hz; cbn; destruct HL; lia.
    + apply Hkeep; [intros c; destruct o; try discriminate; destruct c; reflexivity|].
      destruct D. subst w'. cbn. rewrite lookup_insert_ne by congruence. reflexivity.
  - subst o. destruct (decide (k0 = k)) as [->|Hne].
    + destruct D. destruct dd_mint as [Hqm Hm]. subst qv qm.
      pose proof (payer_not_vault _ _ _ _ _ _ _ _ _ _ Hi dd_presale dd_signed dd_transfer) as Hpt.
      pose proof (deposit_received _ _ _ _ _ _ _ _ _ _ m
        (EvtDeposit k ek0 amount (e_deposit e + amount) (p_deposit p0 + amount) payer fee) dd_transfer Hpt Hm) as Hrec.
      rewrite <- dd_fx in Hrec. rewrite dd_presale in HL.
      destruct (f_flags _ _ _ (a_fresh _ _ _ _ (at_acct _ _ _ _ _ _ dd_at) ltac:(apply dd_open))) as (Z1 & Z2 & Z3).
      unfold ledger. rewrite dd_world. cbn. rewrite lookup_insert.
      destruct HL as [L1 L2 L3 L4 L5 L6 L7 L8]. rewrite Z1 in *. rewrite Z2 in L7. rewrite Z3 in L8.
      cbn in L5, L6, L7, L8.
      assert (Hz : p_supply p2 = p_supply p0 /\ p_deposit p2 = p_deposit p0 + amount /\ p_fee p2 = p_fee p0 + fee /\
        p_refunded p2 = p_refunded p0 /\ p_claimed p2 = p_claimed p0 /\ p_cwd p2 = 0 /\ p_fee_col p2 = 0 /\
        p_unsold_done p2 = 0).
      { destruct dd_end as [(_ & _ & ->)|(_ & ->)]; cbn; repeat split; assumption. }
      destruct Hz as (Y1 & Y2 & Y3 & Y4 & Y5 & Y6 & Y7 & Y8).
      constructor; cbn [flow]; rewrite ?Y1, ?Y2, ?Y3, ?Y4, ?Y5, ?Y6, ?Y7, ?Y8; cbn; try lia.
      rewrite decide_True by reflexivity. lia.
    + apply Hkeep.
      * intros c; destruct c; try reflexivity. cbn. rewrite decide_False by congruence. reflexivity.
      * destruct D. rest_of dd_transfer. subst w'. cbn. rewrite lookup_insert_ne by congruence. congruence.
  - subst o. destruct (decide (k0 = k)) as [->|Hne].
    + destruct D. destruct dw_mint as [Hqm Hm]. subst qv qm.
      pose proof (transfer_sent _ _ _ _ _ _ _ _ _ _ (EvtWithdraw k ek0 (amount - tok_fee m amount)
        (e_deposit e - amount) (p_deposit p0 - amount) owner) dw_transfer) as Hsent.
      rewrite <- dw_fx in Hsent. rewrite dw_presale in HL.
      destruct (f_flags _ _ _ (a_fresh _ _ _ _ (at_acct _ _ _ _ _ _ dw_at) ltac:(apply dw_open))) as (Z1 & Z2 & Z3).
      unfold ledger. rewrite dw_world. cbn. rewrite lookup_insert.
      destruct HL as [L1 L2 L3 L4 L5 L6 L7 L8]. rewrite Z1 in *. rewrite Z2 in L7. rewrite Z3 in L8.
      cbn in L5, L6, L7, L8.
      constructor; cbn; rewrite ?Z1, ?Z2, ?Z3; cbn; try lia.
      rewrite decide_True by reflexivity. lia.
    + apply Hkeep.
      * intros c; destruct c; try reflexivity. cbn. rewrite decide_False by congruence. reflexivity.
      * destruct D. rest_of dw_transfer. subst w'. cbn. rewrite lookup_insert_ne by congruence. congruence.
  - subst o. destruct (decide (k0 = k)) as [->|Hne].
    + destruct D. subst qv. pose proof (paid_sent _ _ _ _ _ _ _ _ _ (EvtWithdrawRemainingQuote k ek0 owner
        (refundable p0 r e - tok_fee m (refundable p0 r e)) (p_refunded p0 + refundable p0 r e)) dr_paid ltac:(lia)) as Hsent.
      rewrite <- dr_fx in Hsent. rewrite dr_presale in HL.
      eapply (Hquiet p0); [assumption|subst w'; cbn; apply lookup_insert|same_regs|same_regs|assumption|..];
        cbn; destruct HL; rewrite ?decide_True by reflexivity; rewrite ?Hsent; cbn; lia.
    + apply Hkeep.
      * intros c; destruct c; try reflexivity. cbn. rewrite decide_False by congruence. reflexivity.
      * destruct D. rest_of dr_paid. subst w'. cbn. rewrite lookup_insert_ne by congruence. congruence.
  - subst o. destruct (decide (k0 = k)) as [->|Hne].
    + destruct D. subst bv. pose proof (paid_sent _ _ _ _ _ _ _ _ _ (EvtClaim k ek0
        (due p0 r e (w_now w) - tok_fee m (due p0 r e (w_now w)))
        (e_claimed e + due p0 r e (w_now w)) (p_claimed p0 + due p0 r e (w_now w)) owner) dm_paid ltac:(lia)) as Hsent.
      rewrite <- dm_fx in Hsent. rewrite dm_presale in HL. destruct dm_world as (p2 & e2 & Hw' & _ & Hp2).
      eapply (Hquiet p0 p2); [assumption|rewrite Hw'; cbn; apply lookup_insert|rewrite Hp2; same_regs
        |rewrite Hp2; same_regs|assumption|..];
        rewrite ?Hp2; cbn; destruct HL; rewrite ?decide_True by reflexivity; rewrite ?Hsent; cbn; lia.
    + apply Hkeep.
      * intros c; destruct c; try reflexivity. cbn. rewrite decide_False by congruence. reflexivity.
      * destruct D. rest_of dm_paid. destruct dm_world as (p2 & e2 & -> & _).
        cbn. rewrite lookup_insert_ne by congruence. congruence.
  - subst o. apply Hkeep; [intros c; destruct c; reflexivity|]. destruct D. subst w'. reflexivity.
  - subst o. destruct (decide (k0 = k)) as [->|Hne].
    + destruct D. rewrite dx_presale in HL.
      eapply (Hquiet p0); [assumption|subst w'; cbn; apply lookup_insert|same_regs|same_regs|assumption|..];
        cbn; destruct HL; lia.
    + apply Hkeep; [intros c; destruct c; reflexivity|].
      destruct D. subst w'. cbn. rewrite lookup_insert_ne by congruence. reflexivity.
  - subst o. destruct (decide (k0 = k)) as [->|Hne].
    + destruct D. rewrite dcw_presale in HL.
      assert (Hsent : (succeeded p0 (w_now w) /\ sent_from (PQuoteVault k) l = raise p0 /\ sent_from (PBaseVault k) l = 0) \/
        (failed p0 (w_now w) /\ sent_from (PQuoteVault k) l = 0 /\ sent_from (PBaseVault k) l = p_supply p0)).
      { destruct dcw_what as [(Hst & _ & Ht & ->)|(Hst & _ & Ht & ->)]; [left|right]; (split; [assumption|]).
        - split; [eapply transfer_sent; eassumption|eapply sent_other; [eassumption|discriminate]].
        - split; [eapply sent_other; [eassumption|discriminate]|eapply transfer_sent; eassumption]. }
      eapply (Hquiet p0); [assumption|subst w'; cbn; apply lookup_insert|same_regs|same_regs|assumption|..];
        cbn; destruct HL as [L1 L2 L3 L4 L5 L6 L7 L8]; try lia;
        rewrite dcw_once in L5, L6; cbn in L5, L6; rewrite ?decide_True by reflexivity;
        destruct Hsent as [([? ?] & S1 & S2)|([? ?] & S1 & S2)]; rewrite ?S1, ?S2; unfold raise.
      * replace (p_min_cap p0 <=? p_deposit p0) with true by lia. lia.
      * replace (p_min_cap p0 <=? p_deposit p0) with false by lia. lia.
      * replace (p_deposit p0 <? p_min_cap p0) with false by lia. lia.
      * replace (p_deposit p0 <? p_min_cap p0) with true by lia. lia.
    + apply Hkeep.
      * intros c; destruct c; try reflexivity; cbn; rewrite decide_False by congruence; reflexivity.
      * destruct D. subst w'. cbn. rewrite lookup_insert_ne by congruence.
        destruct dcw_what as [(_ & _ & Ht & _)|(_ & _ & Ht & _)]; rest_of Ht; congruence.
  - subst o. destruct (decide (k0 = k)) as [->|Hne].
    + destruct D. subst qv. pose proof (paid_sent _ _ _ _ _ _ _ _ _ (EvtCreatorCollectFee k owner
                                (fee_income p0 - tok_fee m (fee_income p0))) dfe_paid ltac:(lia)) as Hsent.
      rewrite <- dfe_fx in Hsent. rewrite dfe_presale in HL.
      eapply (Hquiet p0); [assumption|subst w'; cbn; apply lookup_insert|same_regs|same_regs|assumption|..];
        cbn; destruct HL as [L1 L2 L3 L4 L5 L6 L7 L8]; try lia.
      rewrite dfe_once in L7. cbn in L7. rewrite ?decide_True by reflexivity. rewrite Hsent. lia.
    + apply Hkeep.
      * intros c; destruct c; try reflexivity. cbn. rewrite decide_False by congruence. reflexivity.
      * destruct D. rest_of dfe_paid. subst w'. cbn. rewrite lookup_insert_ne by congruence. congruence.
  - subst o. destruct (decide (k0 = k)) as [->|Hne].
    + destruct D. subst bv. rewrite du_presale in HL.
      assert (Hsent : sent_from (PBaseVault k) l = unsold p0).
      { rewrite du_fx. destruct du_what as [(_ & Ht)|(_ & Ht)];
          [eapply burn_sent; eassumption|eapply transfer_sent; eassumption]. }
      eapply (Hquiet p0); [assumption|subst w'; cbn; apply lookup_insert|same_regs|same_regs|assumption|..];
        cbn; destruct HL as [L1 L2 L3 L4 L5 L6 L7 L8]; try lia.
      rewrite du_once in L8. cbn in L8. rewrite ?decide_True by reflexivity. rewrite Hsent. lia.
    + apply Hkeep.
      * intros c; destruct c; try reflexivity. cbn. rewrite decide_False by congruence. reflexivity.
      * destruct D. subst w'. cbn. rewrite lookup_insert_ne by congruence.
        destruct du_what as [(_ & Ht)|(_ & Ht)]; rest_of Ht; congruence.
Qed.


Lemma ledger_run l k : ledger (run genesis l) k (fun c => lifetime (flow k c) genesis l).
Proof.
  induction l as [|o l IH] using rev_ind.
  - unfold ledger. cbn. rewrite lookup_empty. reflexivity.
  - rewrite run_snoc. unfold exec. destruct (step (run genesis l) o) as [[w' x]|] eqn:Hs.
    + pose proof (ledger_step _ _ _ _ k _ (reachable_inv _ (ex_intro _ l eq_refl)) Hs IH) as Hx.
      eapply ledger_ext; [|exact Hx]. intros c. rewrite lifetime_snoc, Hs. reflexivity.
    + eapply ledger_ext; [|exact IH]. intros c. rewrite lifetime_snoc, Hs. lia.
Qed.

(** Every token the program ever moved into or out of the vaults of presale [k] is accounted for by
    the presale account. *)
Theorem C51_ledger l k p :
  w_presales (run genesis l) !! k = Some p ->
  let total c := lifetime (flow k c) genesis l in
  total KFunding = p_supply p /\
  total KDeposit = total KBack + p_deposit p + p_fee p /\
  total KRefund = p_refunded p /\
  total KClaim = p_claimed p /\
  total KRaise = (if (p_cwd p =? 1) && (p_min_cap p <=? p_deposit p)
                  then Z.min (p_deposit p) (p_max_cap p) else 0) /\
  total KReturned = (if (p_cwd p =? 1) && (p_deposit p <? p_min_cap p) then p_supply p else 0) /\
  total KFees = (if p_fee_col p =? 1 then fee_income p else 0) /\
  total KUnsold = (if p_unsold_done p =? 1 then unsold p else 0).
Proof.
  intros Hp total. pose proof (ledger_run l k) as HL. unfold ledger in HL. rewrite Hp in HL.
  destruct HL as [L1 L2 L3 L4 L5 L6 L7 L8]. unfold total.
  split; [exact L1|]. split; [lia|]. auto 8.
Qed.

Lemma owed_nonneg w k p :
  inv w -> w_presales w !! k = Some p ->
  0 <= owed_quote (w_now w) k p (w_escrows w) /\ 0 <= owed_base (w_now w) k p (w_escrows w).
Proof.
  intros Hi Hp. pose proof (i_presales _ Hi _ _ Hp) as Hok. pose proof (q_cfg _ _ _ Hok) as Hc.
  pose proof (q_acct _ _ _ Hok) as Ha. pose proof (a_books _ _ _ _ Ha) as Hb.
  pose proof (books_totals _ _ _ Hb) as Ht. pose proof (c_caps _ _ Hc) as Hcap.
  pose proof (supply_nonneg _ _ Hc) as Hsup.
  assert (Hes : forall f, (forall ek e, w_escrows w !! ek = Some e -> e_presale e = k -> 0 <= f e) ->
    0 <= escrow_sum (w_escrows w) k f).
  { intros f Hf. apply msum_nonneg. intros ek e He. destruct (bool_decide _) eqn:Hbd; [|lia].
    clean_bool. eauto. }
  split.
  - unfold owed_quote.
    assert (Hbase : forall ek e, w_escrows w !! ek = Some e -> e_presale e = k -> 0 <= e_deposit e + e_fee e).
    { intros ek e He Hk. destruct (a_esc _ _ _ _ Ha _ _ He Hk). lia. }
    destruct (_ <? _); [apply Hes; assumption|]. destruct (_ <? _).
    { apply Hes. intros ek e He Hk. specialize (Hbase ek e He Hk). destruct (_ =? _); lia. }
    pose proof (fee_income_range k p _ Hc Hb) as Hfr.
    assert (0 <= escrow_sum (w_escrows w) k (fun e =>
        if e_withdrawn e =? 1 then 0
        else match p_regs p !! Z.to_nat (e_idx e) with
             | Some r => share_deposit p r (e_deposit e) + share_fee p r (e_fee e)
             | None => 0
             end)).
    { apply Hes. intros ek e He Hk. destruct (a_esc _ _ _ _ Ha _ _ He Hk). destruct (_ =? _); [lia|].
      destruct (p_regs p !! _) as [r|] eqn:Hr; [|lia].
      pose proof (books_reg_le _ _ _ _ _ Hb Hr) as (Hd & Hf & _).
      pose proof (reg_excess_range p r ltac:(lia) ltac:(lia)) as Hx.
      pose proof (reg_fee_excess_range p r ltac:(lia) ltac:(lia) ltac:(lia)) as Hfx.
      unfold share_deposit, share_fee.
      pose proof (fl_nonneg (e_deposit e) (reg_excess p r) (r_deposit r) ltac:(lia) ltac:(lia) ltac:(lia)).
      pose proof (fl_nonneg (e_fee e) (reg_fee_excess p r) (r_fee r) ltac:(lia) ltac:(lia) ltac:(lia)). lia. }
    destruct (p_cwd p =? 1); destruct (p_fee_col p =? 1); lia.
  - unfold owed_base. destruct (_ <? _); [lia|]. destruct (_ <? _); [destruct (_ =? _); lia|].
    assert (0 <= escrow_sum (w_escrows w) k (fun e =>
        match p_regs p !! Z.to_nat (e_idx e) with
        | Some r => final p r (e_deposit e) - e_claimed e
        | None => 0
        end)).
    { apply Hes. intros ek e He Hk. pose proof (a_esc _ _ _ _ Ha _ _ He Hk) as Hs.
      destruct (p_regs p !! _) as [r|] eqn:Hr; [|lia]. pose proof (s_reg _ _ _ _ _ Hs _ Hr) as (_ & _ & Hle).
      destruct (b_nonneg _ _ _ Hb _ _ Hr) as (Hrd & _). destruct Hs.
      pose proof (entitled_le_final _ _ _ _ (e_deposit e) (w_now w) Hc Hr Hrd ltac:(lia)). lia. }
    assert (0 <= unsold p); [|destruct (p_unsold_done p =? 1); lia].
    unfold unsold, total_sold. rewrite (c_supply _ _ Hc).
    enough (lsum (sold p) (p_regs p) <= lsum r_supply (p_regs p)) by lia.
    apply lsum_le. apply (elem_reg (fun r => sold p r <= r_supply r) p). intros i r Hr.
    destruct (b_nonneg _ _ _ Hb _ _ Hr) as (Hrd & _). apply (sold_range _ _ _ _ Hc Hr Hrd).
Qed.

(** Payments out never exceed payments in: the difference covers everything still owed, and the
    vaults hold at least the difference. *)
Theorem C51_vaults_hold_the_rest l k p :
  w_presales (run genesis l) !! k = Some p ->
  let total c := lifetime (flow k c) genesis l in
  let quote_left := total KDeposit - total KBack - total KRefund - total KRaise - total KFees in
  let base_left := total KFunding - total KClaim - total KReturned - total KUnsold in
  0 <= owed_quote (w_now (run genesis l)) k p (w_escrows (run genesis l)) <= quote_left /\
  quote_left <= bal (run genesis l) (PQuoteVault k) /\
  0 <= owed_base (w_now (run genesis l)) k p (w_escrows (run genesis l)) <= base_left /\
  base_left <= bal (run genesis l) (PBaseVault k).
Proof.
  intros Hp total quote_left base_left. pose proof (ledger_run l k) as HL. unfold ledger in HL. rewrite Hp in HL.
  assert (Hw : reachable (run genesis l)) by (exists l; reflexivity).
  pose proof (reachable_inv _ Hw) as Hi. pose proof (i_presales _ Hi _ _ Hp) as Hok.
  pose proof (vault_bal _ _ _ _ (q_qvault _ _ _ Hok)) as Hq.
  pose proof (vault_bal _ _ _ _ (q_bvault _ _ _ Hok)) as Hb.
  destruct HL as [L1 L2 L3 L4 L5 L6 L7 L8]. fold (total KFunding) in *.
  change (lifetime (flow k KDeposit) genesis l) with (total KDeposit) in *.
  change (lifetime (flow k KBack) genesis l) with (total KBack) in *.
  change (lifetime (flow k KRefund) genesis l) with (total KRefund) in *.
  change (lifetime (flow k KClaim) genesis l) with (total KClaim) in *.
  change (lifetime (flow k KRaise) genesis l) with (total KRaise) in *.
  change (lifetime (flow k KReturned) genesis l) with (total KReturned) in *.
  change (lifetime (flow k KFees) genesis l) with (total KFees) in *.
  change (lifetime (flow k KUnsold) genesis l) with (total KUnsold) in *.
  assert (Hqe : total KDeposit - total KBack - total KRefund - total KRaise - total KFees = qneed p)
    by (unfold qneed; lia).
  assert (Hbe : total KFunding - total KClaim - total KReturned - total KUnsold = bneed p)
    by (unfold bneed; lia).
  unfold quote_left, base_left. rewrite Hqe, Hbe.
  pose proof (owed_quote_need _ _ _ _ (q_cfg _ _ _ Hok) (q_acct _ _ _ Hok)).
  pose proof (owed_base_need _ _ _ _ (q_cfg _ _ _ Hok) (q_acct _ _ _ Hok)).
  destruct (owed_nonneg _ _ _ Hi Hp). lia.
Qed.

(** * C52 *)

Lemma same_final p p' r r' :
  terms_of p' = terms_of p -> deposits_of p' = deposits_of p -> reg_key r' = reg_key r ->
  (forall d, final p' r' d = final p r d) /\ (forall e, refundable p' r' e = refundable p r e) /\
  sold p' r' = sold p r.
Proof.
  intros Ht Hd Hr. destruct (same_money _ _ Ht Hd) as (S1 & S2 & S3 & S4 & S5 & _).
  injection Hr as R1 R2 R3 R4 R5 R6. injection Ht. intros.
  assert (Hmode : p_mode p' = p_mode p) by assumption. assert (Hraw : p_raw0 p' = p_raw0 p) by assumption.
  assert (Hbps : p_bps p' = p_bps p) by assumption.
  assert (Hs : sold p' r' = sold p r).
  { unfold sold. rewrite Hmode, Hraw, R1, R5. reflexivity. }
  split; [|split; [|exact Hs]].
  - intros d. unfold final, vest_part, imm_part. rewrite Hs, Hbps, R5. reflexivity.
  - intros e. unfold refundable, share_deposit, share_fee, reg_fee_excess, reg_excess, excess.
    rewrite S2, S4, S5, R5, R6. reflexivity.
Qed.

(** A registry-wide total: a field of the registry plus a sum over the open escrows. *)
Definition reg_total (A : registry -> Z) (B : presale -> registry -> escrow -> Z)
    (w : world) (k : addr) (i : nat) (v : Z) : Prop :=
  exists p r, w_presales w !! k = Some p /\ p_regs p !! i = Some r /\
    v = A r + esum k i (B p r) (w_escrows w).

(** [A] and [B] are balanced: settlement of a presale satisfying [S] moves amounts from [B] to [A]. *)
Record balanced (S : presale -> Prop) (A : registry -> Z) (B : presale -> registry -> escrow -> Z) : Prop := {
  ba_ext : forall p p' r r' e, terms_of p' = terms_of p -> deposits_of p' = deposits_of p ->
    reg_key r' = reg_key r -> B p' r' e = B p r e;
  ba_count : forall r n, A (set_r_escrows n r) = A r;
  ba_refund : forall p r e, e_withdrawn e = 0 ->
    A (set_r_refunded (r_refunded r + refundable p r e) r) + B p r (set_e_withdrawn 1 e) = A r + B p r e;
  ba_claim : forall p r e t n,
    A (set_r_claimed (r_claimed r + n) r) +
      B p r (set_e_refreshed t (set_e_pending 0 (set_e_claimed (e_claimed e + n) e))) = A r + B p r e;
  ba_refresh : forall p r e t n, B p r (set_e_refreshed t (set_e_pending n e)) = B p r e;
  ba_close : forall p r e now, S p ->
    (failed p now /\ (e_withdrawn e = 1 \/ (e_deposit e = 0 /\ e_fee e = 0))) \/
    (succeeded p now /\ e_claimed e = final p r (e_deposit e) /\ (e_withdrawn e = 1 \/ refundable p r e = 0)) ->
    B p r e = 0;
  ba_stable : forall p p', terms_of p' = terms_of p -> deposits_of p' = deposits_of p -> S p -> S p'
}.

Lemma total_update S A B p p' k i E ek e e' r r' v x :
  balanced S A B -> terms_of p' = terms_of p -> deposits_of p' = deposits_of p ->
  p_regs p' = <[Z.to_nat (e_idx e) := r']> (p_regs p) ->
  p_regs p !! Z.to_nat (e_idx e) = Some r -> reg_key r' = reg_key r ->
  E !! ek = Some e -> e_presale e = k -> e_presale e' = k -> e_idx e' = e_idx e -> 0 <= e_idx e ->
  A r' + B p r e' = A r + B p r e ->
  p_regs p !! i = Some x -> v = A x + esum k i (B p x) E ->
  exists x', p_regs p' !! i = Some x' /\ v = A x' + esum k i (B p' x') (<[ek := e']> E).
Proof.
  intros Hbal Ht Hd Hregs Hr Hkey He Hk Hk' Hj Hj0 Heq Hx ->.
  rewrite Hregs. destruct (decide (i = Z.to_nat (e_idx e))) as [->|Hne].
  - assert (x = r) as -> by congruence. exists r'.
    split; [apply list_lookup_insert; eapply lookup_lt_Some; eassumption|].
    rewrite (esum_update k _ (Z.to_nat (e_idx e)) (B p' r') E ek e e') by (assumption || lia).
    rewrite decide_True by reflexivity. rewrite !(ba_ext _ _ _ Hbal p p' r r') by assumption.
    rewrite (esum_ext k _ (B p' r') (B p r)) by (intros; eapply ba_ext; eassumption). lia.
  - exists x. split; [rewrite list_lookup_insert_ne by congruence; assumption|].
    rewrite (esum_update k _ (Z.to_nat (e_idx e)) (B p' x) E ek e e') by (assumption || lia).
    rewrite decide_False by assumption.
    rewrite (esum_ext k _ (B p' x) (B p x)) by (intros; eapply ba_ext; eauto). lia.
Qed.

Lemma total_delete S A B p p' k i E ek e r r' v x :
  balanced S A B -> terms_of p' = terms_of p -> deposits_of p' = deposits_of p ->
  p_regs p' = <[Z.to_nat (e_idx e) := r']> (p_regs p) ->
  p_regs p !! Z.to_nat (e_idx e) = Some r -> reg_key r' = reg_key r ->
  E !! ek = Some e -> e_presale e = k -> 0 <= e_idx e ->
  A r' = A r -> B p r e = 0 ->
  p_regs p !! i = Some x -> v = A x + esum k i (B p x) E ->
  exists x', p_regs p' !! i = Some x' /\ v = A x' + esum k i (B p' x') (delete ek E).
Proof.
  intros Hbal Ht Hd Hregs Hr Hkey He Hk Hj0 HA HB Hx ->.
  rewrite Hregs. destruct (decide (i = Z.to_nat (e_idx e))) as [->|Hne].
  - assert (x = r) as -> by congruence. exists r'.
    split; [apply list_lookup_insert; eapply lookup_lt_Some; eassumption|].
    rewrite (esum_delete k _ (Z.to_nat (e_idx e)) (B p' r') E ek e) by (assumption || lia).
    rewrite decide_True by reflexivity. rewrite !(ba_ext _ _ _ Hbal p p' r r') by assumption.
    rewrite (esum_ext k _ (B p' r') (B p r)) by (intros; eapply ba_ext; eassumption). lia.
  - exists x. split; [rewrite list_lookup_insert_ne by congruence; assumption|].
    rewrite (esum_delete k _ (Z.to_nat (e_idx e)) (B p' x) E ek e) by (assumption || lia).
    rewrite decide_False by assumption.
    rewrite (esum_ext k _ (B p' x) (B p x)) by (intros; eapply ba_ext; eauto). lia.
Qed.

Lemma total_step S A B w o w' l k p i v :
  balanced S A B -> S p -> inv w -> step w o = Ok (w', l) ->
  w_presales w !! k = Some p -> p_end p <= w_now w ->
  reg_total A B w k i v -> reg_total A B w' k i v.
Proof.
  intros Hbal HS Hi Hs Hp Hov (p_ & x & Hp_ & Hx & Hv). assert (p_ = p) as -> by congruence. clear Hp_.
  pose proof (step_does _ _ _ _ Hi Hs) as Hd.
  assert (Hsame : w_presales w' !! k = Some p -> esum k i (B p x) (w_escrows w') = esum k i (B p x) (w_escrows w) ->
     reg_total A B w' k i v).
  { intros Hp' He. exists p, x. split; [assumption|]. split; [assumption|]. lia. }
  destruct Hd as
    [Henv Hsp Hnow|Haux _ Hpr Hes _ _ _
    |base bm0 qm0 pt cr pay bp qp a h0 k0 p0 bm qm gross w1 lx Ho D|k0 owner idx cap p0 r Ho D
    |k0 qv qm ek0 pt payer pr mx h0 p0 p2 e r m amount fee gross w1 lx Ho D
    |k0 qv qm ek0 ot owner pr mx h0 p0 e r m amount w1 lx Ho D
    |k0 qv qm ek0 ot owner pr h0 p0 e r m w1 lx Ho D|k0 bv bm ek0 ot owner pr h0 p0 e r m w1 lx Ho D
    |k0 ek0 p0 e e1 r Ho D|k0 ek0 owner rr p0 e r Ho D|k0 ot owner pr h0 p0 m w1 lx Ho D
    |k0 qv qm rcv owner pr h0 p0 m w1 lx Ho D
    |k0 bv bm ct pr h0 p0 m w1 lx Ho D]; try subst o; clear Hs.
  - apply Hsame; [rewrite (sp_presales _ _ Hsp)|rewrite (sp_escrows _ _ Hsp)]; auto.
  - apply Hsame; [rewrite Hpr|rewrite Hes]; auto.
  - destruct D. destruct di_new as (Hn & _). assert (k0 <> k) by congruence. rest_of di_transfer. subst w'. cbn in *.
    apply Hsame; cbn; [rewrite lookup_insert_ne by congruence; rewrite Rp; assumption|rewrite Re; reflexivity].
  - destruct D. destruct (decide (k0 = k)) as [->|Hne].
    + exfalso. assert (p0 = p) as -> by congruence. unfold open_for_deposits in dc_open. lia.
    + subst w'. apply Hsame; cbn; [rewrite lookup_insert_ne by congruence; assumption|].
      apply esum_other_insert; assumption.
  - destruct D. destruct (decide (k0 = k)) as [->|Hne].
    + exfalso. assert (p0 = p) as -> by congruence. unfold open_for_deposits in dd_open. lia.
    + rest_of dd_transfer. subst w'. apply Hsame; cbn; [rewrite lookup_insert_ne by congruence; congruence|].
      rewrite Re. eapply esum_other_update; [eassumption|congruence|cbn; congruence].
  - destruct D. destruct (decide (k0 = k)) as [->|Hne].
    + exfalso. assert (p0 = p) as -> by congruence. unfold open_for_deposits in dw_open. lia.
    + rest_of dw_transfer. subst w'. apply Hsame; cbn; [rewrite lookup_insert_ne by congruence; congruence|].
      rewrite Re. eapply esum_other_update; [eassumption|congruence|cbn; congruence].
  - destruct D. rest_of dr_paid. destruct (decide (k0 = k)) as [->|Hne].
    + assert (p0 = p) as -> by congruence. subst w'. cbn.
      destruct (total_update S A B p (set_p_refunded (p_refunded p + refundable p r e)
        (set_reg p (e_idx e) (set_r_refunded (r_refunded r + refundable p r e) r))) k i (w_escrows w) ek0 e
        (set_e_withdrawn 1 e) r (set_r_refunded (r_refunded r + refundable p r e) r) v x) as (x' & Hx' & Hv');
        try assumption; try reflexivity; try (same_regs; fail).
      * apply (s_idx _ _ _ _ _ (at_esc _ _ _ _ _ _ dr_at)).
      * apply (ba_refund _ _ _ Hbal). assumption.
      * eexists _, x'. cbn. rewrite Re. split; [apply lookup_insert|]. split; [exact Hx'|]. exact Hv'.
    + subst w'. apply Hsame; cbn; [rewrite lookup_insert_ne by congruence; congruence|].
      rewrite Re. eapply esum_other_update; [eassumption|congruence|cbn; congruence].
  - destruct D. rest_of dm_paid. destruct dm_world as (p2 & e2 & -> & -> & ->).
    destruct (decide (k0 = k)) as [->|Hne].
    + assert (p0 = p) as -> by congruence. cbn.
      set (n := due p r e (w_now w)) in *.
      destruct (total_update S A B p (set_p_claimed (p_claimed p + n)
        (set_reg p (e_idx e) (set_r_claimed (r_claimed r + n) r))) k i (w_escrows w) ek0 e
        (set_e_refreshed (w_now w) (set_e_pending 0 (set_e_claimed (e_claimed e + n) e)))
        r (set_r_claimed (r_claimed r + n) r) v x) as (x' & Hx' & Hv');
        try assumption; try reflexivity; try (same_regs; fail).
      * apply (s_idx _ _ _ _ _ (at_esc _ _ _ _ _ _ dm_at)).
      * apply (ba_claim _ _ _ Hbal).
      * eexists _, x'. cbn. rewrite Re. split; [apply lookup_insert|]. split; [exact Hx'|]. exact Hv'.
    + apply Hsame; cbn; [rewrite lookup_insert_ne by congruence; congruence|].
      rewrite Re. eapply esum_other_update; [eassumption|congruence|cbn; congruence].
  - destruct D. subst w'. destruct df_what as [(_ & _ & ->)|(_ & ->)].
    + apply Hsame; cbn; [assumption|].
      destruct (decide (k0 = k)) as [->|Hne].
      * pose proof (s_idx _ _ _ _ _ (at_esc _ _ _ _ _ _ df_at)).
        rewrite (esum_update k i (Z.to_nat (e_idx e)) (B p x) (w_escrows w) ek0 e) by (assumption || (cbn; lia)).
        rewrite (ba_refresh _ _ _ Hbal). destruct (decide _); lia.
      * eapply esum_other_update; [eassumption|congruence|cbn; congruence].
    + apply Hsame; cbn; [assumption|]. rewrite insert_id by assumption. reflexivity.
  - destruct D. destruct (decide (k0 = k)) as [->|Hne].
    + assert (p0 = p) as -> by congruence. subst w'. cbn.
      assert (Hcl : B p r e = 0).
      { apply (ba_close _ _ _ Hbal p r e (w_now w) HS). destruct dx_settled as [(Ho & _)|?]; [|assumption].
        unfold open_for_deposits in Ho. lia. }
      destruct (total_delete S A B p (set_p_escrows (p_escrows p - 1)
        (set_reg p (e_idx e) (set_r_escrows (r_escrows r - 1) r))) k i (w_escrows w) ek0 e
        r (set_r_escrows (r_escrows r - 1) r) v x) as (x' & Hx' & Hv');
        try assumption; try reflexivity; try (same_regs; fail).
      * apply (s_idx _ _ _ _ _ (at_esc _ _ _ _ _ _ dx_at)).
      * apply (ba_count _ _ _ Hbal).
      * eexists _, x'. cbn. split; [apply lookup_insert|]. split; [exact Hx'|]. exact Hv'.
    + subst w'. apply Hsame; cbn; [rewrite lookup_insert_ne by congruence; congruence|].
      eapply esum_other_delete; [eassumption|congruence].
  - destruct D.
    assert (Hrest : w_presales w1 = w_presales w /\ w_escrows w1 = w_escrows w).
    { destruct dcw_what as [(_ & _ & Ht & _)|(_ & _ & Ht & _)]; rest_of Ht; auto. }
    destruct Hrest as [Rp Re]. subst w'. destruct (decide (k0 = k)) as [->|Hne].
    + assert (p0 = p) as -> by congruence. eexists _, x. cbn. rewrite Re.
      split; [apply lookup_insert|]. split; [exact Hx|]. rewrite Hv. f_equal. apply esum_ext.
      intros. symmetry. eapply ba_ext; [eassumption|reflexivity..].
    + apply Hsame; cbn; [rewrite lookup_insert_ne by congruence; congruence|]. rewrite Re. reflexivity.
  - destruct D. rest_of dfe_paid. subst w'. destruct (decide (k0 = k)) as [->|Hne].
    + assert (p0 = p) as -> by congruence. eexists _, x. cbn. rewrite Re.
      split; [apply lookup_insert|]. split; [exact Hx|]. rewrite Hv. f_equal. apply esum_ext.
      intros. symmetry. eapply ba_ext; [eassumption|reflexivity..].
    + apply Hsame; cbn; [rewrite lookup_insert_ne by congruence; congruence|]. rewrite Re. reflexivity.
  - destruct D.
    assert (Hrest : w_presales w1 = w_presales w /\ w_escrows w1 = w_escrows w).
    { destruct du_what as [(_ & Ht)|(_ & Ht)]; rest_of Ht; auto. }
    destruct Hrest as [Rp Re]. subst w'. destruct (decide (k0 = k)) as [->|Hne].
    + assert (p0 = p) as -> by congruence. eexists _, x. cbn. rewrite Re.
      split; [apply lookup_insert|]. split; [exact Hx|]. rewrite Hv. f_equal. apply esum_ext.
      intros. symmetry. eapply ba_ext; [eassumption|reflexivity..].
    + apply Hsame; cbn; [rewrite lookup_insert_ne by congruence; congruence|]. rewrite Re. reflexivity.
Qed.


Lemma total_run S A B w l k p i v :
  balanced S A B -> S p -> inv w -> w_presales w !! k = Some p -> p_end p <= w_now w ->
  reg_total A B w k i v -> reg_total A B (run w l) k i v.
Proof.
  intros Hbal. revert w p. induction l as [|o l IH]; intros w p HS Hi Hp Hov Ht; [assumption|].
  change (run w (o :: l)) with (run (exec w o) l).
  destruct (exec_moves w o k p Hi Hp) as (p' & Hp' & Hm). pose proof (exec_now w o Hi) as Hnow.
  destruct (mv_over _ _ _ Hm Hov) as [Htm Hdp].
  apply (IH (exec w o) p').
  - eapply ba_stable; [eassumption|apply (mv_terms _ _ _ Hm)|exact Hdp|exact HS].
  - apply inv_exec. assumption.
  - assumption.
  - injection Htm as -> _ _ _. lia.
  - unfold exec. destruct (step w o) as [[w' x]|] eqn:Hs; [|assumption]. eapply total_step; eassumption.
Qed.

(** What a registry of a successful presale has paid to buyers plus what it still owes them. *)
Definition outstanding (p : presale) (r : registry) (e : escrow) : Z := final p r (e_deposit e) - e_claimed e.
(** Refunds still due. *)
Definition refund_due (p : presale) (r : registry) (e : escrow) : Z :=
  if e_withdrawn e =? 1 then 0 else refundable p r e.

Lemma claims_balanced : balanced (fun p => p_min_cap p <= p_deposit p) r_claimed outstanding.
Proof.
  constructor; unfold outstanding; cbn; try reflexivity; try lia.
  - intros p p' r r' e Ht Hd Hr. destruct (same_final _ _ _ _ Ht Hd Hr) as (-> & _). reflexivity.
  - intros p r e now HS [([? ?] & _)|(_ & Hc & _)]; lia.
  - intros p p' Ht Hd HS. destruct (same_money _ _ Ht Hd) as (_ & -> & _ & -> & _). assumption.
Qed.
Lemma refunds_balanced : balanced (fun _ => True) r_refunded refund_due.
Proof.
  constructor; unfold refund_due; cbn; try reflexivity; try lia; auto.
  - intros p p' r r' e Ht Hd Hr. destruct (same_final _ _ _ _ Ht Hd Hr) as (_ & -> & _). reflexivity.
  - intros p r e ->. cbn. lia.
  - intros p r e now _ [([? ?] & [->|[Hd Hf]])|(_ & _ & [->|Hz])]; try reflexivity.
    + unfold refundable. replace (p_deposit p <? p_min_cap p) with true by lia. rewrite Hd, Hf.
      destruct (_ =? 1); reflexivity.
    + rewrite Hz. destruct (_ =? 1); reflexivity.
Qed.

Lemma fresh_deposited k p p2 E ek e r amount fee :
  fresh k p E -> E !! ek = Some e -> e_presale e = k -> 0 <= e_idx e ->
  p_regs p !! Z.to_nat (e_idx e) = Some r ->
  p_regs p2 = p_regs (deposited p e r amount fee) ->
  (p_cwd p2, p_fee_col p2, p_unsold_done p2) = (p_cwd p, p_fee_col p, p_unsold_done p) ->
  fresh k p2 (<[ek := esc_deposited e amount fee]> E).
Proof.
  intros [F1 F2 F3] He Hk Hj Hr Hregs Hfl. injection Hfl as E1 E2 E3. split.
  - rewrite E1, E2, E3. assumption.
  - rewrite Hregs. cbn. intros i x Hx.
    rewrite !(esum_update k i (Z.to_nat (e_idx e)) _ E ek e) by (assumption || (cbn; lia)).
    destruct (decide (i = Z.to_nat (e_idx e))) as [->|Hne].
    + rewrite list_lookup_insert in Hx by (eapply lookup_lt_Some; eassumption). injection Hx as <-.
      destruct (F2 _ _ Hr) as (R1 & R2 & R3 & R4). cbn. lia.
    + rewrite list_lookup_insert_ne in Hx by congruence. destruct (F2 _ _ Hx) as (R1 & R2 & R3 & R4). lia.
  - intros ek' e' He' Hk'. destruct (decide (ek' = ek)) as [->|Hne].
    + rewrite lookup_insert in He'. injection He' as <-. cbn. eauto.
    + rewrite lookup_insert_ne in He' by congruence. eauto.
Qed.

(** The moment a presale ends: nothing has been paid out, the open escrows hold all deposits. *)
Lemma moment_of_end l k p :
  w_presales (run genesis l) !! k = Some p -> p_end p <= w_now (run genesis l) ->
  exists l1 l2 p1, l = l1 ++ l2 /\ w_presales (run genesis l1) !! k = Some p1 /\
    p_end p1 <= w_now (run genesis l1) /\ fresh k p1 (w_escrows (run genesis l1)) /\
    terms_of p = terms_of p1 /\ timing_of p = timing_of p1 /\ deposits_of p = deposits_of p1.
Proof.
  revert p. induction l as [|o l IH] using rev_ind; intros p Hp Hov.
  { cbn in Hp. rewrite lookup_empty in Hp. discriminate. }
  rewrite run_snoc in Hp, Hov. unfold exec in Hp, Hov.
  assert (Hw : reachable (run genesis l)) by (exists l; reflexivity).
  pose proof (reachable_inv _ Hw) as Hi.
  destruct (step (run genesis l) o) as [[w' x]|] eqn:Hs.
  2: { destruct (IH p Hp Hov) as (l1 & l2 & p1 & -> & Hrest). exists l1, (l2 ++ [o]), p1.
       rewrite app_assoc. auto. }
  destruct (w_presales (run genesis l) !! k) as [p0|] eqn:Hp0.
  2: { exfalso. destruct (does_presale _ _ _ _ k (step_does _ _ _ _ Hi Hs)) as
      [Hn|base bm0 qm0 pt cr pay bp qp a h0 q0 bm qm gross w1 lx Ho D Hnone Hn|owner idx cap q0 r Ho D Hn
      |qv qm ek pt payer pr mx h0 q0 p2 e r m amount fee gross w1 lx Ho D Hn
      |qv qm ek ot owner pr mx h0 q0 e r m amount w1 lx Ho D Hn
      |qv qm ek ot owner pr h0 q0 e r m w1 lx Ho D Hn|bv bm ek ot owner pr h0 q0 e r m w1 lx Ho D Hn
      |ek owner rr q0 e r Ho D Hn|ot owner pr h0 q0 m w1 lx Ho D Hn|qv qm rcv owner pr h0 q0 m w1 lx Ho D Hn
      |bv bm ct pr h0 q0 m w1 lx Ho D Hn]; [congruence| |destruct D; congruence..].
      destruct (does_now _ _ _ _ (step_does _ _ _ _ Hi Hs)) as [_ Hnow]. subst o.
      specialize (Hnow eq_refl). destruct D. destruct di_presale. assert (p = q0) as -> by congruence. lia. }
  destruct (presale_moves _ _ _ _ _ _ Hi Hs Hp0) as (p_ & Hp_ & Hm). assert (p_ = p) as -> by congruence. clear Hp_.
  destruct (Z.le_gt_cases (p_end p0) (w_now (run genesis l))) as [Hov0|Hop].
  - destruct (IH p0 eq_refl Hov0) as (l1 & l2 & p1 & Hl & H1 & H2 & H3 & H4 & H5 & H6).
    destruct (mv_over _ _ _ Hm Hov0). exists l1, (l2 ++ [o]), p1. rewrite Hl, app_assoc.
    split; [reflexivity|]. split; [assumption|]. split; [assumption|]. split; [assumption|].
    split; [rewrite (mv_terms _ _ _ Hm); assumption|]. split; congruence.
  - exists (l ++ [o]), [], p. rewrite app_nil_r. split; [reflexivity|]. rewrite run_snoc. unfold exec. rewrite Hs.
    split; [assumption|]. split; [assumption|]. split; [|auto].
    pose proof (a_fresh _ _ _ _ (q_acct _ _ _ (i_presales _ Hi _ _ Hp0)) ltac:(lia)) as Hfr.
    destruct (env_op o) eqn:Henv.
    { destruct (env_step_rest _ _ _ _ Henv Hs) as [Hsp _]. rewrite (sp_escrows _ _ Hsp).
      rewrite (sp_presales _ _ Hsp) in Hp. assert (p = p0) as -> by congruence. assumption. }
    assert (Hnow : w_now w' = w_now (run genesis l))
      by (destruct (does_now _ _ _ _ (step_does _ _ _ _ Hi Hs)) as [_ Hn]; auto).
    assert (Hne : timing_of p <> timing_of p0) by (intros Heq; injection Heq as Heq _ _ _; lia).
    destruct (proj1 (C17_early_end _ _ _ _ _ _ _ Hw Hs Hp0 Hp) Hne)
      as ((qv' & qm' & ek' & pt' & py' & pr' & mx' & hh' & Ho') & _).
    rewrite Ho' in Hs; cbn in Hs; apply deposit_did in Hs; [|assumption].
    destruct Hs as (q0 & p2 & e0 & r0 & m0 & am0 & fee0 & gr0 & wx & lx0 & D); destruct D.
    rest_of dd_transfer; assert (q0 = p0) by congruence; subst q0.
    subst w'; cbn in Hp; rewrite lookup_insert in Hp; injection Hp as <-; cbn; rewrite Re.
    apply (fresh_deposited k p0 p2 (w_escrows (run genesis l)) ek' e0 r0 am0 fee0); try assumption.
    + apply (s_idx _ _ _ _ _ (at_esc _ _ _ _ _ _ dd_at)).
    + destruct dd_end as [(_ & _ & ->)|(_ & ->)]; reflexivity.
    + destruct dd_end as [(_ & _ & ->)|(_ & ->)]; reflexivity.
Qed.


(** Rounding down shares of [a] in proportion to [g] loses at most one unit per positive share. *)
Lemma shares_dust k i a (g : escrow -> Z) E :
  0 <= a -> (forall ek e, E !! ek = Some e -> e_presale e = k -> e_idx e = Z.of_nat i -> 0 <= g e) ->
  (esum k i g E = 0 -> a = 0) ->
  a <= esum k i (fun e => g e * a / esum k i g E) E + esum k i (fun e => if 0 <? g e then 1 else 0) E.
Proof.
  intros Ha Hg H0. set (t := esum k i g E) in *.
  assert (Ht : 0 <= t) by (apply esum_nonneg; assumption).
  assert (Hn : 0 <= esum k i (fun e => g e * a / t) E).
  { apply esum_nonneg. intros ek e He Hk Hi. apply fl_nonneg; [eauto|assumption..]. }
  assert (Hm : 0 <= esum k i (fun e => if 0 <? g e then 1 else 0) E).
  { apply esum_nonneg. intros. destruct (0 <? _); lia. }
  destruct (Z.eq_dec t 0) as [He|Hne]; [specialize (H0 He); lia|].
  assert (Hle : t * a <= t * (esum k i (fun e => g e * a / t) E + esum k i (fun e => if 0 <? g e then 1 else 0) E)).
  { replace (t * a) with (a * esum k i g E) by (fold t; lia).
    rewrite <- esum_add, <- !esum_scale. apply esum_le. intros ek e He Hk Hi. specialize (Hg ek e He Hk Hi).
    pose proof (Z.div_mod (g e * a) t Hne). pose proof (Z.mod_pos_bound (g e * a) t ltac:(lia)).
    destruct (Z.ltb_spec 0 (g e)).
    - set (q := g e * a / t) in *. clearbody q. lia.
    - assert (g e = 0) as -> by lia. rewrite Z.mul_0_l, Z.div_0_l by assumption. lia. }
  apply Z.mul_le_mono_pos_l in Hle; lia.
Qed.

(** Number of buyers of a presale, and of buyers that paid deposit fees. *)
Definition buyers (E : gmap addr escrow) (k : addr) : Z :=
  escrow_sum E k (fun e => if 0 <? e_deposit e then 1 else 0).
Definition fee_payers (E : gmap addr escrow) (k : addr) : Z :=
  escrow_sum E k (fun e => if 0 <? e_fee e then 1 else 0).

Lemma escrow_sum_add E k f g :
  escrow_sum E k (fun e => f e + g e) = escrow_sum E k f + escrow_sum E k g.
Proof.
  unfold escrow_sum. rewrite <- msum_add. apply msum_ext. intros. destruct (bool_decide _); lia.
Qed.

(** Sum over registries bounded by two sums over escrows. *)
Lemma regs_le_sums now now1 k p p1 E E1 f g (a : registry -> Z) :
  cfg k p -> acct now k p E -> cfg k p1 -> acct now1 k p1 E1 ->
  (forall i r, p_regs p !! i = Some r -> a r <= esum k i f E + esum k i g E1) ->
  lsum a (p_regs p) <= escrow_sum E k f + escrow_sum E1 k g.
Proof.
  intros Hc Ha Hc1 Ha1 Hle.
  rewrite (escrow_sum_regs k f E (length (p_regs p))) by (eapply idx_bound; eassumption).
  rewrite (escrow_sum_regs k g E1 (length (p_regs p)))
    by (rewrite (c_len _ _ Hc), <- (c_len _ _ Hc1); eapply idx_bound; eassumption).
  rewrite <- lsum_add. apply lsum_index_ge. assumption.
Qed.

(** The state at the end of the presale and a later state agree on every registry total. *)
Lemma registry_since_end l k p i r :
  w_presales (run genesis l) !! k = Some p -> p_end p <= w_now (run genesis l) ->
  p_regs p !! i = Some r ->
  forall l1 l2 p1, l = l1 ++ l2 -> w_presales (run genesis l1) !! k = Some p1 ->
    p_end p1 <= w_now (run genesis l1) -> fresh k p1 (w_escrows (run genesis l1)) ->
    terms_of p = terms_of p1 -> deposits_of p = deposits_of p1 ->
  exists r1, p_regs p1 !! i = Some r1 /\ reg_key r = reg_key r1 /\
    (p_min_cap p <= p_deposit p ->
      r_claimed r + esum k i (outstanding p r) (w_escrows (run genesis l)) =
      esum k i (fun e => final p r (e_deposit e)) (w_escrows (run genesis l1))) /\
    r_refunded r + esum k i (refund_due p r) (w_escrows (run genesis l)) =
      esum k i (refundable p r) (w_escrows (run genesis l1)).
Proof.
  intros Hp Hov Hr l1 l2 p1 -> Hp1 Hov1 Hfr Ht Hd.
  destruct (same_money _ _ Ht Hd) as (_ & S2 & _ & S4 & _ & Hkeys & _).
  destruct (map_lookup_same _ _ _ _ _ Hkeys Hr) as (r1 & Hr1 & Hkey). exists r1.
  split; [assumption|]. split; [assumption|].
  assert (Hw : reachable (run genesis l1)) by (exists l1; reflexivity).
  pose proof (reachable_inv _ Hw) as Hi. rewrite run_app in *.
  destruct (same_final _ _ _ _ Ht Hd Hkey) as (Hf & Hrf & _).
  destruct (f_reg _ _ _ Hfr _ _ Hr1) as (_ & _ & Hc0 & Hr0).
  split.
  - intros HS. assert (HS1 : p_min_cap p1 <= p_deposit p1) by lia.
    destruct (total_run _ _ _ (run genesis l1) l2 k p1 i (esum k i (fun e => final p r (e_deposit e)) (w_escrows (run genesis l1)))
      claims_balanced HS1 Hi Hp1 Hov1) as (p' & r' & Hp' & Hr' & Hv).
    + exists p1, r1. split; [assumption|]. split; [assumption|]. rewrite Hc0, Z.add_0_l. apply esum_ext.
      intros ek e He Hk _. destruct (f_esc _ _ _ Hfr _ _ He Hk) as (Hz & _). unfold outstanding. rewrite Hz, Hf. lia.
    + assert (p' = p) as -> by congruence. assert (r' = r) as -> by congruence. lia.
  - destruct (total_run _ _ _ (run genesis l1) l2 k p1 i (esum k i (refundable p r) (w_escrows (run genesis l1)))
      refunds_balanced I Hi Hp1 Hov1) as (p' & r' & Hp' & Hr' & Hv).
    + exists p1, r1. split; [assumption|]. split; [assumption|]. rewrite Hr0, Z.add_0_l. apply esum_ext.
      intros ek e He Hk _. destruct (f_esc _ _ _ Hfr _ _ He Hk) as (_ & _ & Hz). unfold refund_due. rewrite Hz, Hrf.
      reflexivity.
    + assert (p' = p) as -> by congruence. assert (r' = r) as -> by congruence. lia.
Qed.

(** C52, base side.  After a successful presale, everything funded has been claimed, is still owed
    to a buyer, or is unsold, except for at most two units per buyer. *)
Theorem C52_base_dust l k p :
  w_presales (run genesis l) !! k = Some p -> succeeded p (w_now (run genesis l)) ->
  exists l1 l2, l = l1 ++ l2 /\
    lifetime (flow k KFunding) genesis l - lifetime (flow k KClaim) genesis l
      - lifetime (flow k KUnsold) genesis l
      - owed_base (w_now (run genesis l)) k p (w_escrows (run genesis l))
    <= 2 * buyers (w_escrows (run genesis l1)) k.
Proof.
  intros Hp [Hov Hsu].
  destruct (moment_of_end l k p Hp Hov) as (l1 & l2 & p1 & Hl & Hp1 & Hov1 & Hfr & Ht & _ & Hd).
  exists l1, l2. split; [assumption|].
  assert (Hw : reachable (run genesis l)) by (exists l; reflexivity).
  assert (Hw1 : reachable (run genesis l1)) by (exists l1; reflexivity).
  pose proof (i_presales _ (reachable_inv _ Hw) _ _ Hp) as Hok.
  pose proof (i_presales _ (reachable_inv _ Hw1) _ _ Hp1) as Hok1.
  pose proof (q_cfg _ _ _ Hok) as Hc. pose proof (q_acct _ _ _ Hok) as Ha.
  pose proof (a_books _ _ _ _ Ha) as Hb.
  destruct (C51_ledger l k p Hp) as (L1 & _ & _ & L4 & _ & _ & _ & L8). cbv zeta in *.
  rewrite L1, L4, L8. clear L1 L4 L8.
  assert (Hkey : lsum (fun r => sold p r - r_claimed r) (p_regs p) <=
    escrow_sum (w_escrows (run genesis l)) k (fun e =>
        match p_regs p !! Z.to_nat (e_idx e) with
        | Some r => final p r (e_deposit e) - e_claimed e
        | None => 0
        end) +
    escrow_sum (w_escrows (run genesis l1)) k (fun e => 2 * (if 0 <? e_deposit e then 1 else 0))).
  { eapply regs_le_sums; [exact Hc|exact Ha|exact (q_cfg _ _ _ Hok1)|exact (q_acct _ _ _ Hok1)|].
    intros i r Hr.
    destruct (registry_since_end l k p i r Hp Hov Hr l1 l2 p1 Hl Hp1 Hov1 Hfr Ht Hd) as (r1 & Hr1 & Hkk & Hcl & _).
    specialize (Hcl Hsu).
    rewrite (esum_ext k i _ (outstanding p r)).
    2: { intros ek e He Hk Hi. rewrite Hi, Nat2Z.id, Hr. reflexivity. }
    destruct (b_nonneg _ _ _ Hb _ _ Hr) as (Hd0 & _).
    destruct (parts_range _ _ _ _ Hc Hr Hd0) as (HI & HV & Hsum).
    set (E1 := w_escrows (run genesis l1)) in *.
    assert (Hdep : r_deposit r = esum k i e_deposit E1).
    { destruct (f_reg _ _ _ Hfr _ _ Hr1) as (Hx & _). injection Hkk. congruence. }
    assert (Hg : forall ek e, E1 !! ek = Some e -> e_presale e = k -> e_idx e = Z.of_nat i -> 0 <= e_deposit e).
    { intros ek e He Hk _. apply (s_deposit _ _ _ _ _ (a_esc _ _ _ _ (q_acct _ _ _ Hok1) _ _ He Hk)). }
    assert (Hs0 : r_deposit r = 0 -> sold p r = 0).
    { intros Hz. unfold sold. rewrite Hz. reflexivity. }
    pose proof (shares_dust k i (imm_part p r) e_deposit E1 ltac:(lia) Hg ltac:(rewrite <- Hdep; lia)) as H1.
    pose proof (shares_dust k i (vest_part p r) e_deposit E1 ltac:(lia) Hg ltac:(rewrite <- Hdep; lia)) as H2.
    rewrite <- Hdep in H1, H2. rewrite esum_scale.
    assert (Hfin : esum k i (fun e => final p r (e_deposit e)) E1 =
      esum k i (fun e => e_deposit e * imm_part p r / r_deposit r) E1 +
      esum k i (fun e => e_deposit e * vest_part p r / r_deposit r) E1).
    { rewrite <- esum_add. apply esum_ext. intros. unfold final. rewrite !(Z.mul_comm (e_deposit _)). reflexivity. }
    lia. }
  rewrite lsum_sub in Hkey. fold (total_sold p) in Hkey. rewrite <- (b_claimed _ _ _ Hb) in Hkey.
  assert (Hbuy : escrow_sum (w_escrows (run genesis l1)) k (fun e => 2 * (if 0 <? e_deposit e then 1 else 0))
    = 2 * buyers (w_escrows (run genesis l1)) k).
  { replace (2 * buyers (w_escrows (run genesis l1)) k) with
      (buyers (w_escrows (run genesis l1)) k + buyers (w_escrows (run genesis l1)) k) by lia.
    unfold buyers. rewrite <- escrow_sum_add. apply msum_ext. intros. destruct (bool_decide _); lia. }
  rewrite Hbuy in Hkey. unfold owed_base.
  rewrite (proj2 (Z.ltb_ge _ _)) by assumption. rewrite (proj2 (Z.ltb_ge _ _)) by assumption.
  change (p_supply p - total_sold p) with (unsold p) in *. unfold unsold in *.
  destruct (p_unsold_done p =? 1); lia.
Qed.

(** C52, quote side.  After the end everything paid in has been taken back, refunded, withdrawn by
    the creator or is still owed: exactly when the presale failed, up to one unit per registry, buyer
    and fee payer when it succeeded. *)
Theorem C52_quote_dust l k p :
  w_presales (run genesis l) !! k = Some p -> p_end p <= w_now (run genesis l) ->
  let total c := lifetime (flow k c) genesis l in
  let left := total KDeposit - total KBack - total KRefund - total KRaise - total KFees
      - owed_quote (w_now (run genesis l)) k p (w_escrows (run genesis l)) in
  (failed p (w_now (run genesis l)) -> left = 0) /\
  (succeeded p (w_now (run genesis l)) ->
   exists l1 l2, l = l1 ++ l2 /\
    0 <= left <= lsum (fun r => if 0 <? r_deposit r then 1 else 0) (p_regs p)
      + buyers (w_escrows (run genesis l1)) k + fee_payers (w_escrows (run genesis l1)) k).
Proof.
  intros Hp Hov total left.
  destruct (moment_of_end l k p Hp Hov) as (l1 & l2 & p1 & Hl & Hp1 & Hov1 & Hfr & Ht & _ & Hd).
  assert (Hw : reachable (run genesis l)) by (exists l; reflexivity).
  assert (Hw1 : reachable (run genesis l1)) by (exists l1; reflexivity).
  pose proof (i_presales _ (reachable_inv _ Hw) _ _ Hp) as Hok.
  pose proof (i_presales _ (reachable_inv _ Hw1) _ _ Hp1) as Hok1.
  pose proof (q_cfg _ _ _ Hok) as Hc. pose proof (q_acct _ _ _ Hok) as Ha.
  pose proof (a_books _ _ _ _ Ha) as Hb. pose proof (c_caps _ _ Hc) as Hcap.
  destruct (C51_ledger l k p Hp) as (_ & L2 & L3 & _ & L5 & _ & L7 & _). cbv zeta in *. fold (total KDeposit) in L2.
  pose proof (proj1 (C51_vaults_hold_the_rest l k p Hp)) as Hlo. cbv beta zeta in Hlo.
  fold (total KDeposit) (total KBack) (total KRefund) (total KRaise) (total KFees) in Hlo.
  unfold left. fold (total KBack) in L2. fold (total KRefund) in L3. fold (total KRaise) in L5. fold (total KFees) in L7.
  assert (Hreg : forall i r, p_regs p !! i = Some r ->
    exists r1, p_regs p1 !! i = Some r1 /\ reg_key r = reg_key r1 /\
      r_refunded r + esum k i (refund_due p r) (w_escrows (run genesis l)) =
      esum k i (refundable p r) (w_escrows (run genesis l1)) /\
      r_deposit r = esum k i e_deposit (w_escrows (run genesis l1)) /\
      r_fee r = esum k i e_fee (w_escrows (run genesis l1))).
  { intros i r Hr.
    destruct (registry_since_end l k p i r Hp Hov Hr l1 l2 p1 Hl Hp1 Hov1 Hfr Ht Hd) as (r1 & Hr1 & Hkk & _ & Hrf).
    exists r1. split; [assumption|]. split; [assumption|]. split; [assumption|].
    destruct (f_reg _ _ _ Hfr _ _ Hr1) as (Hx & Hy & _). injection Hkk. intros. split; congruence. }
  split.
  - intros [_ Hf].
    assert (Hkey : lsum (fun r => r_deposit r + r_fee r - r_refunded r) (p_regs p) <=
      escrow_sum (w_escrows (run genesis l)) k (fun e => if e_withdrawn e =? 1 then 0 else e_deposit e + e_fee e) +
      escrow_sum (w_escrows (run genesis l1)) k (fun _ => 0)).
    { eapply regs_le_sums; [exact Hc|exact Ha|exact (q_cfg _ _ _ Hok1)|exact (q_acct _ _ _ Hok1)|].
      intros i r Hr. destruct (Hreg i r Hr) as (r1 & Hr1 & Hkk & Hrf & H1 & H2).
      rewrite (esum_ext k i (fun e => if e_withdrawn e =? 1 then 0 else e_deposit e + e_fee e) (refund_due p r)).
      2: { intros. unfold refund_due, refundable. rewrite (proj2 (Z.ltb_lt _ _)) by assumption. reflexivity. }
      rewrite (esum_ext k i (refundable p r) (fun e => e_deposit e + e_fee e)) in Hrf.
      2: { intros. unfold refundable. rewrite (proj2 (Z.ltb_lt _ _)) by assumption. reflexivity. }
      rewrite esum_add in Hrf. rewrite esum_zero. lia. }
    rewrite lsum_sub, lsum_add in Hkey.
    rewrite <- (b_deposit _ _ _ Hb), <- (b_fee _ _ _ Hb), <- (b_refunded _ _ _ Hb) in Hkey.
    assert (Hz : escrow_sum (w_escrows (run genesis l1)) k (fun _ => 0) = 0).
    { unfold escrow_sum. etransitivity; [|apply (msum_zero (w_escrows (run genesis l1)))]. apply msum_ext.
      intros. destruct (bool_decide _); reflexivity. }
    rewrite Hz in Hkey.
    destruct (a_failed _ _ _ _ Ha Hf) as [[Hcol _] _ _]. rewrite Hcol in L7. cbn in L7.
    rewrite (proj2 (Z.leb_gt _ _)) in L5 by assumption. rewrite andb_false_r in L5.
    unfold owed_quote in *. rewrite (proj2 (Z.ltb_ge (w_now (run genesis l)) _)) in * by assumption.
    rewrite (proj2 (Z.ltb_lt _ _)) in * by assumption. lia.
  - intros [_ Hsu]. exists l1, l2. split; [assumption|]. split; [lia|].
    set (E1 := w_escrows (run genesis l1)) in *. set (E := w_escrows (run genesis l)) in *.
    assert (Hkey : lsum (fun r => reg_excess p r + reg_fee_excess p r - r_refunded r) (p_regs p) <=
      escrow_sum E k (fun e =>
        if e_withdrawn e =? 1 then 0
        else match p_regs p !! Z.to_nat (e_idx e) with
             | Some r => share_deposit p r (e_deposit e) + share_fee p r (e_fee e)
             | None => 0
             end) +
      escrow_sum E1 k (fun e => (if 0 <? e_deposit e then 1 else 0) + (if 0 <? e_fee e then 1 else 0))).
    { eapply regs_le_sums; [exact Hc|exact Ha|exact (q_cfg _ _ _ Hok1)|exact (q_acct _ _ _ Hok1)|].
      intros i r Hr. destruct (Hreg i r Hr) as (r1 & Hr1 & Hkk & Hrf & H1 & H2).
      pose proof (books_reg_le _ _ _ _ _ Hb Hr) as (Hrd & Hrfe & _).
      pose proof (reg_excess_range p r ltac:(lia) ltac:(lia)) as Hx.
      pose proof (reg_fee_excess_range p r ltac:(lia) ltac:(lia) ltac:(lia)) as Hfx.
      rewrite (esum_ext k i _ (refund_due p r) E).
      2: { intros ek e He Hk Hi. rewrite Hi, Nat2Z.id, Hr. unfold refund_due, refundable.
           rewrite (proj2 (Z.ltb_ge _ _)) by assumption. reflexivity. }
      rewrite (esum_ext k i (refundable p r)
        (fun e => e_deposit e * reg_excess p r / r_deposit r + e_fee e * reg_fee_excess p r / r_fee r)) in Hrf.
      2: { intros. unfold refundable, share_deposit, share_fee. rewrite (proj2 (Z.ltb_ge _ _)) by assumption. reflexivity. }
      rewrite esum_add in Hrf. rewrite esum_add.
      pose proof (shares_dust k i (reg_excess p r) e_deposit E1 ltac:(lia)) as G1.
      pose proof (shares_dust k i (reg_fee_excess p r) e_fee E1 ltac:(lia)) as G2.
      fold E1 in H1, H2. rewrite <- H1 in G1. rewrite <- H2 in G2.
      assert (Hes : forall ek e, E1 !! ek = Some e -> e_presale e = k -> 0 <= e_deposit e /\ 0 <= e_fee e).
      { intros ek e He Hk. destruct (a_esc _ _ _ _ (q_acct _ _ _ Hok1) _ _ He Hk). lia. }
      specialize (G1 (fun ek e He Hk _ => proj1 (Hes ek e He Hk)) ltac:(lia)).
      specialize (G2 (fun ek e He Hk _ => proj2 (Hes ek e He Hk)) ltac:(lia)). lia. }
    rewrite lsum_sub, lsum_add in Hkey. rewrite <- (b_refunded _ _ _ Hb) in Hkey.
    rewrite escrow_sum_add in Hkey. fold (buyers E1 k) (fee_payers E1 k) in Hkey.
    assert (Hex : excess p <= lsum (reg_excess p) (p_regs p) + lsum (fun r => if 0 <? r_deposit r then 1 else 0) (p_regs p)).
    { pose proof (books_totals _ _ _ Hb) as (Hpd & _). pose proof (excess_range p ltac:(lia) Hpd) as Hxr.
      assert (Hcnt : 0 <= lsum (fun r => if 0 <? r_deposit r then 1 else 0) (p_regs p))
        by (apply lsum_nonneg; intros; destruct (_ <? _); lia).
      assert (Hrx : 0 <= lsum (reg_excess p) (p_regs p)).
      { apply lsum_nonneg. apply (elem_reg (fun r => 0 <= reg_excess p r) p). intros i r Hr.
        pose proof (books_reg_le _ _ _ _ _ Hb Hr) as (Hrd & _). apply reg_excess_range; lia. }
      destruct (Z.eq_dec (p_deposit p) 0) as [Hz|Hz]; [unfold excess in *; lia|].
      assert (Hm : excess p * lsum r_deposit (p_regs p) <= p_deposit p *
        lsum (fun r => reg_excess p r + (if 0 <? r_deposit r then 1 else 0)) (p_regs p)).
      { assert (Hsc : forall c (f : registry -> Z) l, c * lsum f l = lsum (fun x => c * f x) l).
        { intros c f m. induction m as [|y m IHm]; cbn; lia. }
        rewrite !Hsc. apply lsum_le. apply (elem_reg (fun r => excess p * r_deposit r <=
          p_deposit p * (reg_excess p r + (if 0 <? r_deposit r then 1 else 0))) p). intros i r Hr.
        pose proof (books_reg_le _ _ _ _ _ Hb Hr) as (Hrd & _). unfold reg_excess.
        pose proof (Z.div_mod (excess p * r_deposit r) (p_deposit p) Hz).
        pose proof (Z.mod_pos_bound (excess p * r_deposit r) (p_deposit p) ltac:(lia)).
        destruct (Z.ltb_spec 0 (r_deposit r)).
        - set (q := excess p * r_deposit r / p_deposit p) in *. clearbody q. lia.
        - assert (r_deposit r = 0) as -> by lia. rewrite Z.mul_0_r, Z.div_0_l by assumption. lia. }
      rewrite <- (b_deposit _ _ _ Hb), lsum_add in Hm. rewrite (Z.mul_comm (excess p)) in Hm.
      apply Z.mul_le_mono_pos_l in Hm; lia. }
    pose proof (excess_split p) as Hsp. pose proof (fee_split _ _ _ _ Ha) as Hfs.
    rewrite (proj2 (Z.leb_le _ _)) in L5 by assumption. rewrite andb_true_r in L5.
    unfold owed_quote. rewrite (proj2 (Z.ltb_ge (w_now (run genesis l)) _)) by assumption.
    rewrite (proj2 (Z.ltb_ge _ _)) by assumption.
    destruct (p_cwd p =? 1); destruct (p_fee_col p =? 1); lia.
Qed.

End WithCrypto.

(** Non-vacuity: the prorata scenario after refunds, claims and creator payouts. *)
#[local] Existing Instance toy.
Definition totals (k : addr) (l : list op) : list Z :=
  map (fun c => lifetime (flow k c) genesis l)
    [KFunding; KDeposit; KBack; KRefund; KClaim; KRaise; KReturned; KFees; KUnsold].
Example C51_example :
  totals k1 pr_paid = [5700; 1617; 50; 268; 3998; 1000; 0; 11; 0] /\
  totals k1 ff_paid = [3000; 411; 0; 308; 0; 0; 3000; 0; 0] /\
  totals k1 fx_paid = [1000; 1707; 700; 0; 319; 0; 0; 9; 601] /\
  totals k1 fc_paid = [3000; 1027; 0; 0; 1314; 1000; 0; 27; 0].
Proof. vm_compute. auto. Qed.

(** The same presale after everybody is served and every escrow is closed: two base tokens
    and three quote tokens stay in the vaults. *)
Definition close (o : addr) (i : Z) : op := ICloseEscrow k1 (esc o i) o o.
Definition pr_done : list op := pr_paid ++ [
  refund bob bob_q 0; refund carol carol_q 1; getb bob bob_b 0; getb carol carol_b 1;
  close alice 0; close bob 0; close carol 1 ].
Example C52_example :
  map_to_list (w_escrows (run genesis pr_done)) = [] /\
  totals k1 pr_done = [5700; 1617; 50; 553; 5698; 1000; 0; 11; 0] /\
  bal (run genesis pr_done) (PQuoteVault k1) = 3 /\ bal (run genesis pr_done) (PBaseVault k1) = 2 /\
  buyers (w_escrows w_pr_over) k1 = 3 /\ fee_payers (w_escrows w_pr_over) k1 = 2.
Proof. vm_compute. repeat split; reflexivity. Qed.

