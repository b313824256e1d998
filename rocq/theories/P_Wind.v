(** C69: every presale can be wound down completely. *)
From Coq Require Import Lia.
From Verif Require Import Base Math State Handlers Token World Instr Exec Tactics Sums Spec Arith
  TokenFacts Inv Acct Funs Steps Init Preserve Reach Did Trans Flow Scenario P_Solvency P_History
  P_Payout P_State P_Limits P_Ledger P_Exit P_Tx.

Section WithCrypto.
Context `{Crypto}.

(** * What the payout instructions leave alone *)

Lemma burn_shape w pr src mk auth n w' l : tok_burn w pr src mk auth n = Ok (w', l) -> same_shape w w'.
Proof.
  intros Hx. apply tok_burn_inv in Hx as (m & s & dl & Hm & Hs & _ & _ & _ & _ & _ & -> & _).
  split; [|split]; cbn.
  - intros a t' Ha. destruct (decide (a = src)) as [->|]; [|rewrite lookup_insert_ne in Ha by congruence; eauto].
    rewrite lookup_insert in Ha. injection Ha as <-. exists s. auto.
  - intros a t Ha. destruct (decide (a = src)) as [->|]; [|rewrite lookup_insert_ne by congruence; eauto].
    rewrite lookup_insert. eexists. split; [reflexivity|]. assert (t = s) as -> by congruence. auto.
  - intros a x Ha. destruct (decide (a = mk)) as [->|]; [|rewrite lookup_insert_ne by congruence; eauto].
    rewrite lookup_insert. eexists. split; [reflexivity|]. assert (x = m) as -> by congruence. auto.
Qed.

(** The clock, the shape of the token accounts and mints, and the escrows but [ek] stay as they are;
    [ek] keeps presale and owner. *)
Definition quiet (ek : addr) (w w' : world) : Prop :=
  w_now w' = w_now w /\ same_shape w w' /\
  (forall x, x <> ek -> w_escrows w' !! x = w_escrows w !! x) /\
  (forall e', w_escrows w' !! ek = Some e' ->
     exists e, w_escrows w !! ek = Some e /\ e_presale e' = e_presale e /\ e_owner e' = e_owner e).

Lemma refund_quiet w k qv qm ek ot owner pr h w' l :
  inv w -> step w (IWithdrawRemaining k qv qm ek ot owner pr h) = Ok (w', l) -> quiet ek w w'.
Proof.
  intros Hi Hs. cbn in Hs. apply refund_did in Hs; [|assumption].
  destruct Hs as (p & e & r & m & w1 & lx & D). destruct D. rest_of dr_paid. subst w'.
  split; [exact Rnow|]. split; [eapply shape_ext; [eapply paid_shape; exact dr_paid|reflexivity|reflexivity]|].
  cbn. split.
  - intros x Hx. rewrite lookup_insert_ne by congruence. congruence.
  - intros e' He'. rewrite lookup_insert in He'. injection He' as <-. exists e. auto.
Qed.
Lemma claim_quiet w k bv bm ek ot owner pr h w' l :
  inv w -> step w (IClaim k bv bm ek ot owner pr h) = Ok (w', l) -> quiet ek w w'.
Proof.
  intros Hi Hs. cbn in Hs. apply claim_did in Hs; [|assumption].
  destruct Hs as (p & e & r & m & w1 & lx & D). destruct D. rest_of dm_paid.
  destruct dm_world as (p2 & e2 & -> & -> & ->).
  split; [exact Rnow|]. split; [eapply shape_ext; [eapply paid_shape; exact dm_paid|reflexivity|reflexivity]|].
  cbn. split.
  - intros x Hx. rewrite lookup_insert_ne by congruence. congruence.
  - intros e' He'. rewrite lookup_insert in He'. injection He' as <-. exists e. auto.
Qed.
Lemma close_quiet w k ek owner rr w' l :
  inv w -> step w (ICloseEscrow k ek owner rr) = Ok (w', l) -> quiet ek w w'.
Proof.
  intros Hi Hs. cbn in Hs. apply close_did in Hs; [|assumption]. destruct Hs as (p & e & r & D). destruct D. subst w'.
  split; [reflexivity|]. split; [apply shape_refl; reflexivity|]. cbn. split.
  - intros x Hx. apply lookup_delete_ne. congruence.
  - intros e' He'. rewrite lookup_delete in He'. discriminate.
Qed.
Lemma quiet_trans ek w w1 w2 : quiet ek w w1 -> quiet ek w1 w2 -> quiet ek w w2.
Proof.
  intros (N1 & (A1 & A2 & A3) & O1 & E1) (N2 & (B1 & B2 & B3) & O2 & E2).
  split; [congruence|]. split; [|split].
  - split; [|split].
    + intros a t' Ha. destruct (B1 _ _ Ha) as (t1 & Ht1 & M1 & F1). destruct (A1 _ _ Ht1) as (t & Ht & M & F).
      exists t. split; [assumption|]. split; congruence.
    + intros a t Ha. destruct (A2 _ _ Ha) as (t1 & Ht1 & M1 & F1). destruct (B2 _ _ Ht1) as (t' & Ht & M & F).
      exists t'. split; [assumption|]. split; congruence.
    + intros a m Ha. destruct (A3 _ _ Ha) as (m1 & Hm1 & P1 & Q1 & F1). destruct (B3 _ _ Hm1) as (m' & Hm & P & Q & F).
      exists m'. split; [assumption|]. split; [congruence|]. split; congruence.
  - intros x Hx. rewrite O2, O1 by assumption. reflexivity.
  - intros e' He'. destruct (E2 _ He') as (e1 & He1 & K1 & W1). destruct (E1 _ He1) as (e & He & K & W).
    exists e. split; [assumption|]. split; congruence.
Qed.

(** The creator's instructions touch no escrow at all. *)
Definition quiet_all (w w' : world) : Prop :=
  w_now w' = w_now w /\ same_shape w w' /\ w_escrows w' = w_escrows w.

Lemma unsold_quiet w k bv bm ct pr h w' l :
  inv w -> step w (IUnsold k bv bm ct pr h) = Ok (w', l) -> quiet_all w w'.
Proof.
  intros Hi Hs. cbn in Hs. apply unsold_did in Hs; [|assumption]. destruct Hs as (p & m & w1 & lx & D). destruct D. subst w'.
  destruct du_what as [[_ Hx]|[_ Hx]]; rest_of Hx; (split; [exact Rnow|]); (split; [|exact Re]).
  - eapply shape_ext; [eapply burn_shape; exact Hx|reflexivity|reflexivity].
  - eapply shape_ext; [eapply transfer_shape; exact Hx|reflexivity|reflexivity].
Qed.
Lemma creator_quiet w k ot owner pr h w' l :
  inv w -> step w (ICreatorWithdraw k ot owner pr h) = Ok (w', l) -> quiet_all w w'.
Proof.
  intros Hi Hs. cbn in Hs. apply creator_did in Hs; [|assumption]. destruct Hs as (p & m & w1 & lx & D). destruct D. subst w'.
  destruct dcw_what as [(_ & _ & Hx & _)|(_ & _ & Hx & _)]; rest_of Hx; (split; [exact Rnow|]); (split; [|exact Re]);
    (eapply shape_ext; [eapply transfer_shape; exact Hx|reflexivity|reflexivity]).
Qed.
Lemma fee_quiet w k qv qm rcv owner pr h w' l :
  inv w -> step w (ICollectFee k qv qm rcv owner pr h) = Ok (w', l) -> quiet_all w w'.
Proof.
  intros Hi Hs. cbn in Hs. apply fee_did in Hs; [|assumption]. destruct Hs as (p & m & w1 & lx & D). destruct D. subst w'.
  rest_of dfe_paid. split; [exact Rnow|]. split; [|exact Re].
  eapply shape_ext; [eapply paid_shape; exact dfe_paid|reflexivity|reflexivity].
Qed.

(** * Ready to be wound down *)

Section wind.
Context (k : addr) (qt bt : addr -> addr) (qpr bpr : prog) (qh bh : henv).

(** Everybody has accounts [qt], [bt] that can receive quote and base tokens. *)
Definition can_receive (w : world) (p : presale) (o : addr) : Prop :=
  (exists m, receivable w (PQuoteVault k) (p_qmint p) (qt o) qpr TransferHookQuote (h_accounts qh) qh m) /\
  (exists m, receivable w (PBaseVault k) (p_bmint p) (bt o) bpr TransferHookBase (h_accounts bh) bh m).

Record ready (w : world) (p : presale) : Prop := {
  rd_reach : reachable w;
  rd_presale : w_presales w !! k = Some p;
  rd_over : p_end p <= w_now w;
  rd_vested : p_min_cap p <= p_deposit p -> p_vs p + p_vest p <= w_now w;
  rd_creator : is_wallet (p_owner p) = true /\ can_receive w p (p_owner p);
  rd_buyers : forall ek e, w_escrows w !! ek = Some e -> e_presale e = k ->
    is_wallet (e_owner e) = true /\ can_receive w p (e_owner e)
}.

(** What does not change on the way, except that flags are raised. *)
Record settled (p p' : presale) : Prop := {
  st_terms : terms_of p' = terms_of p;
  st_timing : timing_of p' = timing_of p;
  st_deposits : deposits_of p' = deposits_of p;
  st_flags : p_cwd p <= p_cwd p' /\ p_fee_col p <= p_fee_col p' /\ p_unsold_done p <= p_unsold_done p'
}.
Lemma settled_refl p : settled p p.
Proof. constructor; try reflexivity. lia. Qed.
Lemma settled_trans p p1 p2 : settled p p1 -> settled p1 p2 -> settled p p2.
Proof. intros [A1 A2 A3 A4] [B1 B2 B3 B4]. constructor; try congruence. lia. Qed.
Lemma settled_fields p p' : settled p p' ->
  p_owner p' = p_owner p /\ p_qmint p' = p_qmint p /\ p_bmint p' = p_bmint p /\ p_min_cap p' = p_min_cap p /\
  p_vest p' = p_vest p /\ p_vs p' = p_vs p /\ p_end p' = p_end p /\ p_deposit p' = p_deposit p /\ p_mode p' = p_mode p.
Proof.
  intros [A1 A2 A3 _]. unfold terms_of in A1. unfold timing_of in A2. unfold deposits_of in A3.
  injection A1; injection A2; injection A3. intros. repeat split; assumption.
Qed.

Lemma ready_step w p o w' l : ready w p -> step w o = Ok (w', l) ->
  w_now w' = w_now w -> same_shape w w' ->
  (forall x e', w_escrows w' !! x = Some e' ->
     exists e, w_escrows w !! x = Some e /\ e_presale e' = e_presale e /\ e_owner e' = e_owner e) ->
  exists p', ready w' p' /\ settled p p'.
Proof.
  intros Hr Hs Hn Hsh He. destruct Hr as [R1 R2 R3 R4 R5 R6]. pose proof (reachable_inv _ R1) as Hi.
  destruct (presale_moves _ _ _ _ _ _ Hi Hs R2) as (p' & Hp' & Hm). exists p'.
  destruct (mv_over _ _ _ Hm R3) as [Ht Hd].
  assert (Hst : settled p p').
  { constructor; try assumption; [apply (mv_terms _ _ _ Hm)|apply (mv_flags _ _ _ Hm)]. }
  split; [|assumption]. destruct (settled_fields _ _ Hst) as (F1 & F2 & F3 & F4 & F5 & F6 & F7 & F8 & F9).
  assert (Hrc : forall o, can_receive w p o -> can_receive w' p' o).
  { intros a [[m1 H1] [m2 H2]]. unfold can_receive. rewrite F2, F3.
    destruct (receivable_shape _ _ _ _ _ _ _ _ _ _ Hsh H1) as (m1' & H1' & _).
    destruct (receivable_shape _ _ _ _ _ _ _ _ _ _ Hsh H2) as (m2' & H2' & _). eauto. }
  constructor.
  - eapply reachable_step; eassumption.
  - assumption.
  - lia.
  - rewrite F4, F5, F6, F8, Hn. assumption.
  - rewrite F1. destruct R5. auto.
  - intros x e' Hx Hk. destruct (He _ _ Hx) as (e & Hxe & K & W). rewrite W.
    destruct (R6 _ _ Hxe ltac:(congruence)). auto.
Qed.

Lemma ready_quiet w p o w' l ek : ready w p -> step w o = Ok (w', l) -> quiet ek w w' ->
  exists p', ready w' p' /\ settled p p'.
Proof.
  intros Hr Hs (Hn & Hsh & Ho & He). eapply ready_step; try eassumption.
  intros x e' Hx. destruct (decide (x = ek)) as [->|Hne]; [apply He; assumption|].
  rewrite Ho in Hx by assumption. eauto.
Qed.
Lemma ready_quiet_all w p o w' l : ready w p -> step w o = Ok (w', l) -> quiet_all w w' ->
  exists p', ready w' p' /\ settled p p'.
Proof.
  intros Hr Hs (Hn & Hsh & He). eapply ready_step; try eassumption. intros x e' Hx. rewrite He in Hx. eauto.
Qed.

(** Every instruction on the way is the business of the party whom it pays. *)
Definition own_op (creator : addr) (o : op) : Prop :=
  match o with
  | IUnsold k' _ _ ct _ _ => k' = k /\ ct = bt creator
  | ICreatorWithdraw k' ot owner _ _ => k' = k /\ owner = creator /\ (ot = qt owner \/ ot = bt owner)
  | ICollectFee k' _ _ rcv owner _ _ => k' = k /\ owner = creator /\ rcv = qt owner
  | IWithdrawRemaining k' _ _ _ ot owner _ _ => k' = k /\ ot = qt owner
  | IClaim k' _ _ _ ot owner _ _ => k' = k /\ ot = bt owner
  | ICloseEscrow k' _ owner rr => k' = k /\ rr = owner
  | _ => False
  end.

Definition wound (w : world) (p : presale) (w' : world) (p' : presale) (l : list op) : Prop :=
  (exists x, steps w l = Ok (w', x)) /\ ready w' p' /\ settled p p' /\ Forall (own_op (p_owner p)) l.

Lemma wound_nil w p : ready w p -> wound w p w p [].
Proof. intros Hr. split; [exists []; reflexivity|]. split; [assumption|]. split; [apply settled_refl|constructor]. Qed.
Lemma steps_app w l w1 x1 l' w2 x2 : steps w l = Ok (w1, x1) -> steps w1 l' = Ok (w2, x2) ->
  steps w (l ++ l') = Ok (w2, x1 ++ x2).
Proof.
  revert w x1. induction l as [|o l IH]; intros w x1 H1 H2; cbn in *.
  - injection H1 as -> <-. exact H2.
  - destruct (step w o) as [[wo xo]|] eqn:E; [|discriminate H1]. cbn in *.
    destruct (steps wo l) as [[wl xl]|] eqn:E2; [|discriminate H1]. cbn in *. injection H1 as -> <-.
    rewrite (IH _ _ E2 H2). cbn. rewrite app_assoc. reflexivity.
Qed.
Lemma wound_app w p l w1 p1 l' w2 p2 : wound w p w1 p1 l -> wound w1 p1 w2 p2 l' -> wound w p w2 p2 (l ++ l').
Proof.
  intros ([x1 S1] & _ & T1 & F1) ([x2 S2] & R2 & T2 & F2). split; [exists (x1 ++ x2); eapply steps_app; eassumption|].
  split; [assumption|]. split; [eapply settled_trans; eassumption|].
  destruct (settled_fields _ _ T1) as (Ho & _). rewrite Ho in F2. apply Forall_app. auto.
Qed.
Lemma wound_one w p o w' l p' : step w o = Ok (w', l) -> ready w' p' -> settled p p' -> own_op (p_owner p) o ->
  wound w p w' p' [o].
Proof.
  intros Hs Hr Ht Ho. split; [exists (l ++ []); cbn; rewrite Hs; reflexivity|]. split; [assumption|]. split; [assumption|].
  constructor; [assumption|constructor].
Qed.

(** * One escrow leaves *)

Lemma leave_one w p ek e : ready w p -> w_escrows w !! ek = Some e -> e_presale e = k ->
  exists w' p' l, wound w p w' p' l /\ w_escrows w' !! ek = None /\
    (forall x, x <> ek -> w_escrows w' !! x = w_escrows w !! x).
Proof.
  intros Hr He Hk. pose proof Hr as [R1 R2 R3 R4 R5 R6]. pose proof (reachable_inv _ R1) as Hi.
  destruct (R6 _ _ He Hk) as (Hsg & [mq Hq] & [mb Hb]).
  destruct (at_exists _ _ _ _ _ Hi R2 He Hk) as [r Hre].
  assert (Hrr : ek <> e_owner e).
  { rewrite (s_key _ _ _ _ _ (at_esc _ _ _ _ _ _ (at_intro _ _ _ _ _ _ Hi R2 He Hk Hre))).
    intros Hx. rewrite <- Hx in Hsg. discriminate. }
  assert (Hflag : e_withdrawn e = 0 \/ e_withdrawn e = 1).
  { apply (s_flag _ _ _ _ _ (at_esc _ _ _ _ _ _ (at_intro _ _ _ _ _ _ Hi R2 He Hk Hre))). }
  destruct (Z_lt_ge_dec (p_deposit p) (p_min_cap p)) as [Hlt|Hge].
  - assert (Hf : failed p (w_now w)) by (split; assumption). destruct Hflag as [Hz|Hz].
    + destruct (C58_exit_after_failure w k p ek e _ _ _ _ (e_owner e) R1 R2 Hf He Hk Hz Hsg Hrr Hq)
        as (w1 & l1 & w2 & l2 & S1 & _ & S2 & Hg).
      pose proof (refund_quiet _ _ _ _ _ _ _ _ _ _ _ Hi S1) as Q1.
      destruct (ready_quiet _ _ _ _ _ _ Hr S1 Q1) as (p1 & Hr1 & T1).
      pose proof (close_quiet _ _ _ _ _ _ _ (reachable_inv _ (rd_reach _ _ Hr1)) S2) as Q2.
      destruct (ready_quiet _ _ _ _ _ _ Hr1 S2 Q2) as (p2 & Hr2 & T2).
      exists w2, p2. eexists ([_] ++ [_]). split; [|split; [exact Hg|apply (quiet_trans _ _ _ _ Q1 Q2)]].
      eapply wound_app; (eapply wound_one; [eassumption|eassumption|eassumption|cbn; auto]).
    + destruct (proj2 (C57_close_iff w k p ek e r (e_owner e) R1 R2 He Hk Hre Hsg Hrr)) as (w1 & l1 & S1).
      { right. left. auto. }
      pose proof (close_quiet _ _ _ _ _ _ _ Hi S1) as Q1.
      destruct (ready_quiet _ _ _ _ _ _ Hr S1 Q1) as (p1 & Hr1 & T1).
      exists w1, p1, [ICloseEscrow k ek (e_owner e) (e_owner e)].
      split; [eapply wound_one; [eassumption..|cbn; auto]|].
      split; [eapply closed_gone; eassumption|apply Q1].
  - assert (Hsu : succeeded p (w_now w)) by (split; [assumption|lia]). specialize (R4 ltac:(lia)).
    destruct (decide (p_mode p = 1 /\ e_withdrawn e = 0)) as [[Hm Hz]|Hno].
    + destruct (C58_exit_prorata w k p ek e r _ _ _ _ _ _ _ _ (e_owner e) R1 R2 Hsu R4 Hm He Hk Hre Hz Hsg Hrr Hq Hb)
        as (w1 & l1 & w2 & l2 & w3 & l3 & S1 & _ & S2 & _ & S3 & Hg).
      pose proof (refund_quiet _ _ _ _ _ _ _ _ _ _ _ Hi S1) as Q1.
      destruct (ready_quiet _ _ _ _ _ _ Hr S1 Q1) as (p1 & Hr1 & T1).
      pose proof (claim_quiet _ _ _ _ _ _ _ _ _ _ _ (reachable_inv _ (rd_reach _ _ Hr1)) S2) as Q2.
      destruct (ready_quiet _ _ _ _ _ _ Hr1 S2 Q2) as (p2 & Hr2 & T2).
      pose proof (close_quiet _ _ _ _ _ _ _ (reachable_inv _ (rd_reach _ _ Hr2)) S3) as Q3.
      destruct (ready_quiet _ _ _ _ _ _ Hr2 S3 Q3) as (p3 & Hr3 & T3).
      exists w3, p3. eexists ([_] ++ [_] ++ [_]).
      split; [|split; [exact Hg|apply (quiet_trans _ _ _ _ Q1 (quiet_trans _ _ _ _ Q2 Q3))]].
      eapply wound_app; [|eapply wound_app]; (eapply wound_one; [eassumption|eassumption|eassumption|cbn; auto]).
    + assert (Hno' : e_withdrawn e = 1 \/ p_mode p <> 1).
      { destruct Hflag as [Hz|]; [right|left; assumption]. intros Hm. apply Hno. auto. }
      destruct (C58_exit_after_success w k p ek e r _ _ _ _ (e_owner e) R1 R2 Hsu R4 He Hk Hre Hno' Hsg Hrr Hb)
        as (w1 & l1 & w2 & l2 & S1 & _ & S2 & Hg).
      pose proof (claim_quiet _ _ _ _ _ _ _ _ _ _ _ Hi S1) as Q1.
      destruct (ready_quiet _ _ _ _ _ _ Hr S1 Q1) as (p1 & Hr1 & T1).
      pose proof (close_quiet _ _ _ _ _ _ _ (reachable_inv _ (rd_reach _ _ Hr1)) S2) as Q2.
      destruct (ready_quiet _ _ _ _ _ _ Hr1 S2 Q2) as (p2 & Hr2 & T2).
      exists w2, p2. eexists ([_] ++ [_]). split; [|split; [exact Hg|apply (quiet_trans _ _ _ _ Q1 Q2)]].
      eapply wound_app; (eapply wound_one; [eassumption|eassumption|eassumption|cbn; auto]).
Qed.

(** * All escrows leave *)

Lemma leave_all (L : list addr) : forall w p, ready w p ->
  (forall ek e, w_escrows w !! ek = Some e -> e_presale e = k -> ek ∈ L) ->
  exists w' p' l, wound w p w' p' l /\ (forall ek e, w_escrows w' !! ek = Some e -> e_presale e <> k).
Proof.
  induction L as [|a L IH]; intros w p Hr HL.
  - exists w, p, []. split; [apply wound_nil; assumption|]. intros ek e He Hk. specialize (HL _ _ He Hk).
    apply elem_of_nil in HL. assumption.
  - assert (Hgo : exists w1 p1 l1, wound w p w1 p1 l1 /\
      (forall ek e, w_escrows w1 !! ek = Some e -> e_presale e = k -> ek ∈ L)).
    { destruct (w_escrows w !! a) as [e|] eqn:Ea; [destruct (decide (e_presale e = k)) as [Hk|Hk]|].
      - destruct (leave_one _ _ _ _ Hr Ea Hk) as (w1 & p1 & l1 & W1 & Hg & Ho). exists w1, p1, l1. split; [assumption|].
        intros ek e' He' Hk'. destruct (decide (ek = a)) as [->|Hne]; [congruence|]. rewrite Ho in He' by assumption.
        specialize (HL _ _ He' Hk'). apply elem_of_cons in HL as [|]; [contradiction|assumption].
      - exists w, p, []. split; [apply wound_nil; assumption|]. intros ek e' He' Hk'. specialize (HL _ _ He' Hk').
        apply elem_of_cons in HL as [->|]; [congruence|assumption].
      - exists w, p, []. split; [apply wound_nil; assumption|]. intros ek e' He' Hk'. specialize (HL _ _ He' Hk').
        apply elem_of_cons in HL as [->|]; [congruence|assumption]. }
    destruct Hgo as (w1 & p1 & l1 & W1 & HL1).
    destruct (IH w1 p1) as (w2 & p2 & l2 & W2 & Hg); [apply W1|assumption|].
    exists w2, p2, (l1 ++ l2). split; [eapply wound_app; eassumption|assumption].
Qed.

(** * The creator's part *)

Lemma creator_takes w p : ready w p ->
  exists w' p' l, wound w p w' p' l /\ p_cwd p' = 1.
Proof.
  intros Hr. pose proof Hr as [R1 R2 R3 R4 [Hsg [[mq Hq] [mb Hb]]] R6]. pose proof (reachable_inv _ R1) as Hi.
  destruct (b_flags _ _ _ (a_books _ _ _ _ (q_acct _ _ _ (i_presales _ Hi _ _ R2)))) as ([Hz|Hz] & _).
  2: { exists w, p, []. split; [apply wound_nil; assumption|assumption]. }
  assert (Hgo : exists h m ot pr rest, (ot = qt (p_owner p) \/ ot = bt (p_owner p)) /\
    (p_min_cap p <= p_deposit p -> h_accounts h = PQuoteVault k :: p_qmint p :: rest /\
      receivable w (PQuoteVault k) (p_qmint p) ot pr TransferHookQuote rest h m) /\
    (p_deposit p < p_min_cap p -> h_accounts h = PBaseVault k :: p_bmint p :: rest /\
      receivable w (PBaseVault k) (p_bmint p) ot pr TransferHookBase rest h m)).
  { destruct (Z_lt_ge_dec (p_deposit p) (p_min_cap p)) as [Hlt|Hge].
    - exists (mkHenv (PBaseVault k :: p_bmint p :: h_accounts bh) (h_slices bh) (h_ok bh)), mb, (bt (p_owner p)), bpr, (h_accounts bh).
      split; [auto|]. split; [lia|]. intros _. split; [reflexivity|]. destruct Hb. constructor; assumption.
    - exists (mkHenv (PQuoteVault k :: p_qmint p :: h_accounts qh) (h_slices qh) (h_ok qh)), mq, (qt (p_owner p)), qpr, (h_accounts qh).
      split; [auto|]. split; [|lia]. intros _. split; [reflexivity|]. destruct Hq. constructor; assumption. }
  destruct Hgo as (h & m & ot & pr & rest & Hot & H1 & H2).
  destruct (C06_creator_withdraw_succeeds w k p ot pr h rest m R1 R2 R3 Hz Hsg H1 H2) as (w1 & l1 & S1 & _).
  destruct (ready_quiet_all _ _ _ _ _ Hr S1 (creator_quiet _ _ _ _ _ _ _ _ Hi S1)) as (p1 & Hr1 & T1).
  exists w1, p1, [ICreatorWithdraw k ot (p_owner p) pr h].
  split; [eapply wound_one; [exact S1|assumption|assumption|cbn; auto]|].
  destruct (C06_creator_withdraw_exact _ _ _ _ _ _ _ _ R1 S1) as (px & m' & Hpx & _ & _ & _ & Hp1 & _).
  rewrite (rd_presale _ _ Hr1) in Hp1. injection Hp1 as ->. reflexivity.
Qed.

Lemma creator_fees w p : ready w p ->
  exists w' p' l, wound w p w' p' l /\ (p_min_cap p' <= p_deposit p' -> p_fee_col p' = 1).
Proof.
  intros Hr. pose proof Hr as [R1 R2 R3 R4 [Hsg [[mq Hq] [mb Hb]]] R6]. pose proof (reachable_inv _ R1) as Hi.
  destruct (b_flags _ _ _ (a_books _ _ _ _ (q_acct _ _ _ (i_presales _ Hi _ _ R2)))) as (_ & Hfl & _).
  destruct (decide (p_min_cap p <= p_deposit p /\ p_fee_col p = 0)) as [[Hge Hz]|Hno].
  2: { exists w, p, []. split; [apply wound_nil; assumption|]. intros Hge. destruct Hfl; [|assumption]. exfalso. apply Hno. auto. }
  destruct (C07_fee_succeeds w k p (qt (p_owner p)) qpr qh mq R1 R2 (conj R3 Hge) Hz Hsg Hq) as (w1 & l1 & S1 & _).
  destruct (ready_quiet_all _ _ _ _ _ Hr S1 (fee_quiet _ _ _ _ _ _ _ _ _ _ Hi S1)) as (p1 & Hr1 & T1).
  exists w1, p1. eexists [_]. split; [eapply wound_one; [exact S1|assumption|assumption|cbn; auto]|].
  destruct (C07_fee_exact _ _ _ _ _ _ _ _ _ _ R1 S1) as (px & m' & Hpx & _ & _ & _ & _ & _ & Hp1 & _).
  rewrite (rd_presale _ _ Hr1) in Hp1. injection Hp1 as ->. reflexivity.
Qed.

Lemma unsold_handled w p t : ready w p ->
  bt (p_owner p) = Ata (p_owner p) (p_bmint p) bpr -> w_tokens w !! bt (p_owner p) = Some t -> t_owner t = p_owner p ->
  (p_unsold p = 1 -> forall m, w_mints w !! p_bmint p = Some m -> m_native m = false) ->
  exists w' p' l, wound w p w' p' l /\ (p_min_cap p' <= p_deposit p' -> p_unsold_done p' = 1 \/ unsold p' = 0).
Proof.
  intros Hr Hbt Ht Hto Hnat. pose proof Hr as [R1 R2 R3 R4 [Hsg [[mq Hq] [mb Hb]]] R6]. pose proof (reachable_inv _ R1) as Hi.
  pose proof (i_presales _ Hi _ _ R2) as Hok.
  destruct (b_flags _ _ _ (a_books _ _ _ _ (q_acct _ _ _ Hok))) as (_ & _ & Hfl).
  destruct (decide (p_min_cap p <= p_deposit p /\ p_unsold_done p = 0 /\ 0 < unsold p)) as [(Hge & Hz & Hpos)|Hno].
  2: { exists w, p, []. split; [apply wound_nil; assumption|]. intros Hge. destruct Hfl; [|auto]. right.
       pose proof (total_sold_range _ _ _ (q_cfg _ _ _ Hok) (a_books _ _ _ _ (q_acct _ _ _ Hok))).
       unfold unsold in *. destruct (Z.eq_dec (p_supply p - total_sold p) 0); [assumption|]. exfalso. apply Hno. lia. }
  pose proof (rc_prog _ _ _ _ _ _ _ _ _ Hb) as Hprog.
  destruct (C08_unsold_succeeds w k p (bt (p_owner p)) t bh mb R1 R2 (conj R3 Hge) Hz Hpos) as (w1 & l1 & S1).
  { intros Hu. eapply Hnat; [exact Hu|apply Hb]. } { rewrite Hprog. assumption. } { assumption. } { assumption. } { rewrite Hprog. assumption. }
  destruct (ready_quiet_all _ _ _ _ _ Hr S1 (unsold_quiet _ _ _ _ _ _ _ _ _ Hi S1)) as (p1 & Hr1 & T1).
  exists w1, p1. eexists [_]. split; [eapply wound_one; [exact S1|assumption|assumption|cbn; auto]|].
  destruct (C08_unsold_exact _ _ _ _ _ _ _ _ _ R1 S1) as (px & m' & Hpx & _ & _ & _ & Hp1 & _).
  rewrite (rd_presale _ _ Hr1) in Hp1. injection Hp1 as ->. left. reflexivity.
Qed.

(** * C69 *)

Lemma no_escrow_sum E f : (forall ek e, E !! ek = Some e -> e_presale e <> k) -> escrow_sum E k f = 0.
Proof.
  intros Hno. unfold escrow_sum. etransitivity; [|apply (msum_zero E)]. apply msum_ext. intros ek e He.
  rewrite bool_decide_eq_false_2; [reflexivity|]. eapply Hno. exact He.
Qed.

(** From any state after the end (and, if the presale succeeded, after the end of vesting) the
    parties can, each acting for themselves, close all escrows and empty the books: nobody is owed
    anything any more. *)
Theorem C69_wind_down w p t :
  ready w p ->
  bt (p_owner p) = Ata (p_owner p) (p_bmint p) bpr -> w_tokens w !! bt (p_owner p) = Some t -> t_owner t = p_owner p ->
  (p_unsold p = 1 -> forall m, w_mints w !! p_bmint p = Some m -> m_native m = false) ->
  exists w' p' l x,
    steps w l = Ok (w', x) /\ Forall (own_op (p_owner p)) l /\
    (forall ek e, w_escrows w' !! ek = Some e -> e_presale e <> k) /\
    w_presales w' !! k = Some p' /\ p_cwd p' = 1 /\
    owed_quote (w_now w') k p' (w_escrows w') = 0 /\ owed_base (w_now w') k p' (w_escrows w') = 0.
Proof.
  intros Hr Hbt Ht Hto Hnat.
  destruct (unsold_handled _ _ _ Hr Hbt Ht Hto Hnat) as (w1 & p1 & l1 & W1 & U1).
  destruct (creator_takes w1 p1) as (w2 & p2 & l2 & W2 & U2); [apply W1|].
  destruct (creator_fees w2 p2) as (w3 & p3 & l3 & W3 & U3); [apply W2|].
  destruct (leave_all (map fst (map_to_list (w_escrows w3))) w3 p3) as (w4 & p4 & l4 & W4 & U4); [apply W3| |].
  { intros ek e He _. apply elem_of_list_fmap. exists (ek, e). split; [reflexivity|]. apply elem_of_map_to_list. assumption. }
  pose proof (wound_app _ _ _ _ _ _ _ _ W1 (wound_app _ _ _ _ _ _ _ _ W2 (wound_app _ _ _ _ _ _ _ _ W3 W4))) as W.
  destruct W as ([x Hx] & Hr4 & _ & Hown).
  exists w4, p4, (l1 ++ l2 ++ l3 ++ l4), x. split; [assumption|]. split; [assumption|]. split; [assumption|].
  split; [apply (rd_presale _ _ Hr4)|].
  pose proof (reachable_inv _ (rd_reach _ _ Hr4)) as Hi4. pose proof (i_presales _ Hi4 _ _ (rd_presale _ _ Hr4)) as Hok4.
  destruct (b_flags _ _ _ (a_books _ _ _ _ (q_acct _ _ _ Hok4))) as (B1 & B2 & B3).
  pose proof (proj1 (proj2 (proj2 W4))) as T4. pose proof (proj1 (proj2 (proj2 W3))) as T3.
  pose proof (proj1 (proj2 (proj2 W2))) as T2.
  pose proof (settled_trans _ _ _ T3 T4) as T34. pose proof (settled_trans _ _ _ T2 T34) as T24.
  assert (Hc : p_cwd p4 = 1). { pose proof (st_flags _ _ T34). lia. }
  assert (Hf : p_min_cap p4 <= p_deposit p4 -> p_fee_col p4 = 1).
  { destruct (settled_fields _ _ T4) as (_ & _ & _ & E1 & _ & _ & _ & E2 & _). rewrite E1, E2. intros Hge.
    specialize (U3 Hge). pose proof (st_flags _ _ T4). lia. }
  assert (Hu : p_min_cap p4 <= p_deposit p4 -> p_unsold_done p4 = 1 \/ unsold p4 = 0).
  { destruct (settled_fields _ _ T24) as (_ & _ & _ & E1 & _ & _ & _ & E2 & _). rewrite E1, E2. intros Hge.
    destruct (U1 Hge) as [Hd|Hd]; [left; pose proof (st_flags _ _ T24); lia|right].
    rewrite <- Hd. apply (same_money p1 p4); apply T24. }
  split; [assumption|]. unfold owed_quote, owed_base. rewrite !(no_escrow_sum _ _ U4), Hc.
  rewrite (proj2 (Z.ltb_ge _ _)) by apply (rd_over _ _ Hr4).
  destruct (Z.ltb_spec (p_deposit p4) (p_min_cap p4)) as [|Hge]; [auto|].
  rewrite (Hf Hge). split; [reflexivity|]. destruct (Hu Hge) as [->| ->]; [reflexivity|]. destruct (_ =? _); reflexivity.
Qed.

(** Together with C52: all that remains of what was ever paid in is rounding dust, nothing at all
    when the presale failed. *)
Theorem C69_only_dust_left l0 p t :
  ready (run genesis l0) p ->
  bt (p_owner p) = Ata (p_owner p) (p_bmint p) bpr -> w_tokens (run genesis l0) !! bt (p_owner p) = Some t ->
  t_owner t = p_owner p ->
  (p_unsold p = 1 -> forall m, w_mints (run genesis l0) !! p_bmint p = Some m -> m_native m = false) ->
  exists l p', Forall (own_op (p_owner p)) l /\ w_presales (run genesis (l0 ++ l)) !! k = Some p' /\
    let total c := lifetime (flow k c) genesis (l0 ++ l) in
    let quote_left := total KDeposit - total KBack - total KRefund - total KRaise - total KFees in
    let base_left := total KFunding - total KClaim - total KUnsold - total KReturned in
    (p_deposit p < p_min_cap p -> quote_left = 0 /\ base_left = 0) /\
    (p_min_cap p <= p_deposit p -> exists l1 l2 l3 l4, l0 ++ l = l1 ++ l2 /\ l0 ++ l = l3 ++ l4 /\
       0 <= quote_left <= lsum (fun r => if 0 <? r_deposit r then 1 else 0) (p_regs p')
         + buyers (w_escrows (run genesis l1)) k + fee_payers (w_escrows (run genesis l1)) k /\
       base_left <= 2 * buyers (w_escrows (run genesis l3)) k).
Proof.
  intros Hr Hbt Ht Hto Hnat.
  destruct (C69_wind_down _ _ _ Hr Hbt Ht Hto Hnat) as (w' & p' & l & x & Hx & Hown & _ & Hp' & Hc & Hq & Hb).
  exists l, p'. split; [assumption|].
  assert (Hrun : run genesis (l0 ++ l) = w').
  { unfold run. rewrite foldl_app. apply (steps_run _ _ _ _ Hx). }
  rewrite <- Hrun in Hp', Hq, Hb. split; [assumption|].
  assert (Hw' : reachable (run genesis (l0 ++ l))) by (exists (l0 ++ l); reflexivity).
  destruct (C16_outcome_final (run genesis l0) l k p (rd_reach _ _ Hr) (rd_presale _ _ Hr) (rd_over _ _ Hr))
    as (p2 & Hp2 & _ & _ & _ & Hov & Hsu & Hfa).
  assert (Hsame : run (run genesis l0) l = run genesis (l0 ++ l)) by (unfold run; rewrite foldl_app; reflexivity).
  rewrite Hsame in Hp2, Hov, Hsu, Hfa. assert (p2 = p') as -> by congruence. clear Hp2.
  intros total quote_left base_left.
  destruct (C51_ledger _ k p' Hp') as (L1 & _ & _ & L4 & _ & L6 & _ & L8). cbv zeta in *.
  fold (total KFunding) in L1. fold (total KClaim) in L4. fold (total KReturned) in L6. fold (total KUnsold) in L8.
  destruct (C52_quote_dust _ k p' Hp' Hov) as [Q1 Q2].
  split.
  - intros Hlt. pose proof (proj2 Hfa (conj (rd_over _ _ Hr) Hlt)) as Hf. specialize (Q1 Hf). unfold quote_left, total.
    rewrite Hq in Q1. split; [lia|]. unfold base_left.
    pose proof (i_presales _ (reachable_inv _ Hw') _ _ Hp') as Hok. pose proof (q_acct _ _ _ Hok) as Ha.
    destruct Hf as [_ Hf]. destruct (a_failed _ _ _ _ Ha Hf) as [[_ Hdone] Hrg _].
    assert (Hz : p_claimed p' = 0).
    { rewrite (b_claimed _ _ _ (a_books _ _ _ _ Ha)). etransitivity; [|apply (lsum_zero (p_regs p'))].
      apply lsum_ext. intros r Hi. apply elem_of_list_lookup in Hi as [i Hi]. apply (Hrg i r Hi). }
    rewrite L1, L4, L6, L8, Hz, Hc, Hdone. rewrite (proj2 (Z.ltb_lt _ _)) by assumption. cbn. lia.
  - intros Hge. pose proof (proj2 Hsu (conj (rd_over _ _ Hr) Hge)) as Hs.
    destruct (Q2 Hs) as (l1 & l2 & Hl & Hd). destruct (C52_base_dust _ k p' Hp' Hs) as (l3 & l4 & Hl' & Hd').
    exists l1, l2, l3, l4. split; [assumption|]. split; [assumption|]. rewrite Hq in Hd. rewrite Hb in Hd'.
    unfold quote_left, base_left, total in *. rewrite L6. destruct Hs as [_ Hs].
    rewrite (proj2 (Z.ltb_ge _ _)) by assumption. rewrite andb_false_r. split; lia.
Qed.
End wind.
End WithCrypto.

#[local] Existing Instance toy.
(** The prorata presale with three open escrows, after the end of vesting. *)
Definition w_pr_late : world := run w_pr_over [EClock 3000].
Definition q_of (o : addr) : addr :=
  if decide (o = alice) then alice_q else if decide (o = bob) then bob_q else if decide (o = carol) then carol_q else creator_q.
Definition b_of (o : addr) : addr :=
  if decide (o = alice) then alice_b else if decide (o = bob) then bob_b else if decide (o = carol) then carol_b else creator_b.
Lemma late_owners ek e : w_escrows w_pr_late !! ek = Some e ->
  e_owner e = alice \/ e_owner e = bob \/ e_owner e = carol.
Proof.
  intros He. apply elem_of_map_to_list in He.
  assert (Hall : forallb (fun x => beq_addr (e_owner x.2) alice || beq_addr (e_owner x.2) bob || beq_addr (e_owner x.2) carol)
    (map_to_list (w_escrows w_pr_late)) = true) by (vm_compute; reflexivity).
  rewrite forallb_forall in Hall. apply elem_of_list_In in He. specialize (Hall _ He). cbn in Hall.
  clear He. rewrite !orb_true_iff in Hall. rewrite !beq_addr_true in Hall. tauto.
Qed.
Definition late_facts (w : world) : option (addr * addr * addr * bool * bool * Z) :=
  match w_presales w !! k1 with
  | Some p => Some (p_owner p, p_qmint p, p_bmint p, p_end p <=? w_now w, p_vs p + p_vest p <=? w_now w, p_escrows p)
  | None => None
  end.
Lemma late_computed : late_facts w_pr_late = Some (creator, qmint, bmint, true, true, 3).
Proof. vm_compute. reflexivity. Qed.
Lemma late_receive o : o = alice \/ o = bob \/ o = carol \/ o = creator ->
  (exists m, receivable w_pr_late (PQuoteVault k1) qmint (q_of o) SplToken TransferHookQuote (h_accounts noh) noh m) /\
  (exists m, receivable w_pr_late (PBaseVault k1) bmint (b_of o) Token2022 TransferHookBase (h_accounts noh) noh m).
Proof. intros [->|[->|[->| ->]]]; (split; eexists; plain_ok). Qed.
Lemma late_creator : exists t, w_tokens w_pr_late !! b_of creator = Some t /\ t_owner t = creator.
Proof. eexists. split; vm_compute; reflexivity. Qed.
Lemma late_mint : m_native <$> w_mints w_pr_late !! bmint = Some false.
Proof. vm_compute. reflexivity. Qed.
Lemma late_reachable : reachable w_pr_late.
Proof. exact (reachable_run _ [EClock 3000] (reach pr_over)). Qed.
Example C69_example : exists p t,
  ready k1 q_of b_of SplToken Token2022 noh noh w_pr_late p /\ p_escrows p = 3 /\
  b_of (p_owner p) = Ata (p_owner p) (p_bmint p) Token2022 /\
  w_tokens w_pr_late !! b_of (p_owner p) = Some t /\ t_owner t = p_owner p /\
  (p_unsold p = 1 -> forall m, w_mints w_pr_late !! p_bmint p = Some m -> m_native m = false).
Proof.
  pose proof late_computed as Hf.
  pose proof late_owners as Ho. pose proof late_receive as Hc. destruct late_creator as (t & Ht & Hto).
  pose proof late_mint as Hm. pose proof late_reachable as Hw.
  revert Hf Ho Hc Ht Hm Hw. generalize w_pr_late. intros w Hf Ho Hc Ht Hm Hw. unfold late_facts in Hf.
  destruct (w_presales w !! k1) as [p|] eqn:Hp; [|discriminate Hf].
  injection Hf as F1 F2 F3 F4 F5 F6. exists p, t. apply Z.leb_le in F4, F5.
  split; [|split; [assumption|rewrite F1, F3; split; [reflexivity|split; [auto|split; [auto|]]]]].
  2: { intros _ m Hm'. rewrite Hm' in Hm. injection Hm as Hm. exact Hm. }
  constructor; [assumption|assumption|assumption|intros _; assumption| |].
  - rewrite F1. split; [reflexivity|]. unfold can_receive. rewrite F2, F3. apply Hc. auto.
  - intros ek e He _. unfold can_receive. rewrite F2, F3.
    destruct (Ho _ _ He) as [->|[->| ->]]; (split; [reflexivity|apply Hc; auto]).
Qed.
