(** C79: when the mints leave nobody any power over token accounts, nobody can block or shorten a
    payout; and what each such power can do.

    The program admits mints with a freeze authority, a transfer fee authority and a transfer hook
    authority.  The payout theorems (C03-C07) therefore assume that the vault is not frozen, name
    the transfer fee and let the hook accept.  Here those assumptions are discharged for mints
    without such authorities, for every later history, and the theorems at the end show that they
    cannot be dropped for the others. *)
From Coq Require Import Lia.
From Verif Require Import Base Math State Handlers Token World Instr Exec Tactics Sums Spec Arith
  TokenFacts Inv Acct Funs Steps Init Preserve Reach Did Trans Flow Scenario P_Solvency P_History
  P_Payout P_Mints P_Exit.

(** Nobody can freeze accounts of the mint, charge transfers or interpose a program. *)
Definition immune (m : mint) : Prop :=
  m_freezable m = false /\ (m_prog m = SplToken \/ (m_fee m = None /\ m_hook m = None)).

Section WithCrypto.
Context `{Crypto}.

(** * What the token side of an instruction can change *)

(** Which extensions a mint has; their values may change. *)
Definition powers (m : mint) : prog * bool * list ext * option addr * bool * bool * bool :=
  (m_prog m, m_native m, m_exts m, m_delegate m, m_freezable m,
   match m_fee m with Some _ => true | None => false end,
   match m_hook m with Some _ => true | None => false end).

Record steady (w w' : world) : Prop := {
  st_tokens : forall a t', w_tokens w' !! a = Some t' ->
    (exists t, w_tokens w !! a = Some t /\ t_mint t' = t_mint t /\ t_frozen t' = t_frozen t) \/
    (w_tokens w !! a = None /\ t_frozen t' = false);
  st_kept : forall a, w_tokens w' !! a = None -> w_tokens w !! a = None;
  st_mints : forall a, powers <$> w_mints w' !! a = powers <$> w_mints w !! a
}.

Lemma steady_ext w w' : w_tokens w' = w_tokens w -> w_mints w' = w_mints w -> steady w w'.
Proof. intros Ht Hm. constructor; rewrite ?Ht, ?Hm; [|auto|reflexivity]. intros a t Ha. left. eauto. Qed.
Lemma steady_refl w : steady w w.
Proof. apply steady_ext; reflexivity. Qed.
Lemma steady_trans w1 w2 w3 : steady w1 w2 -> steady w2 w3 -> steady w1 w3.
Proof.
  intros [T1 K1 M1] [T2 K2 M2]. constructor; [|auto|intros a; rewrite M2; apply M1].
  intros a t3 H3. destruct (T2 _ _ H3) as [(t2 & H2 & E1 & E2)|[Hn E2]].
  - destruct (T1 _ _ H2) as [(t1 & H1 & E3 & E4)|[Hn E4]]; [left; exists t1|right]; repeat split; congruence.
  - right. auto.
Qed.
Lemma steady_token w a t t' :
  w_tokens w !! a = Some t -> t_mint t' = t_mint t -> t_frozen t' = t_frozen t -> steady w (upd_token a t' w).
Proof.
  intros Ha Em Ef. constructor; cbn.
  - intros b u. destruct (decide (b = a)) as [->|Hn]; [rewrite lookup_insert|rewrite lookup_insert_ne by congruence].
    + intros [= <-]. left. eauto.
    + left. eauto.
  - intros b. destruct (decide (b = a)) as [->|Hn]; [rewrite lookup_insert; discriminate|].
    rewrite lookup_insert_ne by congruence. auto.
  - reflexivity.
Qed.
Lemma steady_new w a t' :
  w_tokens w !! a = None -> t_frozen t' = false -> steady w (upd_token a t' w).
Proof.
  intros Ha Ef. constructor; cbn.
  - intros b u. destruct (decide (b = a)) as [->|Hn]; [rewrite lookup_insert|rewrite lookup_insert_ne by congruence].
    + intros [= <-]. auto.
    + left. eauto.
  - intros b. destruct (decide (b = a)) as [->|Hn]; [rewrite lookup_insert; discriminate|].
    rewrite lookup_insert_ne by congruence. auto.
  - reflexivity.
Qed.
Lemma steady_mint w a m m' : w_mints w !! a = Some m -> powers m' = powers m -> steady w (upd_mint a m' w).
Proof.
  intros Ha E. constructor; cbn.
  - intros b u. left. eauto.
  - auto.
  - intros b. destruct (decide (b = a)) as [->|Hn]; [rewrite lookup_insert, Ha; cbn; congruence|].
    rewrite lookup_insert_ne by congruence. reflexivity.
Qed.

Lemma steady_transfer w pr src mk dst auth n ok w' l :
  tok_transfer w pr src mk dst auth n ok = Ok (w', l) -> steady w w'.
Proof.
  intros Ht. apply tok_transfer_inv in Ht as (m & s & d & dl & Hm & Hs & Hd & _ & _ & _ & _ & _ & _ & _ & Hc).
  destruct Hc as [(_ & -> & _)|(Hne & _ & _ & -> & _)]; [apply steady_refl|].
  eapply steady_trans; [apply (steady_token w src s (set_t_delegate dl (set_t_amount (t_amount s - n) s))); [exact Hs|reflexivity|reflexivity]|].
  eapply steady_trans; [apply (steady_token _ dst d (set_t_amount (t_amount d + (n - tok_fee m n)) d))
    |apply (steady_mint _ mk m); [exact Hm|reflexivity]]; [|reflexivity|reflexivity].
  cbn. rewrite lookup_insert_ne by congruence. exact Hd.
Qed.
Lemma steady_paid w pr src mk dst n ok w' l : paid w pr src mk dst n ok w' l -> steady w w'.
Proof. intros [[_ Ht]|(_ & -> & _)]; [eapply steady_transfer; eassumption|apply steady_refl]. Qed.
Lemma steady_burn w pr src mk auth n w' l : tok_burn w pr src mk auth n = Ok (w', l) -> steady w w'.
Proof.
  intros Ht. apply tok_burn_inv in Ht as (m & s & dl & Hm & Hs & _ & _ & _ & _ & _ & -> & _).
  eapply steady_trans; [apply (steady_token w src s (set_t_delegate dl (set_t_amount (t_amount s - n) s))); [exact Hs|reflexivity|reflexivity]|].
  apply (steady_mint _ mk m); [exact Hm|reflexivity].
Qed.

(** No instruction of the program freezes or thaws an account or gives a mint a new power. *)
Lemma instr_steady w o w' l : inv w -> env_op o = false -> step w o = Ok (w', l) -> steady w w'.
Proof.
  intros Hi He Hs. pose proof (step_does _ _ _ _ Hi Hs) as Hd. destruct Hd.
  - congruence.
  - apply steady_ext; assumption.
  - destruct H1.
    subst w'. eapply steady_trans; [|eapply steady_trans; [eapply steady_transfer; exact di_transfer|]].
    + destruct di_new as (_ & N1 & N2). unfold with_vaults.
      eapply steady_trans; [eapply (steady_new _ _ (mkTok _ _ _ _ _ _ _)); [exact N1|reflexivity]|].
      eapply (steady_new _ _ (mkTok _ _ _ _ _ _ _)); [|reflexivity].
      cbn. rewrite lookup_insert_ne by congruence. exact N2.
    + apply steady_ext; reflexivity.
  - destruct H1. subst w'. apply steady_ext; reflexivity.
  - destruct H1.
    subst w'. eapply steady_trans; [eapply steady_transfer; exact dd_transfer|apply steady_ext; reflexivity].
  - destruct H1.
    subst w'. eapply steady_trans; [eapply steady_transfer; exact dw_transfer|apply steady_ext; reflexivity].
  - destruct H1.
    subst w'. eapply steady_trans; [eapply steady_paid; exact dr_paid|apply steady_ext; reflexivity].
  - destruct H1.
    destruct dm_world as (p2 & e2 & -> & _).
    eapply steady_trans; [eapply steady_paid; exact dm_paid|apply steady_ext; reflexivity].
  - destruct H1. subst w'. apply steady_ext; reflexivity.
  - destruct H1. subst w'. apply steady_ext; reflexivity.
  - destruct H1. subst w'.
    apply (steady_trans _ w1); [|apply steady_ext; reflexivity].
    destruct dcw_what as [(_ & _ & Ht & _)|(_ & _ & Ht & _)]; eapply steady_transfer; exact Ht.
  - destruct H1. subst w'.
    eapply steady_trans; [eapply steady_paid; exact dfe_paid|apply steady_ext; reflexivity].
  - destruct H1. subst w'.
    apply (steady_trans _ w1); [|apply steady_ext; reflexivity].
    destruct du_what as [(_ & Ht)|(_ & Ht)]; [eapply steady_burn|eapply steady_transfer]; exact Ht.
Qed.

(** * The token programs *)

(** What anybody outside the program can do: freeze accounts only of freezable mints, close only
    mints with a close authority, change fees and hooks only where the extension exists. *)
Record calm (w w' : world) : Prop := {
  ca_tokens : forall a t', w_tokens w' !! a = Some t' ->
    (exists t, w_tokens w !! a = Some t /\ t_mint t' = t_mint t /\
      (t_frozen t' = true -> t_frozen t = true \/
         exists m, w_mints w !! t_mint t = Some m /\ m_freezable m = true)) \/
    (w_tokens w !! a = None /\ t_frozen t' = false);
  ca_mints : forall a m, w_mints w !! a = Some m -> harmless m ->
    exists m', w_mints w' !! a = Some m' /\ powers m' = powers m
}.

Lemma steady_calm w w' : steady w w' -> calm w w'.
Proof.
  intros [T K M]. constructor.
  - intros a t' Ha. destruct (T _ _ Ha) as [(t & Ht & E1 & E2)|?]; [left|right; assumption].
    exists t. split; [assumption|]. split; [assumption|]. left. congruence.
  - intros a m Ha _. specialize (M a). rewrite Ha in M. cbn in M.
    destruct (w_mints w' !! a) as [m'|]; [|discriminate]. exists m'. split; [reflexivity|]. cbn in M. congruence.
Qed.

Ltac binds Hs := repeat match type of Hs with
  | rbind _ _ = Ok _ => let u := fresh "u" in let Hu := fresh "Hu" in
      apply rbind_Ok in Hs; destruct Hs as [u [Hu Hs]]; cbv beta in Hs end.
Ltac fin Hs := apply Ok_inj in Hs; injection Hs as <- <-.

Lemma env_calm w o w' l : env_op o = true -> step w o = Ok (w', l) -> calm w w'.
Proof.
  intros Ho Hs. destruct o; try discriminate Ho; cbn [step] in Hs;
  unfold env_clock, env_create_mint, env_close_mint, env_create_token, env_close_token, env_transfer, env_burn,
    env_mint_to, env_approve, env_revoke, env_set_owner, env_set_memo, env_set_guard, env_freeze, env_set_fee, env_set_hook,
    env_withdraw_withheld, env_ok, get_mint, get_token in Hs; binds Hs.
  - (* clock *) fin Hs. apply steady_calm, steady_ext; reflexivity.
  - (* new mint *) fin Hs. apply require_Ok in Hu. clean_bool. constructor; cbn.
    + intros b t Hb. left. exists t. auto.
    + intros b x Hb _. rewrite lookup_insert_ne by congruence. eauto.
  - (* closed mint *) fin Hs. apply ok_or_Ok in Hu. apply require_Ok in Hu0. clean_bool. constructor; cbn.
    + intros b t Hb. left. exists t. auto.
    + intros b x Hb Hx. rewrite lookup_delete_ne; [eauto|]. intros ->.
      assert (x = u) as -> by congruence. destruct Hx as [?|(_ & _ & _ & Hx)]; [congruence|].
      destruct (Hx ExtMintCloseAuthority) as [?|?]; try discriminate. assumption.
  - (* new token account *) fin Hs. apply require_Ok in Hu0. clean_bool.
    apply steady_calm, steady_new; [assumption|reflexivity].
  - (* closed token account *) fin Hs. constructor; cbn; [|eauto].
    intros b t Hb. apply lookup_delete_Some in Hb as [_ Hb]. left. exists t. auto.
  - (* transfer *) apply checked_Ok in Hs. apply steady_calm. eapply steady_transfer. exact Hs.
  - (* burn *) apply steady_calm. eapply steady_burn. exact Hs.
  - (* mint to *) fin Hs. apply ok_or_Ok in Hu. apply ok_or_Ok in Hu0. apply steady_calm.
    apply (steady_trans _ (upd_mint mk (set_m_supply (m_supply u + amount) u) w)).
    { apply (steady_mint _ _ u); [exact Hu|reflexivity]. }
    apply (steady_token _ _ u0); [exact Hu0|reflexivity|reflexivity].
  - fin Hs. apply ok_or_Ok in Hu. apply steady_calm. apply (steady_token _ _ u); [exact Hu|reflexivity|reflexivity].
  - fin Hs. apply ok_or_Ok in Hu. apply steady_calm. apply (steady_token _ _ u); [exact Hu|reflexivity|reflexivity].
  - fin Hs. apply ok_or_Ok in Hu. apply require_Ok in Hu1. clean_bool. apply steady_calm.
    apply (steady_token _ _ u); [exact Hu|reflexivity|cbn; congruence].
  - fin Hs. apply ok_or_Ok in Hu. apply steady_calm. apply (steady_token _ _ u); [exact Hu|reflexivity|reflexivity].
  - fin Hs. apply ok_or_Ok in Hu. apply steady_calm. apply (steady_token _ _ u); [exact Hu|reflexivity|reflexivity].
  - (* freeze *) fin Hs. apply ok_or_Ok in Hu. apply ok_or_Ok in Hu0. apply require_Ok in Hu1. constructor; cbn; [|eauto].
    intros c t'. destruct (decide (c = k)) as [->|Hn]; [rewrite lookup_insert|rewrite lookup_insert_ne by congruence].
    + intros [= <-]. left. exists u. split; [assumption|]. split; [reflexivity|]. right. eauto.
    + intros Hc. left. exists t'. auto.
  - (* fee *) fin Hs. apply ok_or_Ok in Hu. apply require_Ok in Hu0. clean_bool. apply steady_calm.
    apply (steady_mint _ _ u); [exact Hu|]. unfold powers. cbn. destruct (m_fee u); [reflexivity|discriminate].
  - (* hook *) fin Hs. apply ok_or_Ok in Hu. apply require_Ok in Hu0. clean_bool. apply steady_calm.
    apply (steady_mint _ _ u); [exact Hu|]. unfold powers. cbn. destruct (m_hook u); [reflexivity|discriminate].
  - (* withheld *) fin Hs. apply ok_or_Ok in Hu. apply ok_or_Ok in Hu0. apply steady_calm.
    apply (steady_trans _ (upd_mint mk (set_m_withheld (m_withheld u - amount) u) w)).
    { apply (steady_mint _ _ u); [exact Hu|reflexivity]. }
    apply (steady_token _ _ u0); [exact Hu0|reflexivity|reflexivity].
Qed.

Lemma step_calm w o w' l : inv w -> step w o = Ok (w', l) -> calm w w'.
Proof.
  intros Hi Hs. destruct (env_op o) eqn:Ho; [eapply env_calm; eassumption|].
  apply steady_calm. eapply instr_steady; eassumption.
Qed.

Lemma powers_harmless m m' : powers m' = powers m -> harmless m -> harmless m'.
Proof. unfold powers, harmless. intros [= -> -> -> -> _ _ _]. auto. Qed.
Lemma powers_immune m m' : powers m' = powers m -> immune m -> immune m'.
Proof.
  unfold powers, immune. intros [= -> _ _ _ -> Hf Hh] [F [P|[E1 E2]]]; (split; [assumption|]); [auto|].
  right. rewrite E1 in Hf. rewrite E2 in Hh. destruct (m_fee m'), (m_hook m'); try discriminate; auto.
Qed.

(** A harmless mint keeps its powers for the rest of the history. *)
Lemma powers_run w l a m : inv w -> w_mints w !! a = Some m -> harmless m ->
  exists m', w_mints (run w l) !! a = Some m' /\ powers m' = powers m.
Proof.
  intros Hi Ha Hh. revert w m Hi Ha Hh. induction l as [|o l IH]; intros w m Hi Ha Hh.
  - exists m. auto.
  - change (run w (o :: l)) with (run (exec w o) l). 
    assert (Hx : exists m1, w_mints (exec w o) !! a = Some m1 /\ powers m1 = powers m).
    { unfold exec. destruct (step w o) as [[w' fx]|] eqn:Hs; [|eauto].
      apply (ca_mints _ _ (step_calm _ _ _ _ Hi Hs) _ _ Ha Hh). }
    destruct Hx as (m1 & H1 & E1).
    destruct (IH (exec w o) m1 (inv_exec _ _ Hi) H1 (powers_harmless _ _ E1 Hh)) as (m2 & H2 & E2).
    exists m2. split; [assumption|congruence].
Qed.

(** * C79 *)

(** The mints of a presale never gain a power. *)
Theorem C79_mints_stay w l k p a m :
  reachable w -> w_presales w !! k = Some p -> a = p_bmint p \/ a = p_qmint p ->
  w_mints w !! a = Some m ->
  exists m', w_mints (run w l) !! a = Some m' /\ m_prog m' = m_prog m /\ m_freezable m' = m_freezable m /\
    (m_fee m = None -> m_fee m' = None) /\ (m_hook m = None -> m_hook m' = None) /\ (immune m -> immune m').
Proof.
  intros Hw Hp Ha Hm.
  assert (Hh : harmless m).
  { destruct (C36_only_safe_mints _ _ _ Hw Hp) as (bm & qm & Hb & Hq & Sb & Sq & _).
    destruct Ha as [->| ->]; congruence. }
  destruct (powers_run w l a m (reachable_inv _ Hw) Hm Hh) as (m' & Hm' & E). exists m'. split; [assumption|].
  pose proof (powers_immune _ _ E) as Hi. unfold powers in E. injection E as E1 _ _ _ E2 E3 E4.
  split; [assumption|]. split; [assumption|]. split; [|split; [|exact Hi]].
  - intros X. rewrite X in E3. destruct (m_fee m'); [discriminate|reflexivity].
  - intros X. rewrite X in E4. destruct (m_hook m'); [discriminate|reflexivity].
Qed.

(** The vaults of mints without a freeze authority are not frozen. *)
Definition vaults_thawed (w : world) : Prop :=
  forall k p v a m t, w_presales w !! k = Some p ->
    (v = PBaseVault k /\ a = p_bmint p) \/ (v = PQuoteVault k /\ a = p_qmint p) ->
    w_mints w !! a = Some m -> m_freezable m = false -> w_tokens w !! v = Some t -> t_frozen t = false.

Lemma thawed_step w o w' l : reachable w -> vaults_thawed w -> step w o = Ok (w', l) -> vaults_thawed w'.
Proof.
  intros Hw Hv Hs k p' v a m' t' Hp' Hva Hm' Hf' Ht'. pose proof (reachable_inv _ Hw) as Hi.
  pose proof (step_calm _ _ _ _ Hi Hs) as [T M].
  destruct (w_presales w !! k) as [p|] eqn:Hp.
  - destruct (C15_terms_immutable w [o] k p Hw Hp) as (p2 & Hp2 & Hte & _).
    rewrite (run_one _ _ _ _ Hs) in Hp2. assert (p2 = p') as -> by congruence.
    assert (Eb : p_bmint p' = p_bmint p) by (unfold terms_of in Hte; injection Hte; auto).
    assert (Eq : p_qmint p' = p_qmint p) by (unfold terms_of in Hte; injection Hte; auto).
    rewrite Eb, Eq in Hva.
    destruct (C36_only_safe_mints _ _ _ Hw Hp) as (bm & qm & Hb & Hq & Sb & Sq & _).
    pose proof (i_presales _ Hi _ _ Hp) as Hok.
    assert (Hx : exists t m, w_tokens w !! v = Some t /\ t_mint t = a /\ w_mints w !! a = Some m /\ harmless m).
    { destruct Hva as [[-> ->]|[-> ->]].
      - destruct (q_bvault _ _ _ Hok) as (t & Ht & Hmt & _). eauto 8.
      - destruct (q_qvault _ _ _ Hok) as (t & Ht & Hmt & _). eauto 8. }
    destruct Hx as (t & m & Ht & Hta & Hm & Hh).
    destruct (M _ _ Hm Hh) as (m2 & Hm2 & E). assert (m2 = m') as -> by congruence.
    assert (Hf : m_freezable m = false) by (unfold powers in E; congruence).
    pose proof (Hv k p v a m t Hp Hva Hm Hf Ht) as Hthaw.
    destruct (T _ _ Ht') as [(t0 & Ht0 & _ & Hfr)|[? _]]; [|congruence].
    assert (t0 = t) as -> by congruence. destruct (t_frozen t') eqn:Hft; [|reflexivity].
    destruct (Hfr eq_refl) as [?|(m0 & Hm0 & ?)]; congruence.
  - destruct (does_presale _ _ _ _ k (step_does _ _ _ _ Hi Hs)) as
      [Hn|base bm0 qm0 pt cr pay bp qp ia h0 p0 bm qm gross w1 lx Ho D Hnone Hn|owner idx cap p0 r Ho D Hn
      |qv qm ek pt payer pr mx h0 p0 p2 e r m amount fee gross w1 lx Ho D Hn
      |qv qm ek ot owner pr mx h0 p0 e r m amount w1 lx Ho D Hn
      |qv qm ek ot owner pr h0 p0 e r m w1 lx Ho D Hn|bv bm ek ot owner pr h0 p0 e r m w1 lx Ho D Hn
      |ek owner rr p0 e r Ho D Hn|ot owner pr h0 p0 m w1 lx Ho D Hn|qv qm rcv owner pr h0 p0 m w1 lx Ho D Hn
      |bv bm ct pr h0 p0 m w1 lx Ho D Hn].
    1: congruence.
    2-10: destruct D; congruence.
    destruct D. destruct di_new as (_ & N1 & N2).
    destruct (T _ _ Ht') as [(t0 & Ht0 & _)|[_ ?]]; [|assumption].
    exfalso. destruct Hva as [[-> _]|[-> _]]; congruence.
Qed.

Lemma thawed_reachable w : reachable w -> vaults_thawed w.
Proof.
  intros [l ->]. induction l as [|o l IH] using rev_ind.
  - intros k p v a m t Hp. cbn in Hp. rewrite lookup_empty in Hp. discriminate.
  - rewrite run_app. cbn. unfold exec. destruct (step (run genesis l) o) as [[w' fx]|] eqn:Hs; [|assumption].
    eapply thawed_step; [eexists; reflexivity|exact IH|exact Hs].
Qed.

Theorem C79_vaults_never_frozen w k p :
  reachable w -> w_presales w !! k = Some p ->
  (forall m t, w_mints w !! p_bmint p = Some m -> m_freezable m = false ->
     w_tokens w !! PBaseVault k = Some t -> t_frozen t = false) /\
  (forall m t, w_mints w !! p_qmint p = Some m -> m_freezable m = false ->
     w_tokens w !! PQuoteVault k = Some t -> t_frozen t = false).
Proof.
  intros Hw Hp. split; intros m t Hm Hf Ht; eapply (thawed_reachable w Hw k p); try eassumption; auto.
Qed.

(** A destination: any account of the mint that its owner has, other than the vault. *)
Definition takes_delivery (w : world) (mk ot : addr) : Prop :=
  exists d, w_tokens w !! ot = Some d /\ t_mint d = mk /\ t_frozen d = false.

Lemma immune_fee m n : immune m -> tok_fee m n = 0.
Proof.
  unfold immune, tok_fee, get_epoch_transfer_fee. intros [_ [->|[-> _]]]; [reflexivity|]. destruct (m_prog m); reflexivity.
Qed.
Lemma immune_hook m ty accts h : immune m -> h_slices h = [] -> hook_args m ty accts h.
Proof.
  unfold immune, hook_args. intros [_ [->|[_ ->]]] Hs; [assumption|]. destruct (m_prog m); assumption.
Qed.

(** Later in any history the vault pays to such an account, with no extra accounts and no fee. *)
Lemma immune_base w l k p m p1 ot ty accts h :
  reachable w -> w_presales w !! k = Some p -> w_mints w !! p_bmint p = Some m -> immune m ->
  w_presales (run w l) !! k = Some p1 -> takes_delivery (run w l) (p_bmint p) ot -> h_slices h = [] ->
  p_bmint p1 = p_bmint p /\ exists m1, immune m1 /\
    receivable (run w l) (PBaseVault k) (p_bmint p) ot (m_prog m) ty accts h m1.
Proof.
  intros Hw Hp Hm Him Hp1 Hd Hs.
  destruct (C15_terms_immutable w l k p Hw Hp) as (p2 & Hp2 & Hte & _). assert (p2 = p1) as -> by congruence.
  assert (Eb : p_bmint p1 = p_bmint p) by (unfold terms_of in Hte; injection Hte; auto).
  split; [assumption|].
  destruct (C79_mints_stay w l k p _ m Hw Hp (or_introl eq_refl) Hm) as (m1 & Hm1 & E1 & _ & _ & _ & Im).
  exists m1. split; [auto|]. constructor; try assumption.
  - intros t Ht. rewrite <- Eb in Hm1. apply (thawed_reachable (run w l) (reachable_run _ l Hw) k p1 (PBaseVault k) (p_bmint p1) m1 t Hp1);
      [auto|exact Hm1|apply Im; assumption|exact Ht].
  - apply immune_hook; auto.
Qed.
Lemma immune_quote w l k p m p1 ot ty accts h :
  reachable w -> w_presales w !! k = Some p -> w_mints w !! p_qmint p = Some m -> immune m ->
  w_presales (run w l) !! k = Some p1 -> takes_delivery (run w l) (p_qmint p) ot -> h_slices h = [] ->
  p_qmint p1 = p_qmint p /\ exists m1, immune m1 /\
    receivable (run w l) (PQuoteVault k) (p_qmint p) ot (m_prog m) ty accts h m1.
Proof.
  intros Hw Hp Hm Him Hp1 Hd Hs.
  destruct (C15_terms_immutable w l k p Hw Hp) as (p2 & Hp2 & Hte & _). assert (p2 = p1) as -> by congruence.
  assert (Eb : p_qmint p1 = p_qmint p) by (unfold terms_of in Hte; injection Hte; auto).
  split; [assumption|].
  destruct (C79_mints_stay w l k p _ m Hw Hp (or_intror eq_refl) Hm) as (m1 & Hm1 & E1 & _ & _ & _ & Im).
  exists m1. split; [auto|]. constructor; try assumption.
  - intros t Ht. rewrite <- Eb in Hm1. apply (thawed_reachable (run w l) (reachable_run _ l Hw) k p1 (PQuoteVault k) (p_qmint p1) m1 t Hp1);
      [auto|exact Hm1|apply Im; assumption|exact Ht].
  - apply immune_hook; auto.
Qed.

Lemma moved_in w w' v ot n m : immune m -> v <> ot -> moved w w' v ot n (tok_fee m n) -> bal w' ot = bal w ot + n.
Proof.
  intros Him Hne Hmv. rewrite (Hmv ot), (immune_fee m n Him).
  rewrite decide_False by assumption. rewrite decide_False by congruence. rewrite decide_True by reflexivity. lia.
Qed.

(** ** Whatever anybody does, what is due arrives in full

    [w] is any state in which the presale exists and the mint is immune, [l] anything that happens
    from then on, by anybody: creator, other buyers, operators, strangers, mint authorities. *)

Theorem C79_claim w l k p m p1 ek e r ot :
  reachable w -> w_presales w !! k = Some p -> w_mints w !! p_bmint p = Some m -> immune m ->
  w_presales (run w l) !! k = Some p1 -> succeeded p1 (w_now (run w l)) ->
  w_escrows (run w l) !! ek = Some e -> e_presale e = k -> p_regs p1 !! Z.to_nat (e_idx e) = Some r ->
  is_wallet (e_owner e) = true -> takes_delivery (run w l) (p_bmint p) ot -> ot <> PBaseVault k ->
  exists w2 lx,
    step (run w l) (IClaim k (PBaseVault k) (p_bmint p) ek ot (e_owner e) (m_prog m) noh) = Ok (w2, lx) /\
    bal w2 ot = bal (run w l) ot + (entitled p1 r (e_deposit e) (w_now (run w l)) - e_claimed e).
Proof.
  intros Hw Hp Hm Him Hp1 Hsu He Hk Hr Hsg Hd Hne.
  destruct (immune_base w l k p m p1 ot TransferHookBase [] noh Hw Hp Hm Him Hp1 Hd eq_refl) as (Eb & m1 & Im & Hrc).
  rewrite <- Eb in Hrc.
  destruct (C05_claim_succeeds _ _ _ _ _ _ _ _ noh _ (reachable_run _ l Hw) Hp1 Hsu He Hk Hr Hsg Hrc) as (w2 & lx & S & Mv & _).
  rewrite Eb in S. exists w2, lx. split; [exact S|]. cbv zeta in Mv. eapply moved_in; [exact Im| |exact Mv]. auto.
Qed.

Theorem C79_failed_refund w l k p m p1 ek e ot :
  reachable w -> w_presales w !! k = Some p -> w_mints w !! p_qmint p = Some m -> immune m ->
  w_presales (run w l) !! k = Some p1 -> failed p1 (w_now (run w l)) ->
  w_escrows (run w l) !! ek = Some e -> e_presale e = k -> e_withdrawn e = 0 ->
  is_wallet (e_owner e) = true -> takes_delivery (run w l) (p_qmint p) ot -> ot <> PQuoteVault k ->
  exists w2 lx,
    step (run w l) (IWithdrawRemaining k (PQuoteVault k) (p_qmint p) ek ot (e_owner e) (m_prog m) noh) = Ok (w2, lx) /\
    bal w2 ot = bal (run w l) ot + (e_deposit e + e_fee e).
Proof.
  intros Hw Hp Hm Him Hp1 Hf He Hk Hwd Hsg Hd Hne.
  destruct (immune_quote w l k p m p1 ot TransferHookQuote [] noh Hw Hp Hm Him Hp1 Hd eq_refl) as (Eb & m1 & Im & Hrc).
  rewrite <- Eb in Hrc.
  destruct (C03_failed_refund_succeeds _ _ _ _ _ _ _ noh _ (reachable_run _ l Hw) Hp1 Hf He Hk Hwd Hsg Hrc) as (w2 & lx & S & Mv & _).
  rewrite Eb in S. exists w2, lx. split; [exact S|]. eapply moved_in; [exact Im| |exact Mv]. auto.
Qed.

Theorem C79_prorata_refund w l k p m p1 ek e r ot :
  reachable w -> w_presales w !! k = Some p -> w_mints w !! p_qmint p = Some m -> immune m ->
  w_presales (run w l) !! k = Some p1 -> succeeded p1 (w_now (run w l)) -> p_mode p1 = 1 ->
  w_escrows (run w l) !! ek = Some e -> e_presale e = k -> p_regs p1 !! Z.to_nat (e_idx e) = Some r ->
  e_withdrawn e = 0 -> is_wallet (e_owner e) = true ->
  takes_delivery (run w l) (p_qmint p) ot -> ot <> PQuoteVault k ->
  exists w2 lx,
    step (run w l) (IWithdrawRemaining k (PQuoteVault k) (p_qmint p) ek ot (e_owner e) (m_prog m) noh) = Ok (w2, lx) /\
    bal w2 ot = bal (run w l) ot + (share_deposit p1 r (e_deposit e) + share_fee p1 r (e_fee e)).
Proof.
  intros Hw Hp Hm Him Hp1 Hsu Hmo He Hk Hr Hwd Hsg Hd Hne.
  destruct (immune_quote w l k p m p1 ot TransferHookQuote [] noh Hw Hp Hm Him Hp1 Hd eq_refl) as (Eb & m1 & Im & Hrc).
  rewrite <- Eb in Hrc.
  destruct (C04_prorata_refund_succeeds _ _ _ _ _ _ _ _ noh _ (reachable_run _ l Hw) Hp1 Hsu Hmo He Hk Hr Hwd Hsg Hrc)
    as (w2 & lx & S & Mv & _).
  rewrite Eb in S. exists w2, lx. split; [exact S|]. cbv zeta in Mv. eapply moved_in; [exact Im| |exact Mv]. auto.
Qed.

Theorem C79_creator_raise w l k p m p1 ot :
  reachable w -> w_presales w !! k = Some p -> w_mints w !! p_qmint p = Some m -> immune m ->
  w_presales (run w l) !! k = Some p1 -> succeeded p1 (w_now (run w l)) -> p_cwd p1 = 0 ->
  is_wallet (p_owner p1) = true -> takes_delivery (run w l) (p_qmint p) ot -> ot <> PQuoteVault k ->
  exists w2 lx,
    step (run w l) (ICreatorWithdraw k ot (p_owner p1) (m_prog m) (mkHenv [PQuoteVault k; p_qmint p] [] true)) = Ok (w2, lx) /\
    bal w2 ot = bal (run w l) ot + Z.min (p_deposit p1) (p_max_cap p1).
Proof.
  intros Hw Hp Hm Him Hp1 Hsu Hcw Hsg Hd Hne.
  set (h := mkHenv [PQuoteVault k; p_qmint p] [] true).
  destruct (immune_quote w l k p m p1 ot TransferHookQuote [] h Hw Hp Hm Him Hp1 Hd eq_refl) as (Eb & m1 & Im & Hrc).
  destruct Hsu as [Hend Hmin]. rewrite <- Eb in Hrc.
  destruct (C06_creator_withdraw_succeeds (run w l) k p1 ot (m_prog m) h [] m1 (reachable_run _ l Hw) Hp1 Hend Hcw Hsg)
    as (w2 & lx & S & Mv & _).
  - intros _. split; [cbn; rewrite Eb; reflexivity|exact Hrc].
  - lia.
  - exists w2, lx. split; [exact S|]. specialize (Mv Hmin). cbv zeta in Mv. eapply moved_in; [exact Im| |exact Mv]. auto.
Qed.

Theorem C79_creator_supply_back w l k p m p1 ot :
  reachable w -> w_presales w !! k = Some p -> w_mints w !! p_bmint p = Some m -> immune m ->
  w_presales (run w l) !! k = Some p1 -> failed p1 (w_now (run w l)) -> p_cwd p1 = 0 ->
  is_wallet (p_owner p1) = true -> takes_delivery (run w l) (p_bmint p) ot -> ot <> PBaseVault k ->
  exists w2 lx,
    step (run w l) (ICreatorWithdraw k ot (p_owner p1) (m_prog m) (mkHenv [PBaseVault k; p_bmint p] [] true)) = Ok (w2, lx) /\
    bal w2 ot = bal (run w l) ot + p_supply p1.
Proof.
  intros Hw Hp Hm Him Hp1 Hf Hcw Hsg Hd Hne.
  set (h := mkHenv [PBaseVault k; p_bmint p] [] true).
  destruct (immune_base w l k p m p1 ot TransferHookBase [] h Hw Hp Hm Him Hp1 Hd eq_refl) as (Eb & m1 & Im & Hrc).
  destruct Hf as [Hend Hmin]. rewrite <- Eb in Hrc.
  destruct (C06_creator_withdraw_succeeds (run w l) k p1 ot (m_prog m) h [] m1 (reachable_run _ l Hw) Hp1 Hend Hcw Hsg)
    as (w2 & lx & S & _ & Mv).
  - lia.
  - intros _. split; [cbn; rewrite Eb; reflexivity|exact Hrc].
  - exists w2, lx. split; [exact S|]. specialize (Mv Hmin). eapply moved_in; [exact Im| |exact Mv]. auto.
Qed.

Theorem C79_creator_fee w l k p m p1 ot :
  reachable w -> w_presales w !! k = Some p -> w_mints w !! p_qmint p = Some m -> immune m ->
  w_presales (run w l) !! k = Some p1 -> succeeded p1 (w_now (run w l)) -> p_fee_col p1 = 0 ->
  is_wallet (p_owner p1) = true -> takes_delivery (run w l) (p_qmint p) ot -> ot <> PQuoteVault k ->
  exists w2 lx,
    step (run w l) (ICollectFee k (PQuoteVault k) (p_qmint p) ot (p_owner p1) (m_prog m) noh) = Ok (w2, lx) /\
    bal w2 ot = bal (run w l) ot + (p_fee p1 - lsum (reg_fee_excess p1) (p_regs p1)).
Proof.
  intros Hw Hp Hm Him Hp1 Hsu Hfc Hsg Hd Hne.
  destruct (immune_quote w l k p m p1 ot TransferHookQuote [] noh Hw Hp Hm Him Hp1 Hd eq_refl) as (Eb & m1 & Im & Hrc).
  rewrite <- Eb in Hrc.
  destruct (C07_fee_succeeds _ _ _ _ _ noh _ (reachable_run _ l Hw) Hp1 Hsu Hfc Hsg Hrc) as (w2 & lx & S & Mv).
  rewrite Eb in S. exists w2, lx. split; [exact S|]. cbv zeta in Mv. eapply moved_in; [exact Im| |exact Mv]. auto.
Qed.

(** * What the powers that mints may have are good for *)

Lemma frozen_transfer w pr v mk dst auth n ok w' l t :
  w_tokens w !! v = Some t -> t_frozen t = true -> tok_transfer w pr v mk dst auth n ok <> Ok (w', l).
Proof.
  intros Ht Hf Hx. apply tok_transfer_inv in Hx as (m & s & d & dl & _ & Hs & _ & _ & _ & _ & _ & Hz & _). congruence.
Qed.
Lemma frozen_burn w pr v mk auth n w' l t :
  w_tokens w !! v = Some t -> t_frozen t = true -> tok_burn w pr v mk auth n <> Ok (w', l).
Proof. intros Ht Hf Hx. apply tok_burn_inv in Hx as (m & s & dl & _ & Hs & _ & _ & _ & Hz & _). congruence. Qed.
Lemma frozen_paid w pr v mk dst n ok w' l t :
  w_tokens w !! v = Some t -> t_frozen t = true -> paid w pr v mk dst n ok w' l -> w' = w.
Proof. intros Ht Hf [[_ Hx]|(_ & ? & _)]; [|assumption]. exfalso. eapply frozen_transfer; eassumption. Qed.

(** While a vault is frozen nothing whatever leaves it. *)
Lemma frozen_keeps w o w' l k p v t :
  inv w -> step w o = Ok (w', l) -> w_presales w !! k = Some p -> v = PQuoteVault k \/ v = PBaseVault k ->
  w_tokens w !! v = Some t -> t_frozen t = true -> bal w v <= bal w' v.
Proof.
  intros Hi Hs Hp Hv Ht Hf. destruct (step_takes _ _ _ _ _ _ _ Hi Hs Hp Hv) as [Htk|?]; [|assumption].
  destruct Htk as [k0 qv qm ek ot owner pr mx h p0 e r m amount w1 lx Ho D|k0 qv qm ek ot owner pr h p0 e r m w1 lx Ho D
    |k0 bv bm ek ot owner pr h p0 e r m w1 lx Ho D|k0 ot owner pr h p0 m w1 lx Ho D Hx|k0 ot owner pr h p0 m w1 lx Ho D Hx
    |k0 qv qm rcv owner pr h p0 m w1 lx Ho D|k0 bv bm ct pr h p0 m w1 lx Ho D]; destruct D.
  - exfalso. subst qv. eapply frozen_transfer; eassumption.
  - subst qv. pose proof (frozen_paid _ _ _ _ _ _ _ _ _ _ Ht Hf dr_paid) as ->. subst w'. apply Z.le_refl.
  - subst bv. pose proof (frozen_paid _ _ _ _ _ _ _ _ _ _ Ht Hf dm_paid) as ->.
    destruct dm_world as (p2 & e2 & -> & _). apply Z.le_refl.
  - exfalso. destruct dcw_what as [(_ & _ & Hy & _)|((_ & Hy) & _)]; [|destruct Hx; lia].
    eapply frozen_transfer; eassumption.
  - exfalso. destruct dcw_what as [((_ & Hy) & _)|(_ & _ & Hy & _)]; [destruct Hx; lia|].
    eapply frozen_transfer; eassumption.
  - subst qv. pose proof (frozen_paid _ _ _ _ _ _ _ _ _ _ Ht Hf dfe_paid) as ->. subst w'. apply Z.le_refl.
  - exfalso. subst bv. destruct du_what as [(_ & Hy)|(_ & Hy)]; [eapply frozen_burn|eapply frozen_transfer]; eassumption.
Qed.

(** A freeze authority can stop every payout from the vault of its mint, at any time. *)
Theorem C79_freeze_authority_blocks w k p v a m :
  reachable w -> w_presales w !! k = Some p ->
  (v = PBaseVault k /\ a = p_bmint p) \/ (v = PQuoteVault k /\ a = p_qmint p) ->
  w_mints w !! a = Some m -> m_freezable m = true ->
  exists w1, step w (EFreeze v true) = Ok (w1, []) /\ bal w1 v = bal w v /\
    forall o w2 l2, step w1 o = Ok (w2, l2) -> bal w1 v <= bal w2 v.
Proof.
  intros Hw Hp Hva Hm Hf. pose proof (reachable_inv _ Hw) as Hi. pose proof (i_presales _ Hi _ _ Hp) as Hok.
  assert (Hx : exists t, w_tokens w !! v = Some t /\ t_mint t = a).
  { destruct Hva as [[-> ->]|[-> ->]].
    - destruct (q_bvault _ _ _ Hok) as (t & Ht & Hmt & _). eauto.
    - destruct (q_qvault _ _ _ Hok) as (t & Ht & Hmt & _). eauto. }
  destruct Hx as (t & Ht & Hta). exists (upd_token v (set_t_frozen true t) w).
  assert (S : step w (EFreeze v true) = Ok (upd_token v (set_t_frozen true t) w, [])).
  { cbn [step]. unfold env_freeze, get_token, get_mint, env_ok. rewrite Ht. cbn [ok_or rbind]. rewrite Hta, Hm.
    cbn [ok_or rbind]. rewrite Hf. reflexivity. }
  split; [exact S|]. split.
  - unfold bal. cbn. rewrite lookup_insert, Ht. reflexivity.
  - intros o w2 l2 Hs. eapply (frozen_keeps _ o w2 l2 k p v (set_t_frozen true t)); try eassumption.
    + apply reachable_inv. eapply reachable_step; [exact Hw|exact S].
    + tauto.
    + cbn. apply lookup_insert.
    + reflexivity.
Qed.

(** A fee authority can take the whole of every later payout. *)
Theorem C79_fee_authority_takes_all w k p m f :
  reachable w -> w_presales w !! k = Some p -> w_mints w !! p_bmint p = Some m ->
  m_prog m = Token2022 -> m_fee m = Some f ->
  exists w1, step w (ESetFee (p_bmint p) (mkFee 10000 U64MAX)) = Ok (w1, []) /\
    forall bv bm ek ot owner pr h w2 l2,
      step w1 (IClaim k bv bm ek ot owner pr h) = Ok (w2, l2) -> bal w2 ot <= bal w1 ot.
Proof.
  intros Hw Hp Hm Hpr Hfee. exists (upd_mint (p_bmint p) (set_m_fee (Some (mkFee 10000 U64MAX)) m) w).
  set (m1 := set_m_fee (Some (mkFee 10000 U64MAX)) m). set (w1 := upd_mint (p_bmint p) m1 w).
  assert (S : step w (ESetFee (p_bmint p) (mkFee 10000 U64MAX)) = Ok (w1, [])).
  { cbn [step]. unfold env_set_fee, get_mint, env_ok. rewrite Hm. cbn [ok_or rbind]. rewrite Hfee. reflexivity. }
  split; [exact S|]. intros bv bm ek ot owner pr h w2 l2 Hs.
  pose proof (reachable_step _ _ _ _ Hw S) as Hw1. pose proof (reachable_inv _ Hw1) as Hi1.
  destruct (C05_claim_exact _ _ _ _ _ _ _ _ _ _ _ Hw1 Hs)
    as (p1 & e & r & m2 & Hp1 & He & Hk & _ & Hr & Hm2 & Hsu & Hn & Hmv & _).
  change (w_presales w !! k = Some p1) in Hp1. assert (p1 = p) as -> by congruence.
  assert (m2 = m1) as -> by (cbn in Hm2; rewrite lookup_insert in Hm2; congruence).
  destruct (claim_room _ _ _ _ _ _ (at_intro _ _ _ _ _ _ Hi1 Hp1 He Hk Hr) He Hk Hr Hsu (proj1 (i_now _ Hi1)))
    as (C0 & _ & _ & _ & _ & _ & C1 & C2).
  set (n := entitled p r (e_deposit e) (w_now w1) - e_claimed e) in *.
  assert (Hall : tok_fee m1 n = n).
  { unfold tok_fee, get_epoch_transfer_fee. subst m1. cbn [m_prog m_fee set_m_fee]. rewrite Hpr. unfold spl_calculate_fee.
    cbn [f_bps f_max]. change (10000 =? 0) with false. cbn [orb]. destruct (n =? 0) eqn:Hz; [lia|].
    pose proof (div_ceil_bounds (n * 10000) MAX_FEE_BASIS_POINTS eq_refl) as Hb. change MAX_FEE_BASIS_POINTS with 10000 in *.
    lia. }
  rewrite (Hmv ot), Hall. destruct (decide (PBaseVault k = ot)); [lia|].
  destruct (decide (ot = PBaseVault k)); [congruence|]. rewrite decide_True by reflexivity. lia.
Qed.

(** A hook authority can make every later payout depend on the consent of a program of its own. *)
Theorem C79_hook_authority_blocks w k p m b :
  reachable w -> w_presales w !! k = Some p -> w_mints w !! p_bmint p = Some m ->
  m_prog m = Token2022 -> m_hook m = Some b ->
  exists w1, step w (ESetHook (p_bmint p) true) = Ok (w1, []) /\
    forall bv bm ek ot owner pr h w2 l2, h_ok h = false ->
      step w1 (IClaim k bv bm ek ot owner pr h) = Ok (w2, l2) -> forall a, bal w2 a = bal w1 a.
Proof.
  intros Hw Hp Hm Hpr Hhk. set (m1 := set_m_hook (Some true) m). set (w1 := upd_mint (p_bmint p) m1 w).
  exists w1. assert (S : step w (ESetHook (p_bmint p) true) = Ok (w1, [])).
  { cbn [step]. unfold env_set_hook, get_mint, env_ok. rewrite Hm. cbn [ok_or rbind]. rewrite Hhk. reflexivity. }
  split; [exact S|]. intros bv bm ek ot owner pr h w2 l2 Hok Hs a.
  pose proof (reachable_step _ _ _ _ Hw S) as Hw1. cbn [step] in Hs.
  destruct (claim_did _ _ _ _ _ _ _ _ _ _ _ (reachable_inv _ Hw1) Hs) as (p1 & e & r & m2 & wx & lx & D). destruct D.
  destruct dm_world as (p2 & e2 & -> & _). change (bal wx a = bal w1 a).
  assert (p1 = p) as -> by (change (w_presales w !! k = Some p1) in dm_presale; congruence).
  destruct dm_mint as [-> Hm2].
  destruct dm_paid as [[_ Ht]|(_ & -> & _)]; [|reflexivity].
  apply tok_transfer_inv in Ht as (mx & s & d & dl & Hmx & _ & _ & _ & _ & _ & _ & _ & _ & _ & Hc).
  destruct Hc as [(_ & -> & _)|(_ & _ & Hh & _)]; [reflexivity|]. exfalso.
  cbn in Hmx. rewrite lookup_insert in Hmx. injection Hmx as <-.
  rewrite Hok in Hh. discriminate Hh. unfold has_transfer_hook_program. cbn. rewrite Hpr. reflexivity.
Qed.

End WithCrypto.

(** * Examples *)
#[local] Existing Instance toy.

(** The prorata scenario with another base mint. *)
Definition with_base (m : mint) (l : list op) : list op :=
  map (fun o => match o with ECreateMint a m0 => ECreateMint a (if decide (a = bmint) then m else m0) | _ => o end) l.
Definition im_over : list op := with_base (plain Token2022 None) pr_over.
Definition fz_over : list op := with_base (mkMint Token2022 false [] None None None true 0 0) pr_over.
(** Attempts of all kinds on the base mint and its vault. *)
Definition attack : list op :=
  [ EFreeze (PBaseVault k1) true; ESetFee bmint (mkFee 10000 U64MAX); ESetHook bmint true; ECloseMint bmint;
    ETransfer (PBaseVault k1) bmint creator_b creator Token2022 5 true false true; cw; cf; cw; us ].

(** With an immune base mint alice claims everything that is due despite the attacks; with a freeze
    authority alice gets nothing although the creator has taken the raise; with a transfer fee the
    claim is accepted and alice receives nothing. *)
Example C79_example :
  let w1 := run genesis im_over in
  let w2 := run w1 attack in
  let wf := run genesis (fz_over ++ [cw; EFreeze (PBaseVault k1) true]) in
  let wt := run genesis (pr_over ++ [cw; ESetFee bmint (mkFee 10000 U64MAX)]) in
  (match w_mints w1 !! bmint with Some m => bool_decide (m_freezable m = false /\ m_fee m = None /\ m_hook m = None)
   | None => false end,
   bal w2 alice_b, bal (exec w2 (getb alice alice_b 0)) alice_b,
   (bal wf creator_q, ok_step wf (getb alice alice_b 0)),
   (bal wt creator_q, ok_step wt (getb alice alice_b 0), bal (exec wt (getb alice alice_b 0)) alice_b,
    match w_escrows (exec wt (getb alice alice_b 0)) !! esc alice 0 with Some e => e_claimed e | None => 0 end))
  = (true, 0, 1527, (1000, false), (1000, true, 0, 1527)).
Proof. vm_compute. reflexivity. Qed.
