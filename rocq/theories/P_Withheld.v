(** C101: withheld transfer fees, account by account. *)
From Coq Require Import Lia.
From Verif Require Import Base Math State Handlers Token World Instr Exec Tactics Sums Spec Arith
  TokenFacts Inv Acct Funs Steps Init Preserve Reach Did Trans Flow Scenario P_Solvency P_History
  P_Payout P_Mints P_Immune P_Access P_Signed P_Hook Withheld.

Section WithCrypto.
Context `{Crypto}.

(** What the state machine counts as withheld of a mint, and what the layer does. *)
Definition pooled (w : world) (mk : addr) : Z :=
  match w_mints w !! mk with Some m => m_withheld m | None => 0 end.
Definition in_accounts (w : world) (M : gmap addr Z) (mk : addr) : Z :=
  msum (fun a n => if of_mint w mk a then n else 0) M.

(** * One step *)

(** The one transfer with a fee that a step may make. *)
Definition charges (w w' : world) (l : list fx) : Prop :=
  ((forall M, withhold l M = M) /\ forall mk, pooled w' mk = pooled w mk) \/
  (exists dst mk f, (forall M, withhold l M = bump dst f M) /\ 0 <= f /\ of_mint w' mk dst = true /\
     (f <> 0 -> exists m, w_mints w' !! mk = Some m /\ m_fee m <> None) /\
     forall mk', pooled w' mk' = pooled w mk' + if bool_decide (mk' = mk) then f else 0).

Lemma withhold_app l1 l2 M : withhold (l1 ++ l2) M = withhold l2 (withhold l1 M).
Proof. apply foldl_app. Qed.
Lemma withhold_events evs M : (forall x, x ∈ evs -> exists ev, x = FxEvent ev) -> withhold evs M = M.
Proof.
  revert M. induction evs as [|x evs IH]; intros M Hx; [reflexivity|]. cbn.
  destruct (Hx x (elem_of_list_here _ _)) as [ev ->]. apply IH. intros y Hy. apply Hx. constructor. assumption.
Qed.
Lemma look_bump a n M b : look (bump a n M) b = look M b + if bool_decide (b = a) then n else 0.
Proof.
  unfold bump, look. destruct (bool_decide_reflect (b = a)) as [->|Hne].
  - rewrite lookup_insert. reflexivity.
  - rewrite lookup_insert_ne by congruence. lia.
Qed.

Lemma transfer_charges w pr src mk dst auth n ok w' l :
  (forall a x, w_mints w !! a = Some x -> mint_fee_ok x) -> 0 <= n -> tok_transfer w pr src mk dst auth n ok = Ok (w', l) -> charges w w' l.
Proof.
  intros Hok Hn Ht. apply tok_transfer_inv in Ht as (m & s & d & dl & Hm & Hs & Hd & _ & _ & _ & Hdm & _ & _ & _ & Hc).
  right. destruct Hc as [(-> & -> & ->)|(Hne & _ & _ & -> & ->)].
  - exists dst, mk, 0. split; [reflexivity|]. split; [lia|]. split.
    + unfold of_mint. rewrite Hd, Hdm. apply beq_addr_refl.
    + split; [congruence|]. intros mk'. destruct (bool_decide _); lia.
  - exists dst, mk, (tok_fee m n). split; [reflexivity|]. split.
    { pose proof (tok_fee_range m n (Hok _ _ Hm) Hn). lia. }
    split.
    + unfold of_mint. cbn. rewrite lookup_insert. cbn. rewrite Hdm. apply beq_addr_refl.
    + split.
      { intros Hf. eexists. split; [apply lookup_insert|]. cbn. intros E. apply Hf. unfold tok_fee, get_epoch_transfer_fee.
        rewrite E. destruct (m_prog m); reflexivity. }
      intros mk'. unfold pooled. cbn. destruct (bool_decide_reflect (mk' = mk)) as [->|Hk].
      * rewrite lookup_insert, Hm. reflexivity.
      * rewrite lookup_insert_ne by congruence. destruct (w_mints w !! mk'); lia.
Qed.
Lemma burn_charges w pr src mk auth n w' l : tok_burn w pr src mk auth n = Ok (w', l) -> charges w w' l.
Proof.
  intros Ht. apply tok_burn_inv in Ht as (m & s & dl & Hm & _ & _ & _ & _ & _ & _ & -> & ->). left.
  split; [reflexivity|]. intros mk'. unfold pooled. cbn. destruct (decide (mk' = mk)) as [->|Hk].
  - rewrite lookup_insert, Hm. reflexivity.
  - rewrite lookup_insert_ne by congruence. reflexivity.
Qed.

Lemma charges_rest w w0 w1 w' lx l evs :
  charges w0 w1 lx -> w_mints w0 = w_mints w -> w_tokens w' = w_tokens w1 -> w_mints w' = w_mints w1 ->
  l = lx ++ evs -> (forall x, x ∈ evs -> exists ev, x = FxEvent ev) -> charges w w' l.
Proof.
  intros Hc E0 Et Em -> He. unfold charges, pooled, of_mint in *. rewrite Et, Em, <- E0.
  destruct Hc as [[Hw Hp]|(dst & mk & f & Hw & Hf & Hd & Hx & Hp)]; [left|right].
  - split; [|assumption]. intros M. rewrite withhold_app, Hw. apply withhold_events. assumption.
  - exists dst, mk, f. split; [|auto]. intros M. rewrite withhold_app, Hw. apply withhold_events. assumption.
Qed.
Lemma charges_none w w' evs :
  w_mints w' = w_mints w -> (forall x, x ∈ evs -> exists ev, x = FxEvent ev) -> charges w w' evs.
Proof.
  intros Em He. left. split; [intros M; apply withhold_events; assumption|]. unfold pooled. rewrite Em. reflexivity.
Qed.
Lemma paid_charges w pr v mk dst n ok w1 lx :
  (forall a x, w_mints w !! a = Some x -> mint_fee_ok x) -> paid w pr v mk dst n ok w1 lx -> charges w w1 lx.
Proof.
  intros Hok [[Hn Ht]|(_ & -> & ->)]; [eapply transfer_charges; [exact Hok| |exact Ht]; lia|].
  apply charges_none; [reflexivity|]. intros x Hx. apply elem_of_nil in Hx. contradiction.
Qed.

Lemma instr_charges w o w' l :
  inv w -> env_op o = false -> step w o = Ok (w', l) -> charges w w' l.
Proof.
  intros Hi Henv Hs. pose proof (step_does _ _ _ _ Hi Hs) as D.
  assert (Hok : forall a x, w_mints w !! a = Some x -> mint_fee_ok x) by (intros a x; apply (tk_fee _ (i_tokens _ Hi))).
  destruct D; try congruence.
  - match goal with X : _ \/ l = [] |- _ => destruct X as [[ev ->]| ->] end;
      (apply charges_none; [assumption|]); [apply one_event|]. intros x Hx. apply elem_of_nil in Hx. contradiction.
  - subst o. destruct H1. destruct di_fx as [ev ->].
    eapply (charges_rest w (with_vaults k bmint qmint w) w1 w' lx);
      [|reflexivity|rewrite di_world; reflexivity|rewrite di_world; reflexivity|reflexivity|apply one_event].
    eapply transfer_charges; [exact Hok| |exact di_transfer]. destruct di_gross.
    assert (Hp : w_presales w' !! k = Some p) by (rewrite di_world; apply lookup_insert).
    pose proof (q_cfg _ _ _ (i_presales _ (inv_step _ _ _ _ Hi Hs) _ _ Hp)) as Hc. pose proof (supply_nonneg _ _ Hc). lia.
  - destruct H1. rewrite dc_world, dc_fx. apply charges_none; [reflexivity|apply one_event].
  - subst o. destruct H1. eapply (charges_rest w w w1 w' lx); [|reflexivity|rewrite dd_world; reflexivity|rewrite dd_world; reflexivity|exact dd_fx|apply one_event].
    eapply transfer_charges; [exact Hok| |exact dd_transfer]. lia.
  - subst o. destruct H1. eapply (charges_rest w w w1 w' lx); [|reflexivity|rewrite dw_world; reflexivity|rewrite dw_world; reflexivity|exact dw_fx|apply one_event].
    eapply transfer_charges; [exact Hok| |exact dw_transfer]. lia.
  - subst o. destruct H1. eapply (charges_rest w w w1 w' lx); [|reflexivity|rewrite dr_world; reflexivity|rewrite dr_world; reflexivity|exact dr_fx|apply one_event].
    eapply paid_charges; [exact Hok|exact dr_paid].
  - subst o. destruct H1. destruct dm_world as (p2 & e2 & -> & _).
    eapply (charges_rest w w w1 _ lx); [|reflexivity|reflexivity|reflexivity|exact dm_fx|apply one_event].
    eapply paid_charges; [exact Hok|exact dm_paid].
  - destruct H1. apply charges_none; [subst w'; reflexivity|].
    match goal with X : l = _ |- _ => rewrite X end. first [apply one_event | intros x Hx; apply elem_of_nil in Hx; contradiction].
  - destruct H1. apply charges_none; [subst w'; reflexivity|].
    match goal with X : l = _ |- _ => rewrite X end. first [apply one_event | intros x Hx; apply elem_of_nil in Hx; contradiction].
  - subst o. destruct H1. pose proof (q_cfg _ _ _ dcw_ok) as Hc.
    destruct dcw_what as [(Hsu & _ & Ht & Hl)|(Hsu & _ & Ht & Hl)];
      (eapply (charges_rest w w w1 w' lx); [|reflexivity|rewrite dcw_world; reflexivity|rewrite dcw_world; reflexivity|exact Hl|apply one_event]);
      (eapply transfer_charges; [exact Hok| |exact Ht]).
    + destruct (creator_room _ _ _ dcw_ok (proj1 Hsu) dcw_once) as [R _]. pose proof (R (proj2 Hsu)). lia.
    + destruct (creator_room _ _ _ dcw_ok (proj1 Hsu) dcw_once) as [_ R]. pose proof (R (proj2 Hsu)). lia.
  - subst o. destruct H1. eapply (charges_rest w w w1 w' lx); [|reflexivity|rewrite dfe_world; reflexivity|rewrite dfe_world; reflexivity|exact dfe_fx|apply one_event].
    eapply paid_charges; [exact Hok|exact dfe_paid].
  - subst o. destruct H1. eapply (charges_rest w w w1 w' lx); [|reflexivity|rewrite du_world; reflexivity|rewrite du_world; reflexivity|exact du_fx|apply one_event].
    destruct du_what as [[_ Ht]|[_ Ht]]; [eapply burn_charges; exact Ht|].
    eapply transfer_charges; [exact Hok| |exact Ht]. lia.
Qed.

Ltac binds Hs :=
  repeat match type of Hs with rbind _ _ = Ok _ => let u := fresh "u" in let Hu := fresh "Hu" in
    apply rbind_Ok in Hs; destruct Hs as [u [Hu Hs]]; cbv beta in Hs end.
Ltac fin Hs := apply Ok_inj in Hs; injection Hs as <- <-.
Ltac open_env Hs :=
  cbn in Hs;
  unfold env_clock, env_create_mint, env_close_mint, env_create_token, env_close_token, env_transfer, env_burn,
    env_mint_to, env_approve, env_revoke, env_set_owner, env_set_memo, env_set_guard, env_freeze, env_set_fee, env_set_hook,
    env_withdraw_withheld, env_ok, get_mint, get_token in Hs; binds Hs.

Lemma env_charges w o w' l :
  inv w -> env_op o = true -> (forall mk dst n, o <> EWithdrawWithheld mk dst n) -> step w o = Ok (w', l) ->
  charges w w' l.
Proof.
  intros Hi Henv Hno Hs.
  assert (Hok : forall a x, w_mints w !! a = Some x -> mint_fee_ok x) by (intros a x; apply (tk_fee _ (i_tokens _ Hi))).
  assert (Hsame : forall w1 k m m', w_mints w !! k = Some m -> m_withheld m' = m_withheld m ->
    w_mints w1 = <[k := m']> (w_mints w) -> charges w w1 []).
  { intros w1 k m m' Hm E Hw1. left. split; [reflexivity|]. intros mk. unfold pooled. rewrite Hw1.
    destruct (decide (mk = k)) as [->|Hne]; [rewrite lookup_insert, Hm; assumption|].
    rewrite lookup_insert_ne by congruence. reflexivity. }
  assert (Hnil : forall x : fx, x ∈ [] -> exists ev, x = FxEvent ev) by (intros x Hx; apply elem_of_nil in Hx; contradiction).
  destruct o; try discriminate Henv; open_env Hs;
    try (fin Hs; apply charges_none; [reflexivity|exact Hnil]).
  - (* create mint *) fin Hs. apply require_Ok in Hu. clean_bool. left. split; [reflexivity|]. intros mk. unfold pooled. cbn.
    destruct (decide (mk = k)) as [->|Hne].
    + rewrite lookup_insert. match goal with X : w_mints w !! k = None |- _ => rewrite X end. assumption.
    + rewrite lookup_insert_ne by congruence. reflexivity.
  - (* close mint *) fin Hs. apply ok_or_Ok in Hu. apply require_Ok in Hu0. clean_bool. left. split; [reflexivity|].
    intros mk. unfold pooled. cbn. destruct (decide (mk = k)) as [->|Hne].
    + rewrite lookup_delete, Hu. pose proof (i_tokens _ Hi) as Ht. destruct (tk_supply _ Ht _ _ Hu) as [E _].
      pose proof (tk_withheld _ Ht _ _ Hu).
      assert (0 <= msum (held k) (w_tokens w)) by (apply msum_nonneg; apply held_nonneg; assumption). lia.
    + rewrite lookup_delete_ne by congruence. reflexivity.
  - (* transfer *) apply require_Ok in Hu. apply in_u64_iff in Hu. apply checked_Ok in Hs.
    eapply transfer_charges; [exact Hok| |exact Hs]. lia.
  - (* burn *) eapply burn_charges. exact Hs.
  - (* mint to *) fin Hs. apply ok_or_Ok in Hu. eapply Hsame; [exact Hu| |reflexivity]. reflexivity.
  - fin Hs. apply ok_or_Ok in Hu. eapply Hsame; [exact Hu| |reflexivity]. reflexivity.
  - fin Hs. apply ok_or_Ok in Hu. eapply Hsame; [exact Hu| |reflexivity]. reflexivity.
  - exfalso. eapply Hno. reflexivity.
Qed.
Lemma step_charges w o w' l :
  inv w -> (forall mk dst n, o <> EWithdrawWithheld mk dst n) -> step w o = Ok (w', l) -> charges w w' l.
Proof.
  intros Hi Hno Hs. destruct (env_op o) eqn:E; [eapply env_charges|eapply instr_charges]; eassumption.
Qed.

(** A token account stays what it is until it is closed. *)
Lemma token_kept w o w' l a t :
  inv w -> step w o = Ok (w', l) -> w_tokens w !! a = Some t ->
  (exists t', w_tokens w' !! a = Some t' /\ t_mint t' = t_mint t) \/ (exists owner, o = ECloseToken a owner).
Proof.
  intros Hi Hs Ha.
  assert (Hx : w_tokens w' !! a <> None \/ exists owner, o = ECloseToken a owner).
  { destruct (env_op o) eqn:Ho.
    2: { left. intros E. rewrite (st_kept _ _ (instr_steady _ _ _ _ Hi Ho Hs) _ E) in Ha. discriminate. }
    destruct (decide (w_tokens w' !! a = None)) as [E|]; [|left; assumption]. right.
    destruct o; try discriminate Ho; open_env Hs; try (fin Hs; cbn in E; congruence).
    - fin Hs. cbn in E. apply lookup_insert_None in E as [E _]. congruence.
    - fin Hs. cbn in E. apply lookup_delete_None in E as [->|E]; [eauto|congruence].
    - apply checked_Ok in Hs. apply tok_transfer_inv in Hs as (m & s & d & dl & _ & _ & _ & _ & _ & _ & _ & _ & _ & _ & Hc).
      destruct Hc as [(_ & -> & _)|(_ & _ & _ & -> & _)]; [congruence|]. cbn in E.
      apply lookup_insert_None in E as [E _]. apply lookup_insert_None in E as [E _]. congruence.
    - apply tok_burn_inv in Hs as (m & s & dl & _ & _ & _ & _ & _ & _ & _ & -> & _). cbn in E.
      apply lookup_insert_None in E as [E _]. congruence.
    - fin Hs. cbn in E. apply lookup_insert_None in E as [E _]. congruence.
    - fin Hs. cbn in E. apply lookup_insert_None in E as [E _]. congruence.
    - fin Hs. cbn in E. apply lookup_insert_None in E as [E _]. congruence.
    - fin Hs. cbn in E. apply lookup_insert_None in E as [E _]. congruence.
    - fin Hs. cbn in E. apply lookup_insert_None in E as [E _]. congruence.
    - fin Hs. cbn in E. apply lookup_insert_None in E as [E _]. congruence.
    - fin Hs. cbn in E. apply lookup_insert_None in E as [E _]. congruence.
    - fin Hs. cbn in E. apply lookup_insert_None in E as [E _]. congruence. }
  destruct Hx as [Hx|Hx]; [left|right; assumption].
  destruct (w_tokens w' !! a) as [t'|] eqn:E; [|congruence]. exists t'. split; [reflexivity|].
  destruct (ca_tokens _ _ (step_calm _ _ _ _ Hi Hs) _ _ E) as [(t0 & Ht0 & Em & _)|[Hn _]]; congruence.
Qed.

(** * Sums over the accounts *)

Lemma of_mint_one w mk mk' a : of_mint w mk a = true -> of_mint w mk' a = bool_decide (mk' = mk).
Proof.
  unfold of_mint. destruct (w_tokens w !! a) as [t|]; [|discriminate]. intros E. apply beq_addr_true in E as <-.
  unfold beq_addr. apply bool_decide_ext. split; congruence.
Qed.
Lemma accounts_kept w w' M mk :
  (forall a n, M !! a = Some n -> n <> 0 -> of_mint w' mk a = of_mint w mk a) -> in_accounts w' M mk = in_accounts w M mk.
Proof.
  intros Hk. apply msum_ext. intros a n Ha. destruct (Z.eq_dec n 0) as [->|Hn].
  - destruct (of_mint w' mk a), (of_mint w mk a); reflexivity.
  - rewrite (Hk a n Ha Hn). reflexivity.
Qed.
Lemma accounts_insert w M mk a n :
  in_accounts w (<[a := n]> M) mk = in_accounts w M mk + if of_mint w mk a then n - look M a else 0.
Proof.
  unfold in_accounts, look. destruct (M !! a) as [n0|] eqn:E.
  - rewrite (msum_update _ M a n0) by assumption. cbn. destruct (of_mint w mk a); lia.
  - rewrite msum_insert_new by assumption. cbn. destruct (of_mint w mk a); lia.
Qed.
Lemma drain_spec w mk srcs : forall M M' n,
  drain srcs M = (M', n) -> (forall a, 0 <= look M a) -> forallb (of_mint w mk) srcs = true ->
  (forall a x, M' !! a = Some x -> x = 0 \/ M !! a = Some x) /\ 0 <= n /\
  (forall a, a ∈ srcs -> look M' a = 0) /\
  forall mk', in_accounts w M mk' = in_accounts w M' mk' + if bool_decide (mk' = mk) then n else 0.
Proof.
  induction srcs as [|a r IH]; intros M M' n Hd Hnn Hall; cbn in Hd.
  - injection Hd as <- <-. split; [auto|]. split; [lia|]. split; [intros a Ha; apply elem_of_nil in Ha; contradiction|].
    intros mk'. destruct (bool_decide _); lia.
  - destruct (drain r (<[a := 0]> M)) as [M1 n1] eqn:E. injection Hd as <- <-. cbn in Hall.
    apply andb_true_iff in Hall as [Ha Hall].
    destruct (IH _ _ _ E) as (I1 & I2 & I3 & I4); [|assumption|].
    { intros b. unfold look. destruct (decide (b = a)) as [->|Hne]; [rewrite lookup_insert; cbn; lia|].
      rewrite lookup_insert_ne by congruence. apply Hnn. }
    split; [|split; [pose proof (Hnn a); lia|split]].
    + intros b x Hb. destruct (I1 _ _ Hb) as [->|Hb']; [auto|].
      apply lookup_insert_Some in Hb' as [[_ <-]|[_ Hb']]; auto.
    + intros b Hb. apply elem_of_cons in Hb as [->|Hb]; [|auto]. unfold look.
      destruct (M1 !! a) as [x|] eqn:Ex; [|reflexivity]. destruct (I1 _ _ Ex) as [->|Hx]; [reflexivity|].
      rewrite lookup_insert in Hx. injection Hx as <-. reflexivity.
    + intros mk'. pose proof (I4 mk') as I5. rewrite accounts_insert, (of_mint_one _ _ _ _ Ha) in I5.
      destruct (bool_decide (mk' = mk)); lia.
Qed.

(** * Invariant *)

Record finv (x : fworld) : Prop := {
  fi_reach : reachable (fw x);
  fi_nonneg : forall a, 0 <= look (fw_at x) a;
  fi_live : forall a, look (fw_at x) a <> 0 -> exists t, w_tokens (fw x) !! a = Some t;
  fi_mint : forall a, 0 <= look (fw_mint x) a;
  fi_sum : forall mk, pooled (fw x) mk = look (fw_mint x) mk + in_accounts (fw x) (fw_at x) mk;
  fi_fee : forall mk, pooled (fw x) mk <> 0 -> exists m, w_mints (fw x) !! mk = Some m /\ m_fee m <> None
}.

Lemma look_some M a n : M !! a = Some n -> look M a = n.
Proof. unfold look. intros ->. reflexivity. Qed.

(** What has been charged keeps the mint's fee extension. *)
Lemma fee_kept w o w' l mk :
  inv w -> step w o = Ok (w', l) -> (pooled w mk <> 0 -> exists m, w_mints w !! mk = Some m /\ m_fee m <> None) ->
  pooled w mk <> 0 -> exists m, w_mints w' !! mk = Some m /\ m_fee m <> None.
Proof.
  intros Hi Hs Hf Hp. destruct (Hf Hp) as (m & Hm & Hfee). unfold pooled in Hp. rewrite Hm in Hp.
  assert (Hpow : powers <$> w_mints w' !! mk = powers <$> w_mints w !! mk -> exists m', w_mints w' !! mk = Some m' /\ m_fee m' <> None).
  { rewrite Hm. intros E. destruct (w_mints w' !! mk) as [m'|]; [|discriminate]. exists m'. split; [reflexivity|].
    cbn in E. injection E as _ _ _ _ _ E _. destruct (m_fee m), (m_fee m'); congruence. }
  destruct (env_op o) eqn:Ho; [|apply Hpow; apply (instr_steady _ _ _ _ Hi Ho Hs)].
  assert (Hup : forall k y y' w1, w_mints w !! k = Some y -> powers y' = powers y -> w_mints w1 = <[k := y']> (w_mints w) ->
    powers <$> w_mints w1 !! mk = powers <$> w_mints w !! mk).
  { intros k y y' w1 Hk Ey ->. destruct (decide (mk = k)) as [->|Hne]; [rewrite lookup_insert, Hk; cbn; congruence|].
    rewrite lookup_insert_ne by congruence. reflexivity. }
  destruct o; try discriminate Ho; open_env Hs; try (fin Hs; apply Hpow; reflexivity).
  - fin Hs. apply require_Ok in Hu. clean_bool. exists m. split; [|assumption]. cbn. rewrite lookup_insert_ne by congruence. assumption.
  - fin Hs. apply ok_or_Ok in Hu. apply require_Ok in Hu0. clean_bool. exists m. split; [|assumption]. cbn.
    rewrite lookup_delete_ne; [assumption|]. intros ->. assert (u = m) as -> by congruence.
    destruct (tk_supply _ (i_tokens _ Hi) _ _ Hm) as [E _]. pose proof (tk_withheld _ (i_tokens _ Hi) _ _ Hm).
    assert (0 <= msum (held mk) (w_tokens w)) by (apply msum_nonneg; apply held_nonneg; apply (i_tokens _ Hi)). lia.
  - apply checked_Ok in Hs. apply tok_transfer_inv in Hs as (y & s & d & dl & Hy & _ & _ & _ & _ & _ & _ & _ & _ & _ & Hc).
    apply Hpow. destruct Hc as [(_ & -> & _)|(_ & _ & _ & -> & _)]; [reflexivity|]. eapply Hup; [exact Hy| |reflexivity]. reflexivity.
  - apply tok_burn_inv in Hs as (y & s & dl & Hy & _ & _ & _ & _ & _ & _ & -> & _). apply Hpow.
    eapply Hup; [exact Hy| |reflexivity]. reflexivity.
  - fin Hs. apply ok_or_Ok in Hu. apply Hpow. eapply Hup; [exact Hu| |reflexivity]. reflexivity.
  - fin Hs. apply ok_or_Ok in Hu. apply require_Ok in Hu0. clean_bool. apply Hpow. eapply Hup; [exact Hu| |reflexivity].
    unfold powers. cbn. destruct (m_fee u); [reflexivity|discriminate].
  - fin Hs. apply ok_or_Ok in Hu. apply require_Ok in Hu0. apply Hpow. eapply Hup; [exact Hu| |reflexivity].
    unfold powers. cbn. destruct (m_hook u); [reflexivity|discriminate].
  - fin Hs. apply ok_or_Ok in Hu. apply Hpow. eapply Hup; [exact Hu| |reflexivity]. reflexivity.
Qed.

Lemma fstep_op x o x' l :
  fstep x (FOp o) = Ok (x', l) ->
  exists w', step (fw x) o = Ok (w', l) /\ x' = mkF w' (withhold l (fw_at x)) (fw_mint x) /\
    (forall mk dst n, o <> EWithdrawWithheld mk dst n) /\
    (forall k owner, o = ECloseToken k owner -> look (fw_at x) k = 0).
Proof.
  intros Hs. assert (Hn : forall mk dst n, o <> EWithdrawWithheld mk dst n) by (intros mk dst n ->; discriminate Hs).
  assert (E : fstep x (FOp o) =
      let* _ := env_ok (match o with ECloseToken k _ => look (fw_at x) k =? 0 | _ => true end) in
      let* '(w', l) := step (fw x) o in Ok (mkF w' (withhold l (fw_at x)) (fw_mint x), l))
    by (destruct o; try reflexivity; exfalso; eapply Hn; reflexivity).
  rewrite E in Hs. unfold env_ok in Hs. bq Hs Hb. destruct (step (fw x) o) as [[w' l']|]; [|discriminate]. cbn in Hs.
  fin Hs. exists w'. do 3 (split; [auto|]). intros k owner ->. clean_bool. assumption.
Qed.

Lemma withdraw_pooled w mk dst n w' l :
  env_withdraw_withheld w mk dst n = Ok (w', l) ->
  l = [] /\ (exists m t, w_mints w !! mk = Some m /\ w_tokens w !! dst = Some t /\ t_mint t = mk /\ t_frozen t = false) /\
  (forall mk', pooled w' mk' = pooled w mk' - if bool_decide (mk' = mk) then n else 0) /\
  (forall a, bal w' a = bal w a + if bool_decide (a = dst) then n else 0) /\
  (forall mk' a, of_mint w' mk' a = of_mint w mk' a).
Proof.
  intros Hs. unfold env_withdraw_withheld, env_ok, get_mint, get_token in Hs. binds Hs. fin Hs.
  apply ok_or_Ok in Hu, Hu0. apply require_Ok in Hu1. clean_bool. split; [reflexivity|]. split; [eauto 8|]. split; [|split].
  - intros mk'. unfold pooled. cbn. destruct (bool_decide_reflect (mk' = mk)) as [->|Hne].
    + rewrite lookup_insert, Hu. reflexivity.
    + rewrite lookup_insert_ne by congruence. lia.
  - intros a. unfold bal. cbn. destruct (bool_decide_reflect (a = dst)) as [->|Hne].
    + rewrite lookup_insert, Hu0. reflexivity.
    + rewrite lookup_insert_ne by congruence. lia.
  - intros mk' a. unfold of_mint. cbn. destruct (decide (a = dst)) as [->|Hne].
    + rewrite lookup_insert, Hu0. reflexivity.
    + rewrite lookup_insert_ne by congruence. reflexivity.
Qed.

Lemma of_mint_live w mk a : of_mint w mk a = true -> exists t, w_tokens w !! a = Some t.
Proof. unfold of_mint. destruct (w_tokens w !! a); [eauto|discriminate]. Qed.

Lemma finv_step x o x' l : finv x -> fstep x o = Ok (x', l) -> finv x'.
Proof.
  intros [Hw Hnn Hlive Hmn Hsum Hfee] Hs. pose proof (reachable_inv _ Hw) as Hi. destruct o as [o|mk srcs|mk dst|mk srcs dst].
  - apply fstep_op in Hs as (w' & Hs & -> & Hno & Hcl).
    assert (Hkeep : forall a, look (fw_at x) a <> 0 -> (exists t, w_tokens w' !! a = Some t) /\
      forall mk, of_mint w' mk a = of_mint (fw x) mk a).
    { intros a Ha. destruct (Hlive _ Ha) as [t Ht].
      destruct (token_kept _ _ _ _ _ _ Hi Hs Ht) as [(t' & Ht' & E)|(owner & ->)].
      - split; [eauto|]. intros mk. unfold of_mint. rewrite Ht, Ht', E. reflexivity.
      - exfalso. apply Ha. eapply Hcl. reflexivity. }
    assert (Hsame : forall mk, in_accounts w' (fw_at x) mk = in_accounts (fw x) (fw_at x) mk).
    { intros mk. apply accounts_kept. intros a n Ha Hn. apply Hkeep. rewrite (look_some _ _ _ Ha). assumption. }
    destruct (step_charges _ _ _ _ Hi Hno Hs) as [[Hwh Hp]|(d & mk0 & f & Hwh & Hf & Hd & Hff & Hp)].
    + constructor; cbn; rewrite ?Hwh; try assumption.
      * eapply reachable_ok; eassumption.
      * intros a Ha. apply Hkeep. assumption.
      * intros mk. rewrite Hp, Hsame. apply Hsum.
      * intros mk Hmk. rewrite Hp in Hmk. eapply fee_kept; [exact Hi|exact Hs|apply Hfee|exact Hmk].
    + constructor; cbn; rewrite ?Hwh; try assumption.
      * eapply reachable_ok; eassumption.
      * intros a. rewrite look_bump. pose proof (Hnn a). destruct (bool_decide _); lia.
      * intros a Ha. rewrite look_bump in Ha. destruct (decide (a = d)) as [E|Hne].
        -- rewrite E. eapply of_mint_live. exact Hd.
        -- apply Hkeep. rewrite bool_decide_eq_false_2 in Ha by assumption. lia.
      * intros mk. rewrite Hp. unfold bump. rewrite accounts_insert, Hsame, (of_mint_one _ _ mk _ Hd).
        rewrite Hsum. destruct (bool_decide _); lia.
      * intros mk Hmk. destruct (Z.eq_dec (pooled (fw x) mk) 0) as [E|E].
        -- rewrite Hp, E in Hmk. destruct (decide (mk = mk0)) as [E'|E']; [rewrite E'; apply Hff; rewrite bool_decide_eq_true_2 in Hmk by assumption; lia|].
           rewrite bool_decide_eq_false_2 in Hmk by assumption. lia.
        -- eapply fee_kept; [exact Hi|exact Hs|apply Hfee|exact E].
  - cbn in Hs. unfold env_ok in Hs. bi Hs m Hm. bq Hs Hb. destruct (drain _ _) as [M n] eqn:E. fin Hs.
    assert (Hall : forallb (of_mint (fw x) mk) (List.filter (of_mint (fw x) mk) srcs) = true).
    { apply forallb_forall. intros a Ha. apply filter_In in Ha as [_ Ha]. assumption. }
    destruct (drain_spec _ _ _ _ _ _ E Hnn Hall) as (D1 & D2 & _ & D4).
    assert (Hl : forall a, look M a = 0 \/ look M a = look (fw_at x) a).
    { intros a. destruct (M !! a) as [y|] eqn:Ea; [|left; unfold look; rewrite Ea; reflexivity].
      rewrite (look_some _ _ _ Ea). destruct (D1 _ _ Ea) as [->|Ea']; [auto|right]. symmetry. apply look_some. assumption. }
    constructor; cbn; try assumption.
    + intros a. destruct (Hl a) as [->| ->]; [lia|apply Hnn].
    + intros a Ha. destruct (Hl a) as [E1|E1]; [congruence|]. apply Hlive. congruence.
    + intros a. rewrite look_bump. pose proof (Hmn a). destruct (bool_decide _); lia.
    + intros mk'. rewrite look_bump, Hsum, D4. lia.
  - cbn in Hs. destruct (env_withdraw_withheld _ _ _ _) as [[w' l']|] eqn:E; [|discriminate]. cbn in Hs. fin Hs.
    assert (Hst : step (fw x) (EWithdrawWithheld mk dst (look (fw_mint x) mk)) = Ok (w', l')) by exact E.
    destruct (withdraw_pooled _ _ _ _ _ _ E) as (_ & _ & Hp & _ & Ho).
    constructor; cbn; try assumption.
    + eapply reachable_ok; eassumption.
    + intros a Ha. destruct (Hlive _ Ha) as [t Ht].
      destruct (token_kept _ _ _ _ _ _ Hi Hst Ht) as [(t' & Ht' & _)|(owner & X)]; [eauto|discriminate X].
    + intros a. unfold look. destruct (decide (a = mk)) as [->|Hne]; [rewrite lookup_insert; cbn; lia|].
      rewrite lookup_insert_ne by congruence. apply Hmn.
    + intros mk'. rewrite Hp, Hsum. rewrite (accounts_kept (fw x) w') by (intros; apply Ho).
      assert (E2 : look (<[mk := 0]> (fw_mint x)) mk' = if bool_decide (mk' = mk) then 0 else look (fw_mint x) mk').
      { unfold look. destruct (bool_decide_reflect (mk' = mk)) as [->|Hne]; [rewrite lookup_insert; reflexivity|].
        rewrite lookup_insert_ne by congruence. reflexivity. }
      rewrite E2. destruct (bool_decide_reflect (mk' = mk)) as [Hx|Hne]; [rewrite Hx|]; lia.
    + intros mk' Hmk. eapply fee_kept; [exact Hi|exact Hst|apply Hfee|]. intros Hz. apply Hmk. rewrite Hp.
      pose proof (Hsum mk') as S. pose proof (Hmn mk'). rewrite Hz in *.
      assert (0 <= in_accounts (fw x) (fw_at x) mk').
      { apply msum_nonneg. intros a y Ha. pose proof (Hnn a) as Hy. rewrite (look_some _ _ _ Ha) in Hy. destruct (of_mint _ _ _); lia. }
      destruct (bool_decide_reflect (mk' = mk)) as [Hx|Hx]; [rewrite Hx in *|]; lia.
  - cbn in Hs. unfold env_ok in Hs. bq Hs Hall. destruct (drain _ _) as [M n] eqn:E.
    destruct (env_withdraw_withheld _ _ _ _) as [[w' l']|] eqn:Ew; [|discriminate]. cbn in Hs. fin Hs.
    assert (Hst : step (fw x) (EWithdrawWithheld mk dst n) = Ok (w', l')) by exact Ew.
    destruct (withdraw_pooled _ _ _ _ _ _ Ew) as (_ & _ & Hp & _ & Ho).
    destruct (drain_spec _ _ _ _ _ _ E Hnn Hall) as (D1 & D2 & _ & D4).
    assert (Hl : forall a, look M a = 0 \/ look M a = look (fw_at x) a).
    { intros a. destruct (M !! a) as [y|] eqn:Ea; [|left; unfold look; rewrite Ea; reflexivity].
      rewrite (look_some _ _ _ Ea). destruct (D1 _ _ Ea) as [->|Ea']; [auto|right]. symmetry. apply look_some. assumption. }
    assert (Hnn' : forall a, 0 <= look M a) by (intros a; destruct (Hl a) as [->| ->]; [lia|apply Hnn]).
    constructor; cbn; try assumption.
    + eapply reachable_ok; eassumption.
    + intros a Ha. destruct (Hl a) as [E1|E1]; [congruence|]. rewrite E1 in Ha. destruct (Hlive _ Ha) as [t Ht].
      destruct (token_kept _ _ _ _ _ _ Hi Hst Ht) as [(t' & Ht' & _)|(owner & X)]; [eauto|discriminate X].
    + intros mk'. rewrite Hp, Hsum. rewrite (accounts_kept (fw x) w') by (intros; apply Ho). rewrite D4. lia.
    + intros mk' Hmk. eapply fee_kept; [exact Hi|exact Hst|apply Hfee|]. intros Hz. apply Hmk. rewrite Hp.
      pose proof (Hsum mk') as S. pose proof (Hmn mk'). rewrite D4 in S.
      assert (0 <= in_accounts (fw x) M mk').
      { apply msum_nonneg. intros a y Ha. pose proof (Hnn' a) as Hy. rewrite (look_some _ _ _ Ha) in Hy. destruct (of_mint _ _ _); lia. }
      destruct (bool_decide_reflect (mk' = mk)) as [Hx|Hx]; [rewrite Hx in *|]; lia.
Qed.

Lemma freach_inv x : freach x -> finv x.
Proof.
  intros [l ->]. unfold frun. assert (Hi : finv fgenesis).
  { constructor; cbn; try (intros; unfold look; rewrite lookup_empty; cbn; lia).
    - exists []. reflexivity.
    - intros a Ha. exfalso. apply Ha. unfold look. rewrite lookup_empty. reflexivity.
    - intros mk. unfold pooled, look, in_accounts. change (w_mints genesis) with (∅ : gmap addr mint).
      rewrite !lookup_empty, msum_empty. reflexivity.
    - intros mk Hmk. exfalso. apply Hmk. unfold pooled. change (w_mints genesis) with (∅ : gmap addr mint).
      rewrite lookup_empty. reflexivity. }
  revert Hi. generalize fgenesis. induction l as [|o l IH]; intros x Hx; [assumption|].
  cbn. apply IH. unfold fexec. destruct (fstep x o) as [[x' lx]|] eqn:E; [|assumption]. eapply finv_step; eassumption.
Qed.

(** * C101 *)

(** The fees that the state machine counts as withheld of a mint are those kept by the accounts of
    that mint and by the mint itself. *)
Theorem C101_account_by_account x mk m :
  freach x -> w_mints (fw x) !! mk = Some m ->
  m_withheld m = look (fw_mint x) mk +
    msum (fun a n => match w_tokens (fw x) !! a with
                     | Some t => if bool_decide (t_mint t = mk) then n else 0
                     | None => 0
                     end) (fw_at x) /\
  0 <= look (fw_mint x) mk /\ (forall a, 0 <= look (fw_at x) a).
Proof.
  intros Hx Hm. destruct (freach_inv _ Hx) as [_ Hnn _ Hmn Hsum _]. split; [|auto].
  specialize (Hsum mk). unfold pooled in Hsum. rewrite Hm in Hsum. rewrite Hsum. f_equal. apply msum_ext. intros a n _.
  unfold of_mint. destruct (w_tokens (fw x) !! a); reflexivity.
Qed.

(** The same history without the layer: withdrawing what was collected is withdrawing that much of
    the pool, harvesting is nothing. *)
Theorem C101_is_run x l : exists l', fw (frun x l) = run (fw x) l'.
Proof.
  unfold frun. revert x. induction l as [|o l IH]; intros x; [exists []; reflexivity|]. cbn.
  assert (H1 : exists l1, fw (fexec x o) = run (fw x) l1).
  { unfold fexec. destruct (fstep x o) as [[x' lx]|] eqn:E; [|exists []; reflexivity]. destruct o as [o|mk srcs|mk dst|mk srcs dst].
    - apply fstep_op in E as (w' & Hs & -> & _). exists [o]. cbn. unfold exec. rewrite Hs. reflexivity.
    - cbn in E. unfold env_ok in E. bi E m Hm. bq E Hb. destruct (drain _ _) as [M n]. fin E. exists []. reflexivity.
    - cbn in E. destruct (env_withdraw_withheld _ _ _ _) as [[w' l']|] eqn:Ew; [|discriminate]. cbn in E. fin E.
      exists [EWithdrawWithheld mk dst (look (fw_mint x) mk)]. cbn. unfold exec. cbn. rewrite Ew. reflexivity.
    - cbn in E. unfold env_ok in E. bq E Hall. destruct (drain _ _) as [M n].
      destruct (env_withdraw_withheld _ _ _ _) as [[w' l']|] eqn:Ew; [|discriminate]. cbn in E. fin E.
      exists [EWithdrawWithheld mk dst n]. cbn. unfold exec. cbn. rewrite Ew. reflexivity. }
  destruct H1 as [l1 E1]. destruct (IH (fexec x o)) as [l2 E2]. exists (l1 ++ l2). rewrite E2, E1. unfold run. rewrite foldl_app.
  reflexivity.
Qed.
(** So everything that holds in every reachable state holds here. *)
Corollary C101_reachable x : freach x -> reachable (fw x).
Proof. intros Hx. apply (fi_reach _ (freach_inv _ Hx)). Qed.

(** Calls to the program are accepted as before, and what a transfer withholds goes to the account
    that it pays. *)
Theorem C101_calls x o w' l :
  env_op o = false -> step (fw x) o = Ok (w', l) ->
  exists M, fstep x (FOp o) = Ok (mkF w' M (fw_mint x), l) /\
    forall a, look M a = look (fw_at x) a +
      foldr (fun y n => n + match y with FxTransfer _ dst _ _ _ f => if bool_decide (a = dst) then f else 0 | _ => 0 end) 0 l.
Proof.
  intros Ho Hs. exists (withhold l (fw_at x)). split.
  - destruct o; try discriminate Ho; cbn [fstep]; unfold env_ok; cbn [require rbind]; rewrite Hs; reflexivity.
  - intros a. generalize (fw_at x). clear. induction l as [|y l IH]; intros M; cbn; [lia|].
    change (foldl withhold1 ?A l) with (withhold l A). rewrite IH. destruct y; cbn; [rewrite look_bump|..]; lia.
Qed.

(** What is withheld can always be collected: by the fee authority into any account of the mint that
    is not frozen, which gains exactly that, while no other balance changes. *)
Theorem C101_collect x mk m dst t srcs :
  freach x -> w_mints (fw x) !! mk = Some m -> w_tokens (fw x) !! dst = Some t -> t_mint t = mk -> t_frozen t = false ->
  (exists x', fstep x (FWithdrawMint mk dst) = Ok (x', []) /\ look (fw_mint x') mk = 0 /\
     forall a, bal (fw x') a = bal (fw x) a + if bool_decide (a = dst) then look (fw_mint x) mk else 0) /\
  (NoDup srcs -> (forall a, a ∈ srcs -> exists s, w_tokens (fw x) !! a = Some s /\ t_mint s = mk) ->
   exists x', fstep x (FWithdrawAccounts mk srcs dst) = Ok (x', []) /\ (forall a, a ∈ srcs -> look (fw_at x') a = 0) /\
     forall a, bal (fw x') a = bal (fw x) a +
       if bool_decide (a = dst) then foldr (fun s n => look (fw_at x) s + n) 0 srcs else 0).
Proof.
  intros Hx Hm Ht Htm Htf. destruct (freach_inv _ Hx) as [Hw Hnn Hlive Hmn Hsum _]. pose proof (reachable_inv _ Hw) as Hi.
  pose proof (Hsum mk) as Hs. unfold pooled in Hs. rewrite Hm in Hs.
  assert (Hacc : forall M, (forall a, 0 <= look M a) -> 0 <= in_accounts (fw x) M mk).
  { intros M HM. apply msum_nonneg. intros a y Ha. pose proof (HM a) as Hy. rewrite (look_some _ _ _ Ha) in Hy.
    destruct (of_mint _ _ _); lia. }
  assert (Hmax : m_withheld m <= U64MAX).
  { destruct (tk_supply _ (i_tokens _ Hi) _ _ Hm) as [E ?].
    assert (0 <= msum (held mk) (w_tokens (fw x))) by (apply msum_nonneg; apply held_nonneg; apply (i_tokens _ Hi)). lia. }
  assert (Hwd : forall n, 0 <= n <= m_withheld m -> exists w', env_withdraw_withheld (fw x) mk dst n = Ok (w', [])).
  { intros n Hn. unfold env_withdraw_withheld, env_ok, get_mint, get_token. rewrite Hm, Ht. cbn [ok_or rbind].
    rewrite require_true; [cbn [rbind]; eauto|]. rewrite Htm, Htf, beq_addr_refl.
    rewrite (proj2 (in_u64_iff n)) by lia. rewrite (proj2 (Z.leb_le n (m_withheld m))) by lia. reflexivity. }
  split.
  - destruct (Hwd (look (fw_mint x) mk)) as [w' Ew]; [pose proof (Hmn mk); pose proof (Hacc _ Hnn); lia|].
    eexists. split; [cbn [fstep]; rewrite Ew; cbn [rbind]; reflexivity|]. cbn [fw fw_mint]. split.
    + unfold look. rewrite lookup_insert. reflexivity.
    + apply (withdraw_pooled _ _ _ _ _ _ Ew).
  - intros Hnd Hsrc.
    assert (Hall : forallb (of_mint (fw x) mk) srcs = true).
    { apply forallb_forall. intros a Ha. apply elem_of_list_In in Ha. destruct (Hsrc _ Ha) as (s & Hs1 & Hs2).
      unfold of_mint. rewrite Hs1, Hs2. apply beq_addr_refl. }
    destruct (drain srcs (fw_at x)) as [M n] eqn:E.
    assert (Hn : n = foldr (fun s n => look (fw_at x) s + n) 0 srcs).
    { clear -E Hnd. revert E. generalize (fw_at x). revert M n. induction Hnd as [|a r Ha Hr IH]; intros M n M0 E; cbn in E.
      - injection E as <- <-. reflexivity.
      - destruct (drain r _) as [M1 n1] eqn:E1. injection E as <- <-. cbn. f_equal. rewrite (IH _ _ _ E1).
        clear -Ha. induction r as [|b r IH]; [reflexivity|]. cbn. apply not_elem_of_cons in Ha as [Hab Ha]. rewrite (IH Ha). f_equal.
        unfold look. rewrite lookup_insert_ne by congruence. reflexivity. }
    destruct (drain_spec _ _ _ _ _ _ E Hnn Hall) as (D1 & D2 & D3 & D4).
    assert (Hl : forall a, 0 <= look M a).
    { intros a. destruct (M !! a) as [y|] eqn:Ea; [|unfold look; rewrite Ea; cbn; lia]. rewrite (look_some _ _ _ Ea).
      destruct (D1 _ _ Ea) as [->|Ea']; [lia|]. rewrite <- (look_some _ _ _ Ea'). apply Hnn. }
    pose proof (D4 mk) as D5. rewrite bool_decide_eq_true_2 in D5 by reflexivity.
    destruct (Hwd n) as [w' Ew]; [pose proof (Hmn mk); pose proof (Hacc _ Hl); lia|].
    eexists. split; [cbn [fstep]; unfold env_ok; rewrite Hall, E; cbn [require rbind]; rewrite Ew; cbn [rbind]; reflexivity|].
    cbn [fw fw_at]. split; [assumption|]. rewrite <- Hn. apply (withdraw_pooled _ _ _ _ _ _ Ew).
Qed.

(** Nobody's tokens are locked in: an account that could be closed but for withheld fees can be
    closed after anybody has harvested them. *)
Theorem C101_close_after_harvest x k owner w' l t :
  freach x -> step (fw x) (ECloseToken k owner) = Ok (w', l) -> w_tokens (fw x) !! k = Some t ->
  exists x1, (x1 = x \/ fstep x (FHarvest (t_mint t) [k]) = Ok (x1, [])) /\ fw x1 = fw x /\
    exists x2, fstep x1 (FOp (ECloseToken k owner)) = Ok (x2, l) /\ fw x2 = w'.
Proof.
  intros Hx Hs Ht. destruct (freach_inv _ Hx) as [Hw Hnn Hlive Hmn Hsum Hfee].
  assert (Hdone : forall x1, fw x1 = fw x -> look (fw_at x1) k = 0 ->
    exists x2, fstep x1 (FOp (ECloseToken k owner)) = Ok (x2, l) /\ fw x2 = w').
  { intros x1 E0 E1. eexists. split; [cbn [fstep]; unfold env_ok; rewrite E1; cbn [Z.eqb require rbind]; rewrite E0, Hs; cbn [rbind]; reflexivity|].
    reflexivity. }
  destruct (Z.eq_dec (look (fw_at x) k) 0) as [Hz|Hz]; [exists x; auto|].
  assert (Hof : of_mint (fw x) (t_mint t) k = true) by (unfold of_mint; rewrite Ht; apply beq_addr_refl).
  assert (Hp : pooled (fw x) (t_mint t) <> 0).
  { rewrite Hsum. pose proof (Hmn (t_mint t)). pose proof (Hnn k).
    assert (look (fw_at x) k <= in_accounts (fw x) (fw_at x) (t_mint t)); [|lia].
    unfold look in Hz |- *. destruct (fw_at x !! k) as [n|] eqn:E; [|cbn in Hz; congruence]. cbn in *.
    pose proof (msum_member (fun a n => if of_mint (fw x) (t_mint t) a then n else 0) _ k n E) as Hmem. cbv beta in Hmem.
    rewrite Hof in Hmem. apply Hmem. intros a y Ha. cbv beta. pose proof (Hnn a) as Hy. rewrite (look_some _ _ _ Ha) in Hy. destruct (of_mint (fw x) (t_mint t) a); lia. }
  destruct (Hfee _ Hp) as (m & Hm & Hmf).
  eexists. split; [right; cbn [fstep]; unfold get_mint, env_ok; rewrite Hm; cbn [ok_or rbind];
    rewrite require_true by (destruct (m_fee m); [reflexivity|congruence]); cbn [rbind List.filter]; rewrite Hof; cbn; reflexivity|].
  split; [reflexivity|]. apply Hdone; [reflexivity|]. cbn. unfold look. rewrite lookup_insert. reflexivity.
Qed.
End WithCrypto.

#[local] Existing Instance toy.
(** The prorata scenario: fees of 2% stay in the base vault and with the claimants; anybody harvests
    those of the vault, the fee authority takes these from the mint and alice's directly. *)
Definition held_by (x : fworld) : Z * Z * Z * Z :=
  (look (fw_at x) (PBaseVault k1), look (fw_at x) alice_b, look (fw_mint x) bmint,
   match w_mints (fw x) !! bmint with Some m => m_withheld m | None => 0 end).
Example C101_example :
  let x0 := frun fgenesis (map FOp pr_paid) in
  let x1 := frun x0 [FHarvest bmint [PBaseVault k1; alice_q]] in
  let x2 := frun x1 [FWithdrawMint bmint carol_b; FWithdrawAccounts bmint [alice_b] carol_b] in
  (held_by x0, held_by x1, held_by x2, bal (fw x0) carol_b, bal (fw x2) carol_b,
   bal (fw x0) (PBaseVault k1), bal (fw x2) (PBaseVault k1)) =
  ((117, 56, 0, 198), (0, 56, 117, 198), (0, 0, 0, 25), 0, 173, 1702, 1702).
Proof. vm_compute. reflexivity. Qed.
