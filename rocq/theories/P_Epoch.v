(** C96: Token-2022 fee schedules. *)
From Coq Require Import Lia.
From Verif Require Import Base Math State Handlers Token World Instr Exec Tactics Sums Spec Arith
  TokenFacts Inv Acct Funs Steps Init Preserve Reach Did Trans Flow Scenario P_Solvency P_History
  P_Payout P_Mints P_Immune P_Access P_Signed P_Hook Epoch.

Section WithCrypto.
Context `{Crypto}.

(** * The fee of a mint changes by [ESetFee] only *)

Lemma transfer_fee_kept w pr src mk dst auth n ok w' l a :
  tok_transfer w pr src mk dst auth n ok = Ok (w', l) -> m_fee <$> w_mints w' !! a = m_fee <$> w_mints w !! a.
Proof.
  intros Hx. apply tok_transfer_inv in Hx as (m & s & d & dl & Hm & _ & _ & _ & _ & _ & _ & _ & _ & _ & Hc).
  destruct Hc as [(_ & -> & _)|(_ & _ & _ & -> & _)]; [reflexivity|]. cbn.
  destruct (decide (a = mk)) as [->|Hne]; [rewrite lookup_insert, Hm; reflexivity|].
  rewrite lookup_insert_ne by congruence. reflexivity.
Qed.
Lemma burn_fee_kept w pr src mk auth n w' l a :
  tok_burn w pr src mk auth n = Ok (w', l) -> m_fee <$> w_mints w' !! a = m_fee <$> w_mints w !! a.
Proof.
  unfold tok_burn, get_mint, get_token. intros Hx.
  destruct (w_mints w !! mk) as [m|] eqn:Hm; [|discriminate]. cbn [ok_or rbind] in Hx.
  repeat (apply rbind_Ok in Hx as (? & _ & Hx); cbv beta in Hx). apply Ok_inj in Hx. injection Hx as <- _. cbn.
  destruct (decide (a = mk)) as [->|Hne]; [rewrite lookup_insert, Hm; reflexivity|].
  rewrite lookup_insert_ne by congruence. reflexivity.
Qed.

Lemma mint_upd_fee w a k m m' :
  w_mints w !! k = Some m -> m_fee m' = m_fee m ->
  m_fee <$> (<[k := m']> (w_mints w)) !! a = m_fee <$> w_mints w !! a.
Proof.
  intros Hk E. destruct (decide (a = k)) as [->|Hne]; [rewrite lookup_insert, Hk; cbn; congruence|].
  rewrite lookup_insert_ne by congruence. reflexivity.
Qed.

Definition remints (o : op) (a : addr) : bool :=
  match o with ECreateMint k _ | ECloseMint k | ESetFee k _ => beq_addr k a | _ => false end.

Lemma step_fee_kept w o w' l a :
  reachable w -> step w o = Ok (w', l) -> remints o a = false ->
  m_fee <$> w_mints w' !! a = m_fee <$> w_mints w !! a.
Proof.
  intros Hw Hs Hre. destruct (env_op o) eqn:Henv.
  - destruct o; try discriminate Henv; cbn in Hs, Hre.
    all: unfold env_clock, env_create_mint, env_close_mint, env_create_token, env_close_token, env_transfer, env_burn,
      env_mint_to, env_approve, env_revoke, env_set_owner, env_set_memo, env_set_guard, env_freeze, env_set_fee, env_set_hook,
      env_withdraw_withheld, get_mint, get_token in Hs.
    all: repeat match type of Hs with
      | rbind (ok_or (w_mints ?v !! ?k) _) _ = Ok _ => let E := fresh "Em" in
          destruct (w_mints v !! k) eqn:E; [cbn [ok_or rbind] in Hs|discriminate]
      | rbind _ _ = Ok _ => apply rbind_Ok in Hs as (? & _ & Hs); cbv beta in Hs
      end.
    all: try (apply Ok_inj in Hs; injection Hs as <- _; cbn; try reflexivity;
              try (eapply mint_upd_fee; [eassumption|reflexivity]);
              apply bool_decide_eq_false in Hre; rewrite ?lookup_insert_ne, ?lookup_delete_ne by congruence; reflexivity).
    + apply checked_Ok in Hs. eapply transfer_fee_kept; eassumption.
    + eapply burn_fee_kept; eassumption.
  - destruct (one_call _ _ _ _ Hw Henv Hs) as (w1 & lx & evs & Hc & Hr & _).
    rewrite <- Hr. cbn [records w_mints].
    assert (E : w_mints (accounts_made o w) = w_mints w) by (destruct o; reflexivity). rewrite <- E.
    destruct Hc as [-> _|? ? ? ? ? ? ? Ht|? ? ? ? ? Ht]; [reflexivity| |].
    + eapply transfer_fee_kept; eassumption.
    + eapply burn_fee_kept; eassumption.
Qed.

(** * A new epoch is a series of fee changes *)

Definition retarget (g : addr -> option tfee) (k : addr) (m : mint) : mint :=
  match m_fee m, g k with Some _, Some f => set_m_fee (Some f) m | _, _ => m end.
Definition set_fees (g : addr -> option tfee) (ks : list addr) : list op :=
  omap (fun k => ESetFee k <$> g k) ks.

Lemma retarget_twice g k m : retarget g k (retarget g k m) = retarget g k m.
Proof. unfold retarget. destruct (m_fee m) eqn:E, (g k); cbn; rewrite ?E; reflexivity. Qed.

Lemma set_fees_cons g k ks :
  set_fees g (k :: ks) = match g k with Some f => ESetFee k f :: set_fees g ks | None => set_fees g ks end.
Proof. unfold set_fees. cbn. destruct (g k); reflexivity. Qed.

Lemma exec_set_fee w k f :
  fee_ok f ->
  exec w (ESetFee k f) = put_mints (alter (fun m => match m_fee m with Some _ => set_m_fee (Some f) m | None => m end) k (w_mints w)) w.
Proof.
  intros Hf. unfold exec. cbn [step]. unfold env_set_fee, get_mint, env_ok.
  destruct (w_mints w !! k) as [m|] eqn:Hm; cbn [ok_or rbind].
  - destruct (m_fee m) eqn:Ef; cbn [andb].
    + assert (Hb : (0 <=? f_bps f) && (f_bps f <=? MAX_FEE_BASIS_POINTS) && in_u64 (f_max f) = true).
      { unfold fee_ok in Hf. unfold in_u64, MAX_FEE_BASIS_POINTS. lia. }
      rewrite Hb. cbn [require rbind]. unfold upd_mint. f_equal.
      apply map_eq. intros a. destruct (decide (a = k)) as [->|Hne].
      * rewrite lookup_insert, lookup_alter, Hm. cbn. rewrite Ef. reflexivity.
      * rewrite lookup_insert_ne, lookup_alter_ne by congruence. reflexivity.
    + cbn [require rbind].
      transitivity (put_mints (w_mints w) w); [destruct w; reflexivity|]. f_equal. apply map_eq.
      intros a. destruct (decide (a = k)) as [->|Hne]; [rewrite lookup_alter, Hm; cbn; rewrite Ef; reflexivity|].
      rewrite lookup_alter_ne by congruence. reflexivity.
  - transitivity (put_mints (w_mints w) w); [destruct w; reflexivity|]. f_equal. apply map_eq.
    intros a. destruct (decide (a = k)) as [->|Hne]; [rewrite lookup_alter, Hm; reflexivity|].
    rewrite lookup_alter_ne by congruence. reflexivity.
Qed.

Lemma run_set_fees g ks :
  (forall k f, g k = Some f -> fee_ok f) ->
  forall w, exists M, run w (set_fees g ks) = put_mints M w /\
    forall a, M !! a = if decide (a ∈ ks) then retarget g a <$> w_mints w !! a else w_mints w !! a.
Proof.
  intros Hg. induction ks as [|k ks IH]; intros w.
  - exists (w_mints w). split; [destruct w; reflexivity|]. intros a. rewrite decide_False; [reflexivity|apply not_elem_of_nil].
  - rewrite set_fees_cons. destruct (g k) as [f|] eqn:Hk.
    + change (run w (ESetFee k f :: set_fees g ks)) with (run (exec w (ESetFee k f)) (set_fees g ks)).
      destruct (IH (exec w (ESetFee k f))) as (M & HM & Ha). exists M. rewrite HM, exec_set_fee by eauto.
      split; [reflexivity|]. intros a. rewrite Ha, exec_set_fee by eauto. cbn [w_mints put_mints].
      destruct (decide (a = k)) as [->|Hne].
      * rewrite lookup_alter. rewrite (decide_True (P := k ∈ k :: ks)) by constructor.
        destruct (w_mints w !! k) as [m|]; [|destruct (decide (k ∈ ks)); reflexivity]. cbn.
        assert (E : match m_fee m with Some _ => set_m_fee (Some f) m | None => m end = retarget g k m)
          by (unfold retarget; rewrite Hk; destruct (m_fee m); reflexivity). rewrite E.
        destruct (decide (k ∈ ks)); cbn; rewrite ?retarget_twice; reflexivity.
      * rewrite lookup_alter_ne by congruence.
        destruct (decide (a ∈ ks)); [rewrite decide_True by (right; assumption)|rewrite decide_False by (rewrite elem_of_cons; intuition)];
          reflexivity.
    + destruct (IH w) as (M & HM & Ha). exists M. split; [exact HM|]. intros a. rewrite Ha.
      destruct (decide (a = k)) as [->|Hne].
      * rewrite (decide_True (P := k ∈ k :: ks)) by constructor.
        assert (E : retarget g k <$> w_mints w !! k = w_mints w !! k).
        { destruct (w_mints w !! k) as [m|]; [|reflexivity]. cbn. unfold retarget. rewrite Hk. destruct (m_fee m); reflexivity. }
        rewrite E. destruct (decide (k ∈ ks)); reflexivity.
      * destruct (decide (a ∈ ks)); [rewrite decide_True by (right; assumption)|rewrite decide_False by (rewrite elem_of_cons; intuition)];
          reflexivity.
Qed.

(** * The invariant *)

Record einv (x : eworld) : Prop := {
  ei_reach : reachable (ew x);
  ei_fee : forall k m f, w_mints (ew x) !! k = Some m -> m_fee m = Some f ->
    exists s, ew_sched x !! k = Some s /\ f = fee_at s (ew_epoch x);
  ei_ok : forall k s, ew_sched x !! k = Some s -> fee_ok (s_older s) /\ fee_ok (s_newer s)
}.

Definition new_fees (x : eworld) (e : Z) : list op :=
  set_fees (fun k => (fun s => fee_at s e) <$> ew_sched x !! k) (map fst (map_to_list (w_mints (ew x)))).

Lemma fee_at_ok s e : fee_ok (s_older s) /\ fee_ok (s_newer s) -> fee_ok (fee_at s e).
Proof. unfold fee_at. destruct (s_epoch s <=? e); tauto. Qed.

Lemma epoch_is_run x e :
  einv x -> put_mints (map_imap (fun k m => Some (refee (ew_sched x) e k m)) (w_mints (ew x))) (ew x) =
    run (ew x) (new_fees x e).
Proof.
  intros [_ _ Hok]. unfold new_fees.
  destruct (run_set_fees (fun k => (fun s => fee_at s e) <$> ew_sched x !! k)
    (map fst (map_to_list (w_mints (ew x))))) with (w := ew x) as (M & -> & HM).
  { intros k f Hf. destruct (ew_sched x !! k) as [s|] eqn:Es; [|discriminate]. injection Hf as <-.
    apply fee_at_ok. eauto. }
  f_equal. apply map_eq. intros a. rewrite HM, map_lookup_imap.
  destruct (w_mints (ew x) !! a) as [m|] eqn:Ha; cbn.
  - rewrite decide_True.
    + f_equal. unfold refee, retarget. destruct (m_fee m), (ew_sched x !! a); reflexivity.
    + change (map ?f ?l) with (f <$> l). apply elem_of_list_fmap. exists (a, m). split; [reflexivity|].
      apply elem_of_map_to_list. assumption.
  - destruct (decide _); reflexivity.
Qed.

Lemma xstep_op x o x' l :
  xstep x (XOp o) = Ok (x', l) ->
  exists w', step (ew x) o = Ok (w', l) /\ x' = mkE w' (ew_epoch x) (sched_after o (ew_epoch x) (ew_sched x)) /\
    forall k f, o <> ESetFee k f.
Proof.
  intros Hs. assert (Hn : forall k f, o <> ESetFee k f) by (intros k f ->; discriminate Hs).
  assert (E : xstep x (XOp o) = let* '(w', l) := step (ew x) o in
      Ok (mkE w' (ew_epoch x) (sched_after o (ew_epoch x) (ew_sched x)), l))
    by (destruct o; try reflexivity; exfalso; eapply Hn; reflexivity).
  rewrite E in Hs. destruct (step (ew x) o) as [[w' l']|]; [|discriminate]. cbn in Hs. apply Ok_inj in Hs.
  injection Hs as <- <-. eauto.
Qed.

Lemma einv_step x o x' l : einv x -> xstep x o = Ok (x', l) -> einv x'.
Proof.
  intros Hi Hs. pose proof Hi as [Hw Hf Hok]. destruct o as [o|mk f|e].
  - apply xstep_op in Hs as (w' & Hs & -> & Hn). pose proof (reachable_ok _ _ _ _ Hw Hs) as Hw'.
    pose proof (i_tokens _ (reachable_inv _ Hw')) as Htok.
    assert (Hnew : forall k m, o = ECreateMint k m -> w_mints w' !! k = Some m).
    { intros k m ->. cbn in Hs. unfold env_create_mint in Hs. apply rbind_Ok in Hs as (? & _ & Hs). cbv beta in Hs.
      apply Ok_inj in Hs. injection Hs as <- _. apply lookup_insert. }
    constructor; cbn [ew ew_epoch ew_sched]; [assumption| |].
    + intros k m f Hm Hmf. destruct (remints o k) eqn:Hre.
      * destruct o; try discriminate Hre; cbn in Hre; apply beq_addr_true in Hre as ->.
        -- pose proof (Hnew _ _ eq_refl) as E. assert (m0 = m) as -> by congruence. cbn. rewrite Hmf.
           eexists. split; [apply lookup_insert|]. unfold fee_at. cbn. rewrite Z.leb_refl. reflexivity.
        -- exfalso. cbn in Hs. unfold env_close_mint in Hs. repeat (apply rbind_Ok in Hs as (? & _ & Hs); cbv beta in Hs).
           apply Ok_inj in Hs. injection Hs as <- _. cbn in Hm. rewrite lookup_delete in Hm. discriminate.
        -- exfalso. eapply Hn. reflexivity.
      * pose proof (step_fee_kept _ _ _ _ k Hw Hs Hre) as E. rewrite Hm in E. cbn in E.
        destruct (w_mints (ew x) !! k) as [m0|] eqn:Hm0; [|discriminate]. cbn in E.
        destruct (Hf k m0 f Hm0 ltac:(congruence)) as (s & Hsc & Hfs). exists s. split; [|assumption].
        destruct o; cbn; try assumption; cbn in Hre; apply bool_decide_eq_false in Hre;
          repeat case_match; rewrite ?lookup_insert_ne, ?lookup_delete_ne by congruence; assumption.
    + intros k s Hk. destruct o; cbn in Hk; eauto.
      * destruct (m_fee m) as [f|] eqn:Ef.
        -- apply lookup_insert_Some in Hk as [[-> <-]|[_ Hk]]; [|eauto]. cbn.
           pose proof (tk_fee _ Htok _ _ (Hnew _ _ eq_refl) f Ef). auto.
        -- apply lookup_delete_Some in Hk as [_ Hk]. eauto.
      * apply lookup_delete_Some in Hk as [_ Hk]. eauto.
  - cbn in Hs. unfold get_mint, env_ok in Hs. destruct (w_mints (ew x) !! mk) as [m|]; [|discriminate].
    cbn [ok_or rbind] in Hs. destruct (ew_sched x !! mk) as [s|] eqn:Es; [|discriminate]. cbn [ok_or rbind] in Hs.
    bq Hs Hb. apply Ok_inj in Hs. injection Hs as <- _. constructor; cbn [ew ew_epoch ew_sched]; [assumption| |].
    + intros k m' f' Hm' Hmf'. destruct (Hf _ _ _ Hm' Hmf') as (s' & Hs' & E).
      destruct (decide (k = mk)) as [->|Hne].
      * rewrite lookup_insert. eexists. split; [reflexivity|]. assert (s' = s) as -> by congruence.
        rewrite E. unfold fee_at, set_sched. cbn. destruct (Z.leb_spec (ew_epoch x + 2) (ew_epoch x)); [lia|]. reflexivity.
      * rewrite lookup_insert_ne by congruence. eauto.
    + intros k s' Hk. apply lookup_insert_Some in Hk as [[-> <-]|[_ Hk]]; [|eauto]. cbn.
      destruct (Hok _ _ Es). split; [destruct (s_epoch s <=? ew_epoch x); assumption|].
      unfold fee_ok. unfold in_u64, MAX_FEE_BASIS_POINTS in Hb. clean_bool. lia.
  - cbn in Hs. unfold env_ok in Hs. bq Hs Hb. apply Ok_inj in Hs. injection Hs as <- _.
    constructor; cbn [ew ew_epoch ew_sched].
    + rewrite epoch_is_run by assumption. apply reachable_run. assumption.
    + intros k m f Hm Hmf. cbn in Hm. rewrite map_lookup_imap in Hm.
      destruct (w_mints (ew x) !! k) as [m0|] eqn:Hm0; [|discriminate]. cbn in Hm. injection Hm as <-.
      unfold refee in Hmf. destruct (m_fee m0) as [f0|] eqn:Ef; [|congruence].
      destruct (Hf _ _ _ Hm0 Ef) as (s & Hs & _). rewrite Hs in Hmf. cbn in Hmf. exists s. split; [assumption|congruence].
    + assumption.
Qed.

Lemma xreach_inv x : xreach x -> einv x.
Proof.
  intros [l ->]. unfold xrun. assert (Hi : einv xgenesis).
  { constructor; [exists []; reflexivity| |].
    - intros k m f Hm. change (w_mints (ew xgenesis)) with (∅ : gmap addr mint) in Hm.
      rewrite lookup_empty in Hm. discriminate.
    - intros k s Hs. change (ew_sched xgenesis) with (∅ : gmap addr sched) in Hs.
      rewrite lookup_empty in Hs. discriminate. }
  revert Hi. generalize xgenesis. induction l as [|o l IH]; intros x Hi; [assumption|]. cbn. apply IH.
  unfold xexec. destruct (xstep x o) as [[x' fx]|] eqn:E; [|assumption]. eapply einv_step; eassumption.
Qed.

(** Every history with fee schedules is a history of the machine that all other theorems are about. *)
Theorem C96_schedules_covered x l :
  xreach x -> exists l', ew (xrun x l) = run (ew x) l'.
Proof.
  intros Hx. apply xreach_inv in Hx. revert x Hx. induction l as [|o l IH]; intros x Hi; [exists []; reflexivity|].
  change (xrun x (o :: l)) with (xrun (xexec x o) l).
  assert (H1 : exists l', ew (xexec x o) = run (ew x) l').
  { unfold xexec. destruct (xstep x o) as [[x' fx]|] eqn:E; [|exists []; reflexivity]. destruct o as [o|mk f|e].
    - apply xstep_op in E as (w' & Hs & -> & _). exists [o]. cbn. unfold exec. rewrite Hs. reflexivity.
    - exists []. cbn in E. unfold env_ok in E. destruct (get_mint (ew x) mk); [|discriminate]. cbn in E.
      destruct (ew_sched x !! mk); [|discriminate]. cbn in E. bq E Hb. apply Ok_inj in E. injection E as <- _. reflexivity.
    - exists (new_fees x e). cbn in E. unfold env_ok in E. bq E Hb. apply Ok_inj in E. injection E as <- _.
      apply epoch_is_run. assumption. }
  destruct H1 as [l1 H1]. destruct (IH (xexec x o)) as [l2 H2].
  { unfold xexec. destruct (xstep x o) as [[x' fx]|] eqn:E; [|assumption]. eapply einv_step; eassumption. }
  exists (l1 ++ l2). rewrite H2, H1. unfold run. rewrite foldl_app. reflexivity.
Qed.
Theorem C96_reachable x : xreach x -> reachable (ew x).
Proof. intros Hx. apply (ei_reach _ (xreach_inv _ Hx)). Qed.

(** The fee that the program reads and the token program charges is the one of the epoch. *)
Theorem C96_fee_in_force x k m f :
  xreach x -> w_mints (ew x) !! k = Some m -> m_fee m = Some f ->
  exists s, ew_sched x !! k = Some s /\ f = fee_at s (ew_epoch x).
Proof. intros Hx. apply (ei_fee _ (xreach_inv _ Hx)). Qed.

Lemma fee_after_set s e f e' : e <= e' < e + 2 -> fee_at (set_sched s e f) e' = fee_at s e.
Proof.
  intros He. unfold fee_at, set_sched. cbn. destruct (Z.leb_spec (e + 2) e'); [lia|]. reflexivity.
Qed.

(** What the schedule of a mint can have become, as long as the next epoch is not over. *)
Definition noticed (x y : eworld) (a : addr) (s : sched) : Prop :=
  ew_epoch x <= ew_epoch y /\
  (ew_epoch y <= ew_epoch x + 1 ->
   exists s', ew_sched y !! a = Some s' /\
    (ew_epoch y = ew_epoch x -> fee_at s' (ew_epoch x) = fee_at s (ew_epoch x)) /\
    (fee_at s' (ew_epoch x + 1) = fee_at s (ew_epoch x) \/
     fee_at s' (ew_epoch x + 1) = fee_at s (ew_epoch x + 1))).

Lemma presale_mint_stays x a :
  (exists k p, w_presales (ew x) !! k = Some p /\ (a = p_bmint p \/ a = p_qmint p)) -> einv x ->
  forall o w' l, step (ew x) o = Ok (w', l) -> (forall k f, o <> ESetFee k f) -> remints o a = false.
Proof.
  intros (k & p & Hp & Ha) [Hw _ _] o w' l Hs Hn. destruct (remints o a) eqn:Hre; [exfalso|reflexivity].
  destruct (C36_only_safe_mints _ _ _ Hw Hp) as (bm & qm & Hb & Hq & Sb & Sq & _).
  assert (Hm : exists m, w_mints (ew x) !! a = Some m /\ harmless m) by (destruct Ha as [->| ->]; eauto).
  destruct Hm as (m & Hm & Hh).
  destruct o; try discriminate Hre; cbn in Hre; apply beq_addr_true in Hre as ->.
  - cbn in Hs. unfold env_create_mint, env_ok in Hs. bq Hs Hx. rewrite Hm in Hx. rewrite bool_decide_false in Hx by discriminate.
    rewrite andb_false_r in Hx. discriminate.
  - destruct (ca_mints _ _ (step_calm _ _ _ _ (reachable_inv _ Hw) Hs) _ _ Hm Hh) as (m' & Hm' & _).
    cbn in Hs. unfold env_close_mint in Hs. repeat (apply rbind_Ok in Hs as (? & _ & Hs); cbv beta in Hs).
    apply Ok_inj in Hs. injection Hs as <- _. cbn in Hm'. rewrite lookup_delete in Hm'. discriminate.
  - eapply Hn. reflexivity.
Qed.

Lemma noticed_step x y a s o y' l :
  (exists k p, w_presales (ew y) !! k = Some p /\ (a = p_bmint p \/ a = p_qmint p)) -> einv y ->
  noticed x y a s -> xstep y o = Ok (y', l) -> noticed x y' a s.
Proof.
  intros Hp Hi [Hle Hn] Hs. destruct o as [o|mk f|e].
  - apply xstep_op in Hs as (w' & Hs & -> & Hne). pose proof (presale_mint_stays _ _ Hp Hi _ _ _ Hs Hne) as Hre.
    split; [exact Hle|]. cbn [ew_epoch ew_sched]. intros Hm. destruct (Hn Hm) as (s' & Hs' & Hx). exists s'. split; [|exact Hx].
    destruct o; cbn; try assumption; cbn in Hre; apply bool_decide_eq_false in Hre;
      repeat case_match; rewrite ?lookup_insert_ne, ?lookup_delete_ne by congruence; assumption.
  - cbn in Hs. unfold env_ok in Hs. destruct (get_mint (ew y) mk); [|discriminate]. cbn in Hs.
    destruct (ew_sched y !! mk) as [s0|] eqn:Es0; [|discriminate]. cbn in Hs. bq Hs Hb. apply Ok_inj in Hs. injection Hs as <- _.
    split; [exact Hle|]. cbn [ew_epoch ew_sched]. intros Hm. destruct (Hn Hm) as (s' & Hs' & H1 & H2).
    destruct (decide (a = mk)) as [->|Hd]; [|rewrite lookup_insert_ne by congruence; eauto].
    assert (s0 = s') as -> by congruence. rewrite lookup_insert. eexists. split; [reflexivity|].
    destruct (Z.eq_dec (ew_epoch y) (ew_epoch x)) as [E|E].
    + rewrite E in *. rewrite !fee_after_set by lia. auto.
    + assert (Ey : ew_epoch y = ew_epoch x + 1) by lia. rewrite Ey in *.
      split; [lia|]. rewrite fee_after_set by lia. exact H2.
  - cbn in Hs. unfold env_ok in Hs. bq Hs Hb. apply Ok_inj in Hs. injection Hs as <- _. clean_bool.
    split; cbn [ew_epoch ew_sched]; [lia|]. intros Hm. destruct (Hn ltac:(lia)) as (s' & Hs' & H1 & H2).
    exists s'. split; [assumption|]. split; [|assumption]. intros E. apply H1. lia.
Qed.

Lemma noticed_run x a s ll : forall z,
  einv z -> noticed x z a s ->
  (exists k p, w_presales (ew z) !! k = Some p /\ (a = p_bmint p \/ a = p_qmint p)) ->
  einv (xrun z ll) /\ noticed x (xrun z ll) a s.
Proof.
  induction ll as [|o l IH]; intros z Hi Hn Hpm; [split; assumption|].
  change (xrun z (o :: l)) with (xrun (xexec z o) l).
  unfold xexec. destruct (xstep z o) as [[z' fx]|] eqn:E; [|apply IH; assumption].
  apply IH; [eapply einv_step; eassumption|eapply noticed_step; eassumption|].
  destruct Hpm as (k & p & Hp & Ha).
  assert (Hrun : exists l', ew z' = run (ew z) l').
  { destruct o as [o|mk f|e].
    - apply xstep_op in E as (w' & Hs & -> & _). exists [o]. cbn. unfold exec. rewrite Hs. reflexivity.
    - exists []. cbn in E. unfold env_ok in E. destruct (get_mint (ew z) mk); [|discriminate]. cbn in E.
      destruct (ew_sched z !! mk); [|discriminate]. cbn in E. bq E Hb. apply Ok_inj in E. injection E as <- _. reflexivity.
    - exists (new_fees z e). cbn in E. unfold env_ok in E. bq E Hb. apply Ok_inj in E. injection E as <- _.
      apply epoch_is_run. assumption. }
  destruct Hrun as [l' ->]. destruct (C15_terms_immutable _ l' _ _ (ei_reach _ Hi) Hp) as (p' & Hp' & Ht & _).
  exists k, p'. split; [assumption|]. unfold terms_of in Ht. destruct Ha; [left|right]; congruence.
Qed.

(** For the mints of a presale: in the same epoch the transfer fee is what it was, in the next one it
    is that or what was already scheduled.  Nobody can raise it at shorter notice. *)
Theorem C96_notice x later k p a m f s :
  xreach x -> w_presales (ew x) !! k = Some p -> a = p_bmint p \/ a = p_qmint p ->
  w_mints (ew x) !! a = Some m -> m_fee m = Some f -> ew_sched x !! a = Some s ->
  let y := xrun x later in
  exists m' f', w_mints (ew y) !! a = Some m' /\ m_prog m' = m_prog m /\ m_fee m' = Some f' /\
    (ew_epoch y = ew_epoch x -> f' = f) /\
    (ew_epoch y = ew_epoch x + 1 -> f' = f \/ f' = fee_at s (ew_epoch x + 1)).
Proof.
  intros Hx Hp Ha Hm Hf Hs y. pose proof (xreach_inv _ Hx) as Hi.
  assert (Ef : f = fee_at s (ew_epoch x)) by (destruct (ei_fee _ Hi _ _ _ Hm Hf) as (s' & ? & ->); congruence).
  assert (Hy : einv y /\ noticed x y a s).
  { apply noticed_run; [assumption| |eauto]. split; [lia|]. intros _. exists s. auto. }
  destruct Hy as [Hiy [Hle Hn]].
  destruct (C96_schedules_covered x later Hx) as [l' Hl]. fold y in Hl.
  destruct (powers_run (ew x) l' a m (reachable_inv _ (ei_reach _ Hi)) Hm) as (m' & Hm' & Hpw).
  { destruct (C36_only_safe_mints _ _ _ (ei_reach _ Hi) Hp) as (bm & qm & Hb & Hq & Sb & Sq & _).
    destruct Ha as [->| ->]; congruence. }
  rewrite <- Hl in Hm'. unfold powers in Hpw. injection Hpw as E1 _ _ _ _ E2 _. rewrite Hf in E2.
  destruct (m_fee m') as [f'|] eqn:Ef'; [|discriminate].
  exists m', f'. split; [assumption|]. split; [assumption|]. split; [assumption|].
  destruct (ei_fee _ Hiy _ _ _ Hm' Ef') as (s'' & Hs'' & Efy). rewrite Ef, Efy. split.
  - intros E. destruct (Hn ltac:(lia)) as (s' & Hs' & H1 & _). assert (s'' = s') as -> by congruence. rewrite E. auto.
  - intros E. destruct (Hn ltac:(lia)) as (s' & Hs' & _ & H2). assert (s'' = s') as -> by congruence. rewrite E. auto.
Qed.

(** So the payer of a deposit knows when signing what it can cost during this epoch and the next
    (a transaction is valid for minutes, an epoch takes days). *)
Theorem C96_signed_deposit x later k ek p0 e0 r0 m f s qv qm pt payer pr mx h y' l :
  xreach x -> w_presales (ew x) !! k = Some p0 -> w_escrows (ew x) !! ek = Some e0 -> e_presale e0 = k ->
  p_regs p0 !! Z.to_nat (e_idx e0) = Some r0 ->
  w_mints (ew x) !! p_qmint p0 = Some m -> m_prog m = Token2022 -> m_fee m = Some f -> ew_sched x !! p_qmint p0 = Some s ->
  let y := xrun x later in
  ew_epoch y <= ew_epoch x + 1 ->
  xstep y (XOp (IDeposit k qv qm ek pt payer pr mx h)) = Ok (y', l) ->
  exists n net gross f',
    0 < n <= mx /\ net = cost_of r0 n /\ n <= net <= cost_of r0 mx /\
    (f' = f \/ (ew_epoch y = ew_epoch x + 1 /\ f' = fee_at s (ew_epoch x + 1))) /\
    gross = net + spl_calculate_fee f' gross /\ bal (ew y') pt = bal (ew y) pt - gross /\
    bal (ew y') (PQuoteVault k) = bal (ew y) (PQuoteVault k) + net.
Proof.
  intros Hx Hp0 He0 Hk0 Hr0 Hm Hpr Hf Hsc y Hle Hs. pose proof (xreach_inv _ Hx) as Hi.
  destruct (C96_notice x later k p0 _ m f s Hx Hp0 (or_intror eq_refl) Hm Hf Hsc) as (m' & f' & Hm' & Hpr' & Hf' & F1 & F2).
  fold y in Hm', F1, F2.
  destruct (C96_schedules_covered x later Hx) as [l' Hl]. fold y in Hl.
  apply xstep_op in Hs as (w' & Hs & -> & _). cbn [ew]. rewrite Hl in Hs, Hm' |- *.
  destruct (C94_signed_deposit _ _ _ _ _ _ _ _ _ _ _ _ _ _ _ _ (ei_reach _ Hi) Hp0 He0 Hk0 Hr0 Hs) as
    (n & net & gross & m1 & e & e' & Hn & Hnet & Hc & _ & Hm1 & Hg & _ & Hmv & Hne & _).
  assert (m1 = m') as -> by congruence.
  assert (Et : tok_fee m' gross = spl_calculate_fee f' gross).
  { unfold tok_fee, get_epoch_transfer_fee. rewrite Hpr', Hpr, Hf'. reflexivity. }
  rewrite Et in Hg, Hmv. exists n, net, gross, f'. split_and!; try lia.
  - destruct (Z.eq_dec (ew_epoch y) (ew_epoch x)) as [E|E]; [left; auto|].
    assert (E1 : ew_epoch y = ew_epoch x + 1).
    { assert (Hmono : forall l z, ew_epoch z <= ew_epoch (xrun z l)).
      { clear. induction l as [|o l IH]; intros z; [apply Z.le_refl|].
        change (xrun z (o :: l)) with (xrun (xexec z o) l). etransitivity; [|apply IH].
        unfold xexec. destruct (xstep z o) as [[z' fx]|] eqn:Ez; [|lia]. destruct o as [o|mk f|e].
        - apply xstep_op in Ez as (w' & _ & -> & _). apply Z.le_refl.
        - cbn in Ez. unfold env_ok in Ez. destruct (get_mint (ew z) mk); [|discriminate]. cbn in Ez.
          destruct (ew_sched z !! mk); [|discriminate]. cbn in Ez. bq Ez Hb. apply Ok_inj in Ez. injection Ez as <- _. apply Z.le_refl.
        - cbn in Ez. unfold env_ok in Ez. bq Ez Hb. apply Ok_inj in Ez. injection Ez as <- _. clean_bool. cbn. lia. }
      specialize (Hmono later x). fold y in Hmono. lia. }
    destruct (F2 E1) as [->| ->]; auto.
  - rewrite (Hmv pt). rewrite decide_False, decide_True by auto. reflexivity.
  - rewrite (Hmv (PQuoteVault k)). rewrite decide_False, decide_False, decide_True by auto. lia.
Qed.

End WithCrypto.

#[local] Existing Instance toy.

(** The quote token of C94: the fee of one half, set after the deposit was signed, is charged two
    epochs later and not before; set again, the scheduled fee never starts. *)
Definition x_open : eworld := xrun xgenesis (XEpoch 700 :: map XOp tq_open).
Definition x_set : xop := XSetFee qmint (mkFee 5000 U64MAX).
Definition x_cost (l : list xop) : Z :=
  bal (ew (xrun x_open l)) alice_q - bal (ew (xrun x_open (l ++ [XOp tq_signed]))) alice_q.
Example C96_met :
  x_cost [] = 200 /\ x_cost [x_set] = 200 /\ x_cost [x_set; XEpoch 701] = 200 /\ x_cost [x_set; XEpoch 702] = 400 /\
  x_cost [x_set; XEpoch 701; XSetFee qmint (mkFee 100 U64MAX); XEpoch 702] = 200 /\
  match xstep (xrun x_open [x_set; XEpoch 701]) (XOp tq_signed) with Ok _ => true | Err _ => false end = true /\
  match w_mints (ew x_open) !! qmint with
  | Some m => m_fee m = Some (mkFee 0 U64MAX) /\ m_prog m = Token2022 | None => False end.
Proof. vm_compute. auto 12. Qed.
Example C96_met_reach : xreach x_open.
Proof. eexists. reflexivity. Qed.
