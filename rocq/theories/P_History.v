(** Properties of whole histories: C15 immutable terms, C16 final outcome, C17 early end,
    C19 claim history, C34 one refund, C35 lifetime payouts, and the "at most once" parts of
    C06, C07 and C08. *)
From Coq Require Import Lia.
From Verif Require Import Base Math State Handlers Token World Instr Exec Spec Tactics Sums Arith
  TokenFacts Inv Acct Funs Steps Init Preserve Reach Did Trans Flow Scenario.

(** * What may change in a presale account *)

(** Everything fixed at creation. *)
Definition terms_of (p : presale) :=
  ((p_owner p, p_base p, p_bmint p, p_qmint p, p_bvault p, p_qvault p, p_bprog p, p_qprog p),
   (p_mode p, p_wl p, p_max_cap p, p_min_cap p, p_start p, p_supply p, p_created p),
   (p_lock p, p_vest p, p_bps p, p_unsold p, p_nreg p, p_raw0 p, p_raw1 p, p_raw2 p),
   map (fun r => (r_supply r, r_min_cap r, r_max_cap r, r_fee_bps r)) (p_regs p)).
Definition timing_of (p : presale) := (p_end p, p_imm_ts p, p_vs p, p_ve p).
Definition deposits_of (p : presale) :=
  (p_deposit p, p_fee p, map (fun r => (r_deposit r, r_fee r)) (p_regs p)).

(** The early end of presale [p] at time [now]. *)
Definition early_timing (p : presale) (now : Z) :=
  (now, now + Z.max 0 (p_imm_ts p - p_end p), now + p_lock p, now + p_lock p + p_vest p).
(** Early end is not disabled (byte 0 of the FCFS data, byte 1 of the fixed price flags). *)
Definition can_end_early (p : presale) : Prop :=
  (p_mode p = 2 /\ p_raw0 p mod 256 = 0) \/ (p_mode p = 0 /\ p_raw1 p / 256 mod 256 = 0).

Record moves (now : Z) (p p' : presale) : Prop := {
  mv_terms : terms_of p' = terms_of p;
  mv_timing : timing_of p' = timing_of p \/
    (now < p_end p /\ can_end_early p /\ p_deposit p' = p_max_cap p /\ timing_of p' = early_timing p now);
  mv_over : p_end p <= now -> timing_of p' = timing_of p /\ deposits_of p' = deposits_of p;
  mv_flags : p_cwd p <= p_cwd p' /\ p_fee_col p <= p_fee_col p' /\ p_unsold_done p <= p_unsold_done p';
  mv_paid : p_claimed p <= p_claimed p' /\ p_refunded p <= p_refunded p'
}.

Lemma moves_refl now p : moves now p p.
Proof. constructor; auto; lia. Qed.

Lemma map_set {A} (f : registry -> A) p i r r' :
  p_regs p !! Z.to_nat i = Some r -> f r' = f r ->
  map f (<[Z.to_nat i := r']> (p_regs p)) = map f (p_regs p).
Proof.
  intros Hr Hf. etransitivity; [apply (list_fmap_insert f)|].
  apply list_insert_id. rewrite Hf. rewrite list_lookup_fmap, Hr. reflexivity.
Qed.

Ltac same_regs := unfold terms_of, timing_of, deposits_of; cbn;
  repeat match goal with |- context [map ?f (<[Z.to_nat ?i := ?r']> (p_regs ?p))] =>
    rewrite (map_set f p i _ r' ltac:(eassumption) eq_refl) end; try reflexivity.

Ltac same_p Hp := match type of Hp with ?a = Some ?p =>
  match goal with X : a = Some ?q |- _ =>
    lazymatch q with p => fail | _ => assert (q = p) by congruence; subst q end end end.

Section WithCrypto.
Context `{Crypto}.

Lemma presale_moves w o w' l k p :
  inv w -> step w o = Ok (w', l) -> w_presales w !! k = Some p ->
  exists p', w_presales w' !! k = Some p' /\ moves (w_now w) p p'.
Proof.
  intros Hi Hs Hp. pose proof (i_presales _ Hi _ _ Hp) as Hok.
  destruct (b_flags _ _ _ (a_books _ _ _ _ (q_acct _ _ _ Hok))) as (F1 & F2 & F3).
  destruct (does_presale _ _ _ _ k (step_does _ _ _ _ Hi Hs)) as
    [Hn|base bm0 qm0 pt cr pay bp qp a h0 p0 bm qm gross w1 lx Ho D Hnone Hn|owner idx cap p0 r Ho D Hn
    |qv qm ek pt payer pr mx h0 p0 p2 e r m amount fee gross w1 lx Ho D Hn
    |qv qm ek ot owner pr mx h0 p0 e r m amount w1 lx Ho D Hn
    |qv qm ek ot owner pr h0 p0 e r m w1 lx Ho D Hn|bv bm ek ot owner pr h0 p0 e r m w1 lx Ho D Hn
    |ek owner rr p0 e r Ho D Hn|ot owner pr h0 p0 m w1 lx Ho D Hn|qv qm rcv owner pr h0 p0 m w1 lx Ho D Hn
    |bv bm ct pr h0 p0 m w1 lx Ho D Hn].
  1: { exists p. split; [congruence|apply moves_refl]. }
  1: congruence.
  all: destruct D.
  all: same_p Hp.
  all: eexists; (split; [exact Hn|]).
  - constructor; cbn; try lia; same_regs; auto; intros _; split; same_regs.
  - unfold open_for_deposits in dd_open.
    destruct dd_end as [(E1 & E2 & ->)|(E1 & ->)]; constructor; cbn; try lia; same_regs; auto.
    right. split; [lia|]. split; [unfold can_end_early, ends_early in *; tauto|]. split; [exact E2|].
    unfold early_timing. reflexivity.
  - unfold open_for_deposits in dw_open. constructor; cbn; try lia; same_regs; auto.
  - constructor; cbn; try lia; same_regs; auto; intros _; split; same_regs.
  - constructor; cbn; try lia; same_regs; auto; intros _; split; same_regs.
  - constructor; cbn; try lia; same_regs; auto; intros _; split; same_regs.
  - constructor; cbn; try lia; same_regs; auto.
  - constructor; cbn; try lia; same_regs; auto.
  - constructor; cbn; try lia; same_regs; auto.
Qed.

Lemma exec_now w o : inv w -> w_now w <= w_now (exec w o).
Proof.
  intros Hi. unfold exec. destruct (step w o) as [[w' l]|] eqn:Hs; [|lia].
  apply (does_now _ _ _ _ (step_does _ _ _ _ Hi Hs)).
Qed.
Lemma exec_moves w o k p :
  inv w -> w_presales w !! k = Some p ->
  exists p', w_presales (exec w o) !! k = Some p' /\ moves (w_now w) p p'.
Proof.
  intros Hi Hp. unfold exec. destruct (step w o) as [[w' l]|] eqn:Hs.
  - eapply presale_moves; eassumption.
  - exists p. split; [assumption|apply moves_refl].
Qed.

(** A property of one presale that every step keeps holds for the rest of the history. *)
Lemma run_keeps (P : Z -> presale -> Prop) w l k p :
  inv w -> w_presales w !! k = Some p -> P (w_now w) p ->
  (forall now now' q q', now <= now' -> moves now q q' -> cfg k q -> P now q -> P now' q') ->
  exists p', w_presales (run w l) !! k = Some p' /\ P (w_now (run w l)) p' /\ w_now w <= w_now (run w l).
Proof.
  intros Hi Hp HP Hk. revert w p Hi Hp HP. induction l as [|o l IH]; intros w p Hi Hp HP.
  - exists p. cbn. split; [assumption|]. split; [assumption|lia].
  - change (run w (o :: l)) with (run (exec w o) l). destruct (exec_moves w o k p Hi Hp) as (p' & Hp' & Hm).
    pose proof (exec_now w o Hi) as Hnow.
    pose proof (q_cfg _ _ _ (i_presales _ Hi _ _ Hp)) as Hc.
    destruct (IH (exec w o) p' (inv_exec _ _ Hi) Hp') as (p2 & ? & ? & ?); [eauto|].
    exists p2. split; [assumption|]. split; [assumption|]. lia.
Qed.

Lemma run_app w l1 l2 : run w (l1 ++ l2) = run (run w l1) l2.
Proof. unfold run. apply foldl_app. Qed.

(** * C15 *)

Theorem C15_terms_immutable w l k p :
  reachable w -> w_presales w !! k = Some p ->
  exists p', w_presales (run w l) !! k = Some p' /\ terms_of p' = terms_of p /\ p_end p' <= p_end p.
Proof.
  intros Hw Hp.
  destruct (run_keeps (fun _ q => terms_of q = terms_of p /\ p_end q <= p_end p) w l k p) as (p' & ? & [? ?] & _).
  - apply reachable_inv. assumption.
  - assumption.
  - split; [reflexivity|lia].
  - intros now now' q q' _ Hm _ [H1 H2]. destruct Hm. split; [congruence|].
    destruct mv_timing0 as [Ht|(Hlt & _ & _ & Ht)].
    + injection Ht as -> _ _ _. assumption.
    + injection Ht as -> _ _ _. lia.
  - eauto.
Qed.

(** The end changes at most once, and then stays. *)
Theorem C15_end_changes_once w l1 l2 k p p1 p2 :
  reachable w -> w_presales w !! k = Some p ->
  w_presales (run w l1) !! k = Some p1 -> w_presales (run (run w l1) l2) !! k = Some p2 ->
  timing_of p1 <> timing_of p -> timing_of p2 = timing_of p1.
Proof.
  intros Hw Hp H1 H2 Hne. pose proof (reachable_inv _ Hw) as Hi.
  assert (Hend : p_end p1 <= w_now (run w l1)).
  { destruct (run_keeps (fun now q => timing_of q = timing_of p \/ p_end q <= now) w l1 k p) as (p' & Hp' & Hx & _);
      [assumption|assumption|auto| |].
    - intros now now' q q' Hle Hm _ HP. destruct (mv_timing _ _ _ Hm) as [Ht|(Hlt & _ & _ & Ht)].
      + destruct HP as [HP|HP]; [left; congruence|right]. injection Ht as -> _ _ _. lia.
      + right. injection Ht as -> _ _ _. lia.
    - assert (p' = p1) as -> by congruence. destruct Hx; [contradiction|assumption]. }
  destruct (run_keeps (fun now q => timing_of q = timing_of p1 /\ p_end q <= now) (run w l1) l2 k p1)
    as (p' & Hp' & [Hx _] & _).
  - apply inv_run. assumption.
  - assumption.
  - auto.
  - intros now now' q q' Hle Hm _ [HP Hq]. destruct (mv_over _ _ _ Hm Hq) as [Ht _]. split; [congruence|].
    injection Ht as -> _ _ _. lia.
  - congruence.
Qed.

(** * C16 *)

Theorem C16_outcome_final w l k p :
  reachable w -> w_presales w !! k = Some p -> p_end p <= w_now w ->
  exists p', w_presales (run w l) !! k = Some p' /\
    timing_of p' = timing_of p /\ deposits_of p' = deposits_of p /\ terms_of p' = terms_of p /\
    p_end p' <= w_now (run w l) /\
    (succeeded p' (w_now (run w l)) <-> succeeded p (w_now w)) /\
    (failed p' (w_now (run w l)) <-> failed p (w_now w)).
Proof.
  intros Hw Hp Hov.
  destruct (run_keeps (fun now q => p_end q <= now /\ timing_of q = timing_of p /\
      deposits_of q = deposits_of p /\ terms_of q = terms_of p) w l k p) as (p' & Hp' & (H1 & H2 & H3 & H4) & Hn).
  - apply reachable_inv. assumption.
  - assumption.
  - auto.
  - intros now now' q q' Hle Hm _ (Hq & Q1 & Q2 & Q3). destruct (mv_over _ _ _ Hm Hq) as [Ht Hd].
    pose proof (mv_terms _ _ _ Hm). split; [|split; [congruence|split; congruence]].
    injection Ht as -> _ _ _. lia.
  - exists p'. split; [assumption|]. split; [assumption|]. split; [assumption|]. split; [assumption|].
    split; [assumption|].
    injection H3 as Hd _ _. injection H4. intros. unfold succeeded, failed.
    rewrite Hd. replace (p_min_cap p') with (p_min_cap p) by congruence. split; split; lia.
Qed.

(** * C17 *)

(** Only a deposit that fills the cap of a presale with early end enabled moves the timing, and it
    always does. *)
Theorem C17_early_end w o w' l k p p' :
  reachable w -> step w o = Ok (w', l) ->
  w_presales w !! k = Some p -> w_presales w' !! k = Some p' ->
  (timing_of p' <> timing_of p ->
     (exists qv qm ek pt payer pr mx h, o = IDeposit k qv qm ek pt payer pr mx h) /\
     can_end_early p /\ p_max_cap p <= p_deposit p') /\
  (forall qv qm ek pt payer pr mx h, o = IDeposit k qv qm ek pt payer pr mx h ->
     can_end_early p -> p_max_cap p <= p_deposit p' ->
     p_end p' = w_now w /\ p_end p' < p_end p /\
     p_vs p' = p_end p' + p_lock p /\ p_ve p' = p_vs p' + p_vest p /\
     p_lock p' = p_lock p /\ p_vest p' = p_vest p /\
     p_imm_ts p' - p_end p' = Z.max 0 (p_imm_ts p - p_end p)).
Proof.
  intros Hw Hs Hp Hp'. pose proof (reachable_inv _ Hw) as Hi.
  pose proof (step_does _ _ _ _ Hi Hs) as Hd.
  split.
  - intros Hne. destruct (presale_moves _ _ _ _ _ _ Hi Hs Hp) as (q & Hq & Hm).
    assert (q = p') as -> by congruence.
    destruct (mv_timing _ _ _ Hm) as [?|(_ & Hc & Hdep & _)]; [contradiction|].
    split; [|split; [assumption|lia]].
    destruct (does_presale _ _ _ _ k Hd) as
      [Hn|base bm0 qm0 pt cr pay bp qp a h0 p0 bm qm gross w1 lx Ho D Hnone Hn|owner idx cap p0 r Ho D Hn
      |qv qm ek pt payer pr mx h0 p0 p2 e r m amount fee gross w1 lx Ho D Hn
      |qv qm ek ot owner pr mx h0 p0 e r m amount w1 lx Ho D Hn
      |qv qm ek ot owner pr h0 p0 e r m w1 lx Ho D Hn|bv bm ek ot owner pr h0 p0 e r m w1 lx Ho D Hn
      |ek owner rr p0 e r Ho D Hn|ot owner pr h0 p0 m w1 lx Ho D Hn|qv qm rcv owner pr h0 p0 m w1 lx Ho D Hn
      |bv bm ct pr h0 p0 m w1 lx Ho D Hn].
    1: exfalso; apply Hne; congruence. 1: congruence. 2: eauto 10.
    all: exfalso; apply Hne; destruct D.
    all: same_p Hp.
    all: rewrite Hp' in Hn; injection Hn as ->; reflexivity.
  - intros qv qm ek pt payer pr mx h -> Hc Hfull. cbn in Hs.
    apply deposit_did in Hs; [|assumption].
    destruct Hs as (p0 & p2 & e & r & m & n & fee & gross & w1 & lx & D). destruct D.
    assert (p0 = p) as -> by congruence. subst w'. cbn in Hp'. rewrite lookup_insert in Hp'.
    injection Hp' as ->. unfold open_for_deposits in dd_open.
    assert (Hdep : p_deposit p' = p_deposit p + n).
    { destruct dd_end as [(_ & _ & ->)|(_ & ->)]; reflexivity. }
    assert (Hm1 : p_mode p <> 1) by (destruct Hc as [[? _]|[? _]]; lia).
    specialize (dd_cap Hm1).
    destruct dd_end as [(_ & _ & ->)|(Hno & _)].
    + cbn. repeat split; lia.
    + exfalso. apply Hno. split; [|lia]. unfold can_end_early, ends_early in *. tauto.
Qed.

(** * At most once *)

Lemma flag_stays (f : presale -> Z) w l k p :
  (forall now q q', moves now q q' -> f q <= f q') ->
  inv w -> w_presales w !! k = Some p -> f p = 1 ->
  exists p', w_presales (run w l) !! k = Some p' /\ 1 <= f p'.
Proof.
  intros Hf Hi Hp H1.
  destruct (run_keeps (fun _ q => 1 <= f q) w l k p Hi Hp) as (p' & ? & ? & _); [lia| |eauto].
  intros now now' q q' _ Hm _ HP. specialize (Hf _ _ _ Hm). lia.
Qed.

Theorem C06_creator_withdraws_once w k ot owner pr h w1 fx l ot' owner' pr' h' :
  reachable w -> step w (ICreatorWithdraw k ot owner pr h) = Ok (w1, fx) ->
  forall w2 fx2, step (run w1 l) (ICreatorWithdraw k ot' owner' pr' h') <> Ok (w2, fx2).
Proof.
  intros Hw Hs w2 fx2 Hs2. pose proof (reachable_inv _ Hw) as Hi. pose proof (inv_step _ _ _ _ Hi Hs) as Hi1.
  cbn in Hs. apply creator_did in Hs; [|assumption]. destruct Hs as (p & m & wx & lx & D). destruct D.
  destruct (flag_stays p_cwd w1 l k (set_p_cwd 1 p)) as (p' & Hp' & Hf).
  - intros ? ? ? Hm. apply (mv_flags _ _ _ Hm).
  - assumption.
  - subst w1. cbn. apply lookup_insert.
  - reflexivity.
  - cbn in Hs2. apply creator_did in Hs2; [|apply inv_run; assumption]. destruct Hs2 as (p2 & m2 & wx2 & lx2 & D2).
    destruct D2. assert (p2 = p') as -> by congruence. lia.
Qed.

Theorem C07_fee_collected_once w k qv qm rcv owner pr h w1 fx l qv' qm' rcv' owner' pr' h' :
  reachable w -> step w (ICollectFee k qv qm rcv owner pr h) = Ok (w1, fx) ->
  forall w2 fx2, step (run w1 l) (ICollectFee k qv' qm' rcv' owner' pr' h') <> Ok (w2, fx2).
Proof.
  intros Hw Hs w2 fx2 Hs2. pose proof (reachable_inv _ Hw) as Hi. pose proof (inv_step _ _ _ _ Hi Hs) as Hi1.
  cbn in Hs. apply fee_did in Hs; [|assumption]. destruct Hs as (p & m & wx & lx & D). destruct D.
  destruct (flag_stays p_fee_col w1 l k (set_p_fee_col 1 p)) as (p' & Hp' & Hf).
  - intros ? ? ? Hm. apply (mv_flags _ _ _ Hm).
  - assumption.
  - subst w1. cbn. apply lookup_insert.
  - reflexivity.
  - cbn in Hs2. apply fee_did in Hs2; [|apply inv_run; assumption]. destruct Hs2 as (p2 & m2 & wx2 & lx2 & D2).
    destruct D2. assert (p2 = p') as -> by congruence. lia.
Qed.

Theorem C08_unsold_once w k bv bm ct pr h w1 fx l bv' bm' ct' pr' h' :
  reachable w -> step w (IUnsold k bv bm ct pr h) = Ok (w1, fx) ->
  forall w2 fx2, step (run w1 l) (IUnsold k bv' bm' ct' pr' h') <> Ok (w2, fx2).
Proof.
  intros Hw Hs w2 fx2 Hs2. pose proof (reachable_inv _ Hw) as Hi. pose proof (inv_step _ _ _ _ Hi Hs) as Hi1.
  cbn in Hs. apply unsold_did in Hs; [|assumption]. destruct Hs as (p & m & wx & lx & D). destruct D.
  destruct (flag_stays p_unsold_done w1 l k (set_p_unsold_done 1 p)) as (p' & Hp' & Hf).
  - intros ? ? ? Hm. apply (mv_flags _ _ _ Hm).
  - assumption.
  - subst w1. cbn. apply lookup_insert.
  - reflexivity.
  - cbn in Hs2. apply unsold_did in Hs2; [|apply inv_run; assumption]. destruct Hs2 as (p2 & m2 & wx2 & lx2 & D2).
    destruct D2. assert (p2 = p') as -> by congruence. lia.
Qed.

(** * C34 *)

(** The escrow at [ek] of presale [k] can never be refunded again. *)
Definition settled (w : world) (k ek : addr) : Prop :=
  (exists p, w_presales w !! k = Some p /\ p_end p <= w_now w) /\
  (forall e, w_escrows w !! ek = Some e -> e_presale e = k /\ e_withdrawn e = 1) /\
  (forall k' owner idx, ek = PEscrow k' owner idx -> k' = k).

Lemma settled_step w o w' l k ek : inv w -> step w o = Ok (w', l) -> settled w k ek -> settled w' k ek.
Proof.
  intros Hi Hs ((p & Hp & Hov) & He & Hk). pose proof (step_does _ _ _ _ Hi Hs) as Hd.
  split; [|split; [|assumption]].
  - destruct (presale_moves _ _ _ _ _ _ Hi Hs Hp) as (p' & Hp' & Hm). exists p'. split; [assumption|].
    destruct (mv_over _ _ _ Hm Hov) as [Ht _]. injection Ht as -> _ _ _.
    destruct (does_now _ _ _ _ Hd) as [? _]. lia.
  - intros e' He'. destruct (does_escrow _ _ _ _ ek Hd) as
      [Hn|k0 owner idx cap p0 r Ho Hek D Hn
      |k0 qv qm pt payer pr mx h0 p0 p2 e r m amount fee gross w1 lx Ho D Hn
      |k0 qv qm ot owner pr mx h0 p0 e r m amount w1 lx Ho D Hn
      |k0 qv qm ot owner pr h0 p0 e r m w1 lx Ho D Hn|k0 bv bm ot owner pr h0 p0 e r m w1 lx Ho D Hn
      |k0 p0 e e1 r Ho D Hn|k0 owner rr p0 e r Ho D Hn].
    + apply He. congruence.
    + exfalso. specialize (Hk _ _ _ Hek). subst k0. destruct D. assert (p0 = p) as -> by congruence.
      unfold open_for_deposits in dc_open. lia.
    + destruct D. destruct (He _ dd_escrow) as [Hx Hy]. rewrite Hn in He'. injection He' as <-. auto.
    + destruct D. destruct (He _ dw_escrow) as [Hx Hy]. rewrite Hn in He'. injection He' as <-. auto.
    + destruct D. destruct (He _ dr_escrow) as [Hx Hy]. rewrite Hn in He'. injection He' as <-. auto.
    + destruct D. destruct (He _ dm_escrow) as [Hx Hy]. rewrite Hn in He'. injection He' as <-. auto.
    + destruct D. destruct (He _ df_escrow) as [Hx Hy]. rewrite Hn in He'. injection He' as <-.
      destruct df_what as [(_ & _ & ->)|(_ & ->)]; auto.
    + congruence.
Qed.
Lemma settled_run w l k ek : inv w -> settled w k ek -> settled (run w l) k ek.
Proof.
  revert w. induction l as [|o l IH]; intros w Hi Hs; [assumption|]. change (run w (o :: l)) with (run (exec w o) l). apply IH.
  - apply inv_exec. assumption.
  - unfold exec. destruct (step w o) as [[w' fx]|] eqn:Ho; [|assumption]. eapply settled_step; eassumption.
Qed.

Theorem C34_refund_once w k qv qm ek ot owner pr h w1 fx l k' qv' qm' ot' owner' pr' h' :
  reachable w -> step w (IWithdrawRemaining k qv qm ek ot owner pr h) = Ok (w1, fx) ->
  forall w2 fx2, step (run w1 l) (IWithdrawRemaining k' qv' qm' ek ot' owner' pr' h') <> Ok (w2, fx2).
Proof.
  intros Hw Hs w2 fx2 Hs2. pose proof (reachable_inv _ Hw) as Hi. pose proof (inv_step _ _ _ _ Hi Hs) as Hi1.
  cbn in Hs. apply refund_did in Hs; [|assumption]. destruct Hs as (p & e & r & m & wx & lx & D). destruct D.
  assert (Hst : settled w1 k ek).
  { rest_of dr_paid. subst w1. split; [|split].
    - eexists. cbn. split; [apply lookup_insert|]. cbn.
      rewrite Rnow. destruct dr_when as [[? _]|[[? _] _]]; assumption.
    - intros e' He'. cbn in He'. rewrite lookup_insert in He'. injection He' as <-. auto.
    - intros k0 o0 i0 ->. pose proof (s_key _ _ _ _ _ (at_esc _ _ _ _ _ _ dr_at)) as Hk.
      injection Hk. auto. }
  apply (settled_run _ l) in Hst; [|assumption]. destruct Hst as (_ & Hfl & _).
  cbn in Hs2. apply refund_did in Hs2; [|apply inv_run; assumption].
  destruct Hs2 as (p2 & e2 & r2 & m2 & wx2 & lx2 & D2). destruct D2.
  destruct (Hfl _ dr_escrow0). lia.
Qed.


(** * C35, C19: sums over a whole history *)

(** Tokens sent out of account [v] and received by it according to the effects of a transaction. *)
Definition sent_from (v : addr) (l : list fx) : Z :=
  lsum (fun x => match x with
    | FxTransfer src _ _ _ n _ => if decide (src = v) then n else 0
    | FxBurn src _ n => if decide (src = v) then n else 0
    | FxEvent _ => 0 end) l.
Definition received_by (v : addr) (l : list fx) : Z :=
  lsum (fun x => match x with
    | FxTransfer _ dst _ _ n fee => if decide (dst = v) then n - fee else 0
    | _ => 0 end) l.

(** Quote paid in for the escrow [ek], quote and base paid out for it, by one transaction. *)
Definition quote_in (ek : addr) (o : op) (l : list fx) : Z :=
  match o with
  | IDeposit k _ _ ek' _ _ _ _ _ => if decide (ek' = ek) then received_by (PQuoteVault k) l else 0
  | _ => 0 end.
Definition quote_out (ek : addr) (o : op) (l : list fx) : Z :=
  match o with
  | IWithdraw k _ _ ek' _ _ _ _ _ => if decide (ek' = ek) then sent_from (PQuoteVault k) l else 0
  | IWithdrawRemaining k _ _ ek' _ _ _ _ => if decide (ek' = ek) then sent_from (PQuoteVault k) l else 0
  | _ => 0 end.
Definition base_out (ek : addr) (o : op) (l : list fx) : Z :=
  match o with
  | IClaim k _ _ ek' _ _ _ _ => if decide (ek' = ek) then sent_from (PBaseVault k) l else 0
  | _ => 0 end.

(** Sum of [f] over the accepted transactions of a history. *)
Fixpoint lifetime (f : op -> list fx -> Z) (w : world) (l : list op) : Z :=
  match l with
  | [] => 0
  | o :: l => (match step w o with Ok (_, x) => f o x | Err _ => 0 end) + lifetime f (exec w o) l
  end.

Lemma lifetime_snoc f w l o :
  lifetime f w (l ++ [o]) =
  lifetime f w l + match step (run w l) o with Ok (_, x) => f o x | Err _ => 0 end.
Proof.
  revert w. induction l as [|a l IH]; intros w; cbn [app lifetime].
  - cbn. lia.
  - rewrite IH. change (run w (a :: l)) with (run (exec w a) l). lia.
Qed.
Lemma run_snoc w l o : run w (l ++ [o]) = exec (run w l) o.
Proof. unfold run. rewrite foldl_app. reflexivity. Qed.

Lemma sent_app v a b : sent_from v (a ++ b) = sent_from v a + sent_from v b.
Proof. apply lsum_app. Qed.
Lemma transfer_sent w pr src mk dst auth n ok w' l ev :
  tok_transfer w pr src mk dst auth n ok = Ok (w', l) -> sent_from src (l ++ [FxEvent ev]) = n.
Proof.
  intros Hx. apply tok_transfer_inv in Hx as (m & s & d & dl & _ & _ & _ & _ & _ & _ & _ & _ & _ & _ & Hc).
  destruct Hc as [(_ & _ & ->)|(_ & _ & _ & _ & ->)]; cbn; rewrite decide_True by reflexivity; lia.
Qed.
Lemma paid_sent w pr src mk dst n ok w' l ev :
  paid w pr src mk dst n ok w' l -> 0 <= n -> sent_from src (l ++ [FxEvent ev]) = n.
Proof. intros [[_ Hx]|(Hn & _ & ->)] H0; [eapply transfer_sent; eassumption|]. cbn. lia. Qed.

(** A user-signed transfer never debits a vault. *)
Lemma payer_not_vault w k p pr pt payer n ok w' l :
  inv w -> w_presales w !! k = Some p -> is_wallet payer = true ->
  tok_transfer w pr pt (p_qmint p) (PQuoteVault k) payer n ok = Ok (w', l) -> pt <> PQuoteVault k.
Proof.
  intros Hi Hp Hsg Htr ->. pose proof (i_presales _ Hi _ _ Hp) as Hok.
  apply tok_transfer_inv in Htr as (m & s & d & dl & Hm & Hsrc & _ & _ & _ & _ & _ & _ & _ & Hau & _).
  destruct (q_qvault _ _ _ Hok) as (v & Hv & _ & Hvo & [Hvd _] & _).
  destruct (q_qmint _ _ _ Hok) as (m' & Hm' & _ & Hsup). assert (m' = m) as -> by congruence.
  assert (s = v) as -> by congruence.
  unfold tok_authorize in Hau. rewrite (supported_no_delegate _ Hsup), Hvd, Hvo in Hau.
  bq Hau Hb. cbn in Hb. apply beq_addr_true in Hb. subst payer. discriminate.
Qed.

Lemma deposit_received w k pr pt mk payer n ok w' l m ev :
  tok_transfer w pr pt mk (PQuoteVault k) payer n ok = Ok (w', l) -> pt <> PQuoteVault k ->
  w_mints w !! mk = Some m ->
  received_by (PQuoteVault k) (l ++ [FxEvent ev]) = n - tok_fee m n.
Proof.
  intros Hx Hne Hm. rewrite (transfer_fx _ _ _ _ _ _ _ _ _ _ _ Hx Hm). cbn.
  rewrite !decide_True by reflexivity. rewrite decide_False by assumption. lia.
Qed.

(** The presale of escrow address [ek] has ended. *)
Definition presale_over (w : world) (ek : addr) : Prop :=
  exists k owner idx p, ek = PEscrow k owner idx /\ w_presales w !! k = Some p /\ p_end p <= w_now w.

Lemma presale_over_step w o w' l ek : inv w -> step w o = Ok (w', l) -> presale_over w ek -> presale_over w' ek.
Proof.
  intros Hi Hs (k & owner & idx & p & -> & Hp & Hov).
  destruct (presale_moves _ _ _ _ _ _ Hi Hs Hp) as (p' & Hp' & Hm). exists k, owner, idx, p'.
  split; [reflexivity|]. split; [assumption|]. destruct (mv_over _ _ _ Hm Hov) as [Ht _]. injection Ht as -> _ _ _.
  destruct (does_now _ _ _ _ (step_does _ _ _ _ Hi Hs)) as [? _]. lia.
Qed.

(** Balance sheet of one escrow: [d] is quote paid in minus quote paid out, [b] base paid out. *)
Definition sheet (w : world) (ek : addr) (d b : Z) : Prop :=
  0 <= d /\ 0 <= b /\
  match w_escrows w !! ek with
  | Some e => b = e_claimed e /\ (e_withdrawn e = 0 -> d = e_deposit e + e_fee e)
  | None => (d = 0 /\ b = 0) \/ presale_over w ek
  end.

Lemma sheet_step w o w' l ek d b :
  inv w -> step w o = Ok (w', l) -> sheet w ek d b ->
  sheet w' ek (d + quote_in ek o l - quote_out ek o l) (b + base_out ek o l).
Proof.
  intros Hi Hs (Hd0 & Hb0 & Hsh). pose proof (step_does _ _ _ _ Hi Hs) as Hd.
  assert (Hkeep : w_escrows w' !! ek = w_escrows w !! ek -> sheet w' ek d b).
  { intros Hn. split; [assumption|]. split; [assumption|]. rewrite Hn.
    destruct (w_escrows w !! ek); [assumption|]. destruct Hsh as [?|?]; [auto|right].
    eapply presale_over_step; eassumption. }
  unfold sheet.
  destruct Hd as
    [Henv Hsp Hnow|Haux _ _ Hes _ _ _
    |base bm0 qm0 pt cr pay bp qp a h0 k0 p0 bm qm gross w1 lx Ho D|k0 owner idx cap p0 r Ho D
    |k0 qv qm ek0 pt payer pr mx h0 p0 p2 e r m amount fee gross w1 lx Ho D
    |k0 qv qm ek0 ot owner pr mx h0 p0 e r m amount w1 lx Ho D
    |k0 qv qm ek0 ot owner pr h0 p0 e r m w1 lx Ho D|k0 bv bm ek0 ot owner pr h0 p0 e r m w1 lx Ho D
    |k0 ek0 p0 e e1 r Ho D|k0 ek0 owner rr p0 e r Ho D|k0 ot owner pr h0 p0 m w1 lx Ho D
    |k0 qv qm rcv owner pr h0 p0 m w1 lx Ho D
    |k0 bv bm ct pr h0 p0 m w1 lx Ho D].
  - assert (quote_in ek o l = 0 /\ quote_out ek o l = 0 /\ base_out ek o l = 0) as (-> & -> & ->)
      by (destruct o; try discriminate; auto).
    rewrite Z.sub_0_r, !Z.add_0_r. apply Hkeep. rewrite (sp_escrows _ _ Hsp). reflexivity.
  - assert (quote_in ek o l = 0 /\ quote_out ek o l = 0 /\ base_out ek o l = 0) as (-> & -> & ->)
      by (destruct o; try discriminate; auto).
    rewrite Z.sub_0_r, !Z.add_0_r. apply Hkeep. rewrite Hes. reflexivity.
  - subst o. cbn [quote_in quote_out base_out]. rewrite Z.sub_0_r, !Z.add_0_r. apply Hkeep.
    destruct D. rest_of di_transfer. subst w'. cbn in *. congruence.
  - assert (quote_in ek o l = 0 /\ quote_out ek o l = 0 /\ base_out ek o l = 0) as (-> & -> & ->)
      by (destruct o; try discriminate; auto).
    rewrite Z.sub_0_r, !Z.add_0_r. destruct (decide (ek = PEscrow k0 owner idx)) as [->|Hne].
    + destruct D. rewrite dc_new in Hsh. subst w'. cbn. rewrite lookup_insert. cbn.
      destruct Hsh as [(-> & ->)|(k1 & o1 & i1 & p1 & Hk & Hp1 & Hov)]; [repeat split; lia|].
      exfalso. injection Hk as <- <- <-. assert (p1 = p0) as -> by congruence.
      unfold open_for_deposits in dc_open. lia.
    + apply Hkeep. destruct D. subst w'. cbn. rewrite lookup_insert_ne by congruence. reflexivity.
  - subst o. cbn [quote_in quote_out base_out]. destruct (decide (ek0 = ek)) as [->|Hne].
    + destruct D. destruct dd_mint as [Hqm Hm]. subst qv qm.
      pose proof (payer_not_vault _ _ _ _ _ _ _ _ _ _ Hi dd_presale dd_signed dd_transfer) as Hpt.
      rewrite dd_fx, (deposit_received _ _ _ _ _ _ _ _ _ _ m _ dd_transfer Hpt Hm).
      rewrite dd_escrow in Hsh. destruct Hsh as [-> Hsh]. subst w'. cbn. rewrite lookup_insert. cbn.
      split; [lia|]. split; [lia|]. split; [lia|]. intros Hx. specialize (Hsh Hx). lia.
    + rewrite Z.sub_0_r, !Z.add_0_r. apply Hkeep. destruct D. rest_of dd_transfer. subst w'. cbn.
      rewrite lookup_insert_ne by congruence. congruence.
  - subst o. cbn [quote_in quote_out base_out]. destruct (decide (ek0 = ek)) as [->|Hne].
    + destruct D. destruct dw_mint as [Hqm Hm]. subst qv qm.
      rewrite dw_fx, (transfer_sent _ _ _ _ _ _ _ _ _ _ _ dw_transfer).
      rewrite dw_escrow in Hsh. destruct Hsh as [-> Hsh]. subst w'. cbn. rewrite lookup_insert. cbn.
      assert (Hz : e_withdrawn e = 0).
      { destruct (f_esc _ _ _ (a_fresh _ _ _ _ (at_acct _ _ _ _ _ _ dw_at) ltac:(apply dw_open)) _ _ dw_escrow dw_link)
          as (_ & _ & ?). assumption. }
      specialize (Hsh Hz). pose proof (s_fee _ _ _ _ _ (at_esc _ _ _ _ _ _ dw_at)).
      split; [lia|]. split; [lia|]. split; [lia|]. intros Hx. lia.
    + rewrite Z.sub_0_r, !Z.add_0_r. apply Hkeep. destruct D. rest_of dw_transfer. subst w'. cbn.
      rewrite lookup_insert_ne by congruence. congruence.
  - subst o. cbn [quote_in quote_out base_out]. destruct (decide (ek0 = ek)) as [->|Hne].
    + destruct D. subst qv. rewrite dr_fx, (paid_sent _ _ _ _ _ _ _ _ _ _ dr_paid) by lia.
      rewrite dr_escrow in Hsh. destruct Hsh as [-> Hsh]. subst w'. cbn. rewrite lookup_insert. cbn.
      specialize (Hsh dr_once). split; [lia|]. split; [lia|]. split; [lia|]. intros Hx. discriminate.
    + rewrite Z.sub_0_r, !Z.add_0_r. apply Hkeep. destruct D. rest_of dr_paid. subst w'. cbn.
      rewrite lookup_insert_ne by congruence. congruence.
  - subst o. cbn [quote_in quote_out base_out]. destruct (decide (ek0 = ek)) as [->|Hne].
    + destruct D. subst bv. rewrite dm_fx, (paid_sent _ _ _ _ _ _ _ _ _ _ dm_paid) by lia.
      rewrite dm_escrow in Hsh. destruct Hsh as [-> Hsh].
      destruct dm_world as (p2 & e2 & -> & -> & _). cbn. rewrite lookup_insert. cbn.
      split; [lia|]. split; [lia|]. split; [lia|]. intros Hx. specialize (Hsh Hx). lia.
    + rewrite Z.sub_0_r, !Z.add_0_r. apply Hkeep. destruct D. rest_of dm_paid.
      destruct dm_world as (p2 & e2 & -> & _). cbn. rewrite lookup_insert_ne by congruence. congruence.
  - subst o. cbn [quote_in quote_out base_out]. rewrite Z.sub_0_r, !Z.add_0_r.
    destruct (decide (ek0 = ek)) as [->|Hne].
    + destruct D. rewrite df_escrow in Hsh. destruct Hsh as [-> Hsh]. subst w'. cbn. rewrite lookup_insert.
      destruct df_what as [(_ & _ & ->)|(_ & ->)]; cbn; auto.
    + apply Hkeep. destruct D. subst w'. cbn. rewrite lookup_insert_ne by congruence. reflexivity.
  - subst o. cbn [quote_in quote_out base_out]. rewrite Z.sub_0_r, !Z.add_0_r.
    destruct (decide (ek0 = ek)) as [->|Hne].
    + destruct D. rewrite dx_escrow in Hsh. destruct Hsh as [-> Hsh].
      pose proof (s_key _ _ _ _ _ (at_esc _ _ _ _ _ _ dx_at)) as Hk.
      split; [lia|]. split; [lia|]. subst w'. cbn [w_escrows put_escrows]. rewrite lookup_delete.
      destruct dx_settled as [(Ho & Hz1 & Hz2)|Hov].
      * left. destruct (f_esc _ _ _ (a_fresh _ _ _ _ (at_acct _ _ _ _ _ _ dx_at) ltac:(apply Ho)) _ _ dx_escrow dx_link)
          as (? & _ & Hz). specialize (Hsh Hz). lia.
      * right. exists k0, (e_owner e), (e_idx e). eexists. split; [assumption|]. cbn.
        split; [apply lookup_insert|]. cbn. destruct Hov as [[[? _] _]|[[? _] _]]; assumption.
    + apply Hkeep. destruct D. subst w'. cbn. rewrite lookup_delete_ne by congruence. reflexivity.
  - subst o. cbn [quote_in quote_out base_out]. rewrite Z.sub_0_r, !Z.add_0_r. apply Hkeep. destruct D.
    destruct dcw_what as [(_ & _ & Ht & _)|(_ & _ & Ht & _)]; rest_of Ht; subst w'; cbn; congruence.
  - subst o. cbn [quote_in quote_out base_out]. rewrite Z.sub_0_r, !Z.add_0_r. apply Hkeep. destruct D.
    rest_of dfe_paid; subst w'; cbn; congruence.
  - subst o. cbn [quote_in quote_out base_out]. rewrite Z.sub_0_r, !Z.add_0_r. apply Hkeep. destruct D.
    destruct du_what as [(_ & Ht)|(_ & Ht)]; rest_of Ht; subst w'; cbn; congruence.
Qed.

Lemma sheet_run l ek :
  sheet (run genesis l) ek
    (lifetime (quote_in ek) genesis l - lifetime (quote_out ek) genesis l)
    (lifetime (base_out ek) genesis l).
Proof.
  induction l as [|o l IH] using rev_ind.
  - split; [reflexivity|]. split; [reflexivity|]. cbn. rewrite lookup_empty. left. auto.
  - rewrite run_snoc, !lifetime_snoc. unfold exec.
    destruct (step (run genesis l) o) as [[w' x]|] eqn:Hs.
    + pose proof (sheet_step _ _ _ _ ek _ _ (reachable_inv _ (ex_intro _ l eq_refl)) Hs IH) as Hx.
      replace (lifetime (quote_in ek) genesis l + quote_in ek o x -
        (lifetime (quote_out ek) genesis l + quote_out ek o x)) with
        (lifetime (quote_in ek) genesis l - lifetime (quote_out ek) genesis l + quote_in ek o x - quote_out ek o x)
        by lia. exact Hx.
    + rewrite !Z.add_0_r. exact IH.
Qed.

(** Quote: never more out than in; while the escrow is open and not refunded the difference is
    exactly its recorded deposit and fees. *)
Theorem C35_quote_lifetime l ek :
  lifetime (quote_out ek) genesis l <= lifetime (quote_in ek) genesis l /\
  forall e, w_escrows (run genesis l) !! ek = Some e -> e_withdrawn e = 0 ->
    lifetime (quote_in ek) genesis l - lifetime (quote_out ek) genesis l = e_deposit e + e_fee e.
Proof.
  destruct (sheet_run l ek) as (H0 & _ & Hs). split; [lia|]. intros e He. rewrite He in Hs. apply Hs.
Qed.

(** Base: exactly what the escrow recorded as claimed, never more than its final entitlement. *)
Theorem C35_base_lifetime l ek e :
  w_escrows (run genesis l) !! ek = Some e ->
  lifetime (base_out ek) genesis l = e_claimed e /\
  exists p r, w_presales (run genesis l) !! e_presale e = Some p /\
    p_regs p !! Z.to_nat (e_idx e) = Some r /\ e_claimed e <= final p r (e_deposit e).
Proof.
  intros He. destruct (sheet_run l ek) as (_ & _ & Hs). rewrite He in Hs. split; [apply Hs|].
  pose proof (reachable_inv _ (ex_intro _ l eq_refl)) as Hi.
  destruct (i_escrows _ Hi _ _ He) as [p Hp].
  destruct (at_exists _ _ _ _ _ Hi Hp He eq_refl) as [r Hr0]. pose proof (at_intro _ _ _ _ _ _ Hi Hp He eq_refl Hr0) as Hat.
  exists p, r. split; [assumption|]. split; [exact Hr0|].
  pose proof (at_esc _ _ _ _ _ _ Hat) as He'. pose proof Hr0 as Hr.
  destruct (s_reg _ _ _ _ _ He' _ Hr) as (_ & _ & Hc). pose proof (s_pending _ _ _ _ _ He').
  pose proof (s_deposit _ _ _ _ _ He') as [Hd _].
  destruct (b_nonneg _ _ _ (at_books _ _ _ _ _ _ Hat) _ _ Hr) as (Hrd & _).
  pose proof (entitled_le_final _ _ _ _ _ (w_now (run genesis l)) (at_cfg _ _ _ _ _ _ Hat) Hr Hrd Hd). lia.
Qed.

(** Once the escrow is closed nothing more is ever paid: the lifetime total is the one of an
    earlier moment at which the escrow existed. *)
Theorem C35_base_closed l ek :
  lifetime (base_out ek) genesis l = 0 \/
  exists l1 l2 e, l = l1 ++ l2 /\ w_escrows (run genesis l1) !! ek = Some e /\
    lifetime (base_out ek) genesis l = lifetime (base_out ek) genesis l1.
Proof.
  induction l as [|o l IH] using rev_ind; [left; reflexivity|].
  rewrite lifetime_snoc.
  assert (Hz : match step (run genesis l) o with Ok (_, x) => base_out ek o x | Err _ => 0 end = 0 \/
    exists e, w_escrows (exec (run genesis l) o) !! ek = Some e).
  { unfold exec. destruct (step (run genesis l) o) as [[w' x]|] eqn:Hs; [|auto].
    destruct o; try (left; reflexivity). cbn [base_out]. destruct (decide (escrow = ek)) as [->|]; [|auto].
    right. cbn in Hs. apply claim_did in Hs; [|apply reachable_inv; exists l; reflexivity].
    destruct Hs as (p & e & r & m & w1 & lx & D). destruct D. destruct dm_world as (p2 & e2 & -> & _).
    eexists. cbn. apply lookup_insert. }
  destruct Hz as [Hz|[e He]].
  - rewrite Hz, Z.add_0_r. destruct IH as [IH|(l1 & l2 & e & -> & He & Heq)]; [auto|right].
    exists l1, (l2 ++ [o]), e. rewrite app_assoc. auto.
  - right. exists (l ++ [o]), [], e. rewrite app_nil_r. split; [reflexivity|]. rewrite run_snoc.
    split; [assumption|]. rewrite lifetime_snoc. reflexivity.
Qed.

(** C19: whatever happened before, right after a claim the owner has received exactly the
    entitlement at that time. *)
Theorem C19_claim_history l k bv bm ek ot owner pr h w' x :
  step (run genesis l) (IClaim k bv bm ek ot owner pr h) = Ok (w', x) ->
  exists p e r, w_presales (run genesis l) !! k = Some p /\ w_escrows (run genesis l) !! ek = Some e /\
    p_regs p !! Z.to_nat (e_idx e) = Some r /\
    lifetime (base_out ek) genesis (l ++ [IClaim k bv bm ek ot owner pr h])
      = entitled p r (e_deposit e) (w_now (run genesis l)).
Proof.
  intros Hs. rewrite lifetime_snoc, Hs. cbn [base_out]. rewrite decide_True by reflexivity.
  cbn in Hs. apply claim_did in Hs; [|apply reachable_inv; exists l; reflexivity].
  destruct Hs as (p & e & r & m & w1 & lx & D). destruct D. exists p, e, r.
  split; [assumption|]. split; [assumption|]. split; [assumption|].
  subst bv. rewrite dm_fx, (paid_sent _ _ _ _ _ _ _ _ _ _ dm_paid) by assumption.
  destruct (C35_base_lifetime l ek e dm_escrow) as [-> _]. unfold due. lia.
Qed.

End WithCrypto.

(** Non-vacuity. *)
#[local] Existing Instance toy.
Example C15_example : exists p, w_presales w_fc_open !! k1 = Some p /\ p_end p = 2000 /\
  exists p', w_presales (run w_fc_open [EClock 1200; dep bob bob_q bob 0 9999]) !! k1 = Some p' /\ p_end p' = 1200.
Proof.
  eexists. split. { vm_compute. reflexivity. } split; [reflexivity|].
  eexists. split. { vm_compute. reflexivity. } reflexivity.
Qed.
Example C16_example : exists p, w_presales w_ff_over !! k1 = Some p /\ p_end p <= w_now w_ff_over /\
  failed p (w_now w_ff_over) /\ p_deposit p = 400.
Proof.
  eexists. split. { vm_compute. reflexivity. } vm_compute. repeat split; discriminate.
Qed.
Example C17_example : ok_step (after w_fc_open (EClock 1200)) (dep bob bob_q bob 0 9999) = true /\
  exists p, w_presales w_fc_open !! k1 = Some p /\ can_end_early p /\ timing_of p = (2000, 2100, 2050, 2250) /\
  exists p', w_presales w_fc_over !! k1 = Some p' /\ p_deposit p' = p_max_cap p /\
    timing_of p' = (1200, 1300, 1250, 1450).
Proof.
  split. { vm_compute. reflexivity. } eexists. split. { vm_compute. reflexivity. }
  split. { left. vm_compute. auto. } split; [reflexivity|].
  eexists. split. { vm_compute. reflexivity. } vm_compute. auto.
Qed.
Example C06_once_example : ok_step w_pr_over cw = true /\ ok_step (after w_pr_over cw) cw = false.
Proof. vm_compute. auto. Qed.
Example C07_once_example : ok_step w_pr_over cf = true /\ ok_step (after w_pr_over cf) cf = false.
Proof. vm_compute. auto. Qed.
Example C08_once_example : ok_step w_fx_over us = true /\ ok_step (after w_fx_over us) us = false.
Proof. vm_compute. auto. Qed.
Example C34_example : ok_step w_pr_over (refund alice alice_q 0) = true /\
  ok_step (after w_pr_over (refund alice alice_q 0)) (refund alice alice_q 0) = false.
Proof. vm_compute. auto. Qed.
Example C35_example :
  lifetime (quote_in (esc alice 0)) genesis pr_paid = 809 /\
  lifetime (quote_out (esc alice 0)) genesis pr_paid = 318 /\
  lifetime (base_out (esc alice 0)) genesis pr_paid = 2777.
Proof. vm_compute. auto. Qed.
(** Claiming once or many times gives the same total. *)
Example C19_example :
  lifetime (base_out (esc bob 0)) genesis
    (pr_over ++ [getb bob bob_b 0; IRefresh k1 (esc bob 0); EClock 2080; getb bob bob_b 0; EClock 2085; getb bob bob_b 0])
  = lifetime (base_out (esc bob 0)) genesis (pr_over ++ [EClock 2085; getb bob bob_b 0]) /\
  0 < lifetime (base_out (esc bob 0)) genesis (pr_over ++ [EClock 2085; getb bob bob_b 0]).
Proof. vm_compute. auto. Qed.
