(** C84: when a reached minimum is safe.  C85: by when everything is decided and released. *)
From Coq Require Import Lia.
From Verif Require Import Base Math State Handlers Token World Instr Exec Tactics Sums Spec Arith
  TokenFacts Inv Acct Funs Steps Init Preserve Reach Did Trans Flow Scenario P_Solvency P_Access
  P_History P_Arith P_Config.

Section WithCrypto.
Context `{Crypto}.

(** * C84 *)

Lemma step_deposit w o w' l k p :
  inv w -> step w o = Ok (w', l) -> w_presales w !! k = Some p ->
  exists p', w_presales w' !! k = Some p' /\
    (p_deposit p <= p_deposit p' \/
     (withdrawals_on p /\ exists qv qm ek ot owner pr mx h, o = IWithdraw k qv qm ek ot owner pr mx h /\
        buyer_signs w k ek owner)).
Proof.
  intros Hi Hs Hp.
  destruct (does_presale _ _ _ _ k (step_does _ _ _ _ Hi Hs)) as
    [Hn|base bm0 qm0 pt cr pay bp qp a h0 p0 bm qm gross w1 lx Ho D Hnone Hn|owner idx cap p0 r Ho D Hn
    |qv qm ek pt payer pr mx h0 p0 p2 e r m amount fee gross w1 lx Ho D Hn
    |qv qm ek ot owner pr mx h0 p0 e r m amount w1 lx Ho D Hn
    |qv qm ek ot owner pr h0 p0 e r m w1 lx Ho D Hn|bv bm ek ot owner pr h0 p0 e r m w1 lx Ho D Hn
    |ek owner rr p0 e r Ho D Hn|ot owner pr h0 p0 m w1 lx Ho D Hn|qv qm rcv owner pr h0 p0 m w1 lx Ho D Hn
    |bv bm ct pr h0 p0 m w1 lx Ho D Hn].
  1: { exists p. split; [congruence|left; lia]. }
  1: congruence.
  all: destruct D.
  all: same_p Hp.
  all: eexists; (split; [exact Hn|]).
  3: { right. split; [assumption|]. eexists _, _, _, _, _, _, _, _. split; [exact Ho|].
       split; [assumption|]. exists e. auto. }
  all: left; try (cbn; lia).
  destruct dd_end as [(_ & _ & ->)|(_ & ->)]; cbn; lia.
Qed.

(** Whether withdrawals are possible is a term of the presale. *)
Lemma withdrawals_terms p q : terms_of q = terms_of p -> withdrawals_on q <-> withdrawals_on p.
Proof.
  intros Ht. unfold withdrawals_on. unfold terms_of in Ht. injection Ht. intros.
  replace (p_mode q) with (p_mode p) by congruence. replace (p_raw1 q) with (p_raw1 p) by congruence. reflexivity.
Qed.

(** Without withdrawals the deposits only grow. *)
Theorem C84_deposits_only_grow w l k p :
  reachable w -> w_presales w !! k = Some p -> ~ withdrawals_on p ->
  exists p', w_presales (run w l) !! k = Some p' /\ p_deposit p <= p_deposit p' /\ terms_of p' = terms_of p.
Proof.
  intros Hw Hp Hno. apply reachable_inv in Hw. revert w p Hw Hp Hno.
  induction l as [|o l IH]; intros w p Hi Hp Hno.
  - exists p. split; [assumption|]. split; [lia|reflexivity].
  - change (run w (o :: l)) with (run (exec w o) l).
    assert (Hx : exists p1, w_presales (exec w o) !! k = Some p1 /\ p_deposit p <= p_deposit p1 /\ terms_of p1 = terms_of p).
    { unfold exec. destruct (step w o) as [[w' fx]|] eqn:Hs.
      - destruct (step_deposit _ _ _ _ _ _ Hi Hs Hp) as (p1 & Hp1 & Hd).
        destruct (presale_moves _ _ _ _ _ _ Hi Hs Hp) as (p2 & Hp2 & Hm). assert (p2 = p1) as -> by congruence.
        exists p1. split; [assumption|]. split; [|apply (mv_terms _ _ _ Hm)].
        destruct Hd as [?|[? _]]; [assumption|contradiction].
      - exists p. split; [assumption|]. split; [lia|reflexivity]. }
    destruct Hx as (p1 & Hp1 & Hd1 & Ht1).
    destruct (IH (exec w o) p1 (inv_exec _ _ Hi) Hp1) as (p2 & Hp2 & Hd2 & Ht2).
    { rewrite (withdrawals_terms _ _ Ht1). assumption. }
    exists p2. split; [assumption|]. split; [lia|congruence].
Qed.

(** Once such a presale has its minimum it cannot fail any more. *)
Theorem C84_minimum_secured w l k p :
  reachable w -> w_presales w !! k = Some p -> ~ withdrawals_on p -> p_min_cap p <= p_deposit p ->
  exists p', w_presales (run w l) !! k = Some p' /\ ~ failed p' (w_now (run w l)) /\
    (p_end p' <= w_now (run w l) -> succeeded p' (w_now (run w l))).
Proof.
  intros Hw Hp Hno Hmin. destruct (C84_deposits_only_grow w l k p Hw Hp Hno) as (p' & Hp' & Hd & Ht).
  exists p'. unfold terms_of in Ht. injection Ht. intros. unfold failed, succeeded.
  replace (p_min_cap p') with (p_min_cap p) by congruence. split; [assumption|]. split; lia.
Qed.

(** In any presale, only withdrawals signed by the owners of escrows can undo a reached minimum. *)
Theorem C84_only_withdrawals_undo w l k p p' :
  reachable w -> w_presales w !! k = Some p -> w_presales (run w l) !! k = Some p' ->
  p_deposit p' < p_deposit p ->
  exists l1 o l2 w2 fx qv qm ek ot owner pr mx h, l = l1 ++ o :: l2 /\
    o = IWithdraw k qv qm ek ot owner pr mx h /\ step (run w l1) o = Ok (w2, fx) /\
    buyer_signs (run w l1) k ek owner /\ withdrawals_on p.
Proof.
  intros Hw Hp. apply reachable_inv in Hw. revert w p Hw Hp.
  induction l as [|o l IH]; intros w p Hi Hp Hp' Hlt.
  - cbn in Hp'. assert (p' = p) as -> by congruence. lia.
  - change (run w (o :: l)) with (run (exec w o) l) in Hp'.
    destruct (exec_moves w o k p Hi Hp) as (p1 & Hp1 & Hm).
    destruct (Z.le_gt_cases (p_deposit p) (p_deposit p1)) as [Hle|Hgt].
    + destruct (IH (exec w o) p1 (inv_exec _ _ Hi) Hp1 Hp' ltac:(lia)) as
        (l1 & o' & l2 & w2 & fx & qv & qm & ek & ot & owner & pr & mx & h & -> & Ho & Hs & Hb & Hon).
      exists (o :: l1), o', l2, w2, fx, qv, qm, ek, ot, owner, pr, mx, h.
      split; [reflexivity|]. split; [assumption|]. split; [assumption|]. split; [assumption|].
      rewrite <- (withdrawals_terms _ _ (mv_terms _ _ _ Hm)). assumption.
    + unfold exec in Hp1. destruct (step w o) as [[w' fx]|] eqn:Hs.
      * destruct (step_deposit _ _ _ _ _ _ Hi Hs Hp) as (p2 & Hp2 & Hd). assert (p2 = p1) as -> by congruence.
        destruct Hd as [?|(Hon & qv & qm & ek & ot & owner & pr & mx & h & Ho & Hb)]; [lia|].
        exists [], o, l, w', fx, qv, qm, ek, ot, owner, pr, mx, h.
        split; [reflexivity|]. split; [assumption|]. split; [assumption|]. split; assumption.
      * assert (p1 = p) as -> by congruence. lia.
Qed.

(** A presale that ends early is over, successfully, as soon as it is full; that cannot be undone,
    withdrawals or not. *)
Theorem C84_full_is_final w k p :
  reachable w -> w_presales w !! k = Some p -> ends_early p -> p_max_cap p <= p_deposit p ->
  succeeded p (w_now w) /\
  forall l, exists p', w_presales (run w l) !! k = Some p' /\ succeeded p' (w_now (run w l)) /\
    p_deposit p' = p_deposit p.
Proof.
  intros Hw Hp He Hfull.
  assert (Hend : p_end p <= w_now w).
  { destruct Hw as [l ->]. revert p Hp He Hfull. induction l as [|o l IH] using rev_ind; intros p Hp He Hfull.
    - cbn in Hp. rewrite lookup_empty in Hp. discriminate.
    - rewrite run_snoc in *. set (w := run genesis l) in *.
      assert (Hw : reachable w) by (exists l; reflexivity). pose proof (reachable_inv _ Hw) as Hi.
      pose proof (exec_now w o Hi) as Hnow. unfold exec in *. destruct (step w o) as [[w' fx]|] eqn:Hs; [|auto].
      destruct (w_presales w !! k) as [q|] eqn:Hq.
      + destruct (presale_moves _ _ _ _ _ _ Hi Hs Hq) as (p1 & Hp1 & Hm). assert (p1 = p) as -> by congruence.
        assert (Heq : ends_early q /\ p_max_cap q = p_max_cap p).
        { pose proof (mv_terms _ _ _ Hm) as Ht. unfold terms_of in Ht. injection Ht. intros. unfold ends_early in *.
          replace (p_mode q) with (p_mode p) by congruence. replace (p_raw0 q) with (p_raw0 p) by congruence.
          replace (p_raw1 q) with (p_raw1 p) by congruence. auto. }
        destruct Heq as [Heq Hmx].
        destruct (Z.le_gt_cases (p_max_cap q) (p_deposit q)) as [Hle|Hgt].
        * specialize (IH q eq_refl Heq Hle). destruct (mv_over _ _ _ Hm IH) as [Ht _]. injection Ht. intros. lia.
        * destruct (does_presale _ _ _ _ k (step_does _ _ _ _ Hi Hs)) as
            [Hn|base bm0 qm0 pt cr pay bp qp a h0 p0 bm qm gross w1 lx Ho D Hnone Hn|owner idx cap p0 r Ho D Hn
            |qv qm ek pt payer pr mx h0 p0 p2 e r m amount fee gross w1 lx Ho D Hn
            |qv qm ek ot owner pr mx h0 p0 e r m amount w1 lx Ho D Hn
            |qv qm ek ot owner pr h0 p0 e r m w1 lx Ho D Hn|bv bm ek ot owner pr h0 p0 e r m w1 lx Ho D Hn
            |ek owner rr p0 e r Ho D Hn|ot owner pr h0 p0 m w1 lx Ho D Hn|qv qm rcv owner pr h0 p0 m w1 lx Ho D Hn
            |bv bm ct pr h0 p0 m w1 lx Ho D Hn].
          3: { destruct D. same_p Hq. rewrite Hp in Hn. injection Hn as ->. cbn in Hfull. cbn in Hmx. lia. }
          3: { destruct (C17_early_end _ _ _ _ k q p Hw Hs Hq Hp) as [_ Hearly].
               destruct (Hearly _ _ _ _ _ _ _ _ Ho) as [-> _]; [unfold can_end_early, ends_early in *; tauto|lia|lia]. }
          all: exfalso.
          1: { assert (q = p) as -> by congruence. lia. }
          1: congruence.
          all: destruct D; same_p Hq; rewrite Hp in Hn; injection Hn as ->; cbn in Hfull, Hmx; lia.
      + destruct (does_presale _ _ _ _ k (step_does _ _ _ _ Hi Hs)) as
          [Hn|base bm0 qm0 pt cr pay bp qp a h0 p0 bm qm gross w1 lx Ho D Hnone Hn|owner idx cap p0 r Ho D Hn
          |qv qm ek pt payer pr mx h0 p0 p2 e r m amount fee gross w1 lx Ho D Hn
          |qv qm ek ot owner pr mx h0 p0 e r m amount w1 lx Ho D Hn
          |qv qm ek ot owner pr h0 p0 e r m w1 lx Ho D Hn|bv bm ek ot owner pr h0 p0 e r m w1 lx Ho D Hn
          |ek owner rr p0 e r Ho D Hn|ot owner pr h0 p0 m w1 lx Ho D Hn|qv qm rcv owner pr h0 p0 m w1 lx Ho D Hn
          |bv bm ct pr h0 p0 m w1 lx Ho D Hn].
        1: congruence.
        1: { destruct D. assert (p0 = p) as -> by congruence. destruct di_presale.
             pose proof (c_caps _ _ n_cfg). destruct n_zero as (? & _). lia. }
        all: destruct D; congruence. }
  pose proof (c_caps _ _ (q_cfg _ _ _ (i_presales _ (reachable_inv _ Hw) _ _ Hp))) as Hcaps.
  assert (Hsu : succeeded p (w_now w)) by (split; lia). split; [assumption|]. intros l.
  destruct (C16_outcome_final w l k p Hw Hp Hend) as (p' & Hp' & _ & Hdep & _ & _ & Hiff & _).
  exists p'. split; [assumption|]. split; [tauto|]. injection Hdep. intros. assumption.
Qed.

(** * C85 *)

Lemma deadlines w k p : reachable w -> w_presales w !! k = Some p ->
  p_created p <= w_now w /\ p_created p <= p_start p <= p_created p + 30 * day /\
  p_end p <= p_start p + 30 * day.
Proof.
  intros [l ->]. revert p. induction l as [|o l IH] using rev_ind; intros p Hp.
  - cbn in Hp. rewrite lookup_empty in Hp. discriminate.
  - rewrite run_snoc in *. set (w := run genesis l) in *.
    assert (Hw : reachable w) by (exists l; reflexivity). pose proof (reachable_inv _ Hw) as Hi.
    pose proof (exec_now w o Hi) as Hnow.
    destruct (w_presales w !! k) as [q|] eqn:Hq.
    + specialize (IH q eq_refl). destruct (exec_moves w o k q Hi Hq) as (p1 & Hp1 & Hm).
      assert (p1 = p) as -> by congruence.
      pose proof (mv_terms _ _ _ Hm) as Ht. unfold terms_of in Ht. injection Ht. intros.
      replace (p_created p) with (p_created q) by congruence. replace (p_start p) with (p_start q) by congruence.
      destruct (mv_timing _ _ _ Hm) as [Hx|(Hlt & _ & _ & Hx)]; injection Hx; intros; lia.
    + unfold exec in *. destruct (step w o) as [[w' fx]|] eqn:Hs; [|congruence].
      destruct (does_presale _ _ _ _ k (step_does _ _ _ _ Hi Hs)) as
        [Hn|base bm0 qm0 pt cr pay bp qp a h0 p0 bm qm gross w1 lx Ho D Hnone Hn|owner idx cap p0 r Ho D Hn
        |qv qm ek pt payer pr mx h0 p0 p2 e r m amount fee gross w1 lx Ho D Hn
        |qv qm ek ot owner pr mx h0 p0 e r m amount w1 lx Ho D Hn
        |qv qm ek ot owner pr h0 p0 e r m w1 lx Ho D Hn|bv bm ek ot owner pr h0 p0 e r m w1 lx Ho D Hn
        |ek owner rr p0 e r Ho D Hn|ot owner pr h0 p0 m w1 lx Ho D Hn|qv qm rcv owner pr h0 p0 m w1 lx Ho D Hn
        |bv bm ct pr h0 p0 m w1 lx Ho D Hn].
      1: congruence.
      1: { destruct D. assert (p0 = p) as -> by congruence. destruct di_presale. unfold day. lia. }
      all: destruct D; congruence.
Qed.

(** Sixty days after its creation a presale is decided, and what can be claimed is fixed. *)
Theorem C85_decided w k p :
  reachable w -> w_presales w !! k = Some p -> p_created p + 60 * day <= w_now w ->
  succeeded p (w_now w) \/ failed p (w_now w).
Proof.
  intros Hw Hp Hn. pose proof (deadlines w k p Hw Hp). unfold succeeded, failed, day in *. lia.
Qed.

(** Ten years and sixty days after its creation every entitlement is the whole one, whatever the lock
    and vesting terms, and whatever happens later. *)
Theorem C85_released w k p ek e r :
  reachable w -> w_presales w !! k = Some p -> w_escrows w !! ek = Some e -> e_presale e = k ->
  p_regs p !! Z.to_nat (e_idx e) = Some r -> p_created p + 60 * day + 10 * year <= w_now w ->
  entitled p r (e_deposit e) (w_now w) = final p r (e_deposit e).
Proof.
  intros Hw Hp He Hk Hr Hn. pose proof (reachable_inv _ Hw) as Hi.
  pose proof (at_intro _ _ _ _ _ _ Hi Hp He Hk Hr) as Hat. pose proof (at_cfg _ _ _ _ _ _ Hat) as Hc.
  pose proof (deadlines w k p Hw Hp) as Hd.
  apply (entitled_final k p (Z.to_nat (e_idx e)) r _ _ Hc Hr).
  - destruct (reg_u64 k p _ (at_books _ _ _ _ _ _ Hat) _ _ Hr) as [? _]. pose proof (at_reg _ _ _ _ _ _ Hat). lia.
  - destruct (c_vs _ _ Hc) as [[? ?]|(? & ? & ? & ? & ?)]; pose proof (c_lockvest _ _ Hc); pose proof (i_now _ Hi);
      unfold year, day in *; lia.
Qed.

End WithCrypto.

(** * Examples *)

#[local] Existing Instance toy.

Definition pget (w : world) : option presale := w_presales w !! k1.
Definition undo : list op := [
  back alice alice_q 0 750; back bob bob_q 0 600; back carol carol_q 1 201; EClock 2050 ].

(** With withdrawals open a reached minimum can be taken back: the prorata presale of the scenario has
    raised fifteen times its minimum, the buyers withdraw before the end, and it fails. *)
Lemma undo_undoes : match w_presales w_pr_open !! k1, w_presales (run w_pr_open undo) !! k1 with
  | Some p, Some q => (w_now w_pr_open <? p_end p) && (p_min_cap p <=? p_deposit p) &&
      (p_end q <=? w_now (run w_pr_open undo)) && (p_deposit q <? p_min_cap q)
  | _, _ => false end = true.
Proof. vm_compute. reflexivity. Qed.
Theorem C84_minimum_secured_refuted :
  exists w l k p p', reachable w /\ w_presales w !! k = Some p /\ w_now w < p_end p /\
    p_min_cap p <= p_deposit p /\
    w_presales (run w l) !! k = Some p' /\ failed p' (w_now (run w l)).
Proof.
  assert (Hr : reachable w_pr_open) by apply reach. pose proof undo_undoes as Hx. revert Hr Hx.
  generalize w_pr_open as w. intros w Hr Hx. exists w, undo, k1.
  destruct (w_presales w !! k1) as [p|]; [|discriminate].
  destruct (w_presales (run w undo) !! k1) as [q|]; [|discriminate].
  exists p, q. rewrite !andb_true_iff, !Z.ltb_lt, !Z.leb_le in Hx. destruct Hx as (((H1 & H2) & H3) & H4).
  split; [exact Hr|]. split; [reflexivity|]. split; [exact H1|]. split; [exact H2|].
  split; [reflexivity|]. split; [exact H3|exact H4].
Qed.

(** The first come first served scenario: its minimum is reached while it is open, and it is over when
    it is full.  Later than sixty days and ten years after the creation there is still an escrow. *)
Definition far : Z := 2000 + 60 * 86400 + 10 * 365 * 86400.
Example C84_C85_in_use :
  match pget w_fc_open, pget w_fc_over, pget (run w_fc_over [EClock far]) with
  | Some p, Some q, Some q' =>
    (p_mode p =? 2) && (p_min_cap p <=? p_deposit p) && (w_now w_fc_open <? p_end p) &&
    (p_raw0 q mod 256 =? 0) && (p_max_cap q <=? p_deposit q) && (p_end q =? 1200) &&
    (p_created q' + 60 * day + 10 * year <=? far) && (w_now (run w_fc_over [EClock far]) =? far) &&
    bool_decide (is_Some (w_escrows (run w_fc_over [EClock far]) !! esc alice 0))
  | _, _, _ => false end = true.
Proof. vm_compute. reflexivity. Qed.
