(** C97: in a first come first served presale the order of buyers matters only if it sells out, and
    coming later never gives more. *)
From Coq Require Import Lia.
From Verif Require Import Base Math State Handlers Token World Instr Exec Tactics Sums Spec Arith
  TokenFacts Inv Acct Funs Steps Init Preserve Reach Did Trans Flow Scenario P_Arith P_Solvency P_History
  P_Payout P_State P_Deposit P_Limits P_Merkle P_Exit P_Fees P_Phase P_Order.

Section WithCrypto.
Context `{Crypto}.

Lemma no_withdrawals p : p_mode p = 2 -> ~ withdrawals_on p.
Proof. intros Hm [Hx|[Hx _]]; lia. Qed.

Lemma terms_max p p' : terms_of p' = terms_of p -> p_max_cap p' = p_max_cap p.
Proof. unfold terms_of. intros Ht. injection Ht. auto 30. Qed.

(** As long as the presale is not sold out, what every escrow holds follows from the dealings with it
    alone. *)
Theorem C97_own_dealings_only l : forall w k p p' ow i r,
  reachable w -> w_presales w !! k = Some p -> p_mode p = 2 -> p_regs p !! Z.to_nat i = Some r ->
  w_presales (run w l) !! k = Some p' -> p_deposit p' < p_max_cap p' ->
  view (run w l) (PEscrow k ow i) =
    fold_left (hold (r_fee_bps r) (r_max_cap r)) (dealings w l (PEscrow k ow i)) (view w (PEscrow k ow i)).
Proof.
  induction l as [|o l IH]; intros w k p p' ow i r Hw Hp Hm Hr Hp' Hroom; [reflexivity|].
  destruct (exec_terms w o k p Hw Hp) as (p1 & Hp1 & Ht).
  destruct (terms_reg p p1 _ r Ht Hr) as (r1 & Hr1 & Hb & Hx).
  assert (Hm1 : p_mode p1 = 2) by (rewrite (terms_mode _ _ Ht); exact Hm).
  pose proof (reachable_run _ [o] Hw : reachable (exec w o)) as Hw1.
  change (run w (o :: l)) with (run (exec w o) l) in *.
  destruct (C84_deposits_only_grow (exec w o) l k p1 Hw1 Hp1 (no_withdrawals _ Hm1)) as (p2 & Hp2 & Hg & Ht2).
  assert (p2 = p') as -> by congruence. rewrite (terms_max _ _ Ht2), (terms_max _ _ Ht) in Hroom.
  rewrite (IH (exec w o) k p1 p' ow i r1 Hw1 Hp1 Hm1 Hr1 Hp'
    ltac:(rewrite (terms_max _ _ Ht2), (terms_max _ _ Ht); exact Hroom)).
  rewrite Hb, Hx. cbn [dealings]. destruct (step w o) as [[w' lx]|] eqn:Es.
  - assert (Ex : exec w o = w') by (unfold exec; rewrite Es; reflexivity). rewrite Ex in *.
    rewrite (step_view w o w' lx k p ow i r Hw Es Hp).
    + destruct (dealing_of o (PEscrow k ow i)); reflexivity.
    + right. split; [exact Hm|]. exists p1. split; [assumption|lia].
    + exact Hr.
  - assert (Ex : exec w o = w) by (unfold exec; rewrite Es; reflexivity). rewrite Ex. reflexivity.
Qed.

(** Two histories in which the same is done with every escrow, neither of which sells the presale out,
    lead to the same deposits, the same tokens and the same refunds. *)
Theorem C97_order_matters_only_when_sold_out w l1 l2 k p p1 p2 :
  reachable w -> w_presales w !! k = Some p -> p_mode p = 2 ->
  (forall ow i, dealings w l1 (PEscrow k ow i) = dealings w l2 (PEscrow k ow i)) ->
  w_presales (run w l1) !! k = Some p1 -> w_presales (run w l2) !! k = Some p2 ->
  p_deposit p1 < p_max_cap p1 -> p_deposit p2 < p_max_cap p2 ->
  w_now (run w l1) < p_end p1 -> w_now (run w l2) < p_end p2 ->
  p_deposit p1 = p_deposit p2 /\ p_fee p1 = p_fee p2 /\ p_escrows p1 = p_escrows p2 /\
  (forall ow i, view (run w l1) (PEscrow k ow i) = view (run w l2) (PEscrow k ow i)) /\
  (forall i r1 r2, p_regs p1 !! i = Some r1 -> p_regs p2 !! i = Some r2 ->
     r_deposit r1 = r_deposit r2 /\ r_fee r1 = r_fee r2 /\
     forall d f, final p1 r1 d = final p2 r2 d /\ share_deposit p1 r1 d = share_deposit p2 r2 d /\
       share_fee p1 r1 f = share_fee p2 r2 f).
Proof.
  intros Hw Hp Hm Hdl Hp1 Hp2 Hc1 Hc2 Hn1 Hn2.
  apply (same_views_same_books w l1 l2 k p p1 p2 Hw Hp); [|assumption..].
  intros ow i r Hr.
  rewrite (C97_own_dealings_only l1 w k p p1 ow i r Hw Hp Hm Hr Hp1 Hc1),
    (C97_own_dealings_only l2 w k p p2 ow i r Hw Hp Hm Hr Hp2 Hc2), Hdl.
  reflexivity.
Qed.

(** The same deposit call sent now or after anything that leaves the escrow's deposit and cap as they
    are: later it is not credited with more, and with exactly the same if room for all of it is left. *)
Theorem C97_later_is_never_more w later k p qv qm ek pt payer pr mx h w1 l1 w2 l2 cap d f d1 f1 d2 f2 :
  reachable w -> w_presales w !! k = Some p -> p_mode p = 2 ->
  let y := run w later in
  view w ek = Some (cap, d, f) -> view y ek = Some (cap, d, f) ->
  step w (IDeposit k qv qm ek pt payer pr mx h) = Ok (w1, l1) ->
  step y (IDeposit k qv qm ek pt payer pr mx h) = Ok (w2, l2) ->
  view w1 ek = Some (cap, d1, f1) -> view w2 ek = Some (cap, d2, f2) ->
  d2 <= d1 /\ f2 <= f1 /\
  (forall p', w_presales y !! k = Some p' -> d1 - d <= p_max_cap p' - p_deposit p' -> d2 = d1 /\ f2 = f1).
Proof.
  intros Hw Hp Hm y Hv Hvy Hs1 Hs2 Hv1 Hv2.
  destruct (C84_deposits_only_grow w later k p Hw Hp (no_withdrawals _ Hm)) as (py & Hpy & Hg & Hty).
  fold y in Hpy. pose proof (reachable_run _ later Hw) as Hwy. fold y in Hwy.
  destruct (C39_deposit_exact _ _ _ _ _ _ _ _ _ _ _ _ Hw Hs1) as
    (pa & ea & ra & a & fa & Hpa & Hea & Hka & Hra & Hta & Haa & Hfa0 & Hfa & Hfal & Hqa & _).
  destruct (C39_deposit_exact _ _ _ _ _ _ _ _ _ _ _ _ Hwy Hs2) as
    (pb & eb & rb & b & fb & Hpb & Heb & Hkb & Hrb & Htb & Hbb & Hfb0 & Hfb & Hfbl & Hqb & _).
  assert (pa = p) as -> by congruence. assert (pb = py) as -> by congruence.
  pose proof (terms_mode _ _ Hty) as Hmy. rewrite Hm in Hmy.
  rewrite (view_some _ _ _ Hea) in Hv. injection Hv as Hc Hd Hf.
  rewrite (view_some _ _ _ Heb) in Hvy. injection Hvy as Hcy Hdy Hfy.
  rewrite (view_some _ _ _ Hqa) in Hv1. cbn in Hv1. injection Hv1 as _ Hd1 Hf1.
  rewrite (view_some _ _ _ Hqb) in Hv2. cbn in Hv2. injection Hv2 as _ Hd2 Hf2.
  assert (Hidx : e_idx ea = e_idx eb).
  { destruct (escrow_key _ _ _ (reachable_inv _ Hw) Hea) as (_ & _ & _ & Ka & _).
    destruct (escrow_key _ _ _ (reachable_inv _ Hwy) Heb) as (_ & _ & _ & Kb & _). congruence. }
  destruct (terms_reg p py _ ra Hty Hra) as (r' & Hr' & Hbps & _). rewrite Hidx in Hr'.
  assert (r' = rb) as -> by congruence. rewrite Hbps in *.
  unfold takes_amount, room in Hta, Htb. rewrite Hm in Hta. rewrite Hmy in Htb. cbn in Hta, Htb.
  rewrite (terms_max _ _ Hty) in *.
  assert (Hle : b <= a) by lia.
  assert (Hcov : forall x z fx, 0 <= x <= z -> covers (r_fee_bps ra) z fx -> covers (r_fee_bps ra) x fx).
  { pose proof (reg_bps _ _ _ _ (at_cfg _ _ _ _ _ _
      (at_intro _ _ _ _ _ _ (reachable_inv _ Hw) Hpa Hea Hka Hra)) Hra) as Hbp.
    intros x z fx Hx. unfold covers. nia. }
  split; [lia|]. split.
  - specialize (Hfbl fa (Hcov b a fa ltac:(lia) Hfa)). lia.
  - intros p' Hp' Hrm. assert (p' = py) as -> by congruence. rewrite (terms_max _ _ Hty) in Hrm.
    assert (b = a) as -> by lia. specialize (Hfbl fa Hfa). specialize (Hfal fb Hfb). lia.
Qed.

End WithCrypto.

#[local] Existing Instance toy.

(** First come first served, open until the end even when sold out; alice holds 300 of 1000, bob 100. *)
Definition fl_args : init_args :=
  mkInitArgs (mkPreArgs 1000 500 1100 2000 0 2 0 1)
    (mkLocked 0 0 0 0 []) [mkRegArgs 10 600 3000 250].
Definition fl_open : list op := setup ++ [
  IInitPresale base1 bmint qmint creator_b creator creator Token2022 SplToken fl_args noh; EClock 1100;
  IEscrowPermissionless k1 alice alice; IEscrowPermissionless k1 bob bob;
  dep alice alice_q alice 0 300; dep bob bob_q bob 0 100 ].
Definition w_fl : world := run genesis fl_open.

Definition race (a b : Z) : list op := [dep alice alice_q alice 0 a; dep bob bob_q bob 0 b].
Definition race' (a b : Z) : list op := [dep bob bob_q bob 0 b; IRefresh k1 (esc bob 0); dep alice alice_q alice 0 a].

Lemma dealings_accepted w l ek : dealings w l ek =
  omap (fun '(b, o) => if b : bool then dealing_of o ek else None) (zip (accepted w l) l).
Proof.
  revert w. induction l as [|o l IH]; intros w; [reflexivity|]. cbn. rewrite IH.
  destruct (step w o) as [[w' lx]|]; reflexivity.
Qed.

Lemma race_same a b :
  accepted w_fl (race a b) = [true; true] -> accepted w_fl (race' a b) = [true; true; true] ->
  forall ow i, dealings w_fl (race a b) (PEscrow k1 ow i) = dealings w_fl (race' a b) (PEscrow k1 ow i).
Proof.
  intros H1 H2 ow i. rewrite !dealings_accepted, H1, H2. cbn. generalize (PEscrow k1 ow i). intros ek. unfold esc.
  destruct (decide (PEscrow k1 alice 0 = ek)) as [Ex|Ex], (decide (PEscrow k1 bob 0 = ek)) as [Ey|Ey];
    try reflexivity; exfalso; subst ek; discriminate Ey.
Qed.

(** With 600 left, 200 and 300 fit in both orders. *)
Example C97_met :
  reachable w_fl /\ (exists p, w_presales w_fl !! k1 = Some p /\ p_mode p = 2) /\
  (forall ow i, dealings w_fl (race 200 300) (PEscrow k1 ow i) = dealings w_fl (race' 200 300) (PEscrow k1 ow i)) /\
  dealings w_fl (race 200 300) (esc alice 0) = [Put 200] /\
  (exists p, w_presales (run w_fl (race 200 300)) !! k1 = Some p /\ p_deposit p = 900 /\ p_max_cap p = 1000 /\
     w_now (run w_fl (race 200 300)) < p_end p) /\
  (exists p, w_presales (run w_fl (race' 200 300)) !! k1 = Some p /\ p_deposit p = 900 /\ p_max_cap p = 1000 /\
     w_now (run w_fl (race' 200 300)) < p_end p) /\
  view (run w_fl (race 200 300)) (esc alice 0) = Some (600, 500, 14).
Proof.
  split; [apply reach|]. split; [eexists; split; vm_compute; reflexivity|].
  split; [apply race_same; vm_compute; reflexivity|].
  split; [rewrite dealings_accepted; vm_compute; reflexivity|].
  split; [eexists; split; [vm_compute; reflexivity|]; vm_compute; auto|].
  split; [eexists; split; [vm_compute; reflexivity|]; vm_compute; auto|].
  vm_compute. reflexivity.
Qed.

(** For a presale that sells out the order decides: alice offers 300 and bob 500. *)
Theorem C97_order_never_matters_refuted :
  exists w l1 l2 k p p1 p2 ow i,
    reachable w /\ w_presales w !! k = Some p /\ p_mode p = 2 /\
    (forall ow i, dealings w l1 (PEscrow k ow i) = dealings w l2 (PEscrow k ow i)) /\
    w_presales (run w l1) !! k = Some p1 /\ w_presales (run w l2) !! k = Some p2 /\
    w_now (run w l1) < p_end p1 /\ w_now (run w l2) < p_end p2 /\
    p_deposit p1 = p_max_cap p1 /\ p_deposit p2 = p_max_cap p2 /\
    view (run w l1) (PEscrow k ow i) <> view (run w l2) (PEscrow k ow i).
Proof.
  exists w_fl, (race 300 500), (race' 300 500), k1. do 3 eexists. exists alice, 0.
  split; [apply reach|]. split; [vm_compute; reflexivity|]. split; [vm_compute; reflexivity|].
  split; [apply race_same; vm_compute; reflexivity|].
  split; [vm_compute; reflexivity|]. split; [vm_compute; reflexivity|].
  split; [vm_compute; reflexivity|]. split; [vm_compute; reflexivity|].
  split; [vm_compute; reflexivity|]. split; [vm_compute; reflexivity|].
  vm_compute. discriminate.
Qed.

(** Alice offers 300 before bob's 500 and after. *)
Example C97_met_later :
  let d := dep alice alice_q alice 0 300 in
  let y := run w_fl [dep bob bob_q bob 0 500] in
  view w_fl (esc alice 0) = view y (esc alice 0) /\
  view w_fl (esc alice 0) = Some (600, 300, 8) /\
  ok_step w_fl d = true /\ ok_step y d = true /\
  view (exec w_fl d) (esc alice 0) = Some (600, 600, 16) /\
  view (exec y d) (esc alice 0) = Some (600, 400, 11).
Proof. vm_compute. auto 10. Qed.
