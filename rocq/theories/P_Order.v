(** C90: in a prorata presale it does not matter who comes first. *)
From Coq Require Import Lia.
From Verif Require Import Base Math State Handlers Token World Instr Exec Tactics Sums Spec Arith
  TokenFacts Inv Acct Funs Steps Init Preserve Reach Did Trans Flow Scenario P_Arith P_Solvency P_History
  P_Payout P_State P_Deposit P_Limits P_Merkle P_Exit P_Fees.

(** * Specification *)

(** What is done with an escrow before the end: opened, with a cap of its own or that of the registry;
    an amount offered; an amount asked back; closed. *)
Inductive dealing : Type := Open (cap : option Z) | Put (offered : Z) | Take (asked : Z) | Close.

(** The least fee that covers the rate on the gross amount. *)
Definition fee_for (bps a : Z) : Z := div_ceil (a * 10000) (10000 - bps) - a.

(** Cap, deposit and fee of an escrow after a dealing, in a registry with fee rate [bps] and buyer cap
    [max]: no other buyer is mentioned. *)
Definition hold (bps max : Z) (x : option (Z * Z * Z)) (d : dealing) : option (Z * Z * Z) :=
  match d, x with
  | Open c, _ => Some (default max c, 0, 0)
  | Put n, Some (cap, dep, fee) =>
      let a := Z.min (cap - dep) n in Some (cap, dep + a, fee + fee_for bps a)
  | Take n, Some (cap, dep, fee) => Some (cap, dep - n, fee)
  | _, _ => None
  end.

Definition dealing_of (o : op) (ek : addr) : option dealing :=
  match o with
  | IEscrowPermissionless k ow _ => if decide (PEscrow k ow 0 = ek) then Some (Open None) else None
  | IEscrowCreator k ow _ _ _ i c | IEscrowMerkle k ow _ _ _ i c =>
      if decide (PEscrow k ow i = ek) then Some (Open (Some c)) else None
  | IDeposit _ _ _ ek' _ _ _ n _ => if decide (ek' = ek) then Some (Put n) else None
  | IWithdraw _ _ _ ek' _ _ _ n _ => if decide (ek' = ek) then Some (Take n) else None
  | ICloseEscrow _ ek' _ _ => if decide (ek' = ek) then Some Close else None
  | _ => None
  end.

Definition view (w : world) (ek : addr) : option (Z * Z * Z) :=
  match w_escrows w !! ek with Some e => Some (e_cap e, e_deposit e, e_fee e) | None => None end.

Section WithCrypto.
Context `{Crypto}.

(** The accepted dealings with escrow [ek] in the history [l] from [w], in order. *)
Fixpoint dealings (w : world) (l : list op) (ek : addr) : list dealing :=
  match l with
  | [] => []
  | o :: l' =>
      match step w o, dealing_of o ek with
      | Ok _, Some d => d :: dealings (exec w o) l' ek
      | _, _ => dealings (exec w o) l' ek
      end
  end.

(** * Proof *)

Lemma msum_agree {A} (g : A -> Z) (m1 m2 : gmap addr A) :
  (forall x, default 0 (g <$> m1 !! x) = default 0 (g <$> m2 !! x)) ->
  msum (fun _ => g) m1 = msum (fun _ => g) m2.
Proof.
  revert m2. induction m1 as [|y a m Hn IH] using map_ind; intros m2 Hg.
  - rewrite msum_empty. symmetry. rewrite <- (msum_zero m2). apply msum_ext. intros x b Hb.
    specialize (Hg x). rewrite lookup_empty, Hb in Hg. cbn in Hg. congruence.
  - rewrite msum_insert_new by assumption. pose proof (Hg y) as Hy. rewrite lookup_insert in Hy. cbn in Hy.
    destruct (m2 !! y) as [b|] eqn:Eb; cbn in Hy.
    + rewrite (msum_delete (fun _ => g) m2 y b Eb). rewrite Hy. f_equal. apply IH. intros x.
      destruct (decide (x = y)) as [->|Hne]; [rewrite lookup_delete, Hn; reflexivity|].
      specialize (Hg x). rewrite lookup_insert_ne in Hg by congruence. rewrite lookup_delete_ne by congruence. exact Hg.
    + rewrite Hy, Z.add_0_l. apply IH. intros x.
      destruct (decide (x = y)) as [->|Hne]; [rewrite Eb, Hn; reflexivity|].
      specialize (Hg x). rewrite lookup_insert_ne in Hg by congruence. exact Hg.
Qed.

Lemma view_some w ek e : w_escrows w !! ek = Some e -> view w ek = Some (e_cap e, e_deposit e, e_fee e).
Proof. intros He. unfold view. rewrite He. reflexivity. Qed.
Lemma view_none w ek : w_escrows w !! ek = None -> view w ek = None.
Proof. intros He. unfold view. rewrite He. reflexivity. Qed.

(** The address of an escrow names its presale, owner and registry. *)
Lemma escrow_key w ek e : inv w -> w_escrows w !! ek = Some e ->
  exists p r, w_presales w !! e_presale e = Some p /\ ek = PEscrow (e_presale e) (e_owner e) (e_idx e) /\
    p_regs p !! Z.to_nat (e_idx e) = Some r.
Proof.
  intros Hi He. destruct (i_escrows _ Hi _ _ He) as [p Hp].
  destruct (at_exists _ _ _ _ _ Hi Hp He eq_refl) as [r Hr].
  exists p, r. split; [assumption|]. split; [|assumption].
  apply (s_key _ _ _ _ _ (at_esc _ _ _ _ _ _ (at_intro _ _ _ _ _ _ Hi Hp He eq_refl Hr))).
Qed.

Lemma opened w k p ow i c r w' l :
  inv w -> w_presales w !! k = Some p -> p_regs p !! Z.to_nat i = Some r -> 0 <= i ->
  finish_create_escrow w p k ow i c = Ok (w', l) ->
  view w' (PEscrow k ow i) = Some (default (r_max_cap r) c, 0, 0).
Proof.
  intros Hi Hp Hr H0 Hs. apply finish_did in Hs as [r1 D]; [|assumption..]. destruct D.
  assert (r1 = r) as -> by congruence. erewrite view_some; [|subst w'; cbn; apply lookup_insert].
  destruct c; reflexivity.
Qed.

(** Mode 1 is prorata; in mode 2, first come first served, as long as the presale is not sold out. *)
Lemma step_view w o w' l k p ow i r :
  reachable w -> step w o = Ok (w', l) -> w_presales w !! k = Some p ->
  p_mode p = 1 \/ (p_mode p = 2 /\ exists p', w_presales w' !! k = Some p' /\ p_deposit p' < p_max_cap p) ->
  p_regs p !! Z.to_nat i = Some r ->
  view w' (PEscrow k ow i) = match dealing_of o (PEscrow k ow i) with
    | Some d => hold (r_fee_bps r) (r_max_cap r) (view w (PEscrow k ow i)) d
    | None => view w (PEscrow k ow i)
    end.
Proof.
  intros Hw Hs Hp Hm Hr. pose proof (reachable_inv _ Hw) as Hi.
  destruct (dealing_of o (PEscrow k ow i)) as [d|] eqn:Ed.
  - destruct o; cbn in Ed; try discriminate; destruct (decide _) as [E|]; try discriminate;
      injection Ed as <-; [injection E as E1 E2 E3; subst|injection E as E1 E2 E3; subst|injection E as E1 E2 E3; subst|subst..].
    + cbn in Hs. apply create_permissionless_inv in Hs as (p0 & Hp0 & _ & _ & Hs).
      assert (p0 = p) as -> by congruence. erewrite opened; [reflexivity|eassumption..|lia|eassumption].
    + cbn in Hs. apply create_authority_inv in Hs as (p0 & oo & Hp0 & _ & _ & _ & _ & _ & _ & Hidx & _ & Hs).
      assert (p0 = p) as -> by congruence. erewrite opened; [reflexivity|eassumption..|lia|eassumption].
    + cbn in Hs. apply create_merkle_escrow_inv in Hs as (p0 & c & Hp0 & _ & _ & _ & _ & _ & _ & Hidx & _ & Hs).
      assert (p0 = p) as -> by congruence. erewrite opened; [reflexivity|eassumption..|lia|eassumption].
    + destruct (C39_deposit_exact _ _ _ _ _ _ _ _ _ _ _ _ Hw Hs) as
        (p3 & e3 & r3 & a & f & Hp3 & He3 & Hk3 & Hr3 & Htk & _ & _ & _ & _ & He4 & _).
      cbn in Hs. apply deposit_did in Hs; [|assumption].
      destruct Hs as (p1 & p2 & e1 & r1 & m & amount & fee & gross & w1 & lx & D). destruct D.
      destruct (escrow_key _ _ _ Hi dd_escrow) as (q & _ & _ & Hkey & _). injection Hkey as Hk1 _ Hk2.
      assert (e3 = e1) as -> by congruence. assert (p1 = p) as -> by congruence. assert (p3 = p) as -> by congruence.
      assert (r1 = r) as -> by congruence.
      assert (Hq : w_escrows w' !! PEscrow k ow i = Some (esc_deposited e1 amount fee))
        by (subst w'; cbn; apply lookup_insert).
      assert (Ha : amount = a).
      { rewrite Hq in He4. injection He4 as He4. unfold esc_deposited in He4. lia. }
      unfold takes_amount, room in Htk. rewrite <- Ha in Htk.
      match type of dd_amount with _ /\ _ <= ?n => assert (Htk' : amount = Z.min (e_cap e1 - e_deposit e1) n) end.
      { destruct Hm as [Hm|[Hm (p' & Hp' & Hroom)]]; rewrite Hm in Htk; cbn in Htk; [exact Htk|].
        assert (Hd2 : p_deposit p' = p_deposit p + amount).
        { assert (p' = p2) as -> by (subst w'; cbn in Hp'; rewrite Hk1, dd_link, lookup_insert in Hp'; congruence).
          destruct dd_end as [(_ & _ & ->)|(_ & ->)]; reflexivity. }
        lia. }
      clear Htk. rename Htk' into Htk.
      rewrite (view_some _ _ _ Hq), (view_some _ _ _ dd_escrow). cbn. rewrite <- Htk. f_equal. f_equal.
      unfold fee_for. lia.
    + cbn in Hs. apply withdraw_did in Hs; [|assumption].
      destruct Hs as (p1 & e1 & r1 & m & amount & w1 & lx & D). destruct D.
      destruct (escrow_key _ _ _ Hi dw_escrow) as (q & _ & _ & Hkey & _). injection Hkey as Hk1 _ Hk2.
      assert (p1 = p) as -> by congruence.
      erewrite view_some; [|subst w'; cbn; apply lookup_insert]. rewrite (view_some _ _ _ dw_escrow). cbn.
      destruct Hm as [Hm|[Hm _]]; [|destruct dw_mode; lia].
      rewrite (dw_exact ltac:(left; exact Hm)). reflexivity.
    + cbn in Hs. apply close_did in Hs; [|assumption]. destruct Hs as (p1 & e1 & r1 & D). destruct D.
      erewrite view_none; [reflexivity|]. subst w'. cbn. apply lookup_delete.
  - destruct (does_escrow w o w' l (PEscrow k ow i) (step_does _ _ _ _ Hi Hs)) as [Hsame|? ? ? ? ? ? Hcr E D Hq
    |? ? ? ? ? ? ? ? ? ? ? ? ? ? ? ? ? ? -> D Hq|? ? ? ? ? ? ? ? ? ? ? ? ? ? ? -> D Hq
    |? ? ? ? ? ? ? p1 e1 r1 ? ? ? -> D Hq|? ? ? ? ? ? ? p1 e1 r1 ? ? ? -> D Hq|? p1 e1 e2 r1 -> D Hq|? ? ? ? ? ? -> D Hq].
    + unfold view. rewrite Hsame. reflexivity.
    + exfalso. injection E as -> -> ->.
      destruct o; cbn in Hcr, Ed; try discriminate; injection Hcr as E1 E2 E3; subst; rewrite decide_True in Ed by reflexivity; discriminate.
    + cbn in Ed. rewrite decide_True in Ed by reflexivity. discriminate.
    + cbn in Ed. rewrite decide_True in Ed by reflexivity. discriminate.
    + destruct D. rewrite (view_some _ _ _ Hq), (view_some _ _ _ dr_escrow). reflexivity.
    + destruct D. rewrite (view_some _ _ _ Hq), (view_some _ _ _ dm_escrow). reflexivity.
    + destruct D. rewrite (view_some _ _ _ Hq), (view_some _ _ _ df_escrow).
      destruct df_what as [(_ & _ & ->)|(_ & ->)]; reflexivity.
    + cbn in Ed. rewrite decide_True in Ed by reflexivity. discriminate.
Qed.

Lemma exec_terms w o k p : reachable w -> w_presales w !! k = Some p ->
  exists p', w_presales (exec w o) !! k = Some p' /\ terms_of p' = terms_of p.
Proof.
  intros Hw Hp. unfold exec. destruct (step w o) as [[w' l]|] eqn:Es; [|eauto].
  destruct (presale_moves _ _ _ _ _ _ (reachable_inv _ Hw) Es Hp) as (p' & Hp' & Hm).
  exists p'. split; [assumption|apply (mv_terms _ _ _ Hm)].
Qed.

Lemma terms_mode p p' : terms_of p' = terms_of p -> p_mode p' = p_mode p.
Proof. unfold terms_of. intros Ht. injection Ht. auto. Qed.

Lemma terms_reg p p' i r : terms_of p' = terms_of p -> p_regs p !! i = Some r ->
  exists r', p_regs p' !! i = Some r' /\ r_fee_bps r' = r_fee_bps r /\ r_max_cap r' = r_max_cap r.
Proof.
  intros Ht Hr. destruct (terms_bps p' p i r (eq_sym Ht) Hr) as (r' & Hr' & Hb).
  destruct (terms_regs p' p i r (eq_sym Ht) Hr) as (r2 & Hr2 & _ & _ & Hx).
  assert (r2 = r') as -> by congruence. eauto.
Qed.

(** What every escrow of a prorata presale holds follows from the dealings with it alone. *)
Theorem C90_own_dealings_only l : forall w k p ow i r,
  reachable w -> w_presales w !! k = Some p -> p_mode p = 1 -> p_regs p !! Z.to_nat i = Some r ->
  view (run w l) (PEscrow k ow i) =
    fold_left (hold (r_fee_bps r) (r_max_cap r)) (dealings w l (PEscrow k ow i)) (view w (PEscrow k ow i)).
Proof.
  induction l as [|o l IH]; intros w k p ow i r Hw Hp Hm Hr; [reflexivity|].
  destruct (exec_terms w o k p Hw Hp) as (p1 & Hp1 & Ht).
  destruct (terms_reg p p1 _ r Ht Hr) as (r1 & Hr1 & Hb & Hx).
  change (run w (o :: l)) with (run (exec w o) l).
  rewrite (IH (exec w o) k p1 ow i r1 (reachable_run _ [o] Hw) Hp1 ltac:(rewrite (terms_mode _ _ Ht); exact Hm) Hr1).
  rewrite Hb, Hx. cbn [dealings]. destruct (step w o) as [[w' lx]|] eqn:Es.
  - assert (Ex : exec w o = w') by (unfold exec; rewrite Es; reflexivity). rewrite Ex.
    rewrite (step_view w o w' lx k p ow i r Hw Es Hp ltac:(left; exact Hm) Hr).
    destruct (dealing_of o (PEscrow k ow i)); reflexivity.
  - assert (Ex : exec w o = w) by (unfold exec; rewrite Es; reflexivity). rewrite Ex. reflexivity.
Qed.

(** Histories after which the escrows hold the same have the same books. *)
Lemma same_views_same_books w l1 l2 k p p1 p2 :
  reachable w -> w_presales w !! k = Some p ->
  (forall ow i r, p_regs p !! Z.to_nat i = Some r ->
     view (run w l1) (PEscrow k ow i) = view (run w l2) (PEscrow k ow i)) ->
  w_presales (run w l1) !! k = Some p1 -> w_presales (run w l2) !! k = Some p2 ->
  w_now (run w l1) < p_end p1 -> w_now (run w l2) < p_end p2 ->
  p_deposit p1 = p_deposit p2 /\ p_fee p1 = p_fee p2 /\ p_escrows p1 = p_escrows p2 /\
  (forall ow i, view (run w l1) (PEscrow k ow i) = view (run w l2) (PEscrow k ow i)) /\
  (forall i r1 r2, p_regs p1 !! i = Some r1 -> p_regs p2 !! i = Some r2 ->
     r_deposit r1 = r_deposit r2 /\ r_fee r1 = r_fee r2 /\
     forall d f, final p1 r1 d = final p2 r2 d /\ share_deposit p1 r1 d = share_deposit p2 r2 d /\
       share_fee p1 r1 f = share_fee p2 r2 f).
Proof.
  intros Hw Hp Hdl Hp1 Hp2 Hn1 Hn2.
  pose proof (reachable_inv _ Hw) as Hi.
  pose proof (reachable_inv _ (reachable_run _ l1 Hw)) as Hi1.
  pose proof (reachable_inv _ (reachable_run _ l2 Hw)) as Hi2.
  destruct (C15_terms_immutable w l1 k p Hw Hp) as (q1 & Hq1 & T1 & _). assert (q1 = p1) as -> by congruence.
  destruct (C15_terms_immutable w l2 k p Hw Hp) as (q2 & Hq2 & T2 & _). assert (q2 = p2) as -> by congruence.
  assert (T : terms_of p1 = terms_of p2) by congruence.
  assert (Hview : forall ow i, view (run w l1) (PEscrow k ow i) = view (run w l2) (PEscrow k ow i)).
  { intros ow i. destruct (p_regs p !! Z.to_nat i) as [r|] eqn:Hr.
    - apply (Hdl ow i r Hr).
    - assert (Hno : forall l q, inv (run w l) -> w_presales (run w l) !! k = Some q -> terms_of q = terms_of p ->
        view (run w l) (PEscrow k ow i) = None).
      { intros l q Hx Hq Ht. apply view_none. destruct (w_escrows (run w l) !! PEscrow k ow i) as [e|] eqn:He; [|reflexivity].
        destruct (escrow_key _ _ _ Hx He) as (q' & r & Hq' & Hkey & Hrr). injection Hkey as Hk1 _ Hk2.
        rewrite <- Hk1 in Hq'. rewrite <- Hk2 in Hrr. assert (q' = q) as -> by congruence.
        destruct (terms_bps p q _ r Ht Hrr) as (r0 & Hr0 & _). congruence. }
      rewrite (Hno l1 p1 Hi1 Hp1 T1), (Hno l2 p2 Hi2 Hp2 T2). reflexivity. }
  assert (Hval : forall i f la lb, inv (run w la) -> inv (run w lb) ->
    (forall e1 e2, e_deposit e1 = e_deposit e2 -> e_fee e1 = e_fee e2 -> f e1 = f e2) ->
    (forall ow i, view (run w la) (PEscrow k ow i) = view (run w lb) (PEscrow k ow i)) ->
    forall ek e, w_escrows (run w la) !! ek = Some e -> e_presale e = k ->
      in_reg k i f k e = default 0 (in_reg k i f k <$> w_escrows (run w lb) !! ek)).
  { intros i f la lb Ia Ib Hf Hv ek e He Hk.
    destruct (escrow_key _ _ _ Ia He) as (_ & _ & _ & Hkey & _). rewrite Hk in Hkey. subst ek.
    pose proof (Hv (e_owner e) (e_idx e)) as Hvv. rewrite (view_some _ _ _ He) in Hvv.
    unfold view in Hvv. destruct (w_escrows (run w lb) !! PEscrow k (e_owner e) (e_idx e)) as [e2|] eqn:He2; [|discriminate].
    injection Hvv as _ Hd Hfe.
    destruct (escrow_key _ _ _ Ib He2) as (_ & _ & _ & Hkey & _). injection Hkey as Hk1 _ Hk2.
    cbn. unfold in_reg. rewrite Hk, <- Hk1, <- Hk2, (Hf e e2 Hd Hfe). reflexivity. }
  assert (Hsum : forall i f, (forall e1 e2, e_deposit e1 = e_deposit e2 -> e_fee e1 = e_fee e2 -> f e1 = f e2) ->
    esum k i f (w_escrows (run w l1)) = esum k i f (w_escrows (run w l2))).
  { intros i f Hf. unfold esum.
    change (in_reg k i f) with (fun _ : addr => in_reg k i f k). apply msum_agree. intros ek.
    assert (Hoff : forall e, e_presale e <> k -> in_reg k i f k e = 0).
    { intros e Hk. unfold in_reg. rewrite bool_decide_false; [reflexivity|]. intros [? _]. contradiction. }
    destruct (w_escrows (run w l1) !! ek) as [e1|] eqn:E1; [destruct (decide (e_presale e1 = k)) as [Hk1|Hk1]|].
    { apply (Hval i f l1 l2 Hi1 Hi2 Hf Hview ek e1 E1 Hk1). }
    all: destruct (w_escrows (run w l2) !! ek) as [e2|] eqn:E2; [destruct (decide (e_presale e2 = k)) as [Hk2|Hk2]|].
    1, 4: symmetry; pose proof (Hval i f l2 l1 Hi2 Hi1 Hf (fun a b => eq_sym (Hview a b)) ek e2 E2 Hk2) as Hx; rewrite E1 in Hx; exact Hx.
    all: cbn; rewrite ?Hoff by assumption; reflexivity. }
  pose proof (q_acct _ _ _ (i_presales _ Hi1 _ _ Hp1)) as A1.
  pose proof (q_acct _ _ _ (i_presales _ Hi2 _ _ Hp2)) as A2.
  pose proof (f_reg _ _ _ (a_fresh _ _ _ _ A1 Hn1)) as R1.
  pose proof (f_reg _ _ _ (a_fresh _ _ _ _ A2 Hn2)) as R2.
  pose proof (a_books _ _ _ _ A1) as B1. pose proof (a_books _ _ _ _ A2) as B2.
  assert (Hreg : forall i r1 r2, p_regs p1 !! i = Some r1 -> p_regs p2 !! i = Some r2 ->
     r_deposit r1 = r_deposit r2 /\ r_fee r1 = r_fee r2 /\ r_escrows r1 = r_escrows r2).
  { intros i r1 r2 Hr1 Hr2. rewrite (b_count _ _ _ B1 i r1 Hr1), (b_count _ _ _ B2 i r2 Hr2).
    destruct (R1 i r1 Hr1) as (-> & -> & _). destruct (R2 i r2 Hr2) as (-> & -> & _).
    split; [|split]; apply Hsum; auto. }
  assert (Hsame : forall g, (forall r1 r2, r_deposit r1 = r_deposit r2 -> r_fee r1 = r_fee r2 ->
      r_escrows r1 = r_escrows r2 -> g r1 = g r2) -> lsum g (p_regs p1) = lsum g (p_regs p2)).
  { intros g Hg.
    assert (Hl : map g (p_regs p1) = map g (p_regs p2)).
    { apply list_eq. intros i. rewrite !list_lookup_fmap.
      destruct (p_regs p1 !! i) as [r1|] eqn:E1.
      - destruct (terms_bps p2 p1 i r1 T E1) as (r2 & E2 & _). rewrite E2. cbn. f_equal.
        destruct (Hreg i r1 r2 E1 E2) as (? & ? & ?). auto.
      - destruct (p_regs p2 !! i) as [r2|] eqn:E2; [|reflexivity].
        destruct (terms_bps p1 p2 i r2 (eq_sym T) E2) as (r1 & E1' & _). congruence. }
    unfold lsum. revert Hl. generalize (p_regs p1) (p_regs p2). induction l as [|a l IH]; intros [|b l'] Hl; try discriminate.
    - reflexivity.
    - cbn in Hl. injection Hl as Hab Hl. cbn. rewrite Hab. f_equal. apply IH. exact Hl. }
  assert (HD : p_deposit p1 = p_deposit p2).
  { rewrite (b_deposit _ _ _ B1), (b_deposit _ _ _ B2). apply Hsame. auto. }
  split; [exact HD|].
  split. { rewrite (b_fee _ _ _ B1), (b_fee _ _ _ B2). apply Hsame. auto. }
  split. { rewrite (b_escrows _ _ _ B1), (b_escrows _ _ _ B2). apply Hsame. auto. }
  split; [exact Hview|].
  intros i r1 r2 Hr1 Hr2. destruct (Hreg i r1 r2 Hr1 Hr2) as (Hd & Hf & _). split; [exact Hd|]. split; [exact Hf|].
  intros d f. destruct (terms_regs p2 p1 i r1 T Hr1) as (r2' & Hr2' & Hsu & _). assert (r2' = r2) as -> by congruence.
  assert (Hx : p_mode p1 = p_mode p2 /\ p_max_cap p1 = p_max_cap p2 /\ p_bps p1 = p_bps p2 /\ p_raw0 p1 = p_raw0 p2).
  { clear -T. unfold terms_of in T. injection T. auto 30. }
  destruct Hx as (Hmo & Hmc & Hbps & Hraw0).
  split; [|split].
  - unfold final, imm_part, vest_part, sold, imm_part, sold. rewrite Hd, Hsu, Hmo, Hbps, Hraw0. reflexivity.
  - unfold share_deposit, reg_excess, excess. rewrite Hd, HD, Hmc. reflexivity.
  - unfold share_fee, reg_fee_excess, reg_excess, excess. rewrite Hd, HD, Hmc, Hf. reflexivity.
Qed.

(** Two histories in which the same is done with every escrow, in whatever order relative to the others
    and with anything else in between, lead to the same deposits, the same tokens and the same refunds. *)
Theorem C90_order_does_not_matter w l1 l2 k p p1 p2 :
  reachable w -> w_presales w !! k = Some p -> p_mode p = 1 ->
  (forall ow i, dealings w l1 (PEscrow k ow i) = dealings w l2 (PEscrow k ow i)) ->
  w_presales (run w l1) !! k = Some p1 -> w_presales (run w l2) !! k = Some p2 ->
  w_now (run w l1) < p_end p1 -> w_now (run w l2) < p_end p2 ->
  p_deposit p1 = p_deposit p2 /\ p_fee p1 = p_fee p2 /\ p_escrows p1 = p_escrows p2 /\
  (forall ow i, view (run w l1) (PEscrow k ow i) = view (run w l2) (PEscrow k ow i)) /\
  (forall i r1 r2, p_regs p1 !! i = Some r1 -> p_regs p2 !! i = Some r2 ->
     r_deposit r1 = r_deposit r2 /\ r_fee r1 = r_fee r2 /\
     forall d f, final p1 r1 d = final p2 r2 d /\ share_deposit p1 r1 d = share_deposit p2 r2 d /\
       share_fee p1 r1 f = share_fee p2 r2 f).
Proof.
  intros Hw Hp Hm Hdl. apply (same_views_same_books w l1 l2 k p p1 p2 Hw Hp).
  intros ow i r Hr.
  rewrite (C90_own_dealings_only l1 w k p ow i r Hw Hp Hm Hr), (C90_own_dealings_only l2 w k p ow i r Hw Hp Hm Hr), Hdl.
  reflexivity.
Qed.

End WithCrypto.

#[local] Existing Instance toy.

(** Alice deposits 20, bob takes 100 back and brings 30 again, an escrow for dave is opened and closed; in
    two orders, in the second one with a refresh and a refused deposit in between. *)
Definition dave : addr := Wallet 77.
Definition open_dave : op := IEscrowCreator k1 dave (POperator creator oper) oper bob 0 300.
Definition order1 : list op :=
  [open_dave; dep alice alice_q alice 0 20; back bob bob_q 0 100; ICloseEscrow k1 (esc dave 0) dave dave;
   dep bob bob_q bob 0 30].
Definition order2 : list op :=
  [back bob bob_q 0 100; IRefresh k1 (esc carol 1); dep alice alice_q alice 0 0; dep bob bob_q bob 0 30;
   open_dave; ICloseEscrow k1 (esc dave 0) dave dave; dep alice alice_q alice 0 20].

Example C90_met :
  reachable w_pr_open /\ (exists p, w_presales w_pr_open !! k1 = Some p /\ p_mode p = 1) /\
  (forall ow i, dealings w_pr_open order1 (PEscrow k1 ow i) = dealings w_pr_open order2 (PEscrow k1 ow i)) /\
  dealings w_pr_open order1 (esc bob 0) = [Take 100; Put 30] /\
  dealings w_pr_open order1 (esc dave 0) = [Open (Some 300); Close] /\
  (exists p, w_presales (run w_pr_open order2) !! k1 = Some p /\ w_now (run w_pr_open order2) < p_end p /\
     p_deposit p = 1501).
Proof.
  split; [apply reach|]. split; [eexists; split; vm_compute; reflexivity|].
  assert (Ha : accepted w_pr_open order1 = [true; true; true; true; true] /\
    accepted w_pr_open order2 = [true; true; false; true; true; true; true]) by (vm_compute; auto).
  assert (Hgen : forall w l ek, dealings w l ek =
    omap (fun '(b, o) => if b : bool then dealing_of o ek else None) (zip (accepted w l) l)).
  { intros w l. revert w. induction l as [|o l IH]; intros w ek; [reflexivity|]. cbn. rewrite IH.
    destruct (step w o) as [[w' lx]|]; reflexivity. }
  destruct Ha as [Ha1 Ha2].
  split; [|split; [|split]].
  - intros ow i. rewrite !Hgen, Ha1, Ha2. cbn.
    generalize (PEscrow k1 ow i). intros ek. unfold esc.
    destruct (decide (PEscrow k1 alice 0 = ek)) as [Ex|Ex], (decide (PEscrow k1 bob 0 = ek)) as [Ey|Ey],
      (decide (PEscrow k1 dave 0 = ek)) as [Ez|Ez]; try reflexivity; exfalso; subst ek;
      first [discriminate Ex|discriminate Ey|discriminate Ez].
  - rewrite Hgen, Ha1. reflexivity.
  - rewrite Hgen, Ha1. reflexivity.
  - eexists. split; [vm_compute; reflexivity|]. split; vm_compute; reflexivity.
Qed.
