(** Who can do what: C11 withdrawals, C12 vault outflows, C13 escrow changes, C14 isolation,
    C26 whitelisting, C27 operators, C30 closing, C32 time windows, C38 deposits, C49 supply,
    C50 merkle roots and metadata. *)
From Coq Require Import Lia.
From Verif Require Import Base Math State Handlers Token World Instr Exec Spec Tactics Sums Arith
  TokenFacts Inv Acct Funs Steps Init Preserve Reach Did Trans Flow Scenario.

(** The presale an operation names. *)
Definition op_presale (o : op) : option addr :=
  match o with
  | IInitFixedArgs k _ _ _ _ | ICreateMerkle k _ _ _ | ICloseMerkle k _ _ _
  | IEscrowPermissionless k _ _ | IEscrowCreator k _ _ _ _ _ _ | IEscrowMerkle k _ _ _ _ _ _
  | IDeposit k _ _ _ _ _ _ _ _ | IWithdraw k _ _ _ _ _ _ _ _ | IClaim k _ _ _ _ _ _ _
  | IWithdrawRemaining k _ _ _ _ _ _ _ | IUnsold k _ _ _ _ _ | ICloseEscrow k _ _ _
  | ICreatorWithdraw k _ _ _ _ | IRefresh k _ | ICreateServer k _ _ | ICloseServer k _ _ _
  | ICollectFee k _ _ _ _ _ _ => Some k
  | IInitPresale base bm qm _ _ _ _ _ _ _ => Some (PPresale base bm qm)
  | _ => None
  end.

(** [o] is a withdrawal or refund on presale [k], signed by the owner of an escrow of [k]. *)
Definition buyer_signs (w : world) (k ek owner : addr) : Prop :=
  is_wallet owner = true /\ exists e, w_escrows w !! ek = Some e /\ e_presale e = k /\ e_owner e = owner.
Definition creator_signs (w : world) (k owner : addr) : Prop :=
  is_wallet owner = true /\ exists p, w_presales w !! k = Some p /\ p_owner p = owner.

Definition may_take_quote (w : world) (k : addr) (o : op) : Prop :=
  match o with
  | IWithdraw k' _ _ ek _ owner _ _ _ => k' = k /\ buyer_signs w k ek owner
  | IWithdrawRemaining k' _ _ ek _ owner _ _ => k' = k /\ buyer_signs w k ek owner
  | ICreatorWithdraw k' _ owner _ _ => k' = k /\ creator_signs w k owner
  | ICollectFee k' _ _ _ owner _ _ => k' = k /\ creator_signs w k owner
  | _ => False
  end.
Definition may_take_base (w : world) (k : addr) (o : op) : Prop :=
  match o with
  | IClaim k' _ _ ek _ owner _ _ => k' = k /\ buyer_signs w k ek owner
  | ICreatorWithdraw k' _ owner _ _ => k' = k /\ creator_signs w k owner
  | IUnsold k' _ _ _ _ _ => k' = k
  | _ => False
  end.

(** [o] carries the signature of [owner] as the owner of escrow [ek]. *)
Definition signed_for (o : op) (ek owner : addr) : Prop :=
  match o with
  | IWithdraw _ _ _ ek' _ owner' _ _ _ => ek' = ek /\ owner' = owner
  | IClaim _ _ _ ek' _ owner' _ _ => ek' = ek /\ owner' = owner
  | IWithdrawRemaining _ _ _ ek' _ owner' _ _ => ek' = ek /\ owner' = owner
  | ICloseEscrow _ ek' owner' _ => ek' = ek /\ owner' = owner
  | _ => False
  end.

(** A list of hashes leading from a node to a root. *)
Inductive leads_to `{Crypto} : bytes -> list bytes -> bytes -> Prop :=
| lt_here h : leads_to h [] h
| lt_left h s path root : leads_to (hashv (1 :: h ++ s)) path root -> leads_to h (s :: path) root
| lt_right h s path root : leads_to (hashv (1 :: s ++ h)) path root -> leads_to h (s :: path) root.

Section WithCrypto.
Context `{Crypto}.

Lemma verify_leads proof : forall h root,
  foldl verify_step h proof = root -> leads_to h proof root.
Proof.
  induction proof as [|s proof IH]; intros h root Hf; cbn in Hf.
  - subst. constructor.
  - unfold verify_step at 2 in Hf. destruct (bytes_le h s); [apply lt_left|apply lt_right]; apply IH; exact Hf.
Qed.

(** * C12 *)

Theorem C12_no_outflow_without_authority w o w' l k p :
  reachable w -> step w o = Ok (w', l) -> w_presales w !! k = Some p ->
  (bal w' (PQuoteVault k) < bal w (PQuoteVault k) -> may_take_quote w k o) /\
  (bal w' (PBaseVault k) < bal w (PBaseVault k) -> may_take_base w k o).
Proof.
  intros Hw Hs Hp. pose proof (reachable_inv _ Hw) as Hi. split; intros Hlt.
  - destruct (step_takes _ _ _ _ _ _ (PQuoteVault k) Hi Hs Hp ltac:(auto)) as [Ht|Hle]; [|lia].
    inversion Ht; subst; cbn.
    all: match goal with X : did_withdraw _ _ _ _ _ _ _ _ _ _ _ _ _ _ _ _ _ _ _ |- _ => destruct X
      | X : did_refund _ _ _ _ _ _ _ _ _ _ _ _ _ _ _ _ _ |- _ => destruct X
      | X : did_creator _ _ _ _ _ _ _ _ _ _ _ _ |- _ => destruct X
      | X : did_fee _ _ _ _ _ _ _ _ _ _ _ _ _ _ |- _ => destruct X end;
      (split; [reflexivity|]); (split; [assumption|]); eauto.
  - destruct (step_takes _ _ _ _ _ _ (PBaseVault k) Hi Hs Hp ltac:(auto)) as [Ht|Hle]; [|lia].
    inversion Ht; subst; cbn; try reflexivity.
    all: match goal with
      | X : did_claim _ _ _ _ _ _ _ _ _ _ _ _ _ _ _ _ _ |- _ => destruct X
      | X : did_creator _ _ _ _ _ _ _ _ _ _ _ _ |- _ => destruct X end;
      (split; [reflexivity|]); (split; [assumption|]); eauto.
Qed.

(** * C13 *)

Theorem C13_escrow_changes w o w' l ek e :
  reachable w -> step w o = Ok (w', l) -> w_escrows w !! ek = Some e ->
  (* without the owner's signature only deposits grow or the pending amount is refreshed *)
  (~ (signed_for o ek (e_owner e) /\ is_wallet (e_owner e) = true) ->
     exists e', w_escrows w' !! ek = Some e' /\
       e_deposit e <= e_deposit e' /\ e_fee e <= e_fee e' /\
       e_withdrawn e' = e_withdrawn e /\ e_claimed e' = e_claimed e /\
       ((exists k qv qm pt payer pr mx h, o = IDeposit k qv qm ek pt payer pr mx h) \/
        (e_deposit e' = e_deposit e /\ e_fee e' = e_fee e)) /\
       ((exists k, o = IRefresh k ek) \/
        (e_pending e' = e_pending e /\ e_refreshed e' = e_refreshed e))) /\
  (* nobody can change whose escrow it is *)
  (forall e', w_escrows w' !! ek = Some e' ->
     e_presale e' = e_presale e /\ e_owner e' = e_owner e /\ e_idx e' = e_idx e /\
     e_cap e' = e_cap e /\ e_created e' = e_created e).
Proof.
  intros Hw Hs He. pose proof (reachable_inv _ Hw) as Hi.
  pose proof (does_escrow _ _ _ _ ek (step_does _ _ _ _ Hi Hs)) as Hc. destruct Hc.
  - rewrite He in H0. split; [|intros e' He'; assert (e' = e) as -> by congruence; auto].
    intros _. exists e. split; [assumption|]. split; [lia|]. split; [lia|]. auto 8.
  - destruct H2. subst ek. congruence.
  - assert (e0 = e) as -> by (destruct H1; congruence). destruct H1.
    rewrite H2. split; [|intros e' He'; injection He' as <-; cbn; auto].
    intros _. eexists. split; [reflexivity|]. cbn. split; [lia|]. split; [lia|]. split; [reflexivity|].
    split; [reflexivity|]. split; [left; subst o; eauto 10|auto].
  - assert (e0 = e) as -> by (destruct H1; congruence). destruct H1.
    split; [|intros e' He'; rewrite H2 in He'; injection He' as <-; cbn; auto].
    intros Hn. exfalso. apply Hn. subst o owner. cbn. auto.
  - assert (e0 = e) as -> by (destruct H1; congruence). destruct H1.
    split; [|intros e' He'; rewrite H2 in He'; injection He' as <-; cbn; auto].
    intros Hn. exfalso. apply Hn. subst o owner. cbn. auto.
  - assert (e0 = e) as -> by (destruct H1; congruence). destruct H1.
    split; [|intros e' He'; rewrite H2 in He'; injection He' as <-; cbn; auto].
    intros Hn. exfalso. apply Hn. subst o owner. cbn. auto.
  - assert (e0 = e) as -> by (destruct H1; congruence). destruct H1.
    assert (Hsame : e_deposit e1 = e_deposit e /\ e_fee e1 = e_fee e /\ e_withdrawn e1 = e_withdrawn e /\
      e_claimed e1 = e_claimed e /\ e_presale e1 = e_presale e /\ e_owner e1 = e_owner e /\
      e_idx e1 = e_idx e /\ e_cap e1 = e_cap e /\ e_created e1 = e_created e).
    { destruct df_what as [(_ & _ & ->)|(_ & ->)]; cbn; auto 10. }
    destruct Hsame as (S1 & S2 & S3 & S4 & S5 & S6 & S7 & S8 & S9).
    split; [|intros e' He'; rewrite H2 in He'; injection He' as <-; auto].
    intros _. exists e1. split; [assumption|]. split; [lia|]. split; [lia|]. split; [assumption|].
    split; [assumption|]. split; [auto|]. left. subst o. eauto.
  - assert (e0 = e) as -> by (destruct H1; congruence). destruct H1.
    split; [|intros e' He'; congruence].
    intros Hn. exfalso. apply Hn. subst o owner. cbn. auto.
Qed.

(** * C14 *)

Lemma creates_presale o k owner idx : creates o = Some (k, owner, idx) -> op_presale o = Some k.
Proof. destruct o; cbn; congruence. Qed.

Theorem C14_isolation w o w' l k p :
  reachable w -> step w o = Ok (w', l) -> w_presales w !! k = Some p -> op_presale o <> Some k ->
  w_presales w' !! k = Some p /\
  (forall ek e, e_presale e = k -> w_escrows w' !! ek = Some e <-> w_escrows w !! ek = Some e) /\
  (forall mk c, k_presale c = k -> w_merkles w' !! mk = Some c <-> w_merkles w !! mk = Some c) /\
  (forall sk s, s_presale s = k -> w_servers w' !! sk = Some s <-> w_servers w !! sk = Some s) /\
  bal w (PQuoteVault k) <= bal w' (PQuoteVault k) /\ bal w (PBaseVault k) <= bal w' (PBaseVault k).
Proof.
  intros Hw Hs Hp Hn. pose proof (reachable_inv _ Hw) as Hi.
  pose proof (step_does _ _ _ _ Hi Hs) as Hd.
  split; [|split; [|split; [|split; [|split]]]].
  - destruct (does_presale _ _ _ _ k Hd); [congruence|..]; exfalso; subst; apply Hn;
      try reflexivity; try (eapply creates_presale; eassumption).
    destruct H1. subst k. reflexivity.
  - intros ek e Hk. destruct (does_escrow _ _ _ _ ek Hd).
    + rewrite H0. reflexivity.
    + assert (k0 <> k). { intros ->. apply Hn. eapply creates_presale; eassumption. }
      destruct H2. subst ek. rewrite H3, dc_new. split; [|congruence].
      intros Hx. injection Hx as <-. cbn in Hk. congruence.
    + destruct H1. rewrite H2, dd_escrow. split; intros Hx; injection Hx as <-; exfalso; apply Hn; subst; reflexivity.
    + destruct H1. rewrite H2, dw_escrow. split; intros Hx; injection Hx as <-; exfalso; apply Hn; subst; reflexivity.
    + destruct H1. rewrite H2, dr_escrow. split; intros Hx; injection Hx as <-; exfalso; apply Hn; subst; reflexivity.
    + destruct H1. rewrite H2, dm_escrow. split; intros Hx; injection Hx as <-; exfalso; apply Hn; subst; reflexivity.
    + destruct H1. assert (e_presale e1 = e_presale e0).
      { destruct df_what as [(_ & _ & ->)|(_ & ->)]; reflexivity. }
      rewrite H2, df_escrow. split; intros Hx; injection Hx as <-; exfalso; apply Hn; subst; cbn; congruence.
    + destruct H1. rewrite H2, dx_escrow. split; [congruence|].
      intros Hx; injection Hx as <-; exfalso; apply Hn; subst; reflexivity.
  - intros mk c Hk. destruct (step_helpers _ _ _ _ Hi Hs) as (Hm & _).
    destruct o; try (rewrite Hm; reflexivity); cbn in Hs.
    + apply create_merkle_inv in Hs as (p0 & _ & _ & _ & Hnew & _ & _ & _ & _ & -> & _). cbn in *.
      destruct (decide (mk = PMerkle presale version)) as [->|Hne].
      * rewrite lookup_insert, Hnew. split; [|discriminate]. intros Hx. injection Hx as <-. cbn in Hk. congruence.
      * rewrite lookup_insert_ne by congruence. reflexivity.
    + apply close_merkle_inv in Hs as (p0 & c0 & _ & Hc0 & Hk0 & _ & _ & _ & _ & -> & _). cbn in *.
      destruct (decide (mk = config)) as [->|Hne].
      * rewrite lookup_delete, Hc0. split; [discriminate|]. intros Hx. injection Hx as <-. congruence.
      * rewrite lookup_delete_ne by congruence. reflexivity.
  - intros sk s Hk. destruct (step_helpers _ _ _ _ Hi Hs) as (_ & _ & Hm & _).
    destruct o; try (rewrite Hm; reflexivity); cbn in Hs.
    + apply create_server_inv in Hs as (p0 & _ & _ & _ & Hnew & _ & _ & -> & _). cbn in *.
      destruct (decide (sk = PServer presale)) as [->|Hne].
      * rewrite lookup_insert, Hnew. split; [|discriminate]. intros Hx. injection Hx as <-. cbn in Hk. congruence.
      * rewrite lookup_insert_ne by congruence. reflexivity.
    + apply close_server_inv in Hs as (p0 & c0 & _ & Hc0 & _ & Hk0 & _ & _ & -> & _). cbn in *.
      destruct (decide (sk = meta)) as [->|Hne].
      * rewrite lookup_delete, Hc0. split; [discriminate|]. intros Hx. injection Hx as <-. congruence.
      * rewrite lookup_delete_ne by congruence. reflexivity.
  - destruct (step_takes _ _ _ _ _ _ (PQuoteVault k) Hi Hs Hp ltac:(auto)) as [Ht|Hle]; [|assumption].
    exfalso. apply Hn. inversion Ht; subst; reflexivity.
  - destruct (step_takes _ _ _ _ _ _ (PBaseVault k) Hi Hs Hp ltac:(auto)) as [Ht|Hle]; [|assumption].
    exfalso. apply Hn. inversion Ht; subst; reflexivity.
Qed.

(** * C11 *)

Theorem C11_withdraw_rules w k qv qm ek ot owner pr mx h w' l :
  reachable w -> step w (IWithdraw k qv qm ek ot owner pr mx h) = Ok (w', l) ->
  exists p e r m p' e' r' n,
    w_presales w !! k = Some p /\ w_presales w' !! k = Some p' /\
    w_escrows w !! ek = Some e /\ w_escrows w' !! ek = Some e' /\ e_presale e = k /\
    p_regs p !! Z.to_nat (e_idx e) = Some r /\ p_regs p' !! Z.to_nat (e_idx e) = Some r' /\
    (* who, when, which presales *)
    e_owner e = owner /\ is_wallet owner = true /\ p_start p <= w_now w < p_end p /\
    (p_mode p = 1 \/ (p_mode p = 0 /\ p_raw1 p mod 256 = 0)) /\
    (* how much *)
    0 < n <= mx /\ mx <= e_deposit e /\ (p_mode p = 1 \/ mx = e_deposit e -> n = mx) /\
    (p_mode p = 0 -> mx <> e_deposit e -> bought (p_raw0 p) n = bought (p_raw0 p) mx) /\
    (e_deposit e - n = 0 \/ r_min_cap r <= e_deposit e - n) /\
    (* exactly that leaves the books; fees stay *)
    e_deposit e' = e_deposit e - n /\ r_deposit r' = r_deposit r - n /\ p_deposit p' = p_deposit p - n /\
    e_fee e' = e_fee e /\ r_fee r' = r_fee r /\ p_fee p' = p_fee p /\
    (* and the vault *)
    w_mints w !! p_qmint p = Some m /\ moved w w' (PQuoteVault k) ot n (tok_fee m n).
Proof.
  intros Hw Hs. pose proof (reachable_inv _ Hw) as Hi. cbn in Hs.
  apply withdraw_did in Hs; [|assumption]. destruct Hs as (p & e & r & m & n & w1 & lx & D).
  destruct D. destruct dw_mint as [-> Hm].
  assert (Hlen : (Z.to_nat (e_idx e) < length (p_regs p))%nat) by (eapply lookup_lt_Some; eassumption).
  exists p, e, r, m, (withdrawn p e r n), (set_e_deposit (e_deposit e - n) e),
    (set_r_deposit (r_deposit r - n) r), n.
  subst w' qv. split; [assumption|]. split; [apply lookup_insert|]. split; [assumption|].
  split; [apply lookup_insert|]. do 2 (split; [assumption|]).
  split; [cbn; rewrite list_lookup_insert by assumption; reflexivity|].
  do 7 (split; [assumption|]). split.
  { intros Hm0 Hne. pose proof (at_cfg _ _ _ _ _ _ dw_at) as Hc. destruct (c_price _ _ Hc Hm0) as [Hq _].
    rewrite (dw_price Hm0 Hne). unfold bought.
    set (x := mx * scale / p_raw0 p). pose proof (div_ceil_bounds (x * p_raw0 p) scale ltac:(reflexivity)) as Hb.
    set (y := div_ceil (x * p_raw0 p) scale) in *.
    assert (Hx : p_raw0 p * x <= mx * scale < p_raw0 p * x + p_raw0 p).
    { unfold x. pose proof (Z.mul_div_le (mx * scale) (p_raw0 p) ltac:(lia)).
      pose proof (Z.mul_succ_div_gt (mx * scale) (p_raw0 p) ltac:(lia)). lia. }
    symmetry. apply (Z.div_unique _ _ _ (y * scale - p_raw0 p * x)); [left|lia].
    assert (y <= mx). { apply div_ceil_least; [reflexivity|]. lia. }
    assert (y * scale <= mx * scale) by (unfold scale in *; lia). lia. }
  split; [destruct dw_limit; [left; lia|right; lia]|].
  do 6 (split; [reflexivity|]). split; [assumption|].
  eapply moved_ext; [|eapply transfer_moved; eassumption]. reflexivity.
Qed.

(** * C32 *)

Theorem C32_time_windows w o w' l :
  reachable w -> step w o = Ok (w', l) ->
  match o with
  | IEscrowPermissionless k _ _ | IEscrowCreator k _ _ _ _ _ _ | IEscrowMerkle k _ _ _ _ _ _
  | IDeposit k _ _ _ _ _ _ _ _ | IWithdraw k _ _ _ _ _ _ _ _ =>
      exists p, w_presales w !! k = Some p /\ p_start p <= w_now w < p_end p
  | IClaim k _ _ _ _ _ _ _ | ICollectFee k _ _ _ _ _ _ | IUnsold k _ _ _ _ _ =>
      exists p, w_presales w !! k = Some p /\ p_end p <= w_now w /\ p_min_cap p <= p_deposit p
  | ICreatorWithdraw k _ _ _ _ | IWithdrawRemaining k _ _ _ _ _ _ _ =>
      exists p, w_presales w !! k = Some p /\ p_end p <= w_now w
  | _ => True
  end.
Proof.
  intros Hw Hs. pose proof (reachable_inv _ Hw) as Hi.
  pose proof (step_does _ _ _ _ Hi Hs) as Hd.
  destruct Hd; try (destruct o; try discriminate; exact I); try (subst o; try exact I).
  - destruct H1. destruct o; try discriminate; cbn in H0; injection H0 as ? ? ?; subst; eauto.
  - destruct H1. eauto.
  - destruct H1. eauto.
  - destruct H1. exists p. split; [assumption|]. destruct dr_when as [[? _]|[[? _] _]]; assumption.
  - destruct H1. exists p. split; [assumption|]. destruct dm_when. auto.
  - destruct H1. exists p. split; [assumption|].
    destruct dcw_what as [([? _] & _)|([? _] & _)]; assumption.
  - destruct H1. exists p. split; [assumption|]. destruct dfe_when. auto.
  - destruct H1. exists p. split; [assumption|]. destruct du_when. auto.
Qed.

(** * C30 *)

Theorem C30_close_escrow w k ek owner rr w' l :
  reachable w -> step w (ICloseEscrow k ek owner rr) = Ok (w', l) ->
  exists p e r p' r',
    w_presales w !! k = Some p /\ w_escrows w !! ek = Some e /\ e_presale e = k /\
    e_owner e = owner /\ is_wallet owner = true /\
    p_regs p !! Z.to_nat (e_idx e) = Some r /\
    (* nothing of value is lost *)
    (p_start p <= w_now w < p_end p -> e_deposit e = 0 /\ e_fee e = 0) /\
    (failed p (w_now w) -> e_withdrawn e = 1 \/ (e_deposit e = 0 /\ e_fee e = 0)) /\
    (succeeded p (w_now w) -> e_claimed e = final p r (e_deposit e) /\
       (e_withdrawn e = 1 \/
        share_deposit p r (e_deposit e) + share_fee p r (e_fee e) = 0)) /\
    p_start p <= w_now w /\
    (* exactly this escrow disappears and the counts go down by one *)
    w_escrows w' = delete ek (w_escrows w) /\
    w_presales w' = <[k := p']> (w_presales w) /\
    p_escrows p' = p_escrows p - 1 /\ p_regs p' !! Z.to_nat (e_idx e) = Some r' /\
    r_escrows r' = r_escrows r - 1 /\ p_deposit p' = p_deposit p /\ p_fee p' = p_fee p /\
    w_tokens w' = w_tokens w.
Proof.
  intros Hw Hs. pose proof (reachable_inv _ Hw) as Hi. cbn in Hs.
  apply close_did in Hs; [|assumption]. destruct Hs as (p & e & r & D). destruct D.
  assert (Hlen : (Z.to_nat (e_idx e) < length (p_regs p))%nat) by (eapply lookup_lt_Some; eassumption).
  pose proof (c_time _ _ (at_cfg _ _ _ _ _ _ dx_at)) as Htm.
  exists p, e, r, (set_p_escrows (p_escrows p - 1) (set_reg p (e_idx e) (set_r_escrows (r_escrows r - 1) r))),
    (set_r_escrows (r_escrows r - 1) r).
  do 6 (split; [assumption|]).
  unfold open_for_deposits, failed, succeeded, refundable in *.
  split; [|split; [|split; [|split]]].
  - destruct dx_settled as [(? & ?)|[(? & ?)|(? & ?)]]; [auto|lia..].
  - destruct dx_settled as [(? & ?)|[(? & ?)|(? & ?)]]; [lia|auto|lia].
  - intros Hx. destruct (Z.ltb_spec (p_deposit p) (p_min_cap p)) as [|_]; [lia|].
    destruct dx_settled as [(? & ?)|[(? & ?)|(? & ?)]]; [lia|lia|assumption].
  - destruct dx_settled as [(? & ?)|[(? & ?)|(? & ?)]]; lia.
  - subst w'. cbn. repeat (split; [reflexivity|]).
    split; [rewrite list_lookup_insert by assumption; reflexivity|]. auto.
Qed.

(** * C38 *)

Theorem C38_depositor_pays w k qv qm ek pt payer pr mx h w' l :
  reachable w -> step w (IDeposit k qv qm ek pt payer pr mx h) = Ok (w', l) ->
  exists p e r m t p' e' n fee gross,
    w_presales w !! k = Some p /\ w_presales w' !! k = Some p' /\
    w_escrows w !! ek = Some e /\ w_escrows w' !! ek = Some e' /\ e_presale e = k /\
    p_regs p !! Z.to_nat (e_idx e) = Some r /\
    w_mints w !! p_qmint p = Some m /\ w_tokens w !! pt = Some t /\
    is_wallet payer = true /\ (t_owner t = payer \/ exists a, t_delegate t = Some (payer, a) /\ gross <= a) /\
    (* amounts *)
    0 < n <= mx /\ 0 <= fee /\ gross = n + fee + tok_fee m gross /\
    (* the payer's account pays, the vault receives, nobody else is touched *)
    pt <> PQuoteVault k /\ moved w w' pt (PQuoteVault k) gross (tok_fee m gross) /\
    bal w' (PQuoteVault k) = bal w (PQuoteVault k) + (n + fee) /\
    (* exactly this escrow and presale are credited *)
    e_deposit e' = e_deposit e + n /\ e_fee e' = e_fee e + fee /\
    p_deposit p' = p_deposit p + n /\ p_fee p' = p_fee p + fee /\
    (forall x, x <> ek -> w_escrows w' !! x = w_escrows w !! x) /\
    (forall x, x <> k -> w_presales w' !! x = w_presales w !! x).
Proof.
  intros Hw Hs. pose proof (reachable_inv _ Hw) as Hi. cbn in Hs.
  apply deposit_did in Hs; [|assumption].
  destruct Hs as (p & p2 & e & r & m & n & fee & gross & w1 & lx & D). destruct D.
  destruct dd_mint as [-> Hm]. subst qv.
  pose proof dd_transfer as Htr.
  apply tok_transfer_inv in Htr as (m' & s & d & dl & Hm' & Hsrc & Hdst & _ & _ & _ & _ & _ & _ & Hau & _).
  assert (m' = m) as -> by congruence.
  pose proof (at_ok _ _ _ _ _ _ dd_at) as Hok.
  destruct (q_qvault _ _ _ Hok) as (v & Hv & _ & Hvo & [Hvd _] & _).
  destruct (q_qmint _ _ _ Hok) as (m' & Hm'' & _ & Hsup). assert (m' = m) as -> by congruence.
  assert (Hauth : t_owner s = payer \/ exists a, t_delegate s = Some (payer, a) /\ gross <= a).
  { unfold tok_authorize in Hau. rewrite (supported_no_delegate _ Hsup) in Hau.
    assert (Hown : (let* _ := require (bool_decide (None = Some payer) || beq_addr payer (t_owner s)) TokenOwnerMismatch in
      Ok (t_delegate s)) = Ok dl -> t_owner s = payer).
    { intros Hx. bq Hx Hb. cbn in Hb. apply beq_addr_true in Hb. auto. }
    destruct (t_delegate s) as [[dg a]|]; [|auto].
    destruct (beq_addr dg payer) eqn:Hdg; [|auto]. apply beq_addr_true in Hdg as ->.
    bq Hau Hb. clean_bool. right. eauto. }
  assert (Hne : pt <> PQuoteVault k).
  { intros ->. assert (s = v) as -> by congruence. rewrite Hvo, Hvd in Hauth.
    destruct Hauth as [<-|(a & ? & _)]; discriminate. }
  pose proof (transfer_moved _ _ _ _ _ _ _ _ _ _ _ dd_transfer Hm) as Hmv.
  rest_of dd_transfer.
  exists p, e, r, m, s, p2, (esc_deposited e n fee), n, fee, gross. subst w'.
  assert (Hp2 : p_deposit p2 = p_deposit p + n /\ p_fee p2 = p_fee p + fee).
  { destruct dd_end as [(_ & _ & ->)|(_ & ->)]; split; reflexivity. }
  split; [assumption|]. split; [apply lookup_insert|]. split; [assumption|]. split; [apply lookup_insert|].
  do 6 (split; [assumption|]). split; [lia|]. split; [lia|]. split; [lia|]. split; [assumption|].
  split; [eapply moved_ext; [|exact Hmv]; reflexivity|]. split.
  { change (bal w1 (PQuoteVault k) = bal w (PQuoteVault k) + (n + fee)). rewrite (Hmv (PQuoteVault k)).
    rewrite decide_False by assumption. rewrite decide_False by congruence. rewrite decide_True by reflexivity. lia. }
  split; [reflexivity|]. split; [reflexivity|]. destruct Hp2 as [-> ->]. split; [reflexivity|]. split; [reflexivity|].
  split; intros x Hx; cbn; rewrite lookup_insert_ne by congruence; congruence.
Qed.

(** * C49 *)

(** Tokens of mint [mk] in existence: all balances plus withheld fees. *)
Definition in_circulation (w : world) (mk : addr) (m : mint) : Z :=
  msum (fun _ t => if bool_decide (t_mint t = mk) then t_amount t else 0) (w_tokens w) + m_withheld m.

(** What an instruction burns of mint [mk]. *)
Definition burned (w : world) (o : op) (mk : addr) : Z :=
  match o with
  | IUnsold k _ _ _ _ _ =>
      match w_presales w !! k with
      | Some p => if bool_decide (p_bmint p = mk) && (p_unsold p =? 1) then unsold p else 0
      | None => 0
      end
  | _ => 0
  end.

Lemma transfer_supply w pr src mk dst auth n ok w' l x :
  tok_transfer w pr src mk dst auth n ok = Ok (w', l) ->
  match w_mints w !! x, w_mints w' !! x with
  | Some m, Some m' => m_supply m' = m_supply m
  | None, None => True
  | _, _ => False
  end.
Proof.
  intros Hx. apply tok_transfer_inv in Hx as (m & s & d & dl & Hm & _ & _ & _ & _ & _ & _ & _ & _ & _ & Hc).
  destruct Hc as [(_ & -> & _)|(_ & _ & _ & -> & _)].
  - destruct (w_mints w !! x); auto.
  - cbn. destruct (decide (x = mk)) as [->|Hne].
    + rewrite lookup_insert, Hm. reflexivity.
    + rewrite lookup_insert_ne by congruence. destruct (w_mints w !! x); auto.
Qed.
Lemma paid_supply w pr src mk dst n ok w' l x :
  paid w pr src mk dst n ok w' l ->
  match w_mints w !! x, w_mints w' !! x with
  | Some m, Some m' => m_supply m' = m_supply m
  | None, None => True
  | _, _ => False
  end.
Proof.
  intros [[_ Hx]|(_ & -> & _)]; [eapply transfer_supply; eassumption|]. destruct (w_mints w !! x); auto.
Qed.

Theorem C49_supply_conserved w o w' l mk :
  reachable w -> step w o = Ok (w', l) -> env_op o = false ->
  0 <= burned w o mk /\
  match w_mints w !! mk, w_mints w' !! mk with
  | Some m, Some m' =>
      m_supply m' = m_supply m - burned w o mk /\
      in_circulation w' mk m' = in_circulation w mk m - burned w o mk
  | None, None => True
  | _, _ => False
  end.
Proof.
  intros Hw Hs He. pose proof (reachable_inv _ Hw) as Hi. pose proof (inv_step _ _ _ _ Hi Hs) as Hi'.
  assert (Hmain : 0 <= burned w o mk /\
    match w_mints w !! mk, w_mints w' !! mk with
    | Some m, Some m' => m_supply m' = m_supply m - burned w o mk
    | None, None => True
    | _, _ => False
    end).
  { assert (Hnob : (forall k bv bm ct pr h, o <> IUnsold k bv bm ct pr h) -> burned w o mk = 0).
    { intros Hn. destruct o; try reflexivity. exfalso. eapply Hn. reflexivity. }
    assert (Hsame : (forall k bv bm ct pr h, o <> IUnsold k bv bm ct pr h) -> 
      match w_mints w !! mk, w_mints w' !! mk with
      | Some m, Some m' => m_supply m' = m_supply m | None, None => True | _, _ => False end ->
      0 <= burned w o mk /\
      match w_mints w !! mk, w_mints w' !! mk with
      | Some m, Some m' => m_supply m' = m_supply m - burned w o mk | None, None => True | _, _ => False end).
    { intros Hn Hx. rewrite (Hnob Hn). split; [lia|]. destruct (w_mints w !! mk), (w_mints w' !! mk); try exact Hx. lia. }
    clear Hnob.
    destruct (step_does _ _ _ _ Hi Hs); try (apply Hsame; [subst o; congruence|]).
    - congruence.
    - apply Hsame; [intros; destruct o; discriminate|].
      replace (w_mints w') with (w_mints w) by auto. destruct (w_mints w !! mk); auto.
    - destruct H1. subst w'. cbn. apply transfer_supply with (x := mk) in di_transfer. exact di_transfer.
    - apply Hsame; [intros; destruct o; discriminate|].
      destruct H1. subst w'. cbn. destruct (w_mints w !! mk); auto.
    - destruct H1. subst w'. cbn. eapply transfer_supply; eassumption.
    - destruct H1. subst w'. cbn. eapply transfer_supply; eassumption.
    - destruct H1. subst w'. cbn. eapply paid_supply; eassumption.
    - destruct H1. destruct dm_world as (p2 & e2 & -> & _). cbn. eapply paid_supply; eassumption.
    - destruct H1. subst w'. cbn. destruct (w_mints w !! mk); auto.
    - destruct H1. subst w'. cbn. destruct (w_mints w !! mk); auto.
    - destruct H1. subst w'. cbn.
      destruct dcw_what as [(_ & _ & Ht & _)|(_ & _ & Ht & _)]; eapply transfer_supply; eassumption.
    - destruct H1. subst w'. cbn. eapply paid_supply; eassumption.
    - destruct H1. subst w' o. cbn [burned]. rewrite du_presale. cbn [w_mints upd_presale put_presales].
      destruct du_what as [(Hu & Ht)|(Hu & Ht)].
      + rewrite (proj2 (Z.eqb_eq _ _) Hu), andb_true_r.
        apply tok_burn_inv in Ht as (m0 & s & dl & Hm0 & _ & _ & _ & _ & _ & _ & -> & _). cbn.
        destruct du_mint as [-> _]. destruct (decide (p_bmint p = mk)) as [Hb|Hb].
        * rewrite bool_decide_eq_true_2 by assumption. subst mk. rewrite lookup_insert, Hm0. cbn. lia.
        * rewrite bool_decide_eq_false_2 by assumption. rewrite lookup_insert_ne by assumption.
          destruct (w_mints w !! mk); lia.
      + rewrite (proj2 (Z.eqb_neq _ _) Hu), andb_false_r.
        split; [lia|]. apply transfer_supply with (x := mk) in Ht.
        destruct (w_mints w !! mk), (w_mints w1 !! mk); try exact Ht. lia. }
  destruct Hmain as [H0 Hm]. split; [assumption|].
  destruct (w_mints w !! mk) as [m|] eqn:E1, (w_mints w' !! mk) as [m'|] eqn:E2; try exact Hm.
  split; [exact Hm|].
  destruct (tk_supply _ (i_tokens _ Hi) _ _ E1) as [S1 _].
  destruct (tk_supply _ (i_tokens _ Hi') _ _ E2) as [S2 _].
  unfold in_circulation. unfold held in S1, S2. lia.
Qed.

(** * C27, C50: operators, merkle roots, server metadata *)

Theorem C27_operator_control w o w' l x :
  reachable w -> step w o = Ok (w', l) ->
  match w_opers w !! x, w_opers w' !! x with
  | None, Some a =>
      o = ICreateOperator (o_owner a) (o_creator a) /\ is_wallet (o_creator a) = true /\
      x = POperator (o_creator a) (o_owner a)
  | Some a, None => o = IRevokeOperator x (o_creator a) /\ is_wallet (o_creator a) = true
  | Some a, Some b => a = b
  | None, None => True
  end.
Proof.
  intros Hw Hs. pose proof (reachable_inv _ Hw) as Hi.
  destruct (step_helpers _ _ _ _ Hi Hs) as (_ & Ho & _).
  destruct o; try (rewrite Ho; destruct (w_opers w !! x); auto; fail); clear Ho; cbn in Hs.
  - apply create_operator_inv in Hs as (Hsg & Hn & -> & _). cbn.
    destruct (decide (x = POperator creator operator_owner)) as [->|Hne].
    + rewrite lookup_insert, Hn. cbn. auto.
    + rewrite lookup_insert_ne by congruence. destruct (w_opers w !! x); auto.
  - apply revoke_operator_inv in Hs as (a & Ha & Hc & Hsg & -> & _). cbn.
    destruct (decide (x = operator)) as [->|Hne].
    + rewrite lookup_delete, Ha. subst creator. auto.
    + rewrite lookup_delete_ne by congruence. destruct (w_opers w !! x); auto.
Qed.

(** While the pair (creator, operator owner) is not registered again, no escrow of any presale of
    that creator can be created with the operator's signature, whichever account is passed. *)
Theorem C27_revoked_operator w l c oo :
  reachable w -> w_opers w !! POperator c oo = None -> ~ (ICreateOperator oo c ∈ l) ->
  w_opers (run w l) !! POperator c oo = None /\
  forall k p owner oper payer idx cap w' fx,
    w_presales (run w l) !! k = Some p -> p_owner p = c ->
    step (run w l) (IEscrowCreator k owner oper oo payer idx cap) <> Ok (w', fx).
Proof.
  intros Hw Hn Hl.
  assert (Hgone : w_opers (run w l) !! POperator c oo = None).
  { revert w Hw Hn. induction l as [|o l IH]; intros w Hw Hn; [assumption|].
    cbn. apply IH.
    - intros Hin. apply Hl. right. assumption.
    - apply reachable_step. assumption.
    - unfold exec. destruct (step w o) as [[w' fx]|] eqn:Hs; [|assumption].
      pose proof (C27_operator_control w o w' fx (POperator c oo) Hw Hs) as Hc. rewrite Hn in Hc.
      destruct (w_opers w' !! POperator c oo) as [a|]; [|reflexivity].
      destruct Hc as (-> & _ & Hk). injection Hk as -> ->. exfalso. apply Hl. left. }
  split; [assumption|]. intros k p owner oper payer idx cap w' fx Hp Ho Hs. cbn in Hs.
  apply create_authority_inv in Hs as (p0 & a & Hp0 & Ha & _ & _ & _ & Hoo & Hcr & _).
  assert (p0 = p) as -> by congruence.
  pose proof (i_opers _ (reachable_inv _ (reachable_run _ l Hw)) _ _ Ha) as Hk.
  rewrite Hoo, Hcr, Ho in Hk. subst oper. congruence.
Qed.

Theorem C50_merkle_roots w o w' l x :
  reachable w -> step w o = Ok (w', l) ->
  match w_merkles w !! x, w_merkles w' !! x with
  | None, Some c =>
      exists p, w_presales w !! k_presale c = Some p /\ p_wl p = 1 /\ w_now w < p_end p /\
        is_wallet (p_owner p) = true /\ x = PMerkle (k_presale c) (k_version c) /\
        o = ICreateMerkle (k_presale c) (p_owner p) (k_root c) (k_version c)
  | Some c, None =>
      exists p, w_presales w !! k_presale c = Some p /\ is_wallet (p_owner p) = true /\
        ~ (p_start p <= w_now w < p_end p) /\ exists rr, o = ICloseMerkle (k_presale c) x (p_owner p) rr
  | Some a, Some b => a = b
  | None, None => True
  end.
Proof.
  intros Hw Hs. pose proof (reachable_inv _ Hw) as Hi.
  destruct (step_helpers _ _ _ _ Hi Hs) as (Ho & _).
  destruct o; try (rewrite Ho; destruct (w_merkles w !! x); auto; fail); clear Ho; cbn in Hs.
  - apply create_merkle_inv in Hs as (p & Hp & <- & Hsg & Hn & Hpg & Hwl & _ & _ & -> & _). cbn.
    destruct (decide (x = PMerkle presale version)) as [->|Hne].
    + rewrite lookup_insert, Hn. cbn. exists p. split; [assumption|]. split; [assumption|]. split; [|auto].
      pose proof (q_cfg _ _ _ (i_presales _ Hi _ _ Hp)) as Hc. pose proof (c_time _ _ Hc).
      destruct Hpg as [Hg|Hg].
      * unfold get_progress in Hg. destruct (Z.ltb_spec (w_now w) (p_start p)); [lia|].
        destruct (w_now w <? p_end p); [discriminate|]. destruct (_ <=? _); discriminate.
      * apply progress_ongoing in Hg as [_ ?]. assumption.
    + rewrite lookup_insert_ne by congruence. destruct (w_merkles w !! x); auto.
  - apply close_merkle_inv in Hs as (p & c & Hp & Hc & <- & <- & Hsg & _ & Hg & -> & _). cbn.
    destruct (decide (x = config)) as [->|Hne].
    + rewrite lookup_delete, Hc. exists p. split; [assumption|]. split; [assumption|]. split; [|eauto].
      intros Ho. apply Hg. apply progress_ongoing. exact Ho.
    + rewrite lookup_delete_ne by congruence. destruct (w_merkles w !! x); auto.
Qed.

Theorem C50_server_metadata w o w' l x :
  reachable w -> step w o = Ok (w', l) ->
  match w_servers w !! x, w_servers w' !! x with
  | None, Some s =>
      exists p, w_presales w !! s_presale s = Some p /\ p_wl p <> 0 /\ w_now w < p_end p /\
        is_wallet (p_owner p) = true /\ o = ICreateServer (s_presale s) (p_owner p) (s_url s)
  | Some s, None =>
      exists p, w_presales w !! s_presale s = Some p /\ is_wallet (p_owner p) = true /\
        exists rr, o = ICloseServer (s_presale s) x (p_owner p) rr
  | Some a, Some b => a = b
  | None, None => True
  end.
Proof.
  intros Hw Hs. pose proof (reachable_inv _ Hw) as Hi.
  destruct (step_helpers _ _ _ _ Hi Hs) as (_ & _ & Ho & _).
  destruct o; try (rewrite Ho; destruct (w_servers w !! x); auto; fail); clear Ho; cbn in Hs.
  - apply create_server_inv in Hs as (p & Hp & <- & Hsg & Hn & Hwl & Hpg & -> & _). cbn.
    destruct (decide (x = PServer presale)) as [->|Hne].
    + rewrite lookup_insert, Hn. cbn. exists p. split; [assumption|]. split; [lia|]. split; [|auto].
      pose proof (q_cfg _ _ _ (i_presales _ Hi _ _ Hp)) as Hc. pose proof (c_time _ _ Hc).
      destruct Hpg as [Hg|Hg].
      * unfold get_progress in Hg. destruct (Z.ltb_spec (w_now w) (p_start p)); [lia|].
        destruct (w_now w <? p_end p); [discriminate|]. destruct (_ <=? _); discriminate.
      * apply progress_ongoing in Hg as [_ ?]. assumption.
    + rewrite lookup_insert_ne by congruence. destruct (w_servers w !! x); auto.
  - apply close_server_inv in Hs as (p & c & Hp & Hc & <- & <- & Hsg & _ & -> & _). cbn.
    destruct (decide (x = meta)) as [->|Hne].
    + rewrite lookup_delete, Hc. exists p. eauto.
    + rewrite lookup_delete_ne by congruence. destruct (w_servers w !! x); auto.
Qed.

(** Where a published root comes from: in every history, every root config was created by an
    accepted [create_merkle_root_config] of the presale's owner. *)
Theorem C50_root_provenance l x c :
  w_merkles (run genesis l) !! x = Some c ->
  exists l1 l2 p w' fx,
    l = l1 ++ ICreateMerkle (k_presale c) (p_owner p) (k_root c) (k_version c) :: l2 /\
    w_presales (run genesis l1) !! k_presale c = Some p /\ is_wallet (p_owner p) = true /\
    step (run genesis l1) (ICreateMerkle (k_presale c) (p_owner p) (k_root c) (k_version c)) = Ok (w', fx).
Proof.
  induction l as [|o l IH] using rev_ind; intros Hx; [discriminate|].
  unfold run in Hx. rewrite foldl_app in Hx. cbn in Hx. fold (run genesis l) in Hx.
  unfold exec in Hx. destruct (step (run genesis l) o) as [[w' fx]|] eqn:Hs.
  - pose proof (C50_merkle_roots _ _ _ _ x (ex_intro _ l eq_refl) Hs) as Hc. rewrite Hx in Hc.
    destruct (w_merkles (run genesis l) !! x) as [a|] eqn:Ha.
    + subst a. destruct (IH eq_refl) as (l1 & l2 & p & w1 & fx1 & -> & R).
      exists l1, (l2 ++ [o]), p, w1, fx1. split; [|exact R]. rewrite <- app_assoc. reflexivity.
    + destruct Hc as (p & Hp & _ & _ & Hsg & _ & ->). exists l, [], p, w', fx. auto.
  - destruct (IH Hx) as (l1 & l2 & p & w1 & fx1 & -> & R).
    exists l1, (l2 ++ [o]), p, w1, fx1. split; [|exact R]. rewrite <- app_assoc. reflexivity.
Qed.

Theorem C27_operator_provenance l x a :
  w_opers (run genesis l) !! x = Some a ->
  exists l1 l2 w' fx,
    l = l1 ++ ICreateOperator (o_owner a) (o_creator a) :: l2 /\ is_wallet (o_creator a) = true /\
    step (run genesis l1) (ICreateOperator (o_owner a) (o_creator a)) = Ok (w', fx) /\
    ~ (IRevokeOperator x (o_creator a) ∈ l2).
Proof.
  induction l as [|o l IH] using rev_ind; intros Hx; [discriminate|].
  unfold run in Hx. rewrite foldl_app in Hx. cbn in Hx. fold (run genesis l) in Hx.
  unfold exec in Hx. destruct (step (run genesis l) o) as [[w' fx]|] eqn:Hs.
  - pose proof (C27_operator_control _ _ _ _ x (ex_intro _ l eq_refl) Hs) as Hc. rewrite Hx in Hc.
    destruct (w_opers (run genesis l) !! x) as [b|] eqn:Ha.
    + subst b. destruct (IH eq_refl) as (l1 & l2 & w1 & fx1 & -> & Hsg & Hst & Hnr).
      exists l1, (l2 ++ [o]), w1, fx1. split; [rewrite <- app_assoc; reflexivity|].
      split; [assumption|]. split; [assumption|]. intros Hin. apply elem_of_app in Hin as [Hin|Hin]; [auto|].
      apply elem_of_list_singleton in Hin. subst o. cbn in Hs.
      apply revoke_operator_inv in Hs as (b & _ & _ & _ & -> & _). cbn in Hx.
      rewrite lookup_delete in Hx. discriminate.
    + destruct Hc as (-> & Hsg & _). exists l, [], w', fx. split; [reflexivity|]. split; [assumption|].
      split; [assumption|]. intros Hin. apply elem_of_nil in Hin. assumption.
  - destruct (IH Hx) as (l1 & l2 & w1 & fx1 & -> & Hsg & Hst & Hnr).
    exists l1, (l2 ++ [o]), w1, fx1. split; [rewrite <- app_assoc; reflexivity|].
    split; [assumption|]. split; [assumption|]. intros Hin. apply elem_of_app in Hin as [Hin|Hin]; [auto|].
    apply elem_of_list_singleton in Hin. subst o.
    (* the revocation would have been accepted *)
    pose proof (i_opers _ (reachable_inv _ (ex_intro _ _ eq_refl)) _ _ Hx) as _.
    cbn in Hs. unfold revoke_operator in Hs. rewrite Hx in Hs. cbn in Hs.
    unfold has_one, signer in Hs. rewrite beq_addr_refl, Hsg in Hs. discriminate.
Qed.

(** * C26 *)

Theorem C26_whitelist w o w' l ek e :
  reachable w -> step w o = Ok (w', l) ->
  w_escrows w !! ek = None -> w_escrows w' !! ek = Some e ->
  exists p r, w_presales w !! e_presale e = Some p /\
    p_regs p !! Z.to_nat (e_idx e) = Some r /\ 0 <= e_idx e < p_nreg p /\
    ek = PEscrow (e_presale e) (e_owner e) (e_idx e) /\
    p_start p <= w_now w < p_end p /\
    0 < e_cap e /\ r_min_cap r <= e_cap e <= r_max_cap r /\
    e_deposit e = 0 /\ e_fee e = 0 /\ e_claimed e = 0 /\ e_pending e = 0 /\ e_withdrawn e = 0 /\
    ((p_wl p = 0 /\ e_idx e = 0 /\ e_cap e = r_max_cap r) \/
     (p_wl p = 2 /\ exists oper oo payer a,
        o = IEscrowCreator (e_presale e) (e_owner e) oper oo payer (e_idx e) (e_cap e) /\
        is_wallet oo = true /\ w_opers w !! oper = Some a /\ o_owner a = oo /\ o_creator a = p_owner p) \/
     (p_wl p = 1 /\ exists proof mk c,
        w_merkles w !! mk = Some c /\ k_presale c = e_presale e /\
        leads_to (hashv (0 :: hashv (addr_bytes (e_owner e) ++ le_bytes 1 (e_idx e) ++ le_bytes 8 (e_cap e))))
          proof (k_root c))).
Proof.
  intros Hw Hs Hn He. pose proof (reachable_inv _ Hw) as Hi.
  destruct (does_escrow _ _ _ _ ek (step_does _ _ _ _ Hi Hs)).
  - congruence.
  - rewrite He in H3. injection H3 as ->.
    assert (D := H2). destruct H2. exists p, r. cbn.
    do 5 (split; [assumption|]). split; [apply dc_cap|]. split; [apply dc_cap|].
    do 5 (split; [reflexivity|]).
    assert (Hcap : forall c w2 l2, finish_create_escrow w p k owner idx c = Ok (w2, l2) -> w2 = w' ->
      cap = created_cap r c).
    { intros c w2 l2 Hf ->. apply finish_create_inv in Hf as (r2 & _ & _ & _ & Hr2 & _ & _ & _ & Hw2 & _).
      assert (r2 = r) as -> by congruence. subst ek. rewrite Hw2 in He. cbn in He. rewrite lookup_insert in He.
      injection He. auto. }
    destruct o; try discriminate; cbn in H0; injection H0 as ? ? ?; subst; cbn in Hs.
    + left. apply create_permissionless_inv in Hs as (p0 & Hp0 & _ & Hwl & Hf).
      assert (p0 = p) as -> by congruence. rewrite (Hcap _ _ _ Hf eq_refl). auto.
    + right. left. apply create_authority_inv in Hs as (p0 & a & Hp0 & Ha & Hsg & _ & Hwl & Hoo & Hcr & _ & _ & Hf).
      assert (p0 = p) as -> by congruence. rewrite (Hcap _ _ _ Hf eq_refl). split; [assumption|]. cbn.
      eauto 12.
    + right. right. apply create_merkle_escrow_inv in Hs as (p0 & c & Hp0 & Hc & Hk & _ & Hwl & Hv & _ & _ & _ & Hf).
      assert (p0 = p) as -> by congruence. rewrite (Hcap _ _ _ Hf eq_refl). split; [assumption|]. cbn [created_cap].
      exists proof, config, c. split; [assumption|]. split; [assumption|].
      unfold merkle_verify in Hv. apply bool_decide_eq_true_1 in Hv. apply verify_leads. exact Hv.
  - destruct H1. congruence.
  - destruct H1. congruence.
  - destruct H1. congruence.
  - destruct H1. congruence.
  - destruct H1. congruence.
  - congruence.
Qed.

End WithCrypto.

(** Non-vacuity: accepted steps of concrete histories meeting the hypotheses. *)
#[local] Existing Instance toy.

Example C11_example : reachable w_fx_open /\ ok_step w_fx_open (back bob carol_q 0 30) = true /\
  bal w_fx_open (PQuoteVault k1) - bal (after w_fx_open (back bob carol_q 0 30)) (PQuoteVault k1) = 30 /\
  (* an odd amount is rounded to what its tokens cost: 31 -> 12 tokens -> 30 *)
  bal w_fx_open (PQuoteVault k1) - bal (after w_fx_open (back bob carol_q 0 31)) (PQuoteVault k1) = 30.
Proof. split; [apply reach|]. vm_compute. auto. Qed.
Example C12_example : 
  reachable w_pr_over /\ ok_step w_pr_over (getb bob bob_b 0) = true /\
  bal (after w_pr_over (getb bob bob_b 0)) (PBaseVault k1) < bal w_pr_over (PBaseVault k1) /\
  ok_step w_pr_over cw = true /\ bal (after w_pr_over cw) (PQuoteVault k1) < bal w_pr_over (PQuoteVault k1).
Proof. split; [apply reach|]. vm_compute. auto. Qed.
(** Attempts to take tokens without authority are rejected. *)
Example C12_rejected :
  ok_step w_pr_over (ETransfer (PBaseVault k1) bmint alice_b alice Token2022 5 true false true) = false /\
  ok_step w_pr_over (IWithdrawRemaining k1 (PQuoteVault k1) qmint (esc alice 0) bob_q bob SplToken noh) = false /\
  ok_step w_pr_over (ICreatorWithdraw k1 alice_q alice SplToken (mkHenv [PQuoteVault k1; qmint] [] true)) = false.
Proof. vm_compute. auto. Qed.
Example C13_example : reachable w_pr_open /\
  exists e, w_escrows w_pr_open !! esc alice 0 = Some e /\ e_owner e = alice /\
  (* bob deposits for alice; carol refreshes alice's escrow *)
  ok_step w_pr_open (dep alice bob_q bob 0 20) = true /\ ok_step w_pr_open (IRefresh k1 (esc alice 0)) = true.
Proof. split; [apply reach|]. eexists. split. { vm_compute. reflexivity. } vm_compute. auto. Qed.

(** A second presale next to the first. *)
Definition base2 := Wallet 11.
Definition k2 := PPresale base2 bmint qmint.
Definition two : list op := pr_open ++ [
  IInitPresale base2 bmint qmint creator_b creator creator Token2022 SplToken ff_args noh ].
Definition w_two : world := run genesis two.
Example C14_example : reachable w_two /\
  (exists p, w_presales w_two !! k2 = Some p /\ bal w_two (PBaseVault k2) = 3000) /\
  op_presale (dep alice bob_q bob 0 20) <> Some k2 /\ ok_step w_two (dep alice bob_q bob 0 20) = true.
Proof.
  split; [apply reach|]. split. { eexists. split. { vm_compute. reflexivity. } vm_compute. reflexivity. }
  split; [intros Hx; vm_compute in Hx; discriminate|]. vm_compute. reflexivity.
Qed.

Example C26_example :
  ok_step w_mk_open (IEscrowMerkle k1 bob mk_cfg carol [leaf_a] 1 300) = true /\
  w_escrows w_mk_open !! PEscrow k1 bob 1 = None /\
  (* a different cap, registry, owner or root account is rejected *)
  ok_step w_mk_open (IEscrowMerkle k1 bob mk_cfg carol [leaf_a] 1 301) = false /\
  ok_step w_mk_open (IEscrowMerkle k1 bob mk_cfg carol [leaf_a] 0 300) = false /\
  ok_step w_mk_open (IEscrowMerkle k1 carol mk_cfg carol [leaf_a] 1 300) = false /\
  ok_step w_mk_open (IEscrowPermissionless k1 bob bob) = false.
Proof. vm_compute. auto 10. Qed.
Example C27_example :
  ok_step w_pr_open (IRevokeOperator (POperator creator oper) creator) = true /\
  ok_step w_pr_open (IRevokeOperator (POperator creator oper) alice) = false /\
  ok_step w_pr_open (IEscrowCreator k1 carol (POperator creator oper) oper carol 0 400) = true /\
  ok_step (after w_pr_open (IRevokeOperator (POperator creator oper) creator))
    (IEscrowCreator k1 carol (POperator creator oper) oper carol 0 400) = false.
Proof. vm_compute. auto. Qed.
Example C30_example :
  reachable w_ff_paid /\ ok_step w_ff_paid (ICloseEscrow k1 (esc alice 0) alice alice) = true /\
  ok_step w_ff_paid (ICloseEscrow k1 (esc bob 0) bob bob) = false /\
  ok_step w_fx_paid (ICloseEscrow k1 (esc alice 0) alice alice) = true /\
  ok_step w_fx_paid (ICloseEscrow k1 (esc bob 0) bob bob) = false /\
  ok_step w_mk_open (ICloseEscrow k1 (esc alice 0) alice bob) = true.
Proof. split; [apply reach|]. vm_compute. auto. Qed.
Example C32_example :
  (* a deposit one second before the end is accepted, at the end rejected; claims the other way *)
  ok_step (after w_pr_open (EClock 1999)) (dep bob bob_q bob 0 20) = true /\
  ok_step (after w_pr_open (EClock 2000)) (dep bob bob_q bob 0 20) = false /\
  ok_step (after w_pr_open (EClock 1999)) (getb bob bob_b 0) = false /\
  ok_step (after w_pr_open (EClock 2000)) (getb bob bob_b 0) = true.
Proof. vm_compute. auto. Qed.
Definition w_lent : world := after w_pr_open (EApprove bob_q bob alice 100).
Example C38_example : reachable w_lent /\ ok_step w_lent (dep alice bob_q alice 0 50) = true /\
  (* alice deposits with a delegation of 100 tokens from bob *)
  bal w_lent bob_q - bal (after w_lent (dep alice bob_q alice 0 50)) bob_q = 51 /\
  bal (after w_lent (dep alice bob_q alice 0 50)) (PQuoteVault k1) - bal w_lent (PQuoteVault k1) = 51 /\
  bal (after w_lent (dep alice bob_q alice 0 50)) alice_q = bal w_lent alice_q.
Proof. split; [apply (reachable_step w_pr_open), reach|]. vm_compute. auto. Qed.
Example C49_example : reachable w_fx_over /\ ok_step w_fx_over us = true /\ env_op us = false /\
  burned w_fx_over us bmint = 601.
Proof. split; [apply reach|]. vm_compute. auto. Qed.
Example C50_example : reachable w_mk_pre /\
  (exists c, w_merkles w_mk_pre !! mk_cfg = Some c /\ k_root c = mk_root) /\
  (exists s, w_servers w_mk_pre !! PServer k1 = Some s) /\
  ok_step w_mk_pre (ICloseMerkle k1 mk_cfg creator carol) = true /\
  ok_step w_mk_pre (ICloseMerkle k1 mk_cfg alice alice) = false /\
  ok_step w_mk_open (ICloseMerkle k1 mk_cfg creator carol) = false /\
  ok_step w_mk_open (ICreateMerkle k1 creator mk_root 8) = true /\
  ok_step w_mk_open (ICreateMerkle k1 creator mk_root 7) = false /\
  ok_step w_mk_open (ICloseServer k1 (PServer k1) creator creator) = true.
Proof.
  split; [apply reach|]. split. { eexists. split; [vm_compute; reflexivity|]. vm_compute. reflexivity. }
  split. { eexists. vm_compute. reflexivity. } vm_compute. auto 10.
Qed.
