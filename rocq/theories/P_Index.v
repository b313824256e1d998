(** C82: the events alone determine the books.  C83: what they do not determine. *)
From Coq Require Import Lia.
From Verif Require Import Base Math State Handlers Token World Instr Exec Tactics Sums Spec Arith
  TokenFacts Inv Acct Funs Steps Init Preserve Reach Did Trans Flow Scenario P_Solvency P_Access
  P_History P_Arith P_Events.

(** * Specification: a reader who sees nothing but the emitted events *)

(** What the reader writes down about one presale and about one escrow. *)
Record pbook := mkPbook {
  b_deposit : Z; b_fee : Z; b_claimed : Z; b_refunded : Z; b_escrows : Z;
  b_withdrew : bool; b_fees_taken : bool; b_unsold_done : bool
}.
Record ebook := mkEbook { x_deposit : Z; x_fee : Z; x_claimed : Z; x_pending : Z; x_refunded : bool }.
Definition no_pbook : pbook := mkPbook 0 0 0 0 0 false false false.
Definition no_ebook : ebook := mkEbook 0 0 0 0 false.

(** How an event changes the page of presale [k].  Totals are copied, the fees of deposits are
    added up, the escrows are counted. *)
Definition note_presale (k : addr) (b : pbook) (ev : event) : pbook :=
  let '(mkPbook d f c r n cw fc us) := b in
  match ev with
  | EvtDeposit k' _ _ _ total _ fee => if decide (k' = k) then mkPbook total (f + fee) c r n cw fc us else b
  | EvtWithdraw k' _ _ _ total _ => if decide (k' = k) then mkPbook total f c r n cw fc us else b
  | EvtClaim k' _ _ _ total _ => if decide (k' = k) then mkPbook d f total r n cw fc us else b
  | EvtWithdrawRemainingQuote k' _ _ _ total => if decide (k' = k) then mkPbook d f c total n cw fc us else b
  | EvtEscrowCreate k' _ _ total => if decide (k' = k) then mkPbook d f c r total cw fc us else b
  | EvtEscrowClose k' _ _ _ => if decide (k' = k) then mkPbook d f c r (n - 1) cw fc us else b
  | EvtCreatorWithdraw k' _ _ _ => if decide (k' = k) then mkPbook d f c r n true fc us else b
  | EvtCreatorCollectFee k' _ _ => if decide (k' = k) then mkPbook d f c r n cw true us else b
  | EvtPerformUnsoldBaseTokenAction k' _ _ => if decide (k' = k) then mkPbook d f c r n cw fc true else b
  | _ => b
  end.

(** How an event changes the page of escrow [ek].  The creation of an escrow does not name the
    escrow; a page starts empty and closing the escrow empties it. *)
Definition note_escrow (ek : addr) (x : ebook) (ev : event) : ebook :=
  let '(mkEbook d f c n r) := x in
  match ev with
  | EvtDeposit _ e _ total _ _ fee => if decide (e = ek) then mkEbook total (f + fee) c n r else x
  | EvtWithdraw _ e _ total _ _ => if decide (e = ek) then mkEbook total f c n r else x
  | EvtClaim _ e _ total _ _ => if decide (e = ek) then mkEbook d f total 0 r else x
  | EvtEscrowRefresh _ e _ _ pending => if decide (e = ek) then mkEbook d f c pending r else x
  | EvtWithdrawRemainingQuote _ e _ _ _ => if decide (e = ek) then mkEbook d f c n true else x
  | EvtEscrowClose _ e _ _ => if decide (e = ek) then no_ebook else x
  | _ => x
  end.

Definition read_presale (k : addr) (evs : list event) : pbook := fold_left (note_presale k) evs no_pbook.
Definition read_escrow (ek : addr) (evs : list event) : ebook := fold_left (note_escrow ek) evs no_ebook.

(** What the accounts say. *)
Definition pbook_of (p : presale) : pbook :=
  mkPbook (p_deposit p) (p_fee p) (p_claimed p) (p_refunded p) (p_escrows p)
    (p_cwd p =? 1) (p_fee_col p =? 1) (p_unsold_done p =? 1).
Definition ebook_of (e : escrow) : ebook :=
  mkEbook (e_deposit e) (e_fee e) (e_claimed e) (e_pending e) (e_withdrawn e =? 1).

Definition pbook_at (w : world) (k : addr) : pbook :=
  match w_presales w !! k with Some p => pbook_of p | None => no_pbook end.
Definition ebook_at (w : world) (ek : addr) : ebook :=
  match w_escrows w !! ek with Some e => ebook_of e | None => no_ebook end.

(** The presale an event names. *)
Definition event_presale (ev : event) : option addr :=
  match ev with
  | EvtPresaleVaultCreate _ _ _ _ _ _ _ _ _ _ _ | EvtOperatorCreate _ _ _ => None
  | EvtFixedPricePresaleArgsCreate k _ | EvtEscrowCreate k _ _ _ | EvtMerkleRootConfigCreate _ _ k _ _
  | EvtDeposit k _ _ _ _ _ _ | EvtWithdraw k _ _ _ _ _ | EvtClaim k _ _ _ _ _
  | EvtWithdrawRemainingQuote k _ _ _ _ | EvtPerformUnsoldBaseTokenAction k _ _ | EvtEscrowClose k _ _ _
  | EvtCreatorWithdraw k _ _ _ | EvtEscrowRefresh k _ _ _ _ | EvtPermissionedServerMetadataCreate k _ _
  | EvtPermissionedServerMetadataClose k _ | EvtCreatorCollectFee k _ _ | EvtCloseMerkleRootConfig k _ _ => Some k
  end.

(** The escrow an event names. *)
Definition event_escrow (ev : event) : option addr :=
  match ev with
  | EvtDeposit _ ek _ _ _ _ _ | EvtWithdraw _ ek _ _ _ _ | EvtClaim _ ek _ _ _ _
  | EvtWithdrawRemainingQuote _ ek _ _ _ | EvtEscrowClose _ ek _ _ | EvtEscrowRefresh _ ek _ _ _ => Some ek
  | _ => None
  end.

Lemma note_presale_other k b ev : event_presale ev <> Some k -> note_presale k b ev = b.
Proof.
  intros Hn. destruct b, ev; cbn in *; try reflexivity; rewrite decide_False by congruence; reflexivity.
Qed.
Lemma note_escrow_other ek x ev : event_escrow ev <> Some ek -> note_escrow ek x ev = x.
Proof.
  intros Hn. destruct x, ev; cbn in *; try reflexivity; rewrite decide_False by congruence; reflexivity.
Qed.

Section WithCrypto.
Context `{Crypto}.

(** The events of a history, in order.  A refused operation emits none. *)
Fixpoint event_log (w : world) (l : list op) : list event :=
  match l with
  | [] => []
  | o :: l => match step w o with Ok (_, x) => events x | Err _ => [] end ++ event_log (exec w o) l
  end.

Lemma event_log_snoc w l o :
  event_log w (l ++ [o]) =
  event_log w l ++ match step (run w l) o with Ok (_, x) => events x | Err _ => [] end.
Proof.
  revert w. induction l as [|a l IH]; intros w; cbn [app event_log].
  - cbn. apply app_nil_r.
  - rewrite IH, app_assoc. reflexivity.
Qed.

(** The events of helper accounts say nothing about presales and escrows. *)
Lemma aux_event w o w' l ev k ek b x :
  reachable w -> step w o = Ok (w', l) -> aux_op o = true -> ev ∈ events l ->
  note_presale k b ev = b /\ note_escrow ek x ev = x.
Proof.
  intros Hw Hs Ho Hin. apply elem_events in Hin.
  pose proof (truthful_event _ _ _ _ _ Hw Hs Hin) as Ht. destruct b, x.
  destruct ev; try (split; reflexivity); exfalso; cbn in Ht.
  all: repeat match type of Ht with exists _, _ => destruct Ht as [? Ht] end.
  all: destruct Ht as [Ht _]; destruct o; discriminate.
Qed.
Lemma aux_events w o w' l k ek b x :
  reachable w -> step w o = Ok (w', l) -> aux_op o = true ->
  fold_left (note_presale k) (events l) b = b /\ fold_left (note_escrow ek) (events l) x = x.
Proof.
  intros Hw Hs Ho.
  assert (Ha : forall ev, ev ∈ events l -> forall b x, note_presale k b ev = b /\ note_escrow ek x ev = x).
  { intros ev Hev b' x'. eapply aux_event; eassumption. }
  revert b x. generalize (events l) Ha. clear. intros evs. induction evs as [|ev evs IH]; intros Ha b x; cbn; [auto|].
  destruct (Ha ev ltac:(left) b x) as [-> ->]. apply IH. intros ev' Hev'. apply Ha. right. assumption.
Qed.

Lemma read_step w o w' l k ek :
  reachable w -> step w o = Ok (w', l) ->
  fold_left (note_presale k) (events l) (pbook_at w k) = pbook_at w' k /\
  fold_left (note_escrow ek) (events l) (ebook_at w ek) = ebook_at w' ek.
Proof.
  intros Hw Hs. pose proof (reachable_inv _ Hw) as Hi.
  destruct (step_does _ _ _ _ Hi Hs) as
    [Ho Hsp _|Ho _ Hp He _ _ _|base bm qm pt cr payer bp qp a h k0 p m1 m2 gr w1 lx Ho D
    |k0 ow idx cap p r Ho D|k0 qv qm ek0 pt payer pr mx h p p2 e r m am fee gr w1 lx Ho D
    |k0 qv qm ek0 ot ow pr mx h p e r m am w1 lx Ho D|k0 qv qm ek0 ot ow pr h p e r m w1 lx Ho D
    |k0 bv bm ek0 ot ow pr h p e r m w1 lx Ho D|k0 ek0 p e e1 r Ho D|k0 ek0 ow rr p e r Ho D
    |k0 ot ow pr h p m w1 lx Ho D|k0 qv qm rcv ow pr h p m w1 lx Ho D|k0 bv bm ct pr h p m w1 lx Ho D].
  - rewrite (env_silent _ _ _ _ Ho Hs). unfold pbook_at, ebook_at.
    rewrite (sp_presales _ _ Hsp), (sp_escrows _ _ Hsp). auto.
  - unfold pbook_at, ebook_at. rewrite Hp, He. apply aux_events with (1 := Hw) (2 := Hs). assumption.
  - (* init *)
    assert (Hev : exists bm' qm' regs lk ve wl mode st en mx mn,
      events l = [EvtPresaleVaultCreate bm' qm' regs lk ve wl mode st en mx mn]).
    { subst o. cbn [step] in Hs. apply init_inv in Hs as (bm' & qm' & p' & rest & hooks & rest' & pool & amount & w2 & fx & _ & _ & _ & _ & _ & _ & Hk & _ & _ & _ & _ & _ & _ & _ & _ & _ & _ & _ & _ & Htr & _ & ->).
      do 11 eexists. apply events_last. eapply transfer_silent. exact Htr. }
    destruct Hev as (? & ? & ? & ? & ? & ? & ? & ? & ? & ? & ? & ->).
    destruct D. rest_of di_transfer. subst w'. unfold pbook_at, ebook_at. cbn [upd_presale put_presales w_presales w_escrows].
    split.
    + destruct (decide (k = k0)) as [->|Hne].
      * destruct di_new as (-> & _). rewrite lookup_insert. destruct di_presale.
        destruct n_zero as (Z1 & Z2 & Z3 & Z4 & Z5), n_flags as (F1 & F2 & F3).
        cbn. unfold pbook_of. rewrite Z1, Z2, Z3, Z4, Z5, F1, F2, F3. reflexivity.
      * rewrite lookup_insert_ne by congruence. rewrite Rp. cbn. destruct (_ !! k) as [[]|]; reflexivity.
    + rewrite Re. cbn. destruct (_ !! ek) as [[]|]; reflexivity.
  - (* escrow creation *)
    destruct D. subst w' l. unfold pbook_at, ebook_at.
    cbn [upd_presale put_presales upd_escrow put_escrows w_presales w_escrows events fold_left].
    split.
    + destruct (decide (k0 = k)) as [->|Hne].
      * rewrite dc_presale, lookup_insert. cbn. rewrite decide_True by reflexivity. reflexivity.
      * rewrite lookup_insert_ne by congruence. apply note_presale_other; cbn; congruence.
    + destruct (decide (PEscrow k0 ow idx = ek)) as [<-|Hne].
      * rewrite dc_new, lookup_insert. reflexivity.
      * rewrite lookup_insert_ne by congruence. destruct (_ !! ek); reflexivity.
  - (* deposit *)
    destruct D. rest_of dd_transfer. subst w' l.
    rewrite events_last by (eapply transfer_silent; exact dd_transfer). unfold pbook_at, ebook_at.
    cbn [upd_presale put_presales upd_escrow put_escrows w_presales w_escrows fold_left].
    split.
    + destruct (decide (k0 = k)) as [->|Hne].
      * rewrite dd_presale, lookup_insert. cbn. rewrite decide_True by reflexivity.
        destruct dd_end as [(_ & _ & ->)|(_ & ->)]; reflexivity.
      * rewrite lookup_insert_ne by congruence. rewrite Rp. apply note_presale_other; cbn; congruence.
    + destruct (decide (ek0 = ek)) as [->|Hne].
      * rewrite dd_escrow, lookup_insert. cbn. rewrite decide_True by reflexivity. reflexivity.
      * rewrite lookup_insert_ne by congruence. rewrite Re. apply note_escrow_other; cbn; congruence.
  - (* withdrawal *)
    destruct D. rest_of dw_transfer. subst w' l.
    rewrite events_last by (eapply transfer_silent; exact dw_transfer). unfold pbook_at, ebook_at.
    cbn [upd_presale put_presales upd_escrow put_escrows w_presales w_escrows fold_left].
    split.
    + destruct (decide (k0 = k)) as [->|Hne].
      * rewrite dw_presale, lookup_insert. cbn. rewrite decide_True by reflexivity. reflexivity.
      * rewrite lookup_insert_ne by congruence. rewrite Rp. apply note_presale_other; cbn; congruence.
    + destruct (decide (ek0 = ek)) as [->|Hne].
      * rewrite dw_escrow, lookup_insert. cbn. rewrite decide_True by reflexivity. reflexivity.
      * rewrite lookup_insert_ne by congruence. rewrite Re. apply note_escrow_other; cbn; congruence.
  - (* refund *)
    destruct D. rest_of dr_paid. subst w' l.
    rewrite events_last by (eapply paid_silent; exact dr_paid). unfold pbook_at, ebook_at.
    cbn [upd_presale put_presales upd_escrow put_escrows w_presales w_escrows fold_left].
    split.
    + destruct (decide (k0 = k)) as [->|Hne].
      * rewrite dr_presale, lookup_insert. cbn. rewrite decide_True by reflexivity. reflexivity.
      * rewrite lookup_insert_ne by congruence. rewrite Rp. apply note_presale_other; cbn; congruence.
    + destruct (decide (ek0 = ek)) as [->|Hne].
      * rewrite dr_escrow, lookup_insert. cbn. rewrite decide_True by reflexivity. reflexivity.
      * rewrite lookup_insert_ne by congruence. rewrite Re. apply note_escrow_other; cbn; congruence.
  - (* claim *)
    destruct D. rest_of dm_paid. destruct dm_world as (p2 & e2 & -> & -> & ->). subst l.
    rewrite events_last by (eapply paid_silent; exact dm_paid). unfold pbook_at, ebook_at.
    cbn [upd_presale put_presales upd_escrow put_escrows w_presales w_escrows fold_left].
    split.
    + destruct (decide (k0 = k)) as [->|Hne].
      * rewrite dm_presale, lookup_insert. cbn. rewrite decide_True by reflexivity. reflexivity.
      * rewrite lookup_insert_ne by congruence. rewrite Rp. apply note_presale_other; cbn; congruence.
    + destruct (decide (ek0 = ek)) as [->|Hne].
      * rewrite dm_escrow, lookup_insert. cbn. rewrite decide_True by reflexivity. reflexivity.
      * rewrite lookup_insert_ne by congruence. rewrite Re. apply note_escrow_other; cbn; congruence.
  - (* refresh *)
    destruct D. subst w' l. unfold pbook_at, ebook_at.
    cbn [upd_escrow put_escrows w_presales w_escrows fold_left events].
    split.
    + destruct (_ !! k); reflexivity.
    + destruct (decide (ek0 = ek)) as [->|Hne].
      * rewrite df_escrow, lookup_insert. cbn. rewrite decide_True by reflexivity.
        destruct df_what as [(_ & _ & ->)|(_ & ->)]; reflexivity.
      * rewrite lookup_insert_ne by congruence. apply note_escrow_other; cbn; congruence.
  - (* close *)
    destruct D. subst w' l. unfold pbook_at, ebook_at.
    cbn [upd_presale put_presales put_escrows w_presales w_escrows fold_left events].
    split.
    + destruct (decide (k0 = k)) as [->|Hne].
      * rewrite dx_presale, lookup_insert. cbn. rewrite decide_True by reflexivity. reflexivity.
      * rewrite lookup_insert_ne by congruence. apply note_presale_other; cbn; congruence.
    + destruct (decide (ek0 = ek)) as [->|Hne].
      * rewrite dx_escrow, lookup_delete. cbn. rewrite decide_True by reflexivity. reflexivity.
      * rewrite lookup_delete_ne by congruence. apply note_escrow_other; cbn; congruence.
  - (* creator withdrawal *)
    destruct D. subst w'. unfold pbook_at, ebook_at.
    cbn [upd_presale put_presales w_presales w_escrows].
    assert (Hev : w_presales w1 = w_presales w /\ w_escrows w1 = w_escrows w /\
                  exists n x, events l = [EvtCreatorWithdraw k0 n ow x]).
    { destruct dcw_what as [(_ & _ & Ht & ->)|(_ & _ & Ht & ->)]; rest_of Ht;
        (split; [assumption|]); (split; [assumption|]); eexists _, _; apply events_last; eapply transfer_silent; exact Ht. }
    destruct Hev as (-> & -> & n & x & ->). cbn [fold_left]. split.
    + destruct (decide (k0 = k)) as [->|Hne].
      * rewrite dcw_presale, lookup_insert. cbn. rewrite decide_True by reflexivity. reflexivity.
      * rewrite lookup_insert_ne by congruence. apply note_presale_other; cbn; congruence.
    + destruct (_ !! ek); reflexivity.
  - (* fees *)
    destruct D. rest_of dfe_paid. subst w' l.
    rewrite events_last by (eapply paid_silent; exact dfe_paid). unfold pbook_at, ebook_at.
    cbn [upd_presale put_presales w_presales w_escrows fold_left].
    split.
    + destruct (decide (k0 = k)) as [->|Hne].
      * rewrite dfe_presale, lookup_insert. cbn. rewrite decide_True by reflexivity. reflexivity.
      * rewrite lookup_insert_ne by congruence. rewrite Rp. apply note_presale_other; cbn; congruence.
    + rewrite Re. destruct (_ !! ek); reflexivity.
  - (* unsold *)
    destruct D. subst w' l. unfold pbook_at, ebook_at.
    cbn [upd_presale put_presales w_presales w_escrows].
    assert (Hev : w_presales w1 = w_presales w /\ w_escrows w1 = w_escrows w /\ events lx = []).
    { destruct du_what as [(_ & Ht)|(_ & Ht)]; rest_of Ht; (split; [assumption|]); (split; [assumption|]);
        [eapply burn_silent; exact Ht|eapply transfer_silent; exact Ht]. }
    destruct Hev as (-> & -> & Hlx). rewrite (events_last _ _ Hlx). cbn [fold_left]. split.
    + destruct (decide (k0 = k)) as [->|Hne].
      * rewrite du_presale, lookup_insert. cbn. rewrite decide_True by reflexivity. reflexivity.
      * rewrite lookup_insert_ne by congruence. apply note_presale_other; cbn; congruence.
    + destruct (_ !! ek); reflexivity.
Qed.

Lemma read_run l k ek :
  read_presale k (event_log genesis l) = pbook_at (run genesis l) k /\
  read_escrow ek (event_log genesis l) = ebook_at (run genesis l) ek.
Proof.
  induction l as [|o l [IHp IHe]] using rev_ind.
  - unfold pbook_at, ebook_at. cbn. rewrite !lookup_empty. auto.
  - rewrite run_snoc, event_log_snoc. unfold read_presale, read_escrow in *. rewrite !fold_left_app, IHp, IHe.
    unfold exec. destruct (step (run genesis l) o) as [[w' x]|] eqn:Hs; [|auto].
    apply (read_step _ _ _ _ k ek) in Hs; [exact Hs|exists l; reflexivity].
Qed.

(** * C82 *)

(** After every history the reader's page of a presale is the presale account: deposits, fees,
    claims, refunds, number of escrows, and whether the creator withdrew, the fees were collected
    and the unsold tokens were dealt with. *)
Theorem C82_presale_books l k p :
  w_presales (run genesis l) !! k = Some p ->
  let b := read_presale k (event_log genesis l) in
  b_deposit b = p_deposit p /\ b_fee b = p_fee p /\ b_claimed b = p_claimed p /\
  b_refunded b = p_refunded p /\ b_escrows b = p_escrows p /\
  (b_withdrew b = true <-> p_cwd p = 1) /\ (b_fees_taken b = true <-> p_fee_col p = 1) /\
  (b_unsold_done b = true <-> p_unsold_done p = 1).
Proof.
  intros Hp. cbv zeta. destruct (read_run l k k) as [-> _]. unfold pbook_at. rewrite Hp. cbn.
  rewrite !Z.eqb_eq. intuition.
Qed.

(** The same for an escrow, including what was pending when it was last refreshed. *)
Theorem C82_escrow_books l ek e :
  w_escrows (run genesis l) !! ek = Some e ->
  let x := read_escrow ek (event_log genesis l) in
  x_deposit x = e_deposit e /\ x_fee x = e_fee e /\ x_claimed x = e_claimed e /\
  x_pending x = e_pending e /\ (x_refunded x = true <-> e_withdrawn e = 1).
Proof.
  intros He. cbv zeta. destruct (read_run l ek ek) as [_ ->]. unfold ebook_at. rewrite He. cbn.
  rewrite Z.eqb_eq. intuition.
Qed.

(** Where there is no account the page is empty: nothing is announced about accounts that do not
    exist, and nothing is left over from an escrow that was closed. *)
Theorem C82_nothing_else l a :
  (w_presales (run genesis l) !! a = None -> read_presale a (event_log genesis l) = no_pbook) /\
  (w_escrows (run genesis l) !! a = None -> read_escrow a (event_log genesis l) = no_ebook).
Proof.
  destruct (read_run l a a) as [-> ->]. unfold pbook_at, ebook_at. split; intros ->; reflexivity.
Qed.

(** Two histories with the same events leave the same books, whatever else happened in between. *)
Corollary C82_same_events l1 l2 k p1 p2 ek e1 e2 :
  event_log genesis l1 = event_log genesis l2 ->
  (w_presales (run genesis l1) !! k = Some p1 -> w_presales (run genesis l2) !! k = Some p2 ->
   p_deposit p1 = p_deposit p2 /\ p_fee p1 = p_fee p2 /\ p_claimed p1 = p_claimed p2 /\
   p_refunded p1 = p_refunded p2 /\ p_escrows p1 = p_escrows p2) /\
  (w_escrows (run genesis l1) !! ek = Some e1 -> w_escrows (run genesis l2) !! ek = Some e2 ->
   e_deposit e1 = e_deposit e2 /\ e_fee e1 = e_fee e2 /\ e_claimed e1 = e_claimed e2 /\
   e_pending e1 = e_pending e2).
Proof.
  intros Hl. split; intros H1 H2.
  - apply C82_presale_books in H1, H2. rewrite Hl in H1. cbv zeta in *. intuition congruence.
  - apply C82_escrow_books in H1, H2. rewrite Hl in H1. cbv zeta in *. intuition congruence.
Qed.

(** * C83 *)

(** Every event but two names the presale the instruction was about; the creation of a presale names
    its two mints only, the creation of an operator belongs to no presale. *)
Theorem C83_events_name_presale w o w' l ev :
  reachable w -> step w o = Ok (w', l) -> ev ∈ events l ->
  match o with
  | IInitPresale base bm qm _ _ _ _ _ _ _ => exists regs lk ve wl mode st en mx mn,
      ev = EvtPresaleVaultCreate bm qm regs lk ve wl mode st en mx mn
  | _ => event_presale ev = op_presale o
  end.
Proof.
  intros Hw Hs Hin. apply elem_events in Hin.
  pose proof (truthful_event _ _ _ _ _ Hw Hs Hin) as Ht.
  destruct ev; cbn in Ht.
  all: repeat match type of Ht with exists _, _ => destruct Ht as [? Ht] end.
  all: destruct Ht as [Ht _].
  all: try (subst o; cbn; try reflexivity; do 9 eexists; reflexivity).
  destruct o; try discriminate Ht; cbn in Ht; injection Ht as -> _ _; reflexivity.
Qed.

End WithCrypto.

(** * Examples *)

#[local] Existing Instance toy.

Definition base2 : addr := Wallet 77.
Definition other_init : op :=
  IInitPresale base2 bmint qmint creator_b creator creator Token2022 SplToken pr_args noh.

(** The event of a presale's creation does not identify the presale: two histories with the same
    events, one with a presale where the other has none. *)
Theorem C83_creation_identifies_presale_refuted :
  exists l1 l2 k, event_log genesis l1 = event_log genesis l2 /\
    is_Some (w_presales (run genesis l1) !! k) /\ w_presales (run genesis l2) !! k = None.
Proof.
  exists (setup ++ [pr_init]), (setup ++ [other_init]), k1.
  assert (Hx : event_log genesis (setup ++ [pr_init]) = event_log genesis (setup ++ [other_init]) /\
    bool_decide (is_Some (w_presales (run genesis (setup ++ [pr_init])) !! k1)) = true /\
    bool_decide (is_Some (w_presales (run genesis (setup ++ [other_init])) !! k1)) = false).
  { vm_compute. auto. }
  destruct Hx as (H1 & H2 & H3). split; [exact H1|]. split; [apply bool_decide_eq_true in H2; exact H2|].
  apply bool_decide_eq_false in H3. apply eq_None_not_Some. exact H3.
Qed.

(** The event of an escrow's creation does not tell the registry it was created for. *)
Definition in_registry (i : Z) : list op := setup ++ [
  pr_init; ICreateOperator oper creator; IEscrowCreator k1 alice (POperator creator oper) oper alice i 400 ].
Theorem C83_creation_identifies_registry_refuted :
  exists l1 l2 ek, event_log genesis l1 = event_log genesis l2 /\
    is_Some (w_escrows (run genesis l1) !! ek) /\ w_escrows (run genesis l2) !! ek = None.
Proof.
  exists (in_registry 0), (in_registry 1), (esc alice 0).
  assert (Hx : event_log genesis (in_registry 0) = event_log genesis (in_registry 1) /\
    bool_decide (is_Some (w_escrows (run genesis (in_registry 0)) !! esc alice 0)) = true /\
    bool_decide (is_Some (w_escrows (run genesis (in_registry 1)) !! esc alice 0)) = false).
  { vm_compute. auto. }
  destruct Hx as (H1 & H2 & H3). split; [exact H1|]. split; [apply bool_decide_eq_true in H2; exact H2|].
  apply bool_decide_eq_false in H3. apply eq_None_not_Some. exact H3.
Qed.

(** A reader of the prorata scenario, after claims, a refund and the creator's withdrawal. *)
Example C82_in_use :
  read_presale k1 (event_log genesis pr_paid) = pbook_at (run genesis pr_paid) k1 /\
  b_deposit (pbook_at (run genesis pr_paid) k1) = 1551 /\
  b_withdrew (pbook_at (run genesis pr_paid) k1) = true /\
  bool_decide (0 < b_claimed (pbook_at (run genesis pr_paid) k1)) = true /\
  bool_decide (0 < x_claimed (read_escrow (esc alice 0) (event_log genesis pr_paid))) = true /\
  x_refunded (read_escrow (esc alice 0) (event_log genesis pr_paid)) = true.
Proof. vm_compute. auto 10. Qed.
