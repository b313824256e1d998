(** C93: the order of the payouts does not matter, and no payout takes anything from another. *)
From Coq Require Import Lia.
From Verif Require Import Base Math State Handlers Token World Instr Exec Tactics Sums Spec Arith
  TokenFacts Inv Acct Funs Steps Init Preserve Reach Did Trans Flow Scenario P_Solvency P_Payout.

(** * Specification *)

(** What a payout settles: the claim or the refund of an escrow, the creator's proceeds, fees or
    unsold tokens of a presale. *)
Definition settles (o : op) : option (nat * addr) :=
  match o with
  | IClaim _ _ _ ek _ _ _ _ => Some (0%nat, ek)
  | IWithdrawRemaining _ _ _ ek _ _ _ _ => Some (1%nat, ek)
  | ICreatorWithdraw k _ _ _ _ => Some (2%nat, k)
  | ICollectFee k _ _ _ _ _ _ => Some (3%nat, k)
  | IUnsold k _ _ _ _ _ => Some (4%nat, k)
  | _ => None
  end.

(** A payout that is asked for by the right party, in the right phase, not paid before, to a token
    account that can receive it. *)
Definition payable (w : world) (o : op) : Prop :=
  match o with
  | IClaim k bv bm ek ot owner pr h => exists p e m,
      w_presales w !! k = Some p /\ w_escrows w !! ek = Some e /\ e_presale e = k /\
      owner = e_owner e /\ is_wallet owner = true /\ succeeded p (w_now w) /\
      bv = PBaseVault k /\ bm = p_bmint p /\
      receivable w bv bm ot pr TransferHookBase (h_accounts h) h m
  | IWithdrawRemaining k qv qm ek ot owner pr h => exists p e m,
      w_presales w !! k = Some p /\ w_escrows w !! ek = Some e /\ e_presale e = k /\
      owner = e_owner e /\ is_wallet owner = true /\ e_withdrawn e = 0 /\
      (failed p (w_now w) \/ (succeeded p (w_now w) /\ p_mode p = 1)) /\
      qv = PQuoteVault k /\ qm = p_qmint p /\
      receivable w qv qm ot pr TransferHookQuote (h_accounts h) h m
  | ICreatorWithdraw k ot owner pr h => exists p rest m,
      w_presales w !! k = Some p /\ owner = p_owner p /\ is_wallet owner = true /\
      p_end p <= w_now w /\ p_cwd p = 0 /\
      (p_min_cap p <= p_deposit p -> h_accounts h = PQuoteVault k :: p_qmint p :: rest /\
        receivable w (PQuoteVault k) (p_qmint p) ot pr TransferHookQuote rest h m) /\
      (p_deposit p < p_min_cap p -> h_accounts h = PBaseVault k :: p_bmint p :: rest /\
        receivable w (PBaseVault k) (p_bmint p) ot pr TransferHookBase rest h m)
  | ICollectFee k qv qm rcv owner pr h => exists p m,
      w_presales w !! k = Some p /\ owner = p_owner p /\ is_wallet owner = true /\
      succeeded p (w_now w) /\ p_fee_col p = 0 /\
      qv = PQuoteVault k /\ qm = p_qmint p /\
      receivable w qv qm rcv pr TransferHookQuote (h_accounts h) h m
  | IUnsold k bv bm ct pr h => exists p m t,
      w_presales w !! k = Some p /\ succeeded p (w_now w) /\ p_unsold_done p = 0 /\
      0 < p_supply p - lsum (sold p) (p_regs p) /\ (p_unsold p = 1 -> m_native m = false) /\
      bv = PBaseVault k /\ bm = p_bmint p /\ pr = m_prog m /\ ct = Ata (p_owner p) bm pr /\
      w_tokens w !! ct = Some t /\ t_owner t = p_owner p /\
      receivable w bv bm ct pr TransferHookBase (h_accounts h) h m
  | _ => False
  end.

(** * The effect of a payout, as additions *)

Inductive kind :=
| KClaim (ek : addr) (i n : Z) | KRefund (ek : addr) (i n : Z) | KCreator | KFee | KUnsold.

Definition rclaim (n : Z) (r : registry) : registry := set_r_claimed (r_claimed r + n) r.
Definition rrefund (n : Z) (r : registry) : registry := set_r_refunded (r_refunded r + n) r.
Definition on_p (x : kind) (p : presale) : presale :=
  match x with
  | KClaim _ i n => set_p_claimed (p_claimed p + n)
      (set_p_regs (alter (rclaim n) (Z.to_nat i) (p_regs p)) p)
  | KRefund _ i n => set_p_refunded (p_refunded p + n)
      (set_p_regs (alter (rrefund n) (Z.to_nat i) (p_regs p)) p)
  | KCreator => set_p_cwd 1 p
  | KFee => set_p_fee_col 1 p
  | KUnsold => set_p_unsold_done 1 p
  end.
Definition eclaim (now n : Z) (e : escrow) : escrow :=
  set_e_refreshed now (set_e_pending 0 (set_e_claimed (e_claimed e + n) e)).
Definition on_e (x : kind) (now : Z) (E : gmap addr escrow) : gmap addr escrow :=
  match x with
  | KClaim ek _ n => alter (eclaim now n) ek E
  | KRefund ek _ _ => alter (set_e_withdrawn 1) ek E
  | _ => E
  end.
Definition tadd (n : Z) (t : token) : token := set_t_amount (t_amount t + n) t.
Definition madd (f b : Z) (m : mint) : mint := set_m_supply (m_supply m - b) (set_m_withheld (m_withheld m + f) m).

Record eff := mkEff {
  x_kind : kind; x_key : addr; x_src : addr; x_dst : addr; x_mint : addr;
  x_out : Z; x_in : Z; x_fee : Z; x_burn : Z
}.
Definition apply (x : eff) (w : world) : world :=
  mkW (w_now w) (alter (on_p (x_kind x)) (x_key x) (w_presales w))
    (on_e (x_kind x) (w_now w) (w_escrows w))
    (alter (tadd (x_in x)) (x_dst x) (alter (tadd (- x_out x)) (x_src x) (w_tokens w)))
    (alter (madd (x_fee x) (x_burn x)) (x_mint x) (w_mints w))
    (w_fixed w) (w_merkles w) (w_opers w) (w_servers w).

Definition send (x : kind) (k src dst mk : addr) (m : mint) (n : Z) : eff :=
  if decide (src = dst) then mkEff x k src dst mk 0 0 0 0
  else mkEff x k src dst mk n (n - tok_fee m n) (tok_fee m n) 0.
Definition burn (x : kind) (k src mk : addr) (n : Z) : eff := mkEff x k src src mk n 0 0 n.

Definition effect (w : world) (o : op) : option eff :=
  match o with
  | IClaim k bv bm ek ot _ _ _ =>
      p ← w_presales w !! k; e ← w_escrows w !! ek; m ← w_mints w !! bm;
      r ← p_regs p !! Z.to_nat (e_idx e);
      Some (send (KClaim ek (e_idx e) (due p r e (w_now w))) k bv ot bm m (due p r e (w_now w)))
  | IWithdrawRemaining k qv qm ek ot _ _ _ =>
      p ← w_presales w !! k; e ← w_escrows w !! ek; m ← w_mints w !! qm;
      r ← p_regs p !! Z.to_nat (e_idx e);
      Some (send (KRefund ek (e_idx e) (refundable p r e)) k qv ot qm m (refundable p r e))
  | ICreatorWithdraw k ot _ _ _ =>
      p ← w_presales w !! k;
      if p_deposit p <? p_min_cap p
      then m ← w_mints w !! p_bmint p; Some (send KCreator k (PBaseVault k) ot (p_bmint p) m (p_supply p))
      else m ← w_mints w !! p_qmint p; Some (send KCreator k (PQuoteVault k) ot (p_qmint p) m (raise p))
  | ICollectFee k qv qm rcv _ _ _ =>
      p ← w_presales w !! k; m ← w_mints w !! qm;
      Some (send KFee k qv rcv qm m (fee_income p))
  | IUnsold k bv bm ct _ _ =>
      p ← w_presales w !! k; m ← w_mints w !! bm;
      if p_unsold p =? 1 then Some (burn KUnsold k bv bm (unsold p))
      else Some (send KUnsold k bv ct bm m (unsold p))
  | _ => None
  end.

(** ** Effects commute *)

Lemma alter_comm_at `{Countable K} {A} (f g : A -> A) (i j : K) (M : gmap K A) :
  (forall a, f (g a) = g (f a)) -> alter f i (alter g j M) = alter g j (alter f i M).
Proof.
  intros Hfg. destruct (decide (i = j)) as [->|Hne].
  - rewrite <- !alter_compose. apply alter_ext. intros a _. apply Hfg.
  - apply alter_commute. assumption.
Qed.
Lemma list_alter_comm_at {A} (f g : A -> A) (i j : nat) (l : list A) :
  (forall a, f (g a) = g (f a)) -> alter f i (alter g j l) = alter g j (alter f i l).
Proof.
  intros Hfg. destruct (decide (i = j)) as [->|Hne].
  - rewrite <- !list_alter_compose. apply list_alter_ext. intros a _. apply Hfg. reflexivity.
  - apply list_alter_commute. assumption.
Qed.

Lemma rclaim_comm a b r : rclaim a (rclaim b r) = rclaim b (rclaim a r).
Proof. destruct r. unfold rclaim, set_r_claimed. cbn. f_equal. lia. Qed.
Lemma rrefund_comm a b r : rrefund a (rrefund b r) = rrefund b (rrefund a r).
Proof. destruct r. unfold rrefund, set_r_refunded. cbn. f_equal. lia. Qed.
Lemma mixed_comm a b r : rclaim a (rrefund b r) = rrefund b (rclaim a r).
Proof. reflexivity. Qed.

Definition books_at (c f : Z) (R : list registry) (p : presale) : presale :=
  set_p_claimed c (set_p_refunded f (set_p_regs R p)).
Lemma on_p_comm x y p : on_p x (on_p y p) = on_p y (on_p x p).
Proof.
  destruct x as [a i n|a i n| | |], y as [b j m|b j m| | |].
  3-5,8-25: reflexivity.
  - transitivity (books_at (p_claimed p + m + n) (p_refunded p)
      (alter (rclaim n) (Z.to_nat i) (alter (rclaim m) (Z.to_nat j) (p_regs p))) p); [reflexivity|].
    rewrite list_alter_comm_at by apply rclaim_comm.
    replace (p_claimed p + m + n) with (p_claimed p + n + m) by lia. reflexivity.
  - transitivity (books_at (p_claimed p + n) (p_refunded p + m)
      (alter (rclaim n) (Z.to_nat i) (alter (rrefund m) (Z.to_nat j) (p_regs p))) p); [reflexivity|].
    rewrite list_alter_comm_at by apply mixed_comm. reflexivity.
  - transitivity (books_at (p_claimed p + m) (p_refunded p + n)
      (alter (rrefund n) (Z.to_nat i) (alter (rclaim m) (Z.to_nat j) (p_regs p))) p); [reflexivity|].
    rewrite list_alter_comm_at by reflexivity. reflexivity.
  - transitivity (books_at (p_claimed p) (p_refunded p + m + n)
      (alter (rrefund n) (Z.to_nat i) (alter (rrefund m) (Z.to_nat j) (p_regs p))) p); [reflexivity|].
    rewrite list_alter_comm_at by apply rrefund_comm.
    replace (p_refunded p + m + n) with (p_refunded p + n + m) by lia. reflexivity.
Qed.
Lemma eclaim_comm now a b e : eclaim now a (eclaim now b e) = eclaim now b (eclaim now a e).
Proof.
  transitivity (set_e_refreshed now (set_e_pending 0 (set_e_claimed (e_claimed e + b + a) e))); [reflexivity|].
  replace (e_claimed e + b + a) with (e_claimed e + a + b) by lia. reflexivity.
Qed.
Lemma on_e_comm x y now E : on_e x now (on_e y now E) = on_e y now (on_e x now E).
Proof.
  destruct x, y; cbn [on_e]; try (apply alter_comm_at; intros e; first [apply eclaim_comm|reflexivity]); reflexivity.
Qed.
Lemma tadd_comm a b t : tadd a (tadd b t) = tadd b (tadd a t).
Proof. destruct t. unfold tadd, set_t_amount. cbn. f_equal. lia. Qed.
Lemma madd_comm a b c d m : madd a b (madd c d m) = madd c d (madd a b m).
Proof. destruct m. unfold madd, set_m_supply, set_m_withheld. cbn. f_equal; lia. Qed.

Lemma apply_comm x y w : apply x (apply y w) = apply y (apply x w).
Proof.
  unfold apply. cbn. f_equal.
  - apply alter_comm_at. apply on_p_comm.
  - apply on_e_comm.
  - rewrite !(alter_comm_at (tadd (- x_out x)) _ (x_src x)) by (intros; apply tadd_comm).
    rewrite (alter_comm_at (tadd (x_in x)) _ (x_dst x) (x_dst y)) by (intros; apply tadd_comm).
    rewrite (alter_comm_at (tadd (x_in x)) _ (x_dst x) (x_src y)) by (intros; apply tadd_comm). reflexivity.
  - apply alter_comm_at. intros. apply madd_comm.
Qed.

(** ** Amounts do not depend on earlier payouts *)

Definition same_r (r r' : registry) : Prop :=
  r_deposit r' = r_deposit r /\ r_supply r' = r_supply r /\ r_fee r' = r_fee r.

Lemma on_p_reg x p i r : p_regs p !! i = Some r -> exists r', p_regs (on_p x p) !! i = Some r' /\ same_r r r'.
Proof.
  intros Hr. unfold same_r. destruct x as [a j n|a j n| | |]; cbn; eauto.
  - destruct (decide (i = Z.to_nat j)) as [->|Hne].
    + rewrite list_lookup_alter, Hr. cbn. eauto.
    + rewrite list_lookup_alter_ne by congruence. eauto.
  - destruct (decide (i = Z.to_nat j)) as [->|Hne].
    + rewrite list_lookup_alter, Hr. cbn. eauto.
    + rewrite list_lookup_alter_ne by congruence. eauto.
Qed.
Lemma lsum_alter f g i l : (forall r : registry, f (g r) = f r) -> lsum f (alter g i l) = lsum f l.
Proof.
  intros Hf. revert i. induction l as [|r l IH]; intros [|i]; try reflexivity.
  - change (f (g r) + lsum f l = f r + lsum f l). rewrite Hf. reflexivity.
  - change (f r + lsum f (alter g i l) = f r + lsum f l). rewrite IH. reflexivity.
Qed.
Lemma lsum_on_p f x p :
  (forall r r', same_r r r' -> f r' = f r) -> lsum f (p_regs (on_p x p)) = lsum f (p_regs p).
Proof.
  intros Hf. destruct x; cbn; try reflexivity; apply lsum_alter; intros r; apply Hf; repeat split.
Qed.

Lemma due_on_p x p r r' e now : same_r r r' -> due (on_p x p) r' e now = due p r e now.
Proof.
  intros (H1 & H2 & H3). unfold due, entitled, vest_part, imm_part, sold. rewrite H1, H2. destruct x; reflexivity.
Qed.
Lemma refundable_on_p x p r r' e : same_r r r' -> refundable (on_p x p) r' e = refundable p r e.
Proof.
  intros (H1 & H2 & H3). unfold refundable, share_deposit, share_fee, reg_fee_excess, reg_excess. rewrite H1, H3.
  destruct x; reflexivity.
Qed.
Lemma sold_on_p x p r r' : same_r r r' -> sold (on_p x p) r' = sold p r.
Proof. intros (H1 & H2 & H3). unfold sold. rewrite H1, H2. destruct x; reflexivity. Qed.
Lemma total_sold_on_p x p : lsum (sold (on_p x p)) (p_regs (on_p x p)) = lsum (sold p) (p_regs p).
Proof.
  replace (sold (on_p x p)) with (sold p) by (destruct x; reflexivity).
  apply lsum_on_p. intros r r' Hr. pose proof (sold_on_p KCreator p r r' Hr) as E. exact E.
Qed.
Lemma unsold_on_p x p : unsold (on_p x p) = unsold p.
Proof. unfold unsold, total_sold. rewrite total_sold_on_p. destruct x; reflexivity. Qed.
Lemma fee_income_on_p x p : fee_income (on_p x p) = fee_income p.
Proof.
  unfold fee_income.
  rewrite lsum_on_p by (intros r r' (H1 & _ & H3); unfold reg_fee_excess, reg_excess; rewrite H1, H3; reflexivity).
  destruct x; reflexivity.
Qed.

(** The fields of a presale, a mint and a token account that payouts leave alone. *)
Lemma apply_presale x w k p :
  w_presales w !! k = Some p ->
  w_presales (apply x w) !! k = Some (if decide (x_key x = k) then on_p (x_kind x) p else p).
Proof.
  intros Hp. cbn. destruct (decide (x_key x = k)) as [->|Hne].
  - rewrite lookup_alter, Hp. reflexivity.
  - rewrite lookup_alter_ne by assumption. assumption.
Qed.
Lemma apply_mint x w mk m :
  w_mints w !! mk = Some m ->
  exists m', w_mints (apply x w) !! mk = Some m' /\ m_prog m' = m_prog m /\ m_native m' = m_native m /\ m_hook m' = m_hook m /\
    (forall n, tok_fee m' n = tok_fee m n).
Proof.
  intros Hm. cbn. destruct (decide (x_mint x = mk)) as [->|Hne].
  - rewrite lookup_alter, Hm. cbn. eauto 8.
  - rewrite lookup_alter_ne by assumption. eauto 8.
Qed.
Lemma alter_tok f k (M : gmap addr token) a : (forall t, t_mint (f t) = t_mint t /\ t_owner (f t) = t_owner t /\ t_frozen (f t) = t_frozen t) ->
  match M !! a with
  | Some t => exists t', alter f k M !! a = Some t' /\ t_mint t' = t_mint t /\ t_owner t' = t_owner t /\ t_frozen t' = t_frozen t
  | None => alter f k M !! a = None
  end.
Proof.
  intros Hf. destruct (decide (k = a)) as [->|Hne].
  - rewrite lookup_alter. destruct (M !! a) as [t|]; cbn; eauto.
  - rewrite lookup_alter_ne by assumption. destruct (M !! a); eauto.
Qed.
Lemma apply_token x w a :
  match w_tokens w !! a with
  | Some t => exists t', w_tokens (apply x w) !! a = Some t' /\ t_mint t' = t_mint t /\ t_owner t' = t_owner t /\ t_frozen t' = t_frozen t
  | None => w_tokens (apply x w) !! a = None
  end.
Proof.
  cbn. pose proof (alter_tok (tadd (- x_out x)) (x_src x) (w_tokens w) a ltac:(repeat split)) as H1.
  pose proof (alter_tok (tadd (x_in x)) (x_dst x) (alter (tadd (- x_out x)) (x_src x) (w_tokens w)) a ltac:(repeat split)) as H2.
  destruct (w_tokens w !! a) as [t|].
  - destruct H1 as (t1 & E1 & A1 & B1 & C1). rewrite E1 in H2. destruct H2 as (t2 & E2 & A2 & B2 & C2).
    exists t2. rewrite E2. repeat split; congruence.
  - rewrite H1 in H2. exact H2.
Qed.

Lemma send_eq x k s d mk m m' n : (forall a, tok_fee m' a = tok_fee m a) -> send x k s d mk m' n = send x k s d mk m n.
Proof. intros Hf. unfold send. rewrite !Hf. reflexivity. Qed.

(** What the effect of [o1] does to the escrow and the presale that [o2] looks at. *)
Definition about (o : op) (x : eff) : Prop :=
  match o with
  | IClaim _ _ _ ek _ _ _ _ => exists i n, x_kind x = KClaim ek i n
  | IWithdrawRemaining _ _ _ ek _ _ _ _ => exists i n, x_kind x = KRefund ek i n
  | ICreatorWithdraw k _ _ _ _ => x_kind x = KCreator /\ x_key x = k
  | ICollectFee k _ _ _ _ _ _ => x_kind x = KFee /\ x_key x = k
  | IUnsold k _ _ _ _ _ => x_kind x = KUnsold /\ x_key x = k
  | _ => False
  end.
Lemma send_kind x k s d mk m n : x_kind (send x k s d mk m n) = x /\ x_key (send x k s d mk m n) = k.
Proof. unfold send. destruct (decide (s = d)); split; reflexivity. Qed.

Ltac opt H := repeat match type of H with
  | context [?m !! ?k ≫= _] => let E := fresh "E" in destruct (m !! k) eqn:E; cbn [mbind option_bind] in H; [|discriminate H]
  end.

Lemma effect_about w o x : effect w o = Some x -> about o x.
Proof.
  intros He. destruct o; try discriminate He; cbn in He |- *; opt He.
  all: try (destruct (_ <? _); opt He).
  all: try (destruct (_ =? _)).
  all: injection He as <-.
  all: first [rewrite (proj1 (send_kind _ _ _ _ _ _ _)); eauto; fail | split; [apply send_kind|apply send_kind] | split; reflexivity].
Qed.

Lemma on_e_escrow x now E ek e :
  E !! ek = Some e -> exists e', on_e x now E !! ek = Some e' /\ e_presale e' = e_presale e /\
    e_owner e' = e_owner e /\ e_idx e' = e_idx e /\ e_deposit e' = e_deposit e /\ e_fee e' = e_fee e /\
    ((forall i n, x <> KClaim ek i n) -> e_claimed e' = e_claimed e) /\
    ((forall i n, x <> KRefund ek i n) -> e_withdrawn e' = e_withdrawn e).
Proof.
  intros He. destruct x as [a i n|a i n| | |]; cbn; try (exists e; repeat (split; [assumption||reflexivity|]); split; reflexivity).
  - destruct (decide (a = ek)) as [->|Hne].
    + rewrite lookup_alter, He. cbn. eexists. split; [reflexivity|]. repeat (split; [reflexivity|]).
      split; [|reflexivity]. intros Hx. destruct (Hx i n eq_refl).
    + rewrite lookup_alter_ne by assumption. exists e. repeat (split; [assumption||reflexivity|]). split; reflexivity.
  - destruct (decide (a = ek)) as [->|Hne].
    + rewrite lookup_alter, He. cbn. eexists. split; [reflexivity|]. repeat (split; [reflexivity|]).
      intros Hx. destruct (Hx i n eq_refl).
    + rewrite lookup_alter_ne by assumption. exists e. repeat (split; [assumption||reflexivity|]). split; reflexivity.
Qed.

(** The presale as [o2] finds it after [x]: the terms and the totals of deposits are the same. *)
Lemma terms_on_p x p :
  p_owner (on_p x p) = p_owner p /\ p_bmint (on_p x p) = p_bmint p /\ p_qmint (on_p x p) = p_qmint p /\
  p_deposit (on_p x p) = p_deposit p /\ p_min_cap (on_p x p) = p_min_cap p /\ p_end (on_p x p) = p_end p /\
  p_mode (on_p x p) = p_mode p /\ p_supply (on_p x p) = p_supply p /\ p_unsold (on_p x p) = p_unsold p /\
  raise (on_p x p) = raise p.
Proof. destruct x; repeat split. Qed.
Lemma flags_on_p x p :
  (x <> KCreator -> p_cwd (on_p x p) = p_cwd p) /\ (x <> KFee -> p_fee_col (on_p x p) = p_fee_col p) /\
  (x <> KUnsold -> p_unsold_done (on_p x p) = p_unsold_done p).
Proof. destruct x; repeat split; intros; congruence. Qed.

Lemma due_same p r e e' now :
  e_deposit e' = e_deposit e -> e_claimed e' = e_claimed e -> due p r e' now = due p r e now.
Proof. unfold due. intros -> ->. reflexivity. Qed.
Lemma refundable_same p r e e' :
  e_deposit e' = e_deposit e -> e_fee e' = e_fee e -> refundable p r e' = refundable p r e.
Proof. unfold refundable. intros -> ->. reflexivity. Qed.

Lemma same_r_refl r : same_r r r.
Proof. repeat split. Qed.

Ltac open_about Ha := match type of Ha with
  | exists _ _, _ => let i := fresh "i" in let n := fresh "n" in destruct Ha as (i & n & Ha)
  | _ /\ _ => let Hb := fresh "Hb" in destruct Ha as [Ha Hb] end.
Lemma not_claim o1 x ek : about o1 x -> settles o1 <> Some (0%nat, ek) -> forall i n, x_kind x <> KClaim ek i n.
Proof.
  intros Ha Hs i n Hk. destruct o1; cbn in *; try contradiction;
    open_about Ha; rewrite Ha in Hk; try discriminate.
  injection Hk as -> -> ->. apply Hs. reflexivity.
Qed.
Lemma not_refund o1 x ek : about o1 x -> settles o1 <> Some (1%nat, ek) -> forall i n, x_kind x <> KRefund ek i n.
Proof.
  intros Ha Hs i n Hk. destruct o1; cbn in *; try contradiction;
    open_about Ha; rewrite Ha in Hk; try discriminate.
  injection Hk as -> -> ->. apply Hs. reflexivity.
Qed.
Lemma not_creator o1 x k : about o1 x -> settles o1 <> Some (2%nat, k) -> x_key x = k -> x_kind x <> KCreator.
Proof.
  intros Ha Hs Hq Hk. destruct o1; cbn in *; try contradiction;
    open_about Ha; rewrite Ha in Hk; try discriminate.
  apply Hs. congruence.
Qed.
Lemma not_fee o1 x k : about o1 x -> settles o1 <> Some (3%nat, k) -> x_key x = k -> x_kind x <> KFee.
Proof.
  intros Ha Hs Hq Hk. destruct o1; cbn in *; try contradiction;
    open_about Ha; rewrite Ha in Hk; try discriminate.
  apply Hs. congruence.
Qed.
Lemma not_unsold o1 x k : about o1 x -> settles o1 <> Some (4%nat, k) -> x_key x = k -> x_kind x <> KUnsold.
Proof.
  intros Ha Hs Hq Hk. destruct o1; cbn in *; try contradiction;
    open_about Ha; rewrite Ha in Hk; try discriminate.
  apply Hs. congruence.
Qed.

(** The presale after an effect, whether or not the effect concerns it. *)
Lemma presale_after x w k p :
  w_presales w !! k = Some p -> exists p', w_presales (apply x w) !! k = Some p' /\
    p_owner p' = p_owner p /\ p_bmint p' = p_bmint p /\ p_qmint p' = p_qmint p /\
    p_deposit p' = p_deposit p /\ p_min_cap p' = p_min_cap p /\ p_end p' = p_end p /\ p_mode p' = p_mode p /\
    p_supply p' = p_supply p /\ p_unsold p' = p_unsold p /\ raise p' = raise p /\
    unsold p' = unsold p /\ fee_income p' = fee_income p /\
    (forall i r, p_regs p !! i = Some r -> exists r', p_regs p' !! i = Some r' /\
      (forall e now, due p' r' e now = due p r e now) /\ (forall e, refundable p' r' e = refundable p r e)) /\
    ((x_key x = k -> x_kind x <> KCreator) -> p_cwd p' = p_cwd p) /\
    ((x_key x = k -> x_kind x <> KFee) -> p_fee_col p' = p_fee_col p) /\
    ((x_key x = k -> x_kind x <> KUnsold) -> p_unsold_done p' = p_unsold_done p).
Proof.
  intros Hp. exists (if decide (x_key x = k) then on_p (x_kind x) p else p).
  split; [apply apply_presale; assumption|]. destruct (decide (x_key x = k)) as [Hk|Hk].
  - pose proof (terms_on_p (x_kind x) p) as T. pose proof (flags_on_p (x_kind x) p) as (F1 & F2 & F3).
    do 10 (split; [apply T|]). split; [apply unsold_on_p|]. split; [apply fee_income_on_p|].
    split; [|repeat split; auto]. intros i r Hr. destruct (on_p_reg (x_kind x) p i r Hr) as (r' & Hr' & Hs).
    exists r'. split; [assumption|]. split; intros; [apply due_on_p|apply refundable_on_p]; assumption.
  - do 12 (split; [reflexivity|]). split; [|repeat split; auto]. eauto.
Qed.

Ltac look_presale x w := match goal with E : w_presales w !! _ = Some ?p |- _ =>
    let p' := fresh "p'" in let Hp' := fresh "Hp'" in
    destruct (presale_after x w _ _ E) as
      (p' & Hp' & T1 & T2 & T3 & T4 & T5 & T6 & T7 & T8 & T9 & T10 & T11 & T12 & Hreg & F1 & F2 & F3);
    rewrite Hp'; cbn [mbind option_bind] end.
Ltac look_escrow x w := match goal with E : w_escrows w !! _ = Some ?e |- _ =>
    destruct (on_e_escrow (x_kind x) (w_now w) _ _ _ E) as (e' & He' & A1 & A2 & A3 & A4 & A5 & A6 & A7);
    change (w_escrows (apply x w)) with (on_e (x_kind x) (w_now w) (w_escrows w)); rewrite He';
    cbn [mbind option_bind]; rewrite A3 end.
Ltac look_mint x w := match goal with E : w_mints w !! _ = Some ?m |- _ =>
    destruct (apply_mint x w _ _ E) as (m' & Hm' & _ & _ & _ & Hfee); rewrite Hm'; cbn [mbind option_bind] end.
Ltac look_reg := match goal with E : p_regs _ !! _ = Some ?r, H : forall i r, _ |- _ =>
    destruct (H _ _ E) as (r' & Hr' & D1 & D2); rewrite Hr'; cbn [mbind option_bind] end.

Lemma effect_stable w o1 o2 x1 x2 :
  effect w o1 = Some x1 -> effect w o2 = Some x2 -> settles o1 <> settles o2 ->
  effect (apply x1 w) o2 = Some x2.
Proof.
  intros H1 H2 Hne. apply effect_about in H1.
  assert (Hn : w_now (apply x1 w) = w_now w) by reflexivity.
  destruct o2; try discriminate H2; cbn [effect settles] in *; opt H2.
  - look_presale x1 w. look_escrow x1 w. look_mint x1 w. look_reg.
    pose proof (A6 (not_claim _ _ _ H1 Hne)) as Hc.
    rewrite D1, (due_same _ _ _ _ _ A4 Hc), Hn, (send_eq _ _ _ _ _ _ _ _ Hfee). assumption.
  - look_presale x1 w. look_escrow x1 w. look_mint x1 w. look_reg. rewrite D2, (refundable_same _ _ _ _ A4 A5), (send_eq _ _ _ _ _ _ _ _ Hfee). assumption.
  - look_presale x1 w. look_mint x1 w. rewrite T9, T11. destruct (_ =? 1); [assumption|]. rewrite (send_eq _ _ _ _ _ _ _ _ Hfee). assumption.
  - look_presale x1 w. rewrite T2, T3, T4, T5, T8, T10. destruct (_ <? _); opt H2;
      look_mint x1 w; rewrite (send_eq _ _ _ _ _ _ _ _ Hfee); assumption.
  - look_presale x1 w. look_mint x1 w. rewrite T12, (send_eq _ _ _ _ _ _ _ _ Hfee). assumption.
Qed.

Lemma hook_args_same m m' ty accts h :
  m_prog m' = m_prog m -> m_hook m' = m_hook m -> hook_args m ty accts h -> hook_args m' ty accts h.
Proof. unfold hook_args. intros -> ->. auto. Qed.
Lemma receivable_after x w v mk dst pr ty accts h m :
  receivable w v mk dst pr ty accts h m -> exists m', (m_prog m' = m_prog m /\ m_native m' = m_native m) /\
    receivable (apply x w) v mk dst pr ty accts h m'.
Proof.
  intros [R1 R2 R3 (d & R4 & R5 & R6) R7]. destruct (apply_mint x w _ _ R1) as (m' & Hm' & M1 & M4 & M2 & M3).
  exists m'. split; [split; assumption|]. constructor.
  - assumption.
  - congruence.
  - intros t Ht. pose proof (apply_token x w v) as Hv. destruct (w_tokens w !! v) as [t0|] eqn:E; [|congruence].
    destruct Hv as (t' & Ht' & _ & _ & Hf). assert (t' = t) as <- by congruence. rewrite Hf. auto.
  - pose proof (apply_token x w dst) as Hv. rewrite R4 in Hv. destruct Hv as (d' & Hd' & D1 & _ & D3).
    exists d'. repeat split; congruence.
  - eapply hook_args_same; eassumption.
Qed.

Lemma payable_stable w o1 o2 x1 :
  effect w o1 = Some x1 -> payable w o2 -> settles o1 <> settles o2 -> payable (apply x1 w) o2.
Proof.
  intros H1 H2 Hne. apply effect_about in H1.
  assert (Hn : w_now (apply x1 w) = w_now w) by reflexivity.
  assert (HE : w_escrows (apply x1 w) = on_e (x_kind x1) (w_now w) (w_escrows w)) by reflexivity.
  destruct o2; try contradiction H2; cbn [payable settles] in *.
  - destruct H2 as (p & e & m & Hp & He & B1 & B2 & B3 & [B4 B5] & B6 & B7 & B8).
    destruct (presale_after x1 w _ _ Hp) as
      (p' & Hp' & T1 & T2 & T3 & T4 & T5 & T6 & T7 & T8 & T9 & T10 & T11 & T12 & Hreg & F1 & F2 & F3).
    destruct (on_e_escrow (x_kind x1) (w_now w) _ _ _ He) as (e' & He' & A1 & A2 & A3 & A4 & A5 & A6 & A7).
    destruct (receivable_after x1 _ _ _ _ _ _ _ _ _ B8) as (m' & _ & Hrc).
    exists p', e', m'. unfold succeeded. rewrite HE, Hn. split_and!; try congruence; try lia; assumption.
  - destruct H2 as (p & e & m & Hp & He & B1 & B2 & B3 & B4 & B5 & B6 & B7 & B8).
    destruct (presale_after x1 w _ _ Hp) as
      (p' & Hp' & T1 & T2 & T3 & T4 & T5 & T6 & T7 & T8 & T9 & T10 & T11 & T12 & Hreg & F1 & F2 & F3).
    destruct (on_e_escrow (x_kind x1) (w_now w) _ _ _ He) as (e' & He' & A1 & A2 & A3 & A4 & A5 & A6 & A7).
    destruct (receivable_after x1 _ _ _ _ _ _ _ _ _ B8) as (m' & _ & Hrc).
    assert (Hw : e_withdrawn e' = e_withdrawn e) by (apply A7; eapply not_refund; eassumption).
    exists p', e', m'. unfold succeeded, failed in *. rewrite HE, Hn, T4, T5, T6, T7. split_and!; try congruence; assumption.
  - destruct H2 as (p & m & t & Hp & [B1 B2] & B3 & B4 & B4n & B5 & B6 & B7 & B8 & B9 & B10 & B11).
    destruct (presale_after x1 w _ _ Hp) as
      (p' & Hp' & T1 & T2 & T3 & T4 & T5 & T6 & T7 & T8 & T9 & T10 & T11 & T12 & Hreg & F1 & F2 & F3).
    destruct (receivable_after x1 _ _ _ _ _ _ _ _ _ B11) as (m' & [Hm' Hmn] & Hrc).
    pose proof (apply_token x1 w creator_token) as Ht. rewrite B9 in Ht. destruct Ht as (t' & Ht' & _ & Ho & _).
    assert (Hf : p_unsold_done p' = p_unsold_done p) by (apply F3; intros; eapply not_unsold; eassumption).
    unfold unsold, total_sold in T11. exists p', m', t'. unfold succeeded. rewrite Hn, T9, Hmn.
    split_and!; try congruence; try lia; assumption.
  - destruct H2 as (p & rest & m & Hp & B1 & B2 & B3 & B4 & B5 & B6).
    destruct (presale_after x1 w _ _ Hp) as
      (p' & Hp' & T1 & T2 & T3 & T4 & T5 & T6 & T7 & T8 & T9 & T10 & T11 & T12 & Hreg & F1 & F2 & F3).
    assert (Hf : p_cwd p' = p_cwd p) by (apply F1; intros; eapply not_creator; eassumption).
    destruct (Z.lt_ge_cases (p_deposit p) (p_min_cap p)) as [Hl|Hg].
    + destruct (B6 Hl) as [C1 C2]. destruct (receivable_after x1 _ _ _ _ _ _ _ _ _ C2) as (m' & _ & Hrc).
      exists p', rest, m'. rewrite Hn, T2. split_and!; try congruence; try lia; try (intros; split); try assumption; try lia.
    + destruct (B5 Hg) as [C1 C2]. destruct (receivable_after x1 _ _ _ _ _ _ _ _ _ C2) as (m' & _ & Hrc).
      exists p', rest, m'. rewrite Hn, T3. split_and!; try congruence; try lia; try (intros; split); try assumption; try lia.
  - destruct H2 as (p & m & Hp & B1 & B2 & [B3 B4] & B5 & B6 & B7 & B8).
    destruct (presale_after x1 w _ _ Hp) as
      (p' & Hp' & T1 & T2 & T3 & T4 & T5 & T6 & T7 & T8 & T9 & T10 & T11 & T12 & Hreg & F1 & F2 & F3).
    assert (Hf : p_fee_col p' = p_fee_col p) by (apply F2; intros; eapply not_fee; eassumption).
    destruct (receivable_after x1 _ _ _ _ _ _ _ _ _ B8) as (m' & _ & Hrc).
    exists p', m'. unfold succeeded. rewrite Hn. split_and!; try congruence; try lia; assumption.
Qed.

(** ** Accepted payouts have their effect *)

Lemma alter_eq {A} (f : A -> A) k (M : gmap addr A) a : M !! k = Some a -> alter f k M = <[k := f a]> M.
Proof.
  intros Ha. apply map_eq. intros j. destruct (decide (k = j)) as [<-|Hne].
  - rewrite lookup_alter, lookup_insert, Ha. reflexivity.
  - rewrite lookup_alter_ne, lookup_insert_ne by assumption. reflexivity.
Qed.
Lemma alter_same {A} (f : A -> A) k (M : gmap addr A) : (forall a, f a = a) -> alter f k M = M.
Proof. intros Hf. apply alter_id. intros a _. apply Hf. Qed.
Lemma tadd_0 t : tadd 0 t = t.
Proof. destruct t. unfold tadd, set_t_amount. cbn. rewrite Z.add_0_r. reflexivity. Qed.
Lemma madd_0 m : madd 0 0 m = m.
Proof. destruct m. unfold madd, set_m_supply, set_m_withheld. cbn. rewrite Z.add_0_r, Z.sub_0_r. reflexivity. Qed.

(** The token side of an effect. *)
Definition moves (x : eff) (w w1 : world) : Prop :=
  w_tokens w1 = w_tokens (apply x w) /\ w_mints w1 = w_mints (apply x w) /\ same_rest w w1.
Lemma moves_nothing x k v d mk w : moves (mkEff x k v d mk 0 0 0 0) w w.
Proof.
  split; [|split; [|apply same_rest_refl]]; cbn.
  - rewrite !alter_same by apply tadd_0. reflexivity.
  - rewrite alter_same by apply madd_0. reflexivity.
Qed.
Lemma transfer_moves w pr v mk d n ok w1 lx m x k b :
  vault_has w mk b v -> w_mints w !! mk = Some m ->
  tok_transfer w pr v mk d PAuth n ok = Ok (w1, lx) -> moves (send x k v d mk m n) w w1.
Proof.
  intros (s0 & Hs0 & _ & Ho & (Hd & _) & _) Hm Ht. pose proof (tok_transfer_rest _ _ _ _ _ _ _ _ _ _ Ht) as Hre.
  apply tok_transfer_inv in Ht as (m0 & s & t & dl & Hm0 & Hs & Ht & _ & _ & _ & _ & _ & _ & Hau & Hc).
  assert (m0 = m) as -> by congruence. assert (s0 = s) as -> by congruence.
  rewrite auth_ok in Hau by assumption. apply Ok_inj in Hau. subst dl.
  destruct Hc as [(-> & -> & _)|(Hne & _ & _ & -> & _)]; unfold send.
  - rewrite decide_True by reflexivity. apply moves_nothing.
  - rewrite decide_False by assumption. split; [|split; [|assumption]]; cbn.
    + rewrite (alter_eq (tadd (- n)) v _ s) by assumption.
      rewrite (alter_eq (tadd _) d _ t) by (rewrite lookup_insert_ne by assumption; assumption).
      f_equal. f_equal. destruct s. unfold tadd, set_t_amount, set_t_delegate. cbn in *. subst. f_equal.
    + rewrite (alter_eq _ mk _ m) by assumption. f_equal. destruct m. unfold madd, set_m_supply, set_m_withheld. cbn.
      rewrite Z.sub_0_r. reflexivity.
Qed.
Lemma paid_moves w pr v mk d n ok w1 lx m x k b :
  tokens_ok w -> 0 <= n ->
  vault_has w mk b v -> w_mints w !! mk = Some m ->
  paid w pr v mk d n ok w1 lx -> moves (send x k v d mk m n) w w1.
Proof.
  intros Hw Hn Hv Hm [[_ Ht]|(H0 & -> & _)]; [eapply transfer_moves; eassumption|].
  assert (n = 0) as -> by lia. pose proof (tok_fee_range m 0 (tk_fee _ Hw _ _ Hm) ltac:(lia)) as Hf.
  assert (tok_fee m 0 = 0) as E by lia. unfold send. rewrite E. destruct (decide (v = d)); apply moves_nothing.
Qed.
Lemma burn_moves w pr v mk n w1 lx x k b :
  vault_has w mk b v -> tok_burn w pr v mk PAuth n = Ok (w1, lx) -> moves (burn x k v mk n) w w1.
Proof.
  intros (s0 & Hs0 & _ & Ho & (Hd & _) & _) Ht. pose proof (tok_burn_rest _ _ _ _ _ _ _ _ Ht) as Hre.
  apply tok_burn_inv in Ht as (m & s & dl & Hm & Hs & _ & _ & _ & _ & Hau & -> & _).
  assert (s0 = s) as -> by congruence. rewrite auth_ok in Hau by assumption. apply Ok_inj in Hau. subst dl.
  split; [|split; [|assumption]]; cbn.
  - rewrite (alter_same (tadd 0)) by apply tadd_0. rewrite (alter_eq (tadd (- n)) v _ s) by assumption.
    f_equal. destruct s. unfold tadd, set_t_amount, set_t_delegate. cbn in *. subst. f_equal.
  - rewrite (alter_eq _ mk _ m) by assumption. f_equal. destruct m. unfold madd, set_m_supply, set_m_withheld. cbn.
    rewrite Z.add_0_r. reflexivity.
Qed.

Lemma world_eq (w w' : world) :
  w_now w = w_now w' -> w_presales w = w_presales w' -> w_escrows w = w_escrows w' -> w_tokens w = w_tokens w' ->
  w_mints w = w_mints w' -> w_fixed w = w_fixed w' -> w_merkles w = w_merkles w' -> w_opers w = w_opers w' ->
  w_servers w = w_servers w' -> w = w'.
Proof. destruct w, w'. cbn. intros. subst. reflexivity. Qed.

(** The world after a payout, from its token moves and its new records. *)
Lemma pays_presale x w w1 k p :
  moves x w w1 -> x_key x = k -> w_presales w !! k = Some p -> on_e (x_kind x) (w_now w) (w_escrows w) = w_escrows w ->
  upd_presale k (on_p (x_kind x) p) w1 = apply x w.
Proof.
  intros (Ht & Hm & (R1 & R2 & R3 & R4 & R5 & R6 & R7)) <- Hp He. apply world_eq; cbn; try congruence.
  - rewrite R2, (alter_eq _ _ _ p) by assumption. reflexivity.
  - rewrite Ht. reflexivity.
  - rewrite Hm. reflexivity.
Qed.
Lemma pays_escrow x w w1 k p ek e2 :
  moves x w w1 -> x_key x = k -> w_presales w !! k = Some p ->
  on_e (x_kind x) (w_now w) (w_escrows w) = <[ek := e2]> (w_escrows w) ->
  upd_escrow ek e2 (upd_presale k (on_p (x_kind x) p) w1) = apply x w.
Proof.
  intros (Ht & Hm & (R1 & R2 & R3 & R4 & R5 & R6 & R7)) <- Hp He. apply world_eq; cbn; try congruence.
  - rewrite R2, (alter_eq _ _ _ p) by assumption. reflexivity.
  - rewrite Ht. reflexivity.
  - rewrite Hm. reflexivity.
Qed.
Lemma alter_reg f i (l : list registry) r : l !! i = Some r -> alter f i l = <[i := f r]> l.
Proof.
  revert i. induction l as [|a l IH]; intros [|i] Hr; try discriminate Hr.
  - injection Hr as ->. reflexivity.
  - change (a :: alter f i l = a :: <[i := f r]> l). f_equal. apply IH. exact Hr.
Qed.

Section WithCrypto.
Context `{Crypto}.

Lemma step_effect w o w' l :
  inv w -> settles o <> None -> step w o = Ok (w', l) -> exists x, effect w o = Some x /\ w' = apply x w.
Proof.
  intros Hi Hso Hs. destruct o; try (destruct Hso; reflexivity); cbn [step] in Hs.
  - destruct (claim_did _ _ _ _ _ _ _ _ _ _ _ Hi Hs) as (p & e & r & m & w1 & lx & D). destruct D.
    destruct dm_mint as [Hbm Hm]. pose proof (i_presales _ Hi _ _ dm_presale) as Hok.
    eexists. cbn [effect]. rewrite dm_presale, dm_escrow, Hm. cbn [mbind option_bind]. rewrite dm_reg.
    cbn [mbind option_bind]. split; [reflexivity|]. destruct dm_world as (p2 & e2 & -> & -> & ->).
    set (n := due p r e (w_now w)) in *. symmetry.
    replace (set_p_claimed (p_claimed p + n) (set_reg p (e_idx e) (set_r_claimed (r_claimed r + n) r)))
      with (on_p (x_kind (send (KClaim escrow (e_idx e) n) presale bvault owner_token bmint m n)) p).
    2:{ rewrite (proj1 (send_kind _ _ _ _ _ _ _)). cbn [on_p]. rewrite (alter_reg _ _ _ r) by assumption. reflexivity. }
    symmetry. apply pays_escrow; [|apply send_kind|assumption|].
    + subst bmint bvault. eapply paid_moves; [apply (i_tokens _ Hi)|eassumption|apply (q_bvault _ _ _ Hok)|assumption|eassumption].
    + rewrite (proj1 (send_kind _ _ _ _ _ _ _)). cbn [on_e]. rewrite (alter_eq _ _ _ e) by assumption. reflexivity.
  - destruct (refund_did _ _ _ _ _ _ _ _ _ _ _ Hi Hs) as (p & e & r & m & w1 & lx & D). destruct D.
    destruct dr_mint as [Hqm Hm]. pose proof (i_presales _ Hi _ _ dr_presale) as Hok.
    eexists. cbn [effect]. rewrite dr_presale, dr_escrow, Hm. cbn [mbind option_bind]. rewrite dr_reg.
    cbn [mbind option_bind]. split; [reflexivity|]. rewrite dr_world.
    set (n := refundable p r e) in *. symmetry.
    replace (set_p_refunded (p_refunded p + n) (set_reg p (e_idx e) (set_r_refunded (r_refunded r + n) r)))
      with (on_p (x_kind (send (KRefund escrow (e_idx e) n) presale qvault owner_token qmint m n)) p).
    2:{ rewrite (proj1 (send_kind _ _ _ _ _ _ _)). cbn [on_p]. rewrite (alter_reg _ _ _ r) by assumption. reflexivity. }
    symmetry. apply pays_escrow; [|apply send_kind|assumption|].
    + subst qmint qvault. eapply paid_moves; [apply (i_tokens _ Hi)|apply dr_amount|apply (q_qvault _ _ _ Hok)|assumption|eassumption].
    + rewrite (proj1 (send_kind _ _ _ _ _ _ _)). cbn [on_e]. rewrite (alter_eq _ _ _ e) by assumption. reflexivity.
  - destruct (unsold_did _ _ _ _ _ _ _ _ _ Hi Hs) as (p & m & w1 & lx & D). destruct D.
    destruct du_mint as [Hbm Hm]. cbn [effect]. rewrite du_presale, Hm. cbn [mbind option_bind].
    rewrite du_world. destruct du_what as [[Hu Hb]|[Hu Ht]].
    + rewrite Hu. cbn [Z.eqb Pos.eqb]. eexists. split; [reflexivity|].
      change (set_p_unsold_done 1 p) with (on_p (x_kind (burn KUnsold presale bvault bmint (unsold p))) p).
      apply pays_presale; [|reflexivity|assumption|reflexivity]. subst bmint bvault.
      eapply burn_moves; [apply (q_bvault _ _ _ du_ok)|eassumption].
    + rewrite (proj2 (Z.eqb_neq _ _)) by assumption. eexists. split; [reflexivity|].
      replace (set_p_unsold_done 1 p) with (on_p (x_kind (send KUnsold presale bvault creator_token bmint m (unsold p))) p)
        by (rewrite (proj1 (send_kind _ _ _ _ _ _ _)); reflexivity).
      apply pays_presale; [|apply send_kind|assumption|rewrite (proj1 (send_kind _ _ _ _ _ _ _)); reflexivity].
      subst bmint bvault. eapply transfer_moves; [apply (q_bvault _ _ _ du_ok)|assumption|eassumption].
  - destruct (creator_did _ _ _ _ _ _ _ _ Hi Hs) as (p & m & w1 & lx & D). destruct D.
    cbn [effect]. rewrite dcw_presale. cbn [mbind option_bind]. rewrite dcw_world.
    destruct dcw_what as [([_ Hsu] & Hm & Ht & _)|([_ Hf] & Hm & Ht & _)].
    + rewrite (proj2 (Z.ltb_ge _ _)) by assumption. rewrite Hm. cbn [mbind option_bind]. eexists. split; [reflexivity|].
      replace (set_p_cwd 1 p) with (on_p (x_kind (send KCreator presale (PQuoteVault presale) owner_token (p_qmint p) m (raise p))) p)
        by (rewrite (proj1 (send_kind _ _ _ _ _ _ _)); reflexivity).
      apply pays_presale; [|apply send_kind|assumption|rewrite (proj1 (send_kind _ _ _ _ _ _ _)); reflexivity].
      eapply transfer_moves; [apply (q_qvault _ _ _ dcw_ok)|assumption|eassumption].
    + rewrite (proj2 (Z.ltb_lt _ _)) by assumption. rewrite Hm. cbn [mbind option_bind]. eexists. split; [reflexivity|].
      replace (set_p_cwd 1 p) with (on_p (x_kind (send KCreator presale (PBaseVault presale) owner_token (p_bmint p) m (p_supply p))) p)
        by (rewrite (proj1 (send_kind _ _ _ _ _ _ _)); reflexivity).
      apply pays_presale; [|apply send_kind|assumption|rewrite (proj1 (send_kind _ _ _ _ _ _ _)); reflexivity].
      eapply transfer_moves; [apply (q_bvault _ _ _ dcw_ok)|assumption|eassumption].
  - destruct (fee_did _ _ _ _ _ _ _ _ _ _ Hi Hs) as (p & m & w1 & lx & D). destruct D.
    destruct dfe_mint as [Hqm Hm]. cbn [effect]. rewrite dfe_presale, Hm. cbn [mbind option_bind]. rewrite dfe_world.
    eexists. split; [reflexivity|].
    replace (set_p_fee_col 1 p) with (on_p (x_kind (send KFee presale qvault receiver qmint m (fee_income p))) p)
      by (rewrite (proj1 (send_kind _ _ _ _ _ _ _)); reflexivity).
    apply pays_presale; [|apply send_kind|assumption|rewrite (proj1 (send_kind _ _ _ _ _ _ _)); reflexivity].
    subst qmint qvault. eapply paid_moves; [apply (i_tokens _ Hi)|apply dfe_amount|apply (q_qvault _ _ _ dfe_ok)|assumption|eassumption].
Qed.

Lemma payable_accepted w o : reachable w -> payable w o -> exists w' l, step w o = Ok (w', l).
Proof.
  intros Hw Hp. destruct o; try contradiction Hp; cbn [payable] in Hp.
  - destruct Hp as (p & e & m & Hp & He & B1 & -> & B3 & B4 & -> & -> & B8).
    destruct (at_exists _ _ _ _ _ (reachable_inv _ Hw) Hp He B1) as [r Hr].
    destruct (C05_claim_succeeds _ _ _ _ _ _ _ _ _ _ Hw Hp B4 He B1 Hr B3 B8) as (w' & l & Hs & _). eauto.
  - destruct Hp as (p & e & m & Hp & He & B1 & -> & B3 & B4 & B5 & -> & -> & B8).
    destruct (at_exists _ _ _ _ _ (reachable_inv _ Hw) Hp He B1) as [r Hr].
    destruct B5 as [B5|[B5 B6]].
    + destruct (C03_failed_refund_succeeds _ _ _ _ _ _ _ _ _ Hw Hp B5 He B1 B4 B3 B8) as (w' & l & Hs & _). eauto.
    + destruct (C04_prorata_refund_succeeds _ _ _ _ _ _ _ _ _ _ Hw Hp B5 B6 He B1 Hr B4 B3 B8) as (w' & l & Hs & _). eauto.
  - destruct Hp as (p & m & t & Hp & B1 & B2 & B3 & Bn & -> & -> & -> & B4 & B5 & B6 & B7).
    exact (C08_unsold_succeeds _ _ _ _ _ _ _ Hw Hp B1 B2 B3 Bn B4 B5 B6 B7).
  - destruct Hp as (p & rest & m & Hp & -> & B2 & B3 & B4 & B5 & B6).
    destruct (C06_creator_withdraw_succeeds _ _ _ _ _ _ _ _ Hw Hp B3 B4 B2 B5 B6) as (w' & l & Hs & _). eauto.
  - destruct Hp as (p & m & Hp & -> & B2 & B3 & B4 & -> & -> & B7).
    destruct (C07_fee_succeeds _ _ _ _ _ _ _ Hw Hp B3 B4 B2 B7) as (w' & l & Hs & _). eauto.
Qed.

Lemma payable_settles w o : payable w o -> settles o <> None.
Proof. destruct o; cbn; try contradiction; discriminate. Qed.

(** ** All payouts *)

(** Every call of the list is accepted, one after the other. *)
Fixpoint all_accepted (w : world) (l : list op) : Prop :=
  match l with
  | [] => True
  | o :: l => exists w' fx, step w o = Ok (w', fx) /\ all_accepted w' l
  end.

Definition apply_all (w : world) (xs : list eff) : world := foldl (fun w x => apply x w) w xs.

Lemma apply_all_perm xs ys w : xs ≡ₚ ys -> apply_all w xs = apply_all w ys.
Proof.
  intros Hp. revert w. unfold apply_all. induction Hp as [|x xs ys _ IH|x y xs|xs ys zs _ IH1 _ IH2]; intros w; cbn.
  - reflexivity.
  - apply IH.
  - rewrite apply_comm. reflexivity.
  - rewrite IH1. apply IH2.
Qed.

Lemma run_effects l w :
  reachable w -> Forall (payable w) l -> NoDup (map settles l) ->
  all_accepted w l /\ exists xs, Forall2 (fun o x => effect w o = Some x) l xs /\ run w l = apply_all w xs.
Proof.
  revert w. induction l as [|o l IH]; intros w Hw Hp Hn.
  - split; [exact I|]. exists []. split; [constructor|reflexivity].
  - inversion Hp as [|? ? Ho Hl]; subst. cbn in Hn. inversion Hn as [|? ? Hno Hnl]; subst. clear Hn. rename Hnl into Hn.
    destruct (payable_accepted _ _ Hw Ho) as (w' & fx & Hs).
    destruct (step_effect _ _ _ _ (reachable_inv _ Hw) (payable_settles _ _ Ho) Hs) as (x & Hx & Hw').
    assert (Hdiff : forall o2, o2 ∈ l -> settles o <> settles o2).
    { intros o2 Hin E. apply Hno. rewrite E. apply elem_of_list_fmap_1. assumption. }
    assert (Hl' : Forall (payable w') l).
    { rewrite Hw'. rewrite List.Forall_forall in Hl |- *. intros o2 Hin.
      apply (payable_stable _ o _ _ Hx); [apply Hl; assumption|]. apply Hdiff, elem_of_list_In. assumption. }
    destruct (IH w' (reachable_ok _ _ _ _ Hw Hs) Hl' Hn) as (Ha & xs & Hxs & Hr).
    split; [exists w', fx; auto|]. exists (x :: xs). split.
    + constructor; [assumption|]. apply Forall2_same_length_lookup_2; [apply (Forall2_length _ _ _ Hxs)|].
      intros i o2 x2 Ho2 Hx2. pose proof (Forall2_lookup_lr _ _ _ _ _ _ Hxs Ho2 Hx2) as He2. cbn in He2.
      assert (Hin : o2 ∈ l) by (eapply elem_of_list_lookup_2; eassumption).
      pose proof Hl as Hl2. rewrite List.Forall_forall in Hl2. specialize (Hl2 o2 (proj1 (elem_of_list_In _ _) Hin)).
      destruct (payable_accepted _ _ Hw Hl2) as (w2 & fx2 & Hs2).
      destruct (step_effect _ _ _ _ (reachable_inv _ Hw) (payable_settles _ _ Hl2) Hs2) as (x2' & Hx2' & _).
      pose proof (effect_stable _ _ _ _ _ Hx Hx2' (Hdiff _ Hin)) as Hst. rewrite <- Hw' in Hst. congruence.
    + change (run w (o :: l)) with (run (exec w o) l).
      assert (exec w o = w') as -> by (unfold exec; rewrite Hs; reflexivity). rewrite Hr, Hw'. reflexivity.
Qed.

(** Any number of payable payouts, of any presales, that settle different things: in every order all
    of them are accepted, and every order leads to the same world. *)
Theorem C93_any_order w l l' :
  reachable w -> Forall (payable w) l -> NoDup (map settles l) -> l ≡ₚ l' ->
  all_accepted w l' /\ run w l' = run w l.
Proof.
  intros Hw Hp Hn Hperm.
  assert (Hp' : Forall (payable w) l') by (rewrite <- Hperm; assumption).
  assert (Hn' : NoDup (map settles l')).
  { change (map settles l') with (settles <$> l'). rewrite <- Hperm. assumption. }
  destruct (run_effects _ _ Hw Hp Hn) as (_ & xs & Hxs & Hr).
  destruct (run_effects _ _ Hw Hp' Hn') as (Ha & ys & Hys & Hr'). split; [assumption|].
  rewrite Hr, Hr'. apply apply_all_perm. symmetry.
  assert (Hmap : forall l xs, Forall2 (fun o x => effect w o = Some x) l xs -> xs = omap (effect w) l).
  { intros l0 xs0. induction 1 as [|o x l0 xs0 Ho _ IH]; [reflexivity|]. cbn. rewrite Ho. f_equal. exact IH. }
  rewrite (Hmap _ _ Hxs), (Hmap _ _ Hys). rewrite Hperm. reflexivity.
Qed.

Lemma bal_alter f k (M : gmap addr token) a d :
  (forall t, t_amount (f t) = t_amount t + d) ->
  match alter f k M !! a with Some t => t_amount t | None => 0 end =
  match M !! a with Some t => t_amount t | None => 0 end +
    match M !! a with Some _ => if decide (k = a) then d else 0 | None => 0 end.
Proof.
  intros Hf. destruct (decide (k = a)) as [->|Hne].
  - rewrite lookup_alter. destruct (M !! a); cbn; [apply Hf|reflexivity].
  - rewrite lookup_alter_ne by assumption. destruct (M !! a); lia.
Qed.
Definition gain (w : world) (x : eff) (a : addr) : Z :=
  match w_tokens w !! a with
  | Some _ => (if decide (x_src x = a) then - x_out x else 0) + (if decide (x_dst x = a) then x_in x else 0)
  | None => 0
  end.
Lemma bal_apply x w a : bal (apply x w) a = bal w a + gain w x a.
Proof.
  unfold bal, gain. cbn [apply w_tokens].
  rewrite (bal_alter _ _ _ _ (x_in x)) by reflexivity. rewrite (bal_alter _ _ _ _ (- x_out x)) by reflexivity.
  pose proof (alter_tok (tadd (- x_out x)) (x_src x) (w_tokens w) a ltac:(repeat split)) as Ha.
  destruct (w_tokens w !! a) as [t|].
  - destruct Ha as (t' & -> & _). lia.
  - rewrite Ha. lia.
Qed.
Lemma gain_apply x y w a : gain (apply x w) y a = gain w y a.
Proof.
  unfold gain. pose proof (apply_token x w a) as Ha. destruct (w_tokens w !! a).
  - destruct Ha as (t' & -> & _). reflexivity.
  - rewrite Ha. reflexivity.
Qed.
Lemma bal_apply_all xs w a : bal (apply_all w xs) a = bal w a + lsum (fun x => gain w x a) xs.
Proof.
  revert w. induction xs as [|x xs IH]; intros w; [cbn; lia|].
  change (apply_all w (x :: xs)) with (apply_all (apply x w) xs). rewrite IH, bal_apply.
  change (lsum (fun x => gain w x a) (x :: xs)) with (gain w x a + lsum (fun x => gain w x a) xs).
  rewrite (lsum_ext _ (fun x => gain w x a)); [lia|]. intros y _. apply gain_apply.
Qed.

(** Each payout changes every balance by what it would change it alone. *)
Theorem C93_payouts_add_up w l a :
  reachable w -> Forall (payable w) l -> NoDup (map settles l) ->
  bal (run w l) a - bal w a = lsum (fun o => bal (exec w o) a - bal w a) l.
Proof.
  intros Hw Hp Hn. destruct (run_effects _ _ Hw Hp Hn) as (_ & xs & Hxs & ->). rewrite bal_apply_all.
  clear Hn. induction Hxs as [|o x l xs Hx _ IH]; [cbn; lia|].
  inversion Hp as [|? ? Ho Hl]; subst. specialize (IH Hl).
  change (lsum (fun x => gain w x a) (x :: xs)) with (gain w x a + lsum (fun x => gain w x a) xs).
  change (lsum (fun o => bal (exec w o) a - bal w a) (o :: l)) with
    (bal (exec w o) a - bal w a + lsum (fun o => bal (exec w o) a - bal w a) l).
  destruct (payable_accepted _ _ Hw Ho) as (w' & fx & Hs).
  destruct (step_effect _ _ _ _ (reachable_inv _ Hw) (payable_settles _ _ Ho) Hs) as (x' & Hx' & ->).
  assert (x' = x) as -> by congruence. unfold exec at 1. rewrite Hs, bal_apply. lia.
Qed.
End WithCrypto.

(** * Non-vacuity *)
#[local] Existing Instance toy.

(** After the prorata presale: two claims, three refunds, the raise and the fees. *)
Definition l_pr : list op :=
  [getb alice alice_b 0; getb bob bob_b 0; refund alice alice_q 0; refund bob bob_q 0; refund carol carol_q 1; cw; cf].
(** After the fixed price presale, with a transfer fee on the base token: burn, claims, fees, raise. *)
Definition l_fx : list op := [us; getb alice alice_b 0; getb bob bob_b 0; cf; cw].
(** After the failed presale. *)
Definition l_ff : list op := [cwb; refund alice alice_q 0; refund bob bob_q 0].

Lemma receivable_bare w v mk dst pr ty accts h m :
  w_mints w !! mk = Some m -> m_prog m = pr -> m_hook m = None -> h_slices h = [] ->
  (forall t, w_tokens w !! v = Some t -> t_frozen t = false) ->
  (exists d, w_tokens w !! dst = Some d /\ t_mint d = mk /\ t_frozen d = false) ->
  receivable w v mk dst pr ty accts h m.
Proof.
  intros Hm Hp Hh Hs Hv Hd. constructor; try assumption. unfold hook_args. rewrite Hh.
  destruct (m_prog m); assumption.
Qed.
Ltac bare_ok := eapply receivable_bare;
  [vm_compute; reflexivity|vm_compute; reflexivity|vm_compute; reflexivity|reflexivity
  |intros t Ht; vm_compute in Ht; injection Ht as <-; reflexivity
  |eexists; split; [vm_compute; reflexivity|split; reflexivity]].
Ltac le_ok := first [vm_compute; congruence|vm_compute; reflexivity].
Ltac claim_ok := cbn [payable getb]; eexists _, _, _; split; [vm_compute; reflexivity|];
  split; [vm_compute; reflexivity|]; split; [reflexivity|]; split; [reflexivity|]; split; [reflexivity|];
  split; [split; le_ok|]; split; [reflexivity|]; split; [reflexivity|bare_ok].
Ltac refund_ok t := cbn [payable refund]; eexists _, _, _; split; [vm_compute; reflexivity|];
  split; [vm_compute; reflexivity|]; split; [reflexivity|]; split; [reflexivity|]; split; [reflexivity|];
  split; [reflexivity|]; split; [t|]; split; [reflexivity|]; split; [reflexivity|bare_ok].
Ltac creator_ok := cbn [payable cw cwb]; eexists _, [], _; split; [vm_compute; reflexivity|];
  split; [reflexivity|]; split; [reflexivity|]; split; [le_ok|]; split; [reflexivity|].
Ltac fee_ok := cbn [payable cf]; eexists _, _; split; [vm_compute; reflexivity|];
  split; [reflexivity|]; split; [reflexivity|]; split; [split; le_ok|]; split; [reflexivity|];
  split; [reflexivity|]; split; [reflexivity|bare_ok].

Lemma Forall_c {A} (P : A -> Prop) x l : P x -> Forall P l -> Forall P (x :: l).
Proof. constructor; assumption. Qed.

Example C93_met_pr : Forall (payable w_pr_over) l_pr /\ NoDup (map settles l_pr).
Proof.
  split; [|apply (bool_decide_eq_true_1 (NoDup (map settles l_pr))); vm_compute; reflexivity]. unfold l_pr.
  apply Forall_c; [claim_ok|]. apply Forall_c; [claim_ok|].
  do 3 (apply Forall_c; [refund_ok ltac:(right; split; [split; le_ok|reflexivity])|]).
  apply Forall_c; [creator_ok; split; [intros _; split; [reflexivity|bare_ok]|intros Hx; exfalso; vm_compute in Hx; congruence]|].
  apply Forall_c; [fee_ok|]. constructor.
Qed.
Example C93_met_ff : Forall (payable w_ff_over) l_ff /\ NoDup (map settles l_ff).
Proof.
  split; [|apply (bool_decide_eq_true_1 (NoDup (map settles l_ff))); vm_compute; reflexivity]. unfold l_ff.
  apply Forall_c; [creator_ok; split; [intros Hx; exfalso; apply Hx; vm_compute; reflexivity|intros _; split; [reflexivity|bare_ok]]|].
  do 2 (apply Forall_c; [refund_ok ltac:(left; split; le_ok)|]). constructor.
Qed.
Example C93_met_fx : Forall (payable w_fx_over) l_fx /\ NoDup (map settles l_fx).
Proof.
  split; [|apply (bool_decide_eq_true_1 (NoDup (map settles l_fx))); vm_compute; reflexivity]. unfold l_fx.
  apply Forall_c.
  { cbn [payable us]. eexists _.
    let m := eval vm_compute in (w_mints w_fx_over !! bmint) in match m with Some ?x => exists x end.
    eexists _. split; [vm_compute; reflexivity|]. split; [split; le_ok|].
    split; [reflexivity|]. split; [vm_compute; reflexivity|]. split; [intros _; reflexivity|].
    split; [reflexivity|]. split; [reflexivity|].
    split; [|split; [|split; [|split; [|bare_ok]]]]; vm_compute; reflexivity. }
  do 2 (apply Forall_c; [claim_ok|]). apply Forall_c; [fee_ok|].
  apply Forall_c; [creator_ok; split; [intros _; split; [reflexivity|bare_ok]|intros Hx; exfalso; vm_compute in Hx; congruence]|].
  constructor.
Qed.
(** The orders of the two lists reversed: same balances, and they are not the initial ones. *)
Example C93_example :
  bal (run w_pr_over (rev l_pr)) alice_b = bal (run w_pr_over l_pr) alice_b /\
  bal w_pr_over alice_b < bal (run w_pr_over l_pr) alice_b /\
  bal w_pr_over bob_q < bal (run w_pr_over (rev l_pr)) bob_q /\
  bal (run w_ff_over (rev l_ff)) alice_q = bal (run w_ff_over l_ff) alice_q /\
  bal w_ff_over alice_q < bal (run w_ff_over l_ff) alice_q.
Proof. vm_compute. auto. Qed.
