(** C77, C78: lamports.  What creating the accounts of the program costs and whom, that they are
    always rent exempt, and who is paid when they are closed. *)
From Coq Require Import Lia.
From Verif Require Import Base Math State Handlers Token World Instr Exec Layout Rent Spec Tactics Sums Arith
  TokenFacts Inv Acct Funs Steps Init Preserve Reach Did Trans Flow P_Access P_Exit P_Layout P_Entry Scenario.

(** * Specification *)

(** The accounts of the program and its vaults, and their sizes (a vault has at least 165 bytes) *)
Definition held (w : world) (a : addr) : option Z :=
  match a with
  | PPresale _ _ _ => (fun _ => 8 + 1264) <$> w_presales w !! a
  | PBaseVault k | PQuoteVault k => (fun _ => 165) <$> w_presales w !! k
  | PFixedArgs _ => (fun _ => 8 + 160) <$> w_fixed w !! a
  | PEscrow _ _ _ => (fun _ => 8 + 192) <$> w_escrows w !! a
  | PMerkle _ _ => (fun _ => 8 + 144) <$> w_merkles w !! a
  | POperator _ _ => (fun _ => 8 + 128) <$> w_opers w !! a
  | PServer _ => (fun s => 8 + 32 + 128 + 4 + Z.of_nat (length (s_url s))) <$> w_servers w !! a
  | _ => None
  end.
(** Whoever decides about an account: the owner of an escrow or of price arguments, the creator of an
    operator, the owner of the presale of a root or of a metadata account *)
Definition decides (w : world) (a x : addr) : Prop :=
  match a with
  | PEscrow _ _ _ => exists e, w_escrows w !! a = Some e /\ x = e_owner e
  | PFixedArgs _ => exists f, w_fixed w !! a = Some f /\ x = x_owner f
  | POperator _ _ => exists o, w_opers w !! a = Some o /\ x = o_creator o
  | PMerkle _ _ => exists c p, w_merkles w !! a = Some c /\ w_presales w !! k_presale c = Some p /\ x = p_owner p
  | PServer _ => exists s p, w_servers w !! a = Some s /\ w_presales w !! s_presale s = Some p /\ x = p_owner p
  | _ => False
  end.
(** An account of the system program: holds no tokens and is no mint *)
Definition system_owned (w : world) (a : addr) : Prop := w_tokens w !! a = None /\ w_mints w !! a = None.

(** Who pays for the accounts of an instruction, and which they are, with their sizes *)
Definition payer_of (o : op) : option addr :=
  match o with
  | IInitFixedArgs _ _ payer _ _ | IInitPresale _ _ _ _ _ payer _ _ _ _ | IEscrowPermissionless _ _ payer
  | IEscrowCreator _ _ _ _ payer _ _ | IEscrowMerkle _ _ _ payer _ _ _ => Some payer
  | ICreateMerkle _ creator _ _ | ICreateOperator _ creator => Some creator
  | ICreateServer _ owner _ => Some owner
  | _ => None
  end.
Definition token_size `{Rent} (w : world) (mk : addr) : Z := from_option vault_size 165 (w_mints w !! mk).
Definition new_accounts `{Rent} (w : world) (o : op) : list (addr * Z) :=
  match o with
  | IInitFixedArgs k _ _ _ _ => [(PFixedArgs k, 168)]
  | IInitPresale base bm qm _ _ _ _ _ _ _ =>
    [(PPresale base bm qm, 1272); (PBaseVault (PPresale base bm qm), token_size w bm);
     (PQuoteVault (PPresale base bm qm), token_size w qm)]
  | IEscrowPermissionless k owner _ => [(PEscrow k owner 0, 200)]
  | IEscrowCreator k owner _ _ _ idx _ | IEscrowMerkle k owner _ _ _ idx _ => [(PEscrow k owner idx, 200)]
  | ICreateMerkle k _ _ version => [(PMerkle k version, 152)]
  | ICreateOperator oo creator => [(POperator creator oo, 136)]
  | ICreateServer k _ url => [(PServer k, 172 + Z.of_nat (length url))]
  | _ => []
  end.
(** Who is paid when the instruction closes an account *)
Definition receiver_of (o : op) : option addr :=
  match o with
  | ICloseFixedArgs _ owner => Some owner
  | IRevokeOperator _ creator => Some creator
  | ICloseMerkle _ _ _ rr | ICloseServer _ _ _ rr | ICloseEscrow _ _ _ rr => Some rr
  | _ => None
  end.
(** Lamports that are missing at an address for an account of that size, and at all new addresses *)
Definition missing `{Rent} (b : gmap addr Z) (x : addr * Z) : Z := Z.max 0 ((128 + x.2) * rate - lam b x.1).
Definition price `{Rent} (w : world) (b : gmap addr Z) (o : op) : Z :=
  foldr (fun x s => missing b x + s) 0 (new_accounts w o).

(** * Balances *)

Lemma lam_insert b k n a : lam (<[k := n]> b) a = if decide (a = k) then n else lam b a.
Proof.
  unfold lam. destruct (decide (a = k)) as [->|Hn]; [rewrite lookup_insert|rewrite lookup_insert_ne by auto]; reflexivity.
Qed.
Lemma total_sum b : total b = msum (fun _ n => n) b.
Proof. reflexivity. Qed.
Lemma total_insert b k n : total (<[k := n]> b) = total b - lam b k + n.
Proof.
  rewrite (total_sum b), total_sum. unfold lam. destruct (b !! k) eqn:E; cbn.
  - rewrite (msum_update _ _ _ _ n E). reflexivity.
  - rewrite msum_insert_new by assumption. cbv beta. lia.
Qed.
Definition sound (b : gmap addr Z) : Prop := (forall a, 0 <= lam b a) /\ total b <= U64MAX.
Lemma lam_total b a : (forall x, 0 <= lam b x) -> lam b a <= total b.
Proof.
  intros Hn. unfold lam at 1. rewrite total_sum.
  assert (Hx : forall k x, b !! k = Some x -> 0 <= x).
  { intros k x Hk. specialize (Hn k). unfold lam in Hn. rewrite Hk in Hn. exact Hn. }
  destruct (b !! a) as [x|] eqn:E; cbn.
  - eapply (msum_member (fun _ n => n)); [exact E|exact Hx].
  - apply msum_nonneg. exact Hx.
Qed.
Lemma lam_two b a c : (forall x, 0 <= lam b x) -> a <> c -> lam b a + lam b c <= total b.
Proof.
  intros Hn Hac. assert (Ht : total (<[a := 0]> b) = total b - lam b a) by (rewrite total_insert; lia).
  assert (Hl : lam (<[a := 0]> b) c <= total (<[a := 0]> b)).
  { apply lam_total. intros x. rewrite lam_insert. destruct (decide (x = a)); [lia|apply Hn]. }
  rewrite lam_insert, decide_False in Hl by auto. lia.
Qed.
Lemma balances_sound b : balances b -> sound b.
Proof.
  intros [Hn Ht]. split; [|exact Ht]. intros a. unfold lam. destruct (b !! a) eqn:E; cbn; [eauto|lia].
Qed.

Lemma send_lam b f t n a : f <> t ->
  lam (send b f t n) a = if decide (a = t) then lam b t + n else if decide (a = f) then lam b f - n else lam b a.
Proof.
  intros Hft. unfold send. rewrite !lam_insert. destruct (decide (a = t)) as [->|].
  - rewrite decide_False by auto. reflexivity.
  - reflexivity.
Qed.
Lemma send_total b f t n : total (send b f t n) = total b.
Proof. unfold send. rewrite !total_insert. lia. Qed.
Lemma send_self b a n x : lam (send b a a n) x = lam b x.
Proof.
  unfold send. rewrite !lam_insert. rewrite (decide_True (P := a = a)) by reflexivity.
  destruct (decide (x = a)) as [->|]; lia.
Qed.
Lemma send_sound b f t n : sound b -> 0 <= n <= lam b f -> sound (send b f t n).
Proof.
  intros [Hn Ht] Hr. split; [|rewrite send_total; exact Ht]. intros a.
  destruct (decide (f = t)) as [->|Hft]; [rewrite send_self; apply Hn|].
  rewrite send_lam by assumption. pose proof (Hn a). pose proof (Hn t).
  destruct (decide (a = t)); [lia|]. destruct (decide (a = f)); lia.
Qed.

Section WithCrypto.
Context `{Crypto} `{Rent}.

Lemma rent_pos n : 0 <= n -> 0 < rent n.
Proof. intros Hn. unfold rent. pose proof rate_pos. nia. Qed.
Lemma rent_mono m n : m <= n -> rent m <= rent n.
Proof. intros Hn. unfold rent. pose proof rate_pos. nia. Qed.

(** What is missing at an address, and at all of them *)
Definition due (b : gmap addr Z) (x : addr * Z) : Z := Z.max 0 (rent x.2 - lam b x.1).
Definition cost (b : gmap addr Z) (l : list (addr * Z)) : Z := foldr (fun x s => due b x + s) 0 l.

Lemma sys_transfer_iff w b f t n b' :
  sys_transfer w b f t n = Ok b' <-> system_owned w f /\ n <= lam b f /\ b' = send b f t n.
Proof.
  unfold sys_transfer, system_owned. split.
  - intros Hs. bq Hs H1. bq Hs H2. apply Ok_inj in Hs. clean_bool. auto.
  - intros ([H1 H2] & Hn & ->). rewrite require_true.
    + cbn [rbind]. rewrite require_true by (apply Z.leb_le; exact Hn). reflexivity.
    + rewrite H1, H2. reflexivity.
Qed.
Lemma init_account_iff w b payer k size b' : 0 <= size -> 0 <= lam b k ->
  init_account w b payer (k, size) = Ok b' <->
  let n := due b (k, size) in (n = 0 /\ b' = b) \/ (0 < n /\ system_owned w payer /\ n <= lam b payer /\ b' = send b payer k n).
Proof.
  intros Hs Hl. pose proof (rent_pos size Hs) as Hr. unfold init_account, due. cbn [fst snd].
  destruct (Z.eqb_spec (lam b k) 0) as [->|Hz].
  - rewrite sys_transfer_iff, Z.sub_0_r, Z.max_r by lia. split; [auto|]. intros [[? ?]|[? ?]]; [lia|assumption].
  - replace (Z.max (rent size) 1) with (rent size) by lia.
    destruct (Z.ltb_spec 0 (Z.max 0 (rent size - lam b k))).
    + rewrite sys_transfer_iff. split; [auto|]. intros [[? ?]|[? ?]]; [lia|assumption].
    + split; [|intros [[_ ->]|[? _]]; [reflexivity|lia]]. intros Hx. apply Ok_inj in Hx. left. split; [lia|auto].
Qed.

Lemma due_ext b b' x : lam b' x.1 = lam b x.1 -> due b' x = due b x.
Proof. unfold due. intros ->. reflexivity. Qed.
Lemma cost_cons b x l : cost b (x :: l) = due b x + cost b l.
Proof. reflexivity. Qed.
Lemma cost_ext b b' l : (forall x, x ∈ l -> lam b' x.1 = lam b x.1) -> cost b' l = cost b l.
Proof.
  induction l as [|x l IH]; intros Hx; [reflexivity|]. rewrite !cost_cons, IH by (intros; apply Hx; right; assumption).
  rewrite (due_ext b b' x) by (apply Hx; left). reflexivity.
Qed.
Lemma cost_nonneg b l : 0 <= cost b l.
Proof. induction l as [|x l IH]; [cbn; lia|]. rewrite cost_cons. unfold due. lia. Qed.

Definition separate (payer : addr) (l : list (addr * Z)) : Prop :=
  NoDup (map fst l) /\ payer ∉ map fst l /\ forall x, x ∈ l -> 0 <= x.2.

Lemma separate_tail payer x l : separate payer (x :: l) ->
  0 <= x.2 /\ x.1 <> payer /\ x.1 ∉ map fst l /\ separate payer l.
Proof.
  intros (Hd & Hp & Hs). cbn in Hd, Hp. apply list.NoDup_cons in Hd as [Hx Hd]. apply not_elem_of_cons in Hp as [Hp1 Hp2].
  split; [apply Hs; left|]. split; [auto|]. split; [assumption|]. split; [assumption|]. split; [assumption|].
  intros y Hy. apply Hs. right. assumption.
Qed.
Lemma notin_fst (l : list (addr * Z)) k x : k ∉ map fst l -> x ∈ l -> x.1 <> k.
Proof.
  intros Hn Hx <-. apply Hn. apply elem_of_list_In, in_map, elem_of_list_In. exact Hx.
Qed.

Lemma init_all_ok w payer l : forall b b', (forall a, 0 <= lam b a) -> separate payer l ->
  init_all w b payer l = Ok b' ->
  (cost b l = 0 \/ system_owned w payer) /\ cost b l <= lam b payer /\
  lam b' payer = lam b payer - cost b l /\
  (forall x, x ∈ l -> lam b' x.1 = Z.max (lam b x.1) (rent x.2)) /\
  (forall a, a <> payer -> a ∉ map fst l -> lam b' a = lam b a) /\ total b' = total b.
Proof.
  induction l as [|[k sz] l IH]; intros b b' Hn Hsep Hi.
  - apply Ok_inj in Hi. subst b'. cbn. pose proof (Hn payer). split; [auto|]. split; [lia|]. split; [lia|].
    split; [intros x Hx; apply elem_of_nil in Hx; contradiction|]. auto.
  - apply separate_tail in Hsep as (Hs & Hk & Hkl & Hsep). cbn in Hs, Hk, Hkl.
    cbn [init_all] in Hi. bi Hi b1 Hb1. apply init_account_iff in Hb1; [|assumption|apply Hn]. cbv zeta in Hb1.
    assert (Hl : forall a, a <> payer -> a <> k -> lam b1 a = lam b a).
    { intros a Ha1 Ha2. destruct Hb1 as [[_ ->]|(_ & _ & _ & ->)]; [reflexivity|].
      rewrite send_lam by auto. rewrite !decide_False by assumption. reflexivity. }
    assert (Hd : due b (k, sz) <= lam b payer).
    { destruct Hb1 as [[-> _]|(_ & _ & ? & _)]; [apply Hn|assumption]. }
    assert (Hp : lam b1 payer = lam b payer - due b (k, sz)).
    { destruct Hb1 as [[Hz ->]|(_ & _ & _ & ->)]; [rewrite Hz; lia|].
      rewrite send_lam by auto. rewrite decide_False by auto. rewrite decide_True by reflexivity. reflexivity. }
    assert (Hk1 : lam b1 k = Z.max (lam b k) (rent sz)).
    { destruct Hb1 as [[Hz ->]|(Hz & _ & _ & ->)]; unfold due in *; cbn [fst snd] in *; [lia|].
      rewrite send_lam by auto. rewrite decide_True by reflexivity. lia. }
    assert (Ht : total b1 = total b).
    { destruct Hb1 as [[_ ->]|(_ & _ & _ & ->)]; [reflexivity|apply send_total]. }
    assert (Hn1 : forall a, 0 <= lam b1 a).
    { intros a. destruct (decide (a = payer)) as [->|Ha1]; [lia|].
      destruct (decide (a = k)) as [->|Ha2]; [pose proof (Hn k); lia|]. rewrite Hl by assumption. apply Hn. }
    assert (Hc : cost b1 l = cost b l).
    { apply cost_ext. intros x Hx. apply Hl; [|eapply notin_fst; eassumption].
      destruct Hsep as (_ & Hpl & _). eapply notin_fst; eassumption. }
    destruct (IH _ _ Hn1 Hsep Hi) as (S1 & S2 & S3 & S4 & S5 & S6). rewrite Hc in *. rewrite cost_cons.
    pose proof (cost_nonneg b l). assert (0 <= due b (k, sz)) by (unfold due; lia).
    split.
    { destruct S1 as [S1|]; [|auto]. destruct Hb1 as [[Hz _]|(_ & ? & _)]; [left; lia|auto]. }
    split; [lia|]. split; [lia|]. split; [|split; [|lia]].
    + intros x Hx. apply elem_of_cons in Hx as [->|Hx].
      * cbn. rewrite S5 by auto. exact Hk1.
      * rewrite S4 by assumption. rewrite Hl; [reflexivity| |eapply notin_fst; eassumption].
        destruct Hsep as (_ & Hpl & _). eapply notin_fst; eassumption.
    + intros a Ha Hal. cbn in Hal. apply not_elem_of_cons in Hal as [Hak Hal]. rewrite S5 by assumption. auto.
Qed.
Lemma init_all_can w payer l : forall b, (forall a, 0 <= lam b a) -> separate payer l ->
  (cost b l = 0 \/ system_owned w payer) -> cost b l <= lam b payer -> exists b', init_all w b payer l = Ok b'.
Proof.
  induction l as [|[k sz] l IH]; intros b Hn Hsep Hsys Hc; [eexists; reflexivity|].
  apply separate_tail in Hsep as (Hs & Hk & Hkl & Hsep). cbn in Hs, Hk, Hkl.
  rewrite cost_cons in Hc, Hsys. pose proof (cost_nonneg b l).
  assert (0 <= due b (k, sz)) by (unfold due; lia). cbn [init_all].
  destruct (Z.eq_dec (due b (k, sz)) 0) as [Hz|Hz].
  - rewrite (proj2 (init_account_iff w b payer k sz b Hs (Hn k))) by (left; auto). cbn [rbind].
    apply IH; auto; [|lia]. destruct Hsys; [left; lia|auto].
  - assert (Hso : system_owned w payer) by (destruct Hsys; [lia|assumption]).
    rewrite (proj2 (init_account_iff w b payer k sz (send b payer k (due b (k, sz))) Hs (Hn k))).
    2: { right. split; [lia|]. split; [assumption|]. split; [lia|reflexivity]. }
    cbn [rbind].
    assert (Hl : forall a, a <> payer -> a <> k -> lam (send b payer k (due b (k, sz))) a = lam b a).
    { intros a Ha1 Ha2. rewrite send_lam by auto. rewrite !decide_False by assumption. reflexivity. }
    assert (Hcl : cost (send b payer k (due b (k, sz))) l = cost b l).
    { apply cost_ext. intros x Hx. apply Hl; [|eapply notin_fst; eassumption].
      destruct Hsep as (_ & Hpl & _). eapply notin_fst; eassumption. }
    assert (Hp : lam (send b payer k (due b (k, sz))) payer = lam b payer - due b (k, sz)).
    { rewrite send_lam by auto. rewrite decide_False by auto. rewrite decide_True by reflexivity. reflexivity. }
    apply IH; [|assumption|auto|lia].
    intros a. destruct (decide (a = payer)) as [->|Ha1]; [lia|].
    destruct (decide (a = k)) as [->|Ha2]; [|rewrite Hl by assumption; apply Hn].
    rewrite send_lam by auto. rewrite decide_True by reflexivity. pose proof (Hn k). lia.
Qed.

(** * Which accounts an instruction creates and closes *)

Lemma vault_bytes_min w mk : 165 <= vault_bytes w mk.
Proof. unfold vault_bytes. destruct (w_mints w !! mk); [apply vault_min|lia]. Qed.

Lemma funding_facts w o w' l payer ks :
  step w o = Ok (w', l) -> funding w o = Some (payer, ks) ->
  is_wallet payer = true /\ payer ∈ signers_of o /\ separate payer ks.
Proof.
  intros Hs Hf.
  assert (Hw : is_wallet payer = true /\ payer ∈ signers_of o /\ NoDup (map fst ks) /\
    forall x, x ∈ ks -> 0 <= x.2 /\ is_wallet x.1 = false).
  { destruct o; try discriminate Hf; cbn [funding] in Hf; injection Hf as <- <-; cbn [step] in Hs; cbn [signers_of].
    - apply init_fixed_inv in Hs as (Hp & _). split; [assumption|]. split; [left|].
      split; [apply list.NoDup_singleton|]. intros y Hx. apply elem_of_list_singleton in Hx as ->. split; [vm_compute; discriminate|reflexivity].
    - apply init_inv in Hs as (? & ? & ? & ? & ? & ? & ? & ? & ? & ? & _ & _ & _ & _ & _ & Hp & _).
      split; [assumption|]. split; [right; left|]. cbn [map fst]. split.
      + repeat constructor; rewrite ?elem_of_cons, ?elem_of_nil; intuition discriminate.
      + intros y Hx. rewrite !elem_of_cons, elem_of_nil in Hx. pose proof (vault_bytes_min w bmint).
        pose proof (vault_bytes_min w qmint).
        destruct Hx as [->|[->|[->|[]]]]; cbn [fst snd is_wallet]; (split; [|reflexivity]); try lia. vm_compute. discriminate.
    - apply create_merkle_inv in Hs as (? & _ & _ & Hp & _). split; [assumption|]. split; [left|].
      split; [apply list.NoDup_singleton|]. intros y Hx. apply elem_of_list_singleton in Hx as ->. split; [vm_compute; discriminate|reflexivity].
    - apply create_permissionless_inv in Hs as (? & _ & Hp & _). split; [assumption|]. split; [left|].
      split; [apply list.NoDup_singleton|]. intros y Hx. apply elem_of_list_singleton in Hx as ->. split; [vm_compute; discriminate|reflexivity].
    - apply create_authority_inv in Hs as (? & ? & _ & _ & _ & Hp & _). split; [assumption|]. split; [right; left|].
      split; [apply list.NoDup_singleton|]. intros y Hx. apply elem_of_list_singleton in Hx as ->. split; [vm_compute; discriminate|reflexivity].
    - apply create_merkle_escrow_inv in Hs as (? & ? & _ & _ & _ & Hp & _). split; [assumption|]. split; [left|].
      split; [apply list.NoDup_singleton|]. intros y Hx. apply elem_of_list_singleton in Hx as ->. split; [vm_compute; discriminate|reflexivity].
    - apply create_operator_inv in Hs as (Hp & _). split; [assumption|]. split; [left|].
      split; [apply list.NoDup_singleton|]. intros y Hx. apply elem_of_list_singleton in Hx as ->. split; [vm_compute; discriminate|reflexivity].
    - apply create_server_inv in Hs as (? & _ & _ & Hp & _). split; [assumption|]. split; [left|].
      split; [apply list.NoDup_singleton|]. intros y Hx. apply elem_of_list_singleton in Hx as ->. unfold server_space. cbn [fst snd is_wallet].
      split; [lia|reflexivity]. }
  destruct Hw as (Hw & Hsg & Hd & Hx). split; [assumption|]. split; [assumption|]. split; [assumption|].
  split; [|intros x Hxx; apply Hx; assumption].
  intros Hin. apply elem_of_list_In, in_map_iff in Hin as (x & Hx1 & Hx2). apply elem_of_list_In in Hx2.
  destruct (Hx _ Hx2) as [_ Hf2]. rewrite Hx1 in Hf2. congruence.
Qed.

Lemma pair_parts {A B} (a c : A) (b d : B) : (a, b) = (c, d) -> a = c /\ b = d.
Proof. intros Hx. injection Hx as -> ->. auto. Qed.

(** What is created was not there before, and is there afterwards *)
Lemma funding_new w o w' l payer ks a sz :
  inv w -> step w o = Ok (w', l) -> funding w o = Some (payer, ks) -> (a, sz) ∈ ks ->
  held w a = None /\ exists n, held w' a = Some n /\ n <= sz.
Proof.
  intros Hi Hs Hf Ha. destruct o; try discriminate Hf; cbn [funding] in Hf; injection Hf as <- <-; cbn [step] in Hs.
  1, 3-8: apply elem_of_list_singleton in Ha; injection Ha as -> ->.
  - apply init_fixed_inv in Hs as (_ & Hn & _ & _ & -> & _). cbn [held]. rewrite Hn. cbn. rewrite lookup_insert. cbn [fmap option_fmap option_map]. split; [reflexivity|eexists; split; [reflexivity|vm_compute; discriminate]].
  - apply create_merkle_inv in Hs as (? & _ & _ & _ & Hn & _ & _ & _ & _ & -> & _). cbn [held]. rewrite Hn. cbn. rewrite lookup_insert. cbn [fmap option_fmap option_map]. split; [reflexivity|eexists; split; [reflexivity|vm_compute; discriminate]].
  - apply create_permissionless_inv in Hs as (? & _ & _ & _ & Hf). apply finish_create_inv in Hf as (? & Hn & _ & _ & _ & _ & _ & _ & -> & _).
    cbn [held]. rewrite Hn. cbn. rewrite lookup_insert. cbn [fmap option_fmap option_map]. split; [reflexivity|eexists; split; [reflexivity|vm_compute; discriminate]].
  - apply create_authority_inv in Hs as (? & ? & _ & _ & _ & _ & _ & _ & _ & _ & _ & Hf). apply finish_create_inv in Hf as (? & Hn & _ & _ & _ & _ & _ & _ & -> & _).
    cbn [held]. rewrite Hn. cbn. rewrite lookup_insert. cbn [fmap option_fmap option_map]. split; [reflexivity|eexists; split; [reflexivity|vm_compute; discriminate]].
  - apply create_merkle_escrow_inv in Hs as (? & ? & _ & _ & _ & _ & _ & _ & _ & _ & _ & Hf). apply finish_create_inv in Hf as (? & Hn & _ & _ & _ & _ & _ & _ & -> & _).
    cbn [held]. rewrite Hn. cbn. rewrite lookup_insert. cbn [fmap option_fmap option_map]. split; [reflexivity|eexists; split; [reflexivity|vm_compute; discriminate]].
  - apply create_operator_inv in Hs as (_ & Hn & -> & _). cbn [held]. rewrite Hn. cbn. rewrite lookup_insert. cbn [fmap option_fmap option_map]. split; [reflexivity|eexists; split; [reflexivity|vm_compute; discriminate]].
  - apply create_server_inv in Hs as (? & _ & _ & _ & Hn & _ & _ & -> & _). cbn [held]. rewrite Hn. cbn. rewrite lookup_insert. cbn. split; [reflexivity|].
    eexists; split; [reflexivity|]. unfold server_space. cbn. lia.
  - apply init_inv in Hs as (? & ? & p & ? & ? & ? & ? & ? & w2 & ? & Hs). cbv zeta in Hs.
    destruct Hs as (_ & _ & _ & _ & _ & _ & Hn & _ & _ & _ & _ & _ & _ & _ & _ & _ & _ & _ & _ & _ & -> & _).
    pose proof (vault_bytes_min w bmint). pose proof (vault_bytes_min w qmint).
    rewrite !elem_of_cons, elem_of_nil in Ha. destruct Ha as [Ha|[Ha|[Ha|[]]]]; apply pair_parts in Ha as [-> ->]; cbn [held]; rewrite Hn; cbn [fmap option_fmap option_map].
    all: split; [reflexivity|]; cbn; rewrite lookup_insert; cbn; eexists; split; [reflexivity|].
    + vm_compute. discriminate.
    + assumption.
    + assumption.
Qed.
(** What is closed was there before, belongs to a signer, and is gone afterwards; vaults and presales
    are not closed *)
Lemma closing_gone w o w' l a r :
  inv w -> step w o = Ok (w', l) -> closing o = Some (a, r) ->
  a <> r /\ held w' a = None /\ is_Some (held w a) /\ exists x, x ∈ signers_of o /\ decides w a x.
Proof.
  intros Hi Hs Hc. destruct o; try discriminate Hc; cbn [closing] in Hc; injection Hc as -> ->; cbn [step] in Hs; cbn [signers_of].
  - apply close_fixed_inv in Hs as (x & Hx & Ho & Hsg & -> & _).
    destruct (i_fixed _ Hi _ _ Hx) as [Hk _]. rewrite Hk in *. cbn. rewrite lookup_delete, Hx.
    split; [intros <-; discriminate Hsg|]. split; [reflexivity|]. split; [eexists; reflexivity|]. exists r. split; [left|]. exists x. auto.
  - apply close_merkle_inv in Hs as (p & c & Hp & Hx & Hk & Ho & Hsg & Hrr & _ & -> & _). subst presale.
    destruct (i_merkles _ Hi _ _ Hx) as [Hk _]. rewrite Hk in *. cbn. rewrite lookup_delete, Hx.
    split; [assumption|]. split; [reflexivity|]. split; [eexists; reflexivity|]. exists creator. split; [left|]. exists c, p. auto.
  - apply revoke_operator_inv in Hs as (x & Hx & Ho & Hsg & -> & _).
    pose proof (i_opers _ Hi _ _ Hx) as Hk. rewrite Hk in *. cbn. rewrite lookup_delete, Hx.
    split; [intros <-; discriminate Hsg|]. split; [reflexivity|]. split; [eexists; reflexivity|]. exists r. split; [left|]. exists x. auto.
  - apply close_did in Hs; [|assumption]. destruct Hs as (p & e & rg & D). destruct D. subst w'.
    destruct (i_escrows _ Hi _ _ dx_escrow) as [p' Hp'].
    assert (Hk : exists k o i, a = PEscrow k o i).
    { destruct (at_exists _ _ _ _ _ Hi Hp' dx_escrow eq_refl) as [rg' Hr'].
      rewrite (s_key _ _ _ _ _ (at_esc _ _ _ _ _ _ (at_intro _ _ _ _ _ _ Hi Hp' dx_escrow eq_refl Hr'))). eauto. }
    destruct Hk as (k1 & o1 & i1 & ->). cbn. rewrite lookup_delete, dx_escrow.
    split; [assumption|]. split; [reflexivity|]. split; [eexists; reflexivity|]. exists owner. split; [left|]. exists e. auto.
  - apply close_server_inv in Hs as (p & c & Hp & Hx & Ho & Hk & Hsg & Hrr & -> & _). subst presale.
    destruct (i_servers _ Hi _ _ Hx) as [Hk _]. rewrite Hk in *. cbn. rewrite lookup_delete, Hx.
    split; [assumption|]. split; [reflexivity|]. split; [eexists; reflexivity|]. exists owner. split; [left|]. exists c, p. auto.
Qed.

(** Nothing else appears or disappears *)
Lemma held_step w o w' l a :
  inv w -> step w o = Ok (w', l) ->
  held w' a = held w a \/ (exists payer ks sz, funding w o = Some (payer, ks) /\ (a, sz) ∈ ks) \/
  (exists r, closing o = Some (a, r)).
Proof.
  intros Hi Hs. pose proof (step_does _ _ _ _ Hi Hs) as Hd.
  assert (Hpre : forall k, (exists p p', w_presales w !! k = Some p /\ w_presales w' !! k = Some p') \/
    w_presales w' !! k = w_presales w !! k \/
    exists base bm qm pt creator payer bp qp x h, o = IInitPresale base bm qm pt creator payer bp qp x h /\ k = PPresale base bm qm).
  { intros k. destruct (does_presale _ _ _ _ k Hd).
    - right. left. assumption.
    - destruct H2. subst. right. right. eauto 12.
    - destruct H2. left. eauto.
    - destruct H2. left. eauto.
    - destruct H2. left. eauto.
    - destruct H2. left. eauto.
    - destruct H2. left. eauto.
    - destruct H2. left. eauto.
    - destruct H2. left. eauto.
    - destruct H2. left. eauto.
    - destruct H2. left. eauto. }
  destruct (step_helpers _ _ _ _ Hi Hs) as (Hm & Ho & Hsv & Hfx).
  destruct a as [n|b m q|k|k|k|k ow i|k v|c ow|k| |? ? ?]; try (left; reflexivity); cbn [held].
  - destruct (Hpre (PPresale b m q)) as [(p & p' & -> & ->)|[->|Hx]]; [left; reflexivity..|].
    destruct Hx as (? & ? & ? & ? & ? & ? & ? & ? & ? & ? & -> & ->). right. left. eexists _, _, _. split; [reflexivity|left].
  - destruct (Hpre k) as [(p & p' & -> & ->)|[->|Hx]]; [left; reflexivity..|].
    destruct Hx as (? & ? & ? & ? & ? & ? & ? & ? & ? & ? & -> & ->). right. left. eexists _, _, _. split; [reflexivity|right; left].
  - destruct (Hpre k) as [(p & p' & -> & ->)|[->|Hx]]; [left; reflexivity..|].
    destruct Hx as (? & ? & ? & ? & ? & ? & ? & ? & ? & ? & -> & ->). right. left. eexists _, _, _. split; [reflexivity|right; right; left].
  - destruct o; try (left; rewrite Hfx; reflexivity); cbn [step] in Hs.
    + apply init_fixed_inv in Hs as (_ & _ & _ & _ & -> & _). cbn. destruct (decide (PFixedArgs k = PFixedArgs presale)) as [->|Hn].
      * right. left. eexists _, _, _. split; [reflexivity|left].
      * left. rewrite lookup_insert_ne by auto. reflexivity.
    + apply close_fixed_inv in Hs as (x & _ & _ & _ & -> & _). cbn. destruct (decide (PFixedArgs k = args)) as [->|Hn].
      * right. right. eauto.
      * left. rewrite lookup_delete_ne by auto. reflexivity.
  - destruct (does_escrow _ _ _ _ (PEscrow k ow i) Hd).
    + left. congruence.
    + right. left. rewrite H2. destruct o; try discriminate H1; cbn in H1; injection H1 as <- <- <-; eexists _, _, _; (split; [reflexivity|left]).
    + destruct H2. left. rewrite H3, dd_escrow. reflexivity.
    + destruct H2. left. rewrite H3, dw_escrow. reflexivity.
    + destruct H2. left. rewrite H3, dr_escrow. reflexivity.
    + destruct H2. left. rewrite H3, dm_escrow. reflexivity.
    + destruct H2. left. rewrite H3, df_escrow. reflexivity.
    + right. right. subst o. eauto.
  - destruct o; try (left; rewrite Hm; reflexivity); cbn [step] in Hs.
    + apply create_merkle_inv in Hs as (? & _ & _ & _ & _ & _ & _ & _ & _ & -> & _). cbn. destruct (decide (PMerkle k v = PMerkle presale version)) as [->|Hn].
      * right. left. eexists _, _, _. split; [reflexivity|left].
      * left. rewrite lookup_insert_ne by auto. reflexivity.
    + apply close_merkle_inv in Hs as (? & ? & _ & _ & _ & _ & _ & _ & _ & -> & _). cbn. destruct (decide (PMerkle k v = config)) as [->|Hn].
      * right. right. eauto.
      * left. rewrite lookup_delete_ne by auto. reflexivity.
  - destruct o; try (left; rewrite Ho; reflexivity); cbn [step] in Hs.
    + apply create_operator_inv in Hs as (_ & _ & -> & _). cbn. destruct (decide (POperator c ow = POperator creator operator_owner)) as [->|Hn].
      * right. left. eexists _, _, _. split; [reflexivity|left].
      * left. rewrite lookup_insert_ne by auto. reflexivity.
    + apply revoke_operator_inv in Hs as (x & _ & _ & _ & -> & _). cbn. destruct (decide (POperator c ow = operator)) as [->|Hn].
      * right. right. eauto.
      * left. rewrite lookup_delete_ne by auto. reflexivity.
  - destruct o; try (left; rewrite Hsv; reflexivity); cbn [step] in Hs.
    + apply create_server_inv in Hs as (? & _ & _ & _ & _ & _ & _ & -> & _). cbn. destruct (decide (PServer k = PServer presale)) as [->|Hn].
      * right. left. eexists _, _, _. split; [reflexivity|left].
      * left. rewrite lookup_insert_ne by auto. reflexivity.
    + apply close_server_inv in Hs as (? & ? & _ & _ & _ & _ & _ & _ & -> & _). cbn. destruct (decide (PServer k = meta)) as [->|Hn].
      * right. right. eauto.
      * left. rewrite lookup_delete_ne by auto. reflexivity.
Qed.

(** * The invariant *)

Record linv (L : ledger) : Prop := {
  li_world : reachable (l_world L);
  li_sound : sound (l_bal L);
  li_exempt : forall a n, held (l_world L) a = Some n -> rent n <= lam (l_bal L) a
}.

Lemma funding_closing w o : funding w o = None \/ closing o = None.
Proof. destruct o; cbn; auto. Qed.

(** What an accepted instruction does to all balances *)
Inductive effect (L : ledger) (o : op) (b' : gmap addr Z) : Prop :=
| ef_none : funding (l_world L) o = None -> closing o = None -> b' = l_bal L -> effect L o b'
| ef_create payer ks : funding (l_world L) o = Some (payer, ks) -> closing o = None ->
    init_all (l_world L) (l_bal L) payer ks = Ok b' -> effect L o b'
| ef_close a r : funding (l_world L) o = None -> closing o = Some (a, r) ->
    lam (l_bal L) r + lam (l_bal L) a <= U64MAX ->
    b' = <[a := 0]> (<[r := lam (l_bal L) r + lam (l_bal L) a]> (l_bal L)) -> effect L o b'.
Lemma lstep_effect L o L' l : lstep L (LOp o) = Ok (L', l) ->
  step (l_world L) o = Ok (l_world L', l) /\ effect L o (l_bal L').
Proof.
  cbn [lstep]. unfold pay_inits, pay_close. intros Hs. bi Hs b1 Hb1. bi Hs x Hx. bi Hs b2 Hb2. apply Ok_inj in Hs.
  destruct x as [w' l']. injection Hs as <- <-. cbn. split; [assumption|].
  destruct (funding (l_world L) o) as [[payer ks]|] eqn:Hf.
  - destruct (funding_closing (l_world L) o) as [Hn|Hn]; [congruence|]. rewrite Hn in Hb2. apply Ok_inj in Hb2. subst b2.
    eapply ef_create; eassumption.
  - apply Ok_inj in Hb1. subst b1. destruct (closing o) as [[a r]|] eqn:Hc.
    + unfold close_account in Hb2. bq Hb2 Hle. apply Ok_inj in Hb2. clean_bool. eapply ef_close; eauto.
    + apply Ok_inj in Hb2. subst b2. apply ef_none; auto.
Qed.
Lemma close_lam b a r x : a <> r ->
  lam (<[a := 0]> (<[r := lam b r + lam b a]> b)) x =
  if decide (x = a) then 0 else if decide (x = r) then lam b r + lam b a else lam b x.
Proof. intros Hn. rewrite !lam_insert. reflexivity. Qed.
Lemma close_total b a r : a <> r -> total (<[a := 0]> (<[r := lam b r + lam b a]> b)) = total b.
Proof. intros Hn. rewrite !total_insert, lam_insert. rewrite decide_False by auto. lia. Qed.

Lemma effect_sound L o b' l w' : linv L -> step (l_world L) o = Ok (w', l) -> effect L o b' ->
  sound b' /\ total b' = total (l_bal L).
Proof.
  intros [Hr [Hn Ht] _] Hs [Hf Hc ->|payer ks Hf Hc Hi|a r Hf Hc Hle ->].
  - split; [split; assumption|reflexivity].
  - destruct (funding_facts _ _ _ _ _ _ Hs Hf) as (_ & _ & Hsep).
    destruct (init_all_ok _ _ _ _ _ Hn Hsep Hi) as (_ & Hc1 & Hp & Hk & Hrest & Htot).
    split; [|assumption]. split; [|lia]. intros x. destruct (decide (x = payer)) as [->|Hx]; [lia|].
    destruct (decide (x ∈ map fst ks)) as [Hin|Hin].
    + apply elem_of_list_In, in_map_iff in Hin as (y & <- & Hy). apply elem_of_list_In in Hy.
      rewrite Hk by assumption. pose proof (Hn y.1). lia.
    + rewrite Hrest by assumption. apply Hn.
  - destruct (closing_gone _ _ _ _ _ _ (reachable_inv _ Hr) Hs Hc) as (Har & _).
    split; [|apply close_total; assumption]. split; [|rewrite close_total by assumption; assumption].
    intros x. rewrite close_lam by assumption. pose proof (Hn r). pose proof (Hn a).
    destruct (decide (x = a)); [lia|]. destruct (decide (x = r)); [lia|apply Hn].
Qed.

Lemma external_held w a : external a = true -> held w a = None.
Proof. destruct a; try discriminate; reflexivity. Qed.

Lemma linv_step L x L' l : linv L -> lstep L x = Ok (L', l) -> linv L'.
Proof.
  intros HL Hs. destruct x as [o|from to n|from n|to n].
  - apply lstep_effect in Hs as [Hs He]. destruct (effect_sound _ _ _ _ _ HL Hs He) as [Hsd _].
    destruct HL as [Hr [Hn Ht] Hx]. pose proof (reachable_inv _ Hr) as Hi. split.
    + eapply reachable_step; eassumption.
    + assumption.
    + intros a n Ha. destruct (held_step _ _ _ _ a Hi Hs) as [Heq|[(payer & ks & sz & Hf & Hin)|[r Hc]]].
      * rewrite Heq in Ha. specialize (Hx _ _ Ha). destruct He as [Hf Hc ->|payer ks Hf Hc Hia|b r Hf Hc Hle ->].
        -- assumption.
        -- destruct (funding_facts _ _ _ _ _ _ Hs Hf) as (Hw & _ & Hsep).
           destruct (init_all_ok _ _ _ _ _ Hn Hsep Hia) as (_ & _ & Hp & Hk & Hrest & _).
           destruct (decide (a = payer)) as [->|Hap].
           { rewrite external_held in Ha by (destruct payer; try discriminate Hw; reflexivity). discriminate Ha. }
           destruct (decide (a ∈ map fst ks)) as [Hin|Hin]; [|rewrite Hrest by assumption; assumption].
           apply elem_of_list_In, in_map_iff in Hin as (y & <- & Hy). apply elem_of_list_In in Hy.
           rewrite Hk by assumption. lia.
        -- destruct (closing_gone _ _ _ _ _ _ Hi Hs Hc) as (Hbr & Hg & _).
           rewrite close_lam by assumption. pose proof (Hn b).
           destruct (decide (a = b)) as [->|]; [congruence|]. destruct (decide (a = r)) as [->|]; lia.
      * destruct (funding_new _ _ _ _ _ _ _ _ Hi Hs Hf Hin) as (_ & n' & Hn' & Hle).
        assert (n' = n) as -> by congruence.
        destruct He as [Hf2 Hc ->|payer2 ks2 Hf2 Hc Hia|b r Hf2 Hc _ ->]; [congruence| |congruence].
        rewrite Hf in Hf2. injection Hf2 as <- <-.
        destruct (funding_facts _ _ _ _ _ _ Hs Hf) as (Hw & _ & Hsep).
        destruct (init_all_ok _ _ _ _ _ Hn Hsep Hia) as (_ & _ & Hp & Hk & _).
        specialize (Hk _ Hin). cbn in Hk. rewrite Hk. pose proof (rent_mono _ _ Hle). lia.
      * destruct (closing_gone _ _ _ _ _ _ Hi Hs Hc) as (_ & Hg & _). congruence.
  - cbn [lstep] in Hs. bq Hs Hb. apply Ok_inj in Hs. injection Hs as <- <-. clean_bool. destruct HL as [Hr Hsd Hx].
    split; cbn [l_world l_bal]; [assumption|apply send_sound; [assumption|lia]|].
    intros a m Ha. specialize (Hx _ _ Ha). destruct (decide (from = to)) as [->|Hft]; [rewrite send_self; assumption|].
    rewrite send_lam by assumption. destruct (decide (a = to)) as [->|]; [lia|].
    destruct (decide (a = from)) as [->|]; [|assumption]. rewrite external_held in Ha by assumption. discriminate.
  - cbn [lstep] in Hs. bq Hs Hb. apply Ok_inj in Hs. injection Hs as <- <-. clean_bool. destruct HL as [Hr [Hn Ht] Hx].
    split; cbn [l_world l_bal]; [assumption| |].
    + split; [|rewrite total_insert; lia]. intros a. rewrite lam_insert. destruct (decide (a = from)); [lia|apply Hn].
    + intros a m Ha. specialize (Hx _ _ Ha). rewrite lam_insert.
      destruct (decide (a = from)) as [->|]; [|assumption]. rewrite external_held in Ha by assumption. discriminate.
  - cbn [lstep] in Hs. bq Hs Hb. apply Ok_inj in Hs. injection Hs as <- <-. clean_bool. destruct HL as [Hr [Hn Ht] Hx].
    split; cbn [l_world l_bal]; [assumption| |].
    + pose proof (Hn to). split; [|rewrite total_insert; lia]. intros a. rewrite lam_insert. destruct (decide (a = to)); [lia|apply Hn].
    + intros a m Ha. specialize (Hx _ _ Ha). rewrite lam_insert. destruct (decide (a = to)) as [->|]; lia.
Qed.

Lemma linv_run l : forall L, linv L -> linv (lrun L l).
Proof.
  induction l as [|x l IH]; intros L HL; [assumption|]. cbn. apply IH. unfold lexec.
  destruct (lstep L x) as [[L' fx]|] eqn:E; [eapply linv_step; eassumption|assumption].
Qed.
Lemma lreach_inv L : lreach L -> linv L.
Proof.
  intros (b & l & Hb & ->). apply linv_run. split; cbn [l_world l_bal].
  - exists []. reflexivity.
  - apply balances_sound. assumption.
  - intros a n Ha. destruct a; discriminate Ha.
Qed.

Lemma funding_spec w o :
  match funding w o with
  | Some (payer, ks) => payer_of o = Some payer /\ ks = new_accounts w o
  | None => payer_of o = None /\ new_accounts w o = []
  end.
Proof.
  destruct o; cbn [funding payer_of new_accounts]; try (split; reflexivity); (split; [reflexivity|]).
  unfold server_space. f_equal. f_equal. lia.
Qed.
Lemma closing_spec o : match closing o with Some (_, r) => receiver_of o = Some r | None => receiver_of o = None end.
Proof. destruct o; reflexivity. Qed.
Lemma price_cost w b o : price w b o = cost b (new_accounts w o).
Proof. reflexivity. Qed.

(** * C77 *)

(** Lamports are only added to the state machine; all other theorems keep applying. *)
Theorem C77_same_program L : lreach L ->
  reachable (l_world L) /\ (forall a, 0 <= lam (l_bal L) a) /\ total (l_bal L) <= U64MAX.
Proof. intros HL. destruct (lreach_inv _ HL) as [Hr [Hn Ht] _]. auto. Qed.

(** Every account of the program and every vault is rent exempt, always. *)
Theorem C77_rent_exempt L a n : lreach L -> held (l_world L) a = Some n -> (128 + n) * rate <= lam (l_bal L) a.
Proof. intros HL. apply (li_exempt _ (lreach_inv _ HL)). Qed.

(** Instructions neither mint nor burn lamports. *)
Theorem C77_conserved L o L' l : lreach L -> lstep L (LOp o) = Ok (L', l) -> total (l_bal L') = total (l_bal L).
Proof.
  intros HL Hs. apply lstep_effect in Hs as [Hs He]. eapply effect_sound; [apply lreach_inv; exact HL|exact Hs|exact He].
Qed.

(** What accounts cost: whatever is missing at the new addresses, paid by the payer, who signed; the
    accounts were not there before and are there afterwards. *)
Theorem C77_creation L o L' l payer :
  lreach L -> lstep L (LOp o) = Ok (L', l) -> payer_of o = Some payer ->
  is_wallet payer = true /\ payer ∈ signers_of o /\
  lam (l_bal L') payer = lam (l_bal L) payer - price (l_world L) (l_bal L) o /\
  (forall a sz, (a, sz) ∈ new_accounts (l_world L) o ->
     held (l_world L) a = None /\ (exists n, held (l_world L') a = Some n /\ n <= sz) /\
     lam (l_bal L') a = Z.max (lam (l_bal L) a) ((128 + sz) * rate)) /\
  (forall a, a <> payer -> (forall sz, (a, sz) ∉ new_accounts (l_world L) o) -> lam (l_bal L') a = lam (l_bal L) a).
Proof.
  intros HL Hs Hp. pose proof (lreach_inv _ HL) as [Hr [Hn Ht] _]. pose proof (reachable_inv _ Hr) as Hi.
  apply lstep_effect in Hs as [Hs He]. pose proof (funding_spec (l_world L) o) as Hf.
  destruct (funding (l_world L) o) as [[pp ks]|] eqn:Hfu; [|destruct Hf; congruence]. destruct Hf as [Hf ->].
  assert (pp = payer) as -> by congruence.
  destruct (funding_facts _ _ _ _ _ _ Hs Hfu) as (Hw & Hsg & Hsep).
  destruct He as [Hf2 Hc Hb|payer2 ks2 Hf2 Hc Hia|b r Hf2 Hc _ Hb]; [congruence| |congruence].
  rewrite Hfu in Hf2. apply (f_equal (from_option id (payer, []))) in Hf2. apply pair_parts in Hf2 as [Hf2 Hf3].
  cbn [fst snd from_option id] in Hf2, Hf3. subst payer2 ks2.
  destruct (init_all_ok _ _ _ _ _ Hn Hsep Hia) as (_ & _ & Hpay & Hk & Hrest & _).
  split; [assumption|]. split; [assumption|]. split; [rewrite price_cost; assumption|]. split.
  - intros a sz Ha. destruct (funding_new _ _ _ _ _ _ _ _ Hi Hs Hfu Ha) as [Hh1 Hh2].
    split; [assumption|]. split; [assumption|]. exact (Hk _ Ha).
  - intros a Hap Hna. apply Hrest; [assumption|]. intros Hin. apply elem_of_list_In, in_map_iff in Hin as ([y sz] & Hy1 & Hy2).
    cbn in Hy1. subst y. apply (Hna sz). apply elem_of_list_In. exact Hy2.
Qed.

(** An account that appears is one of those. *)
Theorem C77_appears L o L' l a n :
  lreach L -> lstep L (LOp o) = Ok (L', l) -> held (l_world L) a = None -> held (l_world L') a = Some n ->
  exists payer sz, payer_of o = Some payer /\ (a, sz) ∈ new_accounts (l_world L) o /\ n <= sz /\
    (sz = n \/ exists k, a = PBaseVault k \/ a = PQuoteVault k).
Proof.
  intros HL Hs Hh1 Hh2. pose proof (lreach_inv _ HL) as [Hr _ _]. pose proof (reachable_inv _ Hr) as Hi.
  apply lstep_effect in Hs as [Hs _]. pose proof (funding_spec (l_world L) o) as Hf.
  destruct (held_step _ _ _ _ a Hi Hs) as [Heq|[(payer & ks & sz & Hfu & Hin)|[r Hc]]]; [congruence| |].
  - rewrite Hfu in Hf. destruct Hf as [Hf Hks].
    destruct (funding_new _ _ _ _ _ _ _ _ Hi Hs Hfu Hin) as (_ & n' & Hn' & Hle).
    assert (n' = n) as -> by congruence. rewrite Hks in Hin. exists payer, sz. split; [assumption|]. split; [assumption|]. split; [assumption|].
    destruct o; try discriminate Hf; cbn [new_accounts] in Hin; cbn [step] in Hs.
    2: { rewrite !elem_of_cons, elem_of_nil in Hin. destruct Hin as [Ha|[Ha|[Ha|[]]]]; apply pair_parts in Ha as [-> ->]; [left|right; eexists; left; reflexivity|right; eexists; right; reflexivity].
      cbn [held] in Hh2. destruct (w_presales (l_world L') !! _); [|discriminate Hh2]. apply some_eq in Hh2. rewrite <- Hh2. reflexivity. }
    all: apply elem_of_list_singleton, pair_parts in Hin as [-> ->]; left; cbn [held] in Hh2;
      match type of Hh2 with _ <$> ?m !! ?k = _ => destruct (m !! k) eqn:E; [|discriminate Hh2] end; apply some_eq in Hh2; rewrite <- Hh2; try reflexivity.
    apply create_server_inv in Hs as (? & _ & _ & _ & _ & _ & _ & Hw' & _). rewrite Hw' in E. cbn in E. rewrite lookup_insert in E.
    injection E as <-. cbn. lia.
  - destruct (closing_gone _ _ _ _ _ _ Hi Hs Hc) as (_ & Hg & _). congruence.
Qed.

(** Closing an account needs the signature of whoever decides about it, empties it, and pays
    everything to the receiver the instruction names: at least the rent of the account.  Nobody
    else's balance changes. *)
Theorem C77_closing L o L' l a n :
  lreach L -> lstep L (LOp o) = Ok (L', l) -> held (l_world L) a = Some n -> held (l_world L') a = None ->
  (exists x, x ∈ signers_of o /\ decides (l_world L) a x) /\
  exists r, receiver_of o = Some r /\ r <> a /\ lam (l_bal L') a = 0 /\
    lam (l_bal L') r = lam (l_bal L) r + lam (l_bal L) a /\ (128 + n) * rate <= lam (l_bal L) a /\
    (forall x, x <> a -> x <> r -> lam (l_bal L') x = lam (l_bal L) x).
Proof.
  intros HL Hs Hh1 Hh2. pose proof (lreach_inv _ HL) as [Hr [Hn Ht] Hx]. pose proof (reachable_inv _ Hr) as Hi.
  apply lstep_effect in Hs as [Hs He].
  destruct (held_step _ _ _ _ a Hi Hs) as [Heq|[(payer & ks & sz & Hfu & Hin)|[r Hc]]]; [congruence| |].
  { destruct (funding_new _ _ _ _ _ _ _ _ Hi Hs Hfu Hin) as (Hx1 & _). congruence. }
  destruct (closing_gone _ _ _ _ _ _ Hi Hs Hc) as (Har & _ & _ & Hd). split; [assumption|].
  pose proof (closing_spec o) as Hrc. rewrite Hc in Hrc. exists r. split; [assumption|]. split; [auto|].
  destruct He as [Hf2 Hc2 _|payer2 ks2 Hf2 Hc2 _|b r2 Hf2 Hc2 _ Hb]; [congruence..|].
  rewrite Hc in Hc2. injection Hc2 as <- <-. rewrite Hb. rewrite !close_lam by assumption.
  rewrite decide_True by reflexivity. split; [reflexivity|].
  rewrite decide_False by auto. rewrite decide_True by reflexivity. split; [reflexivity|]. split; [apply Hx; assumption|].
  intros x Hxa Hxr. rewrite close_lam by assumption. rewrite !decide_False by assumption. reflexivity.
Qed.

(** Nothing but paying for new accounts and being closed takes lamports from an account. *)
Theorem C77_falls L o L' l a :
  lreach L -> lstep L (LOp o) = Ok (L', l) -> lam (l_bal L') a < lam (l_bal L) a ->
  (payer_of o = Some a /\ a ∈ signers_of o) \/ (is_Some (held (l_world L) a) /\ held (l_world L') a = None).
Proof.
  intros HL Hs Hlt. pose proof (lreach_inv _ HL) as [Hr [Hn Ht] Hx]. pose proof (reachable_inv _ Hr) as Hi.
  pose proof Hs as Hs0. apply lstep_effect in Hs as [Hs He]. destruct He as [Hf Hc Hb|payer ks Hf Hc Hia|b r Hf Hc _ Hb].
  - rewrite Hb in Hlt. lia.
  - pose proof (funding_spec (l_world L) o) as Hsp. rewrite Hf in Hsp. destruct Hsp as [Hp ->].
    destruct (C77_creation _ _ _ _ _ HL Hs0 Hp) as (_ & Hsg & _ & Hnew & Hrest).
    destruct (decide (a = payer)) as [->|Hap]; [left; auto|]. exfalso.
    destruct (decide (a ∈ map fst (new_accounts (l_world L) o))) as [Hin|Hin].
    + apply elem_of_list_In, in_map_iff in Hin as ([y sz] & Hy1 & Hy2). cbn in Hy1. subst y. apply elem_of_list_In in Hy2.
      destruct (Hnew _ _ Hy2) as (_ & _ & Hl). lia.
    + rewrite Hrest in Hlt; [lia|assumption|]. intros sz Hsz. apply Hin. apply elem_of_list_In, in_map_iff. exists (a, sz).
      split; [reflexivity|apply elem_of_list_In; assumption].
  - destruct (closing_gone _ _ _ _ _ _ Hi Hs Hc) as (Hbr & Hg & Hh & _). rewrite Hb, close_lam in Hlt by assumption.
    destruct (decide (a = b)) as [->|]; [right; auto|]. pose proof (Hn b). destruct (decide (a = r)) as [->|]; lia.
Qed.

(** Which instructions are accepted: those of the state machine whose payer can pay.  In particular
    the lamports of a closed account always fit the receiver's balance, and nothing can be done to
    an address to prevent the creation of its account. *)
Theorem C77_accepted_iff L o :
  lreach L ->
  (exists L' l, lstep L (LOp o) = Ok (L', l)) <->
  (exists w' l, step (l_world L) o = Ok (w', l)) /\
  (forall payer, payer_of o = Some payer ->
     price (l_world L) (l_bal L) o <= lam (l_bal L) payer /\
     (price (l_world L) (l_bal L) o = 0 \/ system_owned (l_world L) payer)).
Proof.
  intros HL. pose proof (lreach_inv _ HL) as [Hr [Hn Ht] Hx]. pose proof (reachable_inv _ Hr) as Hi.
  pose proof (funding_spec (l_world L) o) as Hsp. split.
  - intros (L' & l & Hs). apply lstep_effect in Hs as [Hs He]. split; [eauto|]. intros payer Hp.
    destruct He as [Hf Hc Hb|payer2 ks Hf Hc Hia|b r Hf Hc _ Hb]; rewrite Hf in Hsp; destruct Hsp as [Hp2 Hks]; [congruence| |congruence].
    assert (payer2 = payer) as -> by congruence. destruct (funding_facts _ _ _ _ _ _ Hs Hf) as (_ & _ & Hsep).
    destruct (init_all_ok _ _ _ _ _ Hn Hsep Hia) as (Hso & Hle & _). rewrite price_cost, <- Hks. auto.
  - intros [(w' & l & Hs) Hp]. cbn [lstep]. unfold pay_inits, pay_close. rewrite Hs.
    destruct (funding (l_world L) o) as [[payer ks]|] eqn:Hf.
    + destruct Hsp as [Hp2 Hks]. destruct (Hp _ Hp2) as [Hle Hso]. rewrite price_cost, <- Hks in Hle, Hso.
      destruct (funding_facts _ _ _ _ _ _ Hs Hf) as (_ & _ & Hsep).
      destruct (init_all_can (l_world L) _ _ _ Hn Hsep Hso Hle) as [b' Hb']. rewrite Hb'. cbn [rbind].
      destruct (funding_closing (l_world L) o) as [Hc|Hc]; [congruence|]. rewrite Hc. cbn [rbind]. eauto.
    + cbn [rbind]. destruct (closing o) as [[a r]|] eqn:Hc; [|cbn [rbind]; eauto].
      destruct (closing_gone _ _ _ _ _ _ Hi Hs Hc) as (Har & _). unfold close_account.
      rewrite require_true; [cbn [rbind]; eauto|]. apply Z.leb_le.
      pose proof (lam_two (l_bal L) a r Hn Har). lia.
Qed.

(** More lamports anywhere never hurt: whatever is accepted stays accepted, and creating accounts
    gets no more expensive. *)
Theorem C77_dust_harmless L1 L2 o L1' l :
  lreach L1 -> lreach L2 -> l_world L2 = l_world L1 -> (forall a, lam (l_bal L1) a <= lam (l_bal L2) a) ->
  lstep L1 (LOp o) = Ok (L1', l) ->
  (exists L2', lstep L2 (LOp o) = Ok (L2', l) /\ l_world L2' = l_world L1') /\
  price (l_world L2) (l_bal L2) o <= price (l_world L1) (l_bal L1) o.
Proof.
  intros HL1 HL2 Hw Hle Hs.
  assert (Hpr : price (l_world L2) (l_bal L2) o <= price (l_world L1) (l_bal L1) o).
  { unfold price. rewrite Hw. induction (new_accounts (l_world L1) o) as [|x ks IH]; [reflexivity|]. cbn [foldr].
    unfold missing at 1 3. pose proof (Hle x.1). lia. }
  split; [|assumption].
  assert (Hok : exists L' l', lstep L1 (LOp o) = Ok (L', l')) by eauto.
  apply C77_accepted_iff in Hok as [(w1 & l1 & Hs1) Hp]; [|assumption].
  assert (Hok2 : exists L' l', lstep L2 (LOp o) = Ok (L', l')).
  { apply C77_accepted_iff; [assumption|]. rewrite Hw in *. split; [eauto|]. intros payer Hpy.
    destruct (Hp _ Hpy) as [Hp1 Hp2]. pose proof (Hle payer). split; [lia|].
    destruct Hp2 as [Hp2|]; [|auto]. left. pose proof (cost_nonneg (l_bal L2) (new_accounts (l_world L1) o)) as Hc.
    rewrite <- price_cost in Hc. lia. }
  destruct Hok2 as (L2' & l2 & Hs2). apply lstep_effect in Hs as [Hs _]. pose proof Hs2 as Hs2'. apply lstep_effect in Hs2 as [Hs2 _].
  rewrite Hw, Hs in Hs2. injection Hs2 as Hw2 <-. exists L2'. auto.
Qed.

(** The lamports of a presale and of its vaults only ever grow: there is no instruction that
    returns them. *)
Lemma presale_stays w o w' l k p : inv w -> step w o = Ok (w', l) -> w_presales w !! k = Some p -> is_Some (w_presales w' !! k).
Proof.
  intros Hi Hs Hp. destruct (does_presale _ _ _ _ k (step_does _ _ _ _ Hi Hs));
    match goal with X : w_presales w' !! k = _ |- _ => rewrite X end; eauto.
Qed.
Theorem C77_presale_rent_locked L l k p x :
  lreach L -> w_presales (l_world L) !! k = Some p -> x = k \/ x = PBaseVault k \/ x = PQuoteVault k ->
  lam (l_bal L) x <= lam (l_bal (lrun L l)) x.
Proof.
  revert L p. induction l as [|y l IH]; intros L p HL Hp Hx; [reflexivity|].
  cbn. unfold lexec. destruct (lstep L y) as [[L' fx]|] eqn:Hs; [|eapply IH; eassumption].
  pose proof (lreach_inv _ HL) as [Hr [Hn Ht] _]. pose proof (reachable_inv _ Hr) as Hi.
  assert (HL' : lreach L').
  { destruct HL as (b0 & l0 & Hb0 & ->). exists b0, (l0 ++ [y]). split; [assumption|]. unfold lrun in *. rewrite fold_left_app.
    cbn. unfold lexec at 1. rewrite Hs. reflexivity. }
  assert (Hkey : exists b m q, k = PPresale b m q) by (eapply shape_presale; eassumption).
  assert (Hext : external x = false) by (destruct Hkey as (?&?&?&->), Hx as [->|[->| ->]]; reflexivity).
  assert (Hgo : lam (l_bal L) x <= lam (l_bal L') x /\ is_Some (w_presales (l_world L') !! k)).
  { destruct y as [o|from to n|from n|to n].
    - pose proof Hs as Hs0. apply lstep_effect in Hs as [Hs _].
      pose proof (presale_stays _ _ _ _ _ _ Hi Hs Hp) as [p' Hp']. split; [|eauto].
      destruct (Z.lt_ge_cases (lam (l_bal L') x) (lam (l_bal L) x)) as [Hlt|]; [exfalso|assumption].
      destruct (C77_falls _ _ _ _ _ HL Hs0 Hlt) as [[Hpay _]|[_ Hg]].
      + destruct (C77_creation _ _ _ _ _ HL Hs0 Hpay) as (Hw & _). destruct x; try discriminate Hw; discriminate Hext.
      + destruct Hkey as (?&?&?&->), Hx as [->|[->| ->]]; cbn [held] in Hg; rewrite Hp' in Hg; discriminate Hg.
    - cbn [lstep] in Hs. bq Hs Hb. apply Ok_inj in Hs. injection Hs as <- <-. clean_bool. cbn [l_world l_bal]. split; [|eauto].
      destruct (decide (from = to)) as [->|Hft]; [rewrite send_self; lia|]. rewrite send_lam by assumption.
      destruct (decide (x = to)) as [->|]; [lia|]. destruct (decide (x = from)) as [->|]; [congruence|lia].
    - cbn [lstep] in Hs. bq Hs Hb. apply Ok_inj in Hs. injection Hs as <- <-. clean_bool. cbn [l_world l_bal]. split; [|eauto].
      rewrite lam_insert. destruct (decide (x = from)) as [->|]; [congruence|lia].
    - cbn [lstep] in Hs. bq Hs Hb. apply Ok_inj in Hs. injection Hs as <- <-. clean_bool. cbn [l_world l_bal]. split; [|eauto].
      rewrite lam_insert. destruct (decide (x = to)) as [->|]; lia. }
  destruct Hgo as [Hle [p' Hp']]. etransitivity; [exact Hle|]. eapply IH; eassumption.
Qed.

(** * C78: does the rent go back to whoever paid it? *)

(** What is true: whoever is paid when an account is closed gets at least what its payer spent on it
    ([C78_rent_returns_refuted] below: it need not be the payer, who has no say in it). *)
Theorem C78_rent_returns_partial L o L' l payer a n L2 o2 L2' l2 :
  lreach L -> lstep L (LOp o) = Ok (L', l) -> payer_of o = Some payer ->
  held (l_world L) a = None -> held (l_world L') a = Some n ->
  lreach L2 -> held (l_world L2) a = Some n -> lstep L2 (LOp o2) = Ok (L2', l2) -> held (l_world L2') a = None ->
  exists r, receiver_of o2 = Some r /\ lam (l_bal L') a - lam (l_bal L) a <= lam (l_bal L2') r - lam (l_bal L2) r.
Proof.
  intros HL Hs Hp Hh Hh' HL2 Hh2 Hs2 Hh2'.
  destruct (C77_appears _ _ _ _ _ _ HL Hs Hh Hh') as (_ & sz & _ & Hin & _ & Hsz).
  destruct (C77_creation _ _ _ _ _ HL Hs Hp) as (_ & _ & _ & Hnew & _). destruct (Hnew _ _ Hin) as (_ & _ & Hl).
  destruct (C77_closing _ _ _ _ _ _ HL2 Hs2 Hh2 Hh2') as ((x & _ & Hd) & r & Hr & _ & _ & Hlr & Hge & _).
  destruct Hsz as [->|[k [->| ->]]]; [|contradiction Hd..].
  exists r. split; [assumption|]. pose proof (C77_same_program _ HL) as (_ & Hn & _). pose proof (C77_same_program _ HL2) as (_ & Hn2 & _). specialize (Hn a). specialize (Hn2 a). lia.
Qed.

End WithCrypto.

(** * Concrete histories *)
#[local] Existing Instance toy.
Definition mainnet : Rent := {|
  rate := 6960; vault_size := fun m => match m_fee m with Some _ => 178 | None => 165 end;
  rate_pos := eq_refl; vault_min := fun m =>
    match m_fee m as f return 165 <= match f with Some _ => 178 | None => 165 end with
    | Some _ => ltac:(discriminate) | None => ltac:(discriminate) end
|}.
#[local] Existing Instance mainnet.

(** Ten million lamports each; somebody sent one lamport to the future address of bob's escrow. *)
Definition start : gmap addr Z :=
  list_to_map [(creator, 40000000); (alice, 10000000); (bob, 10000000); (carol, 10000000); (PEscrow k1 bob 0, 1)].
Lemma start_ok : balances start.
Proof.
  split; [|vm_compute; discriminate]. intros a n Ha.
  apply elem_of_list_to_map_2 in Ha. rewrite !elem_of_cons, elem_of_nil in Ha.
  destruct Ha as [Ha|[Ha|[Ha|[Ha|[Ha|[]]]]]]; apply pair_parts in Ha as [_ ->]; discriminate.
Qed.
Lemma lexec_ok L x : lreach L -> lreach (lexec L x).
Proof.
  intros (b & l & Hb & ->). exists b, (l ++ [x]). split; [exact Hb|]. unfold lrun. rewrite fold_left_app. reflexivity.
Qed.
Definition lok (L : ledger) (x : lop) : bool := match lstep L x with Ok _ => true | Err _ => false end.
Lemma lok_step L x : lok L x = true -> exists l, lstep L x = Ok (lexec L x, l).
Proof. unfold lok, lexec. destruct (lstep L x) as [[L' l]|]; [eauto|discriminate]. Qed.

Definition carol_pays : op := IEscrowPermissionless k1 bob carol.
Definition to_alice : op := ICloseEscrow k1 (PEscrow k1 bob 0) bob alice.
Definition L_pre : ledger := lrun (mkLedger genesis start) (map LOp (setup ++ [IInitFixedArgs k1 creator creator 0 fx_price])).
Definition L_open : ledger := lexec L_pre (LOp fx_init).
Definition L_held : ledger := lexec L_open (LOp carol_pays).
Definition L_done : ledger := lexec L_held (LOp to_alice).
Lemma held_eq : lexec L_open (LOp carol_pays) = L_held.
Proof. unfold L_held; generalize (LOp carol_pays), L_open; reflexivity. Qed.
Lemma done_eq : lexec L_held (LOp to_alice) = L_done.
Proof. unfold L_done; generalize (LOp to_alice), L_held; reflexivity. Qed.
Lemma pre_ok : lreach L_pre.
Proof. exists start, (map LOp (setup ++ [IInitFixedArgs k1 creator creator 0 fx_price])). split; [exact start_ok|reflexivity]. Qed.
Lemma open_ok : lreach L_open.
Proof. apply lexec_ok, pre_ok. Qed.

(** The numbers: the price of a presale with its vaults, of an escrow at an address that already holds
    a lamport, and of closing it.  (One computation, so that the history is run only once.) *)
Example C77_example :
  (* a presale is created, carol pays for the escrow of bob, bob closes it to alice *)
  (lok L_pre (LOp fx_init) = true /\ lok L_open (LOp carol_pays) = true /\ lok L_held (LOp to_alice) = true) /\
  (lam (l_bal L_open) carol = 10000000 /\ lam (l_bal L_held) carol = 10000000 - (328 * 6960 - 1) /\
   lam (l_bal L_done) carol = 10000000 - (328 * 6960 - 1)) /\
  (held (l_world L_open) (PEscrow k1 bob 0) = None /\ held (l_world L_held) (PEscrow k1 bob 0) = Some 200 /\
   held (l_world L_done) (PEscrow k1 bob 0) = None) /\
  price (l_world L_pre) (l_bal L_pre) fx_init = (1400 + 306 + 293) * 6960 /\
  lam (l_bal L_pre) creator = 40000000 - 296 * 6960 /\
  lam (l_bal L_open) creator = 40000000 - (296 + 1400 + 306 + 293) * 6960 /\
  price (l_world L_open) (l_bal L_open) carol_pays = 328 * 6960 - 1 /\
  lam (l_bal L_done) alice = 10000000 + 328 * 6960 /\ lam (l_bal L_done) bob = 10000000 /\
  lam (l_bal L_done) (PEscrow k1 bob 0) = 0 /\
  (* refused: without lamports, from a token account; from either it would be accepted otherwise *)
  [lok L_open (LOp (IEscrowPermissionless k1 bob oper)); ok_step (l_world L_open) (IEscrowPermissionless k1 bob oper);
   lok (lexec L_open (LMove alice alice_q 5000000)) (LOp (IEscrowPermissionless k1 bob alice_q));
   ok_step (l_world L_open) (IEscrowPermissionless k1 bob alice_q)] = [false; true; false; true] /\
  (* accepted: after a gift to the payer, or dust at the new address *)
  [lok (lexec L_open (LMove alice oper 5000000)) (LOp (IEscrowPermissionless k1 bob oper));
   lok (lexec L_open (LReward (PEscrow k1 bob 0) 5000000)) (LOp (IEscrowPermissionless k1 bob oper))] = [true; true] /\
  (* refused: closing to itself, closing without being the owner *)
  [lok L_held (LOp (ICloseEscrow k1 (PEscrow k1 bob 0) bob (PEscrow k1 bob 0)));
   lok L_held (LOp (ICloseEscrow k1 (PEscrow k1 bob 0) carol carol))] = [false; false].
Proof. vm_compute. auto 20. Qed.

(** carol paid for the escrow of bob; bob closes it to alice, and carol gets nothing back. *)
Theorem C78_rent_returns_refuted :
  ~ (forall L o L' l payer a n o2 L2' l2, lreach L -> lstep L (LOp o) = Ok (L', l) -> payer_of o = Some payer ->
       held (l_world L) a = None -> held (l_world L') a = Some n -> lam (l_bal L') payer < lam (l_bal L) payer ->
       lstep L' (LOp o2) = Ok (L2', l2) -> held (l_world L2') a = None ->
       lam (l_bal L') payer < lam (l_bal L2') payer).
Proof.
  intros Hall. destruct C77_example as ((_ & Ho1 & Ho2) & (Hc1 & Hc2 & Hc3) & (Hh1 & Hh2 & Hh3) & _).
  apply lok_step in Ho1 as [l1 Ho1]. apply lok_step in Ho2 as [l2 Ho2].
  rewrite held_eq in Ho1. rewrite done_eq in Ho2.
  specialize (Hall L_open carol_pays L_held l1 carol _ _ to_alice L_done l2 open_ok Ho1 eq_refl Hh1 Hh2).
  rewrite Hc1, Hc2, Hc3 in Hall. specialize (Hall eq_refl Ho2 Hh3). discriminate Hall.
Qed.
