(** C76: the switches that owners set on their own token accounts (a memo is required on incoming
    transfers; programs may not spend for the owner).  *)
From Coq Require Import Lia.
From Verif Require Import Base Math State Handlers Token World Instr Exec Spec Tactics Sums Arith
  TokenFacts Inv Acct Funs Steps Init Preserve Reach Did Trans Flow P_Payout Scenario.

(** Two worlds that agree on everything except for these two switches. *)
Definition same_token (t1 t2 : token) : Prop :=
  t_mint t1 = t_mint t2 /\ t_owner t1 = t_owner t2 /\ t_amount t1 = t_amount t2 /\
  t_frozen t1 = t_frozen t2 /\ t_delegate t1 = t_delegate t2.
Definition same_accounts (a b : gmap addr token) : Prop := forall k,
  match a !! k, b !! k with
  | Some t1, Some t2 => same_token t1 t2
  | None, None => True
  | _, _ => False
  end.
Record same_but_switches (w1 w2 : world) : Prop := {
  sb_now : w_now w1 = w_now w2;
  sb_presales : w_presales w1 = w_presales w2;
  sb_escrows : w_escrows w1 = w_escrows w2;
  sb_tokens : same_accounts (w_tokens w1) (w_tokens w2);
  sb_mints : w_mints w1 = w_mints w2;
  sb_fixed : w_fixed w1 = w_fixed w2;
  sb_merkles : w_merkles w1 = w_merkles w2;
  sb_opers : w_opers w1 = w_opers w2;
  sb_servers : w_servers w1 = w_servers w2
}.

(** The token account an instruction is paid from, when a user pays. *)
Definition paying (o : op) : option addr :=
  match o with
  | IInitPresale _ _ _ pt _ _ _ _ _ _ => Some pt
  | IDeposit _ _ _ _ pt _ _ _ _ => Some pt
  | _ => None
  end.

(** * The same world with other switches *)
Definition flag (f g : addr -> bool) (a : addr) (t : token) : token := set_t_guard (g a) (set_t_memo (f a) t).
Definition reflag (f g : addr -> bool) (w : world) : world :=
  put_tokens (map_imap (fun a t => Some (flag f g a t)) (w_tokens w)) w.
Definition also (F : world -> world) (r : res (world * list fx)) : res (world * list fx) :=
  match r with Ok (w, l) => Ok (F w, l) | Err e => Err e end.

Lemma reflag_lookup f g w a : w_tokens (reflag f g w) !! a = flag f g a <$> w_tokens w !! a.
Proof. cbn. rewrite map_lookup_imap. destruct (w_tokens w !! a); reflexivity. Qed.
Lemma reflag_upd f g w a t t' : flag f g a t = t' -> reflag f g (upd_token a t w) = upd_token a t' (reflag f g w).
Proof.
  intros <-. unfold reflag, upd_token, put_tokens. cbn. f_equal.
  apply (map_imap_insert_Some (fun a t => Some (flag f g a t))). reflexivity.
Qed.
Lemma reflag_upd_mint f g w a m : reflag f g (upd_mint a m w) = upd_mint a m (reflag f g w).
Proof. reflexivity. Qed.

Lemma transfer_reflag f g w pr src mk dst auth n ok :
  tok_transfer (reflag f g w) pr src mk dst auth n ok = also (reflag f g) (tok_transfer w pr src mk dst auth n ok).
Proof.
  unfold tok_transfer, get_token, get_mint. rewrite !reflag_lookup.
  change (w_mints (reflag f g w)) with (w_mints w).
  destruct (w_mints w !! mk) as [m|]; [|reflexivity]. cbn [ok_or rbind].
  destruct (w_tokens w !! src) as [s|] eqn:Hs; [|reflexivity]. cbn [ok_or rbind fmap option_fmap option_map].
  destruct (w_tokens w !! dst) as [d|] eqn:Hd; [|reflexivity]. cbn [ok_or rbind fmap option_fmap option_map].
  change (t_frozen (flag f g src s)) with (t_frozen s). change (t_frozen (flag f g dst d)) with (t_frozen d).
  change (t_amount (flag f g src s)) with (t_amount s). change (t_amount (flag f g dst d)) with (t_amount d).
  change (t_mint (flag f g src s)) with (t_mint s). change (t_mint (flag f g dst d)) with (t_mint d).
  change (tok_authorize m (flag f g src s) auth n) with (tok_authorize m s auth n).
  do 4 (destruct (require _ _); cbn [rbind]; [|reflexivity]).
  destruct (tok_authorize m s auth n) as [dl|]; cbn [rbind]; [|reflexivity].
  destruct (beq_addr src dst); [reflexivity|].
  do 2 (destruct (require _ _); cbn [rbind]; [|reflexivity]). cbn [also]. do 2 f_equal.
  rewrite reflag_upd_mint. f_equal. symmetry. erewrite reflag_upd by reflexivity. f_equal.
  apply reflag_upd. reflexivity.
Qed.
Lemma burn_reflag f g w pr src mk auth n :
  tok_burn (reflag f g w) pr src mk auth n = also (reflag f g) (tok_burn w pr src mk auth n).
Proof.
  unfold tok_burn, get_token, get_mint. rewrite !reflag_lookup.
  change (w_mints (reflag f g w)) with (w_mints w).
  destruct (w_mints w !! mk) as [m|]; [|reflexivity]. cbn [ok_or rbind].
  destruct (w_tokens w !! src) as [s|] eqn:Hs; [|reflexivity]. cbn [ok_or rbind fmap option_fmap option_map].
  change (t_frozen (flag f g src s)) with (t_frozen s).
  change (t_amount (flag f g src s)) with (t_amount s). change (t_mint (flag f g src s)) with (t_mint s).
  change (tok_authorize m (flag f g src s) auth n) with (tok_authorize m s auth n).
  do 4 (destruct (require _ _); cbn [rbind]; [|reflexivity]).
  destruct (tok_authorize m s auth n) as [dl|]; cbn [rbind]; [|reflexivity].
  cbn [also]. do 2 f_equal. rewrite reflag_upd_mint. f_equal. symmetry. apply reflag_upd. reflexivity.
Qed.

(** [g] says about account [a] what the account says. *)
Definition guard_kept (g : addr -> bool) (w : world) (a : addr) : Prop :=
  forall t, w_tokens w !! a = Some t -> g a = t_guard t.
Definition memo_free (f : addr -> bool) (w : world) (a : addr) : Prop :=
  f a = false /\ forall t, w_tokens w !! a = Some t -> t_memo t = false.

Lemma checked_reflag f g w pr src mk dst auth n memo memo' cpi ok :
  guard_kept g w src ->
  (forall m d, w_mints w !! mk = Some m -> w_tokens w !! dst = Some d ->
     (negb (wants_memo m d) || memo) = (negb (wants_memo m (flag f g dst d)) || memo')) ->
  tok_transfer_checked (reflag f g w) pr src mk dst auth n memo' cpi ok =
  also (reflag f g) (tok_transfer_checked w pr src mk dst auth n memo cpi ok).
Proof.
  intros Hg Hmm. unfold tok_transfer_checked. rewrite transfer_reflag. unfold get_token, get_mint.
  rewrite !reflag_lookup. change (w_mints (reflag f g w)) with (w_mints w).
  destruct (w_mints w !! mk) as [m|]; [|reflexivity]. cbn [ok_or rbind].
  destruct (w_tokens w !! src) as [s|] eqn:Hs; [|reflexivity]. cbn [ok_or rbind fmap option_fmap option_map].
  destruct (w_tokens w !! dst) as [d|] eqn:Hd; [|reflexivity]. cbn [ok_or rbind fmap option_fmap option_map].
  rewrite <- (Hmm m d eq_refl eq_refl).
  assert (guard_blocks m (flag f g src s) auth cpi = guard_blocks m s auth cpi) as ->.
  { unfold guard_blocks. cbn. rewrite (Hg _ Hs). reflexivity. }
  do 2 (destruct (require _ _); cbn [rbind]; [|reflexivity]). reflexivity.
Qed.

Lemma to_user_reflag f g w mk v dst pr n hooks ok :
  guard_kept g w v ->
  transfer_from_presale_to_user (reflag f g w) mk v dst pr n true hooks ok =
  also (reflag f g) (transfer_from_presale_to_user w mk v dst pr n true hooks ok).
Proof.
  intros Hg. unfold transfer_from_presale_to_user, sends_memo, get_mint, get_token. rewrite reflag_lookup.
  change (w_mints (reflag f g w)) with (w_mints w).
  destruct (w_mints w !! mk) as [m|] eqn:Hm; [|reflexivity]. cbn [ok_or rbind].
  destruct (w_tokens w !! dst) as [d|] eqn:Hd; [|reflexivity]. cbn [ok_or rbind fmap option_fmap option_map].
  destruct (check_hook_accounts m hooks); cbn [rbind andb]; [|reflexivity].
  apply checked_reflag; [assumption|]. intros m' d' Hm' Hd'.
  assert (m' = m) as -> by congruence. assert (d' = d) as -> by congruence.
  unfold wants_memo, is_transfer_memo_required. destruct (m_prog m), (t_memo d), (t_memo (flag f g dst d)); reflexivity.
Qed.
Lemma from_user_reflag f g w auth mk src v pr n hooks ok :
  guard_kept g w src -> memo_free f w v ->
  transfer_from_user (reflag f g w) auth mk src v pr n false hooks ok =
  also (reflag f g) (transfer_from_user w auth mk src v pr n false hooks ok).
Proof.
  intros Hg [Hf Hv]. unfold transfer_from_user, sends_memo, get_mint, get_token. rewrite reflag_lookup.
  change (w_mints (reflag f g w)) with (w_mints w).
  destruct (w_mints w !! mk) as [m|] eqn:Hm; [|reflexivity]. cbn [ok_or rbind].
  destruct (w_tokens w !! v) as [d|] eqn:Hd; [|reflexivity]. cbn [ok_or rbind fmap option_fmap option_map].
  destruct (check_hook_accounts m hooks); cbn [rbind andb]; [|reflexivity].
  apply checked_reflag; [assumption|]. intros m' d' Hm' Hd'.
  assert (m' = m) as -> by congruence. assert (d' = d) as -> by congruence.
  unfold wants_memo. cbn. rewrite Hf, (Hv d eq_refl). reflexivity.
Qed.
Lemma burn_cpi_reflag f g w pr src mk auth n :
  guard_kept g w src ->
  tok_burn_cpi (reflag f g w) pr src mk auth n = also (reflag f g) (tok_burn_cpi w pr src mk auth n).
Proof.
  intros Hg. unfold tok_burn_cpi. rewrite burn_reflag. unfold get_mint, get_token. rewrite reflag_lookup.
  change (w_mints (reflag f g w)) with (w_mints w).
  destruct (w_mints w !! mk) as [m|] eqn:Hm; [|reflexivity]. cbn [ok_or rbind].
  destruct (w_tokens w !! src) as [s|] eqn:Hs; [|reflexivity]. cbn [ok_or rbind fmap option_fmap option_map].
  assert (guard_blocks m (flag f g src s) auth true = guard_blocks m s auth true) as ->.
  { unfold guard_blocks. cbn. rewrite (Hg _ Hs). reflexivity. }
  destruct (require _ _); [|reflexivity]. cbn [rbind]. destruct (require _ _); reflexivity.
Qed.

Lemma rbind_assoc {A B C} (r : res A) (k : A -> res B) (k' : B -> res C) :
  rbind (rbind r k) k' = rbind r (fun x => rbind (k x) k').
Proof. destruct r; reflexivity. Qed.

Ltac binds Hs := repeat match type of Hs with
  | rbind _ _ = Ok _ => let u := fresh "u" in let Hu := fresh "Hu" in
      apply rbind_Ok in Hs; destruct Hs as [u [Hu Hs]]; cbv beta in Hs end.

(** Walk through both runs of an instruction in step. *)
Ltac par1 := lazymatch goal with
  | |- rbind (rbind _ _) _ = _ => rewrite !rbind_assoc
  | |- rbind match ?z with pair _ _ => _ end _ = _ => let a := fresh "a" in let b := fresh "b" in destruct z as [a b]
  | |- rbind ?a ?k = also ?F (rbind ?b ?k') =>
      first [change a with b | fail 1 "different" a b];
      let z := fresh "z" in let Hz := fresh "Hz" in
      destruct b as [z|] eqn:Hz; cbn [rbind]; cbv beta; [|reflexivity]
  | |- match ?z with pair _ _ => _ end = _ => let a := fresh "a" in let b := fresh "b" in destruct z as [a b]
  end.
Ltac par := repeat par1.
Ltac par_token := unfold get_token at 1 2; rewrite reflag_lookup;
  lazymatch goal with |- context[w_tokens ?w !! ?a] =>
    let t := fresh "t" in let Ht := fresh "Ht" in
    destruct (w_tokens w !! a) as [t|] eqn:Ht; [|reflexivity]; cbn [ok_or rbind fmap option_fmap option_map]; cbv beta end.

Lemma get_token_reflag f g w a :
  get_token (reflag f g w) a = match get_token w a with Ok t => Ok (flag f g a t) | Err e => Err e end.
Proof. unfold get_token. rewrite reflag_lookup. destruct (w_tokens w !! a); reflexivity. Qed.
Lemma also_bind F r k k' :
  (forall w l, r = Ok (w, l) -> k (F w, l) = also F (k' (w, l))) -> rbind (also F r) k = also F (rbind r k').
Proof. intros Hk. destruct r as [[w l]|]; cbn; [apply Hk; reflexivity|reflexivity]. Qed.

Lemma vacant_reflag f g w a :
  bool_decide (w_tokens (reflag f g w) !! a = None) = bool_decide (w_tokens w !! a = None).
Proof. apply bool_decide_ext. rewrite reflag_lookup. destruct (w_tokens w !! a); cbn; split; congruence. Qed.
Lemma new_vault_reflag f g w a b m n :
  f a = false -> g a = false -> f b = false -> g b = false ->
  reflag f g (upd_token a (new_vault m) (upd_token b (new_vault n) w)) =
  upd_token a (new_vault m) (upd_token b (new_vault n) (reflag f g w)).
Proof.
  intros Fa Ga Fb Gb. erewrite reflag_upd; [f_equal; apply reflag_upd|]; unfold flag; rewrite ?Fa, ?Ga, ?Fb, ?Gb; reflexivity.
Qed.

Lemma take_reflag f g w v mk er l : take_vault_and_mint (reflag f g w) v mk er l = take_vault_and_mint w v mk er l.
Proof.
  unfold take_vault_and_mint. destruct l as [|a [|b l]]; try reflexivity. rewrite get_token_reflag.
  destruct (get_token w a); reflexivity.
Qed.

Ltac presale_facts := 
  repeat match goal with
  | Hz : get_presale ?w ?k = Ok _ |- _ => apply ok_or_Ok in Hz
  | Hz : has_one _ _ = Ok _ |- _ => apply require_Ok in Hz; apply beq_addr_true in Hz
  end;
  repeat match goal with
  | Hx : forall k p, w_presales ?w !! k = Some p -> p_qvault p = _, Hk : w_presales ?w !! ?k = Some ?p, Hy : p_qvault ?p = ?v |- _ =>
     is_var v; rewrite (Hx _ _ Hk) in Hy; subst v
  | Hx : forall k p, w_presales ?w !! k = Some p -> p_bvault p = _, Hk : w_presales ?w !! ?k = Some ?p, Hy : p_bvault ?p = ?v |- _ =>
     is_var v; rewrite (Hx _ _ Hk) in Hy; subst v
  end.
Ltac tokens_read := rewrite get_token_reflag;
  lazymatch goal with |- context[get_token ?w ?a] =>
    let t := fresh "t" in let Ht := fresh "Ht" in
    destruct (get_token w a) as [t|] eqn:Ht; [|reflexivity]; cbn [rbind]; cbv beta end.

Section WithCrypto.
Context `{Crypto}.

Lemma step_reflag f g w o :
  inv w -> env_op o = false ->
  (forall k p, w_presales w !! k = Some p ->
     f (PQuoteVault k) = false /\ g (PQuoteVault k) = false /\ g (PBaseVault k) = false) ->
  (forall a, w_tokens w !! a = None -> f a = false /\ g a = false) ->
  (forall pt, paying o = Some pt -> guard_kept g w pt) ->
  step (reflag f g w) o = also (reflag f g) (step w o).
Proof.
  intros Hi Ho Hv Hn Hp.
  assert (Hq : forall k p, w_presales w !! k = Some p -> guard_kept g w (PQuoteVault k) /\ memo_free f w (PQuoteVault k)).
  { intros k p Hk. destruct (Hv _ _ Hk) as (V1 & V2 & V3).
    pose proof (q_qvault _ _ _ (i_presales _ Hi _ _ Hk)) as (t & Ht & _ & _ & (_ & P1 & P2) & _).
    split; [|split; [assumption|]]; intros t' Ht'; assert (t' = t) as -> by congruence; congruence. }
  assert (Hb : forall k p, w_presales w !! k = Some p -> guard_kept g w (PBaseVault k)).
  { intros k p Hk. destruct (Hv _ _ Hk) as (V1 & V2 & V3).
    pose proof (q_bvault _ _ _ (i_presales _ Hi _ _ Hk)) as (t & Ht & _ & _ & (_ & P1 & P2) & _).
    intros t' Ht'. assert (t' = t) as -> by congruence. congruence. }
  assert (Hqv : forall k p, w_presales w !! k = Some p -> p_qvault p = PQuoteVault k).
  { intros k p Hk. apply (c_qvault _ _ (q_cfg _ _ _ (i_presales _ Hi _ _ Hk))). }
  assert (Hbv : forall k p, w_presales w !! k = Some p -> p_bvault p = PBaseVault k).
  { intros k p Hk. apply (c_bvault _ _ (q_cfg _ _ _ (i_presales _ Hi _ _ Hk))). }
  destruct o; try discriminate Ho; cbn [step paying] in *.
  - unfold initialize_fixed_price_presale_args. cbv zeta. par. reflexivity.
  - unfold close_fixed_price_presale_args. par. reflexivity.
  - unfold initialize_presale. cbv zeta. do 7 par1.
    rewrite !vacant_reflag. do 3 par1.
    assert (Hnb : w_tokens w !! PBaseVault (PPresale base bmint qmint) = None).
    { match goal with Hz : require (bool_decide (w_tokens w !! PBaseVault _ = None)) _ = Ok _ |- _ =>
        apply require_Ok in Hz; apply bool_decide_eq_true_1 in Hz; exact Hz end. }
    assert (Hnq : w_tokens w !! PQuoteVault (PPresale base bmint qmint) = None).
    { match goal with Hz : require (bool_decide (w_tokens w !! PQuoteVault _ = None)) _ = Ok _ |- _ =>
        apply require_Ok in Hz; apply bool_decide_eq_true_1 in Hz; exact Hz end. }
    destruct (Hn _ Hnb) as [Fb Gb], (Hn _ Hnq) as [Fq Gq].
    rewrite <- !(new_vault_reflag f g) by assumption. par.
    rewrite from_user_reflag.
    + apply also_bind. intros w2 l2 _. destruct (locked_option (ia_locked a)); reflexivity.
    + intros t Ht. cbn in Ht. apply lookup_insert_Some in Ht as [[<- <-]|[Hne Ht]]; [exact Gq|].
      apply lookup_insert_Some in Ht as [[<- <-]|[Hne' Ht]]; [exact Gb|]. apply (Hp _ eq_refl). assumption.
    + split; [assumption|]. intros t Ht. cbn in Ht. rewrite lookup_insert_ne, lookup_insert in Ht by discriminate.
      injection Ht as <-. reflexivity.
  - unfold create_merkle_root_config. cbv zeta. par. reflexivity.
  - unfold close_merkle_root_config. cbv zeta. par. reflexivity.
  - unfold create_permissionless_escrow, finish_create_escrow. cbv zeta. par. reflexivity.
  - unfold create_permissioned_escrow_with_creator, finish_create_escrow. cbv zeta. par. reflexivity.
  - unfold create_permissioned_escrow_with_merkle_proof, finish_create_escrow. cbv zeta. par. reflexivity.
  - unfold create_operator. cbv zeta. par. reflexivity.
  - unfold revoke_operator. cbv zeta. par. reflexivity.
  - unfold deposit. cbv zeta. par. presale_facts.
    rewrite from_user_reflag; [apply also_bind; reflexivity|apply Hp; reflexivity|eapply Hq; eassumption].
  - unfold withdraw. cbv zeta. par. presale_facts.
    rewrite to_user_reflag by (eapply Hq; eassumption). apply also_bind. intros w1 l1 _. par. reflexivity.
  - unfold claim. cbv zeta. par. tokens_read. par. tokens_read. par. presale_facts.
    destruct (0 <? _); [|cbn [rbind]; par; reflexivity]. par.
    rewrite to_user_reflag by (eapply Hb; eassumption). apply also_bind. intros w1 l1 _. cbn [rbind]. par. reflexivity.
  - unfold withdraw_remaining_quote. cbv zeta. par. tokens_read. par. tokens_read. par. presale_facts.
    destruct (0 <? _); [|cbn [rbind]; par; reflexivity].
    rewrite to_user_reflag by (eapply Hq; eassumption). apply also_bind. intros w1 l1 _. par. reflexivity.
  - unfold perform_unsold_base_token_action. cbv zeta. par. tokens_read. par. presale_facts.
    destruct (uaction_of_u8 _).
    + par. 
      rewrite to_user_reflag by (eapply Hb; eassumption). apply also_bind. intros w1 l1 _. reflexivity.
    + rewrite burn_cpi_reflag by (eapply Hb; eassumption). apply also_bind. intros w1 l1 _. reflexivity.
  - unfold close_escrow. cbv zeta. par. reflexivity.
  - unfold creator_withdraw. cbv zeta. par. presale_facts. rewrite !take_reflag.
    assert (Hgk : forall v, v = p_qvault z1 \/ v = p_bvault z1 -> guard_kept g w v).
    { intros v [->| ->]; [erewrite Hqv by eassumption; eapply Hq|erewrite Hbv by eassumption; eapply Hb]; eassumption. }
    destruct (get_progress _ _); try reflexivity; par;
      match goal with Hz : Ok (_, _, _, _, _, _) = Ok _ |- _ => apply Ok_inj in Hz; injection Hz as <- <- <- <- <- <- end;
      (rewrite to_user_reflag by (apply Hgk; auto)); apply also_bind; intros w1 l1 _; par; reflexivity.
  - unfold refresh_escrow. cbv zeta. par. reflexivity.
  - unfold create_permissioned_server_metadata. cbv zeta. par. reflexivity.
  - unfold close_permissioned_server_metadata. cbv zeta. par. reflexivity.
  - unfold creator_collect_fee. cbv zeta. par. tokens_read. tokens_read. par. presale_facts.
    destruct (0 <? _); [|cbn [rbind]; par; reflexivity].
    par.
    rewrite to_user_reflag by (eapply Hq; eassumption). apply also_bind. intros w1 l1 _. par. reflexivity.
Qed.

Lemma reflag_intro w1 w2 : same_but_switches w1 w2 -> exists f g, w2 = reflag f g w1 /\
  (forall a t, w_tokens w2 !! a = Some t -> f a = t_memo t /\ g a = t_guard t) /\
  (forall a, w_tokens w2 !! a = None -> f a = false /\ g a = false).
Proof.
  intros Hs. set (look (P : token -> bool) a := match w_tokens w2 !! a with Some t => P t | None => false end).
  exists (look t_memo), (look t_guard). split; [|split].
  - destruct Hs. destruct w1, w2. cbn in *. unfold reflag, put_tokens. cbn. subst. f_equal.
    apply map_eq. intros a. rewrite map_lookup_imap. specialize (sb_tokens0 a). subst look. cbn.
    destruct (w_tokens !! a) as [t1|], (w_tokens0 !! a) as [t2|] eqn:E; cbn; try contradiction; [|reflexivity].
    destruct sb_tokens0 as (E1 & E2 & E3 & E4 & E5). unfold flag, set_t_guard, set_t_memo. cbn. rewrite E.
    f_equal. destruct t1, t2. cbn in *. congruence.
  - intros a t Ht. subst look. cbn. rewrite Ht. auto.
  - intros a Ha. subst look. cbn. rewrite Ha. auto.
Qed.
Lemma reflag_same f g w : same_but_switches w (reflag f g w).
Proof.
  constructor; try reflexivity. intros k. rewrite reflag_lookup. destruct (w_tokens w !! k); cbn; repeat split.
Qed.

(** * C76 *)

(** The vaults of a presale never demand a memo, are never guarded, and nobody but the program can
    spend from them. *)
Theorem C76_vaults_plain w k p :
  reachable w -> w_presales w !! k = Some p ->
  forall v, v = PBaseVault k \/ v = PQuoteVault k ->
  exists t, w_tokens w !! v = Some t /\ t_owner t = PAuth /\ t_memo t = false /\ t_guard t = false /\
    t_delegate t = None.
Proof.
  intros Hw Hp v Hv. pose proof (i_presales _ (reachable_inv _ Hw) _ _ Hp) as Hok.
  destruct Hv as [->| ->].
  - destruct (q_bvault _ _ _ Hok) as (t & Ht & _ & Ho & (P1 & P2 & P3) & _). eauto 8.
  - destruct (q_qvault _ _ _ Hok) as (t & Ht & _ & Ho & (P1 & P2 & P3) & _). eauto 8.
Qed.

(** No instruction of the program is influenced by these switches, on any account, except for the
    guard of the account that pays: same verdict, same error, same effects and the same accounts
    afterwards. *)
Theorem C76_switches_irrelevant w1 w2 o :
  reachable w1 -> reachable w2 -> same_but_switches w1 w2 -> env_op o = false ->
  (forall pt t1 t2, paying o = Some pt -> w_tokens w1 !! pt = Some t1 -> w_tokens w2 !! pt = Some t2 ->
     t_guard t1 = t_guard t2) ->
  match step w1 o, step w2 o with
  | Ok (w1', l1), Ok (w2', l2) => l1 = l2 /\ same_but_switches w1' w2'
  | Err e1, Err e2 => e1 = e2
  | _, _ => False
  end.
Proof.
  intros Hw1 Hw2 Hs Ho Hpay. pose proof (reachable_inv _ Hw1) as Hi1.
  destruct (reflag_intro _ _ Hs) as (f & g & E & Hsome & Hnone).
  assert (Hst : step w2 o = also (reflag f g) (step w1 o)).
  { rewrite E. apply step_reflag; try assumption.
    - intros k p Hp. assert (Hp2 : w_presales w2 !! k = Some p) by (rewrite <- (sb_presales _ _ Hs); assumption).
      destruct (C76_vaults_plain _ _ _ Hw2 Hp2 _ (or_introl eq_refl)) as (tb & Hb & _ & B1 & B2 & _).
      destruct (C76_vaults_plain _ _ _ Hw2 Hp2 _ (or_intror eq_refl)) as (tq & Hq & _ & Q1 & Q2 & _).
      apply Hsome in Hb as [Fb Gb], Hq as [Fq Gq]. rewrite Fq, Gq, Gb. auto.
    - intros a Ha. apply Hnone. rewrite E, reflag_lookup, Ha. reflexivity.
    - intros pt Hpt t Ht.
      assert (Ht2 : w_tokens w2 !! pt = Some (flag f g pt t)) by (rewrite E, reflag_lookup, Ht; reflexivity).
      symmetry. apply (Hpay pt t (flag f g pt t)); assumption. }
  rewrite Hst. destruct (step w1 o) as [[w1' l1]|e]; cbn; [|reflexivity].
  split; [reflexivity|apply reflag_same].
Qed.

(** The guard of the paying account: its owner cannot fund a presale or deposit from it, whoever
    the tokens would go to. *)
Theorem C76_guarded_payer_rejected w o pt payer mk t m :
  (exists k qv ek pr mx h, o = IDeposit k qv mk ek pt payer pr mx h) \/
  (exists base qm cr bp qp a h, o = IInitPresale base mk qm pt cr payer bp qp a h) ->
  reachable w -> w_tokens w !! pt = Some t -> w_mints w !! mk = Some m -> m_prog m = Token2022 ->
  t_guard t = true -> t_owner t = payer -> (forall d n, t_delegate t = Some (d, n) -> d <> payer) ->
  exists e, step w o = Err e.
Proof.
  intros Hk Hw Ht Hm Hpr Hg Hown Hdel. pose proof (reachable_inv _ Hw) as Hi.
  destruct (step w o) as [[w' l]|e] eqn:Hs; [exfalso|eauto].
  assert (Hblock : forall w0, w_tokens w0 !! pt = Some t -> w_mints w0 !! mk = Some m ->
    is_supported_mint m = true ->
    forall v pr n hooks ok w1 lx, transfer_from_user w0 payer mk pt v pr n false hooks ok <> Ok (w1, lx)).
  { intros w0 Ht0 Hm0 Hsup v pr n hooks ok w1 lx Htr. unfold transfer_from_user, get_mint in Htr. bget Htr m' Hm'.
    assert (m' = m) as -> by congruence. bi Htr mm Hmm. bi Htr u Hu.
    unfold tok_transfer_checked, get_mint, get_token in Htr. bget Htr m' Hm''. assert (m' = m) as -> by congruence.
    bget Htr s Hs0. assert (s = t) as -> by congruence. bget Htr d Hd. bq Htr Hmemo. bq Htr Hgu.
    unfold guard_blocks in Hgu. rewrite Hpr, Hg in Hgu. cbn in Hgu.
    rewrite (supported_no_delegate _ Hsup) in Hgu. cbn in Hgu.
    destruct (t_delegate t) as [[d0 n0]|]; [|discriminate].
    rewrite (proj2 (beq_addr_false d0 payer)) in Hgu; [discriminate|]. eapply Hdel. reflexivity. }
  destruct Hk as [(k & qv & ek & pr & mx & h & ->)|(base & qm & cr & bp & qp & a & h & ->)]; cbn [step] in Hs.
  - unfold deposit in Hs. repeat first [progress binds Hs | match type of Hs with match ?z with pair _ _ => _ end = _ => destruct z end].
    presale_facts.
    match goal with Hx : transfer_from_user _ _ _ _ _ _ _ _ _ _ = _ |- _ => eapply (Hblock w); [eassumption..| |exact Hx] end.
    match goal with Hp : w_presales w !! k = Some ?p |- _ => destruct (q_qmint _ _ _ (i_presales _ Hi _ _ Hp)) as (m' & Hm' & _ & Hsup);
      assert (m' = m) as <- by congruence end. assumption.
  - unfold initialize_presale in Hs. cbv zeta in Hs.
    repeat first [progress binds Hs | match type of Hs with match ?z with pair _ _ => _ end = _ => destruct z end].
    repeat match goal with
    | Hz : get_mint _ _ = Ok _ |- _ => apply ok_or_Ok in Hz
    | Hz : require _ _ = Ok _ |- _ => apply require_Ok in Hz
    | Hz : bool_decide _ = true |- _ => apply bool_decide_eq_true_1 in Hz
    end.
    match goal with Hx : transfer_from_user ?w1 _ _ _ _ _ _ _ _ _ = _ |- _ => eapply (Hblock w1); [| | |exact Hx] end.
    + cbn. rewrite !lookup_insert_ne by congruence. assumption.
    + assumption.
    + match goal with Hz : w_mints w !! mk = Some ?x, Hsp : is_supported_mint ?x = true |- _ =>
        assert (x = m) as <- by congruence; exact Hsp end.
Qed.

(** Owners turning the switches of their accounts on and off, in any order and number, change
    nothing else and cannot change what any instruction paid by nobody does next. *)
Definition turns_switch (o : op) : bool :=
  match o with ESetMemo _ _ _ | ESetGuard _ _ _ => true | _ => false end.

Lemma same_refl w : same_but_switches w w.
Proof. constructor; try reflexivity. intros k. destruct (w_tokens w !! k); repeat split. Qed.
Lemma same_trans w1 w2 w3 : same_but_switches w1 w2 -> same_but_switches w2 w3 -> same_but_switches w1 w3.
Proof.
  intros [A1 A2 A3 A4 A5 A6 A7 A8 A9] [B1 B2 B3 B4 B5 B6 B7 B8 B9]. constructor; try congruence.
  intros k. specialize (A4 k). specialize (B4 k).
  destruct (w_tokens w1 !! k), (w_tokens w2 !! k), (w_tokens w3 !! k); try contradiction; auto.
  unfold same_token in *. intuition congruence.
Qed.
Lemma turn_same w o : turns_switch o = true -> same_but_switches w (exec w o).
Proof.
  intros Ho. unfold exec. destruct (step w o) as [[w' l]|] eqn:Hs; [|apply same_refl].
  destruct o; try discriminate Ho; cbn [step] in Hs;
    unfold env_set_memo, env_set_guard, get_token in Hs; bget Hs t Ht; bi Hs m Hm; bi Hs u Hu; bi Hs u2 Hu2;
    apply Ok_inj in Hs; injection Hs as <- <-.
  all: constructor; try reflexivity; intros a; cbn.
  all: destruct (decide (a = k)) as [->|Hne];
    [rewrite lookup_insert, Ht; repeat split
    |rewrite lookup_insert_ne by congruence; destruct (w_tokens w !! a); repeat split].
Qed.

Theorem C76_turning_switches w l o :
  reachable w -> Forall (fun x => turns_switch x = true) l -> env_op o = false -> paying o = None ->
  same_but_switches w (run w l) /\
  match step w o, step (run w l) o with
  | Ok (w1, l1), Ok (w2, l2) => l1 = l2 /\ same_but_switches w1 w2
  | Err e1, Err e2 => e1 = e2
  | _, _ => False
  end.
Proof.
  intros Hw Hl Ho Hpy.
  assert (Hs : same_but_switches w (run w l)).
  { clear Ho Hpy Hw o. revert w. induction Hl as [|x l Hx Hl IH]; intros w; [apply same_refl|].
    eapply same_trans; [apply turn_same; exact Hx|apply IH]. }
  split; [assumption|]. apply C76_switches_irrelevant; try assumption.
  - apply reachable_run. assumption.
  - intros pt t1 t2 Hx. congruence.
Qed.
End WithCrypto.

(** * The hypotheses are met *)
#[local] Existing Instance toy.

(** Alice demands memos on, and guards, the account that receives the sold tokens.  A plain
    transfer to it is now refused, one with a memo is not, and the claim goes through as before. *)
Definition alice_strict : list op := [ESetMemo alice_b alice true; ESetGuard alice_b alice true].
Example ex_C76_strict_receiver :
  let w := w_pr_over in let w2 := run w_pr_over alice_strict in
  reachable w /\ Forall (fun x => turns_switch x = true) alice_strict /\
  match w_tokens w2 !! alice_b with Some t => t_memo t = true /\ t_guard t = true | None => False end /\
  step w2 (ETransfer creator_b bmint alice_b creator Token2022 5 false false true) = Err TokenNoMemo /\
  ok_step w2 (ETransfer creator_b bmint alice_b creator Token2022 5 true false true) = true /\
  ok_step w (getb alice alice_b 0) = true /\ ok_step w2 (getb alice alice_b 0) = true /\
  0 < bal (exec w2 (getb alice alice_b 0)) alice_b.
Proof.
  split; [exact (reach pr_over)|]. split; [repeat constructor|]. split; [vm_compute; auto|].
  repeat (split; [vm_compute; reflexivity|]). vm_compute. reflexivity.
Qed.

(** The creator guards the account that funds the presale: the presale cannot be created from it,
    and can be once the guard is off again. *)
Example ex_C76_guarded_payer :
  let w := run genesis (setup ++ [ESetGuard creator_b creator true]) in
  reachable w /\
  match w_tokens w !! creator_b with
  | Some t => t_guard t = true /\ t_owner t = creator /\ t_delegate t = None | None => False end /\
  step w pr_init = Err TokenCpiGuard /\
  ok_step (exec w (ESetGuard creator_b creator false)) pr_init = true /\
  ok_step (exec w (EApprove creator_b creator carol 10000))
    (IInitPresale base1 bmint qmint creator_b creator carol Token2022 SplToken pr_args noh) = true.
Proof.
  split; [exact (reach _)|]. split; [vm_compute; auto|].
  repeat (split; [vm_compute; reflexivity|]). vm_compute. reflexivity.
Qed.
