(** What a successful instruction did: one inversion lemma per instruction.  The statements list
    the checks that passed and the exact new ledger. *)
From Coq Require Import Lia.
From Verif Require Import Base Math State Handlers Token World Instr Exec Spec Tactics Sums Arith
  TokenFacts Inv Acct Funs.

(** Names the result of the next bind of [H]. *)
Ltac bi H x Hx := apply rbind_Ok in H; destruct H as [x [Hx H]]; cbv beta in H.
(** Next bind of [H] is a check. *)
Ltac bq H Hx := let u := fresh "u" in bi H u Hx; apply require_Ok in Hx; clear u.

Lemma clock_Ok w n : clock w = Ok n -> n = w_now w /\ 0 <= w_now w.
Proof.
  unfold clock, cast_i64_u64. destruct (Z.leb_spec 0 (w_now w)); [|discriminate].
  intros Hn. apply Ok_inj in Hn. auto.
Qed.
Lemma clock_ok w : 0 <= w_now w -> clock w = Ok (w_now w).
Proof. intros. unfold clock, cast_i64_u64. destruct (Z.leb_spec 0 (w_now w)); [reflexivity|lia]. Qed.
Lemma has_one_Ok a b u : has_one a b = Ok u -> a = b.
Proof. unfold has_one. intros Hh. apply require_Ok in Hh. apply beq_addr_true in Hh. assumption. Qed.
Lemma has_one_refl a : has_one a a = Ok tt.
Proof. unfold has_one. apply require_true. apply beq_addr_refl. Qed.
Lemma not_itself_Ok a b u : not_itself a b = Ok u -> a <> b.
Proof.
  unfold not_itself. intros Hh. apply require_Ok in Hh. intros ->. rewrite beq_addr_refl in Hh. discriminate.
Qed.
Lemma not_itself_ok a b : a <> b -> not_itself a b = Ok tt.
Proof.
  intros Hn. unfold not_itself. apply require_true. apply negb_true_iff.
  destruct (beq_addr a b) eqn:E; [|reflexivity]. apply beq_addr_true in E. contradiction.
Qed.
Lemma signer_Ok a u : signer a = Ok u -> is_wallet a = true.
Proof. apply require_Ok. Qed.

Ltac bclock H := let n := fresh "n" in let Hn := fresh "Hnow" in
  bi H n Hn; apply clock_Ok in Hn; destruct Hn as [-> Hn].
Ltac bone H Hx := let u := fresh "u" in bi H u Hx; apply has_one_Ok in Hx; clear u.
Ltac bsig H Hx := let u := fresh "u" in bi H u Hx; apply signer_Ok in Hx; clear u.
Ltac bself H Hx := let u := fresh "u" in bi H u Hx; apply not_itself_Ok in Hx; clear u.
Ltac bget H x Hx := bi H x Hx; apply ok_or_Ok in Hx.

Lemma beq_progress_true a b : beq_progress a b = true <-> a = b.
Proof. unfold beq_progress. apply bool_decide_eq_true. Qed.

Lemma cast_wl_Ok z m : cast_wl z = Ok m ->
  (z = 0 /\ m = Permissionless) \/ (z = 1 /\ m = WithMerkleProof) \/ (z = 2 /\ m = WithAuthority).
Proof.
  unfold cast_wl, wl_of_u8. intros Hm. apply ok_or_Ok in Hm.
  destruct (Z.eqb_spec z 0); [injection Hm as <-; auto|].
  destruct (Z.eqb_spec z 1); [injection Hm as <-; auto|].
  destruct (Z.eqb_spec z 2); [injection Hm as <-; auto|discriminate].
Qed.

(** * Transfers through token2022.rs *)
Lemma checked_Ok w pr src mk dst auth n memo cpi ok w' l :
  tok_transfer_checked w pr src mk dst auth n memo cpi ok = Ok (w', l) ->
  tok_transfer w pr src mk dst auth n ok = Ok (w', l).
Proof.
  unfold tok_transfer_checked. intros Ht. bi Ht m Hm. bi Ht s Hs. bi Ht d Hd. bi Ht u Hu. bi Ht v Hv. exact Ht.
Qed.
Lemma burn_cpi_Ok w pr src mk auth n w' l :
  tok_burn_cpi w pr src mk auth n = Ok (w', l) -> tok_burn w pr src mk auth n = Ok (w', l).
Proof. unfold tok_burn_cpi. intros Ht. bi Ht m Hm. bi Ht s Hs. bi Ht u Hu. bi Ht u2 Hu2. exact Ht. Qed.
Lemma from_user_Ok w auth mk src dst pr n b hooks ok w' l :
  transfer_from_user w auth mk src dst pr n b hooks ok = Ok (w', l) ->
  tok_transfer w pr src mk dst auth n ok = Ok (w', l) /\
  exists m, w_mints w !! mk = Some m /\ check_hook_accounts m hooks = Ok tt.
Proof.
  unfold transfer_from_user, get_mint. intros Ht. bget Ht m Hm. bi Ht x Hx. bi Ht u Hu. destruct u.
  apply checked_Ok in Ht. eauto.
Qed.
Lemma to_user_Ok w mk vault dst pr n b hooks ok w' l :
  transfer_from_presale_to_user w mk vault dst pr n b hooks ok = Ok (w', l) ->
  tok_transfer w pr vault mk dst PAuth n ok = Ok (w', l) /\
  exists m, w_mints w !! mk = Some m /\ check_hook_accounts m hooks = Ok tt.
Proof.
  unfold transfer_from_presale_to_user, get_mint. intros Ht. bget Ht m Hm. bi Ht x Hx. bi Ht u Hu. destruct u.
  apply checked_Ok in Ht. eauto.
Qed.

Lemma excluded_spec m n x :
  mint_fee_ok m -> 0 <= n -> calculate_transfer_fee_excluded_amount m n = Ok x -> x = n - tok_fee m n.
Proof.
  intros Hm Hn. unfold calculate_transfer_fee_excluded_amount, tok_fee.
  destruct (get_epoch_transfer_fee m); intros Hx.
  - apply safe_sub_Ok in Hx. lia.
  - apply Ok_inj in Hx. lia.
Qed.
Lemma excluded_ok m n :
  mint_fee_ok m -> 0 <= n -> calculate_transfer_fee_excluded_amount m n = Ok (n - tok_fee m n).
Proof.
  intros Hm Hn. pose proof (tok_fee_range m n Hm Hn).
  unfold calculate_transfer_fee_excluded_amount, tok_fee in *.
  destruct (get_epoch_transfer_fee m).
  - apply safe_sub_le. lia.
  - f_equal. lia.
Qed.

(** * Accounts of the presale itself *)

Lemma init_fixed_inv w presale owner payer dw q w' l :
  initialize_fixed_price_presale_args w presale owner payer dw q = Ok (w', l) ->
  is_wallet payer = true /\ w_fixed w !! PFixedArgs presale = None /\
  0 < q <= U128MAX /\ (dw = 0 \/ dw = 1) /\
  w' = put_fixed (<[PFixedArgs presale := mkFixed presale owner q dw]> (w_fixed w)) w /\
  l = [FxEvent (EvtFixedPricePresaleArgsCreate presale q)].
Proof.
  unfold initialize_fixed_price_presale_args. intros H.
  bq H Hd. bsig H Hs. bq H Hn. bq H Hq. bq H Hw. apply Ok_inj in H. injection H as <- <-.
  unfold in_u128, is_bool_u8 in *. clean_bool. repeat (split; [first [assumption|reflexivity|lia]|]). reflexivity.
Qed.

Lemma close_fixed_inv w k owner w' l :
  close_fixed_price_presale_args w k owner = Ok (w', l) ->
  exists x, w_fixed w !! k = Some x /\ x_owner x = owner /\ is_wallet owner = true /\
  w' = put_fixed (delete k (w_fixed w)) w /\ l = [].
Proof.
  unfold close_fixed_price_presale_args. intros H. bget H x Hx. bone H Ho. bsig H Hs.
  apply Ok_inj in H. injection H as <- <-. exists x. auto.
Qed.

Lemma create_merkle_inv w presale creator root version w' l :
  create_merkle_root_config w presale creator root version = Ok (w', l) ->
  exists p, w_presales w !! presale = Some p /\ p_owner p = creator /\ is_wallet creator = true /\
  w_merkles w !! PMerkle presale version = None /\
  (get_progress p (w_now w) = NotStarted \/ get_progress p (w_now w) = Ongoing) /\ p_wl p = 1 /\
  is_hash root = true /\ 0 <= version <= U64MAX /\
  w' = put_merkles (<[PMerkle presale version := mkMerkle root presale version]> (w_merkles w)) w /\
  l = [FxEvent (EvtMerkleRootConfigCreate creator (PMerkle presale version) presale version root)].
Proof.
  unfold create_merkle_root_config. intros H.
  bq H Hd. bclock H. bget H p Hp. bq H Hn. bsig H Hs. bq H Ho. bq H Hg. bi H wl Hwl. bq H Hw.
  apply Ok_inj in H. injection H as <- <-. clean_bool. exists p. subst wl.
  apply cast_wl_Ok in Hwl as [[? ?]|[[? ?]|[? ?]]]; try discriminate.
  apply orb_true_iff in Hg. rewrite !beq_progress_true in Hg. apply in_u64_iff in Hd.
  repeat (split; [first [assumption|reflexivity]|]). reflexivity.
Qed.

Lemma close_merkle_inv w presale k creator rr w' l :
  close_merkle_root_config w presale k creator rr = Ok (w', l) ->
  exists p c, w_presales w !! presale = Some p /\ w_merkles w !! k = Some c /\
  k_presale c = presale /\ p_owner p = creator /\ is_wallet creator = true /\ k <> rr /\
  get_progress p (w_now w) <> Ongoing /\
  w' = put_merkles (delete k (w_merkles w)) w /\
  l = [FxEvent (EvtCloseMerkleRootConfig presale k creator)].
Proof.
  unfold close_merkle_root_config. intros H.
  bclock H. bget H p Hp. bget H c Hcc. bone H Hk. bself H Hrr. bsig H Hs. bq H Ho. bq H Hg.
  apply Ok_inj in H. injection H as <- <-. clean_bool. exists p, c.
  repeat (split; [first [assumption|reflexivity]|]). split; [|auto].
  intros Hx. rewrite Hx in Hg. discriminate.
Qed.

Lemma create_operator_inv w oo creator w' l :
  create_operator w oo creator = Ok (w', l) ->
  is_wallet creator = true /\ w_opers w !! POperator creator oo = None /\
  w' = put_opers (<[POperator creator oo := mkOper oo creator]> (w_opers w)) w /\
  l = [FxEvent (EvtOperatorCreate creator (POperator creator oo) oo)].
Proof.
  unfold create_operator. intros H. bsig H Hs. bq H Hn. apply Ok_inj in H. injection H as <- <-.
  clean_bool. auto.
Qed.

Lemma revoke_operator_inv w k creator w' l :
  revoke_operator w k creator = Ok (w', l) ->
  exists o, w_opers w !! k = Some o /\ o_creator o = creator /\ is_wallet creator = true /\
  w' = put_opers (delete k (w_opers w)) w /\ l = [].
Proof.
  unfold revoke_operator. intros H. bget H o Ho. bone H Hc. bsig H Hs.
  apply Ok_inj in H. injection H as <- <-. eauto 8.
Qed.

Lemma create_server_inv w presale owner url w' l :
  create_permissioned_server_metadata w presale owner url = Ok (w', l) ->
  exists p, w_presales w !! presale = Some p /\ p_owner p = owner /\ is_wallet owner = true /\
  w_servers w !! PServer presale = None /\ (p_wl p = 1 \/ p_wl p = 2) /\
  (get_progress p (w_now w) = NotStarted \/ get_progress p (w_now w) = Ongoing) /\
  w' = put_servers (<[PServer presale := mkServer presale url]> (w_servers w)) w /\
  l = [FxEvent (EvtPermissionedServerMetadataCreate presale (PServer presale) url)].
Proof.
  unfold create_permissioned_server_metadata. intros H.
  bclock H. bget H p Hp. bone H Ho. bsig H Hs. bq H Hn. bi H wl Hwl. bq H Hw. bq H Hg.
  apply Ok_inj in H. injection H as <- <-. clean_bool. exists p.
  apply orb_true_iff in Hg. rewrite !beq_progress_true in Hg.
  apply orb_true_iff in Hw. rewrite !bd_true in Hw.
  apply cast_wl_Ok in Hwl as [[? ->]|[[? ->]|[? ->]]]; [destruct Hw; discriminate|tauto|tauto].
Qed.

Lemma close_server_inv w presale k owner rr w' l :
  close_permissioned_server_metadata w presale k owner rr = Ok (w', l) ->
  exists p s, w_presales w !! presale = Some p /\ w_servers w !! k = Some s /\
  p_owner p = owner /\ s_presale s = presale /\ is_wallet owner = true /\ k <> rr /\
  w' = put_servers (delete k (w_servers w)) w /\
  l = [FxEvent (EvtPermissionedServerMetadataClose presale k)].
Proof.
  unfold close_permissioned_server_metadata. intros H.
  bget H p Hp. bone H Ho. bget H s Hss. bone H Hk. bself H Hrr. bsig H Hs.
  apply Ok_inj in H. injection H as <- <-. exists p, s. auto 12.
Qed.

(** * Escrow creation *)
Definition created_cap (r : registry) (c : option Z) : Z :=
  match c with Some c => c | None => r_max_cap r end.

Lemma finish_create_inv w p presale owner idx cap w' l :
  finish_create_escrow w p presale owner idx cap = Ok (w', l) ->
  exists r, w_escrows w !! PEscrow presale owner idx = None /\
  open_for_deposits p (w_now w) /\ idx < p_nreg p /\ p_regs p !! Z.to_nat idx = Some r /\
  (forall c, cap = Some c -> 0 < c /\ r_min_cap r <= c <= r_max_cap r) /\
  r_escrows r + 1 <= U64MAX /\ p_escrows p + 1 <= U64MAX /\
  w' = upd_escrow (PEscrow presale owner idx)
         (esc_init presale owner (w_now w) idx (created_cap r cap))
         (upd_presale presale
           (set_p_escrows (p_escrows p + 1) (set_reg p idx (set_r_escrows (r_escrows r + 1) r))) w) /\
  l = [FxEvent (EvtEscrowCreate presale owner (p_wl p) (p_escrows p + 1))].
Proof.
  unfold finish_create_escrow, process_create_escrow. intros H.
  bq H Hn. bi H x Hx. destruct x as [p' e'].
  bclock Hx. bq Hx Hg. bq Hx Hi. bi Hx r Hr. apply get_reg_Ok in Hr. bi Hx u Hcap. bi Hx p1 Hp1.
  apply Ok_inj in Hx. injection Hx as <- <-. apply Ok_inj in H. injection H as <- <-.
  unfold presale_inc_escrow, reg_inc_escrow in Hp1. bi Hp1 r2 Hr2. apply get_reg_Ok in Hr2.
  assert (r2 = r) as -> by congruence. inv Hp1. subst. clean_bool.
  apply beq_progress_true, progress_ongoing in Hg.
  exists r. repeat (split; [first [assumption|reflexivity]|]).
  split; [|repeat (split; [first [assumption|reflexivity]|]); reflexivity].
  intros c ->. bq Hcap H0. apply require_Ok in Hcap. clean_bool. auto.
Qed.

Lemma create_permissionless_inv w presale owner payer w' l :
  create_permissionless_escrow w presale owner payer = Ok (w', l) ->
  exists p, w_presales w !! presale = Some p /\ is_wallet payer = true /\ p_wl p = 0 /\
  finish_create_escrow w p presale owner 0 None = Ok (w', l).
Proof.
  unfold create_permissionless_escrow. intros H. bget H p Hp. bsig H Hs. bi H wl Hwl. bq H Hw.
  exists p. apply cast_wl_Ok in Hwl as [[? ->]|[[? ->]|[? ->]]]; try discriminate. auto.
Qed.

Lemma create_authority_inv w presale owner oper oowner payer idx cap w' l :
  create_permissioned_escrow_with_creator w presale owner oper oowner payer idx cap = Ok (w', l) ->
  exists p o, w_presales w !! presale = Some p /\ w_opers w !! oper = Some o /\
  is_wallet oowner = true /\ is_wallet payer = true /\ p_wl p = 2 /\
  o_owner o = oowner /\ o_creator o = p_owner p /\ 0 <= idx <= U8MAX /\ 0 <= cap <= U64MAX /\
  finish_create_escrow w p presale owner idx (Some cap) = Ok (w', l).
Proof.
  unfold create_permissioned_escrow_with_creator. intros H.
  bq H Hd. bget H p Hp. bget H o Ho. bsig H Hs1. bsig H Hs2. bi H wl Hwl. bq H Hw. bq H Ho1. bq H Ho2.
  clean_bool. exists p, o. subst wl.
  apply cast_wl_Ok in Hwl as [[? ?]|[[? ?]|[? ?]]]; try discriminate.
  apply in_u64_iff in Hd. unfold in_u8 in *. clean_bool. auto 12.
Qed.

Section WithCrypto.
Context `{Crypto}.
Lemma create_merkle_escrow_inv w presale owner config payer proof idx cap w' l :
  create_permissioned_escrow_with_merkle_proof w presale owner config payer proof idx cap = Ok (w', l) ->
  exists p c, w_presales w !! presale = Some p /\ w_merkles w !! config = Some c /\
  k_presale c = presale /\ is_wallet payer = true /\ p_wl p = 1 /\
  merkle_verify proof (k_root c) (merkle_leaf owner idx cap) = true /\
  forallb is_hash proof = true /\ 0 <= idx <= U8MAX /\ 0 <= cap <= U64MAX /\
  finish_create_escrow w p presale owner idx (Some cap) = Ok (w', l).
Proof.
  unfold create_permissioned_escrow_with_merkle_proof. intros HH.
  bq HH Hd. bget HH p Hp. bget HH c Hcc. bone HH Hk. bsig HH Hs. bi HH wl Hwl. bq HH Hw. bq HH Hm.
  clean_bool. exists p, c. subst wl.
  apply cast_wl_Ok in Hwl as [[? ?]|[[? ?]|[? ?]]]; try discriminate.
  apply in_u64_iff in Hd. unfold in_u8 in *. clean_bool. auto 14.
Qed.
End WithCrypto.

(** * Deposits and withdrawals *)

Definition deposited (p : presale) (e : escrow) (r : registry) (amount fee : Z) : presale :=
  set_p_fee (p_fee p + fee) (set_p_deposit (p_deposit p + amount)
    (set_reg p (e_idx e) (set_r_fee (r_fee r + fee) (set_r_deposit (r_deposit r + amount) r)))).
Definition esc_deposited (e : escrow) (amount fee : Z) : escrow :=
  set_e_fee (e_fee e + fee) (set_e_deposit (e_deposit e + amount) e).

Lemma deposit_inv w k qv qm ek pt payer pr mx h w' l :
  deposit w k qv qm ek pt payer pr mx h = Ok (w', l) ->
  exists p e r m hh quota amount fee p2 gross hooks rest w1 fx,
  0 <= mx <= U64MAX /\ 0 <= w_now w /\
  w_presales w !! k = Some p /\ p_qvault p = qv /\ p_qmint p = qm /\ w_mints w !! qm = Some m /\
  w_escrows w !! ek = Some e /\ e_presale e = k /\ is_wallet payer = true /\
  open_for_deposits p (w_now w) /\ get_handler p = Ok hh /\
  handler_remaining_quota hh p e = Ok quota /\ 0 < Z.min quota mx /\
  handler_suggest_deposit hh (Z.min quota mx) = Ok amount /\ 0 < amount /\
  p_regs p !! Z.to_nat (e_idx e) = Some r /\
  calculate_deposit_fee_included_amount amount (r_fee_bps r) RoundUp = Ok (fee, amount + fee) /\
  p_deposit p + amount <= U64MAX /\ p_fee p + fee <= U64MAX /\
  r_deposit r + amount <= U64MAX /\ r_fee r + fee <= U64MAX /\
  e_deposit e + amount <= U64MAX /\ e_fee e + fee <= U64MAX /\
  (e_deposit e + amount = 0 \/ r_min_cap r <= e_deposit e + amount <= r_max_cap r) /\
  handler_end_if_max_cap hh (deposited p e r amount fee) (w_now w) = Ok p2 /\
  calculate_transfer_fee_included_amount m (amount + fee) = Ok gross /\
  parse_remaining_accounts_for_transfer_hook (h_accounts h) (h_slices h) [TransferHookQuote]
    = Ok (hooks, rest) /\
  check_hook_accounts m (ph_quote hooks) = Ok tt /\
  tok_transfer w pr pt qm qv payer gross (h_ok h) = Ok (w1, fx) /\
  w' = upd_escrow ek (esc_deposited e amount fee) (upd_presale k p2 w1) /\
  l = fx ++ [FxEvent (EvtDeposit k ek amount (e_deposit e + amount) (p_deposit p2) payer fee)].
Proof.
  unfold deposit, get_presale, get_mint, get_escrow. intros H.
  bq H Hd. bclock H. bget H p Hp. bone H Hqv. bone H Hqm. bget H m Hm. bget H e He. bone H Hk.
  bsig H Hs. bq H Hg. bi H hh Hhd. bi H quota Hquota. bq H Hcap. bi H amount Hamount. bq H Hpos.
  bi H x Hx. destruct x as [[[fee inc] p1] e1].
  bi H r1 Hr1. bi H u Hval. bi H p2 Hp2. bi H gross Hgross. bi H y Hy. destruct y as [hooks rest].
  bi H z Hz. destruct z as [w1 fx]. apply Ok_inj in H. injection H as <- <-.
  unfold presale_deposit, reg_deposit_fee, reg_deposit, esc_deposit in Hx.
  bi Hx r Hr. apply get_reg_Ok in Hr.
  bi Hx y Hfee. destruct y as [fee' inc'].
  bi Hx y Hreg. destruct y as [r' e'].
  bi Hreg rd Hrd. apply safe_add_Ok in Hrd as [-> Hrd].
  bi Hreg rf Hrf. apply safe_add_Ok in Hrf as [-> Hrf].
  bi Hreg e2 He2. bi He2 ed Hed. apply safe_add_Ok in Hed as [-> Hed].
  bi He2 ef Hef. apply safe_add_Ok in Hef as [-> Hef]. apply Ok_inj in He2. subst e2.
  apply Ok_inj in Hreg. injection Hreg as <- <-.
  bi Hx pd Hpd. apply safe_add_Ok in Hpd as [-> Hpd].
  bi Hx pf Hpf. apply safe_add_Ok in Hpf as [-> Hpf].
  apply Ok_inj in Hx. injection Hx as -> -> <- <-.
  assert (Hinc : inc = amount + fee).
  { clear - Hfee. unfold calculate_deposit_fee_included_amount in Hfee. inv Hfee.
    injection Hfee as <- <-. lia. }
  subst inc.
  fold (esc_deposited e amount fee) in *. fold (deposited p e r amount fee) in *.
  apply get_reg_Ok in Hr1. unfold deposited in Hr1 at 1. cbn in Hr1.
  rewrite list_lookup_insert in Hr1 by (eapply lookup_lt_Some; eassumption). injection Hr1 as <-.
  apply from_user_Ok in Hz as [Hz (m' & Hm' & Hhook)]. assert (m' = m) as -> by congruence.
  apply andb_true_iff in Hd as [Hd _]. apply in_u64_iff in Hd.
  clean_bool. apply beq_progress_true, progress_ongoing in Hg.
  exists p, e, r, m, hh, quota, amount, fee, p2, gross, hooks, rest, w1, fx.
  do 23 (split; [first [assumption|reflexivity]|]).
  split.
  { unfold reg_validate_deposit in Hval. cbn in Hval.
    destruct (Z.eqb_spec (e_deposit e + amount) 0); [auto|]. apply require_Ok in Hval. clean_bool. auto. }
  repeat (split; [first [assumption|reflexivity]|]). reflexivity.
Qed.

Definition withdrawn (p : presale) (e : escrow) (r : registry) (amount : Z) : presale :=
  set_p_deposit (p_deposit p - amount)
    (set_reg p (e_idx e) (set_r_deposit (r_deposit r - amount) r)).

Lemma withdraw_inv w k qv qm ek ot owner pr mx h w' l :
  withdraw w k qv qm ek ot owner pr mx h = Ok (w', l) ->
  exists p e r m hh amount net hooks rest w1 fx,
  0 <= w_now w /\ 0 < mx <= e_deposit e /\
  w_presales w !! k = Some p /\ p_qvault p = qv /\ p_qmint p = qm /\ w_mints w !! qm = Some m /\
  w_escrows w !! ek = Some e /\ e_presale e = k /\ e_owner e = owner /\ is_wallet owner = true /\
  open_for_deposits p (w_now w) /\ get_handler p = Ok hh /\ handler_can_withdraw hh = true /\
  handler_suggest_withdraw hh e mx = Ok amount /\ 0 < amount /\
  p_regs p !! Z.to_nat (e_idx e) = Some r /\
  amount <= e_deposit e /\ amount <= r_deposit r /\ amount <= p_deposit p /\
  (e_deposit e - amount = 0 \/ r_min_cap r <= e_deposit e - amount <= r_max_cap r) /\
  parse_remaining_accounts_for_transfer_hook (h_accounts h) (h_slices h) [TransferHookQuote]
    = Ok (hooks, rest) /\
  check_hook_accounts m (ph_quote hooks) = Ok tt /\
  tok_transfer w pr qv qm ot PAuth amount (h_ok h) = Ok (w1, fx) /\
  calculate_transfer_fee_excluded_amount m amount = Ok net /\
  w' = upd_escrow ek (set_e_deposit (e_deposit e - amount) e)
         (upd_presale k (withdrawn p e r amount) w1) /\
  l = fx ++ [FxEvent (EvtWithdraw k ek net (e_deposit e - amount) (p_deposit p - amount) owner)].
Proof.
  unfold withdraw, get_presale, get_mint, get_escrow. intros H.
  bq H Hd. bclock H. bget H p Hp. bone H Hqv. bone H Hqm. bget H m Hm. bget H e He. bone H Hk.
  bone H Ho. bsig H Hs. bq H Hg. bq H Hpos. bq H Hmx. bi H hh Hhd. bq H Hcan. bi H amount Hamount.
  bq H Hapos. bi H x Hx. destruct x as [p1 e1]. bi H r1 Hr1. bi H u Hval.
  bi H y Hy. destruct y as [hooks rest]. bi H z Hz. destruct z as [w1 fx]. bi H net Hnet.
  apply Ok_inj in H. injection H as <- <-.
  assert (Hw : presale_withdraw p e amount = Ok (p1, e1)).
  { destruct hh; [assumption|assumption|discriminate]. }
  clear Hx. unfold presale_withdraw, reg_withdraw, esc_withdraw in Hw.
  bi Hw r Hr. apply get_reg_Ok in Hr. bi Hw x Hreg. destruct x as [r' e'].
  bi Hreg e2 He2. bi He2 ed Hed. apply safe_sub_Ok in Hed as [-> Hed]. apply Ok_inj in He2. subst e2.
  bi Hreg rd Hrd. apply safe_sub_Ok in Hrd as [-> Hrd]. apply Ok_inj in Hreg. injection Hreg as <- <-.
  bi Hw pd Hpd. apply safe_sub_Ok in Hpd as [-> Hpd]. apply Ok_inj in Hw. injection Hw as <- <-.
  fold (withdrawn p e r amount) in *.
  apply get_reg_Ok in Hr1. unfold withdrawn in Hr1 at 1. cbn in Hr1.
  rewrite list_lookup_insert in Hr1 by (eapply lookup_lt_Some; eassumption). injection Hr1 as <-.
  apply to_user_Ok in Hz as [Hz (m' & Hm' & Hhook)]. assert (m' = m) as -> by congruence.
  clean_bool. apply beq_progress_true, progress_ongoing in Hg.
  exists p, e, r, m, hh, amount, net, hooks, rest, w1, fx.
  split; [assumption|]. split; [lia|].
  do 17 (split; [first [assumption|reflexivity]|]).
  split.
  { unfold reg_validate_deposit in Hval. cbn in Hval.
    destruct (Z.eqb_spec (e_deposit e - amount) 0); [auto|]. apply require_Ok in Hval. clean_bool. auto. }
  repeat (split; [first [assumption|reflexivity]|]). reflexivity.
Qed.

(** * Refunds and claims *)

(** A payment from a vault that is skipped when the amount is zero. *)
Definition paid (w : world) (pr : prog) (vault mk dst : addr) (n : Z) (ok : bool) (w1 : world)
    (fx : list fx) : Prop :=
  (0 < n /\ tok_transfer w pr vault mk dst PAuth n ok = Ok (w1, fx)) \/
  (n <= 0 /\ w1 = w /\ fx = []).

Lemma remaining_quote_inv w k qv qm ek ot owner pr h w' l :
  withdraw_remaining_quote w k qv qm ek ot owner pr h = Ok (w', l) ->
  exists p e r m rd rf net w1 fx,
  0 <= w_now w /\
  w_presales w !! k = Some p /\ p_qvault p = qv /\ p_qmint p = qm /\ w_mints w !! qm = Some m /\
  w_escrows w !! ek = Some e /\ e_presale e = k /\ e_owner e = owner /\ is_wallet owner = true /\
  e_withdrawn e <> 1 /\ escrow_remaining_quote p e (w_now w) = Ok (rd, rf) /\ rd + rf <= U64MAX /\
  p_regs p !! Z.to_nat (e_idx e) = Some r /\
  r_refunded r + (rd + rf) <= U64MAX /\ p_refunded p + (rd + rf) <= U64MAX /\
  paid w pr qv qm ot (rd + rf) (h_ok h) w1 fx /\
  calculate_transfer_fee_excluded_amount m (rd + rf) = Ok net /\
  w' = upd_escrow ek (set_e_withdrawn 1 e)
         (upd_presale k (set_p_refunded (p_refunded p + (rd + rf))
            (set_reg p (e_idx e) (set_r_refunded (r_refunded r + (rd + rf)) r))) w1) /\
  l = fx ++ [FxEvent (EvtWithdrawRemainingQuote k ek owner net (p_refunded p + (rd + rf)))].
Proof.
  unfold withdraw_remaining_quote, get_presale, get_mint, get_escrow. intros H.
  bq H Hd. bclock H. bget H p Hp. bone H Hqv. bone H Hqm. bget H m Hm. bi H tv Htv. bget H e He.
  bone H Hk. bone H Ho. bi H td Htd. bsig H Hs. bq H Hflag. bi H x Hx. destruct x as [rd rf].
  bi H tot Htot. apply safe_add_Ok in Htot as [-> Htot]. bi H p1 Hp1.
  bi H y Hy. destruct y as [hooks rest]. bi H z Hz. destruct z as [w1 fx]. bi H net Hnet.
  apply Ok_inj in H. injection H as <- <-.
  unfold presale_add_refunded, reg_add_refunded in Hp1. bi Hp1 r Hr. apply get_reg_Ok in Hr.
  inv Hp1. subst. unfold esc_is_withdrawn in Hflag. clean_bool.
  exists p, e, r, m, rd, rf, net, w1, fx.
  do 15 (split; [first [assumption|reflexivity]|]).
  split.
  { unfold paid. destruct (Z.ltb_spec 0 (rd + rf)).
    - left. apply to_user_Ok in Hz as [Hz _]. auto.
    - right. apply Ok_inj in Hz. injection Hz as <- <-. auto. }
  repeat (split; [first [assumption|reflexivity]|]). reflexivity.
Qed.

Lemma update_pending_inv hh p e now e1 :
  handler_update_pending hh p e now = Ok e1 ->
  exists cum, handler_cumulative hh p e now = Ok cum /\ e_claimed e + e_pending e <= cum /\
  e_claimed e + e_pending e <= U64MAX /\ e_pending e + (cum - (e_claimed e + e_pending e)) <= U64MAX /\
  e1 = set_e_refreshed now (set_e_pending (e_pending e + (cum - (e_claimed e + e_pending e))) e).
Proof.
  unfold handler_update_pending, esc_sum_claimed_pending, esc_accumulate. intros H.
  bi H cum Hcum. inv H. subst. exists cum. auto.
Qed.

Lemma claim_inv w k bv bm ek ot owner pr h w' l :
  claim w k bv bm ek ot owner pr h = Ok (w', l) ->
  exists p e m hh e1 net p2 e2 w1 fx,
  0 <= w_now w /\
  w_presales w !! k = Some p /\ p_bvault p = bv /\ p_bmint p = bm /\ w_mints w !! bm = Some m /\
  w_escrows w !! ek = Some e /\ e_presale e = k /\ e_owner e = owner /\ is_wallet owner = true /\
  get_progress p (w_now w) = Completed /\ get_handler p = Ok hh /\
  handler_update_pending hh p e (w_now w) = Ok e1 /\
  ((0 < e_pending e1 /\ exists r, p_regs p !! Z.to_nat (e_idx e) = Some r /\
     e_claimed e1 + e_pending e1 <= U64MAX /\
     p2 = set_p_claimed (p_claimed p + e_pending e1)
            (set_reg p (e_idx e) (set_r_claimed (r_claimed r + e_pending e1) r)) /\
     e2 = set_e_pending 0 (set_e_claimed (e_claimed e1 + e_pending e1) e1) /\
     tok_transfer w pr bv bm ot PAuth (e_pending e1) (h_ok h) = Ok (w1, fx)) \/
   (e_pending e1 <= 0 /\ p2 = p /\ e2 = e1 /\ w1 = w /\ fx = [])) /\
  calculate_transfer_fee_excluded_amount m (e_pending e1) = Ok net /\
  w' = upd_escrow ek e2 (upd_presale k p2 w1) /\
  l = fx ++ [FxEvent (EvtClaim k ek net (e_claimed e2) (p_claimed p2) owner)].
Proof.
  unfold claim, get_presale, get_mint, get_escrow. intros H.
  bq H Hd. bclock H. bget H p Hp. bone H Hbv. bone H Hbm. bget H m Hm. bi H tv Htv. bget H e He.
  bone H Hk. bone H Ho. bi H td Htd. bsig H Hs. bq H Hg. bi H hh Hhd. bi H e1 He1.
  bi H x Hx. destruct x as [[[p2 e2] w1] fx]. bi H net Hnet.
  apply Ok_inj in H. injection H as <- <-. apply beq_progress_true in Hg.
  exists p, e, m, hh, e1, net, p2, e2, w1, fx.
  do 12 (split; [first [assumption|reflexivity]|]).
  split; [|auto].
  destruct (Z.ltb_spec 0 (e_pending e1)).
  - left. split; [assumption|]. bi Hx y Hy. destruct y as [p3 e3].
    bi Hx z Hz. destruct z as [hooks rest]. bi Hx z Ht. destruct z as [w2 fx2].
    apply Ok_inj in Hx. injection Hx as <- <- <- <-.
    apply to_user_Ok in Ht as [Ht _].
    pose proof He1 as He1'. apply update_pending_inv in He1' as (cum & _ & _ & _ & _ & Heq).
    unfold presale_claim, esc_claim, reg_add_claimed in Hy. bi Hy r Hr. apply get_reg_Ok in Hr.
    rewrite Heq in Hr. cbn in Hr. exists r. split; [assumption|].
    bi Hy y Hc. destruct y as [am e4]. bi Hc c Hc1. apply safe_add_Ok in Hc1 as [-> Hc1].
    apply Ok_inj in Hc. injection Hc as <- <-. split; [assumption|].
    inv Hy. injection Hy as <- <-. subst v v1 v0. split; [|auto].
    rewrite Heq. reflexivity.
  - right. apply Ok_inj in Hx. injection Hx as <- <- <- <-. auto.
Qed.

Lemma refresh_inv w k ek w' l :
  refresh_escrow w k ek = Ok (w', l) ->
  exists p e e1, 0 <= w_now w /\ w_presales w !! k = Some p /\ w_escrows w !! ek = Some e /\ e_presale e = k /\
  ((get_progress p (w_now w) = Completed /\
    exists hh, get_handler p = Ok hh /\ handler_update_pending hh p e (w_now w) = Ok e1) \/
   (get_progress p (w_now w) <> Completed /\ e1 = e)) /\
  w' = upd_escrow ek e1 w /\
  l = [FxEvent (EvtEscrowRefresh k ek (e_owner e1) (w_now w) (e_pending e1))].
Proof.
  unfold refresh_escrow, get_presale, get_escrow. intros H.
  bclock H. bget H p Hp. bget H e He. bone H Hk. bi H e1 He1. apply Ok_inj in H. injection H as <- <-.
  exists p, e, e1. do 4 (split; [assumption|]). split; [|auto].
  destruct (beq_progress (get_progress p (w_now w)) Completed) eqn:Hg.
  - left. apply beq_progress_true in Hg. split; [assumption|]. bi He1 hh Hhd. eauto.
  - right. split; [|apply Ok_inj in He1; auto]. intros Hx. rewrite Hx in Hg. discriminate.
Qed.

Lemma close_escrow_inv w k ek owner rr w' l :
  close_escrow w k ek owner rr = Ok (w', l) ->
  exists p e r, 0 <= w_now w /\ w_presales w !! k = Some p /\ w_escrows w !! ek = Some e /\ e_presale e = k /\
  e_owner e = owner /\ is_wallet owner = true /\ ek <> rr /\ p_regs p !! Z.to_nat (e_idx e) = Some r /\
  ((get_progress p (w_now w) = Ongoing /\ e_deposit e = 0 /\ e_fee e = 0) \/
   (get_progress p (w_now w) = Failed /\ (e_withdrawn e = 1 \/ (e_deposit e = 0 /\ e_fee e = 0))) \/
   (get_progress p (w_now w) = Completed /\ ensure_done_claim_and_refund p e (w_now w) = Ok tt)) /\
  1 <= r_escrows r /\ 1 <= p_escrows p /\
  w' = put_escrows (delete ek (w_escrows w))
         (upd_presale k (set_p_escrows (p_escrows p - 1)
            (set_reg p (e_idx e) (set_r_escrows (r_escrows r - 1) r))) w) /\
  l = [FxEvent (EvtEscrowClose k ek owner rr)].
Proof.
  unfold close_escrow, get_presale, get_escrow. intros H.
  bclock H. bget H p Hp. bget H e He. bone H Hk. bone H Ho. bself H Hrr. bsig H Hs. bi H u Hg. bi H p1 Hp1.
  apply Ok_inj in H. injection H as <- <-.
  unfold presale_dec_escrow, reg_dec_escrow in Hp1. bi Hp1 r Hr. apply get_reg_Ok in Hr.
  inv Hp1. subst. exists p, e, r. do 8 (split; [first [assumption|reflexivity]|]).
  split; [|auto].
  destruct (get_progress p (w_now w)); [discriminate| | |].
  - left. apply require_Ok in Hg. clean_bool. auto.
  - right. right. destruct u. auto.
  - right. left. apply require_Ok in Hg. split; [reflexivity|]. apply orb_true_iff in Hg as [Hg|Hg].
    + left. unfold esc_is_withdrawn in Hg. clean_bool. assumption.
    + right. clean_bool. auto.
Qed.

(** * Creator *)
Lemma creator_withdraw_inv w k ot owner pr h w' l :
  creator_withdraw w k ot owner pr h = Ok (w', l) ->
  exists p m net w1 fx, 0 <= w_now w /\ w_presales w !! k = Some p /\
  p_owner p = owner /\ is_wallet owner = true /\ p_cwd p = 0 /\
  ((get_progress p (w_now w) = Completed /\ w_mints w !! p_qmint p = Some m /\
    tok_transfer w pr (p_qvault p) (p_qmint p) ot PAuth (Z.min (p_deposit p) (p_max_cap p)) (h_ok h)
      = Ok (w1, fx) /\
    calculate_transfer_fee_excluded_amount m (Z.min (p_deposit p) (p_max_cap p)) = Ok net /\
    l = fx ++ [FxEvent (EvtCreatorWithdraw k net owner 2)]) \/
   (get_progress p (w_now w) = Failed /\ w_mints w !! p_bmint p = Some m /\
    tok_transfer w pr (p_bvault p) (p_bmint p) ot PAuth (p_supply p) (h_ok h) = Ok (w1, fx) /\
    calculate_transfer_fee_excluded_amount m (p_supply p) = Ok net /\
    l = fx ++ [FxEvent (EvtCreatorWithdraw k net owner 3)])) /\
  w' = upd_presale k (set_p_cwd 1 p) w1.
Proof.
  unfold creator_withdraw, get_presale, take_vault_and_mint. intros H.
  bq H Hd. bclock H. bget H p Hp. bone H Ho. bsig H Hs. bq H Hg. bq H Hcw. bi H x Hx.
  destruct x as [[[[[amount vault] mk] m] rest] ty].
  bi H y Hy. destruct y as [hooks rest']. bi H z Hz. destruct z as [w1 fx]. bi H net Hnet.
  apply Ok_inj in H. injection H as <- <-.
  unfold has_creator_withdrawn in Hcw. clean_bool.
  apply to_user_Ok in Hz as [Hz _].
  destruct (get_progress p (w_now w)) eqn:Hpg; try discriminate.
  - bi Hx y Htk. destruct y as [m' rest'']. apply Ok_inj in Hx.
    injection Hx as <- <- <- -> -> <-.
    destruct (h_accounts h) as [|v [|m1 rr]]; try discriminate.
    bi Htk tv Htv. bi Htk mi Hmi. bq Htk Hv. bq Htk Hm1. apply Ok_inj in Htk.
    injection Htk as -> ->. clean_bool. subst. apply ok_or_Ok in Hmi.
    exists p, m, net, w1, fx. do 5 (split; [first [assumption|reflexivity]|]). split; [|reflexivity].
    left. auto.
  - bi Hx y Htk. destruct y as [m' rest'']. apply Ok_inj in Hx.
    injection Hx as <- <- <- -> -> <-.
    destruct (h_accounts h) as [|v [|m1 rr]]; try discriminate.
    bi Htk tv Htv. bi Htk mi Hmi. bq Htk Hv. bq Htk Hm1. apply Ok_inj in Htk.
    injection Htk as -> ->. clean_bool. subst. apply ok_or_Ok in Hmi.
    exists p, m, net, w1, fx. do 5 (split; [first [assumption|reflexivity]|]). split; [|reflexivity].
    right. auto.
Qed.

Lemma collect_fee_inv w k qv qm rcv owner pr h w' l :
  creator_collect_fee w k qv qm rcv owner pr h = Ok (w', l) ->
  exists p m total net w1 fx, 0 <= w_now w /\ w_presales w !! k = Some p /\
  p_owner p = owner /\ p_qmint p = qm /\ p_qvault p = qv /\ w_mints w !! qm = Some m /\
  is_wallet owner = true /\ get_progress p (w_now w) = Completed /\ p_fee_col p <> 1 /\
  total_collected_fee p = Ok total /\ paid w pr qv qm rcv total (h_ok h) w1 fx /\
  calculate_transfer_fee_excluded_amount m total = Ok net /\
  w' = upd_presale k (set_p_fee_col 1 p) w1 /\
  l = fx ++ [FxEvent (EvtCreatorCollectFee k owner net)].
Proof.
  unfold creator_collect_fee, get_presale, get_mint. intros H.
  bq H Hd. bclock H. bget H p Hp. bone H Ho. bone H Hqm. bone H Hqv. bget H m Hm. bi H tv Htv.
  bi H tr Htr. bsig H Hs. bq H Hg. bi H tot Htotal. bi H z Hz. destruct z as [w1 fx]. bi H net Hnet.
  apply Ok_inj in H. injection H as <- <-. unfold is_fee_collected in Hg. clean_bool.
  match goal with Hx : beq_progress _ _ = true |- _ => apply beq_progress_true in Hx end.
  exists p, m, tot, net, w1, fx. do 10 (split; [first [assumption|reflexivity]|]).
  split; [|auto]. unfold paid. destruct (Z.ltb_spec 0 tot).
  - left. bi Hz y Hy. destruct y as [hooks rest]. apply to_user_Ok in Hz as [Hz _]. auto.
  - right. apply Ok_inj in Hz. injection Hz as <- <-. auto.
Qed.

Lemma unsold_inv w k bv bm ct pr h w' l :
  perform_unsold_base_token_action w k bv bm ct pr h = Ok (w', l) ->
  exists p m t hh amount w1 fx, 0 <= w_now w /\ w_presales w !! k = Some p /\
  p_bvault p = bv /\ p_bmint p = bm /\ w_mints w !! bm = Some m /\ w_tokens w !! ct = Some t /\
  t_owner t = p_owner p /\ ct = Ata (p_owner p) bm pr /\ m_prog m = pr /\
  get_progress p (w_now w) = Completed /\ p_unsold_done p = 0 /\
  get_handler p = Ok hh /\ total_unsold_token p hh = Ok amount /\ 0 < amount /\
  ((p_unsold p = 1 /\ tok_burn w pr bv bm PAuth amount = Ok (w1, fx)) \/
   (p_unsold p <> 1 /\ tok_transfer w pr bv bm ct PAuth amount (h_ok h) = Ok (w1, fx))) /\
  w' = upd_presale k (set_p_unsold_done 1 p) w1 /\
  l = fx ++ [FxEvent (EvtPerformUnsoldBaseTokenAction k amount (if p_unsold p =? 1 then 1 else 0))].
Proof.
  unfold perform_unsold_base_token_action, get_presale, get_mint, get_token. intros H.
  bq H Hd. bclock H. bget H p Hp. bone H Hbv. bone H Hbm. bget H m Hm. bget H t Ht. bq H Hata.
  bq H Hg. bq H Hdone. bi H hh Hhd. bi H amount Hamount. bq H Hpos. bi H z Hz. destruct z as [w1 fx].
  apply Ok_inj in H. injection H as <- <-. unfold is_unsold_done in Hdone. clean_bool.
  apply beq_progress_true in Hg.
  exists p, m, t, hh, amount, w1, fx. do 14 (split; [first [assumption|reflexivity]|]).
  unfold uaction_of_u8 in *. destruct (Z.eqb_spec (p_unsold p) 1).
  - apply burn_cpi_Ok in Hz. split; [auto|]. auto.
  - split; [|auto]. right. split; [assumption|]. bi Hz y Hy. destruct y as [hooks rest].
    apply to_user_Ok in Hz as [Hz _]. assumption.
Qed.
