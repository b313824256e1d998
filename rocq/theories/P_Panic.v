(** C47: no instruction on a reachable state reaches an [unreachable!], [unwrap], out of bounds
    index or failing [assert!]; these are the [Err Panic] results of the model (state/presale.rs
    slots beyond the fifth, fcfs_presale.rs [process_withdraw], process_close_escrow.rs before the
    start, token2022.rs inverse fee). *)
From Coq Require Import Lia.
From Verif Require Import Base Math State Handlers Token World Instr Exec Tactics Sums Spec Arith
  TokenFacts Inv Acct Funs Steps Init Preserve Reach Did Trans Flow Scenario P_Solvency P_Access
  P_History P_Arith.

(** * Results that are not a panic *)
Definition calm {A} (r : res A) : Prop := r <> Err Panic.

Lemma calm_bind {A B} (r : res A) (k : A -> res B) :
  calm r -> (forall a, r = Ok a -> calm (k a)) -> calm (rbind r k).
Proof. intros Hr Hk. destruct r as [a|e]; [apply Hk; reflexivity|]. cbn. intros Hx. apply Hr. congruence. Qed.
Lemma calm_Ok {A} (a : A) : calm (Ok a).
Proof. discriminate. Qed.
Lemma calm_require b e : e <> Panic -> calm (require b e).
Proof. intros He. unfold require, calm. destruct b; congruence. Qed.
Lemma calm_true b e : b = true -> calm (require b e).
Proof. intros ->. discriminate. Qed.
Lemma calm_ok_or {A} (o : option A) e : e <> Panic -> calm (ok_or o e).
Proof. intros He. unfold ok_or, calm. destruct o; congruence. Qed.

Ltac calm1 :=
  lazymatch goal with
  | |- calm (rbind _ _) => apply calm_bind; [|let x := fresh "x" in let Hx := fresh "Hx" in intros x Hx]
  | |- forall _, _ => intro
  | |- calm (Ok _) => apply calm_Ok
  | |- calm (Err _) => discriminate
  | |- calm (require _ _) => apply calm_require; discriminate
  | |- calm (ok_or _ _) => apply calm_ok_or; discriminate
  | |- calm (if ?b then _ else _) => destruct b eqn:?
  | |- calm (match ?x with _ => _ end) => destruct x eqn:?
  end.
Ltac calmly := repeat (first [solve [eauto 2 with calm] | calm1]).

Create HintDb calm.

Lemma calm_safe_add m a b : calm (safe_add m a b). Proof. unfold safe_add. calmly. Qed.
Lemma calm_safe_sub a b : calm (safe_sub a b). Proof. unfold safe_sub. calmly. Qed.
Lemma calm_safe_mul m a b : calm (safe_mul m a b). Proof. unfold safe_mul. calmly. Qed.
Lemma calm_safe_div a b : calm (safe_div a b). Proof. unfold safe_div. calmly. Qed.
Lemma calm_safe_shl a b : calm (safe_shl128 a b). Proof. unfold safe_shl128. calmly. Qed.
Lemma calm_cast64 a : calm (cast64 a). Proof. unfold cast64. calmly. Qed.
Lemma calm_clock w : calm (clock w). Proof. unfold clock, cast_i64_u64. calmly. Qed.
Lemma calm_signer a : calm (signer a). Proof. unfold signer. calmly. Qed.
Lemma calm_has_one a b : calm (has_one a b). Proof. unfold has_one. calmly. Qed.
Lemma calm_not_itself a b : calm (not_itself a b). Proof. unfold not_itself. calmly. Qed.
Lemma calm_get_presale w k : calm (get_presale w k). Proof. unfold get_presale. calmly. Qed.
Lemma calm_get_escrow w k : calm (get_escrow w k). Proof. unfold get_escrow. calmly. Qed.
Lemma calm_get_token w k : calm (get_token w k). Proof. unfold get_token. calmly. Qed.
Lemma calm_get_mint w k : calm (get_mint w k). Proof. unfold get_mint. calmly. Qed.
Lemma calm_get_reg p i : calm (get_reg p i). Proof. unfold get_reg. calmly. Qed.
Lemma calm_cast_wl z : calm (cast_wl z). Proof. unfold cast_wl. calmly. Qed.
Lemma calm_cast_mode z : calm (cast_mode z). Proof. unfold cast_mode. calmly. Qed.
Lemma calm_env_ok b : calm (env_ok b). Proof. unfold env_ok. calmly. Qed.
#[local] Hint Resolve calm_safe_add calm_safe_sub calm_safe_mul calm_safe_div calm_safe_shl calm_cast64
  calm_clock calm_signer calm_has_one calm_not_itself calm_get_presale calm_get_escrow calm_get_token calm_get_mint
  calm_get_reg calm_cast_wl calm_cast_mode calm_env_ok : calm.

Lemma calm_bought q a : calm (calculate_token_bought q a). Proof. unfold calculate_token_bought. calmly. Qed.
#[local] Hint Resolve calm_bought : calm.
Lemma calm_surplus q a : calm (calculate_quote_token_without_surplus q a).
Proof. unfold calculate_quote_token_without_surplus. calmly. Qed.
Lemma calm_deposit_fee a b r : calm (calculate_deposit_fee_included_amount a b r).
Proof. unfold calculate_deposit_fee_included_amount. calmly. Qed.
Lemma calm_cumulative_user a b c d e f g h : calm (calculate_cumulative_claimable_amount_for_user a b c d e f g h).
Proof.
  unfold calculate_cumulative_claimable_amount_for_user, calculate_immediate_release_token,
    calculate_immediate_release_token_for_user, calculate_dripped_amount_for_user. calmly.
Qed.
Lemma calm_excluded m n : calm (calculate_transfer_fee_excluded_amount m n).
Proof. unfold calculate_transfer_fee_excluded_amount. calmly. Qed.
#[local] Hint Resolve calm_surplus calm_deposit_fee calm_cumulative_user calm_excluded : calm.

Lemma calm_get_handler p : calm (get_handler p). Proof. unfold get_handler. calmly. Qed.
Lemma calm_remaining_quota h p e : calm (handler_remaining_quota h p e).
Proof. unfold handler_remaining_quota, fixed_remaining_quota, presale_remaining_quota, esc_remaining_quota. calmly. Qed.
Lemma calm_suggest_deposit h n : calm (handler_suggest_deposit h n).
Proof. unfold handler_suggest_deposit. calmly. Qed.
Lemma calm_suggest_withdraw h e n : calm (handler_suggest_withdraw h e n).
Proof. unfold handler_suggest_withdraw. calmly. Qed.
Lemma calm_presale_deposit p e n : calm (presale_deposit p e n).
Proof. unfold presale_deposit, reg_deposit_fee, reg_deposit, esc_deposit. calmly. Qed.
Lemma calm_validate r e : calm (reg_validate_deposit r e).
Proof. unfold reg_validate_deposit. calmly. Qed.
Lemma calm_end h p n : calm (handler_end_if_max_cap h p n).
Proof.
  unfold handler_end_if_max_cap, end_if_max_cap_reached, recalculate_timing, vest_lock_timings. calmly.
Qed.
Lemma calm_withdraw p e n : calm (presale_withdraw p e n).
Proof. unfold presale_withdraw, reg_withdraw, esc_withdraw. calmly. Qed.
Lemma calm_process_withdraw h p e n : handler_can_withdraw h = true -> calm (handler_process_withdraw h p e n).
Proof. intros Hc. destruct h; [apply calm_withdraw|apply calm_withdraw|discriminate Hc]. Qed.
Lemma calm_reg_remaining r a b : calm (reg_remaining_quote r a b).
Proof. unfold reg_remaining_quote. calmly. Qed.
#[local] Hint Resolve calm_get_handler calm_remaining_quota calm_suggest_deposit calm_suggest_withdraw
  calm_presale_deposit calm_validate calm_end calm_withdraw calm_reg_remaining : calm.
Lemma calm_remaining p e n : calm (escrow_remaining_quote p e n).
Proof. unfold escrow_remaining_quote, allow_withdraw_remaining, refund_share. calmly. Qed.
Lemma calm_add_refunded p n i : calm (presale_add_refunded p n i).
Proof. unfold presale_add_refunded, reg_add_refunded. calmly. Qed.
Lemma calm_cumulative h p e n : calm (handler_cumulative h p e n).
Proof. unfold handler_cumulative. calmly. Qed.
#[local] Hint Resolve calm_remaining calm_add_refunded calm_cumulative : calm.
Lemma calm_pending h p e n : calm (handler_update_pending h p e n).
Proof. unfold handler_update_pending, esc_sum_claimed_pending, esc_accumulate. calmly. Qed.
Lemma calm_presale_claim p e : calm (presale_claim p e).
Proof. unfold presale_claim, esc_claim, reg_add_claimed. calmly. Qed.
Lemma calm_inc p i : calm (presale_inc_escrow p i).
Proof. unfold presale_inc_escrow, reg_inc_escrow. calmly. Qed.
Lemma calm_dec p i : calm (presale_dec_escrow p i).
Proof. unfold presale_dec_escrow, reg_dec_escrow. calmly. Qed.
#[local] Hint Resolve calm_pending calm_presale_claim calm_inc calm_dec : calm.

Lemma calm_done p e n : calm (ensure_done_claim_and_refund p e n).
Proof.
  unfold ensure_done_claim_and_refund. apply calm_bind; [|calmly].
  pose proof (calm_remaining p e n) as Hr. destruct (escrow_remaining_quote p e n) as [[rd rf]|er]; [calmly|].
  destruct (bool_decide _); [discriminate|]. intros Hx. apply Hr. congruence.
Qed.
#[local] Hint Resolve calm_done : calm.

Lemma calm_fee_loop l : forall a b acc, calm (collected_fee_loop l a b acc).
Proof. induction l as [|r l IH]; intros a b acc; cbn [collected_fee_loop]; calmly. Qed.
#[local] Hint Resolve calm_fee_loop : calm.
Lemma calm_fee p : calm (total_collected_fee p).
Proof. unfold total_collected_fee. calmly. Qed.
Lemma calm_fixed_sold q l : forall acc, calm (fixed_sold_loop q l acc).
Proof. induction l as [|r l IH]; intros acc; cbn [fixed_sold_loop]; calmly. Qed.
Lemma calm_dynamic_sold l : forall acc, calm (dynamic_sold_loop l acc).
Proof. induction l as [|r l IH]; intros acc; cbn [dynamic_sold_loop]; calmly. Qed.
#[local] Hint Resolve calm_fee calm_fixed_sold calm_dynamic_sold : calm.
Lemma calm_unsold p h : calm (total_unsold_token p h).
Proof. unfold total_unsold_token, handler_total_sold. calmly. Qed.

Lemma calm_parse_loop l v : forall rem acc, calm (parse_loop l v rem acc).
Proof. induction l as [|s l IH]; intros rem acc; cbn [parse_loop]; calmly. Qed.
#[local] Hint Resolve calm_unsold calm_parse_loop : calm.
Lemma calm_parse rem l v : calm (parse_remaining_accounts_for_transfer_hook rem l v).
Proof. unfold parse_remaining_accounts_for_transfer_hook. calmly. Qed.
Lemma calm_authorize m s a n : calm (tok_authorize m s a n).
Proof. unfold tok_authorize. calmly. Qed.
#[local] Hint Resolve calm_parse calm_authorize : calm.
Lemma calm_transfer w pr src mk dst a n ok : calm (tok_transfer w pr src mk dst a n ok).
Proof. unfold tok_transfer. calmly. Qed.
Lemma calm_burn w pr src mk a n : calm (tok_burn w pr src mk a n).
Proof. unfold tok_burn. calmly. Qed.
#[local] Hint Resolve calm_transfer calm_burn : calm.
Lemma calm_checked w pr src mk dst a n b c ok : calm (tok_transfer_checked w pr src mk dst a n b c ok).
Proof. unfold tok_transfer_checked. calmly. Qed.
Lemma calm_burn_cpi w pr src mk a n : calm (tok_burn_cpi w pr src mk a n).
Proof. unfold tok_burn_cpi. calmly. Qed.
#[local] Hint Resolve calm_checked calm_burn_cpi : calm.
Lemma calm_from_user w a mk src dst pr n b x ok : calm (transfer_from_user w a mk src dst pr n b x ok).
Proof. unfold transfer_from_user, sends_memo, check_hook_accounts. calmly. Qed.
Lemma calm_to_user w mk v dst pr n b x ok : calm (transfer_from_presale_to_user w mk v dst pr n b x ok).
Proof. unfold transfer_from_presale_to_user, sends_memo, check_hook_accounts. calmly. Qed.
#[local] Hint Resolve calm_from_user calm_to_user : calm.

Lemma calm_supplies l : forall acc, calm (sum_supplies acc l).
Proof. induction l as [|a l IH]; intros acc; cbn [sum_supplies]; calmly. Qed.
Lemma calm_registries a l : forall acc, calm (validate_registries_loop a l acc).
Proof. induction l as [|r l IH]; intros acc; cbn [validate_registries_loop]; unfold validate_registry; calmly. Qed.
#[local] Hint Resolve calm_supplies calm_registries : calm.
Lemma calm_validate_init a n : calm (validate_init_args a n).
Proof.
  unfold validate_init_args, validate_presale_args, validate_presale_registries, validate_locked,
    vest_lock_timings. calmly.
Qed.
Lemma calm_dynamic_caps m l : calm (enforce_dynamic_caps m l).
Proof. induction l as [|r l IH]; cbn [enforce_dynamic_caps]; calmly. Qed.
Lemma calm_fixed_check q m b l : calm (fixed_check_registries q m b l).
Proof.
  induction l as [|r l IH]; cbn [fixed_check_registries];
    unfold ensure_token_buyable, min_quote_amount_for_base_lamport; calmly.
Qed.
#[local] Hint Resolve calm_validate_init calm_dynamic_caps calm_fixed_check : calm.
Lemma calm_handler_init h k p a f rem : calm (handler_initialize h k p a f rem).
Proof.
  unfold handler_initialize, ensure_enough_presale_supply, ensure_gap_between_min_and_max. calmly.
Qed.
#[local] Hint Resolve calm_handler_init : calm.

(** The number of registries has been validated before the slots are written. *)
Lemma validated_length a n : validate_init_args a n = Ok tt -> Z.of_nat (length (ia_regs a)) <= 5.
Proof.
  unfold validate_init_args. intros Hv. bi Hv u Hu. bi Hv u2 Hu2. unfold validate_presale_registries in Hu2.
  bq Hu2 Hn. change MAX_PRESALE_REGISTRY_COUNT with 5 in Hn. lia.
Qed.
Lemma calm_create_vault w k a bm qm o b now bp qp rem n :
  validate_init_args a n = Ok tt -> calm (create_presale_vault w k a bm qm o b now bp qp rem).
Proof.
  intros Hv. pose proof (validated_length _ _ Hv) as Hl. unfold create_presale_vault. apply calm_bind; [|calmly].
  unfold presale_initialize. apply calm_bind; [calmly|]. intros s Hs.
  apply calm_bind; [apply calm_true; change MAX_PRESALE_REGISTRY_COUNT with 5; lia|].
  intros _ _. unfold vest_lock_timings. calmly.
Qed.

Lemma sum_supplies_range l : forall acc n,
  0 <= acc -> forallb registry_args_decode l = true -> sum_supplies acc l = Ok n ->
  acc <= U64MAX -> 0 <= n <= U64MAX.
Proof.
  induction l as [|a l IH]; intros acc n H0 Hl Hs Hm; cbn in Hs.
  - apply Ok_inj in Hs. lia.
  - cbn [forallb] in Hl. apply andb_true_iff in Hl as [Ha Hl]. bi Hs acc' Hacc. apply safe_add_Ok in Hacc as [-> Hle].
    unfold registry_args_decode in Ha. rewrite !andb_true_iff, !in_u64_iff in Ha.
    eapply IH; [|exact Hl|exact Hs|]; lia.
Qed.

Section WithCrypto.
Context `{Crypto}.

(** * An escrow exists only once its presale has started *)
Definition begun (w : world) : Prop := forall ek e p,
  w_escrows w !! ek = Some e -> w_presales w !! e_presale e = Some p -> p_start p <= w_now w.

Lemma begun_step w o w' l : inv w -> step w o = Ok (w', l) -> begun w -> begun w'.
Proof.
  intros Hi Hs Hb ek e' p' He' Hp'. pose proof (step_does _ _ _ _ Hi Hs) as Hd.
  destruct (does_now _ _ _ _ Hd) as [Hnow _].
  assert (Hold : forall e, w_escrows w !! ek = Some e -> e_presale e' = e_presale e -> p_start p' <= w_now w').
  { intros e He Hk. destruct (i_escrows _ Hi _ _ He) as [p Hp].
    destruct (presale_moves _ _ _ _ _ _ Hi Hs Hp) as (p2 & Hp2 & Hm). rewrite Hk in Hp'.
    assert (p2 = p') as -> by congruence. pose proof (mv_terms _ _ _ Hm) as Ht. injection Ht. intros.
    pose proof (Hb _ _ _ He Hp). lia. }
  destruct (does_escrow _ _ _ _ ek Hd) as
      [Hn|k0 owner idx cap p0 r Ho Hek D Hn
      |k0 qv qm pt payer pr mx h0 p0 p2 e r m amount fee gross w1 lx Ho D Hn
      |k0 qv qm ot owner pr mx h0 p0 e r m amount w1 lx Ho D Hn
      |k0 qv qm ot owner pr h0 p0 e r m w1 lx Ho D Hn|k0 bv bm ot owner pr h0 p0 e r m w1 lx Ho D Hn
      |k0 p0 e e1 r Ho D Hn|k0 owner rr p0 e r Ho D Hn].
  - eapply Hold; [rewrite <- Hn; exact He'|reflexivity].
  - rewrite Hn in He'. injection He' as <-. cbn in Hp'. destruct D.
    destruct (presale_moves _ _ _ _ _ _ Hi Hs dc_presale) as (p2 & Hp2 & Hm).
    assert (p2 = p') as -> by congruence. pose proof (mv_terms _ _ _ Hm) as Ht. injection Ht. intros.
    unfold open_for_deposits in dc_open. lia.
  - destruct D. rewrite Hn in He'. injection He' as <-. eapply Hold; [eassumption|reflexivity].
  - destruct D. rewrite Hn in He'. injection He' as <-. eapply Hold; [eassumption|reflexivity].
  - destruct D. rewrite Hn in He'. injection He' as <-. eapply Hold; [eassumption|reflexivity].
  - destruct D. rewrite Hn in He'. injection He' as <-. eapply Hold; [eassumption|reflexivity].
  - destruct D. rewrite Hn in He'. injection He' as <-. eapply Hold; [eassumption|].
    destruct df_what as [(_ & _ & ->)|(_ & ->)]; reflexivity.
  - congruence.
Qed.

Theorem C47_escrow_after_start w : reachable w -> begun w.
Proof.
  intros [l ->]. induction l as [|o l IH] using rev_ind.
  - intros ek e p He. cbn in He. rewrite lookup_empty in He. discriminate.
  - rewrite run_snoc. unfold exec. destruct (step (run genesis l) o) as [[w' x]|] eqn:Hs; [|exact IH].
    cbn. eapply begun_step; [|exact Hs|exact IH]. apply reachable_inv. exists l. reflexivity.
Qed.

(** * No panic *)
Lemma calm_included w mk m n : inv w -> w_mints w !! mk = Some m -> 0 <= n <= U64MAX ->
  calm (calculate_transfer_fee_included_amount m n).
Proof.
  intros Hi Hm Hn. apply C24_inverse_fee_never_panics; [|assumption]. eapply tk_fee; [exact (i_tokens _ Hi)|eassumption].
Qed.

Lemma calm_finish w p k o i c : calm (finish_create_escrow w p k o i c).
Proof. unfold finish_create_escrow, process_create_escrow. calmly. Qed.
#[local] Hint Resolve calm_finish : calm.

Theorem C47_no_panic w o : reachable w -> step w o <> Err Panic.
Proof.
  intros Hw. pose proof (reachable_inv _ Hw) as Hi. pose proof (C47_escrow_after_start _ Hw) as Hb.
  change (calm (step w o)). destruct o; cbn [step].
  - unfold initialize_fixed_price_presale_args. calmly.
  - unfold close_fixed_price_presale_args. calmly.
  - unfold initialize_presale.
    apply calm_bind; [calmly|]. intros ? Hdec. apply require_Ok in Hdec. apply andb_true_iff in Hdec as [Hdec _].
    apply calm_bind; [calmly|]. intros now _.
    apply calm_bind; [calmly|]. intros bm Hbm. apply ok_or_Ok in Hbm.
    apply calm_bind; [calmly|]. intros qm Hqm.
    do 7 (apply calm_bind; [calmly|]; intros ? _).
    apply calm_bind; [calmly|]. intros [] Hv.
    do 2 (apply calm_bind; [calmly|]; intros ? _).
    apply calm_bind; [eapply calm_create_vault; exact Hv|]. intros [p rest] _.
    apply calm_bind; [calmly|]. intros pool Hpool.
    apply calm_bind; [|intros; calmly].
    eapply calm_included; [exact Hi|exact Hbm|].
    unfold init_args_decode in Hdec. apply andb_true_iff in Hdec as [_ Hdec].
    eapply sum_supplies_range; [|exact Hdec|exact Hpool|]; num; lia.
  - unfold create_merkle_root_config. calmly.
  - unfold close_merkle_root_config. calmly.
  - unfold create_permissionless_escrow. calmly.
  - unfold create_permissioned_escrow_with_creator. calmly.
  - unfold create_permissioned_escrow_with_merkle_proof. calmly.
  - unfold create_operator. calmly.
  - unfold revoke_operator. calmly.
  - unfold deposit.
    do 2 (apply calm_bind; [calmly|]; intros ? _).
    apply calm_bind; [calmly|]. intros p Hp. apply ok_or_Ok in Hp.
    do 2 (apply calm_bind; [calmly|]; intros ? _).
    apply calm_bind; [calmly|]. intros m Hm. apply ok_or_Ok in Hm.
    do 7 (apply calm_bind; [calmly|]; intros ? _).
    apply calm_bind; [calmly|]. intros amount _.
    apply calm_bind; [calmly|]. intros ? Hpos. apply require_Ok in Hpos.
    apply calm_bind; [calmly|]. intros [[[fee included] p1] e1] Hd.
    do 3 (apply calm_bind; [calmly|]; intros ? _).
    apply calm_bind; [|intros; calmly].
    eapply calm_included; [exact Hi|exact Hm|].
    unfold presale_deposit in Hd. bi Hd r Hr. apply get_reg_Ok in Hr. bi Hd y Hy. destruct y as [f inc].
    bi Hd z Hz. destruct z as [r' e']. bi Hd d1 Hd1. bi Hd d2 Hd2. apply Ok_inj in Hd. injection Hd as -> -> _ _.
    pose proof (q_cfg _ _ _ (i_presales _ Hi _ _ Hp)) as Hc.
    apply deposit_fee_spec in Hy; [lia|lia|].
    destruct (c_regs _ _ Hc _ _ Hr) as [(_ & _ & _ & _ & ?)|(_ & ->)]; [num; lia|cbn; num; lia].
  - unfold withdraw.
    do 14 (apply calm_bind; [calmly|]; intros ? _).
    apply calm_bind; [calmly|]. intros ? Hcan. apply require_Ok in Hcan.
    do 2 (apply calm_bind; [calmly|]; intros ? _).
    apply calm_bind; [apply calm_process_withdraw; assumption|]. calmly.
  - unfold claim. calmly.
  - unfold withdraw_remaining_quote. calmly.
  - unfold perform_unsold_base_token_action. calmly.
  - unfold close_escrow.
    apply calm_bind; [calmly|]. intros now Hnow. apply clock_Ok in Hnow as [-> _].
    apply calm_bind; [calmly|]. intros p Hp. apply ok_or_Ok in Hp.
    apply calm_bind; [calmly|]. intros e He. apply ok_or_Ok in He.
    apply calm_bind; [calmly|]. intros ? Hk. apply has_one_Ok in Hk. subst presale.
    pose proof (Hb _ _ _ He Hp) as Hst.
    do 3 (apply calm_bind; [calmly|]; intros ? _).
    apply calm_bind; [|calmly].
    destruct (get_progress p (w_now w)) eqn:Hg; try solve [calmly].
    exfalso. apply progress_notstarted in Hg. lia.
  - unfold creator_withdraw, take_vault_and_mint. calmly.
  - unfold refresh_escrow. calmly.
  - unfold create_permissioned_server_metadata. calmly.
  - unfold close_permissioned_server_metadata. calmly.
  - unfold creator_collect_fee. calmly.
  - unfold env_clock. calmly.
  - unfold env_create_mint. calmly.
  - unfold env_close_mint. calmly.
  - unfold env_create_token. calmly.
  - unfold env_close_token. calmly.
  - unfold env_transfer. calmly.
  - unfold env_burn. calmly.
  - unfold env_mint_to. calmly.
  - unfold env_approve. calmly.
  - unfold env_revoke. calmly.
  - unfold env_set_owner. calmly.
  - unfold env_set_memo. calmly.
  - unfold env_set_guard. calmly.
  - unfold env_freeze. calmly.
  - unfold env_set_fee. calmly.
  - unfold env_set_hook. calmly.
  - unfold env_withdraw_withheld. calmly.
Qed.

End WithCrypto.

#[local] Existing Instance toy.

(** Panics exist in the model: with the clock set back before the start, closing an escrow
    panics.  That world is not reachable, because it has an escrow before the start. *)
Example C47_panic_example :
  let w := put_now 1000 w_ff_open in
  step w (ICloseEscrow k1 (esc alice 0) alice alice) = Err Panic /\ ~ reachable w /\
  step w_ff_open (ICloseEscrow k1 (esc alice 0) alice alice) = Err EscrowNotEmpty /\
  step w_ff_open (back alice alice_q 0 10) = Err PresaleNotOpenForWithdraw.
Proof.
  cbv zeta. assert (Hp : step (put_now 1000 w_ff_open) (ICloseEscrow k1 (esc alice 0) alice alice) = Err Panic).
  { vm_compute. reflexivity. }
  split; [exact Hp|]. split.
  { intros Hr. exact (C47_no_panic _ _ Hr Hp). }
  split; vm_compute; reflexivity.
Qed.
