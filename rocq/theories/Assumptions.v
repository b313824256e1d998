(** All claimed theorems in one tuple, so that a single [Print Assumptions] covers them.
    Generated from MANIFEST.json; the expected answer is "Closed under the global context". *)
From Verif Require Import P_Solvency P_State P_Access P_History P_Payout P_Arith P_Ledger
P_Deposit P_Config P_Mints P_Limits P_Panic P_Events P_Merkle P_Exit P_Fill P_Seeds P_Tx P_Fair
P_Wind P_Width P_Layout P_Borsh P_Entry P_Memo P_Rent P_Immune P_Suggest P_MerkleSize P_Index
P_Phase P_EventWire P_Price P_Fees P_Order P_Mono P_Retry P_NoRun P_Signed P_Hook P_Epoch P_Fcfs
P_Sign P_Local P_Native P_Withheld P_Sale P_Play P_Pot P_Finish.

Definition all_claims :=
  (@C01_quote_vault_solvent, @C02_base_vault_solvent, @C03_failed_refund_succeeds,
   @C04_refund_exact, @C04_prorata_refund_succeeds, @C04_refunds_within_overflow,
   @C05_claim_exact, @C05_claim_succeeds, @C06_creator_withdraws_once,
   @C06_creator_withdraw_exact, @C06_creator_withdraw_succeeds, @C07_fee_collected_once,
   @C07_fee_exact, @C07_fee_succeeds, @C07_refund_after_fee, @C07_creator_after_fee,
   @C08_unsold_once, @C08_unsold_exact, @C08_unsold_succeeds, @C08_claim_after_unsold,
   @C09_hard_cap, @C10_personal_limits, @C10_limit_in_range, @C11_withdraw_rules,
   @C12_no_outflow_without_authority, @C13_escrow_changes, @C14_isolation, @C15_terms_immutable,
   @C15_end_changes_once, @C16_outcome_final, @C17_early_end, @C18_entitlement_monotone,
   @C18_nothing_before_release, @C18_full_share, @C18_reachable_schedule, @C19_claim_history,
   @C20_locks, @C20_base_vault_untouched, @C21_price_floor, @C21_registry_total,
   @C22_least_deposit, @C22_accepted_deposit, @C23_deposit_fee, @C23_deposit_fee_defined,
   @C23_fee_monotone, @C23_splitting_never_cheaper, @C24_gross_amount,
   @C24_inverse_fee_never_panics, @C24_deposit_credited, @C24_supply_funded, @C25_validate_iff,
   @C25_accepted_config, @C25_good_config_accepted, @C25_always, @C26_whitelist,
   @C27_operator_control, @C27_revoked_operator, @C27_operator_provenance, @C28_builder_total,
   @C28_every_entry_proved, @C28_no_other_nodes, @C28_lookup, @C28_paths_verify,
   @C28_root_published, @C28_escrow_created, @C28_capacity, @C28_proof_length,
   @C29_accepted_is_listed, @C29_escrow_is_listed, @C29_all_escrows_listed, @C30_close_escrow,
   @C31_books_balance, @C32_time_windows, @C33_more_deposit_never_less, @C33_equal_treatment,
   @C33_dust, @C34_refund_once, @C35_quote_lifetime, @C35_base_lifetime, @C35_base_closed,
   @C36_supported_iff, @C36_only_safe_mints, @C36_unsafe_mint_rejected,
   @C36_outsiders_cannot_touch_vaults, @C37_split_iff, @C37_bad_slices_rejected,
   @C37_hook_accounts_needed, @C38_depositor_pays, @C39_deposit_exact, @C39_deposit_succeeds,
   @C39_fixed_price_deposit_succeeds, @C40_events_truthful, @C41_sold_plus_unsold,
   @C42_wide_gap_never_stuck, @C42_minimum_unreachable_refuted, @C43_priceable_always,
   @C43_first_buyer_served, @C43_unpriceable_stock_refuted, @C43_narrow_limits_refuted,
   @C44_other_bytes_refund, @C44_unknown_action_refuted, @C45_price_published,
   @C45_front_run_refuted, @C46_one_registry_in_stock, @C46_at_most_two_short, @C46_worst_case,
   @C46_short_by_rounding_refuted, @C46_diluted_refuted, @C47_escrow_after_start, @C47_no_panic,
   @C48_one_escrow_per_buyer, @C49_supply_conserved, @C50_merkle_roots, @C50_server_metadata,
   @C50_root_provenance, @C51_ledger, @C51_vaults_hold_the_rest, @C52_base_dust, @C52_quote_dust,
   @C53_withdraw_exact, @C53_withdraw_succeeds, @C53_full_withdrawal_succeeds, @C54_named_owner,
   @C54_deposit_names_payer, @C54_deposit_event_owner_refuted, @C55_start_announced,
   @C55_start_announced_refuted, @C56_every_entry_kept_refuted, @C56_distinct_owners_kept,
   @C57_close_iff, @C58_exit_after_failure, @C58_exit_after_success, @C58_exit_prorata,
   @C59_pays_share_of_cap, @C59_proportional, @C60_rights_fixed, @C60_refund_same,
   @C60_claim_same, @C61_permissionless_escrow, @C61_authority_escrow, @C62_refresh_succeeds,
   @C63_operator_create_iff, @C63_operator_revoke_iff, @C63_root_publish_iff,
   @C63_root_close_iff, @C63_metadata_create_iff, @C63_metadata_close_iff,
   @C63_price_account_close_iff, @C63_price_account_create_iff, @C64_wide_gap_never_stuck,
   @C64_minimum_blocked_refuted, @C65_all_or_nothing, @C65_same_states, @C65_futures,
   @C66_addresses_distinct, @C66_no_key_for_a_pda, @C67_split_entitlement, @C67_split_final,
   @C67_split_refund, @C67_split_costs_more, @C68_round_trip, @C69_wind_down,
   @C69_only_dust_left, @C70_fields_fit, @C71_no_gaps, @C71_sizes, @C71_store, @C71_allocated,
   @C71_mode_data_shape, @C71_mode_data_read, @C71_mode_data_written, @C72_tags,
   @C72_discriminators, @C72_not_blank, @C72_one_type, @C73_tags, @C73_discriminators,
   @C73_discriminators_apart, @C73_round_trip, @C73_canonical, @C73_unambiguous, @C73_bytes,
   @C74_calls_complete, @C74_calls_sound, @C74_accounts, @C74_calls_reach, @C74_calls_cover,
   @C74_decodes, @C74_accepted_sendable, @C75_writable, @C75_signed, @C75_escrow_signed,
   @C75_base_signs, @C76_vaults_plain, @C76_switches_irrelevant, @C76_guarded_payer_rejected,
   @C76_turning_switches, @C77_same_program, @C77_rent_exempt, @C77_conserved, @C77_creation,
   @C77_appears, @C77_closing, @C77_falls, @C77_accepted_iff, @C77_dust_harmless,
   @C77_presale_rent_locked, @C78_rent_returns_partial, @C78_rent_returns_refuted,
   @C79_mints_stay, @C79_vaults_never_frozen, @C79_claim, @C79_failed_refund,
   @C79_prorata_refund, @C79_creator_raise, @C79_creator_supply_back, @C79_creator_fee,
   @C79_freeze_authority_blocks, @C79_fee_authority_takes_all, @C79_hook_authority_blocks,
   @C80_suggestion, @C80_reach_cap, @C80_gap, @C81_cap_buys_supply, @C81_cap_buys_supply_iff,
   @C81_cap_buys_supply_refuted, @C81_sellable, @C82_presale_books, @C82_escrow_books,
   @C82_nothing_else, @C82_same_events, @C83_events_name_presale,
   @C83_creation_identifies_presale_refuted, @C83_creation_identifies_registry_refuted,
   @C84_deposits_only_grow, @C84_minimum_secured, @C84_only_withdrawals_undo, @C84_full_is_final,
   @C84_minimum_secured_refuted, @C85_decided, @C85_released, @C86_tags, @C86_discriminators,
   @C86_round_trip, @C86_canonical, @C86_unambiguous, @C86_not_an_instruction, @C86_one_event,
   @C86_events_fit, @C86_books_from_bytes, @C86_always_said, @C87_price_ceiling,
   @C87_price_ceiling_within_cap, @C88_registries_isolated, @C88_isolated_over_time,
   @C88_dilution, @C89_fee_not_avoided, @C89_one_deposit_is_cheapest,
   @C89_kept_fee_covers_kept_deposits, @C90_own_dealings_only, @C90_order_does_not_matter,
   @C91_deposit_never_lowers_own_tokens, @C91_deposit_never_lowers_own_payment,
   @C91_withdrawal_never_raises_own_tokens, @C92_retry_does_nothing, @C93_any_order,
   @C93_payouts_add_up, @C94_signed_deposit, @C94_signed_deposit_cost, @C94_signed_withdrawal,
   @C94_maximum_limits_payment_refuted, @C94_payment_known_when_signed_refuted,
   @C95_accounts_first, @C95_hook_effects, @C96_schedules_covered, @C96_reachable,
   @C96_fee_in_force, @C96_notice, @C96_signed_deposit, @C97_own_dealings_only,
   @C97_order_matters_only_when_sold_out, @C97_later_is_never_more,
   @C97_order_never_matters_refuted, @C98_created_with_own_seeds,
   @C98_vault_calls_signed_by_authority, @C98_signs_for_nothing_else,
   @C99_depends_on_its_accounts, @C99_no_interference, @C99_either_order, @C99_any_order,
   @C100_native_never_burned, @C100_unsold_accepted_iff, @C100_unsold_always_handled_refuted,
   @C101_account_by_account, @C101_is_run, @C101_reachable, @C101_calls, @C101_collect,
   @C101_close_after_harvest, @C102_plays_by_the_rules, @C102_one_move,
   @C103_every_move_can_be_played, @C104_rules_are_solvent, @C104_never_overdrawn,
   @C104_rules_make_sense, @C104_presales_are_solvent, @C105_little_is_left,
   @C105_every_sale_can_be_ended, @C105_every_presale_can_be_ended).

Print Assumptions all_claims.
