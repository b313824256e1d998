{
 "claims": [
  {
   "property": "C01",
   "status": "proved",
   "theorems": [
    "C01_quote_vault_solvent"
   ],
   "note": ""
  },
  {
   "property": "C02",
   "status": "proved",
   "theorems": [
    "C02_base_vault_solvent"
   ],
   "note": ""
  },
  {
   "property": "C03",
   "status": "proved",
   "theorems": [
    "C03_failed_refund_succeeds"
   ],
   "note": ""
  },
  {
   "property": "C04",
   "status": "proved",
   "theorems": [
    "C04_refund_exact",
    "C04_prorata_refund_succeeds",
    "C04_refunds_within_overflow"
   ],
   "note": ""
  },
  {
   "property": "C05",
   "status": "proved",
   "theorems": [
    "C05_claim_exact",
    "C05_claim_succeeds"
   ],
   "note": ""
  },
  {
   "property": "C06",
   "status": "proved",
   "theorems": [
    "C06_creator_withdraws_once",
    "C06_creator_withdraw_exact",
    "C06_creator_withdraw_succeeds"
   ],
   "note": ""
  },
  {
   "property": "C07",
   "status": "proved",
   "theorems": [
    "C07_fee_collected_once",
    "C07_fee_exact",
    "C07_fee_succeeds",
    "C07_refund_after_fee",
    "C07_creator_after_fee"
   ],
   "note": ""
  },
  {
   "property": "C08",
   "status": "proved",
   "theorems": [
    "C08_unsold_once",
    "C08_unsold_exact",
    "C08_unsold_succeeds",
    "C08_claim_after_unsold"
   ],
   "note": "Burning unsold tokens is stated for mints other than the native one (C100)."
  },
  {
   "property": "C09",
   "status": "proved",
   "theorems": [
    "C09_hard_cap"
   ],
   "note": ""
  },
  {
   "property": "C10",
   "status": "proved",
   "theorems": [
    "C10_personal_limits",
    "C10_limit_in_range"
   ],
   "note": ""
  },
  {
   "property": "C11",
   "status": "proved",
   "theorems": [
    "C11_withdraw_rules"
   ],
   "note": ""
  },
  {
   "property": "C12",
   "status": "proved",
   "theorems": [
    "C12_no_outflow_without_authority"
   ],
   "note": ""
  },
  {
   "property": "C13",
   "status": "proved",
   "theorems": [
    "C13_escrow_changes"
   ],
   "note": ""
  },
  {
   "property": "C14",
   "status": "proved",
   "theorems": [
    "C14_isolation"
   ],
   "note": ""
  },
  {
   "property": "C15",
   "status": "proved",
   "theorems": [
    "C15_terms_immutable",
    "C15_end_changes_once"
   ],
   "note": ""
  },
  {
   "property": "C16",
   "status": "proved",
   "theorems": [
    "C16_outcome_final"
   ],
   "note": ""
  },
  {
   "property": "C17",
   "status": "proved",
   "theorems": [
    "C17_early_end"
   ],
   "note": ""
  },
  {
   "property": "C18",
   "status": "proved",
   "theorems": [
    "C18_entitlement_monotone",
    "C18_nothing_before_release",
    "C18_full_share",
    "C18_reachable_schedule"
   ],
   "note": ""
  },
  {
   "property": "C19",
   "status": "proved",
   "theorems": [
    "C19_claim_history"
   ],
   "note": ""
  },
  {
   "property": "C20",
   "status": "proved",
   "theorems": [
    "C20_locks",
    "C20_base_vault_untouched"
   ],
   "note": ""
  },
  {
   "property": "C21",
   "status": "proved",
   "theorems": [
    "C21_price_floor",
    "C21_registry_total"
   ],
   "note": ""
  },
  {
   "property": "C22",
   "status": "proved",
   "theorems": [
    "C22_least_deposit",
    "C22_accepted_deposit"
   ],
   "note": ""
  },
  {
   "property": "C23",
   "status": "proved",
   "theorems": [
    "C23_deposit_fee",
    "C23_deposit_fee_defined",
    "C23_fee_monotone",
    "C23_splitting_never_cheaper"
   ],
   "note": ""
  },
  {
   "property": "C24",
   "status": "proved",
   "theorems": [
    "C24_gross_amount",
    "C24_inverse_fee_never_panics",
    "C24_deposit_credited",
    "C24_supply_funded"
   ],
   "note": ""
  },
  {
   "property": "C25",
   "status": "proved",
   "theorems": [
    "C25_validate_iff",
    "C25_accepted_config",
    "C25_good_config_accepted",
    "C25_always"
   ],
   "note": ""
  },
  {
   "property": "C26",
   "status": "proved",
   "theorems": [
    "C26_whitelist"
   ],
   "note": ""
  },
  {
   "property": "C27",
   "status": "proved",
   "theorems": [
    "C27_operator_control",
    "C27_revoked_operator",
    "C27_operator_provenance"
   ],
   "note": ""
  },
  {
   "property": "C28",
   "status": "proved",
   "theorems": [
    "C28_builder_total",
    "C28_every_entry_proved",
    "C28_no_other_nodes",
    "C28_lookup",
    "C28_paths_verify",
    "C28_root_published",
    "C28_escrow_created",
    "C28_capacity",
    "C28_proof_length"
   ],
   "note": ""
  },
  {
   "property": "C29",
   "status": "proved",
   "theorems": [
    "C29_accepted_is_listed",
    "C29_escrow_is_listed",
    "C29_all_escrows_listed"
   ],
   "note": ""
  },
  {
   "property": "C30",
   "status": "proved",
   "theorems": [
    "C30_close_escrow"
   ],
   "note": ""
  },
  {
   "property": "C31",
   "status": "proved",
   "theorems": [
    "C31_books_balance"
   ],
   "note": ""
  },
  {
   "property": "C32",
   "status": "proved",
   "theorems": [
    "C32_time_windows"
   ],
   "note": ""
  },
  {
   "property": "C33",
   "status": "proved",
   "theorems": [
    "C33_more_deposit_never_less",
    "C33_equal_treatment",
    "C33_dust"
   ],
   "note": ""
  },
  {
   "property": "C34",
   "status": "proved",
   "theorems": [
    "C34_refund_once"
   ],
   "note": ""
  },
  {
   "property": "C35",
   "status": "proved",
   "theorems": [
    "C35_quote_lifetime",
    "C35_base_lifetime",
    "C35_base_closed"
   ],
   "note": ""
  },
  {
   "property": "C36",
   "status": "proved",
   "theorems": [
    "C36_supported_iff",
    "C36_only_safe_mints",
    "C36_unsafe_mint_rejected",
    "C36_outsiders_cannot_touch_vaults"
   ],
   "note": ""
  },
  {
   "property": "C37",
   "status": "proved",
   "theorems": [
    "C37_split_iff",
    "C37_bad_slices_rejected",
    "C37_hook_accounts_needed"
   ],
   "note": ""
  },
  {
   "property": "C38",
   "status": "proved",
   "theorems": [
    "C38_depositor_pays"
   ],
   "note": ""
  },
  {
   "property": "C39",
   "status": "proved",
   "theorems": [
    "C39_deposit_exact",
    "C39_deposit_succeeds",
    "C39_fixed_price_deposit_succeeds"
   ],
   "note": ""
  },
  {
   "property": "C40",
   "status": "proved",
   "theorems": [
    "C40_events_truthful"
   ],
   "note": ""
  },
  {
   "property": "C41",
   "status": "proved",
   "theorems": [
    "C41_sold_plus_unsold"
   ],
   "note": ""
  },
  {
   "property": "C42",
   "status": "partial",
   "theorems": [
    "C42_wide_gap_never_stuck",
    "C42_minimum_unreachable_refuted"
   ],
   "note": "The statement as written is false of the code: with a cap gap smaller than one token's price and several small depositors the presale minimum becomes unreachable (C42_minimum_unreachable_refuted). C42_wide_gap_never_stuck proves it for every reachable state once the gap is at least the cost of one token."
  },
  {
   "property": "C43",
   "status": "partial",
   "theorems": [
    "C43_priceable_always",
    "C43_first_buyer_served",
    "C43_unpriceable_stock_refuted",
    "C43_narrow_limits_refuted"
   ],
   "note": "The statement as written is false: initialisation accepts stock whose total price does not fit (C43_unpriceable_stock_refuted) and buyer limits without any payable amount between them (C43_narrow_limits_refuted). C43_priceable_always and C43_first_buyer_served prove it for the configurations outside these two classes."
  },
  {
   "property": "C44",
   "status": "partial",
   "theorems": [
    "C44_other_bytes_refund",
    "C44_unknown_action_refuted"
   ],
   "note": "The statement as written is false: any action byte is accepted (C44_unknown_action_refuted, byte 77). C44_other_bytes_refund proves what such a byte does: it is treated as Refund, in every execution."
  },
  {
   "property": "C45",
   "status": "partial",
   "theorems": [
    "C45_price_published",
    "C45_front_run_refuted"
   ],
   "note": "The statement as written is false: anybody can publish the fixed-price arguments of a presale first (C45_front_run_refuted). C45_price_published proves what does hold: the price of every presale was published by an accepted instruction signed by the recorded owner."
  },
  {
   "property": "C46",
   "status": "partial",
   "theorems": [
    "C46_one_registry_in_stock",
    "C46_at_most_two_short",
    "C46_worst_case",
    "C46_short_by_rounding_refuted",
    "C46_diluted_refuted"
   ],
   "note": "The statement as written is false: rounding can cost a buyer whole tokens (C46_short_by_rounding_refuted, C46_diluted_refuted). C46_one_registry_in_stock, C46_at_most_two_short and C46_worst_case prove the exact worst case bounds for every reachable state."
  },
  {
   "property": "C47",
   "status": "proved",
   "theorems": [
    "C47_escrow_after_start",
    "C47_no_panic"
   ],
   "note": ""
  },
  {
   "property": "C48",
   "status": "proved",
   "theorems": [
    "C48_one_escrow_per_buyer"
   ],
   "note": ""
  },
  {
   "property": "C49",
   "status": "proved",
   "theorems": [
    "C49_supply_conserved"
   ],
   "note": ""
  },
  {
   "property": "C50",
   "status": "proved",
   "theorems": [
    "C50_merkle_roots",
    "C50_server_metadata",
    "C50_root_provenance"
   ],
   "note": ""
  },
  {
   "property": "C51",
   "status": "proved",
   "theorems": [
    "C51_ledger",
    "C51_vaults_hold_the_rest"
   ],
   "note": ""
  },
  {
   "property": "C52",
   "status": "proved",
   "theorems": [
    "C52_base_dust",
    "C52_quote_dust"
   ],
   "note": ""
  },
  {
   "property": "C53",
   "status": "proved",
   "theorems": [
    "C53_withdraw_exact",
    "C53_withdraw_succeeds",
    "C53_full_withdrawal_succeeds"
   ],
   "note": ""
  },
  {
   "property": "C54",
   "status": "partial",
   "theorems": [
    "C54_named_owner",
    "C54_deposit_names_payer",
    "C54_deposit_event_owner_refuted"
   ],
   "note": "False for deposits: the owner field of the deposit event is the signing payer, who need not own the escrow (C54_deposit_event_owner_refuted). C54_named_owner proves it for every other event and C54_deposit_names_payer proves what the deposit event names."
  },
  {
   "property": "C55",
   "status": "partial",
   "theorems": [
    "C55_start_announced",
    "C55_start_announced_refuted"
   ],
   "note": "False when the requested start lies in the past: the event carries the request, the presale stores the clock (C55_start_announced_refuted). C55_start_announced proves that the stored start is the later of the two."
  },
  {
   "property": "C56",
   "status": "partial",
   "theorems": [
    "C56_every_entry_kept_refuted",
    "C56_distinct_owners_kept"
   ],
   "note": "False: entries are merged by owner only, so an owner listed for two registries keeps only the last one (C56_every_entry_kept_refuted, for every hash function). C56_distinct_owners_kept proves it for lists without repeated owners; C28 characterises what is kept in general."
  },
  {
   "property": "C57",
   "status": "proved",
   "theorems": [
    "C57_close_iff"
   ],
   "note": ""
  },
  {
   "property": "C58",
   "status": "proved",
   "theorems": [
    "C58_exit_after_failure",
    "C58_exit_after_success",
    "C58_exit_prorata"
   ],
   "note": ""
  },
  {
   "property": "C59",
   "status": "proved",
   "theorems": [
    "C59_pays_share_of_cap",
    "C59_proportional"
   ],
   "note": ""
  },
  {
   "property": "C60",
   "status": "proved",
   "theorems": [
    "C60_rights_fixed",
    "C60_refund_same",
    "C60_claim_same"
   ],
   "note": ""
  },
  {
   "property": "C61",
   "status": "proved",
   "theorems": [
    "C61_permissionless_escrow",
    "C61_authority_escrow"
   ],
   "note": ""
  },
  {
   "property": "C62",
   "status": "proved",
   "theorems": [
    "C62_refresh_succeeds"
   ],
   "note": ""
  },
  {
   "property": "C63",
   "status": "proved",
   "theorems": [
    "C63_operator_create_iff",
    "C63_operator_revoke_iff",
    "C63_root_publish_iff",
    "C63_root_close_iff",
    "C63_metadata_create_iff",
    "C63_metadata_close_iff",
    "C63_price_account_close_iff",
    "C63_price_account_create_iff"
   ],
   "note": ""
  },
  {
   "property": "C64",
   "status": "partial",
   "theorems": [
    "C64_wide_gap_never_stuck",
    "C64_minimum_blocked_refuted"
   ],
   "note": "The statement as written is false: C64_minimum_blocked_refuted gives an accepted history after which the minimum can never be reached, though another order of deposits would have reached it. C64_wide_gap_never_stuck proves the statement when the gap between the caps is at least every registry minimum."
  },
  {
   "property": "C65",
   "status": "proved",
   "theorems": [
    "C65_all_or_nothing",
    "C65_same_states",
    "C65_futures"
   ],
   "note": ""
  },
  {
   "property": "C66",
   "status": "proved",
   "theorems": [
    "C66_addresses_distinct",
    "C66_no_key_for_a_pda"
   ],
   "note": ""
  },
  {
   "property": "C67",
   "status": "proved",
   "theorems": [
    "C67_split_entitlement",
    "C67_split_final",
    "C67_split_refund",
    "C67_split_costs_more"
   ],
   "note": ""
  },
  {
   "property": "C68",
   "status": "proved",
   "theorems": [
    "C68_round_trip"
   ],
   "note": ""
  },
  {
   "property": "C69",
   "status": "proved",
   "theorems": [
    "C69_wind_down",
    "C69_only_dust_left"
   ],
   "note": "Burning unsold tokens is stated for mints other than the native one (C100)."
  },
  {
   "property": "C70",
   "status": "proved",
   "theorems": [
    "C70_fields_fit"
   ],
   "note": ""
  },
  {
   "property": "C71",
   "status": "proved",
   "theorems": [
    "C71_no_gaps",
    "C71_sizes",
    "C71_store",
    "C71_allocated",
    "C71_mode_data_shape",
    "C71_mode_data_read",
    "C71_mode_data_written"
   ],
   "note": ""
  },
  {
   "property": "C72",
   "status": "proved",
   "theorems": [
    "C72_tags",
    "C72_discriminators",
    "C72_not_blank",
    "C72_one_type"
   ],
   "note": ""
  },
  {
   "property": "C73",
   "status": "proved",
   "theorems": [
    "C73_tags",
    "C73_discriminators",
    "C73_discriminators_apart",
    "C73_round_trip",
    "C73_canonical",
    "C73_unambiguous",
    "C73_bytes"
   ],
   "note": ""
  },
  {
   "property": "C74",
   "status": "proved",
   "theorems": [
    "C74_calls_complete",
    "C74_calls_sound",
    "C74_accounts",
    "C74_calls_reach",
    "C74_calls_cover",
    "C74_decodes",
    "C74_accepted_sendable"
   ],
   "note": ""
  },
  {
   "property": "C75",
   "status": "proved",
   "theorems": [
    "C75_writable",
    "C75_signed",
    "C75_escrow_signed",
    "C75_base_signs"
   ],
   "note": ""
  },
  {
   "property": "C76",
   "status": "proved",
   "theorems": [
    "C76_vaults_plain",
    "C76_switches_irrelevant",
    "C76_guarded_payer_rejected",
    "C76_turning_switches"
   ],
   "note": ""
  },
  {
   "property": "C77",
   "status": "proved",
   "theorems": [
    "C77_same_program",
    "C77_rent_exempt",
    "C77_conserved",
    "C77_creation",
    "C77_appears",
    "C77_closing",
    "C77_falls",
    "C77_accepted_iff",
    "C77_dust_harmless",
    "C77_presale_rent_locked"
   ],
   "note": ""
  },
  {
   "property": "C78",
   "status": "partial",
   "theorems": [
    "C78_rent_returns_partial",
    "C78_rent_returns_refuted"
   ],
   "note": "False: the owner of an escrow names the receiver, and anybody may have paid for the escrow (C78_rent_returns_refuted). C78_rent_returns_partial proves that the named receiver gets at least what the payer spent."
  },
  {
   "property": "C79",
   "status": "proved",
   "theorems": [
    "C79_mints_stay",
    "C79_vaults_never_frozen",
    "C79_claim",
    "C79_failed_refund",
    "C79_prorata_refund",
    "C79_creator_raise",
    "C79_creator_supply_back",
    "C79_creator_fee",
    "C79_freeze_authority_blocks",
    "C79_fee_authority_takes_all",
    "C79_hook_authority_blocks"
   ],
   "note": "The hypotheses `receivable` of C03-C07 are discharged for every later history of a presale with immune mints; the last three theorems show what freeze, fee and hook authorities can do to the others."
  },
  {
   "property": "C80",
   "status": "proved",
   "theorems": [
    "C80_suggestion",
    "C80_reach_cap",
    "C80_gap"
   ],
   "note": "The three proptests of fixed_price_presale.rs for all inputs, except the claim about the whole supply (C81)."
  },
  {
   "property": "C81",
   "status": "partial",
   "theorems": [
    "C81_cap_buys_supply",
    "C81_cap_buys_supply_iff",
    "C81_cap_buys_supply_refuted",
    "C81_sellable"
   ],
   "note": "C81_cap_buys_supply_refuted: at a price of a third and a supply of 100 the cap of 34 buys 102, inside the ranges the test draws from. The exact condition is C81_cap_buys_supply_iff, what the program does otherwise C81_sellable."
  },
  {
   "property": "C82",
   "status": "proved",
   "theorems": [
    "C82_presale_books",
    "C82_escrow_books",
    "C82_nothing_else",
    "C82_same_events"
   ],
   "note": "A fold over the event log that never looks at the state equals the books of the final state, by induction over the history."
  },
  {
   "property": "C83",
   "status": "partial",
   "theorems": [
    "C83_events_name_presale",
    "C83_creation_identifies_presale_refuted",
    "C83_creation_identifies_registry_refuted"
   ],
   "note": "Refuted for the two creation events: histories with the same events and different accounts (C83_creation_identifies_presale_refuted, C83_creation_identifies_registry_refuted). Every other event names its presale (C83_events_name_presale)."
  },
  {
   "property": "C84",
   "status": "partial",
   "theorems": [
    "C84_deposits_only_grow",
    "C84_minimum_secured",
    "C84_only_withdrawals_undo",
    "C84_full_is_final",
    "C84_minimum_secured_refuted"
   ],
   "note": "Refuted while withdrawals are open (C84_minimum_secured_refuted): a reached minimum can be withdrawn before the end. Proved without withdrawals, proved that only owners' withdrawals can undo it, and proved for presales that end early when full."
  },
  {
   "property": "C85",
   "status": "proved",
   "theorems": [
    "C85_decided",
    "C85_released"
   ],
   "note": "The limits of 60 days and ten years come from the accepted arguments, kept along every history."
  },
  {
   "property": "C86",
   "status": "proved",
   "theorems": [
    "C86_tags",
    "C86_discriminators",
    "C86_round_trip",
    "C86_canonical",
    "C86_unambiguous",
    "C86_not_an_instruction",
    "C86_one_event",
    "C86_events_fit",
    "C86_books_from_bytes",
    "C86_always_said"
   ],
   "note": "Borsh codecs of the 18 structs, discriminators by the SHA-256 of Sha256.v. Addresses are mapped to bytes by an arbitrary function with 32 byte values; a collision of it is the only way out. Registry paddings in the creation event are arbitrary."
  },
  {
   "property": "C87",
   "status": "proved",
   "theorems": [
    "C87_price_ceiling",
    "C87_price_ceiling_within_cap"
   ],
   "note": "Exact rational bound with the slack of the four roundings written out. A fixed price is C21 and C46."
  },
  {
   "property": "C88",
   "status": "proved",
   "theorems": [
    "C88_registries_isolated",
    "C88_isolated_over_time",
    "C88_dilution"
   ],
   "note": "Isolation for all instructions and modes; dilution for presales without fixed price."
  },
  {
   "property": "C89",
   "status": "proved",
   "theorems": [
    "C89_fee_not_avoided",
    "C89_one_deposit_is_cheapest",
    "C89_kept_fee_covers_kept_deposits"
   ],
   "note": "Invariant by induction over all histories."
  },
  {
   "property": "C90",
   "status": "proved",
   "theorems": [
    "C90_own_dealings_only",
    "C90_order_does_not_matter"
   ],
   "note": "The two histories may contain anything else, by anybody; the quantities after the end are then fixed by C16 and C60."
  },
  {
   "property": "C91",
   "status": "proved",
   "theorems": [
    "C91_deposit_never_lowers_own_tokens",
    "C91_deposit_never_lowers_own_payment",
    "C91_withdrawal_never_raises_own_tokens"
   ],
   "note": "Tokens: exact, all modes. Payment: up to one unit of rounding, from C59."
  },
  {
   "property": "C92",
   "status": "proved",
   "theorems": [
    "C92_retry_does_nothing"
   ],
   "note": "From the transition relation: a second acceptance contradicts what the first one recorded, except for claims and refreshes, which then find nothing due."
  },
  {
   "property": "C93",
   "status": "proved",
   "theorems": [
    "C93_any_order",
    "C93_payouts_add_up"
   ],
   "note": "At one moment of the clock. Due payouts are described by the hypotheses of the acceptance theorems of C03-C08; each is shown to be an addition to the ledger whose amounts do not depend on the other payouts. Burning unsold tokens is stated for mints other than the native one (C100)."
  },
  {
   "property": "C94",
   "status": "proved",
   "theorems": [
    "C94_signed_deposit",
    "C94_signed_deposit_cost",
    "C94_signed_withdrawal",
    "C94_maximum_limits_payment_refuted",
    "C94_payment_known_when_signed_refuted"
   ],
   "note": "Two stronger readings are refuted with witnesses: the signed maximum does not limit the payment (the deposit fee comes on top, C94_maximum_limits_payment_refuted), and the payment is not known when signing if the quote token has a transfer fee authority (C94_payment_known_when_signed_refuted)."
  },
  {
   "property": "C95",
   "status": "proved",
   "theorems": [
    "C95_accounts_first",
    "C95_hook_effects"
   ],
   "note": "The hook acts through the token programs and with signatures it can obtain; calling back into the presale program is excluded by the runtime. Accepting or rejecting the transfer is the hook bit of the operation."
  },
  {
   "property": "C96",
   "status": "proved",
   "theorems": [
    "C96_schedules_covered",
    "C96_reachable",
    "C96_fee_in_force",
    "C96_notice",
    "C96_signed_deposit"
   ],
   "note": "The schedule (two epochs ahead, a scheduled fee that has not started is dropped) follows spl-token-2022 as recalled; its sources are not in the sandbox."
  },
  {
   "property": "C97",
   "status": "proved",
   "theorems": [
    "C97_own_dealings_only",
    "C97_order_matters_only_when_sold_out",
    "C97_later_is_never_more",
    "C97_order_never_matters_refuted"
   ],
   "note": "That the order never matters is refuted with a presale that sells out."
  },
  {
   "property": "C98",
   "status": "proved",
   "theorems": [
    "C98_created_with_own_seeds",
    "C98_vault_calls_signed_by_authority",
    "C98_signs_for_nothing_else"
   ],
   "note": "As in C66, distinctness holds unless the two derivations exhibit a collision of the hash."
  },
  {
   "property": "C99",
   "status": "proved",
   "theorems": [
    "C99_depends_on_its_accounts",
    "C99_no_interference",
    "C99_either_order",
    "C99_any_order"
   ],
   "note": "Up to the withheld fees, which the model collects in the mint and no instruction reads. Rent and lamports are not modelled."
  },
  {
   "property": "C100",
   "status": "partial",
   "theorems": [
    "C100_native_never_burned",
    "C100_unsold_accepted_iff",
    "C100_unsold_always_handled_refuted"
   ],
   "note": "Refuted as first stated (burning wrapped SOL); C100_unsold_accepted_iff is the exact condition. That token programs refuse to burn native tokens is recalled from spl-token, whose sources are not in the sandbox."
  },
  {
   "property": "C101",
   "status": "proved",
   "theorems": [
    "C101_account_by_account",
    "C101_is_run",
    "C101_reachable",
    "C101_calls",
    "C101_collect",
    "C101_close_after_harvest"
   ],
   "note": "A layer over the state machine (Withheld.v) that follows spl-token-2022 as recalled."
  },
  {
   "property": "C102",
   "status": "proved",
   "theorems": [
    "C102_plays_by_the_rules",
    "C102_one_move"
   ],
   "note": "Refinement of the rules in Sale.v, which know no accounts, stored totals or instructions."
  },
  {
   "property": "C103",
   "status": "proved",
   "theorems": [
    "C103_every_move_can_be_played"
   ],
   "note": "Converse of C102; the definition ready in P_Play.v lists what a move needs besides the rules."
  },
  {
   "property": "C104",
   "status": "proved",
   "theorems": [
    "C104_rules_are_solvent",
    "C104_never_overdrawn",
    "C104_rules_make_sense",
    "C104_presales_are_solvent"
   ],
   "note": "Proved on the rules of Sale.v alone by an invariant of play, then carried to the program by C102."
  },
  {
   "property": "C105",
   "status": "proved",
   "theorems": [
    "C105_little_is_left",
    "C105_every_sale_can_be_ended",
    "C105_every_presale_can_be_ended"
   ],
   "note": "Proved on the rules of Sale.v; each move of the ending can be played by C103 if its accounts are in order."
  }
 ]
}