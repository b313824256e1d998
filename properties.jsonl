{"id": "C01", "title": "Quote vault solvency", "statement": "After any history of transactions, the quote vault of every presale holds at least everything still owed out of it: deposits and deposit fees that can still be withdrawn or refunded to buyers, plus the raise and the fees the creator has not taken yet.", "quantifier": "every presale, every finite history of presale instructions (accepted or rejected, any signer, any accounts) mixed with arbitrary token-program and clock activity", "why_tests_cant": "It is an inductive invariant over unbounded histories with rounding at three levels (presale, registry, escrow); a test only visits a few schedules and numbers.", "anchors": ["programs/presale/src/state/presale.rs: deposit, withdraw, validate_and_get_escrow_remaining_quote, get_total_collected_fee", "programs/presale/src/instructions/process_creator_withdraw.rs", "programs/presale/src/instructions/process_withdraw_remaining_quote.rs", "programs/presale/src/instructions/process_creator_collect_fee.rs"]}
{"id": "C02", "title": "Base vault solvency", "statement": "After any history, the base vault of every presale holds at least everything still owed out of it: what buyers can still claim, now or later, plus the unsold tokens not yet returned or burned; or, if the presale failed, the whole supply until the creator takes it back.", "quantifier": "every presale and every finite history as in C01", "why_tests_cant": "Depends on sums of floors over an unbounded set of escrows, some of which were closed earlier in the history.", "anchors": ["programs/presale/src/math/claim_math.rs", "programs/presale/src/state/presale.rs: claim, get_total_unsold_token", "programs/presale/src/instructions/process_perform_unsold_base_token_action.rs"]}
{"id": "C03", "title": "Failed presale refunds every buyer in full", "statement": "Once a presale has ended below its minimum cap, every escrow owner who has not been refunded can call withdraw_remaining_quote once, the call succeeds, and exactly their recorded deposit plus all deposit fees they paid leaves the quote vault for them, whatever other participants or the creator did before.", "quantifier": "every reachable state with a failed presale, every escrow of it; token-side preconditions (accounts exist, not frozen, hook accepts) are explicit hypotheses", "why_tests_cant": "Liveness for the last participant in the worst history cannot be covered by examples.", "anchors": ["programs/presale/src/state/presale.rs: validate_and_get_escrow_remaining_quote", "programs/presale/src/instructions/process_withdraw_remaining_quote.rs"]}
{"id": "C04", "title": "Completed prorata presale refunds the overflow share", "statement": "Once a prorata presale has completed, every escrow owner who has not been refunded can call withdraw_remaining_quote, the call succeeds, pays exactly the two-level pro-rata share of the overflow and of the fee on it, never more than they deposited or paid in fees, and all refunds together never exceed the overflow plus the refundable fee.", "quantifier": "every reachable state with a completed prorata presale, every escrow, any order of refunds", "why_tests_cant": "Requires a bound on nested floor divisions summed over all escrows in any order.", "anchors": ["programs/presale/src/state/presale_registry.rs: get_finalized_presale_remaining_quote", "programs/presale/src/state/presale.rs: validate_and_get_escrow_remaining_quote"]}
{"id": "C05", "title": "Claims succeed and pay exactly the vested entitlement", "statement": "Once a presale has completed, an escrow owner's claim always succeeds and moves exactly (cumulative entitlement at the current time minus what that escrow already claimed) out of the base vault.", "quantifier": "every reachable state with a completed presale, every escrow of it, every time; token-side preconditions explicit", "why_tests_cant": "The call contains several checked subtractions; that none can fail after any refresh/claim history is an invariant, not an example.", "anchors": ["programs/presale/src/instructions/process_claim.rs", "programs/presale/src/presale_mode_handler/mod.rs: process_claim_full_presale_supply_by_share", "programs/presale/src/presale_mode_handler/fixed_price_presale.rs: update_pending_claim_amount"]}
{"id": "C06", "title": "Creator takes the raise (or the supply) exactly once", "statement": "Only the presale owner's signature can trigger creator_withdraw; it is accepted at most once in the life of a presale, only after the end; it pays exactly min(total deposit, maximum cap) of quote if the presale completed and exactly the full supply of base if it failed; and when called for the first time after the end it always succeeds.", "quantifier": "every history of every presale", "why_tests_cant": "At-most-once over a whole history, and liveness against all earlier withdrawals and refunds.", "anchors": ["programs/presale/src/instructions/process_creator_withdraw.rs: handle_creator_withdraw"]}
{"id": "C07", "title": "Deposit fees are collected once, only on success, and only the unrefundable part", "statement": "creator_collect_fee is accepted at most once per presale, only with the owner's signature and only after completion; it pays exactly the recorded fees minus the fee part refundable to prorata buyers; it never makes a later refund or the creator's withdrawal fail, and it succeeds whenever it has not been done.", "quantifier": "every history of every presale, all registry configurations", "why_tests_cant": "Conservation between refunded and collected fee involves per-registry floors and arbitrary interleaving with refunds.", "anchors": ["programs/presale/src/instructions/process_creator_collect_fee.rs", "programs/presale/src/state/presale.rs: get_total_collected_fee"]}
{"id": "C08", "title": "Unsold tokens leave once, to the right place, and never include sold tokens", "statement": "perform_unsold_base_token_action is accepted at most once per presale and only after completion; it moves exactly supply minus sold tokens, either burning them or sending them to the owner's associated token account, as configured; it can be triggered by anyone; buyers' claims still all succeed afterwards.", "quantifier": "every history, every mode and registry configuration", "why_tests_cant": "The amount must be consistent with the sum of all later claims over any history.", "anchors": ["programs/presale/src/instructions/process_perform_unsold_base_token_action.rs", "programs/presale/src/presale_mode_handler/mod.rs: get_dynamic_price_based_total_base_token_sold", "programs/presale/src/presale_mode_handler/fixed_price_presale.rs: get_total_base_token_sold"]}
{"id": "C09", "title": "Hard cap", "statement": "In FCFS and fixed-price presales the total deposit never exceeds the maximum cap; in a fixed-price presale no registry ever takes more quote than its own supply costs, up to one rounding unit.", "quantifier": "every reachable state", "why_tests_cant": "Invariant over unbounded interleavings of deposits and withdrawals.", "anchors": ["programs/presale/src/presale_mode_handler/fcfs_presale.rs: get_remaining_deposit_quota", "programs/presale/src/presale_mode_handler/fixed_price_presale.rs: get_remaining_deposit_quota"]}
{"id": "C10", "title": "Personal limits", "statement": "Every escrow's recorded deposit is either zero or between the buyer minimum of its registry and the smaller of the buyer maximum and the escrow's personal cap.", "quantifier": "every reachable state, every escrow", "why_tests_cant": "Holds after any sequence of partial deposits and withdrawals, not only the tested ones.", "anchors": ["programs/presale/src/state/presale_registry.rs: validate_escrow_deposit", "programs/presale/src/state/escrow.rs: get_remaining_deposit_quota"]}
{"id": "C11", "title": "Withdrawals before the end", "statement": "withdraw succeeds only for the escrow owner, only between start and end, only in prorata mode or in fixed-price mode without the disable flag; it returns at most what was asked and at most the recorded deposit, exactly the amount taken off the escrow, its registry and the presale totals; the deposit fee is not returned.", "quantifier": "every state and every withdraw call", "why_tests_cant": "All-input statement over modes, prices and amounts.", "anchors": ["programs/presale/src/instructions/process_withdraw.rs", "programs/presale/src/presale_mode_handler/fixed_price_presale.rs: suggest_withdraw_amount, can_withdraw"]}
{"id": "C12", "title": "No outflow without the right authority", "statement": "The quote vault of a presale decreases only through withdraw or withdraw_remaining_quote signed by an escrow owner of that presale, or creator_withdraw / creator_collect_fee signed by the presale owner; the base vault only through claim signed by an escrow owner, creator_withdraw signed by the presale owner, or perform_unsold_base_token_action. No token-program operation by anyone else can reduce a vault.", "quantifier": "every step from every reachable state, any signer set, any account substitution", "why_tests_cant": "Adversarial account substitution has unbounded variants; tests try a few.", "anchors": ["programs/presale/src/token2022.rs: is_supported_mint, transfer_from_presale_to_user", "programs/presale/src/instructions/process_creator_withdraw.rs", "programs/presale/src/instructions/process_creator_collect_fee.rs", "programs/presale/src/instructions/process_withdraw.rs", "programs/presale/src/instructions/process_claim.rs", "programs/presale/src/instructions/process_withdraw_remaining_quote.rs", "programs/presale/src/instructions/process_perform_unsold_base_token_action.rs"]}
{"id": "C13", "title": "Escrow state changes need the owner's signature", "statement": "An escrow's deposit never decreases, its refunded flag and claimed amount never change and it is never closed unless its owner signed that transaction. Others can only add to its deposit (paying from their own tokens) or refresh its pending amount.", "quantifier": "every step from every state, every escrow", "why_tests_cant": "Quantifies over all instructions and account substitutions.", "anchors": ["programs/presale/src/instructions/process_withdraw.rs", "programs/presale/src/instructions/process_claim.rs", "programs/presale/src/instructions/process_withdraw_remaining_quote.rs", "programs/presale/src/instructions/process_close_escrow.rs", "programs/presale/src/instructions/process_deposit.rs", "programs/presale/src/instructions/process_refresh_escrow.rs"]}
{"id": "C14", "title": "Presales are isolated from each other", "statement": "A transaction on one presale changes no field of any other presale, changes no escrow of any other presale, and cannot reduce the balance of any other presale's vaults.", "quantifier": "every pair of distinct presales, every step from every reachable state, including presales sharing mints and owners", "why_tests_cant": "All presales share one vault authority; isolation over arbitrary account mixes is not testable by enumeration.", "anchors": ["programs/presale/src/const_pda.rs: presale_authority", "programs/presale/src/instructions/process_deposit.rs", "programs/presale/src/instructions/process_withdraw.rs", "programs/presale/src/instructions/process_claim.rs", "programs/presale/src/instructions/process_close_escrow.rs", "programs/presale/src/instructions/process_creator_withdraw.rs"]}
{"id": "C15", "title": "Terms are immutable after creation", "statement": "After initialize_presale, the owner, mints, vaults, mode, whitelist mode, caps, start time, supply, registry supplies/limits/fee rates, price, flags, lock and vest durations, release percentage and unsold action never change; the end time never moves later, and changes at most once.", "quantifier": "every history after creation", "why_tests_cant": "Needs an induction over histories of every instruction.", "anchors": ["programs/presale/src/state/presale.rs: initialize, recalculate_presale_timing"]}
{"id": "C16", "title": "The outcome is final", "statement": "Once a presale has ended its total deposits, fees and outcome (completed or failed) and every timing field stay the same forever; it can never reopen.", "quantifier": "every history continuing from an ended presale", "why_tests_cant": "Unbounded continuation.", "anchors": ["programs/presale/src/state/presale.rs: get_presale_progress, advance_progress_to_completed"]}
{"id": "C17", "title": "Early end keeps the schedule", "statement": "A deposit ends the presale early exactly when the mode is FCFS or fixed price, early end is not disabled and the cap is reached; then the end becomes the current time, lock and vest durations keep their length, and the gap between end and immediate release is preserved.", "quantifier": "every deposit in every reachable state", "why_tests_cant": "All combinations of schedule parameters, including the backward-compatible zero release time.", "anchors": ["programs/presale/src/state/presale.rs: recalculate_presale_timing", "programs/presale/src/presale_mode_handler/mod.rs: end_presale_if_max_cap_reached"]}
{"id": "C18", "title": "Entitlement grows with time up to the full share", "statement": "A buyer's cumulative entitlement never decreases as time passes, is zero before both release points, and at the end of vesting equals the buyer's whole share, which never exceeds sold*deposit/total and is at most one unit per release part below it.", "quantifier": "all times, all schedules, all amounts", "why_tests_cant": "Universally quantified arithmetic with nested floors.", "anchors": ["programs/presale/src/math/claim_math.rs: calculate_cumulative_claimable_amount_for_user"]}
{"id": "C19", "title": "Claim history does not matter", "statement": "After any interleaving of refreshes and claims (by anyone, at any times), the total an escrow has received when its owner claims at time t equals the entitlement at t: claiming often or once gives the same total.", "quantifier": "every history of claims/refreshes on a completed presale", "why_tests_cant": "Unbounded schedules.", "anchors": ["programs/presale/src/instructions/process_claim.rs", "programs/presale/src/instructions/process_refresh_escrow.rs"]}
{"id": "C20", "title": "Locks hold", "statement": "No base token leaves the vault for a buyer before the presale end; none of the immediate part before the release timestamp and none of the vested part before the end of the lock; in between at most the linear proportion.", "quantifier": "every history, every time", "why_tests_cant": "All schedules and histories.", "anchors": ["programs/presale/src/math/claim_math.rs", "programs/presale/src/instructions/process_claim.rs"]}
{"id": "C21", "title": "Fixed price is a floor on what buyers pay", "statement": "In a fixed-price presale no buyer ever receives more tokens than their deposit buys at the configured price: received * price <= deposit; and all tokens sold in a registry together never exceed what the registry's deposits buy nor its supply.", "quantifier": "every reachable state, every escrow, every price", "why_tests_cant": "Rounding accumulates over many deposits and buyers.", "anchors": ["programs/presale/src/presale_mode_handler/fixed_price_presale.rs: get_escrow_cumulative_claimable_token, calculate_token_bought"]}
{"id": "C22", "title": "Deposit rounding in fixed price", "statement": "The accepted fixed-price deposit is the smallest amount that buys as many tokens as the (quota-limited) requested amount; it is never more than requested and never computes an error for a configured price.", "quantifier": "all prices and amounts", "why_tests_cant": "Full 128-bit input space.", "anchors": ["programs/presale/src/presale_mode_handler/fixed_price_presale.rs: calculate_quote_token_without_surplus"]}
{"id": "C23", "title": "Deposit fee arithmetic", "statement": "The deposit fee is the least fee such that the deposit credited is at least (1 - rate) of the gross amount: fee = ceil(gross * rate); fee plus credited deposit equals gross; zero rate means zero fee; the fee is monotone in the deposit, and splitting a deposit never lowers the total fee.", "quantifier": "all amounts and all rates up to 50%", "why_tests_cant": "Universally quantified arithmetic.", "anchors": ["programs/presale/src/math/fee_math.rs: calculate_deposit_fee_included_amount"]}
{"id": "C24", "title": "Token-2022 transfer fees are always covered by the payer", "statement": "For every transfer-fee configuration of the mint, an accepted deposit (or the creator's initial funding) increases the vault by exactly the credited deposit plus deposit fee (exactly the supply); the inverse-fee computation never reaches its panic branch.", "quantifier": "all fee rates 0..100%, all maximum fees, all amounts", "why_tests_cant": "The inverse of a ceil-and-cap fee function; the code itself says it believes the mismatch never happens.", "anchors": ["programs/presale/src/token2022.rs: calculate_transfer_fee_included_amount"]}
{"id": "C25", "title": "Which presale configurations are accepted", "statement": "initialize_presale accepts exactly the configurations meeting the documented constraints (caps, times, durations, registries, modes, price bounds) and every accepted presale satisfies them for its whole life.", "quantifier": "all argument values", "why_tests_cant": "Full input space of a large argument struct.", "anchors": ["programs/presale/src/instructions/initialize_presale/params.rs", "programs/presale/src/presale_mode_handler/fixed_price_presale.rs: initialize_presale"]}
{"id": "C26", "title": "Only whitelisted buyers get escrows", "statement": "An escrow comes into existence only: in a permissionless presale, for registry 0 with the registry maximum as cap; in an authority presale, with the signature of an operator whose account exists and was created by the presale owner; in a merkle presale, with a proof of (owner, registry, cap) against a root published by the presale owner for this presale. In all cases only while the presale is ongoing and with the cap inside the registry limits.", "quantifier": "every step from every reachable state", "why_tests_cant": "Forged accounts and cross-presale substitution.", "anchors": ["programs/presale/src/instructions/create_escrow/"]}
{"id": "C27", "title": "Operator delegation and revocation", "statement": "An operator account can be created only by the creator it names and removed only by that creator; after revocation no escrow can be created through it until it is created again.", "quantifier": "every history", "why_tests_cant": "Histories of create/revoke/use in any order.", "anchors": ["programs/presale/src/instructions/process_create_operator.rs", "programs/presale/src/instructions/process_revoke_operator.rs", "programs/presale/src/instructions/create_escrow/process_create_permissioned_escrow_with_creator.rs"]}
{"id": "C28", "title": "Merkle completeness", "statement": "For every non-empty whitelist, every entry kept by the off-chain tree builder has a proof that the on-chain verifier accepts against the built root.", "quantifier": "all lists of entries of any length, any hash function", "why_tests_cant": "All tree shapes, including odd levels.", "anchors": ["merkle-tree/src/merkle_tree.rs: new, find_path", "merkle-tree/src/utils.rs: get_proof", "programs/presale/src/instructions/create_escrow/process_create_permissioned_escrow_with_merkle_proof.rs: verify"]}
{"id": "C29", "title": "Merkle soundness", "statement": "If the on-chain verifier accepts some proof for (owner, registry, cap) against a root built by the off-chain builder, then that entry is in the whitelist, or the accepted proof exhibits two different byte strings with the same hash.", "quantifier": "all whitelists, all proofs of any length, any 32-byte hash function", "why_tests_cant": "Adversarial proofs of any length.", "anchors": ["merkle-tree/src/merkle_tree.rs", "programs/presale/src/instructions/create_escrow/process_create_permissioned_escrow_with_merkle_proof.rs: verify"]}
{"id": "C30", "title": "Closing an escrow destroys nothing", "statement": "close_escrow is accepted only if nothing of value is lost: the escrow has no deposit and no fee while the presale is ongoing; has been refunded or had nothing after failure; has claimed its entire final entitlement and its refund (if any) after completion. It needs the owner's signature, removes exactly that escrow and decrements the counts by one.", "quantifier": "every reachable state", "why_tests_cant": "The final entitlement check compares floors at a future time.", "anchors": ["programs/presale/src/instructions/process_close_escrow.rs"]}
{"id": "C31", "title": "Books balance", "statement": "At all times presale totals equal the sums over registries (deposits, fees, claimed, refunded, escrow counts); while a presale has not ended, registry totals of deposits equal the sum over open escrows exactly and escrow counts always equal the number of open escrows.", "quantifier": "every reachable state", "why_tests_cant": "Inductive invariant over unbounded histories.", "anchors": ["programs/presale/src/state/presale.rs", "programs/presale/src/state/presale_registry.rs", "programs/presale/src/state/escrow.rs"]}
{"id": "C32", "title": "Deposit window", "statement": "Escrow creation, deposits and withdrawals are accepted only when start <= now < end; claims, refunds, creator withdrawals, fee collection and the unsold action only when now >= end.", "quantifier": "every step", "why_tests_cant": "Boundary cases at every instant, including the instant of an early end.", "anchors": ["programs/presale/src/state/presale.rs: get_presale_progress"]}
{"id": "C33", "title": "Fair treatment within a registry", "statement": "Two buyers of the same registry with equal deposits are entitled to the same amount at any time, a larger deposit never gets less, and the tokens left undistributed in a registry after everyone's full entitlement are at most two units per buyer.", "quantifier": "all registries, deposits, times", "why_tests_cant": "Sum of floors over unbounded sets.", "anchors": ["programs/presale/src/math/claim_math.rs"]}
{"id": "C34", "title": "A refund is paid at most once per escrow", "statement": "withdraw_remaining_quote succeeds at most once for an escrow: after it succeeded, it is never accepted again for the same (presale, owner, registry), even if the escrow is closed in between.", "quantifier": "every history", "why_tests_cant": "Requires that a closed escrow cannot be re-created after the end.", "anchors": ["programs/presale/src/instructions/process_withdraw_remaining_quote.rs", "programs/presale/src/instructions/process_close_escrow.rs", "programs/presale/src/instructions/create_escrow/process_create_escrow.rs"]}
{"id": "C35", "title": "Lifetime payouts per escrow", "statement": "Over a whole history, the quote tokens paid out to an escrow's owner by withdraw and withdraw_remaining_quote never exceed the deposits plus fees paid in for that escrow, and base tokens paid by claim never exceed its final entitlement.", "quantifier": "every history from creation of the presale", "why_tests_cant": "History-level accounting across closes and re-creations.", "anchors": ["programs/presale/src/instructions/process_deposit.rs", "programs/presale/src/instructions/process_withdraw.rs", "programs/presale/src/instructions/process_withdraw_remaining_quote.rs", "programs/presale/src/instructions/process_claim.rs"]}
{"id": "C36", "title": "Only safe mints are admitted", "statement": "A presale can only exist for mints that are SPL-token mints or Token-2022 mints whose extensions are among transfer fee, metadata pointer, metadata and transfer hook; consequently no permanent delegate can ever take tokens out of a vault.", "quantifier": "all mints, all extension sets", "why_tests_cant": "All extension combinations and later token-program activity.", "anchors": ["programs/presale/src/token2022.rs: is_supported_mint"]}
{"id": "C37", "title": "Transfer-hook accounts are split correctly", "statement": "For the accounts passed after the fixed ones, the parsed hook slices are consecutive, non-overlapping, in order, of the declared lengths and types; a slice type not allowed for the instruction, a duplicate non-empty type or too few accounts is rejected; a hook list is required iff the mint has a hook program.", "quantifier": "all account lists and slice descriptors", "why_tests_cant": "Unbounded lists.", "anchors": ["programs/presale/src/token2022.rs: parse_remaining_accounts_for_transfer_hook"]}
{"id": "C38", "title": "Whoever deposits, pays", "statement": "A deposit takes from the payer's own token account exactly the credited deposit plus deposit fee plus the mint's transfer fee and credits exactly the named escrow and its presale; nobody else's balance goes down.", "quantifier": "every deposit from every state", "why_tests_cant": "All account substitutions and fee configurations.", "anchors": ["programs/presale/src/instructions/process_deposit.rs"]}
{"id": "C39", "title": "Deposits are accepted whenever there is room", "statement": "While a prorata or FCFS presale is ongoing, a deposit that is positive, within the escrow's remaining quota (and the cap in FCFS), reaches the buyer minimum, and is covered by the payer's balance always succeeds and credits the full requested amount.", "quantifier": "every reachable state", "why_tests_cant": "Requires absence of arithmetic failure in all reachable states.", "anchors": ["programs/presale/src/instructions/process_deposit.rs"]}
{"id": "C40", "title": "Emitted events tell the truth", "statement": "Every accepted instruction that emits an event reports exactly the amounts, addresses and totals of that transaction (amount received net of transfer fee; totals after the update).", "quantifier": "every accepted instruction", "why_tests_cant": "All inputs.", "anchors": ["programs/presale/src/events.rs", "programs/presale/src/instructions/process_deposit.rs", "programs/presale/src/instructions/process_claim.rs", "programs/presale/src/instructions/initialize_presale/process_initialize_presale.rs"]}
{"id": "C41", "title": "Sold plus unsold equals supply", "statement": "In a completed presale, the sum over registries of tokens sold plus the unsold amount equals the supply; a dynamic-price registry with any deposit sells its whole supply and one without sells nothing; a fixed-price registry sells what its deposits buy, capped at its supply.", "quantifier": "every reachable completed presale", "why_tests_cant": "All registry configurations.", "anchors": ["programs/presale/src/presale_mode_handler/mod.rs", "programs/presale/src/presale_mode_handler/fixed_price_presale.rs: get_total_base_token_sold", "programs/presale/src/state/presale.rs: get_total_unsold_token"]}
{"id": "C42", "title": "Can a permitted fixed-price presale always reach its minimum cap?", "statement": "A fixed-price configuration accepted by initialize_presale (which checks for a gap between minimum and maximum cap) can always still reach the minimum cap while quota remains.", "quantifier": "all accepted fixed-price configurations and deposit histories", "why_tests_cant": "Depends on adversarial small deposits and rounding.", "anchors": ["programs/presale/src/presale_mode_handler/fixed_price_presale.rs: ensure_gap_between_min_and_max_presale_cap"]}
{"id": "C43", "title": "Can an accepted fixed-price presale always take a deposit?", "statement": "Every fixed-price configuration accepted by initialize_presale lets a first buyer deposit at least the buyer minimum.", "quantifier": "all accepted fixed-price configurations", "why_tests_cant": "Extreme but accepted price/supply combinations.", "anchors": ["programs/presale/src/presale_mode_handler/fixed_price_presale.rs: get_remaining_deposit_quota"]}
{"id": "C44", "title": "Unknown unsold-token actions are rejected", "statement": "initialize_presale rejects an unsold_token_action that is neither refund nor burn (it has an error code for it).", "quantifier": "all byte values", "why_tests_cant": "256 values, but no test covers the invalid ones; depends on a derive macro's default arm.", "anchors": ["programs/presale/src/instructions/initialize_presale/params.rs: PresaleArgs::validate", "programs/presale/src/state/presale.rs: UnsoldTokenAction"]}
{"id": "C45", "title": "Who sets the fixed price", "statement": "The price and withdraw flag of a fixed-price presale are the ones supplied by the party creating the presale.", "quantifier": "all histories before creation", "why_tests_cant": "Front-running schedules.", "anchors": ["programs/presale/src/instructions/process_initialize_extra_presale_params.rs"]}
{"id": "C46", "title": "Fixed price: buyers get what they paid for", "statement": "A fixed-price buyer who claims everything receives the number of tokens their deposit buys at the configured price.", "quantifier": "all histories", "why_tests_cant": "Rounding of the two-part release and of the shared pool.", "anchors": ["programs/presale/src/presale_mode_handler/fixed_price_presale.rs: get_escrow_cumulative_claimable_token"]}
{"id": "C47", "title": "No panic paths", "statement": "Apart from closing an escrow before the presale starts, no instruction on a reachable state reaches an unreachable!/panic branch of the program.", "quantifier": "every instruction from every reachable state", "why_tests_cant": "Absence over all inputs.", "anchors": ["programs/presale/src/presale_mode_handler/fcfs_presale.rs: process_withdraw", "programs/presale/src/token2022.rs: calculate_transfer_fee_included_amount", "programs/presale/src/instructions/process_close_escrow.rs"]}
{"id": "C48", "title": "One escrow per buyer and registry", "statement": "At any time there is at most one escrow for a given presale, owner and registry, it lives at the address derived from them, and its registry index is below the presale's registry count.", "quantifier": "every reachable state", "why_tests_cant": "Invariant over histories with closing and re-creation.", "anchors": ["programs/presale/src/instructions/create_escrow/"]}
{"id": "C49", "title": "Token supply is conserved", "statement": "No presale instruction creates tokens: for each mint, the sum of all balances plus withheld transfer fees changes only by the burn of unsold tokens, and the supply changes by exactly that burn.", "quantifier": "every presale instruction from every state", "why_tests_cant": "All instructions, all account aliasing (including transfers to the same account).", "anchors": ["programs/presale/src/token2022.rs", "programs/presale/src/instructions/process_perform_unsold_base_token_action.rs"]}
{"id": "C50", "title": "Merkle roots and metadata are controlled by the presale owner", "statement": "Merkle root configs and server metadata of a presale are created and closed only with the presale owner's signature; roots are published only for merkle presales that have not ended and never closed while it is ongoing; a published root never changes while its config exists.", "quantifier": "every step", "why_tests_cant": "All instructions and account substitutions.", "anchors": ["programs/presale/src/instructions/process_create_merkle_root_config.rs", "programs/presale/src/instructions/process_close_merkle_root_config.rs", "programs/presale/src/instructions/process_create_permissioned_server_metadata.rs", "programs/presale/src/instructions/process_close_merkle_proof_metadata.rs"]}
{"id": "C51", "title": "Presale-level ledger", "statement": "Over any history, the tokens the program moved into and out of the two vaults of a presale, by category (funding, deposits, withdrawals, refunds, claims, creator withdrawal, collected fees, unsold), equal the amounts recorded in the presale account; payments out never exceed payments in, and the vaults hold at least the difference, which covers everything still owed.", "quantifier": "every history from genesis, every presale", "why_tests_cant": "Sums over whole histories with any interleaving of all instructions and third-party token transfers.", "anchors": ["programs/presale/src/state/presale.rs", "programs/presale/src/token2022.rs", "programs/presale/src/instructions/"]}
{"id": "C52", "title": "Nothing is lost except rounding dust", "statement": "After the end of a presale, everything paid in has been paid out or is still owed: exactly on the quote side of a failed presale, up to one unit per registry, buyer and fee payer on the quote side of a successful one, and up to two units per buyer on the base side. Closing escrows never loses a buyer's tokens.", "quantifier": "every history from genesis, every presale that ended", "why_tests_cant": "Rounding dust summed over any number of buyers and any order of claims, refunds and closings.", "anchors": ["programs/presale/src/state/presale_registry.rs", "programs/presale/src/state/escrow.rs", "programs/presale/src/instructions/process_close_escrow.rs"]}
{"id": "C53", "title": "Withdrawals before the end are honoured", "statement": "While a presale is open and withdrawals are enabled, an escrow's owner can take back any amount that leaves nothing or at least the registry's minimum; exactly that amount moves from the quote vault to them and their recorded deposit falls by it, while the deposit fee already charged stays.", "quantifier": "every reachable state, every escrow, every amount", "why_tests_cant": "Liveness over all histories of deposits and withdrawals with arbitrary registries, prices and mints.", "anchors": ["programs/presale/src/instructions/process_withdraw.rs", "programs/presale/src/presale_mode_handler/fixed_price_presale.rs"]}
{"id": "C54", "title": "Events name the owner of the escrow", "statement": "In every event that carries an escrow and an owner, the owner is the owner recorded in that escrow.", "quantifier": "every reachable state, every accepted instruction, every emitted event", "why_tests_cant": "Needs every emitter in every reachable state, including instructions sent by somebody other than the owner; indexers rely on it and no test compares the two fields.", "anchors": ["programs/presale/src/events.rs", "programs/presale/src/instructions/process_deposit.rs"]}
{"id": "C55", "title": "The announced start is the stored start", "statement": "The start time in the event of a new presale is the start time stored in the presale.", "quantifier": "every reachable state, every accepted initialisation", "why_tests_cant": "The stored value is clamped to the clock; only requests whose start lies in the past separate the two, over all clock values and parameters.", "anchors": ["programs/presale/src/instructions/initialize_presale", "programs/presale/src/events.rs", "programs/presale/src/state/presale.rs"]}
{"id": "C56", "title": "No whitelist entry is lost", "statement": "Every entry of the list given to the off-chain tree builder has a place (owner and registry) in the tree.", "quantifier": "every list of entries", "why_tests_cant": "Depends on owners that occur several times anywhere in an arbitrarily long list.", "anchors": ["merkle-tree/src/config_merkle_tree.rs:51-60"]}
{"id": "C57", "title": "An escrow can be closed exactly when nothing is left in it", "statement": "close_escrow by the owner is accepted exactly when: the presale is open and the escrow has neither deposit nor fee; or it failed and the escrow was refunded or is empty; or it completed, the whole final entitlement has been claimed and the refund was taken or is zero.", "quantifier": "every reachable state, every escrow", "why_tests_cant": "The condition mixes the phase, two rounding levels of the refund and the full vesting entitlement; an over-strict check only shows for particular roundings.", "anchors": ["programs/presale/src/instructions/process_close_escrow.rs:5-128"]}
{"id": "C58", "title": "Nobody is locked in", "statement": "After failure an unrefunded owner can refund and then close. After completion and the vesting end an owner can (in prorata mode first refund,) claim and then close; each step is accepted and pays exactly what is owed.", "quantifier": "every reachable state after the end, every escrow, every behaviour of the others before", "why_tests_cant": "A composition of liveness statements over arbitrary earlier histories.", "anchors": ["programs/presale/src/instructions/process_withdraw_remaining_quote.rs", "programs/presale/src/instructions/process_claim.rs", "programs/presale/src/instructions/process_close_escrow.rs"]}
{"id": "C59", "title": "A prorata buyer pays their share of the cap", "statement": "In an oversubscribed presale with deposits D and cap M, a buyer with deposit d pays d*M/D rounded up by less than two units; the refunded part of the deposit fee is at most the proportion (D-M)/D; buyers pay in proportion to their deposits up to rounding, across registries.", "quantifier": "every reachable state, all pairs of escrows", "why_tests_cant": "Two-level rounding through registries; errors of one unit depend on divisibility of large products.", "anchors": ["programs/presale/src/state/presale.rs", "programs/presale/src/presale_mode_handler/prorata_presale.rs"]}
{"id": "C60", "title": "After the end, what an escrow is owed is independent of what happens", "statement": "Once a presale has ended, the deposit, fee, entitlement at each time, final entitlement and refund of an open escrow are the same in all later states, whatever anybody does in between; refunds and cumulative claims in two different futures are equal.", "quantifier": "every reachable state after the end, all pairs of continuations", "why_tests_cant": "Quantifies over pairs of histories.", "anchors": ["programs/presale/src/state/presale.rs", "programs/presale/src/state/escrow.rs"]}
{"id": "C61", "title": "Whoever is admitted gets an escrow", "statement": "While the presale is open, in a permissionless presale anybody can create the escrow of any owner without one; in an authority presale an operator of the owner can create it for any registry and any cap within the registry's limits.", "quantifier": "every reachable state, owner, payer, registry, cap", "why_tests_cant": "Over-restrictive checks only show for particular states and parameters.", "anchors": ["programs/presale/src/instructions/create_escrow"]}
{"id": "C62", "title": "Anybody can refresh any escrow at any time, harmlessly", "statement": "refresh_escrow is always accepted; before completion it changes nothing, afterwards it only sets the pending amount to the entitlement minus the claimed amount and the refresh time.", "quantifier": "every reachable state, every escrow", "why_tests_cant": "A failure would need an arithmetic error or overflow in some reachable combination of schedule and deposits.", "anchors": ["programs/presale/src/instructions/process_refresh_escrow.rs"]}
{"id": "C63", "title": "The owner's controls are accepted exactly when allowed", "statement": "Creating and revoking operators, publishing and closing merkle roots, creating and closing server metadata and creating and closing fixed-price arguments are accepted exactly under their documented conditions (signer, ownership, phase, whitelist mode, free address).", "quantifier": "every reachable state, every caller and argument", "why_tests_cant": "Both directions for every state and argument; tests cover single cases.", "anchors": ["programs/presale/src/instructions/process_create_operator.rs", "programs/presale/src/instructions/process_revoke_operator.rs", "programs/presale/src/instructions/process_create_merkle_root_config.rs", "programs/presale/src/instructions/process_close_merkle_root_config.rs"]}
{"id": "C64", "title": "An open first come first served presale below its minimum can always still reach it", "statement": "While an FCFS presale is open and below its minimum cap, some further deposit is accepted. (False in general: if the gap between minimum and maximum cap is smaller than the smallest first deposit of every registry, full escrows can leave a rest that no new buyer may deposit, although another order of buyers would have succeeded.)", "quantifier": "every reachable state with a gap of at least the largest registry minimum; refutation by one accepted history and all its futures", "why_tests_cant": "The failing combination needs a particular split of deposits and quantifies over every possible future.", "anchors": ["programs/presale/src/presale_mode_handler/fcfs_presale.rs", "programs/presale/src/state/presale.rs"]}
{"id": "C65", "title": "Transactions are all or nothing and reach the same states", "statement": "A transaction (a list of instructions) either applies all its instructions or changes nothing; the states reachable by transactions are exactly those reachable by single instructions, and every future by transactions is a future by instructions, so every theorem about reachable states and futures holds for grouped instructions.", "quantifier": "all lists of transactions, all states", "why_tests_cant": "Quantifies over all groupings of all histories.", "anchors": ["programs/presale/src/lib.rs"]}
{"id": "C66", "title": "Distinct accounts of the program have distinct keys", "statement": "Deriving the 32 byte keys of presales, vaults, escrows, merkle configs, operators, server metadata, the authority and associated token accounts from the seeds in the code gives different keys for different accounts, and never the key of a wallet, unless two different strings actually hashed by the derivations have the same hash.", "quantifier": "all pairs of addresses, all hash functions and curves", "why_tests_cant": "Seed ambiguity (two seed lists with the same concatenation) must be excluded for all field values.", "anchors": ["programs/presale/src/constants.rs", "programs/presale/src/instructions"]}
{"id": "C67", "title": "Splitting a deposit over several escrows never pays", "statement": "For one registry and fixed totals, the sum of entitlements (at any time), of final tokens, of refunds and of fee refunds of the parts is at most that of the whole, and the loss is at most a few units per part; the payments for the parts are at least the payment for the whole.", "quantifier": "all reachable presales, all lists of deposits, all times", "why_tests_cant": "All splittings of all amounts under nested floor and ceiling divisions.", "anchors": ["programs/presale/src/state/presale.rs", "programs/presale/src/state/escrow.rs", "programs/presale/src/math"]}
{"id": "C68", "title": "Depositing and withdrawing leaves only the fee behind", "statement": "A deposit followed by a withdrawal that restores the escrow's deposit restores every total, registry, other escrow and the timing, except for the deposit fee, which is recorded in escrow, registry and presale by the same amount.", "quantifier": "every reachable state, all accounts, amounts and modes", "why_tests_cant": "Every state and amount in every mode.", "anchors": ["programs/presale/src/instructions/process_deposit.rs", "programs/presale/src/instructions/process_withdraw.rs"]}
{"id": "C69", "title": "Every finished presale can be wound down completely", "statement": "After the end (and vesting, if it succeeded) there is a list of accepted instructions, sent by the escrow owners and the creator only and paid into their own accounts, after which no escrow is left, the creator has withdrawn and nothing is owed; what remains in the vaults of the deposited and funded tokens is zero for a failed presale and rounding dust bounded by the number of registries and buyers for a successful one.", "quantifier": "every reachable state after the end whose participants can receive tokens; any number of escrows", "why_tests_cant": "Arbitrarily many escrows in an arbitrary state; existence of a complete exit sequence.", "anchors": ["programs/presale/src/instructions/process_claim.rs", "programs/presale/src/instructions/process_withdraw_remaining_quote.rs", "programs/presale/src/instructions/process_close_escrow.rs", "programs/presale/src/instructions/process_creator_withdraw.rs", "programs/presale/src/instructions/process_creator_collect_fee.rs", "programs/presale/src/instructions/process_perform_unsold_base_token_action.rs"]}
{"id": "C70", "title": "Every stored value fits its field", "statement": "In every reachable state all numeric fields of presales, registries, escrows, merkle configs and fixed price arguments lie within the integer type of their Rust field, a presale has exactly five registries and a root has 32 bytes, although the model computes over unbounded integers.", "quantifier": "every reachable state, every account, every field", "why_tests_cant": "Overflow of any one field along any history must be excluded.", "anchors": ["programs/presale/src/state/presale.rs", "programs/presale/src/state/escrow.rs", "programs/presale/src/state/merkle_root_config.rs", "programs/presale/src/state/fixed_price_presale_params.rs"]}
{"id": "C71", "title": "Accounts survive storage as bytes", "statement": "The six typed account maps are exactly what loading from one store of byte strings gives: every account of every reachable state, written with its discriminator and zero copy layout (or Borsh for the server metadata), is read back unchanged at its address and at no other type, has the allocated size and consists of bytes. The layouts have no gaps, the sizes are those asserted in the code, and reading and writing the mode data through the reinterpreted u128 area agrees with the arithmetic of the model.", "quantifier": "every reachable state and address, all key encodings injective on the stored keys", "why_tests_cant": "All values of all fields, at every offset.", "anchors": ["programs/presale/src/state", "programs/presale/src/presale_mode_handler/mod.rs", "programs/presale/src/presale_mode_handler/fixed_price_presale.rs", "programs/presale/src/presale_mode_handler/fcfs_presale.rs"]}
{"id": "C72", "title": "An account is never read as another type", "statement": "The 8 byte discriminators (SHA-256 of the type names) are pairwise different and not zero, so data of one account type is never accepted as another type and a freshly allocated account as none.", "quantifier": "all byte strings, all pairs of types", "why_tests_cant": "All byte strings.", "anchors": ["programs/presale/src/state"]}
{"id": "C73", "title": "Instruction data means one instruction", "statement": "The 21 instruction discriminators are pairwise different and differ from the event and IDL tags; every instruction with arguments in their Rust types is encoded to bytes and decoded back exactly, whatever follows; data that decodes is the encoding of what it decodes to; and no two instructions share an encoding, not even as a prefix.", "quantifier": "all byte strings, all instructions and arguments", "why_tests_cant": "All byte strings of any length.", "anchors": ["programs/presale/src/lib.rs", "programs/presale/src/instructions", "programs/presale/src/token2022.rs"]}
{"id": "C74", "title": "The entry point and the state machine agree", "statement": "Calls (account metas and instruction data) and the operations of the model are the same: a call that passes the entry point is an instruction carrying the signer and writable flags of its context struct; every operation a client can express is reached by the call a client sends; histories of calls reach only reachable states and cover all histories of expressible operations; a call that decodes is never rejected by the argument range checks of the model, and every accepted operation within the sizes of Borsh can be sent.", "quantifier": "all calls, all operations, all states, all histories", "why_tests_cant": "All account lists and byte strings.", "anchors": ["programs/presale/src/lib.rs", "programs/presale/src/instructions"]}
{"id": "C75", "title": "Accounts change only if passed as writable, value leaves only with a signature", "statement": "An accepted call changes no account that was not passed to it as writable; vault balances fall and escrows lose value only if the presale's owner or an escrow's owner is flagged as signer (unsold base tokens excepted); and a presale appears only at the address of its three keys with the signature of the base key, so nobody can occupy another's address.", "quantifier": "all calls in all reachable states", "why_tests_cant": "All instructions, accounts and states.", "anchors": ["programs/presale/src/instructions"]}
{"id": "C76", "title": "Memo and CPI guard switches of users cannot block or change a payout", "statement": "Owners of Token-2022 accounts can demand a memo on incoming transfers and forbid programs to spend for them. The vaults never carry either switch. Whatever switches users set on their accounts, every instruction gives the same verdict, the same error, the same effects and the same accounts afterwards (the program sends a memo exactly where one is demanded), with one exception: funding or depositing from an account whose owner guards it is rejected.", "quantifier": "all reachable states, all assignments of the switches to all accounts, all instructions and arguments", "why_tests_cant": "All assignments of switches to all accounts.", "anchors": ["programs/presale/src/token2022.rs:230-405", "programs/presale/src/instructions"]}
{"id": "C77", "title": "Rent is paid by the signing payer, kept while the account lives and paid out on closing", "statement": "Every account of the program and every vault is rent exempt in every reachable state. Instructions neither create nor destroy lamports. Creating accounts costs the signing payer exactly what is missing at the new addresses and nobody else anything; closing empties the account to the receiver named by whoever decides about it; in no other way do lamports leave an address. An instruction that the program accepts fails for lack of lamports exactly if its payer holds less than the price or is not a system account; lamports sent in advance to any address can neither block an instruction nor raise its price. The rent of a presale and its vaults is never returned.", "quantifier": "all histories of instructions, lamport transfers, fees and rewards from any initial balances; all rent rates; all mints", "why_tests_cant": "All balances of all addresses along all histories.", "anchors": ["programs/presale/src/instructions/initialize_presale/process_initialize_presale.rs:16-63", "programs/presale/src/instructions/create_escrow", "programs/presale/src/instructions/process_close_escrow.rs:8-22", "programs/presale/src/instructions/process_close_merkle_root_config.rs", "programs/presale/src/instructions/process_close_merkle_proof_metadata.rs"]}
{"id": "C78", "title": "Rent goes back to whoever paid it", "statement": "Whoever paid for an account gets the lamports back when it is closed.", "quantifier": "all accounts created and closed in reachable states", "why_tests_cant": "All histories and payers.", "anchors": ["programs/presale/src/instructions/process_close_escrow.rs:8-22", "programs/presale/src/instructions/create_escrow/process_create_permissionless_escrow.rs:14-25"]}
{"id": "C79", "title": "Without freeze, fee and hook authorities nobody can block or shorten a payout", "statement": "If a mint of a presale has no freeze authority, no transfer fee and no transfer hook extension (or belongs to the original token program and has no freeze authority), it stays so and the vault is never frozen; whatever anybody does afterwards, every payout that is due from that vault (claims, refunds after failure, prorata refunds, the raise, the returned supply, the fees) is accepted when its owner asks for it, with no extra accounts, to any unfrozen account of the mint, and arrives in full. The condition cannot be dropped, although the program admits all these mints: a freeze authority can stop everything, a fee authority can take the whole of every claim, a hook authority can make claims depend on its program.", "quantifier": "all reachable states with a presale, all later histories by all parties, all destinations", "why_tests_cant": "All continuations by all parties including mint authorities.", "anchors": ["programs/presale/src/token2022.rs:18-50", "programs/presale/src/token2022.rs:271-405", "programs/presale/src/instructions/process_claim.rs", "programs/presale/src/instructions/process_withdraw_remaining_quote.rs", "programs/presale/src/instructions/process_creator_withdraw.rs", "programs/presale/src/instructions/process_creator_collect_fee.rs"]}
{"id": "C80", "title": "Suggested fixed price deposits never fail, never exceed the offer and can complete the cap", "statement": "The amount taken for a fixed price offer (calculate_quote_token_without_surplus) is defined for every positive price, at most the offer, buys as many tokens, and taking it again changes nothing; the amounts taken unchanged are exactly the costs of a number of tokens. Depositing one lamport less than the reachable cap and then the rest either reaches the cap or the rest is refused as buying nothing, which only happens at prices above one. With the smallest gap between the caps that is let through, depositing the minimum is taken unchanged and what follows stays below the maximum. These are the repository's proptests, for all inputs.", "quantifier": "all prices in 1..u64max*2^64, all amounts, caps and supplies", "why_tests_cant": "The repository's proptests draw a few hundred prices uniformly from a 128 bit range.", "anchors": ["programs/presale/src/presale_mode_handler/fixed_price_presale.rs:10-73", "programs/presale/src/presale_mode_handler/fixed_price_presale.rs:425-512"]}
{"id": "C81", "title": "The cost of the supply, as a maximum cap, sells exactly the supply", "statement": "The repository's proptest claims that the cap computed as the cost of the supply (rounded up) buys exactly the supply. It does at prices of at least one quote lamport per token, and in general exactly if the supply costs less than one token more. Otherwise the cap is rejected at creation, and every cap that is accepted leaves part of the supply unsold.", "quantifier": "all prices, all supplies whose cost fits u64", "why_tests_cant": "The property test draws prices uniformly from a 128 bit range and practically never gets one below one.", "anchors": ["programs/presale/src/presale_mode_handler/fixed_price_presale.rs:28-40", "programs/presale/src/presale_mode_handler/fixed_price_presale.rs:434-485"]}
{"id": "C82", "title": "The events alone determine the books", "statement": "Reading only the emitted events, in order, a reader reconstructs for every presale the total deposit, fee, claims, refunds and number of escrows and whether the creator withdrew, the fees were collected and the unsold tokens were settled; and for every escrow its deposit, fee, claimed and pending amounts and whether it was refunded. About accounts that do not exist nothing is announced.", "quantifier": "every history of operations from the empty chain, every presale and escrow", "why_tests_cant": "Tests look at the events of single calls, if at all.", "anchors": ["programs/presale/src/events.rs:1-152", "programs/presale/src/instructions"]}
{"id": "C83", "title": "The events identify what they are about", "statement": "Every event but one names the presale its instruction was given. The event of a presale's creation names the mints and not the presale, and the event of an escrow's creation does not say in which registry the buyer is.", "quantifier": "every accepted instruction in every reachable state", "why_tests_cant": "No test compares the events of two different histories.", "anchors": ["programs/presale/src/events.rs:3-40", "programs/presale/src/instructions/initialize_presale/process_initialize_presale.rs", "programs/presale/src/instructions/create_escrow"]}
{"id": "C84", "title": "A presale that has reached its minimum succeeds", "statement": "Without withdrawals (first come first served, or a fixed price with withdrawals disabled) deposits only grow, so a presale that has reached its minimum cannot fail. In any presale only withdrawals signed by the owners of escrows can reduce its deposit. A presale that ends early when full is over and successful from the moment its maximum is reached, whatever happens later.", "quantifier": "every reachable state and every continuation", "why_tests_cant": "Quantifies over all continuations.", "anchors": ["programs/presale/src/state/presale.rs", "programs/presale/src/instructions/process_withdraw.rs", "programs/presale/src/instructions/process_deposit.rs"]}
{"id": "C85", "title": "Every presale is decided after 60 days and fully released ten years later", "statement": "Sixty days after its creation every presale has succeeded or failed. Ten years after that every buyer is entitled to all they bought, whatever the lock and vesting terms.", "quantifier": "every reachable state", "why_tests_cant": "Needs the limits of the parameters and the schedule together, over every history.", "anchors": ["programs/presale/src/constants.rs", "programs/presale/src/instructions/initialize_presale/params.rs", "programs/presale/src/state/presale.rs"]}
{"id": "C86", "title": "Events as bytes are unambiguous and determine the books", "statement": "The data of an event call (emit_cpi) is the event tag, the 8 byte discriminator of the struct and its fields. Discriminators differ, decoding inverts encoding and accepts nothing else, no event call is an instruction call. Every event emitted from a reachable state fits the field types of its struct, so no amount is cut. The data of an event call belongs to one event unless two addresses have the same bytes; two histories with the same event data have the same books.", "quantifier": "all events, all byte strings, every reachable state and history", "why_tests_cant": "Tests do not decode events.", "anchors": ["programs/presale/src/events.rs:1-152", "programs/presale/src/instructions/initialize_presale/process_initialize_presale.rs:153-172"]}
{"id": "C87", "title": "A token never costs more than the cap spread over the supply", "statement": "In a prorata or first come first served presale, what a buyer finally pays (deposit less refunded share) per token received is at most maximum cap / supply of the registry, up to two units of each token; while the cap is not exceeded, and in FCFS always, nothing of the deposit comes back and only the tokens are rounded.", "quantifier": "every reachable state, every escrow with a deposit, any number of buyers and registries", "why_tests_cant": "Tests check the numbers of one presale; the bound combines two roundings of the refund and two of the tokens.", "anchors": ["programs/presale/src/state/presale.rs", "programs/presale/src/state/presale_registry.rs", "programs/presale/src/presale_mode_handler/prorata_presale.rs", "programs/presale/src/presale_mode_handler/fcfs_presale.rs"]}
{"id": "C88", "title": "Registries are isolated and dilution is proportional", "statement": "An instruction that is not about an escrow of a registry leaves the registry and the tokens due to any deposit in it unchanged, over any course of events. A deposit by somebody else into the same registry of a presale without fixed price shrinks what the other escrows get by R / (R + amount), up to two units, and never increases it.", "quantifier": "every reachable state and history, every registry, every instruction", "why_tests_cant": "Tests use few registries and do not compare shares before and after somebody else's instruction.", "anchors": ["programs/presale/src/state/presale.rs", "programs/presale/src/state/presale_registry.rs", "programs/presale/src/instructions/process_deposit.rs"]}
{"id": "C89", "title": "The deposit fee cannot be avoided", "statement": "At any time the fees paid for an escrow cover the rate of its registry on what the escrow holds, however deposits were split and withdrawn; one deposit of the same amount would not have cost more. The fees kept in a registry after all refunds cover the rate on the deposits kept.", "quantifier": "every reachable state, every escrow and registry", "why_tests_cant": "Needs an invariant over all sequences of deposits and withdrawals.", "anchors": ["programs/presale/src/instructions/process_deposit.rs", "programs/presale/src/math/fee_math.rs", "programs/presale/src/state/presale.rs", "programs/presale/src/state/presale_registry.rs"]}
{"id": "C90", "title": "In a prorata presale the order of buyers does not matter", "statement": "What an escrow holds follows from the accepted openings, deposits, withdrawals and closings of that escrow alone. Two histories in which every escrow has the same accepted dealings, in any order relative to the others and with anything else in between, give the same deposits, tokens and refunds for everybody.", "quantifier": "every reachable state, all pairs of histories that end before the end of the presale", "why_tests_cant": "Tests run one order.", "anchors": ["programs/presale/src/instructions/process_deposit.rs", "programs/presale/src/instructions/process_withdraw.rs", "programs/presale/src/presale_mode_handler/prorata_presale.rs"]}
{"id": "C91", "title": "More in, more out", "statement": "In every mode an accepted deposit never lowers the tokens the escrow finally gets, and never lowers by more than one unit what is finally paid for it; an accepted withdrawal never raises the tokens.", "quantifier": "every reachable state, every accepted deposit and withdrawal, all modes", "why_tests_cant": "The totals of the registry and of the presale change together with the escrow, and four divisions round down; tests compare no two states.", "anchors": ["programs/presale/src/instructions/process_deposit.rs", "programs/presale/src/instructions/process_withdraw.rs", "programs/presale/src/state/presale_registry.rs", "programs/presale/src/math/claim_math.rs"]}
{"id": "C92", "title": "Sending an accepted call twice does nothing more", "statement": "An accepted instruction that is sent again at once changes nothing, unless it is a deposit or a withdrawal. Only claims and refreshes are accepted again, and then they move no token and leave the whole state as it was; every other instruction is rejected the second time.", "quantifier": "every reachable state, every instruction except deposit and withdraw", "why_tests_cant": "Retries of all twenty-odd instructions from all states cannot be enumerated.", "anchors": ["programs/presale/src/instructions/process_claim.rs", "programs/presale/src/instructions/process_withdraw_remaining_quote.rs", "programs/presale/src/instructions/process_refresh_escrow.rs", "programs/presale/src/instructions/process_creator_withdraw.rs", "programs/presale/src/instructions/process_creator_collect_fee.rs"]}
{"id": "C93", "title": "No bank run: payouts do not compete", "statement": "Any set of due payouts of any presales (claims, refunds, the creator's proceeds or returned supply, fees, unsold tokens), at most one of each kind per escrow or presale, is accepted in every order, every order leads to the same ledger, and each payout changes every balance by exactly what it would change it alone.", "quantifier": "every reachable state, every list of due payouts and every permutation of it", "why_tests_cant": "The number of orders grows with the factorial of the number of participants.", "anchors": ["programs/presale/src/instructions/process_claim.rs", "programs/presale/src/instructions/process_withdraw_remaining_quote.rs", "programs/presale/src/instructions/process_creator_withdraw.rs", "programs/presale/src/instructions/process_creator_collect_fee.rs", "programs/presale/src/instructions/process_perform_unsold_base_token_action.rs"]}
{"id": "C94", "title": "What a signed deposit or withdrawal can do is fixed when it is signed", "statement": "Whatever happens between the signing and the execution of a deposit, it deposits at most the signed maximum, deposit and fee together are at most what the fee rate at signing makes of that maximum, at a fixed price it buys at the price at signing, and only the named account pays, only the vault receives and only that escrow is credited; the token program's own transfer fee is the only thing that can come on top, and it cannot if the mint had none at signing. A withdrawal likewise returns at most what was asked for, to the named account, from the signer's escrow.", "quantifier": "every reachable state at signing, every later history, every argument of the instruction", "why_tests_cant": "Needs all histories between signing and execution.", "anchors": ["programs/presale/src/instructions/process_deposit.rs", "programs/presale/src/instructions/process_withdraw.rs", "programs/presale/src/state/presale_registry.rs", "programs/presale/src/math/fee_math.rs"]}
{"id": "C95", "title": "A transfer hook that moves tokens during an instruction changes nothing else", "statement": "Every accepted instruction calls a token program at most once and otherwise only writes the program's own accounts; writing them before the call (as the handlers do) or after it (as the model does) is the same, and whatever a transfer hook does with tokens, mints and delegations during that call leads to the state it would lead to if done after the instruction, which is a reachable one.", "quantifier": "every reachable state, every accepted instruction, every sequence of token operations of the hook", "why_tests_cant": "A hook is an arbitrary program of a third party.", "anchors": ["programs/presale/src/token2022.rs:271-405", "programs/presale/src/instructions/process_claim.rs", "programs/presale/src/instructions/process_deposit.rs", "programs/presale/src/instructions/process_withdraw.rs", "programs/presale/src/instructions/process_creator_withdraw.rs"]}
{"id": "C96", "title": "Transfer fees change at two epochs' notice", "statement": "With the older/newer fee schedule of Token-2022 every history is a history of the model with freely changing fees, the fee read by the program and charged by the token program is the one of the epoch, and for the mints of a presale the fee is unchanged within an epoch and in the next epoch is either the same or what was already scheduled; a deposit signed in one epoch and executed in it or the next therefore costs an amount known when signing.", "quantifier": "every reachable state with schedules, every later history", "why_tests_cant": "Schedules interleave with arbitrary histories over several epochs.", "anchors": ["programs/presale/src/token2022.rs:58-157"]}
{"id": "C97", "title": "First come first served: order matters only when sold out", "statement": "In a first come first served presale that is not sold out, what each escrow holds follows from the dealings with it alone and the order of buyers changes neither the books nor anybody's tokens; when it sells out the order decides (refuted otherwise), and a deposit sent later is never credited with more than the same deposit sent earlier.", "quantifier": "every reachable first come first served presale, every two histories with the same dealings per escrow", "why_tests_cant": "Interleavings of arbitrary histories.", "anchors": ["programs/presale/src/presale_mode_handler/fcfs_presale.rs", "programs/presale/src/instructions/process_deposit.rs"]}
{"id": "C98", "title": "The program signs only as its vault authority", "statement": "The seeds the program signs with derive exactly the vault authority, calls that move a user's tokens carry no signature beyond those of the instruction, and every account of the program can be created with its own seeds and bump; no other account of the program and no wallet can be signed for, unless two derivations hash to the same address.", "quantifier": "every hash function, curve test and set of keys", "why_tests_cant": "Needs all keys and all collisions.", "anchors": ["programs/presale/src/macros.rs", "programs/presale/src/const_pda.rs", "programs/presale/src/token2022.rs:331-402", "programs/presale/src/instructions/process_perform_unsold_base_token_action.rs:73-84"]}
{"id": "C99", "title": "Calls depend only on the accounts passed to them, and calls that do not collide commute", "statement": "Whether a call is accepted, which error it gives, and every transfer, event and account change it makes depend on nothing but the accounts listed in the call and the clock. Two calls such that neither lists what the other may write do not affect each other, and any number of such calls give the same ledger in every order, so the runtime may execute them in parallel.", "quantifier": "every ledger, every call and every list of calls that are pairwise apart", "why_tests_cant": "Needs all pairs of ledgers that differ somewhere else, and all interleavings.", "anchors": ["programs/presale/src/lib.rs", "programs/presale/src/instructions/process_deposit.rs", "programs/presale/src/instructions/process_creator_withdraw.rs:34-99", "programs/presale/src/instructions/initialize_presale/process_initialize_presale.rs"]}
{"id": "C100", "title": "Unsold tokens of a successful presale can always be burned or returned as chosen", "statement": "Once a presale has succeeded with tokens left over, the action the creator chose for them can be performed. This fails in one case: a presale may sell wrapped SOL and choose to burn, but token programs do not burn native tokens, so that the action is never accepted and the unsold tokens stay in the base vault for ever, whatever anybody does. In every other case the call is accepted.", "quantifier": "every reachable state, every presale and every later history", "why_tests_cant": "The failure is the absence of any history that succeeds; the tests never sell the native mint.", "anchors": ["programs/presale/src/instructions/process_perform_unsold_base_token_action.rs:70-108", "programs/presale/src/token2022.rs:18-41", "programs/presale/src/instructions/initialize_presale/params.rs:185"]}
{"id": "C101", "title": "Transfer fees kept account by account give the same behaviour as a pool per mint", "statement": "With fees withheld in the receiving accounts, harvested to the mint by anybody and withdrawn by the fee authority as in Token-2022: the fees counted per mint are always the sum of those kept by the mint and its accounts, every history is one of the state machine, calls to the program are accepted as before, what is withheld can always be collected without touching any balance, and accounts can be closed after a harvest.", "quantifier": "every history of the refined machine, every mint and account", "why_tests_cant": "Needs all interleavings of transfers, harvests and withdrawals of fees.", "anchors": ["programs/presale/src/token2022.rs:148-215", "programs/presale/src/token2022.rs:18-41"]}
{"id": "C102", "title": "A presale plays by a page of rules", "statement": "Written without accounts, stored totals or instructions, a presale is a list of seats, each with what was paid, the fee on top, the tokens taken and whether money came back, and a handful of moves: join, pay in, pay out, take tokens, get money back, leave, and what the creator takes once each; totals are recomputed from the seats present and past. Every presale that the program ever holds is in a state of this game reached by legal moves from its opening, an accepted call is the move its name says and a call on another presale is none, the rules never change, and the tokens that the program ever moved in and out of the vaults are, category by category, the amounts of these moves.", "quantifier": "every history and every presale in it; every step from a reachable state", "why_tests_cant": "Relates all histories of the program to an independent description of presales; tests compare single outcomes.", "anchors": ["programs/presale/src/state/presale.rs:1-562", "programs/presale/src/state/escrow.rs:1-108", "programs/presale/src/instructions/process_deposit.rs:1-107", "programs/presale/src/instructions/process_claim.rs:1-107"]}
{"id": "C103", "title": "Every move that the rules allow can be played", "statement": "In every state of a presale that its rules (C102) describe, every move they allow \u2014 letting time pass, joining, paying in, paying out, taking tokens, getting money back, leaving, and what the creator takes \u2014 is open: some call is accepted, is that move with exactly that amount, and leads to the state the rules say. The call needs token accounts in order, a signature of whoever pays or receives, admission by the whitelist for joining, and at a fixed price that the price of the stock left fits in 64 bits (C43); burning what is left is not possible for wrapped SOL (C100).", "quantifier": "every reachable state, every presale, every legal move", "why_tests_cant": "With C102, the program and the rules agree in both directions; tests try a few calls in a few states.", "anchors": ["programs/presale/src/state/presale.rs:1-562", "programs/presale/src/state/escrow.rs:1-108", "programs/presale/src/instructions/process_deposit.rs:1-107", "programs/presale/src/instructions/process_claim.rs:1-107", "programs/presale/src/instructions/process_close_escrow.rs:1-128"]}
{"id": "C104", "title": "The rules of a presale never promise more than there is", "statement": "However a sale is played by the rules of C102, with any number of buyers, tiers and moves in any order: no move has a negative amount; while the sale is open the pot holds everything paid in and not taken back; once it is over the pot holds at least all refunds, proceeds and fees still owed; and the tokens given out and still owed never exceed the supply. The rules of every presale the program creates are among those covered, so over the whole history of a presale the deposits cover the payouts and what is still owed, and its funding covers the tokens.", "quantifier": "all well-formed rules, all sequences of moves; all reachable presales", "why_tests_cant": "Checks the design itself, apart from the program: rounding in shares of shares for any number of seats cannot be enumerated.", "anchors": ["programs/presale/src/state/presale.rs:411-556", "programs/presale/src/state/presale_registry.rs:99-123", "programs/presale/src/instructions/process_creator_withdraw.rs:102-205", "programs/presale/src/instructions/process_creator_collect_fee.rs:7-94"]}
{"id": "C105", "title": "Every sale can be brought to an end, with next to nothing left", "statement": "By the rules of C102, from wherever a sale has got to there are moves after which it is over, every seat has been given up, the creator has taken the proceeds or the supply back and, after a success, the fees and whatever was unsold. When a sale has ended like this, after a failure the pot is empty and the whole supply is back with the creator; after a success at most two units of money for each seat and one for each tier, and at most two tokens for each seat, are left by rounding. The same holds of the state of every presale of the program, whose moves C103 says can be played.", "quantifier": "all well-formed rules, all states of play; all reachable presales", "why_tests_cant": "Shows that the design has no dead ends and strands only rounding, for any number of seats and any order of moves.", "anchors": ["programs/presale/src/state/presale.rs:411-556", "programs/presale/src/state/presale_registry.rs:99-123", "programs/presale/src/instructions/process_close_escrow.rs:5-128", "programs/presale/src/instructions/process_withdraw_remaining_quote.rs:7-106", "programs/presale/src/instructions/process_claim.rs:8-107"]}
