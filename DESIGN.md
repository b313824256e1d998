# Formal model of the presale program

Rocq (Coq 8.16.1) development in `rocq/theories`. It models the Anchor program in
`/repo/programs/presale` and the off-chain tree builder in `/repo/merkle-tree`, function by
function, and proves the properties listed in `properties.jsonl`.

## Shape of the model

| file | what it models |
| --- | --- |
| `Base.v` | result monad, error codes, bounded integers, addresses (PDAs as an injective datatype), finite-map sums |
| `Math.v` | `math/*.rs` |
| `State.v` | account records and their methods (`state/*.rs`) |
| `Handlers.v` | `presale_mode_handler/*.rs` |
| `Token.v` | SPL Token / Token-2022 transfer, burn, fee; `token2022.rs` |
| `Instr.v` | every instruction: account constraints, signer checks, handler body, events |
| `Exec.v` | transactions, environment operations (clock, token program), histories |
| `Merkle.v` | `merkle-tree/src/*` and the on-chain `verify` |
| `Seeds.v` | seed strings, program addresses, associated token addresses and signer seeds as bytes |
| `Sha256.v` | SHA-256 (FIPS 180-4), used for the discriminators |
| `Layout.v` | account data as bytes: zero copy layouts, discriminators, loading and storing |
| `Borsh.v` | instruction data as bytes: Borsh, argument structs, instruction discriminators, dispatch |
| `EventWire.v` | events as bytes: discriminators, event structs, the data of an event call |
| `Entry.v` | the entry point: accounts with flags and data to an instruction of `Instr.v` |
| `Epoch.v` | Token-2022 transfer fee schedules over epochs, as a layer over `Exec.v` |
| `Spec.v` | specification vocabulary, written without the model's helpers |
| `Inv.v` … `Flow.v` | the invariant, its preservation, what each accepted instruction does |
| `Scenario.v` | concrete histories used by the examples beside the theorems |
| `Replay.v` | the repository's integration tests replayed in the model: 133 cases with the error number or the figures the test expects, with Token-2022 fees and hooks where the test uses them (validation of the model, not proofs). Not replayed: the test that expects Anchor's `ConstraintSeeds` (the model computes that address, see C74) |
| `P_*.v` | the property theorems, each followed by a concrete example |

An instruction is a total function `world -> ... -> res (world * list effect)`; an error leaves
the world unchanged (Solana transaction atomicity). The account addresses, signers, remaining
accounts, arguments and the transfer-hook verdict are chosen by the adversary (they are inputs of
the transaction); every Anchor constraint that the code relies on is an explicit check in the
model. A history is any finite list of transactions and environment operations starting from an
empty chain. Properties about "every reachable state" are proved by induction over histories.

## Plan per property

* C01, C02 vault solvency: an invariant over the whole world (per presale: configuration facts,
  totals = sums over escrows, lower bounds on both vault balances), preserved by every operation.
* C03-C08 liveness and exact amounts of payouts: consequences of the invariant plus a forward
  evaluation of the instruction; at-most-once over histories from monotone flags.
* C09, C10, C31, C48 state invariants: parts of the same invariant.
* C11-C17, C26, C27, C30, C32, C38, C40, C49, C50: inversion of every instruction (one-step
  theorems over arbitrary worlds or reachable ones), lifted to histories by induction where the
  statement is about a history.
* C18, C20-C24, C33, C41: arithmetic over all inputs, stated in `Spec.v` terms.
* C19, C34, C35: induction over histories with a ghost account of what was paid.
* C25: acceptance proved equivalent to a separately written predicate.
* C28, C29: induction over the levels of the tree, for an arbitrary hash function; soundness
  yields membership or an explicit collision.
* C36, C37: decision procedure vs. specification, over all lists.
* C39, C53: forward evaluation under the invariant.
* C42-C46: expected to be false as stated of the code; the plan is a `_refuted` theorem with a
  concrete history, plus the strongest true variant.
* C51, C52: history-level ledgers by category, with a state invariant linking them to the account
  fields; the dust bound compares the state at the moment the presale ended with any later state.
* C47: inversion: the panic error value is unreachable except in the one stated case.
* C54, C55: every event field compared with the state; expected to be false for the owner of a
  deposit event and for the announced start, so `_refuted` plus the exact content of the field.
* C56: expected to be false (the builder merges entries by owner only); `_refuted` for an
  arbitrary hash function, plus the variant for lists without repeated owners.
* C57: `iff` between acceptance of `close_escrow` and a phase-wise statement in `Spec` terms.
* C58: composition of C03, C04, C05, C57; transfers keep the token side conditions of the next step.
* C59: two nested floor divisions bounded by cross multiplication.
* C60: escrows of an ended presale keep deposit and fee (induction over histories); with C16 all
  specification quantities agree in any two futures.
* C61, C62: evaluation of the instruction on a state satisfying the invariant.
* C63: `iff` for each control instruction.
* C64: expected to be false (rest smaller than every first deposit); `_refuted` with a history and
  an invariant of all its futures, plus the case of a wide gap.
* C65: a transaction as a list of instructions, executed all or nothing; both machines reach the
  same states.
* C66: seed strings of every account as byte lists; a decoding argument per pair of account types
  leads to equal seeds or to two different hashed strings with the same hash.
* C67: superadditivity of nested floor divisions, by induction over the list of parts.
* C68: composition of the two instructions' effects.
* C69: induction over the escrows left, using C57, C58 and the creator's instructions; the dust
  from C51 and C52.
* C70: the invariant bounds most fields; the rest by induction over histories.
* C71: field offsets computed from sizes and alignments; a write/read lemma per account type, lifted
  to one map from addresses to byte strings using C70 and the shapes of addresses.
* C72: the discriminators are computed by a SHA-256 written in Gallina, then compared.
* C73: lawful codecs (round trip, canonical, bytes) built up by combinators; discriminators computed.
* C74: the client side (`call_of`) written as a specification; both directions by cases over the 21
  instructions, then histories by induction. That the range checks in `Instr.v` never reject decoded
  data is proved by unfolding every handler.
* C75: a frame lemma per instruction from its inversion, combined with C74, C12 and C13.
* C76: token accounts carry the memo and CPI guard switches; both runs of an instruction, in a
  state and in the same state with other switches, are walked through in step.
* C77: `Rent.v` adds lamports to the state machine (the `init` and `close` constraints); sizes and
  payers are written down again as a specification. Invariant: every account is rent exempt.
* C78: refuted by a history; the corrected statement from C77.
* C79: a relation between the token accounts and mints before and after each step (only freeze
  authorities freeze, nobody adds an extension to a mint); induction over histories; then C03-C07.
* C80, C81: buying and costing form an adjunction (`t <= buys a` iff `costs t <= a`); the tests of the
  repository become theorems about it. C81 is refuted as the test states it and characterised.
* C82, C83: a fold over the event log, blind to the state, is shown equal to the books by induction
  over the history, from the description of each step (`step_does`). C83 compares the event logs of
  two histories and is refuted for the two creation events.
* C84, C85: invariants over every continuation from C16/C17 and the accepted parameters (C25). C84 is
  refuted while withdrawals are open.
* C86: the codecs of C73 for the event structs; the ranges of the fields come from C70 for totals and
  from the token balances for transferred amounts; then C82.
* C87: the share of a dynamic registry within two units, combined with C59.
* C88: case split over what each instruction does to a presale account; induction over histories; the
  share of C87 before and after a deposit.
* C89: an invariant of registries and escrows, kept because the fee condition is linear.
* C90: a fold of the owner's dealings that mentions no other buyer describes every escrow; the books are
  sums over escrows while the presale is open.
* C91: monotony of each rounded quotient when deposit and total grow by the same amount.
* C92: case analysis on the transition relation, for the state before and after the first call.
* C93: an accepted payout is a commuting addition to the ledger; its amounts and its acceptance
  conditions are not touched by the additions of other payouts; induction over the list.
* C94: the terms that decide about a deposit or withdrawal are those of any earlier state (C15); the
  rest is the description of the accepted call (C38). That the signed maximum limits the payment is
  refuted, as is that the payment is known when signing if the mint has a transfer fee authority.
* C95: token operations neither read nor write the accounts of the program, hence commute with
  writing them.
* C96: `Epoch.v` adds the fee schedule as a layer; a new epoch is simulated by a list of fee changes
  (refinement), notice by induction over the history.
* C97: as C90, with the deposits of a first come first served presale only growing (C84), so that the
  cap limits nobody before it is reached; a sold out presale refutes the rest.
* C98: `macros.rs` and `const_pda.rs` over the keys of `Seeds.v`; from the search for a bump and C66.
* C99: two runs of the same call on ledgers that agree at its accounts, side by side through every
  instruction; with C75, non-colliding calls commute, and permutations follow.
* C100: refuted by a presale of wrapped SOL that is to burn what it does not sell; by induction over
  the rest of the history. C08, C69 and C93 carry the condition that excludes this case.
* C101: invariant of the refined machine of `Withheld.v`; projection to a run of the state machine.
* C102: forward simulation from the state machine to the rules of `Sale.v`: every step is at most one
  move of the rules; induction over the history with C51.
* C103: from the acceptance theorems of C03-C08, C28, C39, C53, C57 and C61 and from C102, since a
  move is determined by its name.
* C104: an invariant of the rules (P_Pot.v), independent of the model of the program: the pot and the
  tokens given out as sums over the seats, and rounded-down shares never exceed the whole. C102 then
  carries it to presales.
* C105: the end is constructed seat by seat by induction over the seats; the bound on what is left
  follows from the invariant of C104 and from an invariant about seats given up (P_Finish.v).

## Results that refute the intended statement

Each is a theorem about a concrete history (or list) accepted by the faithful model. The property
is claimed as `partial`: the refutation and the strongest variant that holds are both proved.

| property | what fails | what is proved instead |
| --- | --- | --- |
| C42 | fixed price: `ensure_gap_between_min_and_max` allows a gap smaller than the price of a token; small deposits then leave a quota that buys nothing, and the minimum is never reached | with a gap of at least the price of one token the presale is never stuck |
| C43 | fixed price: supplies whose total price exceeds u64, and buyer limits with no payable amount between them, are accepted at creation and make every deposit fail | outside these two classes a first buyer is always served |
| C44 | `UnsoldTokenAction::try_from` maps every unknown byte to `Refund`, so validation never rejects | every other byte behaves as `Refund` |
| C45 | the fixed price argument account is a PDA of the presale address only, so anybody can publish it first with another price | the price was published by an accepted instruction signed by the recorded owner |
| C46 | the registry total is rounded once and then shared, so a buyer can be a token short, or be diluted when the registry supply binds | at most two tokens short in general; exact in the one-registry, in-stock case up to rounding |
| C54 | `EvtDeposit.owner` is the paying signer, not the owner of the escrow | the other events name the escrow owner; the deposit event names the payer |
| C55 | `EvtPresaleVaultCreate.presale_start_time` is the requested start, the stored one is clamped to the clock | stored start = max(announced, clock) |
| C64 | FCFS: escrows at their limit can leave a rest of the maximum cap that is smaller than every registry's first deposit while the minimum is not reached; no future reaches it | with a gap between the caps of at least every registry minimum there is always a next accepted deposit |
| C56 | the off-chain builder keeps one entry per owner, the last one, even if the registries differ | lists without repeated owners are kept; C28 says exactly what is kept |
| C81 | fixed price below one: the cost of the supply can pay for more than the supply (34 buy 102 of 100), so the program rejects it as a cap | exact condition; if it fails, every accepted cap leaves tokens unsold |
| C83 | `EvtPresaleVaultCreate` does not name the presale, `EvtEscrowCreate` not the registry: different histories with the same events | every other event names the presale of its instruction |
| C84 | with withdrawals open a reached minimum can be taken back before the end, and the presale fails | true without withdrawals and for full presales that end early; otherwise only owners' withdrawals undo it |
| C78 | rent: anybody may pay for an escrow, its owner names who is paid when it is closed | the named receiver gets at least what the payer spent |

Further observations made while modelling, none of them a theorem of its own:
`EvtFixedPricePresaleArgsClose` is never emitted (lib.rs calls no handler); closing an escrow
before the start reaches `unreachable!` (C47 keeps it as the only exception);
`perform_unsold_base_token_action` and `refresh_escrow` need no signature.

## Trusted base

**Kernel.** Coq 8.16.1, its type checker (`coqc`) and the independent checker (`coqchk`). No
kernel check is switched off, there are no plugins beyond those of the standard distribution,
no functors, no axioms of our own, no `Admitted`.

**Print Assumptions.** `theories/Assumptions.v` collects every theorem named in `MANIFEST.json` in
one tuple and prints its assumptions during the build: `Closed under the global context`. The same
answer is given for each of them separately (checked one by one). `coqchk` additionally
lists seven constants of the standard library module `Coq.ssr.ssrunder` (`Under_rel.*`: `Over_rel`,
`Under_rel_from_rel`, `over_rel`, `over_rel_done`, `Under_rel`, `Under_relE`, `under_rel_done`);
they are loaded with std++ through ssreflect, are opaque functor parameters and no theorem uses
them. The library std++ is used for finite maps and lists; it has no axioms.

**Hash function.** `Class Crypto` bundles SHA-256 (`hashv`) and the 32 byte form of an address
(`addr_bytes`). All theorems quantify over it; nothing is assumed about it except where a theorem
says so (C29: `sized`, hashes and addresses have 32 bytes; the conclusion offers an explicit
collision as the alternative). `Scenario.v` uses a toy instance for the concrete examples only. The discriminators
of C72 use the SHA-256 of `Sha256.v` (checked on the standard test vectors), not `hashv`.

**The translation.** The model was written by hand from the Rust text. Every definition cites file
and lines. What is trusted is that the Gallina text says what the Rust text says, under the
following conventions.

*Modelled*

* every instruction of `lib.rs`, with its Anchor account constraints (`has_one`, `seeds`, `init`,
  `close`, `address`, associated token constraints, `Signer`), argument decoding ranges, handler
  body and emitted events;
* all methods of `state/*.rs`, `math/*.rs`, `presale_mode_handler/*.rs`, `params.rs`,
  `token2022.rs`, with checked arithmetic in the width used by the code and truncating shifts;
* the SPL Token and Token-2022 transfer, burn, delegate, freeze, transfer fee and permanent
  delegate rules as far as they affect balances;
* the other things that happen on a chain: any user moving tokens, creating and closing accounts
  and mints, changing fees and hooks, minting, freezing, and the clock moving forward;
* the entry point of the program: discriminator and Borsh decoding, order and flags of the accounts
  of every context (C73-C75);
* `merkle-tree/src`: tree construction, proofs, deduplication, self validation, lookup.

*Conventions and simplifications*

* A failed instruction changes nothing (transaction atomicity). One operation = one instruction;
  grouping instructions into transactions is the subject of C65.
* Program derived addresses are an inductive type. `Seeds.v` models the derivation from seeds and
  C66 proves it injective up to an explicit hash collision; that a PDA signs only through the
  program is a rule of the runtime. The state has one map per account type; `Layout.v` and C71
  relate it to a single store of byte strings with discriminators, given that the key encoding is
  injective on the stored keys and that server addresses are shorter than 2^32 bytes.
* The clock starts at 0 and never goes backwards. Negative timestamps are therefore only handled
  as the cast error.
* A transfer hook is an accept or reject bit chosen by the adversary per operation; what it does with
  tokens meanwhile may be done after the instruction (C95); a hook that calls back into the program
  is excluded by the runtime (only direct self recursion is allowed).
* Memo requirements and the CPI guard of Token-2022 accounts are modelled as two switches; that a
  guarded account cannot change owner, and the guard's effect on approving and closing through
  programs, are not (the program does neither). The text of a memo has no effect.
* Lamports are a second layer over the state machine (`Rent.v`, C77): the rate and the sizes of token
  accounts are parameters, the accounts of other programs are outside, and the runtime's own rent
  check at the end of a transaction is left out.
* Decimals, multisig owners, confidential transfers and interest are not modelled. The state machine
  has one current transfer fee per mint, which anybody may change at any time; the schedule over two
  epochs is a layer of its own (`Epoch.v`, C96). Withheld fees are pooled per mint; where they are
  kept is another layer (`Withheld.v`, C101). The native mint (wrapped SOL) is an ordinary mint that
  programs cannot burn: wrapping is `EMintTo`, unwrapping `EBurn`; its supply, which is always zero on
  chain, is read by nothing.
* `calculate_pre_fee_amount` of spl-token-2022 follows the version in `Cargo.lock` as far as it can
  be recalled without the dependency sources; the zero basis point case returns the amount itself.
* `num_enum`'s `TryFromPrimitive` rejects unknown bytes for `PresaleMode` and `WhitelistMode`, and
  has a default for `UnsoldTokenAction` as declared. `PresaleMode` also carries
  `#[num_enum(default)]` but derives `TryFromPrimitive` only; should the derived `try_from` use that
  default, unknown mode bytes would be taken as fixed price. Every use of the byte goes through that
  conversion, so such a presale would act like one created with byte 0, except for the stored and
  announced byte: C25 would list more bytes, the rest would stand with `p_mode = 0` read accordingly.
* Equality of Anchor errors (`process_close_escrow.rs:84-90`) compares the error codes and not the
  place where the error was raised.
* `presale.rs:183` (`unreachable!` on an unknown token program flag) is ruled out by the type of
  the stored program; `token2022.rs:120` (`unwrap`) is a total function in the model.
* Merkle crate: file input and output, logging and `usize` overflow are not modelled; the floating
  point logarithm of `calculate_vec_capacity` is the exact one, or one less.

*Not modelled*: `errors.rs` messages, the IDL, the client side
TypeScript, the `audits` folder, and the Solana runtime beyond the points above. Of the code Anchor
generates, the entry points for the program's own events and for the IDL account are left out (C73:
their tags differ from every instruction), and the order in which constraints are checked, hence
which of several errors is reported. The flags of remaining accounts are looked at only for the
vault of `creator_withdraw`.

## How the theorems were tested

`seeded/LOG.jsonl` records wrong programs: one realistic bug in the model per line, the claim it
breaks, and the lemmas or theorems that stopped compiling. Mutants that survived led to tighter
theorems, named in the last field.
