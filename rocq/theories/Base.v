(** Base vocabulary of the model: result monad, error values, bounded integers, addresses.

    Source paths in comments are relative to /repo/programs/presale/src unless they start with
    merkle-tree/, which is relative to /repo. *)
From stdpp Require Export base gmap countable list option.
From Coq Require Export ZArith Lia Bool.
#[global] Open Scope Z_scope.

(** ** Results.  Models [Result<T, PresaleError>] / Anchor [Result<T>]: an instruction either
    returns a value or an error value.  Panics ([unreachable!], [unwrap]) are explicit errors. *)
Inductive err :=
(* errors.rs:5-140, the variants the program can return *)
| InvalidTokenSupply | InvalidPresaleInfo | InvalidQuoteMint | InvalidBaseMint
| InvalidLockVestingInfo | InvalidTokenPrice | MissingPresaleExtraParams | ZeroTokenAmount
| UnsupportedToken2022MintOrExtension | InvalidCreatorAccount | PresaleNotOpenForDeposit
| PresaleNotOpenForWithdraw | PresaleNotOpenForWithdrawRemainingQuote
| InvalidPresaleWhitelistMode | PresaleEnded | PresaleNotOpenForClaim | InvalidMerkleProof
| DepositAmountOutOfCap | MathOverflow | InsufficientEscrowBalance
| RemainingQuoteAlreadyWithdrawn | PresaleNotCompleted | EscrowNotEmpty
| InvalidUnsoldTokenAction | CreatorAlreadyWithdrawn | UndeterminedError | InvalidTokenVault
| InvalidRemainingAccountSlice | DuplicatedRemainingAccountTypes
| MissingRemainingAccountForTransferHook | NoTransferHookProgram | InvalidOperator
| NoUnsoldBaseTokens | UnsoldBaseTokenActionAlreadyPerformed | InvalidPresaleRegistryIndex
| MultiplePresaleRegistriesNotAllowed | InvalidDepositCap | PresaleNotOpenForCollectFee
| InvalidType | InvalidBuyerCapRange | PresaleOngoing | PresaleMinMaxCapGapTooSmall
(* panics: [unreachable!] / [unwrap] in the program *)
| Panic
(* errors of the surrounding runtime: Anchor account constraints, argument decoding,
   the token program *)
| AccountMissing | AccountInUse | ConstraintHasOne | ConstraintAssociated | MissingSigner
| DecodeError | TokenProgramMismatch | TokenMintMismatch | TokenOwnerMismatch | TokenFrozen
| TokenInsufficientFunds | TokenOverflow | ConstraintClose | NotSystemOwned | NoLamports | TokenNoMemo | TokenCpiGuard | TokenNative | HookFailed | EnvRejected
(* errors of the off-chain crate, merkle-tree/src/error.rs:4-13; the IO and Serde variants belong to
   file handling, which is not modelled *)
| MerkleRootError | MerkleValidationError.

Inductive res (A : Type) := Ok (a : A) | Err (e : err).
Arguments Ok {A} a.
Arguments Err {A} e.

Definition rbind {A B} (r : res A) (k : A -> res B) : res B :=
  match r with Ok a => k a | Err e => Err e end.

Notation "'let*' x ':=' e 'in' k" := (rbind e (fun x => k))
  (at level 200, x name, e at level 100, k at level 200, right associativity).
Notation "'let*' ' p ':=' e 'in' k" := (rbind e (fun p => k))
  (at level 200, p strict pattern, e at level 100, k at level 200, right associativity).

(** Anchor's [require!(b, e)]. *)
Definition require (b : bool) (e : err) : res unit := if b then Ok tt else Err e.

(** [Option::ok_or]. *)
Definition ok_or {A} (o : option A) (e : err) : res A :=
  match o with Some a => Ok a | None => Err e end.

(** ** Integers.  Rust integers are modelled by [Z] together with explicit range checks at every
    place where the code uses checked arithmetic or a checked cast. *)
Definition U8MAX : Z := 255.
Definition U16MAX : Z := 65535.
Definition U64MAX : Z := 18446744073709551615.
Definition U128MAX : Z := 340282366920938463463374607431768211455.
Definition I64MAX : Z := 9223372036854775807.

Definition in_u8 (z : Z) : bool := (0 <=? z) && (z <=? U8MAX).
Definition in_u16 (z : Z) : bool := (0 <=? z) && (z <=? U16MAX).
Definition in_u64 (z : Z) : bool := (0 <=? z) && (z <=? U64MAX).
Definition in_u128 (z : Z) : bool := (0 <=? z) && (z <=? U128MAX).

(** ** Addresses.  A Solana public key.  Program derived addresses are modelled by an injective
    datatype of their seeds, i.e. derivation is assumed collision free and never equal to a key
    somebody can sign for.  [Wallet n] stands for every other key (wallets, keypairs, mints,
    token accounts, PDAs of other programs); only those can sign a transaction.
    Seeds: constants.rs:26-36 and the [seeds = [..]] attributes in instructions/*. *)
Inductive prog := SplToken | Token2022.

Inductive addr :=
| Wallet (n : N)
| PPresale (base bmint qmint : addr)     (* process_initialize_presale.rs:18-23 *)
| PBaseVault (presale : addr)            (* process_initialize_presale.rs:40-43 *)
| PQuoteVault (presale : addr)           (* process_initialize_presale.rs:54-57 *)
| PFixedArgs (presale : addr)            (* process_initialize_extra_presale_params.rs:9-12 *)
| PEscrow (presale owner : addr) (idx : Z) (* create_escrow/*.rs seeds *)
| PMerkle (presale : addr) (version : Z) (* process_create_merkle_root_config.rs:19-23 *)
| POperator (creator owner : addr)       (* process_create_operator.rs:8-12 *)
| PServer (presale : addr)               (* process_create_permissioned_server_metadata.rs:14-17 *)
| PAuth                                  (* const_pda.rs:4-14 *)
| Ata (owner mint : addr) (p : prog).    (* associated token account *)

#[global] Instance prog_eq_dec : EqDecision prog.
Proof. solve_decision. Defined.
#[global] Instance addr_eq_dec : EqDecision addr.
Proof. solve_decision. Defined.
#[global] Instance err_eq_dec : EqDecision err.
Proof. solve_decision. Defined.

Definition is_wallet (a : addr) : bool := match a with Wallet _ => true | _ => false end.

(** Countability of addresses (needed for finite maps); no counterpart in the source. *)
Fixpoint addr_enc (a : addr) : gen_tree (N + Z) :=
  match a with
  | Wallet n => GenLeaf (inl n)
  | PPresale b m q => GenNode 1 [addr_enc b; addr_enc m; addr_enc q]
  | PBaseVault p => GenNode 2 [addr_enc p]
  | PQuoteVault p => GenNode 3 [addr_enc p]
  | PFixedArgs p => GenNode 4 [addr_enc p]
  | PEscrow p o i => GenNode 5 [addr_enc p; addr_enc o; GenLeaf (inr i)]
  | PMerkle p v => GenNode 6 [addr_enc p; GenLeaf (inr v)]
  | POperator c o => GenNode 7 [addr_enc c; addr_enc o]
  | PServer p => GenNode 8 [addr_enc p]
  | PAuth => GenNode 9 []
  | Ata o m SplToken => GenNode 10 [addr_enc o; addr_enc m]
  | Ata o m Token2022 => GenNode 11 [addr_enc o; addr_enc m]
  end.

Fixpoint addr_dec (t : gen_tree (N + Z)) : addr :=
  match t with
  | GenLeaf (inl n) => Wallet n
  | GenNode 1 [b; m; q] => PPresale (addr_dec b) (addr_dec m) (addr_dec q)
  | GenNode 2 [p] => PBaseVault (addr_dec p)
  | GenNode 3 [p] => PQuoteVault (addr_dec p)
  | GenNode 4 [p] => PFixedArgs (addr_dec p)
  | GenNode 5 [p; o; GenLeaf (inr i)] => PEscrow (addr_dec p) (addr_dec o) i
  | GenNode 6 [p; GenLeaf (inr v)] => PMerkle (addr_dec p) v
  | GenNode 7 [c; o] => POperator (addr_dec c) (addr_dec o)
  | GenNode 8 [p] => PServer (addr_dec p)
  | GenNode 10 [o; m] => Ata (addr_dec o) (addr_dec m) SplToken
  | GenNode 11 [o; m] => Ata (addr_dec o) (addr_dec m) Token2022
  | _ => PAuth
  end.

#[global] Instance addr_countable : Countable addr.
Proof.
  apply (inj_countable' addr_enc addr_dec).
  fix IH 1. intros [ ]; cbn; rewrite ?IH; try reflexivity.
  destruct p; cbn; rewrite !IH; reflexivity.
Defined.

Definition beq_addr (a b : addr) : bool := bool_decide (a = b).

(** Abstract hashing used for merkle whitelists: SHA-256 ([hashv]) and the byte image of a public
    key are parameters of the model.  Byte strings are lists of [Z]. *)
Definition bytes := list Z.

Class Crypto := {
  hashv : bytes -> bytes;          (* solana_program::hash::hashv over the concatenated slices *)
  addr_bytes : addr -> bytes       (* Pubkey::to_bytes *)
}.
