(** Program derived addresses as byte strings.  The rest of the model uses the inductive type [addr]
    for them, which makes derivations injective by construction.  This file derives the 32 byte
    address of every [addr] the way the program and the Solana runtime do, so that [P_Seeds] can
    prove the injectivity instead. *)
From Coq Require Import Ascii String.
From Verif Require Import Base Math State Handlers Token World Instr.

(** What is fixed outside the program: the hash, which byte strings are points of the curve, the
    address behind a wallet number, and the ids of the programs. *)
Record keyring := mkKeyring {
  kr_hash : bytes -> bytes;
  kr_curve : bytes -> bool;
  kr_wallet : N -> bytes;
  kr_foreign : N -> option bytes; (* what was hashed to derive it, for an address of another program *)
  kr_program : bytes;             (* lib.rs:37 declare_id! *)
  kr_ata : bytes;                 (* the associated token account program *)
  kr_token : prog -> bytes        (* the two token programs *)
}.

(** A byte string literal [b"..."] *)
Definition str (s : string) : bytes := map (fun c => Z.of_N (N_of_ascii c)) (list_ascii_of_string s).

(** constants.rs:27-35 *)
Definition PRESALE_AUTHORITY_PREFIX := str "presale_authority".
Definition PRESALE_PREFIX := str "presale".
Definition BASE_VAULT_PREFIX := str "base_vault".
Definition QUOTE_VAULT_PREFIX := str "quote_vault".
Definition FIXED_PRICE_PRESALE_PARAM_PREFIX := str "fixed_price_param".
Definition ESCROW_PREFIX := str "escrow".
Definition MERKLE_ROOT_CONFIG_PREFIX := str "merkle_root".
Definition OPERATOR_PREFIX := str "operator".
Definition PERMISSIONED_SERVER_METADATA_PREFIX := str "server_metadata".

(** solana_program::pubkey: [PDA_MARKER] *)
Definition PDA_MARKER := str "ProgramDerivedAddress".

(** solana_program::pubkey: what [create_program_address] hashes.  The seeds are concatenated without
    separators; the limits of 16 seeds of 32 bytes are met by all seeds of the program. *)
Definition preimage (seeds : list bytes) (bump : Z) (pid : bytes) : bytes :=
  concat seeds ++ [bump] ++ pid ++ PDA_MARKER.

(** solana_program::pubkey: [find_program_address] tries the bumps 255, 254, .., 1 and takes the first
    address that is not on the curve. *)
Fixpoint try_bumps (kr : keyring) (seeds : list bytes) (pid : bytes) (n : nat) : option bytes :=
  match n with
  | O => None
  | S n' =>
      let a := kr_hash kr (preimage seeds (Z.of_nat n) pid) in
      if kr_curve kr a then try_bumps kr seeds pid n' else Some a
  end.
Definition find_program_address (kr : keyring) (seeds : list bytes) (pid : bytes) : option bytes :=
  try_bumps kr seeds pid 255.

(** Anchor's [seeds = [..], bump] constraints, const_pda.rs:4-14 and the derivation of associated token
    accounts: the address itself, or [None] when no bump works. *)
Fixpoint key (kr : keyring) (a : addr) : option bytes :=
  match a with
  | Wallet n => Some (kr_wallet kr n)
  | PPresale b x y =>             (* process_initialize_presale.rs:18-23 *)
      match key kr b, key kr x, key kr y with
      | Some b, Some x, Some y => find_program_address kr [PRESALE_PREFIX; b; x; y] (kr_program kr)
      | _, _, _ => None
      end
  | PBaseVault k =>               (* process_initialize_presale.rs:40-43 *)
      match key kr k with
      | Some k => find_program_address kr [BASE_VAULT_PREFIX; k] (kr_program kr) | None => None end
  | PQuoteVault k =>              (* process_initialize_presale.rs:54-57 *)
      match key kr k with
      | Some k => find_program_address kr [QUOTE_VAULT_PREFIX; k] (kr_program kr) | None => None end
  | PFixedArgs k =>               (* process_initialize_extra_presale_params.rs:9-12 *)
      match key kr k with
      | Some k => find_program_address kr [FIXED_PRICE_PRESALE_PARAM_PREFIX; k] (kr_program kr) | None => None end
  | PEscrow k o i =>              (* create_escrow: process_create_permissionless_escrow.rs:16-21,
                                     ..._with_creator.rs:24-29, ..._with_merkle_proof.rs:31-36 *)
      match key kr k, key kr o with
      | Some k, Some o => find_program_address kr [ESCROW_PREFIX; k; o; le_bytes 1 i] (kr_program kr)
      | _, _ => None
      end
  | PMerkle k v =>                (* process_create_merkle_root_config.rs:19-23 *)
      match key kr k with
      | Some k => find_program_address kr [MERKLE_ROOT_CONFIG_PREFIX; k; le_bytes 8 v] (kr_program kr)
      | None => None
      end
  | POperator c o =>              (* process_create_operator.rs:8-12 *)
      match key kr c, key kr o with
      | Some c, Some o => find_program_address kr [OPERATOR_PREFIX; c; o] (kr_program kr)
      | _, _ => None
      end
  | PServer k =>                  (* process_create_permissioned_server_metadata.rs:14-17 *)
      match key kr k with
      | Some k => find_program_address kr [PERMISSIONED_SERVER_METADATA_PREFIX; k] (kr_program kr)
      | None => None
      end
  | PAuth =>                      (* const_pda.rs:7-10 *)
      find_program_address kr [PRESALE_AUTHORITY_PREFIX] (kr_program kr)
  | Ata o m p =>                  (* spl_associated_token_account::get_associated_token_address *)
      match key kr o, key kr m with
      | Some o, Some m => find_program_address kr [o; kr_token kr p; m] (kr_ata kr)
      | _, _ => None
      end
  end.

(** solana_program::pubkey: [create_program_address], which the runtime calls for the seeds of a signer;
    the bump is among the seeds.  At most 16 seeds of at most 32 bytes. *)
Definition create_program_address (kr : keyring) (seeds : list bytes) (pid : bytes) : option bytes :=
  if (16 <? List.length seeds)%nat || existsb (fun s => 32 <? List.length s)%nat seeds then None
  else
    let a := kr_hash kr (concat seeds ++ pid ++ PDA_MARKER) in
    if kr_curve kr a then None else Some a.

(** const_pda.rs:7-14: address and bump, with const_crypto's [derive_program_address].  The constants are
    evaluated when the program is compiled, which fails if no bump works. *)
Fixpoint try_bumps_pair (kr : keyring) (seeds : list bytes) (pid : bytes) (n : nat) : option (bytes * Z) :=
  match n with
  | O => None
  | S n' =>
      let a := kr_hash kr (preimage seeds (Z.of_nat n) pid) in
      if kr_curve kr a then try_bumps_pair kr seeds pid n' else Some (a, Z.of_nat n)
  end.
Definition POOL_AUTHORITY_AND_BUMP (kr : keyring) : option (bytes * Z) :=
  try_bumps_pair kr [PRESALE_AUTHORITY_PREFIX] (kr_program kr) 255.

(** macros.rs:1-8 [presale_authority_seeds!] *)
Definition presale_authority_seeds (kr : keyring) : option (list bytes) :=
  match POOL_AUTHORITY_AND_BUMP kr with
  | Some (_, bump) => Some [PRESALE_AUTHORITY_PREFIX; [bump]]
  | None => None
  end.

(** The signers of a call made with [invoke_signed]: those of the instruction, and one address per list of
    seeds, derived with the id of the calling program; the call fails if one cannot be derived. *)
Fixpoint derived_signers (kr : keyring) (seeds : list (list bytes)) : option (list bytes) :=
  match seeds with
  | [] => Some []
  | s :: l =>
      match create_program_address kr s (kr_program kr), derived_signers kr l with
      | Some a, Some l => Some (a :: l)
      | _, _ => None
      end
  end.
Definition call_signers (kr : keyring) (given : list bytes) (seeds : list (list bytes)) : option (list bytes) :=
  match derived_signers kr seeds with Some l => Some (given ++ l) | None => None end.

(** token2022.rs:331 (transfers from a user: no seeds), token2022.rs:346, 398-402 and
    process_perform_unsold_base_token_action.rs:73-84 (transfers and burns from a vault). *)
Definition user_call_signers (kr : keyring) (given : list bytes) : option (list bytes) := call_signers kr given [].
Definition vault_call_signers (kr : keyring) (given : list bytes) : option (list bytes) :=
  match presale_authority_seeds kr with Some s => call_signers kr given [s] | None => None end.
