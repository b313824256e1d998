(** The entry point of the program: from the accounts and the data of a transaction's instruction to
    the handlers of [Instr].  It stands for the code Anchor 0.31.1 generates from [#[program]] (lib.rs:50-183)
    and from the [#[derive(Accounts)]] and [#[event_cpi]] structs. *)
From Coq Require Import String.
From Verif Require Import Base Math State Handlers Token World Instr Exec Sha256 Layout Borsh.

(** Keys of programs and of the event authority, and the address a stored key stands for *)
Class Ids := {
  id_token : prog -> addr;
  id_system : addr;
  id_memo : addr;
  id_event_authority : addr;
  id_program : addr;
  key_of : bytes -> addr
}.

(** An account of an instruction, with the flags the runtime passes on.  Apart from the vault of
    [creator_withdraw] the flags of remaining accounts are not looked at. *)
Record meta := mkMeta { am_key : addr; am_signer : bool; am_mut : bool }.

(** The declared flags (signer, writable) of an account; [init] and [close] need a writable account *)
Definition ro := (false, false).
Definition rw := (false, true).
Definition sg := (true, false).
Definition sgw := (true, true).
(** [#[event_cpi]] adds the event authority and the program at the end of every struct *)
Definition event_cpi := [ro; ro].

(** The context structs, field by field *)
Definition ctx_fields (n : iname) : list (bool * bool) :=
  match n with
  | NInitFixedArgs => [rw; ro; sgw; ro]                    (* process_initialize_extra_presale_params.rs:6-25: params, owner, payer, system *)
  | NCloseFixedArgs => [rw; sgw]                         (* process_close_extra_presale_params.rs:5-15: args, owner *)
  | NInitPresale => [ro; rw; ro; ro; rw; rw; rw; ro; sg; sgw; ro; ro; ro]
      (* process_initialize_presale.rs:12-81: presale_mint, presale, presale_authority, quote_token_mint, presale_vault,
         quote_token_vault, payer_presale_token, creator, base, payer, two token programs, system *)
  | NCreateMerkle => [ro; rw; sgw; ro]                     (* process_create_merkle_root_config.rs:13-37: presale, config, creator, system *)
  | NCloseMerkle => [ro; rw; rw; sg]                      (* process_close_merkle_root_config.rs:5-22: presale, config, rent_receiver, creator *)
  | NEscrowPermissionless => [rw; rw; ro; sgw; ro]          (* process_create_permissionless_escrow.rs:10-34: presale, escrow, owner, payer, system *)
  | NEscrowCreator => [rw; rw; ro; ro; sg; sgw; ro]
      (* process_create_permissioned_escrow_with_creator.rs:17-47: presale, escrow, owner, operator, operator_owner, payer, system *)
  | NEscrowMerkle => [rw; rw; ro; ro; sgw; ro]
      (* process_create_permissioned_escrow_with_merkle_proof.rs:24-52: presale, escrow, owner, config, payer, system *)
  | NCreateOperator => [rw; ro; sgw; ro]                   (* process_create_operator.rs:5-25: operator, operator_owner, creator, system *)
  | NRevokeOperator => [rw; sgw]                         (* process_revoke_operator.rs:5-15: operator, creator *)
  | NDeposit => [rw; rw; ro; rw; rw; sg; ro]                 (* process_deposit.rs:7-29: presale, vault, mint, escrow, payer token, payer, program *)
  | NWithdraw | NClaim | NWithdrawRemaining => [rw; rw; ro; ro; rw; rw; sg; ro; ro]
      (* process_withdraw.rs:10-41, process_claim.rs:10-44, process_withdraw_remaining_quote.rs:9-42:
         presale, vault, mint, presale_authority, escrow, owner token, owner, program, memo *)
  | NUnsold => [rw; rw; rw; ro; rw; ro; ro]
      (* process_perform_unsold_base_token_action.rs:10-40: presale, vault, mint, presale_authority, creator token, program, memo *)
  | NCloseEscrow => [rw; rw; sg; rw]                      (* process_close_escrow.rs:5-22: presale, escrow, owner, rent_receiver *)
  | NCreatorWithdraw => [rw; ro; rw; sg; ro; ro]            (* process_creator_withdraw.rs:12-32: presale, presale_authority, owner token, owner, program, memo *)
  | NRefresh => [ro; rw]                                 (* process_refresh_escrow.rs:5-13: presale, escrow *)
  | NCreateServer => [ro; rw; sgw; ro]                     (* process_create_permissioned_server_metadata.rs:6-28: presale, metadata, owner, system *)
  | NCloseServer => [ro; rw; rw; sg]                      (* process_close_merkle_proof_metadata.rs:5-24: presale, metadata, rent_receiver, owner *)
  | NCollectFee => [rw; ro; rw; ro; rw; sg; ro; ro]
      (* process_creator_collect_fee.rs:9-36: presale, presale_authority, vault, mint, receiver, owner, program, memo *)
  end ++ event_cpi.

(** [Accounts::try_accounts]: one account per field, with at least the declared flags; the others
    are [remaining_accounts].  (The model does not distinguish the error codes of this layer.) *)
Fixpoint take_ctx (fs : list (bool * bool)) (ms : list meta) : res (list addr * list meta) :=
  match fs with
  | [] => Ok ([], ms)
  | (s, m) :: fs =>
    match ms with
    | [] => Err AccountMissing
    | a :: ms =>
      let* _ := require (negb s || am_signer a) MissingSigner in
      let* _ := require (negb m || am_mut a) ConstraintHasOne in
      let* '(ks, rest) := take_ctx fs ms in
      Ok (am_key a :: ks, rest)
    end
  end.

Section WithCrypto.
Context `{Crypto} `{Ids}.

(** [Interface<TokenInterface>] *)
Definition token_program (a : addr) : res prog :=
  if beq_addr a (id_token SplToken) then Ok SplToken
  else if beq_addr a (id_token Token2022) then Ok Token2022
  else Err TokenProgramMismatch.
(** The last two accounts of every context *)
Definition own_accounts (event self : addr) : res unit :=
  let* _ := has_one event id_event_authority in has_one self id_program.

(** From a decoded instruction and its accounts to an operation: the program accounts, the fixed
    addresses and the seeds of accounts to be created are compared here, all other constraints are in
    the handlers.  [hook_ok] is the verdict of the transfer hook. *)
Definition build (n : iname) (rest : list meta) (hook_ok : bool) : payload n -> list addr -> res op :=
  let remaining := map am_key rest in
  match n return payload n -> list addr -> res op with
  | NInitFixedArgs => fun '(key, (dw, (q, _))) ks =>
    match ks with
    | [args; owner; payer; system; ev; self] =>
      let k := key_of key in
      let* _ := has_one args (PFixedArgs k) in
      let* _ := has_one system id_system in
      let* _ := own_accounts ev self in
      Ok (IInitFixedArgs k owner payer dw q)
    | _ => Err AccountMissing
    end
  | NCloseFixedArgs => fun _ ks =>
    match ks with
    | [args; owner; ev; self] => let* _ := own_accounts ev self in Ok (ICloseFixedArgs args owner)
    | _ => Err AccountMissing
    end
  | NInitPresale => fun '((pa, (lv, (_, regs))), slices) ks =>
    match ks with
    | [bmint; presale; auth; qmint; bvault; qvault; payer_token; creator; base; payer; bp; qp; system; ev; self] =>
      let* _ := has_one presale (PPresale base bmint qmint) in
      let* _ := has_one auth PAuth in
      let* _ := has_one bvault (PBaseVault presale) in
      let* _ := has_one qvault (PQuoteVault presale) in
      let* bprog := token_program bp in
      let* qprog := token_program qp in
      let* _ := has_one system id_system in
      let* _ := own_accounts ev self in
      Ok (IInitPresale base bmint qmint payer_token creator payer bprog qprog
            (mkInitArgs pa.1 lv (map fst regs)) (mkHenv remaining slices hook_ok))
    | _ => Err AccountMissing
    end
  | NCreateMerkle => fun '(root, version) ks =>
    match ks with
    | [presale; config; creator; system; ev; self] =>
      let* _ := has_one config (PMerkle presale version) in
      let* _ := has_one system id_system in
      let* _ := own_accounts ev self in
      Ok (ICreateMerkle presale creator root version)
    | _ => Err AccountMissing
    end
  | NCloseMerkle => fun _ ks =>
    match ks with
    | [presale; config; receiver; creator; ev; self] =>
      let* _ := own_accounts ev self in Ok (ICloseMerkle presale config creator receiver)
    | _ => Err AccountMissing
    end
  | NEscrowPermissionless => fun _ ks =>
    match ks with
    | [presale; escrow; owner; payer; system; ev; self] =>
      let* _ := has_one escrow (PEscrow presale owner DEFAULT_PERMISSIONLESS_REGISTRY_INDEX) in
      let* _ := has_one system id_system in
      let* _ := own_accounts ev self in
      Ok (IEscrowPermissionless presale owner payer)
    | _ => Err AccountMissing
    end
  | NEscrowCreator => fun '(idx, (cap, _)) ks =>
    match ks with
    | [presale; escrow; owner; oper; oper_owner; payer; system; ev; self] =>
      let* _ := has_one escrow (PEscrow presale owner idx) in
      let* _ := has_one system id_system in
      let* _ := own_accounts ev self in
      Ok (IEscrowCreator presale owner oper oper_owner payer idx cap)
    | _ => Err AccountMissing
    end
  | NEscrowMerkle => fun '(proof, (idx, (cap, _))) ks =>
    match ks with
    | [presale; escrow; owner; config; payer; system; ev; self] =>
      let* _ := has_one escrow (PEscrow presale owner idx) in
      let* _ := has_one system id_system in
      let* _ := own_accounts ev self in
      Ok (IEscrowMerkle presale owner config payer proof idx cap)
    | _ => Err AccountMissing
    end
  | NCreateOperator => fun _ ks =>
    match ks with
    | [oper; oper_owner; creator; system; ev; self] =>
      let* _ := has_one oper (POperator creator oper_owner) in
      let* _ := has_one system id_system in
      let* _ := own_accounts ev self in
      Ok (ICreateOperator oper_owner creator)
    | _ => Err AccountMissing
    end
  | NRevokeOperator => fun _ ks =>
    match ks with
    | [oper; creator; ev; self] => let* _ := own_accounts ev self in Ok (IRevokeOperator oper creator)
    | _ => Err AccountMissing
    end
  | NDeposit => fun '(max_amount, slices) ks =>
    match ks with
    | [presale; qvault; qmint; escrow; payer_token; payer; tp; ev; self] =>
      let* pr := token_program tp in
      let* _ := own_accounts ev self in
      Ok (IDeposit presale qvault qmint escrow payer_token payer pr max_amount (mkHenv remaining slices hook_ok))
    | _ => Err AccountMissing
    end
  | NWithdraw => fun '(amount, slices) ks =>
    match ks with
    | [presale; qvault; qmint; auth; escrow; owner_token; owner; tp; memo; ev; self] =>
      let* _ := has_one auth PAuth in
      let* pr := token_program tp in
      let* _ := has_one memo id_memo in
      let* _ := own_accounts ev self in
      Ok (IWithdraw presale qvault qmint escrow owner_token owner pr amount (mkHenv remaining slices hook_ok))
    | _ => Err AccountMissing
    end
  | NClaim => fun slices ks =>
    match ks with
    | [presale; bvault; bmint; auth; escrow; owner_token; owner; tp; memo; ev; self] =>
      let* _ := has_one auth PAuth in
      let* pr := token_program tp in
      let* _ := has_one memo id_memo in
      let* _ := own_accounts ev self in
      Ok (IClaim presale bvault bmint escrow owner_token owner pr (mkHenv remaining slices hook_ok))
    | _ => Err AccountMissing
    end
  | NWithdrawRemaining => fun slices ks =>
    match ks with
    | [presale; qvault; qmint; auth; escrow; owner_token; owner; tp; memo; ev; self] =>
      let* _ := has_one auth PAuth in
      let* pr := token_program tp in
      let* _ := has_one memo id_memo in
      let* _ := own_accounts ev self in
      Ok (IWithdrawRemaining presale qvault qmint escrow owner_token owner pr (mkHenv remaining slices hook_ok))
    | _ => Err AccountMissing
    end
  | NUnsold => fun slices ks =>
    match ks with
    | [presale; bvault; bmint; auth; creator_token; tp; memo; ev; self] =>
      let* _ := has_one auth PAuth in
      let* pr := token_program tp in
      let* _ := has_one memo id_memo in
      let* _ := own_accounts ev self in
      Ok (IUnsold presale bvault bmint creator_token pr (mkHenv remaining slices hook_ok))
    | _ => Err AccountMissing
    end
  | NCloseEscrow => fun _ ks =>
    match ks with
    | [presale; escrow; owner; receiver; ev; self] =>
      let* _ := own_accounts ev self in Ok (ICloseEscrow presale escrow owner receiver)
    | _ => Err AccountMissing
    end
  | NCreatorWithdraw => fun slices ks =>
    match ks with
    | [presale; auth; owner_token; owner; tp; memo; ev; self] =>
      let* _ := has_one auth PAuth in
      let* pr := token_program tp in
      let* _ := has_one memo id_memo in
      let* _ := own_accounts ev self in
      (* process_creator_withdraw.rs:34-40, 68-74: the vault, first of the remaining accounts, is [mut] *)
      let* _ := require (match rest with m :: _ => am_mut m | [] => true end) ConstraintHasOne in
      Ok (ICreatorWithdraw presale owner_token owner pr (mkHenv remaining slices hook_ok))
    | _ => Err AccountMissing
    end
  | NRefresh => fun _ ks =>
    match ks with
    | [presale; escrow; ev; self] => let* _ := own_accounts ev self in Ok (IRefresh presale escrow)
    | _ => Err AccountMissing
    end
  | NCreateServer => fun url ks =>
    match ks with
    | [presale; server; owner; system; ev; self] =>
      let* _ := has_one server (PServer presale) in
      let* _ := has_one system id_system in
      let* _ := own_accounts ev self in
      Ok (ICreateServer presale owner url)
    | _ => Err AccountMissing
    end
  | NCloseServer => fun _ ks =>
    match ks with
    | [presale; server; receiver; owner; ev; self] =>
      let* _ := own_accounts ev self in Ok (ICloseServer presale server owner receiver)
    | _ => Err AccountMissing
    end
  | NCollectFee => fun slices ks =>
    match ks with
    | [presale; auth; qvault; qmint; receiver; owner; tp; memo; ev; self] =>
      let* _ := has_one auth PAuth in
      let* pr := token_program tp in
      let* _ := has_one memo id_memo in
      let* _ := own_accounts ev self in
      Ok (ICollectFee presale qvault qmint receiver owner pr (mkHenv remaining slices hook_ok))
    | _ => Err AccountMissing
    end
  end.

(** One instruction of a transaction, as the runtime hands it to the program *)
Record call := mkCall { cl_accounts : list meta; cl_data : bytes; cl_hook_ok : bool }.

Definition call_op (c : call) : res op :=
  match decode_ix (cl_data c) with
  | None => Err DecodeError
  | Some (x, _) =>
    let* '(ks, rest) := take_ctx (ctx_fields (ix_name x)) (cl_accounts c) in
    build (ix_name x) rest (cl_hook_ok c) (ix_args x) ks
  end.
Definition entry (w : world) (c : call) : res (world * list fx) :=
  let* o := call_op c in step w o.

End WithCrypto.
