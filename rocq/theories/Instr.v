(** Model of instructions/**/*.rs: the 20 instruction handlers with their account contexts.

    Every handler takes the world, the accounts of its context struct and its arguments, and
    returns the new world and the effects, or an error (in which case nothing changes).  An
    account that Anchor pins to a fixed address (presale_authority, event_authority, system and
    memo program) is not an argument.  [Signer] accounts are checked by [signer]. *)
From Verif Require Import Base Math State Handlers Token World.

(** Anchor [Signer]: in the model only [Wallet] addresses can sign. *)
Definition signer (a : addr) : res unit := require (is_wallet a) MissingSigner.

(** Anchor [has_one = x] / [address = x]. *)
Definition has_one (a b : addr) : res unit := require (beq_addr a b) ConstraintHasOne.

(** Anchor's [close = receiver]: an account cannot be closed to itself.  (Where the receiver is a
    signer, a wallet, the account is a PDA and the check is vacuous.) *)
Definition not_itself (account receiver : addr) : res unit :=
  require (negb (beq_addr account receiver)) ConstraintClose.

(** Remaining accounts and the [RemainingAccountsInfo] argument of an instruction; [h_ok] says
    whether the transfer hook program (if the mint has one) accepts the transfer. *)
Record henv := mkHenv { h_accounts : list addr; h_slices : list ra_slice; h_ok : bool }.

Definition henv_decodes (h : henv) : bool := forallb (fun s => in_u8 (sl_len s)) (h_slices h).

(** * params.rs *)

(** params.rs:96-120 *)
Definition validate_registry (a : presale_args) (r : registry_args) : res unit :=
  let* _ := require (ra_min r <=? ra_max r) InvalidPresaleInfo in
  let* _ := require (0 <? ra_max r) InvalidPresaleInfo in
  let* _ := require (ra_max r <=? pa_max_cap a) InvalidPresaleInfo in
  let* _ := require (0 <? ra_supply r) InvalidTokenSupply in
  require (ra_fee_bps r <=? MAX_DEPOSIT_FEE_BPS) InvalidPresaleInfo.

(** params.rs:14-19: validates every registry and sums the supplies in u128 *)
Fixpoint validate_registries_loop (a : presale_args) (l : list registry_args) (acc : Z)
    : res Z :=
  match l with
  | [] => Ok acc
  | r :: l =>
    let* _ := validate_registry a r in
    let* acc := safe_add U128MAX acc (ra_supply r) in
    validate_registries_loop a l acc
  end.

(** params.rs:5-41 *)
Definition validate_presale_registries (a : presale_args) (l : list registry_args) : res unit :=
  let n := Z.of_nat (length l) in
  let* _ := require ((0 <? n) && (n <=? MAX_PRESALE_REGISTRY_COUNT)) InvalidPresaleInfo in
  let* supply := validate_registries_loop a l 0 in
  let* _ := require (supply <=? U64MAX) InvalidTokenSupply in
  let* _ := require (0 <? supply) InvalidTokenSupply in
  if 1 <? n then
    let* wl := cast_wl (pa_wl a) in
    require (is_permissioned wl) MultiplePresaleRegistriesNotAllowed
  else Ok tt.

(** params.rs:143-199 *)
Definition validate_presale_args (a : presale_args) (now : Z) : res unit :=
  let* _ := require (pa_min_cap a <=? pa_max_cap a) InvalidPresaleInfo in
  let* _ := require (0 <? pa_min_cap a) InvalidPresaleInfo in
  let start := start_time_without_going_backwards a now in
  let* _ := require (start <? pa_end a) InvalidPresaleInfo in
  let* duration := safe_sub (pa_end a) start in
  let* _ := require ((MINIMUM_PRESALE_DURATION <=? duration)
                     && (duration <=? MAXIMUM_PRESALE_DURATION)) InvalidPresaleInfo in
  let* until_start := safe_sub start now in
  let* _ := require (until_start <=? MAXIMUM_DURATION_UNTIL_PRESALE) InvalidPresaleInfo in
  let* _ := ok_or (wl_of_u8 (pa_wl a)) InvalidPresaleInfo in
  let* _ := ok_or (mode_of_u8 (pa_mode a)) InvalidPresaleInfo in
  (* params.rs:185-189: [UnsoldTokenAction::try_from] is infallible *)
  require (is_bool_u8 (pa_disable_early a)) InvalidType.

(** params.rs:217-277 *)
Definition validate_locked (l : locked_args) (end_time : Z) : res unit :=
  let* total := safe_add U64MAX (lv_vest l) (lv_lock l) in
  let* _ := require (total <? MAXIMUM_LOCK_AND_VEST_DURATION) InvalidLockVestingInfo in
  let* _ := require (lv_bps l <=? MAX_FEE_BASIS_POINTS) InvalidLockVestingInfo in
  if lv_bps l =? MAX_FEE_BASIS_POINTS then
    let* _ := require ((lv_lock l =? 0) && (lv_vest l =? 0)) InvalidLockVestingInfo in
    if 0 <? lv_imm_ts l then require (lv_imm_ts l =? end_time) InvalidLockVestingInfo
    else Ok tt
  else
    let* _ := require ((0 <? lv_lock l) || (0 <? lv_vest l)) InvalidLockVestingInfo in
    let* '(_, ve) := vest_lock_timings end_time (lv_lock l) (lv_vest l) in
    if 0 <? lv_imm_ts l then
      if lv_bps l =? 0 then require (lv_imm_ts l =? end_time) InvalidLockVestingInfo
      else require ((end_time <=? lv_imm_ts l) && (lv_imm_ts l <=? ve)) InvalidLockVestingInfo
    else Ok tt.

(** params.rs:283-289 *)
Definition locked_option (l : locked_args) : option locked_args :=
  if (lv_bps l =? 0) && (lv_lock l =? 0) && (lv_vest l =? 0) && (lv_imm_ts l =? 0)
     && forallb (Z.eqb 0) (lv_padding l)
  then None else Some l.

(** params.rs:52-76 *)
Definition validate_init_args (a : init_args) (now : Z) : res unit :=
  let* _ := validate_presale_args (ia_params a) now in
  let* _ := validate_presale_registries (ia_params a) (ia_regs a) in
  match locked_option (ia_locked a) with
  | Some l => validate_locked l (pa_end (ia_params a))
  | None => Ok tt
  end.

(** Borsh decoding of [InitializePresaleArgs]: every field is an integer of its Rust type. *)
Definition presale_args_decode (a : presale_args) : bool :=
  in_u64 (pa_max_cap a) && in_u64 (pa_min_cap a) && in_u64 (pa_start a) && in_u64 (pa_end a)
  && in_u8 (pa_wl a) && in_u8 (pa_mode a) && in_u8 (pa_unsold a) && in_u8 (pa_disable_early a).
Definition registry_args_decode (r : registry_args) : bool :=
  in_u64 (ra_min r) && in_u64 (ra_max r) && in_u64 (ra_supply r) && in_u16 (ra_fee_bps r).
Definition locked_args_decode (l : locked_args) : bool :=
  in_u16 (lv_bps l) && in_u64 (lv_lock l) && in_u64 (lv_vest l) && in_u64 (lv_imm_ts l)
  && forallb in_u8 (lv_padding l).
Definition init_args_decode (a : init_args) : bool :=
  presale_args_decode (ia_params a) && locked_args_decode (ia_locked a)
  && forallb registry_args_decode (ia_regs a).

(** * initialize_fixed_price_presale_args
    process_initialize_extra_presale_params.rs:3-70; [presale] is an argument, not an account. *)
Definition initialize_fixed_price_presale_args (w : world) (presale owner payer : addr)
    (disable_withdraw q_price : Z) : res (world * list fx) :=
  let* _ := require (in_u8 disable_withdraw && in_u128 q_price) DecodeError in
  let* _ := signer payer in
  let k := PFixedArgs presale in
  let* _ := require (bool_decide (w_fixed w !! k = None)) AccountInUse in
  let* _ := require (0 <? q_price) InvalidTokenPrice in
  let* _ := require (is_bool_u8 disable_withdraw) InvalidType in
  Ok (put_fixed (<[k := mkFixed presale owner q_price disable_withdraw]> (w_fixed w)) w,
      [FxEvent (EvtFixedPricePresaleArgsCreate presale q_price)]).

(** * close_fixed_price_presale_args
    process_close_extra_presale_params.rs:3-15 and lib.rs:62-66 (the handler that would emit an
    event is not called). *)
Definition close_fixed_price_presale_args (w : world) (k owner : addr)
    : res (world * list fx) :=
  let* x := ok_or (w_fixed w !! k) AccountMissing in
  let* _ := has_one (x_owner x) owner in
  let* _ := signer owner in
  Ok (put_fixed (delete k (w_fixed w)) w, []).

(** process_create_presale_vault.rs:12-62: presale common fields, then mode specific fields.
    Returns the presale and the unconsumed remaining accounts. *)
Definition create_presale_vault (w : world) (k : addr) (a : init_args)
    (bmint qmint owner base : addr) (now : Z) (bprog qprog : prog) (remaining : list addr)
    : res (presale * list addr) :=
  let* p := presale_initialize (ia_params a) (ia_regs a) (locked_option (ia_locked a))
              bmint qmint (PBaseVault k) (PQuoteVault k) owner base now bprog qprog in
  let* h := get_handler p in
  handler_initialize h k p (ia_params a) (fun x => w_fixed w !! x) remaining.

(** The vaults created by [init] in process_initialize_presale.rs:38-64. *)
Definition new_vault (mk : addr) : token := mkTok mk PAuth 0 false None false false.

(** * initialize_presale, process_initialize_presale.rs:12-174 *)
Definition initialize_presale (w : world) (base bmint qmint payer_token creator payer : addr)
    (bprog qprog : prog) (a : init_args) (h : henv) : res (world * list fx) :=
  let* _ := require (init_args_decode a && henv_decodes h) DecodeError in
  let* now := clock w in
  let* bm := get_mint w bmint in
  let* qm := get_mint w qmint in
  let* _ := signer base in
  let* _ := signer payer in
  let k := PPresale base bmint qmint in
  let* _ := require (bool_decide (w_presales w !! k = None)) AccountInUse in
  let* _ := require (bool_decide (w_tokens w !! PBaseVault k = None)) AccountInUse in
  let* _ := require (bool_decide (w_tokens w !! PQuoteVault k = None)) AccountInUse in
  let* _ := require (bool_decide (m_prog bm = bprog)) TokenProgramMismatch in
  let* _ := require (bool_decide (m_prog qm = qprog)) TokenProgramMismatch in
  let w1 := upd_token (PQuoteVault k) (new_vault qmint)
              (upd_token (PBaseVault k) (new_vault bmint) w) in
  let* _ := validate_init_args a now in
  let* _ := require (is_supported_mint qm) UnsupportedToken2022MintOrExtension in
  let* _ := require (is_supported_mint bm) UnsupportedToken2022MintOrExtension in
  let* '(p, rest) := create_presale_vault w1 k a bmint qmint creator base now bprog qprog
                       (h_accounts h) in
  let* pool := sum_supplies 0 (ia_regs a) in
  let* amount := calculate_transfer_fee_included_amount bm pool in
  let* '(hooks, _) := parse_remaining_accounts_for_transfer_hook rest (h_slices h)
                        [TransferHookBase] in
  let* '(w2, fx) := transfer_from_user w1 payer bmint payer_token (PBaseVault k) bprog amount
                      false (ph_base hooks) (h_ok h) in
  let pa := ia_params a in
  let '(lock, vest) :=
    match locked_option (ia_locked a) with
    | Some l => (lv_lock l, lv_vest l)
    | None => (0, 0)
    end in
  Ok (upd_presale k p w2,
      fx ++ [FxEvent (EvtPresaleVaultCreate bmint qmint (ia_regs a) lock vest (pa_wl pa)
                        (pa_mode pa) (pa_start pa) (pa_end pa) (pa_max_cap pa)
                        (pa_min_cap pa))]).

(** * Whitelisting accounts *)

(** A Borsh [[u8; 32]]. *)
Definition is_hash (b : bytes) : bool := (Z.of_nat (length b) =? 32) && forallb in_u8 b.

(** create_merkle_root_config, process_create_merkle_root_config.rs:11-74 *)
Definition create_merkle_root_config (w : world) (presale creator : addr) (root : bytes)
    (version : Z) : res (world * list fx) :=
  let* _ := require (is_hash root && in_u64 version) DecodeError in
  let* now := clock w in
  let* p := get_presale w presale in
  let k := PMerkle presale version in
  let* _ := require (bool_decide (w_merkles w !! k = None)) AccountInUse in
  let* _ := signer creator in
  let* _ := require (beq_addr (p_owner p) creator) InvalidCreatorAccount in
  let pg := get_progress p now in
  let* _ := require (beq_progress pg NotStarted || beq_progress pg Ongoing) PresaleEnded in
  let* wl := cast_wl (p_wl p) in
  let* _ := require (bool_decide (wl = WithMerkleProof)) InvalidPresaleWhitelistMode in
  Ok (put_merkles (<[k := mkMerkle root presale version]> (w_merkles w)) w,
      [FxEvent (EvtMerkleRootConfigCreate creator k presale version root)]).

(** close_merkle_root_config, process_close_merkle_root_config.rs:3-47 *)
Definition close_merkle_root_config (w : world) (presale k creator rent_receiver : addr)
    : res (world * list fx) :=
  let* now := clock w in
  let* p := get_presale w presale in
  let* c := ok_or (w_merkles w !! k) AccountMissing in
  let* _ := has_one (k_presale c) presale in
  let* _ := not_itself k rent_receiver in
  let* _ := signer creator in
  let* _ := require (beq_addr (p_owner p) creator) InvalidCreatorAccount in
  let* _ := require (negb (beq_progress (get_progress p now) Ongoing)) PresaleOngoing in
  Ok (put_merkles (delete k (w_merkles w)) w,
      [FxEvent (EvtCloseMerkleRootConfig presale k creator)]).

(** create_operator, process_create_operator.rs:3-44 *)
Definition create_operator (w : world) (operator_owner creator : addr) : res (world * list fx) :=
  let* _ := signer creator in
  let k := POperator creator operator_owner in
  let* _ := require (bool_decide (w_opers w !! k = None)) AccountInUse in
  Ok (put_opers (<[k := mkOper operator_owner creator]> (w_opers w)) w,
      [FxEvent (EvtOperatorCreate creator k operator_owner)]).

(** revoke_operator, process_revoke_operator.rs:3-15 and lib.rs:109-111 *)
Definition revoke_operator (w : world) (k creator : addr) : res (world * list fx) :=
  let* o := ok_or (w_opers w !! k) AccountMissing in
  let* _ := has_one (o_creator o) creator in
  let* _ := signer creator in
  Ok (put_opers (delete k (w_opers w)) w, []).

(** create_permissioned_server_metadata, process_create_permissioned_server_metadata.rs:3-61 *)
Definition create_permissioned_server_metadata (w : world) (presale owner : addr) (url : bytes)
    : res (world * list fx) :=
  let* now := clock w in
  let* p := get_presale w presale in
  let* _ := has_one (p_owner p) owner in
  let* _ := signer owner in
  let k := PServer presale in
  let* _ := require (bool_decide (w_servers w !! k = None)) AccountInUse in
  let* wl := cast_wl (p_wl p) in
  let* _ := require (bool_decide (wl = WithMerkleProof) || bool_decide (wl = WithAuthority))
              InvalidPresaleWhitelistMode in
  let pg := get_progress p now in
  let* _ := require (beq_progress pg Ongoing || beq_progress pg NotStarted) PresaleEnded in
  Ok (put_servers (<[k := mkServer presale url]> (w_servers w)) w,
      [FxEvent (EvtPermissionedServerMetadataCreate presale k url)]).

(** close_permissioned_server_metadata, process_close_merkle_proof_metadata.rs:3-39 *)
Definition close_permissioned_server_metadata (w : world) (presale k owner rent_receiver : addr)
    : res (world * list fx) :=
  let* p := get_presale w presale in
  let* _ := has_one (p_owner p) owner in
  let* s := ok_or (w_servers w !! k) AccountMissing in
  let* _ := has_one (s_presale s) presale in
  let* _ := not_itself k rent_receiver in
  let* _ := signer owner in
  Ok (put_servers (delete k (w_servers w)) w,
      [FxEvent (EvtPermissionedServerMetadataClose presale k)]).

(** * Escrow creation *)

(** create_escrow/process_create_escrow.rs:12-66 *)
Definition process_create_escrow (w : world) (p : presale) (presale_key owner : addr)
    (idx : Z) (deposit_cap : option Z) : res (presale * escrow) :=
  let* now := clock w in
  let* _ := require (beq_progress (get_progress p now) Ongoing) PresaleNotOpenForDeposit in
  let* _ := require (idx <? p_nreg p) InvalidPresaleRegistryIndex in
  let* r := get_reg p idx in
  let* _ :=
    match deposit_cap with
    | Some c =>
      let* _ := require (0 <? c) InvalidDepositCap in
      require ((r_min_cap r <=? c) && (c <=? r_max_cap r)) InvalidDepositCap
    | None => Ok tt
    end in
  let cap := match deposit_cap with Some c => c | None => r_max_cap r end in
  let e := esc_init presale_key owner now idx cap in
  let* p' := presale_inc_escrow p idx in
  Ok (p', e).

(** The part shared by the three contexts: [init] the escrow account, run
    [process_create_escrow], store, emit EvtEscrowCreate. *)
Definition finish_create_escrow (w : world) (p : presale) (presale owner : addr) (idx : Z)
    (deposit_cap : option Z) : res (world * list fx) :=
  let k := PEscrow presale owner idx in
  let* _ := require (bool_decide (w_escrows w !! k = None)) AccountInUse in
  let* '(p', e) := process_create_escrow w p presale owner idx deposit_cap in
  Ok (upd_escrow k e (upd_presale presale p' w),
      [FxEvent (EvtEscrowCreate presale owner (p_wl p') (p_escrows p'))]).

(** create_permissionless_escrow, process_create_permissionless_escrow.rs:8-66 *)
Definition create_permissionless_escrow (w : world) (presale owner payer : addr)
    : res (world * list fx) :=
  let* p := get_presale w presale in
  let* _ := signer payer in
  let* wl := cast_wl (p_wl p) in
  let* _ := require (negb (is_permissioned wl)) InvalidPresaleWhitelistMode in
  finish_create_escrow w p presale owner DEFAULT_PERMISSIONLESS_REGISTRY_INDEX None.

(** create_permissioned_escrow_with_creator,
    process_create_permissioned_escrow_with_creator.rs:15-110 *)
Definition create_permissioned_escrow_with_creator (w : world)
    (presale owner operator operator_owner payer : addr) (idx cap : Z)
    : res (world * list fx) :=
  let* _ := require (in_u8 idx && in_u64 cap) DecodeError in
  let* p := get_presale w presale in
  let* o := ok_or (w_opers w !! operator) AccountMissing in
  let* _ := signer operator_owner in
  let* _ := signer payer in
  let* wl := cast_wl (p_wl p) in
  let* _ := require (bool_decide (wl = WithAuthority)) InvalidPresaleWhitelistMode in
  let* _ := require (beq_addr (o_owner o) operator_owner) InvalidOperator in
  let* _ := require (beq_addr (o_creator o) (p_owner p)) InvalidOperator in
  finish_create_escrow w p presale owner idx (Some cap).

(** [to_le_bytes]: the [n] low order bytes of [z], least significant first *)
Fixpoint le_bytes (n : nat) (z : Z) : bytes :=
  match n with O => [] | S n => (z mod 256) :: le_bytes n (z / 256) end.

(** [<=] on byte arrays of the same length (lexicographic) *)
Fixpoint bytes_le (a b : bytes) : bool :=
  match a, b with
  | [], _ => true
  | _ :: _, [] => false
  | x :: a, y :: b => if x <? y then true else if y <? x then false else bytes_le a b
  end.

Section WithCrypto.
Context `{Crypto}.

(** process_create_permissioned_escrow_with_merkle_proof.rs:77-82: leaf of (owner, index, cap) *)
Definition merkle_leaf (owner : addr) (idx cap : Z) : bytes :=
  let node := hashv (addr_bytes owner ++ le_bytes 1 idx ++ le_bytes 8 cap) in
  hashv ([0] ++ node).

(** process_create_permissioned_escrow_with_merkle_proof.rs:117-123: one step of [verify] *)
Definition verify_step (computed elem : bytes) : bytes :=
  if bytes_le computed elem then hashv ([1] ++ computed ++ elem)
  else hashv ([1] ++ elem ++ computed).

(** process_create_permissioned_escrow_with_merkle_proof.rs:114-127 *)
Definition merkle_verify (proof : list bytes) (root leaf : bytes) : bool :=
  bool_decide (foldl verify_step leaf proof = root).

(** create_permissioned_escrow_with_merkle_proof,
    process_create_permissioned_escrow_with_merkle_proof.rs:22-105 *)
Definition create_permissioned_escrow_with_merkle_proof (w : world)
    (presale owner config payer : addr) (proof : list bytes) (idx cap : Z)
    : res (world * list fx) :=
  let* _ := require (forallb is_hash proof && in_u8 idx && in_u64 cap) DecodeError in
  let* p := get_presale w presale in
  let* c := ok_or (w_merkles w !! config) AccountMissing in
  let* _ := has_one (k_presale c) presale in
  let* _ := signer payer in
  let* wl := cast_wl (p_wl p) in
  let* _ := require (bool_decide (wl = WithMerkleProof)) InvalidPresaleWhitelistMode in
  let* _ := require (merkle_verify proof (k_root c) (merkle_leaf owner idx cap))
              InvalidMerkleProof in
  finish_create_escrow w p presale owner idx (Some cap).

End WithCrypto.

(** * deposit, process_deposit.rs:7-107 *)
Definition deposit (w : world) (presale qvault qmint escrow payer_token payer : addr)
    (pr : prog) (max_amount : Z) (h : henv) : res (world * list fx) :=
  let* _ := require (in_u64 max_amount && henv_decodes h) DecodeError in
  let* now := clock w in
  let* p := get_presale w presale in
  let* _ := has_one (p_qvault p) qvault in
  let* _ := has_one (p_qmint p) qmint in
  let* m := get_mint w qmint in
  let* e := get_escrow w escrow in
  let* _ := has_one (e_presale e) presale in
  let* _ := signer payer in
  let* _ := require (beq_progress (get_progress p now) Ongoing) PresaleNotOpenForDeposit in
  let* hd := get_handler p in
  let* quota := handler_remaining_quota hd p e in
  let capped := Z.min quota max_amount in
  let* _ := require (0 <? capped) ZeroTokenAmount in
  let* amount := handler_suggest_deposit hd capped in
  let* _ := require (0 <? amount) ZeroTokenAmount in
  let* '(fee, included, p1, e1) := presale_deposit p e amount in
  let* r := get_reg p1 (e_idx e1) in
  let* _ := reg_validate_deposit r e1 in
  let* p2 := handler_end_if_max_cap hd p1 now in
  let* gross := calculate_transfer_fee_included_amount m included in
  let* '(hooks, _) := parse_remaining_accounts_for_transfer_hook (h_accounts h) (h_slices h)
                        [TransferHookQuote] in
  let* '(w1, fx) := transfer_from_user w payer qmint payer_token qvault pr gross
                      false (ph_quote hooks) (h_ok h) in
  Ok (upd_escrow escrow e1 (upd_presale presale p2 w1),
      fx ++ [FxEvent (EvtDeposit presale escrow amount (e_deposit e1) (p_deposit p2) payer
                        fee)]).

(** * withdraw, process_withdraw.rs:8-121 *)
Definition withdraw (w : world) (presale qvault qmint escrow owner_token owner : addr)
    (pr : prog) (max_amount : Z) (h : henv) : res (world * list fx) :=
  let* _ := require (in_u64 max_amount && henv_decodes h) DecodeError in
  let* now := clock w in
  let* p := get_presale w presale in
  let* _ := has_one (p_qvault p) qvault in
  let* _ := has_one (p_qmint p) qmint in
  let* m := get_mint w qmint in
  let* e := get_escrow w escrow in
  let* _ := has_one (e_presale e) presale in
  let* _ := has_one (e_owner e) owner in
  let* _ := signer owner in
  let* _ := require (beq_progress (get_progress p now) Ongoing) PresaleNotOpenForWithdraw in
  let* _ := require (0 <? max_amount) ZeroTokenAmount in
  let* _ := require (max_amount <=? e_deposit e) InsufficientEscrowBalance in
  let* hd := get_handler p in
  let* _ := require (handler_can_withdraw hd) PresaleNotOpenForWithdraw in
  let* amount := handler_suggest_withdraw hd e max_amount in
  let* _ := require (0 <? amount) ZeroTokenAmount in
  let* '(p1, e1) := handler_process_withdraw hd p e amount in
  let* r := get_reg p1 (e_idx e1) in
  let* _ := reg_validate_deposit r e1 in
  let* '(hooks, _) := parse_remaining_accounts_for_transfer_hook (h_accounts h) (h_slices h)
                        [TransferHookQuote] in
  let* '(w1, fx) := transfer_from_presale_to_user w qmint qvault owner_token pr amount
                      true (ph_quote hooks) (h_ok h) in
  let* net := calculate_transfer_fee_excluded_amount m amount in
  Ok (upd_escrow escrow e1 (upd_presale presale p1 w1),
      fx ++ [FxEvent (EvtWithdraw presale escrow net (e_deposit e1) (p_deposit p1) owner)]).

(** * withdraw_remaining_quote, process_withdraw_remaining_quote.rs:7-106 *)
Definition withdraw_remaining_quote (w : world)
    (presale qvault qmint escrow owner_token owner : addr) (pr : prog) (h : henv)
    : res (world * list fx) :=
  let* _ := require (henv_decodes h) DecodeError in
  let* now := clock w in
  let* p := get_presale w presale in
  let* _ := has_one (p_qvault p) qvault in
  let* _ := has_one (p_qmint p) qmint in
  let* m := get_mint w qmint in
  let* _ := get_token w qvault in
  let* e := get_escrow w escrow in
  let* _ := has_one (e_presale e) presale in
  let* _ := has_one (e_owner e) owner in
  let* _ := get_token w owner_token in
  let* _ := signer owner in
  let* _ := require (negb (esc_is_withdrawn e)) RemainingQuoteAlreadyWithdrawn in
  let* '(rd, rf) := escrow_remaining_quote p e now in
  let* total := safe_add U64MAX rd rf in
  let* p1 := presale_add_refunded p total (e_idx e) in
  let e1 := esc_set_withdrawn e in
  let* '(hooks, _) := parse_remaining_accounts_for_transfer_hook (h_accounts h) (h_slices h)
                        [TransferHookQuote] in
  let* '(w1, fx) :=
    if 0 <? total then
      transfer_from_presale_to_user w qmint qvault owner_token pr total true
        (ph_quote hooks) (h_ok h)
    else Ok (w, []) in
  let* net := calculate_transfer_fee_excluded_amount m total in
  Ok (upd_escrow escrow e1 (upd_presale presale p1 w1),
      fx ++ [FxEvent (EvtWithdrawRemainingQuote presale escrow owner net (p_refunded p1))]).

(** * claim, process_claim.rs:8-107 *)
Definition claim (w : world) (presale bvault bmint escrow owner_token owner : addr)
    (pr : prog) (h : henv) : res (world * list fx) :=
  let* _ := require (henv_decodes h) DecodeError in
  let* now := clock w in
  let* p := get_presale w presale in
  let* _ := has_one (p_bvault p) bvault in
  let* _ := has_one (p_bmint p) bmint in
  let* m := get_mint w bmint in
  let* _ := get_token w bvault in
  let* e := get_escrow w escrow in
  let* _ := has_one (e_presale e) presale in
  let* _ := has_one (e_owner e) owner in
  let* _ := get_token w owner_token in
  let* _ := signer owner in
  let* _ := require (beq_progress (get_progress p now) Completed) PresaleNotOpenForClaim in
  let* hd := get_handler p in
  let* e1 := handler_update_pending hd p e now in
  let pending := e_pending e1 in
  let* '(p2, e2, w1, fx) :=
    if 0 <? pending then
      let* '(p2, e2) := presale_claim p e1 in
      let* '(hooks, _) := parse_remaining_accounts_for_transfer_hook (h_accounts h)
                            (h_slices h) [TransferHookBase] in
      let* '(w1, fx) := transfer_from_presale_to_user w bmint bvault owner_token pr pending
                          true (ph_base hooks) (h_ok h) in
      Ok (p2, e2, w1, fx)
    else Ok (p, e1, w, []) in
  let* net := calculate_transfer_fee_excluded_amount m pending in
  Ok (upd_escrow escrow e2 (upd_presale presale p2 w1),
      fx ++ [FxEvent (EvtClaim presale escrow net (e_claimed e2) (p_claimed p2) owner)]).

(** * refresh_escrow, process_refresh_escrow.rs:5-38 (no signer) *)
Definition refresh_escrow (w : world) (presale escrow : addr) : res (world * list fx) :=
  let* now := clock w in
  let* p := get_presale w presale in
  let* e := get_escrow w escrow in
  let* _ := has_one (e_presale e) presale in
  let* e1 :=
    if beq_progress (get_progress p now) Completed then
      let* hd := get_handler p in handler_update_pending hd p e now
    else Ok e in
  Ok (upd_escrow escrow e1 w,
      [FxEvent (EvtEscrowRefresh presale escrow (e_owner e1) now (e_pending e1))]).

(** * close_escrow *)

(** process_close_escrow.rs:65-109 *)
Definition ensure_done_claim_and_refund (p : presale) (e : escrow) (now : Z) : res unit :=
  let* _ :=
    match escrow_remaining_quote p e now with
    | Ok (rd, rf) =>
      if (0 <? rd) || (0 <? rf) then require (esc_is_withdrawn e) EscrowNotEmpty else Ok tt
    | Err er =>
      if bool_decide (er = PresaleNotOpenForWithdrawRemainingQuote) then Ok tt else Err er
    end in
  let* hd := get_handler p in
  let* ve := safe_add U64MAX (p_vs p) (p_vest p) in
  let* total := handler_cumulative hd p e ve in
  require (e_claimed e =? total) EscrowNotEmpty.

(** process_close_escrow.rs:5-63, 111-128 *)
Definition close_escrow (w : world) (presale escrow owner rent_receiver : addr)
    : res (world * list fx) :=
  let* now := clock w in
  let* p := get_presale w presale in
  let* e := get_escrow w escrow in
  let* _ := has_one (e_presale e) presale in
  let* _ := has_one (e_owner e) owner in
  let* _ := not_itself escrow rent_receiver in
  let* _ := signer owner in
  let* _ :=
    match get_progress p now with
    | Ongoing => require ((e_deposit e =? 0) && (e_fee e =? 0)) EscrowNotEmpty
    | Failed =>
      require (esc_is_withdrawn e || ((e_deposit e =? 0) && (e_fee e =? 0))) EscrowNotEmpty
    | Completed => ensure_done_claim_and_refund p e now
    | NotStarted => Err Panic
    end in
  let* p1 := presale_dec_escrow p (e_idx e) in
  Ok (put_escrows (delete escrow (w_escrows w)) (upd_presale presale p1 w),
      [FxEvent (EvtEscrowClose presale escrow owner rent_receiver)]).

(** * creator_withdraw *)

(** process_creator_withdraw.rs:42-65 and 76-99: take vault and mint from the remaining
    accounts and check them; returns the rest of the remaining accounts *)
Definition take_vault_and_mint (w : world) (vault mk : addr) (mint_err : err)
    (remaining : list addr) : res (mint * list addr) :=
  match remaining with
  | v :: m :: rest =>
    let* _ := get_token w v in
    let* mi := get_mint w m in
    let* _ := require (beq_addr v vault) InvalidTokenVault in
    let* _ := require (beq_addr m mk) mint_err in
    Ok (mi, rest)
  | _ => Err AccountMissing
  end.

(** process_creator_withdraw.rs:10-32, 102-205 *)
Definition creator_withdraw (w : world) (presale owner_token owner : addr) (pr : prog)
    (h : henv) : res (world * list fx) :=
  let* _ := require (henv_decodes h) DecodeError in
  let* now := clock w in
  let* p := get_presale w presale in
  let* _ := has_one (p_owner p) owner in
  let* _ := signer owner in
  let pg := get_progress p now in
  let* _ := require (beq_progress pg Completed || beq_progress pg Failed)
              PresaleNotOpenForWithdraw in
  let* _ := require (negb (has_creator_withdrawn p)) CreatorAlreadyWithdrawn in
  let p1 := set_creator_withdrawn p in
  let* '(amount, vault, mk, m, rest, ty) :=
    match pg with
    | Completed =>
      let* '(m, rest) := take_vault_and_mint w (p_qvault p) (p_qmint p) InvalidQuoteMint
                           (h_accounts h) in
      Ok (Z.min (p_deposit p) (p_max_cap p), p_qvault p, p_qmint p, m, rest, TransferHookQuote)
    | Failed =>
      let* '(m, rest) := take_vault_and_mint w (p_bvault p) (p_bmint p) InvalidBaseMint
                           (h_accounts h) in
      Ok (p_supply p, p_bvault p, p_bmint p, m, rest, TransferHookBase)
    | _ => Err UndeterminedError
    end in
  let* '(hooks, _) := parse_remaining_accounts_for_transfer_hook rest (h_slices h) [ty] in
  let accounts := if beq_progress pg Completed then ph_quote hooks else ph_base hooks in
  let* '(w1, fx) := transfer_from_presale_to_user w mk vault owner_token pr amount true
                      accounts (h_ok h) in
  let* net := calculate_transfer_fee_excluded_amount m amount in
  Ok (upd_presale presale p1 w1,
      fx ++ [FxEvent (EvtCreatorWithdraw presale net owner (progress_to_u8 pg))]).

(** * creator_collect_fee, process_creator_collect_fee.rs:7-94 *)
Definition creator_collect_fee (w : world) (presale qvault qmint receiver owner : addr)
    (pr : prog) (h : henv) : res (world * list fx) :=
  let* _ := require (henv_decodes h) DecodeError in
  let* now := clock w in
  let* p := get_presale w presale in
  let* _ := has_one (p_owner p) owner in
  let* _ := has_one (p_qmint p) qmint in
  let* _ := has_one (p_qvault p) qvault in
  let* m := get_mint w qmint in
  let* _ := get_token w qvault in
  let* _ := get_token w receiver in
  let* _ := signer owner in
  let* _ := require (beq_progress (get_progress p now) Completed && negb (is_fee_collected p))
              PresaleNotOpenForCollectFee in
  let* total := total_collected_fee p in
  let p1 := set_fee_collected p in
  let* '(w1, fx) :=
    if 0 <? total then
      let* '(hooks, _) := parse_remaining_accounts_for_transfer_hook (h_accounts h)
                            (h_slices h) [TransferHookQuote] in
      transfer_from_presale_to_user w qmint qvault receiver pr total true
        (ph_quote hooks) (h_ok h)
    else Ok (w, []) in
  let* net := calculate_transfer_fee_excluded_amount m total in
  Ok (upd_presale presale p1 w1, fx ++ [FxEvent (EvtCreatorCollectFee presale owner net)]).

(** * perform_unsold_base_token_action, process_perform_unsold_base_token_action.rs:8-118
    (no signer) *)
Definition perform_unsold_base_token_action (w : world)
    (presale bvault bmint creator_token : addr) (pr : prog) (h : henv)
    : res (world * list fx) :=
  let* _ := require (henv_decodes h) DecodeError in
  let* now := clock w in
  let* p := get_presale w presale in
  let* _ := has_one (p_bvault p) bvault in
  let* _ := has_one (p_bmint p) bmint in
  let* m := get_mint w bmint in
  let* ct := get_token w creator_token in
  let* _ := require (beq_addr (t_owner ct) (p_owner p) && beq_addr (t_mint ct) bmint
                     && bool_decide (m_prog m = pr)
                     && beq_addr creator_token (Ata (p_owner p) bmint pr))
              ConstraintAssociated in
  let* _ := require (beq_progress (get_progress p now) Completed) PresaleNotCompleted in
  let* _ := require (negb (is_unsold_done p)) UnsoldBaseTokenActionAlreadyPerformed in
  let* hd := get_handler p in
  let* unsold := total_unsold_token p hd in
  let* _ := require (0 <? unsold) NoUnsoldBaseTokens in
  let p1 := set_unsold_performed p in
  let action := uaction_of_u8 (p_unsold p) in
  let* '(w1, fx) :=
    match action with
    | Burn => tok_burn_cpi w pr bvault bmint PAuth unsold
    | Refund =>
      let* '(hooks, _) := parse_remaining_accounts_for_transfer_hook (h_accounts h)
                            (h_slices h) [TransferHookBase] in
      transfer_from_presale_to_user w bmint bvault creator_token pr unsold true
        (ph_base hooks) (h_ok h)
    end in
  Ok (upd_presale presale p1 w1,
      fx ++ [FxEvent (EvtPerformUnsoldBaseTokenAction presale unsold (uaction_to_u8 action))]).
