(** The ledger: all accounts the program can touch, and the token program operations on it. *)
From Verif Require Import Base Math State Token.

(** One finite map per account type.  Looking an account up in the map of its type models the
    owner and discriminator checks of Anchor's [AccountLoader] / [Account] / [InterfaceAccount].
    [w_now] is [Clock::unix_timestamp]. *)
Record world := mkW {
  w_now : Z;
  w_presales : gmap addr presale;
  w_escrows : gmap addr escrow;
  w_tokens : gmap addr token;
  w_mints : gmap addr mint;
  w_fixed : gmap addr fixed_args;
  w_merkles : gmap addr merkle_cfg;
  w_opers : gmap addr operator;
  w_servers : gmap addr server_meta
}.

Definition put_now (v : Z) (w : world) : world :=
  mkW v (w_presales w) (w_escrows w) (w_tokens w) (w_mints w) (w_fixed w) (w_merkles w)
    (w_opers w) (w_servers w).
Definition put_presales (v : gmap addr presale) (w : world) : world :=
  mkW (w_now w) v (w_escrows w) (w_tokens w) (w_mints w) (w_fixed w) (w_merkles w)
    (w_opers w) (w_servers w).
Definition put_escrows (v : gmap addr escrow) (w : world) : world :=
  mkW (w_now w) (w_presales w) v (w_tokens w) (w_mints w) (w_fixed w) (w_merkles w)
    (w_opers w) (w_servers w).
Definition put_tokens (v : gmap addr token) (w : world) : world :=
  mkW (w_now w) (w_presales w) (w_escrows w) v (w_mints w) (w_fixed w) (w_merkles w)
    (w_opers w) (w_servers w).
Definition put_mints (v : gmap addr mint) (w : world) : world :=
  mkW (w_now w) (w_presales w) (w_escrows w) (w_tokens w) v (w_fixed w) (w_merkles w)
    (w_opers w) (w_servers w).
Definition put_fixed (v : gmap addr fixed_args) (w : world) : world :=
  mkW (w_now w) (w_presales w) (w_escrows w) (w_tokens w) (w_mints w) v (w_merkles w)
    (w_opers w) (w_servers w).
Definition put_merkles (v : gmap addr merkle_cfg) (w : world) : world :=
  mkW (w_now w) (w_presales w) (w_escrows w) (w_tokens w) (w_mints w) (w_fixed w) v
    (w_opers w) (w_servers w).
Definition put_opers (v : gmap addr operator) (w : world) : world :=
  mkW (w_now w) (w_presales w) (w_escrows w) (w_tokens w) (w_mints w) (w_fixed w)
    (w_merkles w) v (w_servers w).
Definition put_servers (v : gmap addr server_meta) (w : world) : world :=
  mkW (w_now w) (w_presales w) (w_escrows w) (w_tokens w) (w_mints w) (w_fixed w)
    (w_merkles w) (w_opers w) v.

Definition upd_presale (k : addr) (p : presale) (w : world) : world :=
  put_presales (<[k := p]> (w_presales w)) w.
Definition upd_escrow (k : addr) (e : escrow) (w : world) : world :=
  put_escrows (<[k := e]> (w_escrows w)) w.
Definition upd_token (k : addr) (t : token) (w : world) : world :=
  put_tokens (<[k := t]> (w_tokens w)) w.
Definition upd_mint (k : addr) (m : mint) (w : world) : world :=
  put_mints (<[k := m]> (w_mints w)) w.

Definition get_presale (w : world) (k : addr) : res presale := ok_or (w_presales w !! k) AccountMissing.
Definition get_escrow (w : world) (k : addr) : res escrow := ok_or (w_escrows w !! k) AccountMissing.
Definition get_token (w : world) (k : addr) : res token := ok_or (w_tokens w !! k) AccountMissing.
Definition get_mint (w : world) (k : addr) : res mint := ok_or (w_mints w !! k) AccountMissing.

(** The clock as a u64: every handler starts with
    [Clock::get()?.unix_timestamp.safe_cast()?] (e.g. process_deposit.rs:42). *)
Definition clock (w : world) : res Z := cast_i64_u64 (w_now w).

(** * Events, events.rs.  [EvtFixedPricePresaleArgsClose] is never emitted (lib.rs:62-66). *)
Inductive event :=
| EvtFixedPricePresaleArgsCreate (presale : addr) (q_price : Z)                     (* 3-7 *)
| EvtPresaleVaultCreate (base_mint quote_mint : addr) (regs : list registry_args)
    (lock vest wl mode start end_ max_cap min_cap : Z)                              (* 16-29 *)
| EvtEscrowCreate (presale owner : addr) (wl total_escrow : Z)                      (* 31-37 *)
| EvtMerkleRootConfigCreate (owner config presale : addr) (version : Z) (root : bytes)
                                                                                    (* 39-46 *)
| EvtDeposit (presale escrow : addr) (amount escrow_total presale_total : Z)
    (owner : addr) (fee : Z)                                                        (* 48-57 *)
| EvtWithdraw (presale escrow : addr) (amount escrow_total presale_total : Z)
    (owner : addr)                                                                  (* 59-67 *)
| EvtClaim (presale escrow : addr) (amount escrow_total presale_total : Z)
    (owner : addr)                                                                  (* 69-77 *)
| EvtWithdrawRemainingQuote (presale escrow owner : addr) (amount presale_total : Z)(* 79-86 *)
| EvtPerformUnsoldBaseTokenAction (presale : addr) (unsold action : Z)              (* 88-93 *)
| EvtEscrowClose (presale escrow owner rent_receiver : addr)                        (* 95-101 *)
| EvtCreatorWithdraw (presale : addr) (amount : Z) (creator : addr) (progress : Z)  (* 103-109 *)
| EvtEscrowRefresh (presale escrow owner : addr) (now pending : Z)                  (* 111-118 *)
| EvtOperatorCreate (creator operator operator_owner : addr)                        (* 120-125 *)
| EvtPermissionedServerMetadataCreate (presale meta : addr) (url : bytes)           (* 127-132 *)
| EvtPermissionedServerMetadataClose (presale meta : addr)                          (* 134-138 *)
| EvtCreatorCollectFee (presale owner : addr) (amount : Z)                          (* 140-145 *)
| EvtCloseMerkleRootConfig (presale config owner : addr).                           (* 147-152 *)

(** Observable effects of an operation, in order. *)
Inductive fx :=
| FxTransfer (src dst auth mint : addr) (amount fee : Z)  (* [amount] debited, [fee] withheld *)
| FxBurn (src mint : addr) (amount : Z)
| FxEvent (ev : event).

(** * Token program *)

(** The PermanentDelegate extension exists only on Token-2022 mints. *)
Definition permanent_delegate (m : mint) : option addr :=
  match m_prog m with SplToken => None | Token2022 => m_delegate m end.

(** Authority check of a transfer or burn (spl-token / spl-token-2022 [process_transfer],
    [process_burn]): the account delegate, the permanent delegate of the mint, or the owner.
    Returns the new delegation of the source account. *)
Definition tok_authorize (m : mint) (s : token) (auth : addr) (amount : Z)
    : res (option (addr * Z)) :=
  let by_owner :=
    let* _ := require (bool_decide (permanent_delegate m = Some auth) || beq_addr auth (t_owner s))
                TokenOwnerMismatch in
    Ok (t_delegate s) in
  match t_delegate s with
  | Some (d, n) =>
    if beq_addr d auth then
      let* _ := require (amount <=? n) TokenInsufficientFunds in
      Ok (if n - amount =? 0 then None else Some (d, n - amount))
    else by_owner
  | None => by_owner
  end.

(** The fee withheld by the token program on a transfer. *)
Definition tok_fee (m : mint) (amount : Z) : Z :=
  match get_epoch_transfer_fee m with Some f => spl_calculate_fee f amount | None => 0 end.

(** spl-token / spl-token-2022 TransferChecked, except for the memo and the CPI guard.  A self
    transfer is validated but moves nothing. *)
Definition tok_transfer (w : world) (pr : prog) (src mk dst auth : addr) (amount : Z)
    (hook_ok : bool) : res (world * list fx) :=
  let* m := get_mint w mk in
  let* s := get_token w src in
  let* d := get_token w dst in
  let* _ := require (bool_decide (m_prog m = pr)) TokenProgramMismatch in
  let* _ := require (negb (t_frozen s) && negb (t_frozen d)) TokenFrozen in
  let* _ := require (amount <=? t_amount s) TokenInsufficientFunds in
  let* _ := require (beq_addr (t_mint s) mk && beq_addr (t_mint d) mk) TokenMintMismatch in
  let* dl := tok_authorize m s auth amount in
  if beq_addr src dst then Ok (w, [FxTransfer src dst auth mk amount 0]) else
  let fee := tok_fee m amount in
  let* _ := require (t_amount d + (amount - fee) <=? U64MAX) TokenOverflow in
  let* _ := require (negb (has_transfer_hook_program m) || hook_ok) HookFailed in
  let w1 := upd_token src (set_t_delegate dl (set_t_amount (t_amount s - amount) s)) w in
  let w2 := upd_token dst (set_t_amount (t_amount d + (amount - fee)) d) w1 in
  let w3 := upd_mint mk (set_m_withheld (m_withheld m + fee) m) w2 in
  Ok (w3, [FxTransfer src dst auth mk amount fee]).

(** spl-token / spl-token-2022 Burn *)
Definition tok_burn (w : world) (pr : prog) (src mk auth : addr) (amount : Z)
    : res (world * list fx) :=
  let* m := get_mint w mk in
  let* s := get_token w src in
  let* _ := require (bool_decide (m_prog m = pr)) TokenProgramMismatch in
  let* _ := require (negb (t_frozen s)) TokenFrozen in
  let* _ := require (amount <=? t_amount s) TokenInsufficientFunds in
  let* _ := require (beq_addr (t_mint s) mk) TokenMintMismatch in
  let* dl := tok_authorize m s auth amount in
  let w1 := upd_token src (set_t_delegate dl (set_t_amount (t_amount s - amount) s)) w in
  let w2 := upd_mint mk (set_m_supply (m_supply m - amount) m) w1 in
  Ok (w2, [FxBurn src mk amount]).

(** The CPI guard of the source account stops its owner, not a delegate, when the token program is
    called by another program. *)
Definition guard_blocks (m : mint) (s : token) (auth : addr) (cpi : bool) : bool :=
  match m_prog m with
  | SplToken => false
  | Token2022 =>
    cpi && t_guard s && negb (bool_decide (permanent_delegate m = Some auth))
    && match t_delegate s with Some (d, _) => negb (beq_addr d auth) | None => true end
  end.

(** MemoTransfer of the destination, as spl-token-2022 reads it (the program's own reading is
    [is_transfer_memo_required]). *)
Definition wants_memo (m : mint) (d : token) : bool :=
  match m_prog m with SplToken => false | Token2022 => t_memo d end.

(** spl-token / spl-token-2022 TransferChecked.  [memo]: the instruction just before it, at the
    same level, is a memo.  [cpi]: it is called by a program, not by the transaction.  (All checks
    of the token program happen before anything changes, so their order does not matter.) *)
Definition tok_transfer_checked (w : world) (pr : prog) (src mk dst auth : addr) (amount : Z)
    (memo cpi hook_ok : bool) : res (world * list fx) :=
  let* m := get_mint w mk in
  let* s := get_token w src in
  let* d := get_token w dst in
  let* _ := require (negb (wants_memo m d) || memo) TokenNoMemo in
  let* _ := require (negb (guard_blocks m s auth cpi)) TokenCpiGuard in
  tok_transfer w pr src mk dst auth amount hook_ok.

(** Burn, called by another program. Neither token program burns wrapped SOL
    ([NativeNotSupported]). *)
Definition tok_burn_cpi (w : world) (pr : prog) (src mk auth : addr) (amount : Z)
    : res (world * list fx) :=
  let* m := get_mint w mk in
  let* s := get_token w src in
  let* _ := require (negb (guard_blocks m s auth true)) TokenCpiGuard in
  let* _ := require (negb (m_native m)) TokenNative in
  tok_burn w pr src mk auth amount.

(** * token2022.rs transfers *)

(** token2022.rs:308-329 and 375-396 *)
Definition check_hook_accounts (m : mint) (hook_accounts : option (list addr)) : res unit :=
  if has_transfer_hook_program m then
    match hook_accounts with
    | Some _ => Ok tt
    | None => Err MissingRemainingAccountForTransferHook
    end
  else
    match hook_accounts with
    | Some _ => Err NoTransferHookProgram
    | None => Ok tt
    end.

(** token2022.rs:283-290 and 348-355: whether a memo is sent just before the transfer.
    [memo_ctx] says whether the caller passes a [MemoTransferContext]. *)
Definition sends_memo (w : world) (m : mint) (dst : addr) (memo_ctx : bool) : res bool :=
  let* d := get_token w dst in
  Ok (memo_ctx && is_transfer_memo_required m d).

(** token2022.rs:271-334 *)
Definition transfer_from_user (w : world) (authority mk src dst : addr) (pr : prog)
    (amount : Z) (memo_ctx : bool) (hook_accounts : option (list addr)) (hook_ok : bool)
    : res (world * list fx) :=
  let* m := get_mint w mk in
  let* memo := sends_memo w m dst memo_ctx in
  let* _ := check_hook_accounts m hook_accounts in
  tok_transfer_checked w pr src mk dst authority amount memo true hook_ok.

(** token2022.rs:336-405; signs as the presale authority PDA *)
Definition transfer_from_presale_to_user (w : world) (mk vault dst : addr) (pr : prog)
    (amount : Z) (memo_ctx : bool) (hook_accounts : option (list addr)) (hook_ok : bool)
    : res (world * list fx) :=
  let* m := get_mint w mk in
  let* memo := sends_memo w m dst memo_ctx in
  let* _ := check_hook_accounts m hook_accounts in
  tok_transfer_checked w pr vault mk dst PAuth amount memo true hook_ok.
