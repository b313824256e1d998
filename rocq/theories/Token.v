(** Model of the token programs as used by token2022.rs, and of token2022.rs itself.

    Token side simplifications (they apply to every definition of this file): decimals
    and multisig owners are not modelled, lamports only in Rent.v; a mint has a single current transfer
    fee (the scheduled one for a later epoch appears as an [ESetFee] step); withheld fees are
    kept per mint instead of per account; the native mint is an ordinary mint whose wrap / unwrap
    are mint / burn; a transfer hook can only accept or reject. *)
From Verif Require Import Base Math.

(** * Mints and token accounts *)

(** Token-2022 extensions of a mint which carry no further data in the model. *)
Inductive ext := ExtMetadataPointer | ExtTokenMetadata | ExtMintCloseAuthority | ExtOther (n : N).
#[global] Instance ext_eq_dec : EqDecision ext.
Proof. solve_decision. Defined.

(** spl-token-2022 TransferFee *)
Record tfee := mkFee { f_bps : Z; f_max : Z }.

Record mint := mkMint {
  m_prog : prog;                (* owning token program *)
  m_native : bool;              (* the native mint (wrapped SOL) of its token program *)
  m_exts : list ext;            (* extensions without further data *)
  m_fee : option tfee;          (* TransferFeeConfig extension: current epoch fee *)
  m_hook : option bool;         (* TransferHook extension: is a hook program set? *)
  m_delegate : option addr;     (* PermanentDelegate extension *)
  m_freezable : bool;           (* has a freeze authority *)
  m_supply : Z;
  m_withheld : Z
}.

Definition set_m_supply (v : Z) (m : mint) : mint :=
  mkMint (m_prog m) (m_native m) (m_exts m) (m_fee m) (m_hook m) (m_delegate m) (m_freezable m)
    v (m_withheld m).
Definition set_m_withheld (v : Z) (m : mint) : mint :=
  mkMint (m_prog m) (m_native m) (m_exts m) (m_fee m) (m_hook m) (m_delegate m) (m_freezable m)
    (m_supply m) v.
Definition set_m_fee (v : option tfee) (m : mint) : mint :=
  mkMint (m_prog m) (m_native m) (m_exts m) v (m_hook m) (m_delegate m) (m_freezable m)
    (m_supply m) (m_withheld m).
Definition set_m_hook (v : option bool) (m : mint) : mint :=
  mkMint (m_prog m) (m_native m) (m_exts m) (m_fee m) v (m_delegate m) (m_freezable m)
    (m_supply m) (m_withheld m).

Record token := mkTok {
  t_mint : addr;
  t_owner : addr;
  t_amount : Z;
  t_frozen : bool;
  t_delegate : option (addr * Z);  (* delegate and delegated amount *)
  t_memo : bool;                   (* MemoTransfer: incoming transfers need a memo *)
  t_guard : bool                   (* CpiGuard: the owner cannot send through a program *)
}.

Definition set_t_amount (v : Z) (t : token) : token :=
  mkTok (t_mint t) (t_owner t) v (t_frozen t) (t_delegate t) (t_memo t) (t_guard t).
Definition set_t_frozen (v : bool) (t : token) : token :=
  mkTok (t_mint t) (t_owner t) (t_amount t) v (t_delegate t) (t_memo t) (t_guard t).
Definition set_t_delegate (v : option (addr * Z)) (t : token) : token :=
  mkTok (t_mint t) (t_owner t) (t_amount t) (t_frozen t) v (t_memo t) (t_guard t).
Definition set_t_memo (v : bool) (t : token) : token :=
  mkTok (t_mint t) (t_owner t) (t_amount t) (t_frozen t) (t_delegate t) v (t_guard t).
Definition set_t_guard (v : bool) (t : token) : token :=
  mkTok (t_mint t) (t_owner t) (t_amount t) (t_frozen t) (t_delegate t) (t_memo t) v.

(** * spl-token-2022 extension/transfer_fee: TransferFee methods *)

(** TransferFee::calculate_fee *)
Definition spl_calculate_fee (f : tfee) (amount : Z) : Z :=
  if (f_bps f =? 0) || (amount =? 0) then 0
  else Z.min (div_ceil (amount * f_bps f) MAX_FEE_BASIS_POINTS) (f_max f).

(** TransferFee::calculate_pre_fee_amount *)
Definition spl_pre_fee_amount (f : tfee) (post : Z) : option Z :=
  if f_bps f =? 0 then Some post
  else if post =? 0 then Some 0
  else if f_bps f =? MAX_FEE_BASIS_POINTS then
    if f_max f + post <=? U64MAX then Some (f_max f + post) else None
  else
    let raw := div_ceil (post * MAX_FEE_BASIS_POINTS) (MAX_FEE_BASIS_POINTS - f_bps f) in
    if f_max f <=? raw - post then
      if post + f_max f <=? U64MAX then Some (post + f_max f) else None
    else if raw <=? U64MAX then Some raw else None.

(** TransferFee::calculate_inverse_fee *)
Definition spl_inverse_fee (f : tfee) (post : Z) : option Z :=
  match spl_pre_fee_amount f post with
  | Some pre => Some (spl_calculate_fee f pre)
  | None => None
  end.

(** * token2022.rs *)

(** token2022.rs:138-157 *)
Definition get_epoch_transfer_fee (m : mint) : option tfee :=
  match m_prog m with SplToken => None | Token2022 => m_fee m end.

(** token2022.rs:230-247; [m] is the mint of [t], whose program owns the account *)
Definition is_transfer_memo_required (m : mint) (t : token) : bool :=
  match m_prog m with SplToken => false | Token2022 => t_memo t end.

(** token2022.rs:249-263; [true] if a hook program is set *)
Definition has_transfer_hook_program (m : mint) : bool :=
  match m_prog m with
  | SplToken => false
  | Token2022 => match m_hook m with Some b => b | None => false end
  end.

(** token2022.rs:18-41.  The data-carrying extensions TransferFeeConfig and TransferHook are on
    the allowed list, PermanentDelegate is not. *)
Definition is_supported_mint (m : mint) : bool :=
  match m_prog m with
  | SplToken => true
  | Token2022 =>
    negb (m_native m)
    && match m_delegate m with Some _ => false | None => true end
    && forallb (fun e => match e with
                         | ExtMetadataPointer | ExtTokenMetadata => true
                         | _ => false
                         end) (m_exts m)
  end.

(** token2022.rs:64-85; returns the amount net of the transfer fee *)
Definition calculate_transfer_fee_excluded_amount (m : mint) (amount : Z) : res Z :=
  match get_epoch_transfer_fee m with
  | Some f =>
    let fee := spl_calculate_fee f amount in
    safe_sub amount fee
  | None => Ok amount
  end.

(** token2022.rs:87-136; returns the gross amount *)
Definition calculate_transfer_fee_included_amount (m : mint) (amount : Z) : res Z :=
  if amount =? 0 then Ok 0 else
  match get_epoch_transfer_fee m with
  | Some f =>
    let* fee :=
      if f_bps f =? MAX_FEE_BASIS_POINTS then Ok (f_max f)
      else ok_or (spl_inverse_fee f amount) MathOverflow in
    let* included := safe_add U64MAX amount fee in
    let* _ := require (fee =? spl_calculate_fee f included) Panic in
    Ok included
  | None => Ok amount
  end.

(** token2022.rs:159-163 *)
Inductive accounts_type := TransferHookBase | TransferHookQuote.
#[global] Instance accounts_type_eq_dec : EqDecision accounts_type.
Proof. solve_decision. Defined.

(** token2022.rs:165-174 *)
Record ra_slice := mkSlice { sl_type : accounts_type; sl_len : Z }.

(** token2022.rs:176-180 *)
Record parsed_hooks := mkParsed {
  ph_base : option (list addr);
  ph_quote : option (list addr)
}.

(** token2022.rs:194-225 *)
Fixpoint parse_loop (slices : list ra_slice) (valid : list accounts_type)
    (remaining : list addr) (acc : parsed_hooks) : res (parsed_hooks * list addr) :=
  match slices with
  | [] => Ok (acc, remaining)
  | s :: rest =>
    if negb (bool_decide (sl_type s ∈ valid)) then Err InvalidRemainingAccountSlice
    else if sl_len s =? 0 then parse_loop rest valid remaining acc
    else if Z.of_nat (length remaining) <? sl_len s then Err InvalidRemainingAccountSlice
    else
      let accounts := take (Z.to_nat (sl_len s)) remaining in
      let remaining' := drop (Z.to_nat (sl_len s)) remaining in
      match sl_type s with
      | TransferHookBase =>
        match ph_base acc with
        | Some _ => Err DuplicatedRemainingAccountTypes
        | None => parse_loop rest valid remaining' (mkParsed (Some accounts) (ph_quote acc))
        end
      | TransferHookQuote =>
        match ph_quote acc with
        | Some _ => Err DuplicatedRemainingAccountTypes
        | None => parse_loop rest valid remaining' (mkParsed (ph_base acc) (Some accounts))
        end
      end
  end.

(** token2022.rs:183-228 *)
Definition parse_remaining_accounts_for_transfer_hook (remaining : list addr)
    (slices : list ra_slice) (valid : list accounts_type) : res (parsed_hooks * list addr) :=
  match slices with
  | [] => Ok (mkParsed None None, remaining)
  | _ => parse_loop slices valid remaining (mkParsed None None)
  end.
