(** Instruction data as bytes: Borsh, the argument structs of the instructions and the dispatcher that
    Anchor generates for lib.rs:50-183.  The decoders assume that the data consists of bytes. *)
From Coq Require Import String.
From Verif Require Import Base Math State Handlers Token World Instr Exec Sha256 Layout.

(** * Borsh

    [enc] is [AnchorSerialize], [dec] is [AnchorDeserialize] on the front of a byte string ([None] for
    any error), [valid] says which values of the Gallina type exist in the Rust type. *)
Record codec (A : Type) := mkCodec { enc : A -> bytes; dec : bytes -> option (A * bytes); valid : A -> bool }.
Arguments mkCodec {A} enc dec valid.
Arguments enc {A} c. Arguments dec {A} c. Arguments valid {A} c.

(** Unsigned integers of [n] bytes *)
Definition c_int (n : nat) : codec Z := mkCodec (le_bytes n)
  (fun b => if (n <=? List.length b)%nat then Some (of_le (take n b), drop n b) else None)
  (fun z => (0 <=? z) && (z <? 2 ^ (8 * Z.of_nat n))).

(** [[u8; n]]; also [Pubkey] ([n = 32]) and [[u64; 8]], which is only used as padding ([n = 64]) *)
Definition c_array (n : nat) : codec bytes := mkCodec id
  (fun b => if (n <=? List.length b)%nat then Some (take n b, drop n b) else None)
  (fun x => (List.length x =? n)%nat && forallb in_u8 x).

Definition c_unit : codec unit := mkCodec (fun _ => []) (fun b => Some (tt, b)) (fun _ => true).

(** The fields of a struct, one after the other *)
Definition c_pair {A B} (c : codec A) (d : codec B) : codec (A * B) := mkCodec
  (fun x => enc c x.1 ++ enc d x.2)
  (fun b => match dec c b with
            | Some (x, b) => match dec d b with Some (y, b) => Some ((x, y), b) | None => None end
            | None => None
            end)
  (fun x => valid c x.1 && valid d x.2).

(** [Vec<T>]: a [u32] length, then the elements.  The elements used here have at least one byte, so a
    length beyond the rest of the data fails in any case; it is rejected at once to keep the
    recursion short. *)
Fixpoint dec_list {A} (c : codec A) (n : nat) (b : bytes) : option (list A * bytes) :=
  match n with
  | O => Some ([], b)
  | S n => match dec c b with
           | Some (x, b) => match dec_list c n b with Some (l, b) => Some (x :: l, b) | None => None end
           | None => None
           end
  end.
Definition c_vec {A} (c : codec A) : codec (list A) := mkCodec
  (fun l => le_bytes 4 (Z.of_nat (List.length l)) ++ concat (map (enc c) l))
  (fun b => match dec (c_int 4) b with
            | Some (n, b) => if n <=? Z.of_nat (List.length b) then dec_list c (Z.to_nat n) b else None
            | None => None
            end)
  (fun l => (Z.of_nat (List.length l) <? 2 ^ 32) && forallb (valid c) l).

(** [core::str::from_utf8]: the well formed byte sequences of the Unicode standard, table 3-7 *)
Definition cont (x : Z) : bool := (0x80 <=? x) && (x <=? 0xbf).
Fixpoint utf8 (b : bytes) : bool :=
  match b with
  | [] => true
  | x :: b1 =>
    if x <=? 0x7f then utf8 b1 else
    match b1 with
    | [] => false
    | y :: b2 =>
      if (0xc2 <=? x) && (x <=? 0xdf) then cont y && utf8 b2 else
      match b2 with
      | [] => false
      | z :: b3 =>
        if (0xe0 <=? x) && (x <=? 0xef) then
          cont y && (negb (x =? 0xe0) || (0xa0 <=? y)) && (negb (x =? 0xed) || (y <=? 0x9f)) && cont z && utf8 b3
        else
        match b3 with
        | [] => false
        | t :: b4 =>
          (0xf0 <=? x) && (x <=? 0xf4) && cont y && (negb (x =? 0xf0) || (0x90 <=? y))
          && (negb (x =? 0xf4) || (y <=? 0x8f)) && cont z && cont t && utf8 b4
        end
      end
    end
  end.

(** [String] *)
Definition c_string : codec bytes := mkCodec
  (fun x => le_bytes 4 (Z.of_nat (List.length x)) ++ x)
  (fun b => match dec (c_int 4) b with
            | Some (n, b) =>
              if n <=? Z.of_nat (List.length b) then
                let x := take (Z.to_nat n) b in if utf8 x then Some (x, drop (Z.to_nat n) b) else None
              else None
            | None => None
            end)
  (fun x => (Z.of_nat (List.length x) <? 2 ^ 32) && forallb in_u8 x && utf8 x).

(** A struct as a record of the model: [f] and [g] are inverse to each other *)
Definition c_iso {A B} (f : A -> B) (g : B -> A) (c : codec A) : codec B := mkCodec
  (fun x => enc c (g x))
  (fun b => match dec c b with Some (x, b) => Some (f x, b) | None => None end)
  (fun x => valid c (g x)).

(** * The argument types *)

Definition c_u8 := c_int 1.
Definition c_u16 := c_int 2.
Definition c_u64 := c_int 8.
Definition c_u128 := c_int 16.

(** token2022.rs:159-163: the variant is one byte *)
Definition c_accounts_type : codec accounts_type := mkCodec
  (fun t => match t with TransferHookBase => [0] | TransferHookQuote => [1] end)
  (fun b => match b with
            | x :: b => if x =? 0 then Some (TransferHookBase, b) else if x =? 1 then Some (TransferHookQuote, b) else None
            | [] => None
            end)
  (fun _ => true).

(** token2022.rs:165-174 *)
Definition c_slice : codec ra_slice :=
  c_iso (fun x => mkSlice x.1 x.2) (fun s => (sl_type s, sl_len s)) (c_pair c_accounts_type c_u8).
Definition c_slices : codec (list ra_slice) := c_vec c_slice.

(** initialize_presale/params.rs:79-86, with its padding *)
Definition c_registry_args : codec (registry_args * bytes) :=
  c_iso (fun '(mn, (mx, (s, (f, pad)))) => (mkRegArgs mn mx s f, pad))
    (fun x => (ra_min x.1, (ra_max x.1, (ra_supply x.1, (ra_fee_bps x.1, x.2)))))
    (c_pair c_u64 (c_pair c_u64 (c_pair c_u64 (c_pair c_u16 (c_array 32))))).

(** params.rs:123-136, with its padding *)
Definition c_presale_args : codec (presale_args * bytes) :=
  c_iso (fun '(mx, (mn, (s, (e, (wl, (md, (un, (de, pad)))))))) => (mkPreArgs mx mn s e wl md un de, pad))
    (fun x => (pa_max_cap x.1, (pa_min_cap x.1, (pa_start x.1, (pa_end x.1,
      (pa_wl x.1, (pa_mode x.1, (pa_unsold x.1, (pa_disable_early x.1, x.2)))))))))
    (c_pair c_u64 (c_pair c_u64 (c_pair c_u64 (c_pair c_u64 (c_pair c_u8 (c_pair c_u8 (c_pair c_u8
      (c_pair c_u8 (c_array 30))))))))).

(** params.rs:202-214; the padding is a field of the record *)
Definition c_locked_args : codec locked_args :=
  c_iso (fun '(b, (l, (v, (i, pad)))) => mkLocked b l v i pad)
    (fun x => (lv_bps x, (lv_lock x, (lv_vest x, (lv_imm_ts x, lv_padding x)))))
    (c_pair c_u16 (c_pair c_u64 (c_pair c_u64 (c_pair c_u64 (c_array 24))))).

(** params.rs:43-49 *)
Definition wire_init_args : Type := (presale_args * bytes) * (locked_args * (bytes * list (registry_args * bytes))).
Definition c_init_args : codec wire_init_args :=
  c_pair c_presale_args (c_pair c_locked_args (c_pair (c_array 32) (c_vec c_registry_args))).

(** * The instructions, lib.rs:54-183, in order *)

Inductive iname :=
| NInitFixedArgs | NCloseFixedArgs | NInitPresale | NCreateMerkle | NCloseMerkle | NEscrowPermissionless
| NEscrowCreator | NEscrowMerkle | NCreateOperator | NRevokeOperator | NDeposit | NWithdraw | NClaim
| NWithdrawRemaining | NUnsold | NCloseEscrow | NCreatorWithdraw | NRefresh | NCreateServer | NCloseServer
| NCollectFee.

Definition all_names : list iname :=
  [NInitFixedArgs; NCloseFixedArgs; NInitPresale; NCreateMerkle; NCloseMerkle; NEscrowPermissionless;
   NEscrowCreator; NEscrowMerkle; NCreateOperator; NRevokeOperator; NDeposit; NWithdraw; NClaim;
   NWithdrawRemaining; NUnsold; NCloseEscrow; NCreatorWithdraw; NRefresh; NCreateServer; NCloseServer;
   NCollectFee].

Definition iname_string (n : iname) : string :=
  match n with
  | NInitFixedArgs => "initialize_fixed_price_presale_args"
  | NCloseFixedArgs => "close_fixed_price_presale_args"
  | NInitPresale => "initialize_presale"
  | NCreateMerkle => "create_merkle_root_config"
  | NCloseMerkle => "close_merkle_root_config"
  | NEscrowPermissionless => "create_permissionless_escrow"
  | NEscrowCreator => "create_permissioned_escrow_with_creator"
  | NEscrowMerkle => "create_permissioned_escrow_with_merkle_proof"
  | NCreateOperator => "create_operator"
  | NRevokeOperator => "revoke_operator"
  | NDeposit => "deposit"
  | NWithdraw => "withdraw"
  | NClaim => "claim"
  | NWithdrawRemaining => "withdraw_remaining_quote"
  | NUnsold => "perform_unsold_base_token_action"
  | NCloseEscrow => "close_escrow"
  | NCreatorWithdraw => "creator_withdraw"
  | NRefresh => "refresh_escrow"
  | NCreateServer => "create_permissioned_server_metadata"
  | NCloseServer => "close_permissioned_server_metadata"
  | NCollectFee => "creator_collect_fee"
  end.
Definition ix_discriminator (n : iname) : bytes := global_discriminator (iname_string n).

(** Anchor 0.31.1 [event::EVENT_IX_TAG_LE] and [idl::IDL_IX_TAG_LE], the two other prefixes the entry
    point knows; what happens after them (the program's own event calls, which need the signature of
    the event authority, and the IDL account) is not modelled. *)
Definition event_tag : bytes := le_bytes 8 0x1d9acb512ea545e4.
Definition idl_tag : bytes := le_bytes 8 0x0a69e9a778bcf440.

(** The arguments of each instruction *)
Definition payload (n : iname) : Type :=
  match n with
  | NInitFixedArgs => bytes * (Z * (Z * bytes))    (* process_initialize_extra_presale_params.rs:27-33 *)
  | NInitPresale => wire_init_args * list ra_slice
  | NCreateMerkle => bytes * Z                     (* process_create_merkle_root_config.rs:3-9 *)
  | NEscrowCreator => Z * (Z * bytes)              (* process_create_permissioned_escrow_with_creator.rs:8-13 *)
  | NEscrowMerkle => list bytes * (Z * (Z * bytes)) (* process_create_permissioned_escrow_with_merkle_proof.rs:14-20 *)
  | NDeposit | NWithdraw => Z * list ra_slice
  | NClaim | NWithdrawRemaining | NUnsold | NCreatorWithdraw | NCollectFee => list ra_slice
  | NCreateServer => bytes
  | _ => unit
  end.
Definition codec_of (n : iname) : codec (payload n) :=
  match n with
  | NInitFixedArgs => c_pair (c_array 32) (c_pair c_u8 (c_pair c_u128 (c_array 64)))
  | NInitPresale => c_pair c_init_args c_slices
  | NCreateMerkle => c_pair (c_array 32) c_u64
  | NEscrowCreator => c_pair c_u8 (c_pair c_u64 (c_array 32))
  | NEscrowMerkle => c_pair (c_vec (c_array 32)) (c_pair c_u8 (c_pair c_u64 (c_array 32)))
  | NDeposit | NWithdraw => c_pair c_u64 c_slices
  | NClaim | NWithdrawRemaining | NUnsold | NCreatorWithdraw | NCollectFee => c_slices
  | NCreateServer => c_string
  | _ => c_unit
  end.

(** An instruction with its arguments *)
Record ix := mkIx { ix_name : iname; ix_args : payload ix_name }.

Definition ix_valid (x : ix) : bool := valid (codec_of (ix_name x)) (ix_args x).
(** Anchor's generated [instruction::X.data()] *)
Definition encode_ix (x : ix) : bytes := ix_discriminator (ix_name x) ++ enc (codec_of (ix_name x)) (ix_args x).
(** Anchor's [dispatch]: the first instruction whose discriminator the data starts with; bytes after
    the arguments are ignored (they are returned here). *)
Definition decode_ix (data : bytes) : option (ix * bytes) :=
  match List.find (fun n => bool_decide (take 8 data = ix_discriminator n)) all_names with
  | Some n => match dec (codec_of n) (drop 8 data) with Some (v, rest) => Some (mkIx n v, rest) | None => None end
  | None => None
  end.
