(** Accounts as byte strings: [#[repr(C)]] layout of the zero copy accounts, Borsh for the server
    metadata, and the 8 byte discriminators that Anchor puts in front.  The rest of the model keeps
    accounts as records in one map per type; [P_Layout] proves that nothing is lost by that. *)
From Coq Require Import String.
From Verif Require Import Base Math State Handlers Token World Instr Seeds Sha256.

(** * Layout of a [#[repr(C)]] struct *)

(** A field: size and alignment in bytes. *)
Definition field : Type := Z * Z.
Definition u8 : field := (1, 1).
Definition u16 : field := (2, 2).
Definition u64 : field := (8, 8).
Definition u128 : field := (16, 16).
Definition pubkey : field := (32, 1).
Definition arr (n : Z) (t : field) : field := (n * t.1, t.2).

Definition round_up (off align : Z) : Z := (off + align - 1) / align * align.

(** Offset and size of every field, in order; the first free offset at the end. *)
Fixpoint place (off : Z) (l : list field) : list (Z * Z) * Z :=
  match l with
  | [] => ([], off)
  | (s, a) :: l =>
    let o := round_up off a in
    let '(rest, e) := place (o + s) l in ((o, s) :: rest, e)
  end.
Definition align_of (l : list field) : Z := foldr (fun f a => Z.max f.2 a) 1 l.
Definition size_of (l : list field) : Z := round_up (place 0 l).2 (align_of l).

(** state/presale_registry.rs:5-26 *)
Definition registry_fields : list field :=
  [u64; u64; u64; u64; u64; u64; u64; u64; u16; arr 14 u8; arr 5 u128].

(** state/presale.rs:80-157 *)
Definition presale_fields : list field :=
  [pubkey; pubkey; pubkey; pubkey; pubkey; pubkey;  (* owner .. base *)
   u8; u8; u8; arr 5 u8;                            (* padding0, modes, padding1 *)
   u64; u64; u64; u64; u64; u64; u64; u64;          (* maximum cap .. created_at *)
   u64; u64; u64; u64; u64; u64;                    (* lock_duration .. vesting_end_time, with padding2 *)
   u64; u64; u64;                                   (* claimed, refunded, fee *)
   u8; arr 7 u8;                                    (* deposit_fee_collected, padding3 *)
   u8; u8; u8; u8; u8; u8; u16;                     (* has_creator_withdrawn .. immediate_release_bps *)
   arr 3 u128; arr 4 u128;                          (* presale_mode_raw_data, padding4 *)
   arr 5 (size_of registry_fields, align_of registry_fields)].

(** state/escrow.rs:3-30 *)
Definition escrow_fields : list field :=
  [pubkey; pubkey; u64; u64; u8; u8; arr 6 u8; u64; u64; u64; u64; u64; arr 8 u64].

(** state/merkle_root_config.rs:4-17 *)
Definition merkle_fields : list field := [arr 32 u8; u64; pubkey; u64; arr 4 u128].

(** state/operator.rs:3-9 *)
Definition operator_fields : list field := [pubkey; pubkey; arr 8 u64].

(** state/fixed_price_presale_params.rs:3-12 *)
Definition fixed_fields : list field := [arr 15 u8; u8; u128; pubkey; pubkey; arr 4 u128].

(** fixed_price_presale.rs:75-82, fcfs_presale.rs:4-9: the two views of [presale_mode_raw_data] *)
Definition fixed_handler_fields : list field := [u128; u8; u8; arr 14 u8; u128].
Definition fcfs_handler_fields : list field := [u8; arr 15 u8; arr 2 u128].

(** * Reading and writing *)

(** Little endian integers ([to_le_bytes] is [le_bytes]) *)
Fixpoint of_le (b : bytes) : Z := match b with [] => 0 | x :: b => x + 256 * of_le b end.
Definition zeros (n : nat) : bytes := repeat 0 n.

Definition slice (b : bytes) (o s : Z) : bytes := take (Z.to_nat s) (drop (Z.to_nat o) b).
(** The bytes of every field of a struct stored in [b] *)
Definition parts (l : list field) (b : bytes) : list bytes := map (fun x => slice b x.1 x.2) (place 0 l).1.

(** Field [i] of a struct stored in [b] overwritten *)
Definition patch (l : list field) (i : nat) (v : bytes) (b : bytes) : bytes :=
  match (place 0 l).1 !! i with
  | Some (o, s) => take (Z.to_nat o) b ++ v ++ drop (Z.to_nat (o + s)) b
  | None => b
  end.

(** presale.rs:68-76 [TokenProgramFlags] *)
Definition prog_flag (p : prog) : Z := match p with SplToken => 0 | Token2022 => 1 end.
Definition flag_prog (z : Z) : prog := if z =? 1 then Token2022 else SplToken.

(** Anchor: the first 8 bytes of the hash of "account:Name", "global:name" *)
Definition account_discriminator (name : string) : bytes := take 8 (sha256 (str ("account:" ++ name))).
Definition global_discriminator (name : string) : bytes := take 8 (sha256 (str ("global:" ++ name))).

(** The account types of the program *)
Inductive kind := KPresale | KEscrow | KMerkleRoot | KOperator | KFixedArgs | KServer.
Definition kind_name (k : kind) : string :=
  match k with
  | KPresale => "Presale" | KEscrow => "Escrow" | KMerkleRoot => "MerkleRootConfig" | KOperator => "Operator"
  | KFixedArgs => "FixedPricePresaleExtraArgs" | KServer => "PermissionedServerMetadata"
  end.
Definition discriminator (k : kind) : bytes := account_discriminator (kind_name k).

(** Anchor [AccountLoader::load] and [Account::try_from]: the discriminator is compared, the rest is
    the struct *)
Definition body (k : kind) (b : bytes) : option bytes :=
  if bool_decide (take 8 b = discriminator k) then Some (drop 8 b) else None.

(** * The data of the presale mode *)

Definition raw_bytes (p : presale) : bytes := le_bytes 16 (p_raw0 p) ++ le_bytes 16 (p_raw1 p) ++ le_bytes 16 (p_raw2 p).

(** presale_mode_handler/mod.rs:74-94: [try_from_bytes] succeeds because size and alignment of both
    structs are those of [[u128; 3]] ([P_Layout]) *)
Definition handler_at (p : presale) : res handler :=
  let* m := cast_mode (p_mode p) in
  match m with
  | FixedPrice =>
    match parts fixed_handler_fields (raw_bytes p) with
    | [q; dw; de; _; _] => Ok (HFixed (of_le q) (of_le dw) (of_le de))
    | _ => Err UndeterminedError
    end
  | Prorata => Ok HProrata
  | Fcfs =>
    match parts fcfs_handler_fields (raw_bytes p) with
    | [de; _; _] => Ok (HFcfs (of_le de))
    | _ => Err UndeterminedError
    end
  end.

(** fixed_price_presale.rs:85-105, fcfs_presale.rs:12-27 *)
Definition fixed_write (q_price disable_early disable_withdraw : Z) (b : bytes) : bytes :=
  patch fixed_handler_fields 1 (le_bytes 1 disable_withdraw)
    (patch fixed_handler_fields 0 (le_bytes 16 q_price)
      (patch fixed_handler_fields 2 (le_bytes 1 disable_early) b)).
Definition fcfs_write (disable_early : Z) (b : bytes) : bytes :=
  patch fcfs_handler_fields 0 (le_bytes 1 disable_early) b.

Section WithCrypto.
Context `{Crypto}.

(** [find] stands for reading a stored key as an address. *)
Context (find : bytes -> addr).

Definition registry_parts (r : registry) : list bytes :=
  [le_bytes 8 (r_supply r); le_bytes 8 (r_deposit r); le_bytes 8 (r_escrows r); le_bytes 8 (r_claimed r);
   le_bytes 8 (r_refunded r); le_bytes 8 (r_min_cap r); le_bytes 8 (r_max_cap r); le_bytes 8 (r_fee r);
   le_bytes 2 (r_fee_bps r); zeros 14; zeros 80].
Definition registry_bytes (r : registry) : bytes := concat (registry_parts r).
Definition registry_read (b : bytes) : registry :=
  match parts registry_fields b with
  | [supply; dep; esc; cl; rf; mn; mx; fee; bps; _; _] =>
      mkReg (of_le supply) (of_le dep) (of_le esc) (of_le cl) (of_le rf) (of_le mn) (of_le mx) (of_le fee) (of_le bps)
  | _ => reg_zero
  end.

Definition presale_parts (p : presale) : list bytes :=
  [addr_bytes (p_owner p); addr_bytes (p_qmint p); addr_bytes (p_bmint p); addr_bytes (p_bvault p);
   addr_bytes (p_qvault p); addr_bytes (p_base p);
   zeros 1; le_bytes 1 (p_mode p); le_bytes 1 (p_wl p); zeros 5;
   le_bytes 8 (p_max_cap p); le_bytes 8 (p_min_cap p); le_bytes 8 (p_start p); le_bytes 8 (p_end p);
   le_bytes 8 (p_supply p); le_bytes 8 (p_deposit p); le_bytes 8 (p_escrows p); le_bytes 8 (p_created p);
   le_bytes 8 (p_lock p); le_bytes 8 (p_vest p); le_bytes 8 (p_imm_ts p); zeros 8; le_bytes 8 (p_vs p);
   le_bytes 8 (p_ve p); le_bytes 8 (p_claimed p); le_bytes 8 (p_refunded p); le_bytes 8 (p_fee p);
   le_bytes 1 (p_fee_col p); zeros 7; le_bytes 1 (p_cwd p); le_bytes 1 (prog_flag (p_bprog p));
   le_bytes 1 (prog_flag (p_qprog p)); le_bytes 1 (p_nreg p); le_bytes 1 (p_unsold p);
   le_bytes 1 (p_unsold_done p); le_bytes 2 (p_bps p);
   raw_bytes p; zeros 64;
   concat (map registry_bytes (p_regs p))].
Definition presale_data (p : presale) : bytes := discriminator KPresale ++ concat (presale_parts p).
Definition presale_load (b : bytes) : option presale :=
  match body KPresale b with
  | None => None
  | Some b =>
    match parts presale_fields b with
    | [owner; qmint; bmint; bvault; qvault; base; _; mode; wl; _; mx; mn; start; en; supply; dep; esc; cr; lock;
       vest; imm; _; vs; ve; cl; rf; fee; fc; _; cwd; bp; qp; nreg; unsold; done; bps; raw; _; regs] =>
      Some (mkPre (find owner) (find qmint) (find bmint) (find bvault) (find qvault) (find base) (of_le mode)
        (of_le wl) (of_le mx) (of_le mn) (of_le start) (of_le en) (of_le supply) (of_le dep) (of_le esc)
        (of_le cr) (of_le lock) (of_le vest) (of_le imm) (of_le vs) (of_le ve) (of_le cl) (of_le rf) (of_le fee)
        (of_le fc) (of_le cwd) (flag_prog (of_le bp)) (flag_prog (of_le qp)) (of_le nreg) (of_le unsold)
        (of_le done) (of_le bps) (of_le (slice raw 0 16)) (of_le (slice raw 16 16)) (of_le (slice raw 32 16))
        (map (fun i => registry_read (slice regs (i * size_of registry_fields) (size_of registry_fields)))
           [0; 1; 2; 3; 4]))
    | _ => None
    end
  end.

Definition escrow_parts (e : escrow) : list bytes :=
  [addr_bytes (e_presale e); addr_bytes (e_owner e); le_bytes 8 (e_deposit e); le_bytes 8 (e_claimed e);
   le_bytes 1 (e_withdrawn e); le_bytes 1 (e_idx e); zeros 6; le_bytes 8 (e_pending e); le_bytes 8 (e_cap e);
   le_bytes 8 (e_created e); le_bytes 8 (e_fee e); le_bytes 8 (e_refreshed e); zeros 64].
Definition escrow_data (e : escrow) : bytes := discriminator KEscrow ++ concat (escrow_parts e).
Definition escrow_load (b : bytes) : option escrow :=
  match body KEscrow b with
  | None => None
  | Some b =>
    match parts escrow_fields b with
    | [presale; owner; dep; cl; wd; idx; _; pend; cap; cr; fee; rf; _] =>
      Some (mkEsc (find presale) (find owner) (of_le dep) (of_le cl) (of_le wd) (of_le idx) (of_le pend) (of_le cap)
              (of_le cr) (of_le fee) (of_le rf))
    | _ => None
    end
  end.

Definition merkle_parts (c : merkle_cfg) : list bytes :=
  [k_root c; zeros 8; addr_bytes (k_presale c); le_bytes 8 (k_version c); zeros 64].
Definition merkle_data (c : merkle_cfg) : bytes := discriminator KMerkleRoot ++ concat (merkle_parts c).
Definition merkle_load (b : bytes) : option merkle_cfg :=
  match body KMerkleRoot b with
  | None => None
  | Some b =>
    match parts merkle_fields b with
    | [root; _; presale; version; _] => Some (mkMerkle root (find presale) (of_le version))
    | _ => None
    end
  end.

Definition operator_parts (o : operator) : list bytes := [addr_bytes (o_owner o); addr_bytes (o_creator o); zeros 64].
Definition operator_data (o : operator) : bytes := discriminator KOperator ++ concat (operator_parts o).
Definition operator_load (b : bytes) : option operator :=
  match body KOperator b with
  | None => None
  | Some b =>
    match parts operator_fields b with
    | [owner; creator; _] => Some (mkOper (find owner) (find creator))
    | _ => None
    end
  end.

Definition fixed_parts (x : fixed_args) : list bytes :=
  [zeros 15; le_bytes 1 (x_disable_withdraw x); le_bytes 16 (x_qprice x); addr_bytes (x_owner x);
   addr_bytes (x_presale x); zeros 64].
Definition fixed_data (x : fixed_args) : bytes := discriminator KFixedArgs ++ concat (fixed_parts x).
Definition fixed_load (b : bytes) : option fixed_args :=
  match body KFixedArgs b with
  | None => None
  | Some b =>
    match parts fixed_fields b with
    | [_; dw; q; owner; presale; _] => Some (mkFixed (find presale) (find owner) (of_le q) (of_le dw))
    | _ => None
    end
  end.

(** state/permissioned_server_metadata.rs:3-10, Borsh; space of the account :19-24 and
    process_create_permissioned_server_metadata.rs:20 *)
Definition server_space (url : bytes) : Z := 8 + (32 + 16 * 8 + 4 + Z.of_nat (length url)).
Definition server_data (s : server_meta) : bytes :=
  discriminator KServer ++ addr_bytes (s_presale s) ++ zeros 128 ++ le_bytes 4 (Z.of_nat (length (s_url s))) ++ s_url s.
Definition server_load (b : bytes) : option server_meta :=
  match body KServer b with
  | None => None
  | Some b =>
    let n := of_le (slice b 160 4) in
    if Z.of_nat (length b) <? 164 + n then None
    else Some (mkServer (find (slice b 0 32)) (slice b 164 n))
  end.

End WithCrypto.
