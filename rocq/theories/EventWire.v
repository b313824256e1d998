(** Events as bytes: what [emit_cpi!] hands to the program itself, events.rs:3-152. *)
From Coq Require Import String.
From Verif Require Import Base Math State Handlers Token World Seeds Sha256 Layout Borsh.

(** The event structs in the order of events.rs.  [EvtFixedPricePresaleArgsClose] is declared and never
    emitted. *)
Inductive vname :=
| VFixedCreate | VFixedClose | VPresaleCreate | VEscrowCreate | VMerkleCreate | VDeposit | VWithdraw
| VClaim | VRemaining | VUnsold | VEscrowClose | VCreatorWithdraw | VRefresh | VOperatorCreate
| VServerCreate | VServerClose | VCollectFee | VMerkleClose.

Definition all_events : list vname :=
  [VFixedCreate; VFixedClose; VPresaleCreate; VEscrowCreate; VMerkleCreate; VDeposit; VWithdraw;
   VClaim; VRemaining; VUnsold; VEscrowClose; VCreatorWithdraw; VRefresh; VOperatorCreate;
   VServerCreate; VServerClose; VCollectFee; VMerkleClose].

Definition vname_string (n : vname) : string :=
  match n with
  | VFixedCreate => "EvtFixedPricePresaleArgsCreate"
  | VFixedClose => "EvtFixedPricePresaleArgsClose"
  | VPresaleCreate => "EvtPresaleVaultCreate"
  | VEscrowCreate => "EvtEscrowCreate"
  | VMerkleCreate => "EvtMerkleRootConfigCreate"
  | VDeposit => "EvtDeposit"
  | VWithdraw => "EvtWithdraw"
  | VClaim => "EvtClaim"
  | VRemaining => "EvtWithdrawRemainingQuote"
  | VUnsold => "EvtPerformUnsoldBaseTokenAction"
  | VEscrowClose => "EvtEscrowClose"
  | VCreatorWithdraw => "EvtCreatorWithdraw"
  | VRefresh => "EvtEscrowRefresh"
  | VOperatorCreate => "EvtOperatorCreate"
  | VServerCreate => "EvtPermissionedServerMetadataCreate"
  | VServerClose => "EvtPermissionedServerMetadataClose"
  | VCollectFee => "EvtCreatorCollectFee"
  | VMerkleClose => "EvtCloseMerkleRootConfig"
  end.
(** Anchor's [Event] derive: the discriminator of an event *)
Definition event_discriminator (n : vname) : bytes := take 8 (sha256 (str ("event:" ++ vname_string n))).

(** The fields of each struct, in the order of declaration; a [Pubkey] is its 32 bytes *)
Definition c_key : codec bytes := c_array 32.
Definition ev_payload (n : vname) : Type :=
  match n with
  | VFixedCreate => bytes * Z    (* 3-7 *)
  | VFixedClose => bytes * (bytes * bytes)    (* 9-14 *)
  | VPresaleCreate => bytes * (bytes * (list (registry_args * bytes) * (Z * (Z * (Z * (Z * (Z * (Z * (Z * Z)))))))))    (* 16-29 *)
  | VEscrowCreate => bytes * (bytes * (Z * Z))    (* 31-37 *)
  | VMerkleCreate => bytes * (bytes * (bytes * (Z * bytes)))    (* 39-46 *)
  | VDeposit => bytes * (bytes * (Z * (Z * (Z * (bytes * Z)))))    (* 48-57 *)
  | VWithdraw => bytes * (bytes * (Z * (Z * (Z * bytes))))    (* 59-67 *)
  | VClaim => bytes * (bytes * (Z * (Z * (Z * bytes))))    (* 69-77 *)
  | VRemaining => bytes * (bytes * (bytes * (Z * Z)))    (* 79-86 *)
  | VUnsold => bytes * (Z * Z)    (* 88-93 *)
  | VEscrowClose => bytes * (bytes * (bytes * bytes))    (* 95-101 *)
  | VCreatorWithdraw => bytes * (Z * (bytes * Z))    (* 103-109 *)
  | VRefresh => bytes * (bytes * (bytes * (Z * Z)))    (* 111-118 *)
  | VOperatorCreate => bytes * (bytes * bytes)    (* 120-125 *)
  | VServerCreate => bytes * (bytes * bytes)    (* 127-132 *)
  | VServerClose => bytes * bytes    (* 134-138 *)
  | VCollectFee => bytes * (bytes * Z)    (* 140-145 *)
  | VMerkleClose => bytes * (bytes * bytes)    (* 147-152 *)
  end.
Definition ev_codec (n : vname) : codec (ev_payload n) :=
  match n with
  | VFixedCreate => c_pair c_key c_u128
  | VFixedClose => c_pair c_key (c_pair c_key c_key)
  | VPresaleCreate => c_pair c_key (c_pair c_key (c_pair (c_vec c_registry_args) (c_pair c_u64
      (c_pair c_u64 (c_pair c_u8 (c_pair c_u8 (c_pair c_u64 (c_pair c_u64 (c_pair c_u64 c_u64)))))))))
  | VEscrowCreate => c_pair c_key (c_pair c_key (c_pair c_u8 c_u64))
  | VMerkleCreate => c_pair c_key (c_pair c_key (c_pair c_key (c_pair c_u64 (c_array 32))))
  | VDeposit => c_pair c_key (c_pair c_key (c_pair c_u64 (c_pair c_u64 (c_pair c_u64 (c_pair c_key c_u64)))))
  | VWithdraw => c_pair c_key (c_pair c_key (c_pair c_u64 (c_pair c_u64 (c_pair c_u64 c_key))))
  | VClaim => c_pair c_key (c_pair c_key (c_pair c_u64 (c_pair c_u64 (c_pair c_u64 c_key))))
  | VRemaining => c_pair c_key (c_pair c_key (c_pair c_key (c_pair c_u64 c_u64)))
  | VUnsold => c_pair c_key (c_pair c_u64 c_u8)
  | VEscrowClose => c_pair c_key (c_pair c_key (c_pair c_key c_key))
  | VCreatorWithdraw => c_pair c_key (c_pair c_u64 (c_pair c_key c_u8))
  | VRefresh => c_pair c_key (c_pair c_key (c_pair c_key (c_pair c_u64 c_u64)))
  | VOperatorCreate => c_pair c_key (c_pair c_key c_key)
  | VServerCreate => c_pair c_key (c_pair c_key c_string)
  | VServerClose => c_pair c_key c_key
  | VCollectFee => c_pair c_key (c_pair c_key c_u64)
  | VMerkleClose => c_pair c_key (c_pair c_key c_key)
  end.

Record wev := mkWev { wev_name : vname; wev_args : ev_payload wev_name }.
Definition wev_valid (x : wev) : bool := valid (ev_codec (wev_name x)) (wev_args x).
(** Anchor 0.31.1 [Event::data] *)
Definition encode_ev (x : wev) : bytes := event_discriminator (wev_name x) ++ enc (ev_codec (wev_name x)) (wev_args x).
(** What a reader does with it: the struct whose discriminator it starts with; the rest is returned. *)
Definition decode_ev (data : bytes) : option (wev * bytes) :=
  match List.find (fun n => bool_decide (take 8 data = event_discriminator n)) all_events with
  | Some n => match dec (ev_codec n) (drop 8 data) with Some (v, rest) => Some (mkWev n v, rest) | None => None end
  | None => None
  end.
(** [emit_cpi!]: the data of the call is the event tag and the event *)
Definition event_call (x : wev) : bytes := event_tag ++ encode_ev x.

Section WithCrypto.
Context `{Crypto}.

(** The struct of an event of the model.  [pads] are the paddings of the registry arguments, which the
    creation event copies from the arguments (process_initialize_presale.rs:153-172) and the model does
    not carry. *)
Definition wire (pads : list bytes) (ev : event) : wev :=
  match ev with
  | EvtFixedPricePresaleArgsCreate a b => mkWev VFixedCreate (addr_bytes a, b)
  | EvtPresaleVaultCreate a b c d e f g h i j k =>
      mkWev VPresaleCreate (addr_bytes a, (addr_bytes b, (zip c pads, (d, (e, (f, (g, (h, (i, (j, k))))))))))
  | EvtEscrowCreate a b c d => mkWev VEscrowCreate (addr_bytes a, (addr_bytes b, (c, d)))
  | EvtMerkleRootConfigCreate a b c d e => mkWev VMerkleCreate (addr_bytes a, (addr_bytes b, (addr_bytes c, (d, e))))
  | EvtDeposit a b c d e f g => mkWev VDeposit (addr_bytes a, (addr_bytes b, (c, (d, (e, (addr_bytes f, g))))))
  | EvtWithdraw a b c d e f => mkWev VWithdraw (addr_bytes a, (addr_bytes b, (c, (d, (e, addr_bytes f)))))
  | EvtClaim a b c d e f => mkWev VClaim (addr_bytes a, (addr_bytes b, (c, (d, (e, addr_bytes f)))))
  | EvtWithdrawRemainingQuote a b c d e => mkWev VRemaining (addr_bytes a, (addr_bytes b, (addr_bytes c, (d, e))))
  | EvtPerformUnsoldBaseTokenAction a b c => mkWev VUnsold (addr_bytes a, (b, c))
  | EvtEscrowClose a b c d => mkWev VEscrowClose (addr_bytes a, (addr_bytes b, (addr_bytes c, addr_bytes d)))
  | EvtCreatorWithdraw a b c d => mkWev VCreatorWithdraw (addr_bytes a, (b, (addr_bytes c, d)))
  | EvtEscrowRefresh a b c d e => mkWev VRefresh (addr_bytes a, (addr_bytes b, (addr_bytes c, (d, e))))
  | EvtOperatorCreate a b c => mkWev VOperatorCreate (addr_bytes a, (addr_bytes b, addr_bytes c))
  | EvtPermissionedServerMetadataCreate a b c => mkWev VServerCreate (addr_bytes a, (addr_bytes b, c))
  | EvtPermissionedServerMetadataClose a b => mkWev VServerClose (addr_bytes a, addr_bytes b)
  | EvtCreatorCollectFee a b c => mkWev VCollectFee (addr_bytes a, (addr_bytes b, c))
  | EvtCloseMerkleRootConfig a b c => mkWev VMerkleClose (addr_bytes a, (addr_bytes b, addr_bytes c))
  end.
Definition pads_ok (pads : list bytes) (ev : event) : Prop :=
  match ev with
  | EvtPresaleVaultCreate _ _ regs _ _ _ _ _ _ _ _ =>
    List.length pads = List.length regs /\ Forall (fun b => valid (c_array 32) b = true) pads
  | _ => True
  end.
(** [data] is the data of an event call for [ev]. *)
Definition says (ev : event) (data : bytes) : Prop :=
  exists pads, pads_ok pads ev /\ wev_valid (wire pads ev) = true /\ data = event_call (wire pads ev).

End WithCrypto.
