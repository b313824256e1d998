(** Lamports: what the accounts of the program cost, who pays, and who is paid when they are closed.
    The handlers never move lamports themselves; the account constraints [init] and [close] do
    (anchor-lang 0.31.1), and this file adds exactly that to the state machine of [Exec].

    Simplifications.  Balances exclude wrapped lamports (token amounts of the native mint; those are
    tokens of [Exec]).  The accounts of other programs are outside: whatever moves their lamports
    is [LMove].  The runtime's check that a transaction leaves no account between empty and rent
    exempt is not modelled (it rejects transactions that this model accepts).  Transaction fees are
    [LFee]. *)
From Verif Require Import Base Math State Handlers Token World Instr Exec Layout.

(** The rent sysvar.  [Rent::minimum_balance] multiplies the size plus 128 bytes of overhead by
    lamports per byte-year and by the exemption threshold in years; [rate] is the product of the two.
    The size of a token account is 165 bytes, or more for mints whose extensions require extensions
    of the account. *)
Class Rent := {
  rate : Z;
  vault_size : mint -> Z;
  rate_pos : 0 < rate;
  vault_min : forall m, 165 <= vault_size m
}.
Definition rent `{Rent} (size : Z) : Z := (128 + size) * rate.

(** Balances; an address without entry holds nothing. *)
Definition lam (b : gmap addr Z) (a : addr) : Z := default 0 (b !! a).
Definition send (b : gmap addr Z) (from to : addr) (n : Z) : gmap addr Z :=
  let b1 := <[from := lam b from - n]> b in <[to := lam b1 to + n]> b1.

(** System program: transfers, and the transfer of [create_account], leave only from accounts of the
    system program (not from token accounts or mints) with enough lamports. *)
Definition sys_transfer (w : world) (b : gmap addr Z) (from to : addr) (n : Z) : res (gmap addr Z) :=
  let* _ := require (bool_decide (w_tokens w !! from = None) && bool_decide (w_mints w !! from = None)) NotSystemOwned in
  let* _ := require (n <=? lam b from) NoLamports in
  Ok (send b from to n).

(** Anchor's [init]: an address without lamports is created with the rent of its size; one that
    has lamports already (anybody can send them there) is topped up, allocated and assigned.  (Anchor
    also checks that the payer is not the account, which cannot be: the payer signs.) *)
Definition init_account `{Rent} (w : world) (b : gmap addr Z) (payer : addr) (x : addr * Z) : res (gmap addr Z) :=
  let '(k, size) := x in
  if lam b k =? 0 then sys_transfer w b payer k (rent size)
  else
    let need := Z.max 0 (Z.max (rent size) 1 - lam b k) in
    if 0 <? need then sys_transfer w b payer k need else Ok b.
Fixpoint init_all `{Rent} (w : world) (b : gmap addr Z) (payer : addr) (l : list (addr * Z)) : res (gmap addr Z) :=
  match l with
  | [] => Ok b
  | x :: l => let* b := init_account w b payer x in init_all w b payer l
  end.

(** Anchor's [close]: everything goes to the receiver ([checked_add] with [unwrap]), nothing is left. *)
Definition close_account (b : gmap addr Z) (k receiver : addr) : res (gmap addr Z) :=
  let* _ := require (lam b receiver + lam b k <=? U64MAX) Panic in
  Ok (<[k := 0]> (<[receiver := lam b receiver + lam b k]> b)).

(** The [init] constraints: [payer], and address and [space] of each account in declaration order.
    Fixed price arguments: process_initialize_extra_presale_params.rs:7-16; presale and vaults:
    initialize_presale/process_initialize_presale.rs:16-63; escrows: create_escrow/*.rs
    (process_create_permissionless_escrow.rs:14-25, ..._with_creator.rs:22-33,
    ..._with_merkle_proof.rs:29-40); root: process_create_merkle_root_config.rs:17-27; operator:
    process_create_operator.rs:6-15; metadata: process_create_permissioned_server_metadata.rs:12-21. *)
Definition vault_bytes `{Rent} (w : world) (mk : addr) : Z :=
  match w_mints w !! mk with Some m => vault_size m | None => 165 end.
Definition funding `{Rent} (w : world) (o : op) : option (addr * list (addr * Z)) :=
  match o with
  | IInitFixedArgs k _ payer _ _ => Some (payer, [(PFixedArgs k, 8 + size_of fixed_fields)])
  | IInitPresale base bm qm _ _ payer _ _ _ _ =>
    let k := PPresale base bm qm in
    Some (payer, [(k, 8 + size_of presale_fields); (PBaseVault k, vault_bytes w bm); (PQuoteVault k, vault_bytes w qm)])
  | ICreateMerkle k creator _ version => Some (creator, [(PMerkle k version, 8 + size_of merkle_fields)])
  | IEscrowPermissionless k owner payer => Some (payer, [(PEscrow k owner 0, 8 + size_of escrow_fields)])
  | IEscrowCreator k owner _ _ payer idx _ => Some (payer, [(PEscrow k owner idx, 8 + size_of escrow_fields)])
  | IEscrowMerkle k owner _ payer _ idx _ => Some (payer, [(PEscrow k owner idx, 8 + size_of escrow_fields)])
  | ICreateOperator oo creator => Some (creator, [(POperator creator oo, 8 + size_of operator_fields)])
  | ICreateServer k owner url => Some (owner, [(PServer k, server_space url)])
  | _ => None
  end.

(** The [close] constraints: the account and the receiver of its lamports.
    process_close_extra_presale_params.rs:6-10, process_close_merkle_root_config.rs:8-12,
    process_revoke_operator.rs:6-10, process_close_escrow.rs:9-14,
    process_close_merkle_proof_metadata.rs:11-15. *)
Definition closing (o : op) : option (addr * addr) :=
  match o with
  | ICloseFixedArgs args owner => Some (args, owner)
  | ICloseMerkle _ config _ rr => Some (config, rr)
  | IRevokeOperator oper creator => Some (oper, creator)
  | ICloseEscrow _ ek _ rr => Some (ek, rr)
  | ICloseServer _ meta _ rr => Some (meta, rr)
  | _ => None
  end.

(** * The machine with lamports *)
Record ledger := mkLedger { l_world : world; l_bal : gmap addr Z }.
Inductive lop :=
| LOp (o : op)
| LMove (from to : addr) (n : Z)     (* system transfers, other programs *)
| LFee (from : addr) (n : Z)         (* transaction fees *)
| LReward (to : addr) (n : Z).       (* new lamports *)

(** Addresses whose lamports others than this program can move: no program derived address signs
    for the system program here, and accounts of this program and its vaults can be debited only
    by their owning programs. *)
Definition external (a : addr) : bool := match a with Wallet _ | Ata _ _ _ => true | _ => false end.
Definition total (b : gmap addr Z) : Z := map_fold (fun _ n acc => n + acc) 0 b.

Section WithCrypto.
Context `{Crypto} `{Rent}.

Definition pay_inits (w : world) (b : gmap addr Z) (o : op) : res (gmap addr Z) :=
  match funding w o with Some (payer, l) => init_all w b payer l | None => Ok b end.
Definition pay_close (b : gmap addr Z) (o : op) : res (gmap addr Z) :=
  match closing o with Some (k, r) => close_account b k r | None => Ok b end.

(** An instruction with its accounts created before it and closed after it.  (The order of the
    failing checks differs from the program's; which calls are accepted does not.) *)
Definition lstep (L : ledger) (x : lop) : res (ledger * list fx) :=
  match x with
  | LOp o =>
    let* b1 := pay_inits (l_world L) (l_bal L) o in
    let* r := step (l_world L) o in
    let* b2 := pay_close b1 o in
    Ok (mkLedger r.1 b2, r.2)
  | LMove from to n =>
    let* _ := env_ok (external from && (0 <=? n) && (n <=? lam (l_bal L) from)) in
    Ok (mkLedger (l_world L) (send (l_bal L) from to n), [])
  | LFee from n =>
    let* _ := env_ok (external from && (0 <=? n) && (n <=? lam (l_bal L) from)) in
    Ok (mkLedger (l_world L) (<[from := lam (l_bal L) from - n]> (l_bal L)), [])
  | LReward to n =>
    let* _ := env_ok ((0 <=? n) && (total (l_bal L) + n <=? U64MAX)) in
    Ok (mkLedger (l_world L) (<[to := lam (l_bal L) to + n]> (l_bal L)), [])
  end.
Definition lexec (L : ledger) (x : lop) : ledger :=
  match lstep L x with Ok (L', _) => L' | Err _ => L end.
Definition lrun (L : ledger) (l : list lop) : ledger := fold_left lexec l L.

(** Any distribution of lamports that exist ([u64]) can be the first. *)
Definition balances (b : gmap addr Z) : Prop := (forall a n, b !! a = Some n -> 0 <= n) /\ total b <= U64MAX.
Definition lreach (L : ledger) : Prop := exists b l, balances b /\ L = lrun (mkLedger genesis b) l.

End WithCrypto.
