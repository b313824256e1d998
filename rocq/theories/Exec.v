(** The state machine: presale instructions (lib.rs:51-184) interleaved with everything the rest
    of the chain can do to the accounts the program depends on. *)
From Verif Require Import Base Math State Handlers Token World Instr.

(** * Operations *)
Inductive op :=
(* presale program, lib.rs:55-183, in order *)
| IInitFixedArgs (presale owner payer : addr) (disable_withdraw q_price : Z)
| ICloseFixedArgs (args owner : addr)
| IInitPresale (base bmint qmint payer_token creator payer : addr) (bprog qprog : prog)
    (a : init_args) (h : henv)
| ICreateMerkle (presale creator : addr) (root : bytes) (version : Z)
| ICloseMerkle (presale config creator rent_receiver : addr)
| IEscrowPermissionless (presale owner payer : addr)
| IEscrowCreator (presale owner operator operator_owner payer : addr) (idx cap : Z)
| IEscrowMerkle (presale owner config payer : addr) (proof : list bytes) (idx cap : Z)
| ICreateOperator (operator_owner creator : addr)
| IRevokeOperator (operator creator : addr)
| IDeposit (presale qvault qmint escrow payer_token payer : addr) (pr : prog)
    (max_amount : Z) (h : henv)
| IWithdraw (presale qvault qmint escrow owner_token owner : addr) (pr : prog)
    (max_amount : Z) (h : henv)
| IClaim (presale bvault bmint escrow owner_token owner : addr) (pr : prog) (h : henv)
| IWithdrawRemaining (presale qvault qmint escrow owner_token owner : addr) (pr : prog)
    (h : henv)
| IUnsold (presale bvault bmint creator_token : addr) (pr : prog) (h : henv)
| ICloseEscrow (presale escrow owner rent_receiver : addr)
| ICreatorWithdraw (presale owner_token owner : addr) (pr : prog) (h : henv)
| IRefresh (presale escrow : addr)
| ICreateServer (presale owner : addr) (url : bytes)
| ICloseServer (presale meta owner rent_receiver : addr)
| ICollectFee (presale qvault qmint receiver owner : addr) (pr : prog) (h : henv)
(* environment *)
| EClock (t : Z)
| ECreateMint (k : addr) (m : mint)
| ECloseMint (k : addr)
| ECreateToken (k mk owner : addr)
| ECloseToken (k owner : addr)
| ETransfer (src mk dst auth : addr) (pr : prog) (amount : Z) (memo cpi hook_ok : bool)
| EBurn (src mk auth : addr) (pr : prog) (amount : Z)
| EMintTo (mk dst : addr) (amount : Z)
| EApprove (k owner delegate : addr) (amount : Z)
| ERevoke (k owner : addr)
| ESetOwner (k owner new_owner : addr)
| ESetMemo (k owner : addr) (b : bool)
| ESetGuard (k owner : addr) (b : bool)
| EFreeze (k : addr) (b : bool)
| ESetFee (mk : addr) (f : tfee)
| ESetHook (mk : addr) (b : bool)
| EWithdrawWithheld (mk dst : addr) (amount : Z).

(** * Environment steps (not part of the program; what the token programs, their users and the
    clock can do).  Instructions to the token programs are signed by [Wallet] keys: PDAs of the
    presale program sign only through the handlers above. *)

Definition env_ok (b : bool) : res unit := require b EnvRejected.

(** The clock never goes backwards. *)
Definition env_clock (w : world) (t : Z) : res (world * list fx) :=
  let* _ := env_ok ((w_now w <=? t) && (t <=? I64MAX)) in
  Ok (put_now t w, []).

(** A new mint starts without supply. *)
Definition env_create_mint (w : world) (k : addr) (m : mint) : res (world * list fx) :=
  let* _ := env_ok (is_wallet k && bool_decide (w_mints w !! k = None)
                    && bool_decide (w_tokens w !! k = None)
                    && (m_supply m =? 0) && (m_withheld m =? 0)
                    && match m_fee m with
                       | Some f => (0 <=? f_bps f) && (f_bps f <=? MAX_FEE_BASIS_POINTS)
                                   && in_u64 (f_max f)
                       | None => true
                       end) in
  Ok (upd_mint k m w, []).

(** MintCloseAuthority extension: an unused mint can be closed (and recreated differently). *)
Definition env_close_mint (w : world) (k : addr) : res (world * list fx) :=
  let* m := get_mint w k in
  let* _ := env_ok (bool_decide (m_prog m = Token2022)
                    && bool_decide (ExtMintCloseAuthority ∈ m_exts m)
                    && (m_supply m =? 0)) in
  Ok (put_mints (delete k (w_mints w)) w, []).

(** A fresh token account at a keypair address, or at the associated token address of its
    owner. *)
Definition env_create_token (w : world) (k mk owner : addr) : res (world * list fx) :=
  let* m := get_mint w mk in
  let* _ := env_ok ((is_wallet k || beq_addr k (Ata owner mk (m_prog m)))
                    && bool_decide (w_mints w !! k = None)
                    && bool_decide (w_tokens w !! k = None)) in
  Ok (upd_token k (mkTok mk owner 0 false None false false) w, []).

Definition env_close_token (w : world) (k owner : addr) : res (world * list fx) :=
  let* t := get_token w k in
  let* _ := signer owner in
  let* _ := env_ok (beq_addr (t_owner t) owner && (t_amount t =? 0)) in
  Ok (put_tokens (delete k (w_tokens w)) w, []).

Definition env_transfer (w : world) (src mk dst auth : addr) (pr : prog) (amount : Z)
    (memo cpi hook_ok : bool) : res (world * list fx) :=
  let* _ := env_ok (in_u64 amount) in
  let* _ := signer auth in
  tok_transfer_checked w pr src mk dst auth amount memo cpi hook_ok.

Definition env_burn (w : world) (src mk auth : addr) (pr : prog) (amount : Z)
    : res (world * list fx) :=
  let* _ := env_ok (in_u64 amount) in
  let* _ := signer auth in
  tok_burn w pr src mk auth amount.

Definition env_mint_to (w : world) (mk dst : addr) (amount : Z) : res (world * list fx) :=
  let* m := get_mint w mk in
  let* t := get_token w dst in
  let* _ := env_ok (in_u64 amount && beq_addr (t_mint t) mk && negb (t_frozen t)
                    && (m_supply m + amount <=? U64MAX)) in
  Ok (upd_token dst (set_t_amount (t_amount t + amount) t)
        (upd_mint mk (set_m_supply (m_supply m + amount) m) w), []).

Definition env_approve (w : world) (k owner delegate : addr) (amount : Z)
    : res (world * list fx) :=
  let* t := get_token w k in
  let* _ := signer owner in
  let* _ := env_ok (in_u64 amount && beq_addr (t_owner t) owner && negb (t_frozen t)) in
  Ok (upd_token k (set_t_delegate (Some (delegate, amount)) t) w, []).

Definition env_revoke (w : world) (k owner : addr) : res (world * list fx) :=
  let* t := get_token w k in
  let* _ := signer owner in
  let* _ := env_ok (beq_addr (t_owner t) owner && negb (t_frozen t)) in
  Ok (upd_token k (set_t_delegate None t) w, []).

Definition env_set_owner (w : world) (k owner new_owner : addr) : res (world * list fx) :=
  let* t := get_token w k in
  let* _ := signer owner in
  let* _ := env_ok (beq_addr (t_owner t) owner && negb (t_frozen t)) in
  Ok (upd_token k (mkTok (t_mint t) new_owner (t_amount t) false None (t_memo t) (t_guard t)) w, []).

(** MemoTransfer and CpiGuard, switched by the owner of a Token-2022 account. *)
Definition env_set_memo (w : world) (k owner : addr) (b : bool) : res (world * list fx) :=
  let* t := get_token w k in
  let* m := get_mint w (t_mint t) in
  let* _ := signer owner in
  let* _ := env_ok (beq_addr (t_owner t) owner && bool_decide (m_prog m = Token2022)) in
  Ok (upd_token k (set_t_memo b t) w, []).
Definition env_set_guard (w : world) (k owner : addr) (b : bool) : res (world * list fx) :=
  let* t := get_token w k in
  let* m := get_mint w (t_mint t) in
  let* _ := signer owner in
  let* _ := env_ok (beq_addr (t_owner t) owner && bool_decide (m_prog m = Token2022)) in
  Ok (upd_token k (set_t_guard b t) w, []).

Definition env_freeze (w : world) (k : addr) (b : bool) : res (world * list fx) :=
  let* t := get_token w k in
  let* m := get_mint w (t_mint t) in
  let* _ := env_ok (m_freezable m) in
  Ok (upd_token k (set_t_frozen b t) w, []).

Definition env_set_fee (w : world) (mk : addr) (f : tfee) : res (world * list fx) :=
  let* m := get_mint w mk in
  let* _ := env_ok (match m_fee m with Some _ => true | None => false end
                    && (0 <=? f_bps f) && (f_bps f <=? MAX_FEE_BASIS_POINTS)
                    && in_u64 (f_max f)) in
  Ok (upd_mint mk (set_m_fee (Some f) m) w, []).

Definition env_set_hook (w : world) (mk : addr) (b : bool) : res (world * list fx) :=
  let* m := get_mint w mk in
  let* _ := env_ok (match m_hook m with Some _ => true | None => false end) in
  Ok (upd_mint mk (set_m_hook (Some b) m) w, []).

Definition env_withdraw_withheld (w : world) (mk dst : addr) (amount : Z)
    : res (world * list fx) :=
  let* m := get_mint w mk in
  let* t := get_token w dst in
  let* _ := env_ok (in_u64 amount && beq_addr (t_mint t) mk && negb (t_frozen t)
                    && (amount <=? m_withheld m)) in
  Ok (upd_token dst (set_t_amount (t_amount t + amount) t)
        (upd_mint mk (set_m_withheld (m_withheld m - amount) m) w), []).

(** * Steps and runs *)
Section WithCrypto.
Context `{Crypto}.

(** lib.rs:51-184 dispatch *)
Definition step (w : world) (o : op) : res (world * list fx) :=
  match o with
  | IInitFixedArgs presale owner payer dw q =>
      initialize_fixed_price_presale_args w presale owner payer dw q
  | ICloseFixedArgs k owner => close_fixed_price_presale_args w k owner
  | IInitPresale base bm qm pt creator payer bp qp a h =>
      initialize_presale w base bm qm pt creator payer bp qp a h
  | ICreateMerkle presale creator root version =>
      create_merkle_root_config w presale creator root version
  | ICloseMerkle presale k creator rr => close_merkle_root_config w presale k creator rr
  | IEscrowPermissionless presale owner payer =>
      create_permissionless_escrow w presale owner payer
  | IEscrowCreator presale owner oper oowner payer idx cap =>
      create_permissioned_escrow_with_creator w presale owner oper oowner payer idx cap
  | IEscrowMerkle presale owner cfg payer proof idx cap =>
      create_permissioned_escrow_with_merkle_proof w presale owner cfg payer proof idx cap
  | ICreateOperator oowner creator => create_operator w oowner creator
  | IRevokeOperator k creator => revoke_operator w k creator
  | IDeposit presale qv qm esc pt payer pr n h => deposit w presale qv qm esc pt payer pr n h
  | IWithdraw presale qv qm esc ot owner pr n h => withdraw w presale qv qm esc ot owner pr n h
  | IClaim presale bv bm esc ot owner pr h => claim w presale bv bm esc ot owner pr h
  | IWithdrawRemaining presale qv qm esc ot owner pr h =>
      withdraw_remaining_quote w presale qv qm esc ot owner pr h
  | IUnsold presale bv bm ct pr h => perform_unsold_base_token_action w presale bv bm ct pr h
  | ICloseEscrow presale esc owner rr => close_escrow w presale esc owner rr
  | ICreatorWithdraw presale ot owner pr h => creator_withdraw w presale ot owner pr h
  | IRefresh presale esc => refresh_escrow w presale esc
  | ICreateServer presale owner url => create_permissioned_server_metadata w presale owner url
  | ICloseServer presale k owner rr => close_permissioned_server_metadata w presale k owner rr
  | ICollectFee presale qv qm rcv owner pr h =>
      creator_collect_fee w presale qv qm rcv owner pr h
  | EClock t => env_clock w t
  | ECreateMint k m => env_create_mint w k m
  | ECloseMint k => env_close_mint w k
  | ECreateToken k mk owner => env_create_token w k mk owner
  | ECloseToken k owner => env_close_token w k owner
  | ETransfer src mk dst auth pr n memo cpi ok => env_transfer w src mk dst auth pr n memo cpi ok
  | EBurn src mk auth pr n => env_burn w src mk auth pr n
  | EMintTo mk dst n => env_mint_to w mk dst n
  | EApprove k owner d n => env_approve w k owner d n
  | ERevoke k owner => env_revoke w k owner
  | ESetOwner k owner n => env_set_owner w k owner n
  | ESetMemo k owner b => env_set_memo w k owner b
  | ESetGuard k owner b => env_set_guard w k owner b
  | EFreeze k b => env_freeze w k b
  | ESetFee mk f => env_set_fee w mk f
  | ESetHook mk b => env_set_hook w mk b
  | EWithdrawWithheld mk dst n => env_withdraw_withheld w mk dst n
  end.

(** A failed operation leaves the ledger unchanged (transactions are atomic). *)
Definition exec (w : world) (o : op) : world :=
  match step w o with Ok (w', _) => w' | Err _ => w end.

Definition run (w : world) (l : list op) : world := foldl exec w l.

(** Chain state before anything related to the program happened. *)
Definition genesis : world := mkW 0 ∅ ∅ ∅ ∅ ∅ ∅ ∅ ∅.

(** The states reachable by any sequence of operations of any number of users. *)
Definition reachable (w : world) : Prop := exists l, w = run genesis l.

End WithCrypto.
