(** Model of the account layouts in state/*.rs and of the methods on them. *)
From Verif Require Import Base Math.

(** * Enumerations, state/presale.rs *)

(** state/presale.rs:11-21, decoded by [safe_cast] (safe_math.rs:140, TryFromPrimitive). *)
Inductive pmode := FixedPrice | Prorata | Fcfs.
#[global] Instance pmode_eq_dec : EqDecision pmode.
Proof. solve_decision. Defined.
Definition mode_of_u8 (z : Z) : option pmode :=
  if z =? 0 then Some FixedPrice else if z =? 1 then Some Prorata
  else if z =? 2 then Some Fcfs else None.
Definition cast_mode (z : Z) : res pmode := ok_or (mode_of_u8 z) MathOverflow.

(** state/presale.rs:23-44 *)
Inductive wlmode := Permissionless | WithMerkleProof | WithAuthority.
#[global] Instance wlmode_eq_dec : EqDecision wlmode.
Proof. solve_decision. Defined.
Definition wl_of_u8 (z : Z) : option wlmode :=
  if z =? 0 then Some Permissionless else if z =? 1 then Some WithMerkleProof
  else if z =? 2 then Some WithAuthority else None.
Definition cast_wl (z : Z) : res wlmode := ok_or (wl_of_u8 z) MathOverflow.
(** state/presale.rs:36-43 *)
Definition is_permissioned (m : wlmode) : bool :=
  match m with Permissionless => false | WithMerkleProof | WithAuthority => true end.

(** state/presale.rs:46-54.  [FromPrimitive] with a default: every byte other than 1 decodes to
    [Refund] (so [try_from] in params.rs:185 never fails). *)
Inductive uaction := Refund | Burn.
Definition uaction_of_u8 (z : Z) : uaction := if z =? 1 then Burn else Refund.
Definition uaction_to_u8 (a : uaction) : Z := match a with Refund => 0 | Burn => 1 end.

(** state/presale.rs:56-68 *)
Inductive progress := NotStarted | Ongoing | Completed | Failed.
#[global] Instance progress_eq_dec : EqDecision progress.
Proof. solve_decision. Defined.
Definition beq_progress (a b : progress) : bool := bool_decide (a = b).
Definition progress_to_u8 (p : progress) : Z :=
  match p with NotStarted => 0 | Ongoing => 1 | Completed => 2 | Failed => 3 end.

(** state/presale.rs:4-9; [BoolType::try_from] succeeds exactly on 0 and 1. *)
Definition is_bool_u8 (z : Z) : bool := (z =? 0) || (z =? 1).

(** * Records *)

(** state/presale_registry.rs:5-26 (padding omitted) *)
Record registry := mkReg {
  r_supply : Z;  (* presale_supply :7 *)
  r_deposit : Z;  (* total_deposit :9 *)
  r_escrows : Z;  (* total_escrow :11 *)
  r_claimed : Z;  (* total_claimed_token :13 *)
  r_refunded : Z;  (* total_refunded_quote_token :15 *)
  r_min_cap : Z;  (* buyer_minimum_deposit_cap :17 *)
  r_max_cap : Z;  (* buyer_maximum_deposit_cap :19 *)
  r_fee : Z;  (* total_deposit_fee :21 *)
  r_fee_bps : Z  (* deposit_fee_bps :23 *)
}.

(** Field updates (no counterpart in the source; Rust assigns fields in place). *)
Definition set_r_deposit (v : Z) (r : registry) : registry :=
  mkReg
    (r_supply r) v (r_escrows r) (r_claimed r) (r_refunded r) (r_min_cap r) (r_max_cap r)
    (r_fee r) (r_fee_bps r).
Definition set_r_escrows (v : Z) (r : registry) : registry :=
  mkReg
    (r_supply r) (r_deposit r) v (r_claimed r) (r_refunded r) (r_min_cap r) (r_max_cap r)
    (r_fee r) (r_fee_bps r).
Definition set_r_claimed (v : Z) (r : registry) : registry :=
  mkReg
    (r_supply r) (r_deposit r) (r_escrows r) v (r_refunded r) (r_min_cap r) (r_max_cap r)
    (r_fee r) (r_fee_bps r).
Definition set_r_refunded (v : Z) (r : registry) : registry :=
  mkReg
    (r_supply r) (r_deposit r) (r_escrows r) (r_claimed r) v (r_min_cap r) (r_max_cap r)
    (r_fee r) (r_fee_bps r).
Definition set_r_fee (v : Z) (r : registry) : registry :=
  mkReg
    (r_supply r) (r_deposit r) (r_escrows r) (r_claimed r) (r_refunded r) (r_min_cap r)
    (r_max_cap r) v (r_fee_bps r).

(** state/escrow.rs:5-30 (padding omitted) *)
Record escrow := mkEsc {
  e_presale : addr;  (* presale :7 *)
  e_owner : addr;  (* owner :9 *)
  e_deposit : Z;  (* total_deposit :11 *)
  e_claimed : Z;  (* total_claimed_token :13 *)
  e_withdrawn : Z;  (* is_remaining_quote_withdrawn :15 *)
  e_idx : Z;  (* registry_index :17 *)
  e_pending : Z;  (* pending_claim_token :20 *)
  e_cap : Z;  (* deposit_max_cap :22 *)
  e_created : Z;  (* created_at :24 *)
  e_fee : Z;  (* total_deposit_fee :26 *)
  e_refreshed : Z  (* last_refreshed_at :28 *)
}.

(** Field updates (no counterpart in the source). *)
Definition set_e_deposit (v : Z) (e : escrow) : escrow :=
  mkEsc
    (e_presale e) (e_owner e) v (e_claimed e) (e_withdrawn e) (e_idx e) (e_pending e) (e_cap e)
    (e_created e) (e_fee e) (e_refreshed e).
Definition set_e_claimed (v : Z) (e : escrow) : escrow :=
  mkEsc
    (e_presale e) (e_owner e) (e_deposit e) v (e_withdrawn e) (e_idx e) (e_pending e) (e_cap e)
    (e_created e) (e_fee e) (e_refreshed e).
Definition set_e_withdrawn (v : Z) (e : escrow) : escrow :=
  mkEsc
    (e_presale e) (e_owner e) (e_deposit e) (e_claimed e) v (e_idx e) (e_pending e) (e_cap e)
    (e_created e) (e_fee e) (e_refreshed e).
Definition set_e_pending (v : Z) (e : escrow) : escrow :=
  mkEsc
    (e_presale e) (e_owner e) (e_deposit e) (e_claimed e) (e_withdrawn e) (e_idx e) v (e_cap e)
    (e_created e) (e_fee e) (e_refreshed e).
Definition set_e_fee (v : Z) (e : escrow) : escrow :=
  mkEsc
    (e_presale e) (e_owner e) (e_deposit e) (e_claimed e) (e_withdrawn e) (e_idx e)
    (e_pending e) (e_cap e) (e_created e) v (e_refreshed e).
Definition set_e_refreshed (v : Z) (e : escrow) : escrow :=
  mkEsc
    (e_presale e) (e_owner e) (e_deposit e) (e_claimed e) (e_withdrawn e) (e_idx e)
    (e_pending e) (e_cap e) (e_created e) (e_fee e) v.

(** state/presale.rs:82-157 (padding omitted) *)
Record presale := mkPre {
  p_owner : addr;  (* owner :84 *)
  p_qmint : addr;  (* quote_mint :86 *)
  p_bmint : addr;  (* base_mint :88 *)
  p_bvault : addr;  (* base_token_vault :90 *)
  p_qvault : addr;  (* quote_token_vault :92 *)
  p_base : addr;  (* base :94 *)
  p_mode : Z;  (* presale_mode :98 *)
  p_wl : Z;  (* whitelist_mode :100 *)
  p_max_cap : Z;  (* presale_maximum_cap :103 *)
  p_min_cap : Z;  (* presale_minimum_cap :105 *)
  p_start : Z;  (* presale_start_time :107 *)
  p_end : Z;  (* presale_end_time :109 *)
  p_supply : Z;  (* presale_supply :111 *)
  p_deposit : Z;  (* total_deposit :113 *)
  p_escrows : Z;  (* total_escrow :115 *)
  p_created : Z;  (* created_at :117 *)
  p_lock : Z;  (* lock_duration :119 *)
  p_vest : Z;  (* vest_duration :121 *)
  p_imm_ts : Z;  (* immediate_release_timestamp :123 *)
  p_vs : Z;  (* vesting_start_time :126 *)
  p_ve : Z;  (* vesting_end_time :128 *)
  p_claimed : Z;  (* total_claimed_token :130 *)
  p_refunded : Z;  (* total_refunded_quote_token :132 *)
  p_fee : Z;  (* total_deposit_fee :134 *)
  p_fee_col : Z;  (* deposit_fee_collected :136 *)
  p_cwd : Z;  (* has_creator_withdrawn :140 *)
  p_bprog : prog;  (* base_token_program_flag :142 *)
  p_qprog : prog;  (* quote_token_program_flag :144 *)
  p_nreg : Z;  (* total_presale_registry_count :146 *)
  p_unsold : Z;  (* unsold_token_action :148 *)
  p_unsold_done : Z;  (* is_unsold_token_action_performed :150 *)
  p_bps : Z;  (* immediate_release_bps :152 *)
  p_raw0 : Z;  (* presale_mode_raw_data[0] :153 *)
  p_raw1 : Z;  (* presale_mode_raw_data[1] :153 *)
  p_raw2 : Z;  (* presale_mode_raw_data[2] :153 *)
  p_regs : list registry  (* presale_registries :156 *)
}.

(** Field updates (no counterpart in the source). *)
Definition set_p_end (v : Z) (p : presale) : presale :=
  mkPre
    (p_owner p) (p_qmint p) (p_bmint p) (p_bvault p) (p_qvault p) (p_base p) (p_mode p) (p_wl p)
    (p_max_cap p) (p_min_cap p) (p_start p) v (p_supply p) (p_deposit p) (p_escrows p)
    (p_created p) (p_lock p) (p_vest p) (p_imm_ts p) (p_vs p) (p_ve p) (p_claimed p)
    (p_refunded p) (p_fee p) (p_fee_col p) (p_cwd p) (p_bprog p) (p_qprog p) (p_nreg p)
    (p_unsold p) (p_unsold_done p) (p_bps p) (p_raw0 p) (p_raw1 p) (p_raw2 p) (p_regs p).
Definition set_p_supply (v : Z) (p : presale) : presale :=
  mkPre
    (p_owner p) (p_qmint p) (p_bmint p) (p_bvault p) (p_qvault p) (p_base p) (p_mode p) (p_wl p)
    (p_max_cap p) (p_min_cap p) (p_start p) (p_end p) v (p_deposit p) (p_escrows p)
    (p_created p) (p_lock p) (p_vest p) (p_imm_ts p) (p_vs p) (p_ve p) (p_claimed p)
    (p_refunded p) (p_fee p) (p_fee_col p) (p_cwd p) (p_bprog p) (p_qprog p) (p_nreg p)
    (p_unsold p) (p_unsold_done p) (p_bps p) (p_raw0 p) (p_raw1 p) (p_raw2 p) (p_regs p).
Definition set_p_deposit (v : Z) (p : presale) : presale :=
  mkPre
    (p_owner p) (p_qmint p) (p_bmint p) (p_bvault p) (p_qvault p) (p_base p) (p_mode p) (p_wl p)
    (p_max_cap p) (p_min_cap p) (p_start p) (p_end p) (p_supply p) v (p_escrows p) (p_created p)
    (p_lock p) (p_vest p) (p_imm_ts p) (p_vs p) (p_ve p) (p_claimed p) (p_refunded p) (p_fee p)
    (p_fee_col p) (p_cwd p) (p_bprog p) (p_qprog p) (p_nreg p) (p_unsold p) (p_unsold_done p)
    (p_bps p) (p_raw0 p) (p_raw1 p) (p_raw2 p) (p_regs p).
Definition set_p_escrows (v : Z) (p : presale) : presale :=
  mkPre
    (p_owner p) (p_qmint p) (p_bmint p) (p_bvault p) (p_qvault p) (p_base p) (p_mode p) (p_wl p)
    (p_max_cap p) (p_min_cap p) (p_start p) (p_end p) (p_supply p) (p_deposit p) v (p_created p)
    (p_lock p) (p_vest p) (p_imm_ts p) (p_vs p) (p_ve p) (p_claimed p) (p_refunded p) (p_fee p)
    (p_fee_col p) (p_cwd p) (p_bprog p) (p_qprog p) (p_nreg p) (p_unsold p) (p_unsold_done p)
    (p_bps p) (p_raw0 p) (p_raw1 p) (p_raw2 p) (p_regs p).
Definition set_p_imm_ts (v : Z) (p : presale) : presale :=
  mkPre
    (p_owner p) (p_qmint p) (p_bmint p) (p_bvault p) (p_qvault p) (p_base p) (p_mode p) (p_wl p)
    (p_max_cap p) (p_min_cap p) (p_start p) (p_end p) (p_supply p) (p_deposit p) (p_escrows p)
    (p_created p) (p_lock p) (p_vest p) v (p_vs p) (p_ve p) (p_claimed p) (p_refunded p)
    (p_fee p) (p_fee_col p) (p_cwd p) (p_bprog p) (p_qprog p) (p_nreg p) (p_unsold p)
    (p_unsold_done p) (p_bps p) (p_raw0 p) (p_raw1 p) (p_raw2 p) (p_regs p).
Definition set_p_vs (v : Z) (p : presale) : presale :=
  mkPre
    (p_owner p) (p_qmint p) (p_bmint p) (p_bvault p) (p_qvault p) (p_base p) (p_mode p) (p_wl p)
    (p_max_cap p) (p_min_cap p) (p_start p) (p_end p) (p_supply p) (p_deposit p) (p_escrows p)
    (p_created p) (p_lock p) (p_vest p) (p_imm_ts p) v (p_ve p) (p_claimed p) (p_refunded p)
    (p_fee p) (p_fee_col p) (p_cwd p) (p_bprog p) (p_qprog p) (p_nreg p) (p_unsold p)
    (p_unsold_done p) (p_bps p) (p_raw0 p) (p_raw1 p) (p_raw2 p) (p_regs p).
Definition set_p_ve (v : Z) (p : presale) : presale :=
  mkPre
    (p_owner p) (p_qmint p) (p_bmint p) (p_bvault p) (p_qvault p) (p_base p) (p_mode p) (p_wl p)
    (p_max_cap p) (p_min_cap p) (p_start p) (p_end p) (p_supply p) (p_deposit p) (p_escrows p)
    (p_created p) (p_lock p) (p_vest p) (p_imm_ts p) (p_vs p) v (p_claimed p) (p_refunded p)
    (p_fee p) (p_fee_col p) (p_cwd p) (p_bprog p) (p_qprog p) (p_nreg p) (p_unsold p)
    (p_unsold_done p) (p_bps p) (p_raw0 p) (p_raw1 p) (p_raw2 p) (p_regs p).
Definition set_p_claimed (v : Z) (p : presale) : presale :=
  mkPre
    (p_owner p) (p_qmint p) (p_bmint p) (p_bvault p) (p_qvault p) (p_base p) (p_mode p) (p_wl p)
    (p_max_cap p) (p_min_cap p) (p_start p) (p_end p) (p_supply p) (p_deposit p) (p_escrows p)
    (p_created p) (p_lock p) (p_vest p) (p_imm_ts p) (p_vs p) (p_ve p) v (p_refunded p)
    (p_fee p) (p_fee_col p) (p_cwd p) (p_bprog p) (p_qprog p) (p_nreg p) (p_unsold p)
    (p_unsold_done p) (p_bps p) (p_raw0 p) (p_raw1 p) (p_raw2 p) (p_regs p).
Definition set_p_refunded (v : Z) (p : presale) : presale :=
  mkPre
    (p_owner p) (p_qmint p) (p_bmint p) (p_bvault p) (p_qvault p) (p_base p) (p_mode p) (p_wl p)
    (p_max_cap p) (p_min_cap p) (p_start p) (p_end p) (p_supply p) (p_deposit p) (p_escrows p)
    (p_created p) (p_lock p) (p_vest p) (p_imm_ts p) (p_vs p) (p_ve p) (p_claimed p) v (p_fee p)
    (p_fee_col p) (p_cwd p) (p_bprog p) (p_qprog p) (p_nreg p) (p_unsold p) (p_unsold_done p)
    (p_bps p) (p_raw0 p) (p_raw1 p) (p_raw2 p) (p_regs p).
Definition set_p_fee (v : Z) (p : presale) : presale :=
  mkPre
    (p_owner p) (p_qmint p) (p_bmint p) (p_bvault p) (p_qvault p) (p_base p) (p_mode p) (p_wl p)
    (p_max_cap p) (p_min_cap p) (p_start p) (p_end p) (p_supply p) (p_deposit p) (p_escrows p)
    (p_created p) (p_lock p) (p_vest p) (p_imm_ts p) (p_vs p) (p_ve p) (p_claimed p)
    (p_refunded p) v (p_fee_col p) (p_cwd p) (p_bprog p) (p_qprog p) (p_nreg p) (p_unsold p)
    (p_unsold_done p) (p_bps p) (p_raw0 p) (p_raw1 p) (p_raw2 p) (p_regs p).
Definition set_p_fee_col (v : Z) (p : presale) : presale :=
  mkPre
    (p_owner p) (p_qmint p) (p_bmint p) (p_bvault p) (p_qvault p) (p_base p) (p_mode p) (p_wl p)
    (p_max_cap p) (p_min_cap p) (p_start p) (p_end p) (p_supply p) (p_deposit p) (p_escrows p)
    (p_created p) (p_lock p) (p_vest p) (p_imm_ts p) (p_vs p) (p_ve p) (p_claimed p)
    (p_refunded p) (p_fee p) v (p_cwd p) (p_bprog p) (p_qprog p) (p_nreg p) (p_unsold p)
    (p_unsold_done p) (p_bps p) (p_raw0 p) (p_raw1 p) (p_raw2 p) (p_regs p).
Definition set_p_cwd (v : Z) (p : presale) : presale :=
  mkPre
    (p_owner p) (p_qmint p) (p_bmint p) (p_bvault p) (p_qvault p) (p_base p) (p_mode p) (p_wl p)
    (p_max_cap p) (p_min_cap p) (p_start p) (p_end p) (p_supply p) (p_deposit p) (p_escrows p)
    (p_created p) (p_lock p) (p_vest p) (p_imm_ts p) (p_vs p) (p_ve p) (p_claimed p)
    (p_refunded p) (p_fee p) (p_fee_col p) v (p_bprog p) (p_qprog p) (p_nreg p) (p_unsold p)
    (p_unsold_done p) (p_bps p) (p_raw0 p) (p_raw1 p) (p_raw2 p) (p_regs p).
Definition set_p_nreg (v : Z) (p : presale) : presale :=
  mkPre
    (p_owner p) (p_qmint p) (p_bmint p) (p_bvault p) (p_qvault p) (p_base p) (p_mode p) (p_wl p)
    (p_max_cap p) (p_min_cap p) (p_start p) (p_end p) (p_supply p) (p_deposit p) (p_escrows p)
    (p_created p) (p_lock p) (p_vest p) (p_imm_ts p) (p_vs p) (p_ve p) (p_claimed p)
    (p_refunded p) (p_fee p) (p_fee_col p) (p_cwd p) (p_bprog p) (p_qprog p) v (p_unsold p)
    (p_unsold_done p) (p_bps p) (p_raw0 p) (p_raw1 p) (p_raw2 p) (p_regs p).
Definition set_p_unsold_done (v : Z) (p : presale) : presale :=
  mkPre
    (p_owner p) (p_qmint p) (p_bmint p) (p_bvault p) (p_qvault p) (p_base p) (p_mode p) (p_wl p)
    (p_max_cap p) (p_min_cap p) (p_start p) (p_end p) (p_supply p) (p_deposit p) (p_escrows p)
    (p_created p) (p_lock p) (p_vest p) (p_imm_ts p) (p_vs p) (p_ve p) (p_claimed p)
    (p_refunded p) (p_fee p) (p_fee_col p) (p_cwd p) (p_bprog p) (p_qprog p) (p_nreg p)
    (p_unsold p) v (p_bps p) (p_raw0 p) (p_raw1 p) (p_raw2 p) (p_regs p).
Definition set_p_raw0 (v : Z) (p : presale) : presale :=
  mkPre
    (p_owner p) (p_qmint p) (p_bmint p) (p_bvault p) (p_qvault p) (p_base p) (p_mode p) (p_wl p)
    (p_max_cap p) (p_min_cap p) (p_start p) (p_end p) (p_supply p) (p_deposit p) (p_escrows p)
    (p_created p) (p_lock p) (p_vest p) (p_imm_ts p) (p_vs p) (p_ve p) (p_claimed p)
    (p_refunded p) (p_fee p) (p_fee_col p) (p_cwd p) (p_bprog p) (p_qprog p) (p_nreg p)
    (p_unsold p) (p_unsold_done p) (p_bps p) v (p_raw1 p) (p_raw2 p) (p_regs p).
Definition set_p_raw1 (v : Z) (p : presale) : presale :=
  mkPre
    (p_owner p) (p_qmint p) (p_bmint p) (p_bvault p) (p_qvault p) (p_base p) (p_mode p) (p_wl p)
    (p_max_cap p) (p_min_cap p) (p_start p) (p_end p) (p_supply p) (p_deposit p) (p_escrows p)
    (p_created p) (p_lock p) (p_vest p) (p_imm_ts p) (p_vs p) (p_ve p) (p_claimed p)
    (p_refunded p) (p_fee p) (p_fee_col p) (p_cwd p) (p_bprog p) (p_qprog p) (p_nreg p)
    (p_unsold p) (p_unsold_done p) (p_bps p) (p_raw0 p) v (p_raw2 p) (p_regs p).
Definition set_p_regs (v : list registry) (p : presale) : presale :=
  mkPre
    (p_owner p) (p_qmint p) (p_bmint p) (p_bvault p) (p_qvault p) (p_base p) (p_mode p) (p_wl p)
    (p_max_cap p) (p_min_cap p) (p_start p) (p_end p) (p_supply p) (p_deposit p) (p_escrows p)
    (p_created p) (p_lock p) (p_vest p) (p_imm_ts p) (p_vs p) (p_ve p) (p_claimed p)
    (p_refunded p) (p_fee p) (p_fee_col p) (p_cwd p) (p_bprog p) (p_qprog p) (p_nreg p)
    (p_unsold p) (p_unsold_done p) (p_bps p) (p_raw0 p) (p_raw1 p) (p_raw2 p) v.

(** state/fixed_price_presale_params.rs:5-12 *)
Record fixed_args := mkFixed {
  x_presale : addr; x_owner : addr; x_qprice : Z; x_disable_withdraw : Z
}.

(** state/merkle_root_config.rs:6-17 *)
Record merkle_cfg := mkMerkle { k_root : bytes; k_presale : addr; k_version : Z }.

(** state/operator.rs:5-9 *)
Record operator := mkOper { o_owner : addr; o_creator : addr }.

(** state/permissioned_server_metadata.rs:4-10; the URL is an opaque byte string. *)
Record server_meta := mkServer { s_presale : addr; s_url : bytes }.

(** * Instruction arguments, instructions/initialize_presale/params.rs *)

(** params.rs:79-86.  [ra_padding_zero] is not used by the program and not modelled. *)
Record registry_args := mkRegArgs {
  ra_min : Z; ra_max : Z; ra_supply : Z; ra_fee_bps : Z
}.

(** params.rs:123-136 *)
Record presale_args := mkPreArgs {
  pa_max_cap : Z; pa_min_cap : Z; pa_start : Z; pa_end : Z;
  pa_wl : Z; pa_mode : Z; pa_unsold : Z; pa_disable_early : Z
}.

(** params.rs:202-214.  [lv_padding] is the 24 byte padding, which takes part in the comparison
    with the default value (params.rs:283-289). *)
Record locked_args := mkLocked {
  lv_bps : Z; lv_lock : Z; lv_vest : Z; lv_imm_ts : Z; lv_padding : bytes
}.

(** params.rs:43-49 *)
Record init_args := mkInitArgs {
  ia_params : presale_args; ia_locked : locked_args; ia_regs : list registry_args
}.

(** * PresaleRegistry methods, state/presale_registry.rs *)

(** The all-zero registry of a freshly created account ([Default]). *)
Definition reg_zero : registry := mkReg 0 0 0 0 0 0 0 0 0.

(** presale_registry.rs:32-43 (on a zeroed registry) *)
Definition reg_init (a : registry_args) : registry :=
  mkReg (ra_supply a) 0 0 0 0 (ra_min a) (ra_max a) 0 (ra_fee_bps a).

(** presale_registry.rs:45-50 *)
Definition reg_deposit_fee (r : registry) (amount : Z) : res (Z * Z) :=
  calculate_deposit_fee_included_amount amount (r_fee_bps r) RoundUp.

(** escrow.rs:64-68 (lines of state/escrow.rs) *)
Definition esc_deposit (e : escrow) (amount fee : Z) : res escrow :=
  let* d := safe_add U64MAX (e_deposit e) amount in
  let* f := safe_add U64MAX (e_fee e) fee in
  Ok (set_e_fee f (set_e_deposit d e)).

(** presale_registry.rs:52-63 *)
Definition reg_deposit (r : registry) (e : escrow) (amount fee : Z) : res (registry * escrow) :=
  let* d := safe_add U64MAX (r_deposit r) amount in
  let* f := safe_add U64MAX (r_fee r) fee in
  let* e' := esc_deposit e amount fee in
  Ok (set_r_fee f (set_r_deposit d r), e').

(** escrow.rs:70-73 *)
Definition esc_withdraw (e : escrow) (amount : Z) : res escrow :=
  let* d := safe_sub (e_deposit e) amount in
  Ok (set_e_deposit d e).

(** presale_registry.rs:65-69 *)
Definition reg_withdraw (r : registry) (e : escrow) (amount : Z) : res (registry * escrow) :=
  let* e' := esc_withdraw e amount in
  let* d := safe_sub (r_deposit r) amount in
  Ok (set_r_deposit d r, e').

(** presale_registry.rs:71-79 *)
Definition reg_inc_escrow (r : registry) : res registry :=
  let* n := safe_add U64MAX (r_escrows r) 1 in Ok (set_r_escrows n r).
Definition reg_dec_escrow (r : registry) : res registry :=
  let* n := safe_sub (r_escrows r) 1 in Ok (set_r_escrows n r).

(** presale_registry.rs:81-84 *)
Definition reg_add_refunded (r : registry) (amount : Z) : res registry :=
  let* n := safe_add U64MAX (r_refunded r) amount in Ok (set_r_refunded n r).

(** presale_registry.rs:86-89 *)
Definition reg_add_claimed (r : registry) (amount : Z) : res registry :=
  let* n := safe_add U64MAX (r_claimed r) amount in Ok (set_r_claimed n r).

(** presale_registry.rs:91-96 *)
Definition reg_uninit (r : registry) : bool :=
  (r_supply r =? 0) && (r_max_cap r =? 0) && (r_min_cap r =? 0) && (r_fee_bps r =? 0).

(** presale_registry.rs:99-123; returns (refund_amount, refund_fee). *)
Definition reg_remaining_quote (r : registry) (presale_remaining presale_deposit : Z)
    : res (Z * Z) :=
  if (presale_deposit =? 0) || (r_deposit r =? 0) then Ok (0, 0) else
  let* m := safe_mul U128MAX presale_remaining (r_deposit r) in
  let* rq := safe_div m presale_deposit in
  let* m' := safe_mul U128MAX (r_fee r) rq in
  let* rf := safe_div m' (r_deposit r) in
  let* rq64 := cast64 rq in
  let* rf64 := cast64 rf in
  Ok (rq64, rf64).

(** presale_registry.rs:125-137 *)
Definition reg_validate_deposit (r : registry) (e : escrow) : res unit :=
  if e_deposit e =? 0 then Ok tt else
  require ((r_min_cap r <=? e_deposit e) && (e_deposit e <=? r_max_cap r)) DepositAmountOutOfCap.

(** * Escrow methods, state/escrow.rs *)

(** escrow.rs:36-52, applied to a zeroed account *)
Definition esc_init (presale owner : addr) (now idx cap : Z) : escrow :=
  mkEsc presale owner 0 0 0 idx 0 cap now 0 now.

(** escrow.rs:54-62 *)
Definition esc_remaining_quota (e : escrow) (buyer_max : Z) : res Z :=
  let cap := Z.min buyer_max (e_cap e) in
  if cap <=? e_deposit e then Ok 0 else safe_sub cap (e_deposit e).

(** escrow.rs:75-82; returns the claimed amount *)
Definition esc_claim (e : escrow) : res (Z * escrow) :=
  let* c := safe_add U64MAX (e_claimed e) (e_pending e) in
  Ok (e_pending e, set_e_pending 0 (set_e_claimed c e)).

(** escrow.rs:84-87 *)
Definition esc_set_withdrawn (e : escrow) : escrow := set_e_withdrawn 1 e.

(** escrow.rs:89-91 *)
Definition esc_is_withdrawn (e : escrow) : bool := e_withdrawn e =? 1.

(** escrow.rs:93-97 *)
Definition esc_sum_claimed_pending (e : escrow) : res Z :=
  safe_add U64MAX (e_claimed e) (e_pending e).

(** escrow.rs:99-102 *)
Definition esc_accumulate (e : escrow) (amount : Z) : res escrow :=
  let* n := safe_add U64MAX (e_pending e) amount in Ok (set_e_pending n e).

(** * Presale methods, state/presale.rs *)

(** presale.rs:507-517; [index] comes from a u8 *)
Definition get_reg (p : presale) (idx : Z) : res registry :=
  ok_or (p_regs p !! Z.to_nat idx) InvalidPresaleRegistryIndex.

(** presale.rs:513-517 followed by an assignment through the returned reference *)
Definition set_reg (p : presale) (idx : Z) (r : registry) : presale :=
  set_p_regs (<[Z.to_nat idx := r]> (p_regs p)) p.

(** presale.rs:194-209; returns (vesting_start_time, vesting_end_time) *)
Definition vest_lock_timings (end_time lock vest : Z) : res (Z * Z) :=
  let* vs := safe_add U64MAX end_time lock in
  let* ve := safe_add U64MAX vs vest in
  Ok (vs, ve).

(** params.rs:139-141 *)
Definition start_time_without_going_backwards (a : presale_args) (now : Z) : Z :=
  Z.max (pa_start a) now.

(** presale.rs:238-247: [safe_add] of the registry supplies, starting at 0. *)
Fixpoint sum_supplies (acc : Z) (l : list registry_args) : res Z :=
  match l with
  | [] => Ok acc
  | a :: l => let* acc := safe_add U64MAX acc (ra_supply a) in sum_supplies acc l
  end.

(** presale.rs:213-298 on a zeroed account.  [presale_registries] has five slots
    (constants.rs:18); indexing beyond them panics. *)
Definition presale_initialize (a : presale_args) (regs : list registry_args)
    (locked : option locked_args) (bmint qmint bvault qvault owner base : addr)
    (now : Z) (bprog qprog : prog) : res presale :=
  let* supply := sum_supplies 0 regs in
  let* _ := require (Z.of_nat (length regs) <=? MAX_PRESALE_REGISTRY_COUNT) Panic in
  let slots := map reg_init regs ++ replicate (Z.to_nat MAX_PRESALE_REGISTRY_COUNT
                                                 - length regs)%nat reg_zero in
  let* '(lock, vest, bps, imm_ts, vs, ve) :=
    match locked with
    | None => Ok (0, 0, 0, 0, 0, 0)
    | Some l =>
      let* '(vs, ve) := vest_lock_timings (pa_end a) (lv_lock l) (lv_vest l) in
      Ok (lv_lock l, lv_vest l, lv_bps l, lv_imm_ts l, vs, ve)
    end in
  Ok {| p_owner := owner; p_qmint := qmint; p_bmint := bmint; p_bvault := bvault;
        p_qvault := qvault; p_base := base; p_mode := pa_mode a; p_wl := pa_wl a;
        p_max_cap := pa_max_cap a; p_min_cap := pa_min_cap a;
        p_start := start_time_without_going_backwards a now; p_end := pa_end a;
        p_supply := supply; p_deposit := 0; p_escrows := 0; p_created := now;
        p_lock := lock; p_vest := vest; p_imm_ts := imm_ts; p_vs := vs; p_ve := ve;
        p_claimed := 0; p_refunded := 0; p_fee := 0; p_fee_col := 0; p_cwd := 0;
        p_bprog := bprog; p_qprog := qprog; p_nreg := Z.of_nat (length regs);
        p_unsold := pa_unsold a; p_unsold_done := 0; p_bps := bps;
        p_raw0 := 0; p_raw1 := 0; p_raw2 := 0; p_regs := slots |}.

(** presale.rs:300-312 *)
Definition get_progress (p : presale) (now : Z) : progress :=
  if now <? p_start p then NotStarted
  else if now <? p_end p then Ongoing
  else if p_min_cap p <=? p_deposit p then Completed else Failed.

(** presale.rs:314-326 *)
Definition presale_inc_escrow (p : presale) (idx : Z) : res presale :=
  let* r := get_reg p idx in
  let* r' := reg_inc_escrow r in
  let* n := safe_add U64MAX (p_escrows p) 1 in
  Ok (set_p_escrows n (set_reg p idx r')).
Definition presale_dec_escrow (p : presale) (idx : Z) : res presale :=
  let* r := get_reg p idx in
  let* r' := reg_dec_escrow r in
  let* n := safe_sub (p_escrows p) 1 in
  Ok (set_p_escrows n (set_reg p idx r')).

(** presale.rs:328-357 ([advance_progress_to_completed] is this function) *)
Definition recalculate_timing (p : presale) (new_end : Z) : res presale :=
  let until_imm := sat_sub (p_imm_ts p) (p_end p) in
  let* '(vs, ve) := vest_lock_timings new_end (p_lock p) (p_vest p) in
  let* imm := safe_add U64MAX new_end until_imm in
  Ok (set_p_imm_ts imm (set_p_ve ve (set_p_vs vs (set_p_end new_end p)))).

(** presale.rs:359-362 *)
Definition presale_remaining_quota (p : presale) : res Z :=
  safe_sub (p_max_cap p) (p_deposit p).

(** presale.rs:364-382; returns (fee, amount_included_fee) and the new states *)
Definition presale_deposit (p : presale) (e : escrow) (amount : Z)
    : res (Z * Z * presale * escrow) :=
  let* r := get_reg p (e_idx e) in
  let* '(fee, included) := reg_deposit_fee r amount in
  let* '(r', e') := reg_deposit r e amount fee in
  let* d := safe_add U64MAX (p_deposit p) amount in
  let* f := safe_add U64MAX (p_fee p) fee in
  Ok (fee, included, set_p_fee f (set_p_deposit d (set_reg p (e_idx e) r')), e').

(** presale.rs:384-389 *)
Definition presale_withdraw (p : presale) (e : escrow) (amount : Z) : res (presale * escrow) :=
  let* r := get_reg p (e_idx e) in
  let* '(r', e') := reg_withdraw r e amount in
  let* d := safe_sub (p_deposit p) amount in
  Ok (set_p_deposit d (set_reg p (e_idx e) r'), e').

(** presale.rs:391-400 *)
Definition presale_add_refunded (p : presale) (amount idx : Z) : res presale :=
  let* r := get_reg p idx in
  let* r' := reg_add_refunded r amount in
  let* n := safe_add U64MAX (p_refunded p) amount in
  Ok (set_p_refunded n (set_reg p idx r')).

(** presale.rs:402-409 *)
Definition is_unsold_done (p : presale) : bool := negb (p_unsold_done p =? 0).
Definition set_unsold_performed (p : presale) : presale := set_p_unsold_done 1 p.

(** presale.rs:411-420 *)
Definition allow_withdraw_remaining (p : presale) (pg : progress) : res bool :=
  let* m := cast_mode (p_mode p) in
  Ok (beq_progress pg Failed || (beq_progress pg Completed && bool_decide (m = Prorata))).

(** presale.rs:422-424 *)
Definition get_remaining_quote (p : presale) : Z := sat_sub (p_deposit p) (p_max_cap p).

(** presale.rs:455-471: [share * pool / total] with a zero guard *)
Definition refund_share (share pool total : Z) : res Z :=
  if 0 <? total then
    let* m := safe_mul U128MAX share pool in
    let* d := safe_div m total in
    cast64 d
  else Ok 0.

(** presale.rs:426-480; returns (refund_deposit_amount, refund_fee_amount) *)
Definition escrow_remaining_quote (p : presale) (e : escrow) (now : Z) : res (Z * Z) :=
  let pg := get_progress p now in
  let* allowed := allow_withdraw_remaining p pg in
  let* _ := require allowed PresaleNotOpenForWithdrawRemainingQuote in
  if beq_progress pg Failed then Ok (e_deposit e, e_fee e)
  else
    let* r := get_reg p (e_idx e) in
    let* '(rq, rf) := reg_remaining_quote r (get_remaining_quote p) (p_deposit p) in
    let* ef := refund_share (e_fee e) rf (r_fee r) in
    let* ed := refund_share (e_deposit e) rq (r_deposit r) in
    Ok (ed, ef).

(** presale.rs:489-496 *)
Definition has_creator_withdrawn (p : presale) : bool := negb (p_cwd p =? 0).
Definition set_creator_withdrawn (p : presale) : presale := set_p_cwd 1 p.

(** presale.rs:498-505 *)
Definition presale_claim (p : presale) (e : escrow) : res (presale * escrow) :=
  let* r := get_reg p (e_idx e) in
  let* '(amount, e') := esc_claim e in
  let* r' := reg_add_claimed r amount in
  let* n := safe_add U64MAX (p_claimed p) amount in
  Ok (set_p_claimed n (set_reg p (e_idx e) r'), e').

(** presale.rs:519-525 *)
Definition is_fee_collected (p : presale) : bool := p_fee_col p =? 1.
Definition set_fee_collected (p : presale) : presale := set_p_fee_col 1 p.

(** presale.rs:536-550: the loop over the registries, stopping at the first uninitialised one *)
Fixpoint collected_fee_loop (l : list registry) (remaining total acc : Z) : res Z :=
  match l with
  | [] => Ok acc
  | r :: l =>
    if reg_uninit r then Ok acc else
    let* '(_, rf) := reg_remaining_quote r remaining total in
    let* c := safe_sub (r_fee r) rf in
    let* acc := safe_add U64MAX acc c in
    collected_fee_loop l remaining total acc
  end.

(** presale.rs:527-556 *)
Definition total_collected_fee (p : presale) : res Z :=
  let* m := cast_mode (p_mode p) in
  match m with
  | Prorata => collected_fee_loop (p_regs p) (get_remaining_quote p) (p_deposit p) 0
  | Fcfs | FixedPrice => Ok (p_fee p)
  end.
