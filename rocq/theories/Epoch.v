(** The fee schedule of Token-2022 mints: a second layer over the state machine, in which the transfer
    fee of a mint is not set directly but for two epochs later, as in spl-token-2022. *)
From Verif Require Import Base Math State Handlers Token World Instr Exec.

(** spl-token-2022, extension/transfer_fee/mod.rs: TransferFeeConfig, older and newer fee.  (The epoch
    of the older fee is not read by anything.) *)
Record sched := mkSched { s_older : tfee; s_epoch : Z; s_newer : tfee }.

(** TransferFeeConfig::get_epoch_fee, called at token2022.rs:152-153 *)
Definition fee_at (s : sched) (epoch : Z) : tfee :=
  if s_epoch s <=? epoch then s_newer s else s_older s.

(** extension/transfer_fee/processor.rs, process_set_transfer_fee: the new fee starts two epochs
    later; a scheduled fee that has not started yet is dropped. *)
Definition set_sched (s : sched) (epoch : Z) (f : tfee) : sched :=
  mkSched (if s_epoch s <=? epoch then s_newer s else s_older s) (epoch + 2) f.

(** The ledger with [Clock::epoch] and the schedules; [m_fee] of a mint is the fee in force. *)
Record eworld := mkE { ew : world; ew_epoch : Z; ew_sched : gmap addr sched }.

(** Bring the fee of a mint into force. *)
Definition refee (S : gmap addr sched) (epoch : Z) (k : addr) (m : mint) : mint :=
  match m_fee m, S !! k with
  | Some _, Some s => set_m_fee (Some (fee_at s epoch)) m
  | _, _ => m
  end.

Inductive xop :=
| XOp (o : op)                       (* everything else; [ESetFee] is not available *)
| XSetFee (mk : addr) (f : tfee)     (* SetTransferFee *)
| XEpoch (epoch : Z).                (* a later epoch begins *)

(** A new mint starts with the same fee as older and newer (process_initialize_transfer_fee_config). *)
Definition sched_after (o : op) (epoch : Z) (S : gmap addr sched) : gmap addr sched :=
  match o with
  | ECreateMint k m =>
      match m_fee m with Some f => <[k := mkSched f epoch f]> S | None => delete k S end
  | ECloseMint k => delete k S
  | _ => S
  end.

Section WithCrypto.
Context `{Crypto}.

Definition xstep (x : eworld) (o : xop) : res (eworld * list fx) :=
  match o with
  | XOp (ESetFee _ _) => Err EnvRejected
  | XOp o =>
      let* '(w', l) := step (ew x) o in
      Ok (mkE w' (ew_epoch x) (sched_after o (ew_epoch x) (ew_sched x)), l)
  | XSetFee mk f =>
      let* m := get_mint (ew x) mk in
      let* s := ok_or (ew_sched x !! mk) EnvRejected in
      let* _ := env_ok (match m_fee m with Some _ => true | None => false end
                        && (0 <=? f_bps f) && (f_bps f <=? MAX_FEE_BASIS_POINTS) && in_u64 (f_max f)) in
      Ok (mkE (ew x) (ew_epoch x) (<[mk := set_sched s (ew_epoch x) f]> (ew_sched x)), [])
  | XEpoch e =>
      let* _ := env_ok (ew_epoch x <=? e) in
      Ok (mkE (put_mints (map_imap (fun k m => Some (refee (ew_sched x) e k m)) (w_mints (ew x))) (ew x)) e
            (ew_sched x), [])
  end.
Definition xexec (x : eworld) (o : xop) : eworld := match xstep x o with Ok (x', _) => x' | Err _ => x end.
Definition xrun (x : eworld) (l : list xop) : eworld := foldl xexec x l.
Definition xgenesis : eworld := mkE genesis 0 ∅.
Definition xreach (x : eworld) : Prop := exists l, x = xrun xgenesis l.

End WithCrypto.
