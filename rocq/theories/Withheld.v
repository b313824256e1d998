(** Where Token-2022 keeps withheld transfer fees: a layer over the state machine in which they stay
    with the receiving token accounts until they are harvested or withdrawn, as in spl-token-2022. *)
From Verif Require Import Base Math State Handlers Token World Instr Exec.

(** The ledger, the withheld fees of each token account (TransferFeeAmount::withheld_amount), and those
    collected in each mint (TransferFeeConfig::withheld_amount). *)
Record fworld := mkF { fw : world; fw_at : gmap addr Z; fw_mint : gmap addr Z }.

Definition look (M : gmap addr Z) (a : addr) : Z := default 0 (M !! a).
Definition bump (a : addr) (n : Z) (M : gmap addr Z) : gmap addr Z := <[a := look M a + n]> M.

(** processor.rs, process_transfer: the fee is added to the withheld amount of the destination. *)
Definition withhold1 (M : gmap addr Z) (x : fx) : gmap addr Z :=
  match x with FxTransfer _ dst _ _ _ fee => bump dst fee M | _ => M end.
Definition withhold (l : list fx) (M : gmap addr Z) : gmap addr Z := foldl withhold1 M l.

Definition of_mint (w : world) (mk a : addr) : bool :=
  match w_tokens w !! a with Some t => beq_addr (t_mint t) mk | None => false end.

(** Take all that is withheld in the given accounts, one after the other. *)
Fixpoint drain (srcs : list addr) (M : gmap addr Z) : gmap addr Z * Z :=
  match srcs with
  | [] => (M, 0)
  | a :: r => let '(M', n) := drain r (<[a := 0]> M) in (M', look M a + n)
  end.

Inductive fop :=
| FOp (o : op)                                            (* everything else *)
| FHarvest (mk : addr) (srcs : list addr)                 (* HarvestWithheldTokensToMint *)
| FWithdrawMint (mk dst : addr)                           (* WithdrawWithheldTokensFromMint *)
| FWithdrawAccounts (mk : addr) (srcs : list addr) (dst : addr). (* WithdrawWithheldTokensFromAccounts *)

Section WithCrypto.
Context `{Crypto}.

(** extension/transfer_fee/processor.rs. Harvesting skips the accounts that do not belong to the mint,
    withdrawing from accounts fails on them. A token account with withheld fees cannot be closed
    (process_close_account). *)
Definition fstep (x : fworld) (o : fop) : res (fworld * list fx) :=
  let w := fw x in
  match o with
  | FOp (EWithdrawWithheld _ _ _) => Err EnvRejected
  | FOp o =>
      let* _ := env_ok (match o with ECloseToken k _ => look (fw_at x) k =? 0 | _ => true end) in
      let* '(w', l) := step w o in
      Ok (mkF w' (withhold l (fw_at x)) (fw_mint x), l)
  | FHarvest mk srcs =>
      let* m := get_mint w mk in
      let* _ := env_ok (match m_fee m with Some _ => true | None => false end) in
      let '(M, n) := drain (List.filter (of_mint w mk) srcs) (fw_at x) in
      Ok (mkF w M (bump mk n (fw_mint x)), [])
  | FWithdrawMint mk dst =>
      let* '(w', l) := env_withdraw_withheld w mk dst (look (fw_mint x) mk) in
      Ok (mkF w' (fw_at x) (<[mk := 0]> (fw_mint x)), l)
  | FWithdrawAccounts mk srcs dst =>
      let* _ := env_ok (forallb (of_mint w mk) srcs) in
      let '(M, n) := drain srcs (fw_at x) in
      let* '(w', l) := env_withdraw_withheld w mk dst n in
      Ok (mkF w' M (fw_mint x), l)
  end.
Definition fexec (x : fworld) (o : fop) : fworld := match fstep x o with Ok (x', _) => x' | Err _ => x end.
Definition frun (x : fworld) (l : list fop) : fworld := foldl fexec x l.
Definition fgenesis : fworld := mkF genesis ∅ ∅.
Definition freach (x : fworld) : Prop := exists l, x = frun fgenesis l.

End WithCrypto.
