(** Concrete histories.  They show that the hypotheses of the theorems are met by non-trivial
    executions of the model. *)
From Verif Require Import Base Math State Handlers Token World Instr Exec.

(** A toy hash with 32-byte outputs, to be able to run merkle whitelists (a small modulus keeps the
    examples cheap for the checker). *)
Definition toy : Crypto := {|
  hashv := fun b => le_bytes 32 (fold_left (fun acc x => (acc * 257 + x + 1) mod 65521) b 7);
  addr_bytes := fun a => le_bytes 32 (Zpos (encode a))
|}.
#[local] Existing Instance toy.

Definition creator := Wallet 1.
Definition alice := Wallet 2.
Definition bob := Wallet 3.
Definition carol := Wallet 4.
Definition oper := Wallet 5.
Definition base1 := Wallet 10.
Definition bmint := Wallet 20.
Definition qmint := Wallet 21.
(** token accounts *)
Definition creator_b := Ata creator bmint Token2022.
Definition creator_q := Wallet 31.
Definition alice_q := Wallet 32.
Definition bob_q := Wallet 33.
Definition carol_q := Wallet 34.
Definition alice_b := Wallet 42.
Definition bob_b := Wallet 43.
Definition carol_b := Wallet 44.

Definition noh : henv := mkHenv [] [] true.
Definition plain (pr : prog) (f : option tfee) : mint := mkMint pr false [] f None None false 0 0.

(** Mints (the base token charges a 2% transfer fee), token accounts and initial balances. *)
Definition setup : list op := [
  EClock 1000;
  ECreateMint bmint (plain Token2022 (Some (mkFee 200 1000000)));
  ECreateMint qmint (plain SplToken None);
  ECreateToken creator_b bmint creator; ECreateToken creator_q qmint creator;
  ECreateToken alice_q qmint alice; ECreateToken bob_q qmint bob; ECreateToken carol_q qmint carol;
  ECreateToken alice_b bmint alice; ECreateToken bob_b bmint bob; ECreateToken carol_b bmint carol;
  EMintTo bmint creator_b 100000; EMintTo qmint alice_q 10000; EMintTo qmint bob_q 10000;
  EMintTo qmint carol_q 10000 ].

Definition k1 := PPresale base1 bmint qmint.
Definition esc (o : addr) (i : Z) := PEscrow k1 o i.
Definition dep (o tok payer : addr) (i n : Z) : op :=
  IDeposit k1 (PQuoteVault k1) qmint (esc o i) tok payer SplToken n noh.
Definition back (o tok : addr) (i n : Z) : op :=
  IWithdraw k1 (PQuoteVault k1) qmint (esc o i) tok o SplToken n noh.
Definition refund (o tok : addr) (i : Z) : op :=
  IWithdrawRemaining k1 (PQuoteVault k1) qmint (esc o i) tok o SplToken noh.
Definition getb (o tok : addr) (i : Z) : op :=
  IClaim k1 (PBaseVault k1) bmint (esc o i) tok o Token2022 noh.
Definition cw : op := ICreatorWithdraw k1 creator_q creator SplToken (mkHenv [PQuoteVault k1; qmint] [] true).
Definition cwb : op := ICreatorWithdraw k1 creator_b creator Token2022 (mkHenv [PBaseVault k1; bmint] [] true).
Definition cf : op := ICollectFee k1 (PQuoteVault k1) qmint creator_q creator SplToken noh.
Definition us : op := IUnsold k1 (PBaseVault k1) bmint creator_b Token2022 noh.

(** Prorata presale, whitelist by authority, two registries with different fees, a quarter
    released at the end, the rest vesting over 100 seconds after a lock of 10 seconds. *)
Definition pr_args : init_args :=
  mkInitArgs (mkPreArgs 1000 100 1000 2000 2 1 0 0)
    (mkLocked 2500 10 100 2000 []) [mkRegArgs 1 1000 5000 100; mkRegArgs 1 1000 700 0].
Definition pr_init : op := IInitPresale base1 bmint qmint creator_b creator creator Token2022 SplToken pr_args noh.
Definition pr_open : list op := setup ++ [
  pr_init;
  ICreateOperator oper creator;
  IEscrowCreator k1 alice (POperator creator oper) oper alice 0 1000;
  IEscrowCreator k1 bob (POperator creator oper) oper bob 0 700;
  IEscrowCreator k1 carol (POperator creator oper) oper carol 1 400;
  dep alice alice_q alice 0 800; dep bob bob_q bob 0 600; back alice alice_q 0 50;
  dep carol carol_q carol 1 201 ].
Definition pr_over : list op := pr_open ++ [EClock 2050].
Definition pr_paid : list op := pr_over ++ [
  refund alice alice_q 0; getb alice alice_b 0; cw; cf; getb bob bob_b 0; EClock 3000; getb alice alice_b 0 ].


(** Fixed price of 2.5 quote per base token, permissionless, withdrawals allowed, unsold tokens
    burned, nothing locked. *)
Definition fx_price : Z := 46116860184273879040.
Definition fx_args : init_args :=
  mkInitArgs (mkPreArgs 2000 100 1000 2000 0 0 1 1)
    (mkLocked 0 0 0 0 []) [mkRegArgs 3 1500 1000 50].
Definition fx_init : op :=
  IInitPresale base1 bmint qmint creator_b creator creator Token2022 SplToken fx_args
    (mkHenv [PFixedArgs k1] [] true).
Definition fx_open : list op := setup ++ [
  IInitFixedArgs k1 creator creator 0 fx_price;
  fx_init;
  IEscrowPermissionless k1 alice alice; IEscrowPermissionless k1 bob carol;
  dep alice alice_q alice 0 1600; dep bob carol_q carol 0 199; back alice alice_q 0 700 ].
Definition fx_over : list op := fx_open ++ [EClock 2000].
Definition fx_paid : list op := fx_over ++ [us; cf; getb alice alice_b 0].

(** First come first served presale that misses its minimum. *)
Definition ff_args : init_args :=
  mkInitArgs (mkPreArgs 1000 500 1100 2000 0 2 0 0)
    (mkLocked 0 0 0 0 []) [mkRegArgs 10 600 3000 250].
Definition ff_init : op :=
  IInitPresale base1 bmint qmint creator_b creator creator Token2022 SplToken ff_args noh.
Definition ff_open : list op := setup ++ [
  ff_init; EClock 1100;
  IEscrowPermissionless k1 alice alice; IEscrowPermissionless k1 bob bob;
  dep alice alice_q alice 0 300; dep bob bob_q bob 0 100 ].
Definition ff_over : list op := ff_open ++ [EClock 2500].
Definition ff_paid : list op := ff_over ++ [refund alice alice_q 0; cwb].

(** First come first served presale that ends early because the cap is reached. *)
Definition fc_args : init_args :=
  mkInitArgs (mkPreArgs 1000 500 1100 2000 0 2 0 0)
    (mkLocked 4000 50 200 2100 []) [mkRegArgs 10 600 3000 250].
Definition fc_init : op :=
  IInitPresale base1 bmint qmint creator_b creator creator Token2022 SplToken fc_args noh.
Definition fc_open : list op := setup ++ [
  fc_init; EClock 1100;
  IEscrowPermissionless k1 alice alice; IEscrowPermissionless k1 bob bob;
  dep alice alice_q alice 0 600 ].
Definition fc_over : list op := fc_open ++ [EClock 1200; dep bob bob_q bob 0 9999].
Definition fc_paid : list op := fc_over ++ [EClock 1360; getb alice alice_b 0; cw; cf].

(** Which operations of a history are accepted. *)
Fixpoint accepted (w : world) (l : list op) : list bool :=
  match l with
  | [] => []
  | o :: l => (match step w o with Ok _ => true | Err _ => false end) :: accepted (exec w o) l
  end.

Example scenarios_accepted :
  forallb id (accepted genesis pr_paid) && forallb id (accepted genesis fx_paid)
  && forallb id (accepted genesis ff_paid) && forallb id (accepted genesis fc_paid) = true.
Proof. vm_compute. reflexivity. Qed.

Definition reach (l : list op) : reachable (run genesis l) := ex_intro _ l eq_refl.

(** The worlds at the end of the histories. *)
Definition w_pr_open : world := run genesis pr_open.
Definition w_pr_over : world := run genesis pr_over.
Definition w_pr_paid : world := run genesis pr_paid.
Definition w_fx_open : world := run genesis fx_open.
Definition w_fx_over : world := run genesis fx_over.
Definition w_fx_paid : world := run genesis fx_paid.
Definition w_ff_open : world := run genesis ff_open.
Definition w_ff_over : world := run genesis ff_over.
Definition w_ff_paid : world := run genesis ff_paid.
Definition w_fc_open : world := run genesis fc_open.
Definition w_fc_over : world := run genesis fc_over.
Definition w_fc_paid : world := run genesis fc_paid.

(** Merkle whitelist with two entries, alice in registry 0 and bob in registry 1. *)
Definition mk_args : init_args :=
  mkInitArgs (mkPreArgs 1000 100 1500 2000 1 2 0 0)
    (mkLocked 0 0 0 0 []) [mkRegArgs 1 1000 5000 100; mkRegArgs 1 1000 700 0].
Definition mk_init : op :=
  IInitPresale base1 bmint qmint creator_b creator creator Token2022 SplToken mk_args noh.
Definition leaf_a := merkle_leaf alice 0 500.
Definition leaf_b := merkle_leaf bob 1 300.
Definition mk_root : bytes := verify_step leaf_a leaf_b.
Definition mk_cfg := PMerkle k1 7.
Definition mk_pre : list op := setup ++ [mk_init; ICreateMerkle k1 creator mk_root 7;
  ICreateServer k1 creator [104; 116; 116; 112]].
Definition mk_open : list op := mk_pre ++ [EClock 1500;
  IEscrowMerkle k1 alice mk_cfg carol [leaf_b] 0 500 ].
Definition w_mk_pre : world := run genesis mk_pre.
Definition w_mk_open : world := run genesis mk_open.
Example mk_accepted : forallb id (accepted genesis mk_open) = true.
Proof. vm_compute. reflexivity. Qed.

Definition ok_step (w : world) (o : op) : bool := match step w o with Ok _ => true | Err _ => false end.
Definition after (w : world) (o : op) : world := exec w o.
