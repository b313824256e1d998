(** The repository's integration tests, replayed in the model.  Each entry of [replays] is one test of
    /repo/programs/presale/tests (or one of the error cases a test lists): the instructions the test
    sends, and the error number it expects from the last one, or the figures it reads back at the end.
    These are examples that check the model against the behaviour the authors wrote down; they are
    tests of the model, not proofs about it. *)
From Coq Require Import String.
From Verif Require Import Base Math State Handlers Token World Instr Exec Scenario.
#[local] Existing Instance toy.
Local Open Scope string_scope.
Local Open Scope list_scope.
Local Open Scope Z_scope.

(** * The fixtures, tests/helpers/process_initialize_presale.rs:22-130 and commons.rs:60-80.
    One user is base key, payer and creator; the base mint has 10^15 units, all with the user. *)
Definition SOL : Z := 1000000000.
Definition T0 : Z := 1700000000.
Definition user := Wallet 1.
Definition user1 := Wallet 2.
Definition user2 := Wallet 3.
Definition op0 := Wallet 7.
Definition op1 := Wallet 8.
Definition bm := Wallet 20.
Definition qm := Wallet 21.
Definition pk := PPresale user bm qm.
Definition tb (o : addr) := Ata o bm SplToken.
Definition tq (o : addr) := Ata o qm SplToken.
Definition SUPPLY : Z := 1000000000000000.

Definition base_setup : list op := [
  EClock T0; ECreateMint bm (plain SplToken None); ECreateMint qm (plain SplToken None);
  ECreateToken (tb user) bm user; ECreateToken (tq user) qm user;
  ECreateToken (tb user1) bm user1; ECreateToken (tq user1) qm user1;
  EMintTo bm (tb user) SUPPLY;
  EMintTo qm (tq user) (100 * SOL); EMintTo qm (tq user1) (100 * SOL) ].

(** price 0.01 with 6 and 9 decimals: ten quote units per base unit *)
Definition q10 : Z := 10 * 2 ^ 64.
Definition pargs (mode wl : Z) : presale_args := mkPreArgs SOL 1000000 T0 (T0 + 120) wl mode 0 0.
Definition lock0 : locked_args := mkLocked 0 3600 86400 0 [].
Definition reg0 (mode wl : Z) : registry_args :=
  mkRegArgs (if wl =? 0 then 1000 else if mode =? 0 then 10 else 1) SOL SUPPLY 0.
Definition regs5 (mode wl : Z) : list registry_args :=
  replicate 5 (mkRegArgs (ra_min (reg0 mode wl)) SOL (SUPPLY / 5) 0).
Definition with_fee (r : registry_args) : registry_args :=
  mkRegArgs (ra_min r) (ra_max r) (ra_supply r) 500.

Definition fixed_args (dis q : Z) : op := IInitFixedArgs pk user user dis q.
Definition init_with (a : init_args) (h : henv) : op :=
  IInitPresale user bm qm (tb user) user user SplToken SplToken a h.
Definition hfix : henv := mkHenv [PFixedArgs pk] [] true.
(** a whole presale: fixed price ones create the price account first *)
Definition create (a : init_args) : list op :=
  if pa_mode (ia_params a) =? 0 then [fixed_args 0 q10; init_with a hfix] else [init_with a noh].
Definition std (mode wl : Z) : init_args := mkInitArgs (pargs mode wl) lock0 [reg0 mode wl].
Definition std5 (mode wl : Z) : init_args := mkInitArgs (pargs mode wl) lock0 (regs5 mode wl).
Definition fee_std (mode wl : Z) : init_args := mkInitArgs (pargs mode wl) lock0 [with_fee (reg0 mode wl)].

(** * The calls of the helpers *)
Definition open_ (o : addr) : op := IEscrowPermissionless pk o o.
Definition dep_ (o : addr) (i n : Z) : op := IDeposit pk (PQuoteVault pk) qm (PEscrow pk o i) (tq o) o SplToken n noh.
Definition wd_ (o : addr) (i n : Z) : op := IWithdraw pk (PQuoteVault pk) qm (PEscrow pk o i) (tq o) o SplToken n noh.
Definition rem_ (o : addr) (i : Z) : op := IWithdrawRemaining pk (PQuoteVault pk) qm (PEscrow pk o i) (tq o) o SplToken noh.
Definition ref_ (o : addr) (i : Z) : op := IRefresh pk (PEscrow pk o i).
Definition claim_ (o : addr) (i : Z) : op := IClaim pk (PBaseVault pk) bm (PEscrow pk o i) (tb o) o SplToken noh.
Definition close_ (o : addr) (i : Z) : op := ICloseEscrow pk (PEscrow pk o i) o o.
Definition cwq : op := ICreatorWithdraw pk (tq user) user SplToken (mkHenv [PQuoteVault pk; qm] [] true).
Definition cwb_ : op := ICreatorWithdraw pk (tb user) user SplToken (mkHenv [PBaseVault pk; bm] [] true).
Definition fee_ : op := ICollectFee pk (PQuoteVault pk) qm (tq user) user SplToken noh.
Definition uns_ : op := IUnsold pk (PBaseVault pk) bm (tb user) SplToken noh.
Definition END := EClock (T0 + 120).
(** [vesting_end_time + 1] when nothing ended the presale early *)
Definition LATE := EClock (T0 + 120 + 3600 + 86400 + 1).

(** Merkle whitelist with up to two entries. *)
Definition leaf (o : addr) (i cap : Z) : bytes := merkle_leaf o i cap.
Definition one_leaf (o : addr) (i cap : Z) : op := ICreateMerkle pk user (leaf o i cap) 0.
Definition two_leaves (o : addr) (i cap : Z) (o' : addr) (i' cap' : Z) : op :=
  ICreateMerkle pk user (verify_step (leaf o i cap) (leaf o' i' cap')) 0.
Definition mopen (o : addr) (proof : list bytes) (i cap : Z) : op :=
  IEscrowMerkle pk o (PMerkle pk 0) o proof i cap.

(** * What a test observes *)
(** [None]: everything accepted.  [Some (e, n)]: refused with [e] when [n] instructions were left. *)
Fixpoint play (w : world) (l : list op) : world * option (err * nat) :=
  match l with
  | [] => (w, None)
  | o :: l => match step w o with
              | Ok (w', _) => play w' l
              | Err e => (w, Some (e, length l))
              end
  end.
Definition amount_in (w : world) (k : addr) : Z :=
  match w_tokens w !! k with Some t => t_amount t | None => -1 end.
Definition esc_of (w : world) (o : addr) (i : Z) : option escrow := w_escrows w !! PEscrow pk o i.
Definition deposit_of (w : world) (o : addr) (i : Z) : Z :=
  match esc_of w o i with Some e => e_deposit e | None => -1 end.
Definition pending_of (w : world) (o : addr) (i : Z) : Z :=
  match esc_of w o i with Some e => e_pending e | None => -1 end.
Definition claimed_of (w : world) (o : addr) (i : Z) : Z :=
  match esc_of w o i with Some e => e_claimed e | None => -1 end.
Definition refunded_of (w : world) (o : addr) (i : Z) : Z :=
  match esc_of w o i with Some e => e_withdrawn e | None => -1 end.
Definition pre_of (w : world) (f : presale -> Z) : Z :=
  match w_presales w !! pk with Some p => f p | None => -1 end.
Definition stage (w : world) : option progress :=
  option_map (fun p => get_progress p (w_now w)) (w_presales w !! pk).

(** * The worlds the tests start from, each computed once *)
Definition W0 : world := run genesis base_setup.
Definition at_ (a : init_args) : world := fst (play W0 (create a)).
Definition Wfix : world := at_ (std 0 0).
Definition Wpro : world := at_ (std 1 0).
Definition Wfcf : world := at_ (std 2 0).
Definition Wfix_m : world := at_ (std 0 1).
Definition Wfix_a : world := at_ (std 0 2).
Definition Wpro5 : world := at_ (std5 1 1).
Definition Wfix5 : world := at_ (std5 0 1).
Definition Wpro_fee : world := at_ (fee_std 1 0).
Definition Wfix_fee : world := at_ (fee_std 0 0).
Definition Wprice : world := fst (play W0 [fixed_args 0 q10]).

(** The last instruction is refused with [e], everything before it is accepted. *)
Definition last_fails (w : world) (l : list op) (e : err) : bool :=
  bool_decide (snd (play w l) = Some (e, O)).
(** Everything is accepted and the figures read back are these. *)
Definition ends_with (w : world) (l : list op) (f : world -> list Z) (v : list Z) : bool :=
  let r := play w l in
  bool_decide (snd r = None) && bool_decide (f (fst r) = v).

Definition bz (b : bool) : Z := if b then 1 else 0.

(** * Initialization, test_initialize_presale_vault.rs *)
Definition set_caps (mx mn : Z) (a : presale_args) : presale_args :=
  mkPreArgs mx mn (pa_start a) (pa_end a) (pa_wl a) (pa_mode a) (pa_unsold a) (pa_disable_early a).
Definition set_times (s e : Z) (a : presale_args) : presale_args :=
  mkPreArgs (pa_max_cap a) (pa_min_cap a) s e (pa_wl a) (pa_mode a) (pa_unsold a) (pa_disable_early a).
Definition set_unsold (u : Z) (a : presale_args) : presale_args :=
  mkPreArgs (pa_max_cap a) (pa_min_cap a) (pa_start a) (pa_end a) (pa_wl a) (pa_mode a) u (pa_disable_early a).
Definition set_noearly (a : presale_args) : presale_args :=
  mkPreArgs (pa_max_cap a) (pa_min_cap a) (pa_start a) (pa_end a) (pa_wl a) (pa_mode a) (pa_unsold a) 1.
(** the parameters these cases start from, :798-852 *)
Definition p2 : presale_args := set_caps (2 * SOL) 1000000 (pargs 2 0).
Definition r2 : registry_args := mkRegArgs 1000000 SOL 1000000000000 0.
Definition l2 : locked_args := mkLocked 5000 3600 7200 0 [].
Definition none_locked : locked_args := mkLocked 0 0 0 0 [].
Definition bad (p : presale_args) (l : locked_args) (rs : list registry_args) (e : err) : bool :=
  last_fails W0 [init_with (mkInitArgs p l rs) noh] e.
Definition bad_fixed (p : presale_args) (rs : list registry_args) (e : err) : bool :=
  last_fails Wprice [init_with (mkInitArgs p none_locked rs) hfix] e.
Definition HALF : Z := 157680000. (* half of MAXIMUM_LOCK_AND_VEST_DURATION *)
Definition MONTH : Z := 2592000.  (* MAXIMUM_PRESALE_DURATION and MAXIMUM_DURATION_UNTIL_PRESALE *)
Definition pool : Z := 1000000000000.
Definition over_cap : Z := (pool + 1) * 10.

Definition init_replays : list (string * bool) := [
  ("locked_vesting err_0", bad p2 (mkLocked 5000 HALF (HALF + 1) 0 []) [r2] InvalidLockVestingInfo);
  ("presale_params err_0", bad (set_caps 0 0 p2) l2 [r2] InvalidPresaleInfo);
  ("presale_params err_1", bad (set_caps 100 200 p2) l2 [r2] InvalidPresaleInfo);
  ("presale_params err_2", bad (set_times T0 (T0 + 59) p2) l2 [r2] InvalidPresaleInfo);
  ("presale_params err_3", bad (set_times (T0 + 100) (T0 + 50) p2) l2 [r2] InvalidPresaleInfo);
  ("presale_params err_4", bad (set_times (T0 + 100) (T0 + 101 + MONTH) p2) l2 [r2] InvalidPresaleInfo);
  ("presale_params err_5", bad (set_times (T0 + 1 + MONTH) (T0 + 1001 + MONTH) p2) l2 [r2] InvalidPresaleInfo);
  ("presale_params err_6", bad (set_caps 100 0 p2) l2 [r2] InvalidPresaleInfo);
  ("presale_params err_7", bad p2 l2 [mkRegArgs 0 0 1000 0] InvalidPresaleInfo);
  ("presale_params err_8", bad p2 l2 [mkRegArgs 200 100 1000 0] InvalidPresaleInfo);
  ("presale_params err_9", bad (set_caps 90 50 p2) l2 [mkRegArgs 200 100 1000 0] InvalidPresaleInfo);
  ("presale_params err_10", bad (set_caps 90 50 p2) l2 [] InvalidPresaleInfo);
  ("zero supply", bad p2 l2 [mkRegArgs 1000000 SOL 0 0] InvalidTokenSupply);
  ("buyer_max_cap_cannot_purchase_even_a_single_token",
    bad_fixed (pargs 0 0) [mkRegArgs 9 9 pool 0] ZeroTokenAmount);
  ("presale_not_enough_supply_to_fulfill_presale_max_cap",
    bad_fixed (set_caps over_cap 1 (pargs 0 0)) [mkRegArgs (over_cap / 2) (over_cap / 2) pool 0] InvalidTokenPrice);
  ("presale_buyer_minimum_cap_cannot_purchase_any_token",
    bad_fixed (set_caps over_cap 1 (pargs 0 0)) [mkRegArgs 0 (over_cap / 2) pool 0] ZeroTokenAmount);
  ("initialize_permissionless_presale_vault_with_multiple_registries",
    last_fails W0 (create (std5 0 0)) MultiplePresaleRegistriesNotAllowed);
  ("total_presale_supply_from_multiple_registries_overflow",
    last_fails W0 (create (mkInitArgs (pargs 0 1) lock0 (replicate 5 (mkRegArgs 10 SOL U64MAX 0)))) InvalidTokenSupply);
  ("missing_fixed_price_extra_args_remaining_accounts",
    last_fails W0 [init_with (std 0 0) noh] MissingPresaleExtraParams);
  ("initialize_presale_vault_with_dynamic_price_fcfs", ends_with W0 (create (mkInitArgs p2 l2 [r2]))
    (fun w => [pre_of w p_mode; pre_of w p_start; pre_of w p_end; pre_of w p_max_cap; pre_of w p_min_cap;
               pre_of w p_wl; bz (0 <? pre_of w p_created); pre_of w p_cwd; pre_of w p_vest; pre_of w p_lock;
               pre_of w p_ve - pre_of w p_vs; pre_of w p_bps; pre_of w p_imm_ts;
               amount_in w (PBaseVault pk); pre_of w p_nreg])
    [2; T0; T0 + 120; 2 * SOL; 1000000; 0; 1; 0; 7200; 3600; 7200; 5000; 0; pool; 1]);
  ("initialize_presale_vault_with_fixed_token_price",
    ends_with W0 (create (mkInitArgs (set_caps (2 * SOL) 1000000 (pargs 0 0)) l2 [r2]))
    (fun w => [pre_of w p_mode; pre_of w p_max_cap; pre_of w p_nreg; amount_in w (PBaseVault pk)])
    [0; 2 * SOL; 1; pool]);
  ("fixed params: zero price", last_fails W0 [fixed_args 1 0] InvalidTokenPrice);
  ("fixed params: disable_withdraw = 2", last_fails W0 [fixed_args 2 q10] InvalidType);
  ("close_fixed_token_price_extra_params",
    ends_with W0 [fixed_args 0 q10; ICloseFixedArgs (PFixedArgs pk) user]
      (fun w => [bz (bool_decide (w_fixed w !! PFixedArgs pk = None))]) [1]) ].

(** test_misc.rs:66-107 *)
Definition vesting (bps lock vest ts : Z) : bool :=
  match validate_locked (mkLocked bps lock vest ts []) T0 with Ok _ => true | Err _ => false end.
Definition vesting_replays : list (string * bool) := [
  ("all released, late", negb (vesting 10000 0 0 (T0 + 1))); ("all released", vesting 10000 0 0 T0);
  ("part, early", negb (vesting 5000 60 60 (T0 - 1))); ("part, at the end", vesting 5000 60 60 T0);
  ("part, at vesting end", vesting 5000 60 60 (T0 + 120)); ("part, later", negb (vesting 5000 60 60 (T0 + 121)));
  ("none released, ts", negb (vesting 0 60 60 (T0 + 30))); ("none released", vesting 0 60 60 T0) ].

(** * Deposits, withdrawals and the audit findings *)
Definition paid (w : world) (l : list op) (k : addr) : Z := amount_in (fst (play w l)) k - amount_in w k.
(** half price-10 presale of the surplus tests, test_audit_fixes.rs:552-600 *)
Definition Wsur : world := at_ (mkInitArgs (pargs 0 0) lock0 [mkRegArgs 10 SOL SUPPLY 0]).
(** :459-540 *)
Definition Wnine : world := fst (play W0 [fixed_args 0 (9 * 2 ^ 64);
  init_with (mkInitArgs (set_caps 100 92 (pargs 0 0)) lock0 [mkRegArgs 10 100 SUPPLY 0]) hfix]).
(** :41-230 *)
Definition Wtwo : world := at_ (mkInitArgs (set_caps (10 * SOL) 10 (pargs 0 1)) lock0
  (replicate 2 (mkRegArgs 10 (10 * SOL) 500000000 0))).
(** no vesting, no lock: everything released at the end *)
Definition Wfree : world := at_ (mkInitArgs (pargs 1 0) (mkLocked 10000 0 0 0 []) [reg0 1 0]).
(** test_withdraw.rs:423-520 *)
Definition Wcap : world := at_ (mkInitArgs (pargs 0 0) lock0 [mkRegArgs 1000 10000000 pool 0]).

Definition flow_replays : list (string * bool) := [
  ("audit: presale_progress_manipulation",
    last_fails Wfix [open_ user; dep_ user 0 SOL; wd_ user 0 (SOL - 1000000 + 1)] PresaleNotOpenForWithdraw);
  ("audit: uncloseable_escrow_on_failed_presale",
    ends_with Wfix [open_ user; dep_ user 0 999999; EClock (T0 + 121); rem_ user 0; close_ user 0]
      (fun w => [deposit_of w user 0]) [-1]);
  ("audit: zero_vest_duration_dos_escrow_claim",
    ends_with Wfree [open_ user; dep_ user 0 499500000; open_ user1; dep_ user1 0 499500000;
                     EClock (T0 + 121); claim_ user 0; claim_ user1 0]
      (fun w => [claimed_of w user 0 + claimed_of w user1 0]) [SUPPLY]);
  ("audit: fixed_price_presale_completion_unreachable, refused",
    last_fails Wnine [open_ user; dep_ user 0 99; dep_ user 0 1] ZeroTokenAmount);
  ("audit: fixed_price_presale_completion_unreachable, completed",
    ends_with Wnine [open_ user; dep_ user 0 99; END]
      (fun w => [bz (bool_decide (stage w = Some Completed))]) [1]);
  ("audit: fixed_price_presale_registry_consume_over_supply",
    ends_with Wtwo [one_leaf user 0 (10 * SOL); mopen user [] 0 (10 * SOL); dep_ user 0 (10 * SOL); LATE; ref_ user 0]
      (fun w => [bz (pending_of w user 0 <=? 500000000);
                 paid w [claim_ user 0] (tb user) - pending_of w user 0]) [1; 0]);
  ("audit: withdraw_fixed_price_with_suggested_amount",
    ends_with Wsur [open_ user; dep_ user 0 20; wd_ user 0 15]
      (fun w => [deposit_of w user 0; pre_of w p_deposit]) [10; 10]);
  ("audit: deposit_fixed_price_with_suggested_amount",
    ends_with Wsur [open_ user; dep_ user 0 15] (fun w => [deposit_of w user 0; pre_of w p_deposit]) [10; 10]);
  ("audit: deposit_fixed_price_with_stuck_surplus",
    last_fails Wsur [open_ user; dep_ user 0 9] ZeroTokenAmount);
  ("audit: withdraw_fixed_price_with_stuck_surplus, refused",
    last_fails Wsur [open_ user; dep_ user 0 10; wd_ user 0 1] ZeroTokenAmount);
  ("audit: withdraw_fixed_price_with_stuck_surplus, all",
    ends_with Wsur [open_ user; dep_ user 0 10; wd_ user 0 10]
      (fun w => [deposit_of w user 0; pre_of w p_deposit]) [0; 0]);
  ("withdraw_when_presale_end", last_fails Wfix [open_ user; dep_ user 0 1000000; END; wd_ user 0 1000000] PresaleNotOpenForWithdraw);
  ("withdraw_over_escrow_balance", last_fails Wfix [open_ user; dep_ user 0 1000000; wd_ user 0 1000001] InsufficientEscrowBalance);
  ("withdraw_fixed_price_presale",
    ends_with Wfix [open_ user; dep_ user 0 (SOL / 2); wd_ user 0 (SOL / 4)]
      (fun w => [deposit_of w user 0; pre_of w p_deposit; amount_in w (PQuoteVault pk)])
      [SOL / 4; SOL / 4; SOL / 4]);
  ("withdraw_prorata_presale",
    ends_with Wpro [open_ user; dep_ user 0 SOL; wd_ user 0 (SOL / 2)]
      (fun w => [deposit_of w user 0; pre_of w p_deposit]) [SOL / 2; SOL / 2]);
  ("withdraw_fcfs_presale", last_fails Wfcf [open_ user; dep_ user 0 (SOL / 2); wd_ user 0 1] PresaleNotOpenForWithdraw);
  ("withdraw_fixed_price_presale_violate_buyer_cap",
    last_fails Wcap [open_ user; dep_ user 0 1000; wd_ user 0 500] DepositAmountOutOfCap);
  ("withdraw_fixed_price_presale_violate_buyer_cap, all",
    ends_with Wcap [open_ user; dep_ user 0 1000; wd_ user 0 1000] (fun w => [deposit_of w user 0]) [0]);
  ("withdraw_fixed_price_presale_with_withdraw_disabled",
    last_fails W0 [fixed_args 1 q10; init_with (std 0 0) hfix; open_ user; dep_ user 0 1000; wd_ user 0 500]
      PresaleNotOpenForWithdraw);
  ("deposit_fixed_price_presale_progress_update",
    ends_with Wfix [open_ user; dep_ user 0 SOL] (fun w => [bz (bool_decide (stage w = Some Completed))]) [1]);
  ("deposit_fcfs_presale_progress_update",
    ends_with Wfcf [open_ user; dep_ user 0 SOL] (fun w => [bz (bool_decide (stage w = Some Completed))]) [1]);
  ("deposit_below_buyer_minimum_cap", last_fails Wfix [open_ user; dep_ user 0 999] DepositAmountOutOfCap);
  (* this test turns the clock back, which no operation of the model can do *)
  ("deposit_before_presale_start",
    last_fails (put_now (T0 - 1) (fst (play Wfix [open_ user]))) [dep_ user 0 (SOL / 2)] PresaleNotOpenForDeposit);
  ("deposit_when_presale_ended", last_fails Wfix [open_ user; END; dep_ user 0 SOL] PresaleNotOpenForDeposit);
  ("deposit_with_max_buyer_cap",
    ends_with Wfix [open_ user; dep_ user 0 (10 * SOL)] (fun w => [deposit_of w user 0; pre_of w p_deposit]) [SOL; SOL]);
  ("deposit_with_max_presale_cap",
    ends_with Wfix [EClock (T0 + 1); open_ user; dep_ user 0 (SOL / 2 + 100); open_ user1; dep_ user1 0 (SOL / 2 + 100)]
      (fun w => [pre_of w p_deposit; pre_of w p_end; pre_of w p_vs - pre_of w p_end; pre_of w p_ve - pre_of w p_vs])
      [SOL; T0 + 1; 3600; 86400]);
  ("deposit_over_escrow_max_deposit_cap",
    ends_with Wfix5 [one_leaf user 0 ((SOL - 10) / 2); mopen user [] 0 ((SOL - 10) / 2);
                     dep_ user 0 ((SOL - 10) / 2 + 100)]
      (fun w => [deposit_of w user 0]) [((SOL - 10) / 2 * 2 ^ 64 / q10) * 10]);
  ("deposit_fixed_price_presale_with_end_earlier_disabled",
    ends_with W0 [fixed_args 1 q10; init_with (mkInitArgs (set_noearly (pargs 0 0)) lock0 [reg0 0 0]) hfix;
                  open_ user; dep_ user 0 SOL]
      (fun w => [pre_of w p_end; pre_of w p_vs; pre_of w p_ve]) [T0 + 120; T0 + 3720; T0 + 90120]);
  ("deposit_fcfs_presale_with_end_earlier_disabled",
    ends_with W0 (create (mkInitArgs (set_noearly (pargs 2 0)) lock0 [reg0 2 0]) ++ [open_ user; dep_ user 0 SOL])
      (fun w => [pre_of w p_end; pre_of w p_vs; pre_of w p_ve]) [T0 + 120; T0 + 3720; T0 + 90120]) ].

(** * Escrow creation, claims, payouts *)
Definition cap1 : Z := SOL + 1.
Definition Wimm (delta : Z) : world :=
  at_ (mkInitArgs (pargs 0 0) (mkLocked 5000 3600 86400 (T0 + 120 + delta) []) [reg0 0 0]).
Definition Wimm60 : world := Wimm 60.
Definition Wimm0 : world := Wimm 0.
Definition Wclm : world := at_ (mkInitArgs (set_times (T0 + 1) (T0 + 120) (pargs 0 1)) lock0 [reg0 0 1]).
Definition cmk (o : addr) : op := ICloseMerkle pk (PMerkle pk 0) o o.
Definition Wburn5 : world := at_ (mkInitArgs (set_unsold 1 (pargs 1 1)) lock0 (regs5 1 1)).
Definition Wburn : world := at_ (mkInitArgs (set_unsold 1 (pargs 0 0)) lock0 [reg0 0 0]).
(** two whitelisted buyers, only the first deposits *)
Definition lone (mode : Z) : list op := [
  two_leaves user 0 SOL user1 1 SOL; mopen user [leaf user1 1 SOL] 0 SOL; dep_ user 0 SOL ].
Definition ratio (supply part total num den : Z) : Z := supply * part * num / (total * den).

Definition pay_replays : list (string * bool) := [
  ("escrow_with_invalid_whitelist_mode 0", last_fails Wfix_a [open_ user] InvalidPresaleWhitelistMode);
  ("escrow_with_invalid_whitelist_mode 1", last_fails Wfix_m [open_ user] InvalidPresaleWhitelistMode);
  ("escrow_with_invalid_whitelist_mode 2",
    last_fails Wfcf [ICreateOperator op0 user; IEscrowCreator pk user (POperator user op0) op0 user 0 SOL]
      InvalidPresaleWhitelistMode);
  ("escrow_when_deposit_closed", last_fails Wfix [END; open_ user] PresaleNotOpenForDeposit);
  ("permissioned_with_authority_escrow_with_invalid_operator",
    last_fails Wfix_a [ICreateOperator op0 user; ICreateOperator op1 user1;
                       IEscrowCreator pk user (POperator user1 op1) op1 user 0 SOL] InvalidOperator);
  ("permissioned_with_merkle_proof_escrow_with_invalid_proof",
    last_fails Wfix_m [one_leaf user1 0 SOL; mopen user [] 0 SOL] InvalidMerkleProof);
  ("permissioned_with_merkle_proof_escrow_with_invalid_registry_index",
    last_fails Wfix_m [one_leaf user 0 SOL; mopen user [] 1 SOL] InvalidMerkleProof);
  ("permissioned_with_authority_escrow_with_invalid_registry_index",
    last_fails Wfix_a [ICreateOperator op0 user; IEscrowCreator pk user (POperator user op0) op0 user 1 0]
      InvalidPresaleRegistryIndex);
  ("permissioned_with_authority_escrow",
    ends_with Wfix_a [ICreateOperator op0 user; IEscrowCreator pk user (POperator user op0) op0 user 0 SOL]
      (fun w => [deposit_of w user 0; pre_of w p_escrows]) [0; 1]);
  ("permissioned_with_merkle_proof_escrow_with_different_registry_index_same_tree",
    ends_with Wfix5 [two_leaves user 0 SOL user 1 SOL; mopen user [leaf user 1 SOL] 0 SOL;
                     mopen user [leaf user 0 SOL] 1 SOL] (fun w => [pre_of w p_escrows]) [2]);
  ("permissioned_with_merkle_proof_escrow_with_invalid_deposit_cap 0",
    last_fails Wfix5 [two_leaves user 0 cap1 user1 0 9; mopen user [leaf user1 0 9] 0 cap1] InvalidDepositCap);
  ("permissioned_with_merkle_proof_escrow_with_invalid_deposit_cap 1",
    last_fails Wfix5 [two_leaves user 0 cap1 user1 0 9; mopen user1 [leaf user 0 cap1] 0 9] InvalidDepositCap);
  ("permissioned_with_merkle_proof_escrow_with_invalid_deposit_cap 2",
    last_fails Wfix5 [one_leaf user2 0 0; mopen user2 [] 0 0] InvalidDepositCap);
  ("create_permissioned_server_metadata_with_permissionless_presale",
    last_fails Wfix [ICreateServer pk user [104]] InvalidPresaleWhitelistMode);
  ("create_ and close_permissioned_server_metadata",
    ends_with Wfix_m [ICreateServer pk user [104]; ICloseServer pk (PServer pk) user user] (fun _ => []) []);
  ("claim_empty_prorata_presale_registries",
    ends_with Wpro5 (lone 1 ++ [mopen user1 [leaf user 0 SOL] 1 SOL; LATE])
      (fun w => [bz (0 <? paid w [claim_ user 0] (tb user)); paid w [claim_ user1 1] (tb user1); deposit_of w user1 1])
      [1; 0; 0]);
  ("claim_with_immediate_release",
    ends_with Wimm60 [open_ user; dep_ user 0 SOL]
      (fun w => let ts := pre_of w p_imm_ts in
                let w1 := fst (play w [EClock (pre_of w p_end); claim_ user 0]) in
                let w2 := fst (play w1 [EClock (ts - 1); claim_ user 0]) in
                let w3 := fst (play w2 [EClock (ts + 1); claim_ user 0]) in
                let w4 := fst (play w3 [EClock (ts + 2); claim_ user 0]) in
                let w5 := fst (play w4 [EClock (pre_of w4 p_ve); claim_ user 0]) in
                let c w := claimed_of w user 0 in
                [c w1; c w2; bz (c w2 <? c w3); c w4 - c w3; bz (c w4 <? c w5)])
      [0; 0; 1; 0; 1]);
  ("claim_empty_escrow",
    ends_with Wfix [open_ user1; open_ user; dep_ user 0 SOL; EClock (T0 + 3600 + 86400 + 1)]
      (fun w => [bz (0 <? paid w [claim_ user 0] (tb user)); paid w [claim_ user1 0] (tb user1)]) [1; 0]);
  ("claim_non_completed_presale", last_fails Wfix [open_ user; dep_ user 0 (SOL / 2); claim_ user 0] PresaleNotOpenForClaim);
  ("claim_locked_presale",
    ends_with Wfix [open_ user; dep_ user 0 SOL; claim_ user 0] (fun w => [claimed_of w user 0]) [0]);
  ("claim_permissioned_fcfs_presale_with_multiple_presale_registries",
    ends_with (at_ (std5 2 1)) [two_leaves user 0 SOL user1 1 SOL; mopen user [leaf user1 1 SOL] 0 SOL;
                                mopen user1 [leaf user 0 SOL] 1 SOL; dep_ user 0 166666667; dep_ user1 1 333333334;
                                EClock (T0 + 120 + 3600 + 43200); claim_ user 0; claim_ user1 1]
      (fun w => [claimed_of w user 0; claimed_of w user1 1])
      [ratio (SUPPLY / 5) 1 1 43200 86400; ratio (SUPPLY / 5) 1 1 43200 86400]);
  ("escrow_refresh_with_immediate_release",
    ends_with Wimm0 [open_ user; dep_ user 0 1000000; END; ref_ user 0]
      (fun w => let w1 := fst (play w [EClock (pre_of w p_vs); ref_ user 0]) in
                let w2 := fst (play w1 [EClock (pre_of w p_vs + 43200); ref_ user 0]) in
                [pending_of w user 0; pending_of w1 user 0; bz (50000 <? pending_of w2 user 0)])
      [50000; 50000; 1]);
  ("escrow_refresh",
    ends_with Wfix [open_ user; dep_ user 0 1000000; EClock (T0 + 3721); ref_ user 0]
      (fun w => [bz (0 <? pending_of w user 0);
                 match esc_of w user 0 with Some e => e_refreshed e | None => -1 end]) [1; T0 + 3721]);
  ("close_escrow_with_deposit", last_fails Wfix [open_ user; dep_ user 0 SOL; close_ user 0] EscrowNotEmpty);
  ("close_escrow_with_unclaimed_token",
    last_fails Wfix [open_ user; dep_ user 0 SOL; EClock (T0 + 3600 + 43200); close_ user 0] EscrowNotEmpty);
  ("close_escrow_presale_ongoing",
    ends_with Wfix [open_ user; dep_ user 0 (SOL / 2); open_ user1; dep_ user1 0 (SOL / 2 - 1);
                    wd_ user 0 (SOL / 2); wd_ user1 0 (SOL / 2 - 10); close_ user 0; close_ user1 0]
      (fun w => [pre_of w p_escrows]) [0]);
  ("close_escrow_presale_completed",
    ends_with Wfix [open_ user; dep_ user 0 (SOL / 2); open_ user1; dep_ user1 0 (SOL / 2);
                    EClock (T0 + 3600 + 86400 + 1); claim_ user 0; claim_ user1 0; close_ user 0; close_ user1 0]
      (fun w => [pre_of w p_escrows; pre_of w (fun p => match p_regs p with r :: _ => r_escrows r | [] => -1 end)]) [0; 0]);
  ("close_escrow_with_potential_refundable_deposit_fee",
    last_fails Wpro_fee [open_ user; dep_ user 0 SOL; wd_ user 0 SOL; close_ user 0] EscrowNotEmpty);
  ("close_merkle_root_config_when_presale_ongoing",
    last_fails Wclm [one_leaf user 0 SOL; EClock (T0 + 1); cmk user] PresaleOngoing);
  ("close_merkle_root_config_invalid_creator",
    last_fails Wclm [one_leaf user 0 SOL; cmk user1] InvalidCreatorAccount);
  ("close_merkle_root_config_presale_not_started_success",
    ends_with Wclm [one_leaf user 0 SOL; cmk user] (fun w => [bz (bool_decide (w_merkles w !! PMerkle pk 0 = None))]) [1]);
  ("close_merkle_root_config_presale_failed_success",
    ends_with Wclm [one_leaf user 0 SOL; END; cmk user] (fun w => [bz (bool_decide (w_merkles w !! PMerkle pk 0 = None))]) [1]);
  ("close_merkle_root_config_presale_success",
    ends_with Wclm [one_leaf user 0 SOL; EClock (T0 + 1); mopen user [] 0 SOL; dep_ user 0 SOL; cmk user]
      (fun w => [bz (bool_decide (w_merkles w !! PMerkle pk 0 = None))]) [1]);
  ("creator_collect_fee_before_presale_ends", last_fails Wpro_fee [fee_] PresaleNotOpenForCollectFee);
  ("non_creator_collect_fee",
    last_fails Wpro_fee [ICollectFee pk (PQuoteVault pk) qm (tq user1) user1 SplToken noh] ConstraintHasOne);
  ("collect_fee_when_claimed",
    last_fails Wpro_fee [open_ user; dep_ user 0 SOL; END; fee_; fee_] PresaleNotOpenForCollectFee);
  ("creator_collect_fee_on_zero_deposit_fee_presale",
    ends_with Wpro [open_ user; dep_ user 0 SOL; END; fee_]
      (fun w => [amount_in w (tq user); pre_of w p_fee_col]) [99 * SOL; 1]);
  ("creator_collect_fee_prorata_presale",
    ends_with Wpro_fee [open_ user; dep_ user 0 SOL; open_ user1; dep_ user1 0 SOL; END; cwq; rem_ user 0; rem_ user1 0]
      (fun w => let got := paid w [fee_] (tq user) in
                [bz (0 <? got); bz (got <? pre_of w p_fee); pre_of (fst (play w [fee_])) p_fee_col]) [1; 1; 1]);
  ("creator_collect_fee_fixed_price_presale",
    ends_with Wfix_fee [open_ user; dep_ user 0 (SOL / 2); open_ user1; dep_ user1 0 (SOL / 2); cwq]
      (fun w => [paid w [fee_] (tq user) - pre_of w p_fee; bz (0 <? pre_of w p_fee)]) [0; 1]);
  ("creator_withdraw_presale_success",
    ends_with Wfix [open_ user; dep_ user 0 1000000; END; cwq]
      (fun w => [amount_in w (tq user); pre_of w p_cwd]) [100 * SOL; 1]);
  ("creator_withdraw_presale_failed",
    ends_with Wfix [open_ user; dep_ user 0 999999; END; cwb_]
      (fun w => [amount_in w (tb user); pre_of w p_cwd]) [SUPPLY; 1]);
  ("creator_withdraw_when_presale_ongoing", last_fails Wfix [cwq] PresaleNotOpenForWithdraw);
  ("unsold prorata zero deposit registry, burn",
    ends_with Wburn5 (lone 1 ++ [LATE]) (fun w => [paid w [uns_] (tb user)]) [0]);
  ("unsold prorata zero deposit registry, refund",
    ends_with Wpro5 (lone 1 ++ [LATE]) (fun w => [paid w [uns_] (tb user)]) [4 * (SUPPLY / 5)]);
  ("unsold fcfs zero deposit registry",
    ends_with (at_ (std5 2 1)) (lone 2 ++ [LATE]) (fun w => [paid w [uns_] (tb user)]) [4 * (SUPPLY / 5)]);
  ("unsold fixed price zero deposit registry",
    ends_with Wfix5 (lone 0 ++ [LATE]) (fun w => [paid w [uns_] (tb user)]) [SUPPLY - SOL / 10]);
  ("unsold fcfs non zero deposit registry",
    last_fails Wfcf [open_ user; dep_ user 0 SOL; END; uns_] NoUnsoldBaseTokens);
  ("unsold prorata non zero deposit registry",
    last_fails Wpro [open_ user; dep_ user 0 SOL; END; uns_] NoUnsoldBaseTokens);
  ("unsold refund before presale complete", last_fails Wfix [open_ user; dep_ user 0 1000000; uns_] PresaleNotCompleted);
  ("unsold refund when presale failed", last_fails Wfix [open_ user; dep_ user 0 999999; END; uns_] PresaleNotCompleted);
  ("unsold refund non zero deposit registry",
    ends_with Wfix [open_ user; dep_ user 0 1000001; END; uns_]
      (fun w => [bz (amount_in w (PBaseVault pk) <? SUPPLY); bz (0 <? amount_in w (tb user)); pre_of w p_unsold_done]) [1; 1; 1]);
  ("unsold burn non zero deposit registry",
    ends_with Wburn [open_ user; dep_ user 0 1000001; END; uns_]
      (fun w => [bz (amount_in w (PBaseVault pk) <? SUPPLY); pre_of w p_unsold_done]) [1; 1]);
  ("unsold burn twice",
    last_fails Wburn [open_ user; dep_ user 0 1000001; END; uns_; uns_] UnsoldBaseTokenActionAlreadyPerformed);
  ("withdraw_remaining_quote_failed_fixed_price_presale",
    ends_with Wfix [open_ user; dep_ user 0 999999; END]
      (fun w => let w' := fst (play w [rem_ user 0]) in
                [paid w [rem_ user 0] (tq user) - deposit_of w user 0; refunded_of w' user 0]) [0; 1]);
  ("withdraw_remaining_quote_failed_fcfs_presale",
    ends_with Wfcf [open_ user; dep_ user 0 999999; END] (fun w => [paid w [rem_ user 0] (tq user)]) [999999]);
  ("withdraw_remaining_quote_failed_prorata_presale",
    ends_with Wpro [open_ user; dep_ user 0 999999; END] (fun w => [paid w [rem_ user 0] (tq user)]) [999999]);
  ("withdraw_remaining_quote_success_prorata_presale",
    ends_with Wpro [open_ user; dep_ user 0 SOL; open_ user1; dep_ user1 0 SOL; END]
      (fun w => [paid w [rem_ user 0] (tq user)]) [SOL / 2]);
  ("withdraw_remaining_quote_success_fixed_price_presale",
    last_fails Wfix [open_ user; dep_ user 0 SOL; END; rem_ user 0] PresaleNotOpenForWithdrawRemainingQuote);
  ("withdraw_remaining_quote_success_fcfs_presale",
    last_fails Wfcf [open_ user; dep_ user 0 SOL; END; rem_ user 0] PresaleNotOpenForWithdrawRemainingQuote);
  ("withdraw_remaining_quote_when_presale_ongoing",
    last_fails Wpro [open_ user; dep_ user 0 SOL; rem_ user 0] PresaleNotOpenForWithdrawRemainingQuote) ].

(** * Token-2022 mints with a hook and a transfer fee of 1%, at most 10^6,
    helpers/commons.rs:196-345.  [mb] and [mq] are the base and the quote mint. *)
Definition mint22 (fee hook : bool) : mint :=
  mkMint Token2022 false [ExtMetadataPointer; ExtTokenMetadata]
    (if fee then Some (mkFee 100 1000000) else None) (if hook then Some true else None) None false 0 0.
Definition spl : mint := plain SplToken None.
Definition both : mint := mint22 true true.
Definition at22 (m : mint) (mk o : addr) : addr := Ata o mk (m_prog m).
(** the accounts of the hook, helpers/token2022.rs:290-343 *)
Definition hk (m : mint) : list addr := match m_hook m with Some true => [Wallet 90; Wallet 91; Wallet 92] | _ => [] end.
Definition env22 (front : list addr) (ty : accounts_type) (m : mint) : henv :=
  mkHenv (front ++ hk m) [mkSlice ty (Z.of_nat (length (hk m)))] true.

Definition setup22 (mb mq : mint) : list op := [
  EClock T0; ECreateMint bm mb; ECreateMint qm mq;
  ECreateToken (at22 mb bm user) bm user; ECreateToken (at22 mq qm user) qm user;
  ECreateToken (at22 mb bm user1) bm user1; ECreateToken (at22 mq qm user1) qm user1;
  EMintTo bm (at22 mb bm user) (5 * SUPPLY); EMintTo qm (at22 mq qm user) (5000000000 * SOL);
  ETransfer (at22 mq qm user) qm (at22 mq qm user1) user (m_prog mq) (100000000 * SOL) false false true ].
Definition init22 (mb mq : mint) (a : init_args) : list op :=
  (if pa_mode (ia_params a) =? 0 then [fixed_args 0 q10] else []) ++
  [IInitPresale user bm qm (at22 mb bm user) user user (m_prog mb) (m_prog mq) a
     (env22 (if pa_mode (ia_params a) =? 0 then [PFixedArgs pk] else []) TransferHookBase mb)].
Definition W22 (mb mq : mint) (a : init_args) : world :=
  fst (play (run genesis (setup22 mb mq)) (init22 mb mq a)).
Definition dep22 (mq : mint) (o : addr) (i n : Z) : op :=
  IDeposit pk (PQuoteVault pk) qm (PEscrow pk o i) (at22 mq qm o) o (m_prog mq) n (env22 [] TransferHookQuote mq).
Definition wd22 (mq : mint) (o : addr) (i n : Z) : op :=
  IWithdraw pk (PQuoteVault pk) qm (PEscrow pk o i) (at22 mq qm o) o (m_prog mq) n (env22 [] TransferHookQuote mq).
Definition rem22 (mq : mint) (o : addr) (i : Z) : op :=
  IWithdrawRemaining pk (PQuoteVault pk) qm (PEscrow pk o i) (at22 mq qm o) o (m_prog mq) (env22 [] TransferHookQuote mq).
Definition claim22 (mb : mint) (o : addr) (i : Z) : op :=
  IClaim pk (PBaseVault pk) bm (PEscrow pk o i) (at22 mb bm o) o (m_prog mb) (env22 [] TransferHookBase mb).
Definition cwq22 (mq : mint) : op :=
  ICreatorWithdraw pk (at22 mq qm user) user (m_prog mq) (env22 [PQuoteVault pk; qm] TransferHookQuote mq).
Definition cwb22 (mb : mint) : op :=
  ICreatorWithdraw pk (at22 mb bm user) user (m_prog mb) (env22 [PBaseVault pk; bm] TransferHookBase mb).
Definition fee22 (mq : mint) : op :=
  ICollectFee pk (PQuoteVault pk) qm (at22 mq qm user) user (m_prog mq) (env22 [] TransferHookQuote mq).
Definition uns22 (mb : mint) : op :=
  IUnsold pk (PBaseVault pk) bm (at22 mb bm user) (m_prog mb) (env22 [] TransferHookBase mb).
(** test_deposit.rs:570-600 *)
Definition two_regs : init_args :=
  mkInitArgs (pargs 1 1) lock0 [mkRegArgs 1 SOL (SUPPLY / 1000) 100; mkRegArgs 1 SOL (SUPPLY / 500) 200].
Definition reg_of (w : world) (i : nat) (f : registry -> Z) : Z :=
  match w_presales w !! pk with
  | Some p => match p_regs p !! i with Some r => f r | None => -1 end
  | None => -1
  end.
Definition efee_of (w : world) (o : addr) (i : Z) : Z :=
  match esc_of w o i with Some e => e_fee e | None => -1 end.

Definition token22_replays : list (string * bool) := [
  ("initialize_presale_vault_token_2022",
    ends_with (run genesis (setup22 (mint22 false false) spl)) (init22 (mint22 false false) spl (std 0 0))
      (fun w => [amount_in w (PBaseVault pk)]) [SUPPLY]);
  ("initialize_presale_vault_token_2022_with_transfer_fee",
    ends_with (run genesis (setup22 (mint22 true false) spl)) (init22 (mint22 true false) spl (std 0 0))
      (fun w => [amount_in w (PBaseVault pk); bz (SUPPLY <? 5 * SUPPLY - amount_in w (at22 both bm user))]) [SUPPLY; 1]);
  ("initialize_presale_vault_token_2022_with_transfer_hook",
    ends_with (run genesis (setup22 (mint22 false true) spl)) (init22 (mint22 false true) spl (std 0 0))
      (fun w => [amount_in w (PBaseVault pk)]) [SUPPLY]);
  ("deposit_2022_with_fee",
    ends_with (W22 both both two_regs)
      [two_leaves user 0 200000000 user1 1 400000000; mopen user [leaf user1 1 400000000] 0 200000000;
       mopen user1 [leaf user 0 200000000] 1 400000000;
       dep22 both user 0 100000000; dep22 both user1 1 200000000]
      (fun w => [deposit_of w user 0; efee_of w user 0; deposit_of w user1 1; efee_of w user1 1;
                 reg_of w 0 r_deposit; reg_of w 0 r_fee; reg_of w 1 r_deposit; reg_of w 1 r_fee;
                 pre_of w p_deposit; pre_of w p_fee;
                 bz (101010102 <? 5000000000 * SOL - 100000000 * SOL - amount_in w (at22 both qm user));
                 bz (204081633 <? 100000000 * SOL - 1000000 - amount_in w (at22 both qm user1))])
      [100000000; 1010102; 200000000; 4081633; 100000000; 1010102; 200000000; 4081633; 300000000; 5091735; 1; 1]);
  ("deposit_token2022",
    ends_with (W22 both both (std 0 0)) [open_ user; dep22 both user 0 1000]
      (fun w => [amount_in w (PQuoteVault pk); pre_of w p_deposit; deposit_of w user 0]) [1000; 1000; 1000]);
  ("creator_withdraw_presale_token_2022_success",
    ends_with (W22 both both (std 0 0)) [open_ user; dep22 both user 0 1000000; END]
      (fun w => [bz (0 <? paid w [cwq22 both] (at22 both qm user)); pre_of (fst (play w [cwq22 both])) p_cwd]) [1; 1]);
  ("creator_withdraw_presale_token_2022_failed",
    ends_with (W22 both both (std 0 0)) [open_ user; dep22 both user 0 999999; END]
      (fun w => [bz (0 <? paid w [cwb22 both] (at22 both bm user)); pre_of (fst (play w [cwb22 both])) p_cwd]) [1; 1]);
  ("withdraw_fixed_price_presale_token2022",
    ends_with (W22 spl both (std 0 0)) [open_ user; dep22 both user 0 1000000]
      (fun w => let l := [wd22 both user 0 500000] in let w' := fst (play w l) in
                [deposit_of w user 0; deposit_of w' user 0; pre_of w' p_deposit;
                 bz (0 <? paid w l (at22 both qm user)); bz (paid w l (at22 both qm user) <? 500000)])
      [1000000; 500000; 500000; 1; 1]);
  ("withdraw_remaining_quote_failed_prorata_presale_token2022",
    ends_with (W22 both both (std 1 0)) [open_ user; dep22 both user 0 999999; END]
      (fun w => let l := [rem22 both user 0] in
                [refunded_of (fst (play w l)) user 0; deposit_of w user 0;
                 bz (0 <? paid w l (at22 both qm user)); bz (paid w l (at22 both qm user) <? 999999)]) [1; 999999; 1; 1]);
  ("claim_token2022",
    ends_with (W22 both both (std 1 0)) [open_ user; open_ user1; dep22 both user 0 (SOL / 2); dep22 both user1 0 (SOL / 2)]
      (fun w => let mid := EClock (pre_of w p_ve - pre_of w p_vest / 2) in
                let u := at22 both bm user in let u1 := at22 both bm user1 in
                let w1 := fst (play w [mid]) in
                let w2 := fst (play w1 [claim22 both user 0; claim22 both user1 0; EClock (pre_of w p_ve)]) in
                let w3 := fst (play w2 [claim22 both user 0; claim22 both user1 0]) in
                [bz (0 <? paid w1 [claim22 both user 0] u); bz (0 <? paid w1 [claim22 both user1 0] u1);
                 bz (0 <? paid w2 [claim22 both user 0] u); bz (0 <? paid w2 [claim22 both user1 0] u1);
                 paid w3 [claim22 both user 0] u;
                 bz (0 <? claimed_of w2 user 0); bz (claimed_of w2 user 0 <? claimed_of w3 user 0)])
      [1; 1; 1; 1; 0; 1; 1]);
  ("creator_collect_fee_token_2022",
    ends_with (W22 both both (fee_std 2 0))
      [open_ user; open_ user1; dep22 both user 0 (SOL / 2); dep22 both user1 0 (SOL / 2); END; cwq22 both]
      (fun w => let l := [fee22 both] in
                [bz (0 <? paid w l (at22 both qm user)); bz (paid w l (at22 both qm user) <? pre_of w p_fee);
                 pre_of (fst (play w l)) p_fee_col]) [1; 1; 1]);
  ("unsold_token_action_refund_fixed_price_presale_token2022",
    ends_with (W22 both spl (std 0 0)) [open_ user; dep22 spl user 0 1000001; END]
      (fun w => let w' := fst (play w [uns22 both]) in
                [bz (amount_in w' (PBaseVault pk) <? amount_in w (PBaseVault pk));
                 bz (0 <? paid w [uns22 both] (at22 both bm user)); pre_of w' p_unsold_done]) [1; 1; 1]) ].

Definition failing (l : list (string * bool)) : list string :=
  List.map fst (List.filter (fun t => negb (snd t)) l).

Example replays_agree :
  failing (init_replays ++ vesting_replays ++ flow_replays ++ pay_replays ++ token22_replays) = [].
Proof. vm_compute. reflexivity. Qed.
