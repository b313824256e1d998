(** C67: splitting a deposit never pays.  C68: a deposit that is taken back leaves only its fee. *)
From Coq Require Import Lia.
From Verif Require Import Base Math State Handlers Token World Instr Exec Tactics Sums Spec Arith TokenFacts Inv Acct
  Funs Steps Init Preserve Reach Did Trans Flow Scenario P_Solvency P_State P_Access P_History P_Payout P_Arith P_Ledger
  P_Deposit P_Limits P_Exit.

Section WithCrypto.
Context `{Crypto}.

(** * C67 *)

Lemma fl_split a t l : 0 <= t -> lsum (fun d => a * d / t) l <= a * lsum (fun d => d) l / t.
Proof.
  intros Ht. induction l as [|d l IH]; cbn [lsum].
  - rewrite Z.mul_0_r. destruct (Z.eq_dec t 0) as [->|]; [rewrite div_0_den; lia|]. rewrite Zdiv_0_l. lia.
  - pose proof (fl_super a d (lsum (fun d => d) l) t Ht). lia.
Qed.
Lemma fl_split_dust a t d l : 0 <= t ->
  a * lsum (fun d => d) (d :: l) / t <= lsum (fun d => a * d / t) (d :: l) + Z.of_nat (length l).
Proof.
  intros Ht. destruct (Z.eq_dec t 0) as [->|Hn].
  { assert (Hz : forall l, lsum (fun d => a * d / 0) l = 0).
    { intros l'. induction l' as [|x l' IH]; cbn [lsum]; [reflexivity|]. rewrite IH, div_0_den. reflexivity. }
    rewrite Hz, div_0_den. lia. }
  revert d. induction l as [|d' l IH]; intros d; cbn [lsum length].
  - rewrite Z.add_0_r. lia.
  - specialize (IH d'). cbn [lsum] in IH. set (s := d' + lsum (fun d => d) l) in *.
    set (z := lsum (fun d => a * d / t) l) in *.
    assert (a * (d + s) / t <= a * d / t + a * s / t + 1); [|lia].
    rewrite Z.mul_add_distr_l.
    pose proof (Z.div_mod (a * d) t Hn). pose proof (Z.div_mod (a * s) t Hn).
    pose proof (Z.mod_pos_bound (a * d) t ltac:(lia)). pose proof (Z.mod_pos_bound (a * s) t ltac:(lia)).
    apply Z.lt_succ_r. apply Z.div_lt_upper_bound; [lia|]. nia.
Qed.

(** A buyer who spreads [lsum ds] over several escrows of a registry, instead of depositing it into one,
    is never entitled to more base tokens, at no time, nor in total, nor refunded more; and they
    lose less than one unit per extra escrow and release part. *)
Theorem C67_split_entitlement w k p i r d ds now :
  reachable w -> w_presales w !! k = Some p -> p_regs p !! i = Some r -> Forall (fun d => 0 <= d) (d :: ds) ->
  let whole := entitled p r (lsum (fun d => d) (d :: ds)) now in
  let parts := lsum (fun d => entitled p r d now) (d :: ds) in
  parts <= whole <= parts + 2 * Z.of_nat (length ds).
Proof.
  intros Hw Hp Hr Hd whole parts. pose proof (reachable_inv _ Hw) as Hi.
  pose proof (i_presales _ Hi _ _ Hp) as Hok.
  destruct (b_nonneg _ _ _ (a_books _ _ _ _ (q_acct _ _ _ Hok)) _ _ Hr) as (Hd0 & _).
  assert (Hs : parts = lsum (fun d => if p_imm_ts p <=? now then imm_part p r * d / r_deposit r else 0) (d :: ds)
    + lsum (fun d => vested_by p now (vest_part p r) * d / r_deposit r) (d :: ds)).
  { unfold parts, entitled. apply lsum_add. }
  rewrite Hs. unfold whole, entitled.
  pose proof (fl_split (vested_by p now (vest_part p r)) (r_deposit r) (d :: ds) Hd0).
  pose proof (fl_split_dust (vested_by p now (vest_part p r)) (r_deposit r) d ds Hd0).
  destruct (p_imm_ts p <=? now).
  - pose proof (fl_split (imm_part p r) (r_deposit r) (d :: ds) Hd0).
    pose proof (fl_split_dust (imm_part p r) (r_deposit r) d ds Hd0). lia.
  - rewrite lsum_zero. lia.
Qed.

Theorem C67_split_final w k p i r d ds :
  reachable w -> w_presales w !! k = Some p -> p_regs p !! i = Some r -> Forall (fun d => 0 <= d) (d :: ds) ->
  let whole := final p r (lsum (fun d => d) (d :: ds)) in
  let parts := lsum (fun d => final p r d) (d :: ds) in
  parts <= whole <= parts + 2 * Z.of_nat (length ds).
Proof.
  intros Hw Hp Hr Hd whole parts. pose proof (reachable_inv _ Hw) as Hi.
  pose proof (i_presales _ Hi _ _ Hp) as Hok.
  destruct (b_nonneg _ _ _ (a_books _ _ _ _ (q_acct _ _ _ Hok)) _ _ Hr) as (Hd0 & _).
  assert (Hs : parts = lsum (fun d => imm_part p r * d / r_deposit r) (d :: ds)
    + lsum (fun d => vest_part p r * d / r_deposit r) (d :: ds)).
  { unfold parts, final. apply lsum_add. }
  rewrite Hs. unfold whole, final.
  pose proof (fl_split (vest_part p r) (r_deposit r) (d :: ds) Hd0).
  pose proof (fl_split_dust (vest_part p r) (r_deposit r) d ds Hd0).
  pose proof (fl_split (imm_part p r) (r_deposit r) (d :: ds) Hd0).
  pose proof (fl_split_dust (imm_part p r) (r_deposit r) d ds Hd0). lia.
Qed.

Theorem C67_split_refund w k p i r d ds f fs :
  reachable w -> w_presales w !! k = Some p -> p_regs p !! i = Some r ->
  Forall (fun d => 0 <= d) (d :: ds) -> Forall (fun f => 0 <= f) (f :: fs) ->
  let whole := share_deposit p r (lsum (fun d => d) (d :: ds)) in
  let parts := lsum (share_deposit p r) (d :: ds) in
  let whole_fee := share_fee p r (lsum (fun f => f) (f :: fs)) in
  let parts_fee := lsum (share_fee p r) (f :: fs) in
  (parts <= whole <= parts + Z.of_nat (length ds)) /\
  (parts_fee <= whole_fee <= parts_fee + Z.of_nat (length fs)).
Proof.
  intros Hw Hp Hr Hd Hf whole parts whole_fee parts_fee. pose proof (reachable_inv _ Hw) as Hi.
  pose proof (i_presales _ Hi _ _ Hp) as Hok.
  destruct (b_nonneg _ _ _ (a_books _ _ _ _ (q_acct _ _ _ Hok)) _ _ Hr) as (Hd0 & Hf0 & _).
  assert (H1 : parts = lsum (fun d => reg_excess p r * d / r_deposit r) (d :: ds)).
  { unfold parts, share_deposit. apply lsum_ext. intros x _. f_equal. lia. }
  assert (H2 : parts_fee = lsum (fun f => reg_fee_excess p r * f / r_fee r) (f :: fs)).
  { unfold parts_fee, share_fee. apply lsum_ext. intros x _. f_equal. lia. }
  rewrite H1, H2. unfold whole, whole_fee, share_deposit, share_fee.
  rewrite !(Z.mul_comm (lsum _ _)).
  pose proof (fl_split (reg_excess p r) (r_deposit r) (d :: ds) Hd0).
  pose proof (fl_split_dust (reg_excess p r) (r_deposit r) d ds Hd0).
  pose proof (fl_split (reg_fee_excess p r) (r_fee r) (f :: fs) Hf0).
  pose proof (fl_split_dust (reg_fee_excess p r) (r_fee r) f fs Hf0). lia.
Qed.

(** What is paid for the pieces, deposit fee included, is at least what is paid for the whole. *)
Theorem C67_split_costs_more b ds : 0 <= b < 10000 ->
  let paid d := div_ceil (d * 10000) (10000 - b) in
  paid (lsum (fun d => d) ds) <= lsum paid ds.
Proof.
  intros Hb paid. unfold paid. induction ds as [|d ds IH]; cbn [lsum].
  - rewrite Z.mul_0_l. pose proof (div_ceil_least 0 (10000 - b) 0 ltac:(lia)). lia.
  - etransitivity; [|apply Z.add_le_mono_l; exact IH]. apply div_ceil_least; [lia|].
    pose proof (div_ceil_bounds (d * 10000) (10000 - b) ltac:(lia)).
    pose proof (div_ceil_bounds (lsum (fun d => d) ds * 10000) (10000 - b) ltac:(lia)). lia.
Qed.

(** * C68 *)

(** A deposit that is withdrawn again leaves no trace but the deposit fee: presale, registry and
    escrow totals, the timing and the books of everybody else are as before; the vault has gained
    exactly the fee (more if the withdrawal was sent to the vault itself), and the account that paid has lost at least the fee if it also received the
    withdrawal. *)
Theorem C68_round_trip w k qv qm ek pt payer pr mx h w1 l1 qv' qm' ot owner pr' mx' h' w2 l2 e e2 :
  reachable w -> step w (IDeposit k qv qm ek pt payer pr mx h) = Ok (w1, l1) ->
  step w1 (IWithdraw k qv' qm' ek ot owner pr' mx' h') = Ok (w2, l2) ->
  w_escrows w !! ek = Some e -> w_escrows w2 !! ek = Some e2 -> e_deposit e2 = e_deposit e ->
  exists p r p2 r2 fee, 0 <= fee /\
    w_presales w !! k = Some p /\ w_presales w2 !! k = Some p2 /\
    p_regs p !! Z.to_nat (e_idx e) = Some r /\ p_regs p2 !! Z.to_nat (e_idx e) = Some r2 /\
    p_deposit p2 = p_deposit p /\ p_fee p2 = p_fee p + fee /\
    r_deposit r2 = r_deposit r /\ r_fee r2 = r_fee r + fee /\
    e2 = set_e_fee (e_fee e + fee) e /\
    timing_of p2 = timing_of p /\
    (forall i, i <> Z.to_nat (e_idx e) -> p_regs p2 !! i = p_regs p !! i) /\
    (forall x, x <> ek -> w_escrows w2 !! x = w_escrows w !! x) /\
    bal w (PQuoteVault k) + fee <= bal w2 (PQuoteVault k) /\
    (ot <> PQuoteVault k -> bal w2 (PQuoteVault k) = bal w (PQuoteVault k) + fee) /\
    (ot = pt -> bal w2 pt <= bal w pt - fee).
Proof.
  intros Hw S1 S2 He He2 Hd.
  destruct (C38_depositor_pays _ _ _ _ _ _ _ _ _ _ _ _ Hw S1)
    as (px & ex & rx & mx0 & tx & px' & ex' & nx & feex & grossx & _ & _ & Hex & Hex' & _ & _ & Hmx & _ & _ & _ & Hnx & Hfx & Hgx &
        Hne & Hmv1 & Hbal1 & Hdx & Hfex & _ & _ & Hoth & _).
  pose proof (reachable_step _ _ _ _ Hw S1) as Hw1. pose proof (reachable_inv _ Hw) as Hi. pose proof (reachable_inv _ Hw1) as Hi1.
  cbn in S1, S2. apply deposit_did in S1; [|assumption]. apply withdraw_did in S2; [|assumption].
  destruct S1 as (p & p' & e' & r & m & n & fee & gross & wa & la & D). destruct D.
  destruct S2 as (p'' & e'' & r'' & m'' & n'' & wb & lb & D). destruct D.
  assert (e' = e) as -> by congruence. assert (ex = e) as -> by congruence.
  rest_of dd_transfer. rename Rnow into An, Rp into Ap, Re into Ae. clear Rf Rm Ro Rs.
  pose proof dd_world as Hw1e. rewrite Hw1e in Hex', dw_escrow, dw_presale. cbn in Hex', dw_escrow, dw_presale.
  rewrite lookup_insert in Hex'. rewrite lookup_insert in dw_escrow. rewrite lookup_insert in dw_presale.
  injection Hex' as <-. injection dw_escrow as <-. injection dw_presale as <-.
  cbn in Hdx, Hfex. assert (nx = n) as -> by lia. assert (feex = fee) as -> by lia.
  rewrite dw_world in He2. cbn in He2. rewrite lookup_insert in He2. injection He2 as <-. cbn in Hd.
  assert (n'' = n) as -> by lia.
  assert (Hp' : p' = deposited p e r n fee).
  { destruct dd_end as [(_ & _ & Hpe)|(_ & ?)]; [|assumption]. exfalso. destruct dw_open as [_ Ho].
    rewrite Hpe, Hw1e in Ho. cbn in Ho. rewrite An in Ho. lia. }
  subst p'. cbn [e_idx esc_deposited set_e_fee set_e_deposit] in *.
  assert (Hlen : (Z.to_nat (e_idx e) < length (p_regs p))%nat) by (eapply lookup_lt_Some; eassumption).
  unfold deposited in dw_reg. cbn in dw_reg. rewrite list_lookup_insert in dw_reg by assumption. injection dw_reg as <-.
  rest_of dw_transfer. rename Re into Be. clear Rnow Rp Rf Rm Ro Rs.
  exists p, r, (withdrawn (deposited p e r n fee) (esc_deposited e n fee)
    (set_r_fee (r_fee r + fee) (set_r_deposit (r_deposit r + n) r)) n),
    (set_r_deposit (r_deposit r + n - n) (set_r_fee (r_fee r + fee) (set_r_deposit (r_deposit r + n) r))), fee.
  split; [lia|]. split; [assumption|].
  split. { rewrite dw_world. cbn. apply lookup_insert. }
  split; [assumption|].
  split. { cbn. rewrite list_lookup_insert by (rewrite insert_length; assumption). reflexivity. }
  split; [cbn; lia|]. split; [reflexivity|]. split; [cbn; lia|]. split; [reflexivity|].
  split. { unfold esc_deposited. destruct e; cbn in *. unfold set_e_deposit, set_e_fee. cbn. f_equal. lia. }
  split; [reflexivity|].
  split. { intros i Hii. cbn. rewrite !list_lookup_insert_ne by congruence. reflexivity. }
  split. { intros x Hx. rewrite dw_world. cbn. rewrite lookup_insert_ne by congruence. rewrite Be.
           apply Hoth. assumption. }
  assert (Hmw : w_mints w1 !! qm' = Some m'') by apply dw_mint.
  pose proof (transfer_moved _ _ _ _ _ _ _ _ _ _ _ dw_transfer Hmw) as Hmv2. subst qv'.
  assert (Hb2 : forall a, bal w2 a = bal wb a) by (intros a; rewrite dw_world; reflexivity).
  pose proof (tok_fee_range m'' n (tk_fee _ (i_tokens _ Hi1) _ _ Hmw) ltac:(lia)) as Hfr.
  pose proof (transfer_moved _ _ _ _ _ _ _ _ _ _ _ dd_transfer (proj2 dd_mint) pt) as Hmv3. subst qv.
  rewrite decide_False in Hmv3 by assumption. rewrite decide_True in Hmv3 by reflexivity.
  assert (Hb3 : bal w1 pt = bal wa pt) by (rewrite Hw1e; reflexivity).
  split; [|split].
  - rewrite Hb2, (Hmv2 (PQuoteVault k)). destruct (decide (PQuoteVault k = ot)); [lia|].
    rewrite decide_True by reflexivity. lia.
  - intros Hot. rewrite Hb2, (Hmv2 (PQuoteVault k)). rewrite decide_False by congruence.
    rewrite decide_True by reflexivity. lia.
  - intros ->. rewrite Hb2, (Hmv2 pt), Hb3, Hmv3. rewrite !decide_False by congruence.
    rewrite decide_True by reflexivity. lia.
Qed.
End WithCrypto.

#[local] Existing Instance toy.
(** The prorata presale: 700 in one escrow of registry 0 or in three. *)
Example C67_example : exists p r, w_presales w_pr_over !! k1 = Some p /\ p_regs p !! 0%nat = Some r /\
  (final p r 700, lsum (final p r) [333; 333; 34], share_deposit p r 700, lsum (share_deposit p r) [333; 333; 34],
   div_ceil (700 * 10000) 9900, lsum (fun d => div_ceil (d * 10000) 9900) [333; 333; 34]) =
  (2592, 2591, 248, 248, 708, 709).
Proof.
  eexists _, _. split; [vm_compute; reflexivity|]. split; [vm_compute; reflexivity|]. vm_compute. reflexivity.
Qed.
(** Alice deposits 100 and takes 100 back: the vault keeps the fee of 2. *)
Definition w_trip : world := run w_pr_open [dep alice alice_q alice 0 100; back alice alice_q 0 100].
Example C68_example :
  ok_step w_pr_open (dep alice alice_q alice 0 100) = true /\
  ok_step (run w_pr_open [dep alice alice_q alice 0 100]) (back alice alice_q 0 100) = true /\
  match w_escrows w_pr_open !! esc alice 0, w_escrows w_trip !! esc alice 0 with
  | Some e, Some e' => e_deposit e' - e_deposit e = 0 /\ e_fee e' - e_fee e = 2
  | _, _ => False end /\
  bal w_trip (PQuoteVault k1) = bal w_pr_open (PQuoteVault k1) + 2 /\
  bal w_trip alice_q = bal w_pr_open alice_q - 2.
Proof. vm_compute. auto. Qed.
