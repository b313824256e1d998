(** C70: every stored number fits the integer type of its field. *)
From Coq Require Import Lia.
From Verif Require Import Base Math State Handlers Token World Instr Exec Spec Tactics Sums Arith
  TokenFacts Inv Acct Funs Steps Init Preserve Reach Did Trans Flow P_Solvency Scenario.

(** * Ranges of the fields (specification), state/*.rs *)

Definition fits (max z : Z) : Prop := 0 <= z <= max.
Definition U16MAX : Z := 65535.

Record reg_fits (r : registry) : Prop := {
  rf_u64 : Forall (fits U64MAX) [r_supply r; r_deposit r; r_escrows r; r_claimed r; r_refunded r;
                                 r_min_cap r; r_max_cap r; r_fee r];
  rf_u16 : fits U16MAX (r_fee_bps r)
}.
Record presale_fits (p : presale) : Prop := {
  pf_u8 : Forall (fits U8MAX) [p_mode p; p_wl p; p_fee_col p; p_cwd p; p_nreg p; p_unsold p; p_unsold_done p];
  pf_u16 : fits U16MAX (p_bps p);
  pf_u64 : Forall (fits U64MAX) [p_max_cap p; p_min_cap p; p_start p; p_end p; p_supply p; p_deposit p;
    p_escrows p; p_created p; p_lock p; p_vest p; p_imm_ts p; p_vs p; p_ve p; p_claimed p; p_refunded p; p_fee p];
  pf_u128 : Forall (fits U128MAX) [p_raw0 p; p_raw1 p; p_raw2 p];
  pf_regs : length (p_regs p) = 5%nat /\ Forall reg_fits (p_regs p)
}.
Record escrow_fits (e : escrow) : Prop := {
  ef_u8 : Forall (fits U8MAX) [e_withdrawn e; e_idx e];
  ef_u64 : Forall (fits U64MAX) [e_deposit e; e_claimed e; e_pending e; e_cap e; e_created e; e_fee e; e_refreshed e]
}.
Record merkle_fits (c : merkle_cfg) : Prop := {
  mf_root : length (k_root c) = 32%nat /\ Forall (fits U8MAX) (k_root c);
  mf_version : fits U64MAX (k_version c)
}.
Record fixed_fits (x : fixed_args) : Prop := {
  xf_flag : fits U8MAX (x_disable_withdraw x);
  xf_price : fits U128MAX (x_qprice x)
}.

(** * Totals of claims and refunds *)

Section Totals.
Context (now : Z) (k : addr) (p : presale) (E : gmap addr escrow).
Hypothesis (Hc : cfg k p) (Ha : acct now k p E).
Let Hb : books k p E := a_books _ _ _ _ Ha.

Lemma open_claims ek e r : E !! ek = Some e -> e_presale e = k -> p_regs p !! Z.to_nat (e_idx e) = Some r ->
  e_claimed e + e_pending e <= final p r (e_deposit e) <= r_supply r.
Proof.
  intros He Hk Hr. pose proof (a_esc _ _ _ _ Ha _ _ He Hk) as Hs.
  destruct (esc_le_reg _ _ _ _ _ _ _ Ha He Hk Hr) as [Hd _].
  destruct (s_reg _ _ _ _ _ Hs _ Hr) as (_ & _ & Hle).
  pose proof (entitled_le_final k p _ r (e_deposit e) now Hc Hr ltac:(lia) ltac:(lia)).
  pose proof (final_le k p _ r (e_deposit e) Hc Hr Hd).
  pose proof (sold_range k p _ r Hc Hr ltac:(lia)). lia.
Qed.

Lemma reg_claimed_le i r : p_regs p !! i = Some r -> r_claimed r <= r_supply r.
Proof.
  intros Hr. pose proof (reg_supply_nonneg _ _ _ _ Hc Hr).
  destruct (Z.lt_ge_cases (p_deposit p) (p_min_cap p)) as [Hf|Hs].
  - destruct (pf_reg _ _ _ (a_failed _ _ _ _ Ha Hf) _ _ Hr). lia.
  - pose proof (registry_claims now k p E Hc Ha i r Hs Hr).
    assert (0 <= esum k i (fun e => final p r (e_deposit e) - e_claimed e) E).
    { apply esum_nonneg. intros ek e He Hk Hi. assert (Hr' := Hr).
      replace i with (Z.to_nat (e_idx e)) in Hr' by lia. pose proof (open_claims ek e r He Hk Hr').
      pose proof (s_pending _ _ _ _ _ (a_esc _ _ _ _ Ha _ _ He Hk)). lia. }
    destruct (b_nonneg _ _ _ Hb _ _ Hr) as (Hd & _).
    pose proof (sold_range k p _ r Hc Hr Hd). lia.
Qed.

Lemma reg_refunded_le i r : p_regs p !! i = Some r -> r_refunded r <= r_deposit r + r_fee r.
Proof.
  intros Hr. pose proof (books_reg_le _ _ _ _ _ Hb Hr) as (Hd & Hf & _). pose proof (c_caps _ _ Hc) as Hcap.
  destruct (Z.lt_ge_cases (p_deposit p) (p_min_cap p)) as [Hlt|Hs].
  - destruct (pf_reg _ _ _ (a_failed _ _ _ _ Ha Hlt) _ _ Hr) as [_ ->].
    unfold closed_deposit, closed_fee.
    assert (esum k i refunded_full E <= esum k i (fun e => e_deposit e + e_fee e) E).
    { apply esum_le. intros ek e He Hk _. pose proof (a_esc _ _ _ _ Ha _ _ He Hk) as Hs.
      pose proof (s_deposit _ _ _ _ _ Hs). pose proof (s_fee _ _ _ _ _ Hs).
      unfold refunded_full. destruct (e_withdrawn e =? 1); lia. }
    rewrite esum_add in *. lia.
  - pose proof (registry_refunds now k p E Hc Ha i r Hs Hr).
    assert (0 <= esum k i (unrefunded p r) E).
    { apply esum_nonneg. intros ek e He Hk Hi. unfold unrefunded. destruct (e_withdrawn e =? 1); [lia|].
      pose proof (a_esc _ _ _ _ Ha _ _ He Hk) as He'.
      pose proof (share_deposit_range p r (e_deposit e) ltac:(lia) ltac:(lia)
        ltac:(pose proof (s_deposit _ _ _ _ _ He'); lia)).
      pose proof (share_fee_range p r (e_fee e) ltac:(lia) ltac:(lia) ltac:(lia) (s_fee _ _ _ _ _ He')). lia. }
    pose proof (reg_excess_range p r ltac:(lia) ltac:(lia)).
    pose proof (reg_fee_excess_range p r ltac:(lia) ltac:(lia) ltac:(lia)). lia.
Qed.

Lemma claimed_le : p_claimed p <= p_supply p.
Proof.
  rewrite (b_claimed _ _ _ Hb), (c_supply _ _ Hc). apply lsum_le. intros r Hr.
  apply elem_of_list_lookup in Hr as [i Hi]. eapply reg_claimed_le; eassumption.
Qed.
Lemma refunded_le : p_refunded p <= p_deposit p + p_fee p.
Proof.
  rewrite (b_refunded _ _ _ Hb), (b_deposit _ _ _ Hb), (b_fee _ _ _ Hb), <- lsum_add. apply lsum_le. intros r Hr.
  apply elem_of_list_lookup in Hr as [i Hi]. eapply reg_refunded_le; eassumption.
Qed.

Lemma reg_escrows_nonneg i r : p_regs p !! i = Some r -> 0 <= r_escrows r.
Proof. intros Hr. rewrite (b_count _ _ _ Hb _ _ Hr). apply esum_nonneg. intros; unfold one; lia. Qed.
Lemma reg_escrows_le i r : p_regs p !! i = Some r -> 0 <= r_escrows r <= p_escrows p.
Proof.
  intros Hr. split; [eapply reg_escrows_nonneg; eassumption|]. rewrite (b_escrows _ _ _ Hb).
  eapply lsum_member; [eassumption|]. intros y Hy. apply elem_of_list_lookup in Hy as [j Hj].
  eapply reg_escrows_nonneg; eassumption.
Qed.

(** What the invariant leaves open. *)
Definition rest_fits (q : presale) : Prop :=
  p_escrows q <= U64MAX /\ fits U64MAX (p_created q) /\ fits U8MAX (p_unsold q) /\
  fits U128MAX (p_raw0 q) /\ fits U128MAX (p_raw1 q) /\ fits U128MAX (p_raw2 q).

Ltac all_fit := repeat apply List.Forall_cons; try apply List.Forall_nil; unfold fits, U8MAX, U16MAX in *.

Lemma cfg_presale_fits : rest_fits p -> presale_fits p.
Proof.
  intros (R1 & R2 & R3 & R4 & R5 & R6).
  pose proof (c_mode _ _ Hc). pose proof (c_wl _ _ Hc). pose proof (c_caps _ _ Hc). pose proof (c_nreg _ _ Hc).
  pose proof (c_time _ _ Hc). pose proof (c_bps _ _ Hc). pose proof (c_dur _ _ Hc).
  pose proof (c_vs _ _ Hc). pose proof (c_ve64 _ _ Hc). pose proof (c_imm_end _ _ Hc). pose proof (c_imm64 _ _ Hc).
  pose proof (c_supply64 _ _ Hc). pose proof (books_totals _ _ _ Hb). pose proof (b_u64 _ _ _ Hb).
  pose proof (b_flags _ _ _ Hb). pose proof claimed_le. pose proof refunded_le.
  assert (0 <= p_escrows p).
  { rewrite (b_escrows _ _ _ Hb). apply lsum_nonneg. intros y Hy. apply elem_of_list_lookup in Hy as [j Hj].
    eapply reg_escrows_nonneg; eassumption. }
  pose proof (supply_nonneg _ _ Hc).
  constructor.
  - all_fit; lia.
  - all_fit; lia.
  - all_fit; lia.
  - all_fit; lia.
  - split; [apply (c_len _ _ Hc)|]. apply List.Forall_forall. intros r Hr. apply elem_of_list_In, elem_of_list_lookup in Hr as [i Hi].
    pose proof (books_reg_le _ _ _ _ _ Hb Hi). pose proof (reg_supply_u64 _ _ _ _ Hc Hi).
    pose proof (reg_claimed_le _ _ Hi). pose proof (reg_escrows_le _ _ Hi).
    assert (0 <= r_min_cap r <= U64MAX /\ 0 <= r_max_cap r <= U64MAX /\ 0 <= r_fee_bps r <= 5000).
    { destruct (c_regs _ _ Hc _ _ Hi) as [Hz|[_ ->]]; [lia|cbn; unfold U64MAX; lia]. }
    constructor; all_fit; lia.
Qed.

Lemma acct_escrow_fits ek e : E !! ek = Some e -> e_presale e = k ->
  fits U64MAX (e_created e) -> fits U64MAX (e_refreshed e) -> escrow_fits e.
Proof.
  intros He Hk F1 F2. pose proof (a_esc _ _ _ _ Ha _ _ He Hk) as Hs.
  destruct (esc_reg _ _ _ _ _ Hc Hs) as [r Hr].
  destruct (esc_le_reg _ _ _ _ _ _ _ Ha He Hk Hr) as [Hd Hf]. pose proof (books_reg_le _ _ _ _ _ Hb Hr).
  pose proof (b_u64 _ _ _ Hb). pose proof (books_totals _ _ _ Hb). pose proof (open_claims _ _ _ He Hk Hr).
  pose proof (reg_supply_u64 _ _ _ _ Hc Hr). destruct Hs as [_ S1 S2 S3 S4 S5 S6 S7].
  pose proof (c_nreg _ _ Hc). destruct (S7 _ Hr) as (S8 & _).
  assert (r_max_cap r <= U64MAX).
  { pose proof (c_caps _ _ Hc). destruct (c_regs _ _ Hc _ _ Hr) as [Hz|[_ ->]]; [lia|cbn; unfold U64MAX; lia]. }
  constructor; all_fit; lia.
Qed.
End Totals.

(** * All accounts *)

Record world_fits (w : world) : Prop := {
  wf_presales : forall k p, w_presales w !! k = Some p -> presale_fits p;
  wf_escrows : forall k e, w_escrows w !! k = Some e -> escrow_fits e;
  wf_merkles : forall k c, w_merkles w !! k = Some c -> merkle_fits c;
  wf_fixed : forall k x, w_fixed w !! k = Some x -> fixed_fits x
}.

Section WithCrypto.
Context `{Crypto}.

(** What is kept along the history, besides the invariant. *)
Record rest_ok (w : world) : Prop := {
  ro_presales : forall k p, w_presales w !! k = Some p -> rest_fits p;
  ro_escrows : forall k e, w_escrows w !! k = Some e -> fits U64MAX (e_created e) /\ fits U64MAX (e_refreshed e);
  ro_merkles : forall k c, w_merkles w !! k = Some c -> merkle_fits c
}.

Lemma now_u64 w : inv w -> fits U64MAX (w_now w).
Proof. intros Hi. pose proof (i_now _ Hi). unfold fits, I64MAX, U64MAX in *. lia. Qed.

Lemma create_counts w o w' l k owner idx p' :
  step w o = Ok (w', l) -> creates o = Some (k, owner, idx) -> w_presales w' !! k = Some p' ->
  p_escrows p' <= U64MAX.
Proof.
  intros Hs Hc Hp'. destruct o; try discriminate Hc; cbn in Hs, Hc; injection Hc as -> -> <-.
  - apply create_permissionless_inv in Hs as (p0 & _ & _ & _ & Hs).
    apply finish_create_inv in Hs as (r & _ & _ & _ & _ & _ & _ & Hu & -> & _).
    cbn in Hp'. rewrite lookup_insert in Hp'. injection Hp' as <-. exact Hu.
  - apply create_authority_inv in Hs as (p0 & oo & _ & _ & _ & _ & _ & _ & _ & _ & _ & Hs).
    apply finish_create_inv in Hs as (r & _ & _ & _ & _ & _ & _ & Hu & -> & _).
    cbn in Hp'. rewrite lookup_insert in Hp'. injection Hp' as <-. exact Hu.
  - apply create_merkle_escrow_inv in Hs as (p0 & c & _ & _ & _ & _ & _ & _ & _ & _ & _ & Hs).
    apply finish_create_inv in Hs as (r & _ & _ & _ & _ & _ & _ & Hu & -> & _).
    cbn in Hp'. rewrite lookup_insert in Hp'. injection Hp' as <-. exact Hu.
Qed.

Lemma handler_raw2 h k p a lookup rem p' rest :
  handler_initialize h k p a lookup rem = Ok (p', rest) -> p_raw2 p' = p_raw2 p.
Proof.
  intros Hx. destruct h; cbn in Hx.
  - destruct rem as [|x rem]; [discriminate|]. bi Hx y Hy. bq Hx H1. bi Hx wl Hwl. bi Hx u Hu.
    bi Hx u1 Hu1. bi Hx u2 Hu2. apply Ok_inj in Hx. injection Hx as <- <-. reflexivity.
  - bi Hx wl Hwl. bi Hx u Hu. apply Ok_inj in Hx. injection Hx as <- <-. reflexivity.
  - bi Hx wl Hwl. bi Hx u Hu. apply Ok_inj in Hx. injection Hx as <- <-. reflexivity.
Qed.

Lemma init_rest w base bm0 qm0 pt cr pay bp qp a h w' l k p :
  inv w -> step w (IInitPresale base bm0 qm0 pt cr pay bp qp a h) = Ok (w', l) ->
  k = PPresale base bm0 qm0 -> w_presales w' !! k = Some p -> rest_fits p.
Proof.
  intros Hi Hs -> Hp. cbn in Hs. apply init_inv in Hs as
    (bm & qm & p0 & rest & hooks & rest' & pool & amount & w2 & fx & Hdec & Hnow & Hbm & Hqm & Hb &
     Hpay & Hk & Hbv & Hqv & Hbp & Hqp & Hval & Hqs & Hbs & Hcr & Hpool & Hinc & _ & _ & Htr & -> & _).
  cbn in Hp. rewrite lookup_insert in Hp. injection Hp as <-.
  destruct (init_newly w _ a bm0 qm0 cr base bp qp _ p0 rest Hi eq_refl Hdec Hval Hcr) as (Hn & _).
  assert (Hr2 : p_raw2 p0 = 0).
  { unfold create_presale_vault in Hcr. bi Hcr p1 Hp1. bi Hcr hh Hhh. apply handler_raw2 in Hcr. rewrite Hcr.
    unfold presale_initialize in Hp1. bi Hp1 s Hss. bq Hp1 Hl. bi Hp1 q Hq.
    destruct q as [[[[[? ?] ?] ?] ?] ?]. apply Ok_inj in Hp1. subst p1. reflexivity. }
  unfold init_args_decode, presale_args_decode in Hdec.
  repeat (apply andb_true_iff in Hdec as [Hdec ?]). pose proof (now_u64 _ Hi).
  unfold rest_fits. rewrite Hr2, (n_created _ _ _ _ _ _ _ _ _ _ Hn), (n_unsold _ _ _ _ _ _ _ _ _ _ Hn).
  destruct (n_zero _ _ _ _ _ _ _ _ _ _ Hn) as (_ & -> & _).
  split; [discriminate|]. split; [assumption|].
  split.
  { match goal with X : in_u8 (pa_unsold _) = true |- _ => revert X end. clear. unfold in_u8, fits. lia. }
  assert (Hraw : fits U128MAX (p_raw0 p0) /\ fits U128MAX (p_raw1 p0)).
  { pose proof (n_raw _ _ _ _ _ _ _ _ _ _ Hn) as Hraw. pose proof (n_early _ _ _ _ _ _ _ _ _ _ Hn) as He.
    unfold fits.
    destruct (c_mode _ _ (n_cfg _ _ _ _ _ _ _ _ _ _ Hn)) as [Hm|[Hm|Hm]]; rewrite Hm in Hraw.
    - destruct Hraw as (x & Hx & _ & -> & ->). destruct (i_fixed _ Hi _ _ Hx) as (_ & Hq & Hd).
      clear - Hq Hd He. unfold U128MAX in *. lia.
    - destruct Hraw as [-> ->]. unfold U128MAX. clear. lia.
    - destruct Hraw as [-> ->]. clear - He. unfold U128MAX. lia. }
  split; [apply Hraw|]. split; [apply Hraw|]. unfold fits, U128MAX. clear. lia.
Qed.

Lemma rest_step w o w' l : inv w -> rest_ok w -> step w o = Ok (w', l) -> rest_ok w'.
Proof.
  intros Hi [R1 R2 R3] Hs. pose proof (step_does _ _ _ _ Hi Hs) as Hd. pose proof (now_u64 _ Hi) as Hnow.
  constructor.
  - intros k p' Hp'. destruct (does_presale _ _ _ _ k Hd) as
    [Hn|base bm0 qm0 pt cr pay bp qp a h0 p0 bm qm gross w1 lx Ho D Hnone Hn|owner idx cap p0 r Ho D Hn
    |qv qm ek pt payer pr mx h0 p0 p2 e r m amount fee gross w1 lx Ho D Hn
    |qv qm ek ot owner pr mx h0 p0 e r m amount w1 lx Ho D Hn
    |qv qm ek ot owner pr h0 p0 e r m w1 lx Ho D Hn|bv bm ek ot owner pr h0 p0 e r m w1 lx Ho D Hn
    |ek owner rr p0 e r Ho D Hn|ot owner pr h0 p0 m w1 lx Ho D Hn|qv qm rcv owner pr h0 p0 m w1 lx Ho D Hn
    |bv bm ct pr h0 p0 m w1 lx Ho D Hn].
    + rewrite Hn in Hp'. eauto.
    + subst o. eapply init_rest; [exact Hi|exact Hs|apply (di_key _ _ _ _ _ _ _ _ _ _ _ _ _ _ _ _ _ _ _ _ D)|exact Hp'].
    + pose proof (create_counts _ _ _ _ _ _ _ _ Hs Ho Hp') as Hcnt.
      destruct (R1 _ _ (dc_presale _ _ _ _ _ _ _ _ _ D)) as (_ & F).
      rewrite Hn in Hp'. injection Hp' as <-. split; [exact Hcnt|exact F].
    + pose proof (R1 _ _ (dd_presale _ _ _ _ _ _ _ _ _ _ _ _ _ _ _ _ _ _ _ _ _ _ D)) as F.
      rewrite Hn in Hp'. injection Hp' as <-.
      destruct (dd_end _ _ _ _ _ _ _ _ _ _ _ _ _ _ _ _ _ _ _ _ _ _ D) as [(_ & _ & ->)|[_ ->]]; exact F.
    + pose proof (R1 _ _ (dw_presale _ _ _ _ _ _ _ _ _ _ _ _ _ _ _ _ _ _ _ D)) as F.
      rewrite Hn in Hp'. injection Hp' as <-. exact F.
    + destruct D. pose proof (R1 _ _ dr_presale) as F. rewrite Hn in Hp'. injection Hp' as <-. exact F.
    + destruct D. pose proof (R1 _ _ dm_presale) as F. rewrite Hn in Hp'. injection Hp' as <-. exact F.
    + destruct D. pose proof (R1 _ _ dx_presale) as (F0 & F). rewrite Hn in Hp'. injection Hp' as <-.
      split; [cbn; lia|exact F].
    + destruct D. pose proof (R1 _ _ dcw_presale) as F. rewrite Hn in Hp'. injection Hp' as <-. exact F.
    + destruct D. pose proof (R1 _ _ dfe_presale) as F. rewrite Hn in Hp'. injection Hp' as <-. exact F.
    + destruct D. pose proof (R1 _ _ du_presale) as F. rewrite Hn in Hp'. injection Hp' as <-. exact F.
  - intros ek e' He'. destruct (does_escrow _ _ _ _ ek Hd).
    + match goal with X : w_escrows w' !! ek = w_escrows w !! ek |- _ => rewrite X in He' end. eauto.
    + match goal with X : w_escrows w' !! ek = Some _ |- _ => rewrite X in He' end. injection He' as <-.
      cbn. unfold fits, U64MAX in *. lia.
    + match goal with X : w_escrows w' !! ek = Some _, D : did_deposit _ _ _ _ _ _ _ _ _ _ _ _ _ _ _ _ _ _ _ _ _ _ |- _ =>
        rewrite X in He'; destruct D end. injection He' as <-. exact (R2 _ _ dd_escrow).
    + match goal with X : w_escrows w' !! ek = Some _, D : did_withdraw _ _ _ _ _ _ _ _ _ _ _ _ _ _ _ _ _ _ _ |- _ =>
        rewrite X in He'; destruct D end. injection He' as <-. exact (R2 _ _ dw_escrow).
    + match goal with X : w_escrows w' !! ek = Some _, D : did_refund _ _ _ _ _ _ _ _ _ _ _ _ _ _ _ _ _ |- _ =>
        rewrite X in He'; destruct D end. injection He' as <-. exact (R2 _ _ dr_escrow).
    + match goal with X : w_escrows w' !! ek = Some _, D : did_claim _ _ _ _ _ _ _ _ _ _ _ _ _ _ _ _ _ |- _ =>
        rewrite X in He'; destruct D end. injection He' as <-. destruct (R2 _ _ dm_escrow). split; assumption.
    + match goal with X : w_escrows w' !! ek = Some _, D : did_refresh _ _ _ _ _ _ _ _ _ |- _ =>
        rewrite X in He'; destruct D end. injection He' as <-. destruct (R2 _ _ df_escrow).
      destruct df_what as [(_ & _ & ->)|[_ ->]]; split; assumption.
    + match goal with X : w_escrows w' !! ek = None |- _ => rewrite X in He' end. discriminate.
  - intros mk c Hc. pose proof (step_helpers _ _ _ _ Hi Hs) as (Hm & _).
    destruct o; try (rewrite Hm in Hc; eauto; fail); cbn [step] in Hs; clear Hm.
    + apply create_merkle_inv in Hs as (p & _ & _ & _ & _ & _ & _ & Hh & Hv & -> & _). cbn in Hc.
      apply lookup_insert_Some in Hc as [[_ <-]|[_ Hc]]; [|eauto].
      unfold is_hash in Hh. apply andb_true_iff in Hh as [Hl Hu]. constructor; cbn; [|exact Hv].
      split; [lia|]. apply List.Forall_forall. intros x Hx. rewrite forallb_forall in Hu.
      apply Hu in Hx. unfold in_u8, fits in *. lia.
    + apply close_merkle_inv in Hs as (p & c0 & _ & _ & _ & _ & _ & _ & _ & -> & _). cbn in Hc.
      apply lookup_delete_Some in Hc as [_ Hc]. eauto.
Qed.

Lemma rest_run w l : inv w -> rest_ok w -> rest_ok (run w l).
Proof.
  revert w. induction l as [|o l IH]; intros w Hi Hr; [exact Hr|].
  change (run w (o :: l)) with (run (exec w o) l). apply IH; [apply inv_exec; assumption|].
  unfold exec. destruct (step w o) as [[w' lx]|] eqn:Hs; [|assumption]. eapply rest_step; eassumption.
Qed.

Theorem C70_fields_fit w : reachable w -> world_fits w.
Proof.
  intros Hw. pose proof (reachable_inv _ Hw) as Hi. assert (Hr : rest_ok w).
  { destruct Hw as [l ->]. apply rest_run; [apply inv_genesis|].
    constructor; cbn; intros ? ? Hx; rewrite lookup_empty in Hx; discriminate. }
  constructor.
  - intros k p Hp. destruct (i_presales _ Hi _ _ Hp) as [Hc _ _ _ _ Ha].
    apply (cfg_presale_fits _ _ _ _ Hc Ha). apply (ro_presales _ Hr _ _ Hp).
  - intros ek e He. destruct (i_escrows _ Hi _ _ He) as [p Hp].
    destruct (i_presales _ Hi _ _ Hp) as [Hc _ _ _ _ Ha]. destruct (ro_escrows _ Hr _ _ He).
    eapply acct_escrow_fits; try eassumption. reflexivity.
  - apply (ro_merkles _ Hr).
  - intros k x Hx. destruct (i_fixed _ Hi _ _ Hx) as (_ & Hq & Hd).
    constructor; unfold fits, U8MAX; lia.
Qed.

End WithCrypto.

#[local] Existing Instance toy.

(** A prorata presale over its cap: the fields in question are not all zero. *)
Example C70_met :
  reachable w_pr_over /\
  match w_presales w_pr_over !! k1 with
  | Some p => 0 < p_deposit p /\ length (p_regs p) = 5%nat /\ 0 < p_nreg p
  | None => False
  end.
Proof. split; [apply reach|]. vm_compute. repeat split; reflexivity. Qed.
