(** The computations of the program on consistent accounts equal their specification. *)
From Coq Require Import Lia.
From Verif Require Import Base Math State Handlers Token World Spec Tactics Sums Arith
  TokenFacts Inv Acct.

Lemma get_reg_Ok p idx r : get_reg p idx = Ok r <-> p_regs p !! Z.to_nat idx = Some r.
Proof.
  unfold get_reg. split; [apply ok_or_Ok|]. intros ->. reflexivity.
Qed.

Lemma handler_mode p h : get_handler p = Ok h ->
  (p_mode p = 0 /\ h = HFixed (p_raw0 p) (p_raw1 p mod 256) (p_raw1 p / 256 mod 256)) \/
  (p_mode p = 1 /\ h = HProrata) \/ (p_mode p = 2 /\ h = HFcfs (p_raw0 p mod 256)).
Proof.
  unfold get_handler, cast_mode, mode_of_u8. intros Hh. inv Hh.
  destruct (Z.eqb_spec (p_mode p) 0); [injection Hv as <-; inv Hh; auto|].
  destruct (Z.eqb_spec (p_mode p) 1); [injection Hv as <-; inv Hh; auto|].
  destruct (Z.eqb_spec (p_mode p) 2); [injection Hv as <-; inv Hh; auto|discriminate].
Qed.

Lemma handler_total k p : cfg k p -> exists h, get_handler p = Ok h.
Proof.
  intros Hc. unfold get_handler, cast_mode, mode_of_u8.
  destruct (c_mode k p Hc) as [->|[->| ->]]; cbn; eauto.
Qed.

Section Good.
Context (k : addr) (p : presale) (E : gmap addr escrow).
Context (Hc : cfg k p) (Hb : books k p E) (Hk : caps p).

Lemma total_u64 : 0 <= p_deposit p <= U64MAX /\ 0 <= p_fee p <= U64MAX.
Proof. pose proof (books_totals _ _ _ Hb). pose proof (b_u64 _ _ _ Hb). lia. Qed.

Lemma reg_u64 i r : p_regs p !! i = Some r ->
  0 <= r_deposit r <= U64MAX /\ 0 <= r_fee r <= U64MAX.
Proof. intros Hr. pose proof (books_reg_le _ _ _ _ _ Hb Hr). pose proof total_u64. lia. Qed.

(** At a fixed price the tokens bought by all deposits together fit in the supply. *)
Lemma fixed_bought_u64 i r : p_mode p = 0 -> p_regs p !! i = Some r ->
  0 <= bought (p_raw0 p) (r_deposit r) <= U64MAX.
Proof.
  intros Hm Hr. destruct (c_price k p Hc Hm) as (Hq & Hs & _).
  pose proof (books_reg_le _ _ _ _ _ Hb Hr) as (H1 & _).
  pose proof (k_cap p Hk ltac:(lia)). pose proof (c_supply64 k p Hc).
  split; [apply bought_nonneg; lia|].
  pose proof (bought_mono (p_raw0 p) (r_deposit r) (p_max_cap p) ltac:(lia) ltac:(lia)). lia.
Qed.

Lemma cumulative_spec h e r now :
  get_handler p = Ok h -> p_regs p !! Z.to_nat (e_idx e) = Some r ->
  0 <= e_deposit e <= r_deposit r -> 0 <= now ->
  handler_cumulative h p e now = Ok (entitled p r (e_deposit e) now).
Proof.
  intros Hh Hr Hd Hnow. unfold handler_cumulative. rewrite (proj2 (get_reg_Ok _ _ _) Hr).
  cbn [rbind]. pose proof (reg_u64 _ _ Hr) as [Hu _].
  pose proof (reg_supply_u64 k p _ _ Hc Hr) as Hs.
  set (S0 := if p_mode p =? 0 then Z.min (bought (p_raw0 p) (r_deposit r)) (r_supply r) else r_supply r).
  assert (HS0 : 0 <= S0 <= U64MAX).
  { subst S0. destruct (Z.eqb_spec (p_mode p) 0) as [Hm|]; [|assumption].
    pose proof (fixed_bought_u64 _ _ Hm Hr). lia. }
  match goal with |- rbind ?x _ = _ => assert (Hx : x = Ok S0) end.
  { subst S0. destruct (handler_mode _ _ Hh) as [[Hm ->]|[[Hm ->]|[Hm ->]]]; rewrite Hm; cbn [Z.eqb].
    - destruct (c_price k p Hc Hm) as (Hq & _).
      rewrite token_bought_ok by lia. cbn [rbind].
      pose proof (fixed_bought_u64 _ _ Hm Hr). rewrite cast64_le by lia. reflexivity.
    - reflexivity.
    - reflexivity. }
  rewrite Hx. cbn [rbind]. clear Hx.
  pose proof (c_bps k p Hc). pose proof (c_dur k p Hc) as [? ?].
  pose proof (c_lockvest k p Hc). pose proof (c_vs k p Hc). pose proof (c_time k p Hc).
  rewrite cumulative_ok.
  - f_equal. unfold entitled, vested_by, vest_part, imm_part, sold. fold S0.
    destruct (Z.eqb_spec (r_deposit r) 0) as [Hz|Hz]; [|reflexivity].
    rewrite Hz, !div_0_den. destruct (_ <=? _); reflexivity.
  - repeat split; lia.
  - lia.
  - num. lia.
  - assumption.
Qed.

(** ** Refund shares *)
Lemma reg_remaining_spec i r :
  p_regs p !! i = Some r ->
  reg_remaining_quote r (get_remaining_quote p) (p_deposit p) = Ok (reg_excess p r, reg_fee_excess p r).
Proof.
  intros Hr. pose proof (c_caps k p Hc). pose proof total_u64 as [Ht _].
  pose proof (reg_u64 _ _ Hr) as [Hd Hf]. pose proof (books_reg_le _ _ _ _ _ Hb Hr) as (Hle & _).
  pose proof (reg_excess_range p r ltac:(lia) Hle) as H1.
  pose proof (reg_fee_excess_range p r ltac:(lia) Hle ltac:(lia)) as H2.
  unfold reg_remaining_quote, get_remaining_quote, sat_sub. fold (excess p).
  pose proof (excess_range p ltac:(lia) ltac:(lia)).
  destruct (Z.eqb_spec (p_deposit p) 0) as [Hz|Hz]; cbn [orb].
  { assert (Hr0 : r_deposit r = 0) by lia.
    unfold reg_excess, reg_fee_excess, reg_excess. rewrite Hz, Hr0, !div_0_den. reflexivity. }
  destruct (Z.eqb_spec (r_deposit r) 0) as [Hz'|Hz'].
  { unfold reg_fee_excess, reg_excess. rewrite Hz', Z.mul_0_r, Zdiv.Zdiv_0_l, div_0_den. reflexivity. }
  rewrite safe_mul_u64 by lia. cbn [rbind]. rewrite safe_div_pos by lia. cbn [rbind].
  fold (reg_excess p r). rewrite safe_mul_u64 by lia. cbn [rbind].
  rewrite safe_div_pos by lia. cbn [rbind]. fold (reg_fee_excess p r).
  rewrite !cast64_le by lia. reflexivity.
Qed.

Lemma refund_share_spec share pool total :
  0 <= share <= total -> 0 <= pool <= U64MAX -> total <= U64MAX ->
  refund_share share pool total = Ok (share * pool / total).
Proof.
  intros Hs Hp Ht. unfold refund_share. destruct (Z.ltb_spec 0 total).
  - rewrite safe_mul_u64 by lia. cbn [rbind]. rewrite safe_div_pos by lia. cbn [rbind].
    apply cast64_le. pose proof (fl_le_self_r share pool total ltac:(lia) ltac:(lia)). lia.
  - assert (total = 0) as -> by lia. rewrite div_0_den. reflexivity.
Qed.

Lemma progress_failed now : get_progress p now = Failed <-> p_start p <= now /\ failed p now.
Proof.
  unfold get_progress, failed. destruct (Z.ltb_spec now (p_start p)); [split; [discriminate|lia]|].
  destruct (Z.ltb_spec now (p_end p)); [split; [discriminate|lia]|].
  destruct (Z.leb_spec (p_min_cap p) (p_deposit p)); split; try discriminate; try lia; reflexivity.
Qed.
Lemma progress_completed now : get_progress p now = Completed <-> p_start p <= now /\ succeeded p now.
Proof.
  unfold get_progress, succeeded. destruct (Z.ltb_spec now (p_start p)); [split; [discriminate|lia]|].
  destruct (Z.ltb_spec now (p_end p)); [split; [discriminate|lia]|].
  destruct (Z.leb_spec (p_min_cap p) (p_deposit p)); split; try discriminate; try lia; reflexivity.
Qed.
Lemma progress_ongoing now : get_progress p now = Ongoing <-> open_for_deposits p now.
Proof.
  unfold get_progress, open_for_deposits. destruct (Z.ltb_spec now (p_start p)); [split; [discriminate|lia]|].
  destruct (Z.ltb_spec now (p_end p)); [split; [lia|reflexivity]|].
  destruct (Z.leb_spec (p_min_cap p) (p_deposit p)); split; try discriminate; lia.
Qed.
Lemma progress_notstarted now : get_progress p now = NotStarted <-> now < p_start p.
Proof.
  unfold get_progress. destruct (Z.ltb_spec now (p_start p)); [split; [lia|reflexivity]|].
  destruct (Z.ltb_spec now (p_end p)); [split; [discriminate|lia]|].
  destruct (Z.leb_spec (p_min_cap p) (p_deposit p)); split; try discriminate; lia.
Qed.

Lemma failed_progress now : failed p now -> get_progress p now = Failed.
Proof. intros Hf. apply progress_failed. split; [|assumption]. destruct Hf. pose proof (c_time k p Hc). lia. Qed.
Lemma succeeded_progress now : succeeded p now -> get_progress p now = Completed.
Proof. intros Hf. apply progress_completed. split; [|assumption]. destruct Hf. pose proof (c_time k p Hc). lia. Qed.

Lemma remaining_failed e now :
  failed p now -> escrow_remaining_quote p e now = Ok (e_deposit e, e_fee e).
Proof.
  intros Hf. unfold escrow_remaining_quote. rewrite (failed_progress now Hf).
  unfold allow_withdraw_remaining, cast_mode, mode_of_u8.
  destruct (c_mode k p Hc) as [->|[->| ->]]; reflexivity.
Qed.

Lemma remaining_completed e r now :
  succeeded p now -> p_mode p = 1 -> p_regs p !! Z.to_nat (e_idx e) = Some r ->
  0 <= e_deposit e <= r_deposit r -> 0 <= e_fee e <= r_fee r ->
  escrow_remaining_quote p e now = Ok (share_deposit p r (e_deposit e), share_fee p r (e_fee e)).
Proof.
  intros Hs Hm Hr Hd Hf. unfold escrow_remaining_quote. rewrite (succeeded_progress now Hs).
  unfold allow_withdraw_remaining, cast_mode, mode_of_u8. rewrite Hm. cbn -[get_reg reg_remaining_quote].
  rewrite (proj2 (get_reg_Ok _ _ _) Hr). cbn [rbind]. rewrite (reg_remaining_spec _ _ Hr). cbn [rbind].
  pose proof (reg_u64 _ _ Hr) as [Hu1 Hu2]. pose proof (c_caps k p Hc).
  pose proof (books_reg_le _ _ _ _ _ Hb Hr) as (Hle & _).
  pose proof (reg_excess_range p r ltac:(lia) Hle).
  pose proof (reg_fee_excess_range p r ltac:(lia) Hle ltac:(lia)).
  rewrite !refund_share_spec by lia. reflexivity.
Qed.

Lemma remaining_closed e now x :
  ~ failed p now -> ~ (succeeded p now /\ p_mode p = 1) -> escrow_remaining_quote p e now <> Ok x.
Proof.
  intros Hnf Hns Hx. unfold escrow_remaining_quote in Hx.
  unfold allow_withdraw_remaining, cast_mode, mode_of_u8 in Hx.
  destruct (get_progress p now) eqn:Hp.
  - destruct (c_mode k p Hc) as [Hm|[Hm|Hm]]; rewrite Hm in Hx; cbn in Hx; discriminate.
  - destruct (c_mode k p Hc) as [Hm|[Hm|Hm]]; rewrite Hm in Hx; cbn in Hx; discriminate.
  - apply progress_completed in Hp. destruct (c_mode k p Hc) as [Hm|[Hm|Hm]]; rewrite Hm in Hx; cbn in Hx;
      try discriminate. tauto.
  - apply progress_failed in Hp. tauto.
Qed.

Lemma remaining_inv e now x :
  escrow_remaining_quote p e now = Ok x -> failed p now \/ (succeeded p now /\ p_mode p = 1).
Proof.
  intros Hx. unfold escrow_remaining_quote in Hx.
  unfold allow_withdraw_remaining, cast_mode, mode_of_u8 in Hx.
  destruct (get_progress p now) eqn:Hp.
  - destruct (c_mode k p Hc) as [Hm|[Hm|Hm]]; rewrite Hm in Hx; cbn in Hx; discriminate.
  - destruct (c_mode k p Hc) as [Hm|[Hm|Hm]]; rewrite Hm in Hx; cbn in Hx; discriminate.
  - apply progress_completed in Hp. destruct (c_mode k p Hc) as [Hm|[Hm|Hm]]; rewrite Hm in Hx; cbn in Hx;
      try discriminate. tauto.
  - apply progress_failed in Hp. tauto.
Qed.

Lemma remaining_err e now :
  succeeded p now -> p_mode p <> 1 ->
  escrow_remaining_quote p e now = Err PresaleNotOpenForWithdrawRemainingQuote.
Proof.
  intros Hs Hm. unfold escrow_remaining_quote. rewrite (succeeded_progress now Hs).
  unfold allow_withdraw_remaining, cast_mode, mode_of_u8.
  destruct (c_mode k p Hc) as [H1|[H1|H1]]; [rewrite H1; reflexivity|contradiction|rewrite H1; reflexivity].
Qed.

(** Without an excess nothing is refunded after a success. *)
Lemma no_excess : p_mode p <> 1 -> excess p = 0.
Proof. intros Hm. pose proof (k_cap p Hk Hm). unfold excess. lia. Qed.
Lemma no_reg_excess r : p_mode p <> 1 -> reg_excess p r = 0 /\ reg_fee_excess p r = 0.
Proof.
  intros Hm. unfold reg_fee_excess, reg_excess. rewrite (no_excess Hm).
  rewrite Z.mul_0_l, Zdiv.Zdiv_0_l, Z.mul_0_r, Zdiv.Zdiv_0_l. auto.
Qed.
Lemma no_share r d f : p_mode p <> 1 -> share_deposit p r d = 0 /\ share_fee p r f = 0.
Proof.
  intros Hm. destruct (no_reg_excess r Hm) as [H1 H2]. unfold share_deposit, share_fee.
  rewrite H1, H2, !Z.mul_0_r, !Zdiv.Zdiv_0_l. auto.
Qed.

(** ** Registries in use *)
Lemma reg_uninit_iff i r : p_regs p !! i = Some r -> reg_uninit r = true <-> p_nreg p <= Z.of_nat i.
Proof.
  intros Hr. destruct (c_regs k p Hc i r Hr) as [(Hi & Hs & _)|(Hi & ->)].
  - split; [|lia]. unfold reg_uninit. intros Hu. clean_bool. lia.
  - split; [intros _; assumption|reflexivity].
Qed.

(** A list of registries whose tail from the first unused one on is all zero. *)
Definition zero_after (l : list registry) : Prop :=
  forall i j r r', l !! i = Some r -> l !! j = Some r' -> (i <= j)%nat ->
    reg_uninit r = true -> r' = reg_zero.

Lemma regs_zero_after : zero_after (p_regs p).
Proof.
  intros i j r r' Hi Hj Hij Hu. apply (reg_uninit_iff _ _ Hi) in Hu.
  eapply cfg_reg_zero; [eassumption..|lia].
Qed.

Lemma zero_after_cons r l : zero_after (r :: l) -> zero_after l.
Proof. intros Hz i j x y Hx Hy Hij. apply (Hz (S i) (S j)); [assumption..|lia]. Qed.

Lemma zero_after_sum (f : registry -> Z) r l :
  f reg_zero = 0 -> zero_after (r :: l) -> reg_uninit r = true -> f r + lsum f l = 0.
Proof.
  intros Hf Hz Hu.
  assert (r = reg_zero) as -> by (apply (Hz 0%nat 0%nat r); auto).
  rewrite Hf. assert (Hl : forall x, x ∈ l -> x = reg_zero).
  { intros x Hx. apply elem_of_list_lookup in Hx as [i Hi].
    apply (Hz 0%nat (S i) reg_zero x); auto. lia. }
  clear - Hl Hf. induction l as [|x l IH]; [reflexivity|]. cbn.
  rewrite (Hl x) by (apply elem_of_cons; auto). rewrite Hf.
  rewrite Z.add_0_l in *. apply IH. intros y Hy. apply Hl. apply elem_of_cons. auto.
Qed.

Lemma collected_loop_spec l : forall acc, zero_after l ->
  (forall r, r ∈ l -> exists i, p_regs p !! i = Some r) -> 0 <= acc ->
  acc + lsum r_fee l <= U64MAX ->
  collected_fee_loop l (get_remaining_quote p) (p_deposit p) acc
  = Ok (acc + lsum (fun r => r_fee r - reg_fee_excess p r) l).
Proof.
  pose proof (c_caps k p Hc) as Hcap.
  induction l as [|r l IH]; intros acc Hz Hin Hacc Hbound; cbn [collected_fee_loop lsum].
  { f_equal. cbn. lia. }
  destruct (reg_uninit r) eqn:Hu.
  { f_equal. pose proof (zero_after_sum (fun r => r_fee r - reg_fee_excess p r) r l
      ltac:(unfold reg_fee_excess; cbn; rewrite ?Z.mul_0_l, Zdiv.Zdiv_0_l; reflexivity) Hz Hu) as Hs.
    cbn in Hs |- *. lia. }
  destruct (Hin r) as [i Hi]; [apply elem_of_cons; auto|].
  pose proof (books_reg_le _ _ _ _ _ Hb Hi) as (Hle & Hlf & _).
  pose proof (reg_fee_excess_range p r ltac:(lia) Hle ltac:(lia)).
  rewrite (reg_remaining_spec i r Hi). cbn [rbind]. rewrite safe_sub_le by lia. cbn [rbind].
  cbn in Hbound.
  assert (Hl0 : 0 <= lsum r_fee l).
  { apply lsum_nonneg. intros x Hx. destruct (Hin x) as [ix Hix]; [apply elem_of_cons; auto|].
    pose proof (books_reg_le _ _ _ _ _ Hb Hix). lia. }
  rewrite safe_add_le by lia. cbn [rbind]. rewrite IH.
  - f_equal. cbn. lia.
  - eapply zero_after_cons. eassumption.
  - intros x Hx. apply Hin. apply elem_of_cons. auto.
  - lia.
  - lia.
Qed.

Lemma collected_fee_spec : total_collected_fee p = Ok (fee_income p).
Proof.
  unfold total_collected_fee, cast_mode, mode_of_u8, fee_income.
  assert (Hnp : p_mode p <> 1 -> p_fee p = lsum (fun r => r_fee r - reg_fee_excess p r) (p_regs p)).
  { intros Hm. rewrite (b_fee _ _ _ Hb). apply lsum_ext. intros r Hr.
    destruct (no_reg_excess r Hm). lia. }
  destruct (c_mode k p Hc) as [Hm|[Hm|Hm]]; rewrite Hm; cbn -[collected_fee_loop];
    [f_equal; apply Hnp; lia| |f_equal; apply Hnp; lia].
  rewrite collected_loop_spec.
  - reflexivity.
  - apply regs_zero_after.
  - intros r Hr. apply elem_of_list_lookup in Hr. assumption.
  - lia.
  - rewrite <- (b_fee _ _ _ Hb). pose proof total_u64. lia.
Qed.

Lemma fee_income_range : 0 <= fee_income p <= p_fee p.
Proof.
  pose proof (c_caps k p Hc) as Hcap. unfold fee_income. rewrite (b_fee _ _ _ Hb).
  assert (Hr : forall r, r ∈ p_regs p -> 0 <= reg_fee_excess p r <= r_fee r).
  { apply elem_reg. intros i r Hi. pose proof (books_reg_le _ _ _ _ _ Hb Hi) as (? & ? & _).
    apply reg_fee_excess_range; lia. }
  split; [apply lsum_nonneg|apply lsum_le]; intros r Hi; specialize (Hr r Hi); lia.
Qed.

(** ** Tokens sold *)
Lemma fixed_sold_spec q l : forall acc, zero_after l -> 0 < q ->
  (forall r, r ∈ l -> 0 <= r_deposit r <= U64MAX /\ 0 <= r_supply r) -> 0 <= acc ->
  acc + lsum r_supply l <= U64MAX ->
  fixed_sold_loop q l acc
  = Ok (acc + lsum (fun r => if r_deposit r =? 0 then 0 else Z.min (bought q (r_deposit r)) (r_supply r)) l).
Proof.
  induction l as [|r l IH]; intros acc Hz Hq Hin Hacc Hbound; cbn [fixed_sold_loop lsum].
  { f_equal. cbn. lia. }
  destruct (reg_uninit r) eqn:Hu.
  { f_equal. pose proof (zero_after_sum
      (fun r => if r_deposit r =? 0 then 0 else Z.min (bought q (r_deposit r)) (r_supply r)) r l
      ltac:(reflexivity) Hz Hu) as Hs. cbn in Hs |- *. lia. }
  destruct (Hin r) as [Hd Hs]; [apply elem_of_cons; auto|].
  assert (Hl0 : 0 <= lsum r_supply l).
  { apply lsum_nonneg. intros x Hx. apply Hin. apply elem_of_cons. auto. }
  cbn in Hbound.
  assert (Hin' : forall r, r ∈ l -> 0 <= r_deposit r <= U64MAX /\ 0 <= r_supply r).
  { intros x Hx. apply Hin. apply elem_of_cons. auto. }
  pose proof (zero_after_cons _ _ Hz) as Hz'.
  destruct (Z.eqb_spec (r_deposit r) 0) as [Hd0|Hd0].
  { rewrite IH by (assumption || lia). apply f_equal. cbn. destruct (Z.eqb_spec (r_deposit r) 0); lia. }
  rewrite token_bought_ok by lia. cbn [rbind]. pose proof (bought_nonneg q (r_deposit r) Hq ltac:(lia)).
  rewrite safe_add_le by (num; lia). cbn [rbind]. rewrite IH by (assumption || lia). apply f_equal. cbn.
  destruct (Z.eqb_spec (r_deposit r) 0); lia.
Qed.

Lemma dynamic_sold_spec l : forall acc, zero_after l ->
  (forall r, r ∈ l -> 0 <= r_supply r) -> 0 <= acc ->
  acc + lsum r_supply l <= U64MAX ->
  dynamic_sold_loop l acc = Ok (acc + lsum (fun r => if r_deposit r =? 0 then 0 else r_supply r) l).
Proof.
  induction l as [|r l IH]; intros acc Hz Hin Hacc Hbound; cbn [dynamic_sold_loop lsum].
  { f_equal. cbn. lia. }
  destruct (reg_uninit r) eqn:Hu.
  { f_equal. pose proof (zero_after_sum (fun r => if r_deposit r =? 0 then 0 else r_supply r) r l
      ltac:(reflexivity) Hz Hu) as Hs. cbn in Hs |- *. lia. }
  pose proof (Hin r ltac:(apply elem_of_cons; auto)) as Hs.
  assert (Hl0 : 0 <= lsum r_supply l).
  { apply lsum_nonneg. intros x Hx. apply Hin. apply elem_of_cons. auto. }
  cbn in Hbound.
  assert (Hin' : forall r, r ∈ l -> 0 <= r_supply r).
  { intros x Hx. apply Hin. apply elem_of_cons. auto. }
  pose proof (zero_after_cons _ _ Hz) as Hz'.
  destruct (Z.eqb_spec (r_deposit r) 0) as [Hd0|Hd0].
  { rewrite IH by (assumption || lia). apply f_equal. cbn. destruct (Z.eqb_spec (r_deposit r) 0); lia. }
  rewrite safe_add_le by lia. cbn [rbind]. rewrite IH by (assumption || lia). apply f_equal. cbn.
  destruct (Z.eqb_spec (r_deposit r) 0); lia.
Qed.

Lemma total_sold_range : 0 <= total_sold p <= p_supply p.
Proof.
  unfold total_sold. rewrite (c_supply k p Hc).
  assert (Hr : forall r, r ∈ p_regs p -> 0 <= sold p r <= r_supply r).
  { apply elem_reg. intros i r Hi. eapply sold_range; try eassumption.
    apply (b_nonneg _ _ _ Hb _ _ Hi). }
  split; [apply lsum_nonneg|apply lsum_le]; intros r Hi; apply Hr; assumption.
Qed.

Lemma total_sold_spec h : get_handler p = Ok h -> handler_total_sold h p = Ok (total_sold p).
Proof.
  intros Hh. pose proof (c_supply k p Hc) as Hsup. pose proof (c_supply64 k p Hc) as Hsup64.
  pose proof total_sold_range as Hts.
  assert (Hr : forall r, r ∈ p_regs p -> 0 <= r_deposit r <= U64MAX /\ 0 <= r_supply r).
  { apply elem_reg. intros i r Hi. split; [apply (reg_u64 _ _ Hi)|].
    eapply reg_supply_nonneg; eassumption. }
  destruct (handler_mode _ _ Hh) as [[Hm ->]|[[Hm ->]|[Hm ->]]]; cbn [handler_total_sold].
  - destruct (c_price k p Hc Hm) as (Hq & _).
    rewrite fixed_sold_spec; [|apply regs_zero_after|lia|assumption|lia|lia].
    cbn [rbind]. rewrite Z.add_0_l.
    assert (Heq : lsum (fun r => if r_deposit r =? 0 then 0
        else Z.min (bought (p_raw0 p) (r_deposit r)) (r_supply r)) (p_regs p) = total_sold p).
    { apply lsum_ext. intros r _. unfold sold. rewrite Hm. reflexivity. }
    rewrite Heq. apply cast64_le. lia.
  - rewrite dynamic_sold_spec; [|apply regs_zero_after|intros; apply Hr; assumption|lia|lia].
    f_equal. apply lsum_ext. intros r _. unfold sold. rewrite Hm. reflexivity.
  - rewrite dynamic_sold_spec; [|apply regs_zero_after|intros; apply Hr; assumption|lia|lia].
    f_equal. apply lsum_ext. intros r _. unfold sold. rewrite Hm. reflexivity.
Qed.

Lemma unsold_spec h : get_handler p = Ok h -> total_unsold_token p h = Ok (unsold p).
Proof.
  intros Hh. unfold total_unsold_token. rewrite (total_sold_spec h Hh). cbn [rbind].
  pose proof total_sold_range. apply safe_sub_le. lia.
Qed.

End Good.
