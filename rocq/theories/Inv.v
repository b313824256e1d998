(** The global invariant of the ledger (definitions and structural lemmas). *)
From Coq Require Import Lia.
From Verif Require Import Base Math State Handlers Token World Instr Exec Spec Tactics Sums Arith
  TokenFacts.

(** * Configuration of a presale *)

Definition reg_cfg (p : presale) (i : nat) (r : registry) : Prop :=
  (Z.of_nat i < p_nreg p /\ 0 < r_supply r /\ 0 < r_max_cap r <= p_max_cap p /\
   0 <= r_min_cap r <= r_max_cap r /\ 0 <= r_fee_bps r <= 5000) \/
  (p_nreg p <= Z.of_nat i /\ r = reg_zero).

Record cfg (k : addr) (p : presale) : Prop := {
  c_key : k = PPresale (p_base p) (p_bmint p) (p_qmint p);
  c_bvault : p_bvault p = PBaseVault k;
  c_qvault : p_qvault p = PQuoteVault k;
  c_mode : p_mode p = 0 \/ p_mode p = 1 \/ p_mode p = 2;
  c_wl : p_wl p = 0 \/ p_wl p = 1 \/ p_wl p = 2;
  c_caps : 0 < p_min_cap p <= p_max_cap p /\ p_max_cap p <= U64MAX;
  c_len : length (p_regs p) = 5%nat;
  c_nreg : 1 <= p_nreg p <= 5;
  c_nreg_wl : 1 < p_nreg p -> p_wl p <> 0;
  c_regs : forall i r, p_regs p !! i = Some r -> reg_cfg p i r;
  c_supply : p_supply p = lsum r_supply (p_regs p);
  c_supply64 : p_supply p <= U64MAX;
  c_time : 0 <= p_start p <= p_end p;
  c_bps : 0 <= p_bps p <= 10000;
  c_dur : 0 <= p_lock p /\ 0 <= p_vest p;
  c_lockvest : p_lock p + p_vest p < 60 * 60 * 24 * 365 * 10;
  c_vs : (p_vs p = p_end p + p_lock p /\ p_ve p = p_vs p + p_vest p) \/
         (p_vs p = 0 /\ p_ve p = 0 /\ p_lock p = 0 /\ p_vest p = 0 /\ p_bps p = 0);
  c_ve64 : p_end p + p_lock p + p_vest p <= U64MAX;
  c_imm : 0 < p_bps p -> p_imm_ts p <= p_vs p + p_vest p;
  c_imm_end : p_imm_ts p = 0 \/ p_end p <= p_imm_ts p;
  c_imm64 : p_imm_ts p <= U64MAX;
  c_price : p_mode p = 0 ->
    0 < p_raw0 p <= U128MAX /\ bought (p_raw0 p) (p_max_cap p) <= p_supply p /\
    bought (p_raw0 p) (p_min_cap p) < bought (p_raw0 p) (p_max_cap p) /\
    forall i r, p_regs p !! i = Some r -> Z.of_nat i < p_nreg p ->
      0 < bought (p_raw0 p) (r_min_cap r) /\ bought (p_raw0 p) (r_max_cap r) <= U64MAX;
  c_permissioned : p_wl p <> 0 ->
    forall i r, p_regs p !! i = Some r -> Z.of_nat i < p_nreg p ->
      r_max_cap r = p_max_cap p /\
      r_min_cap r = if p_mode p =? 0 then div_ceil (p_raw0 p) scale else 1
}.

(** * Accounting *)

(** [f] summed over the open escrows of registry [i] of presale [k]. *)
Definition in_reg (k : addr) (i : nat) (f : escrow -> Z) (_ : addr) (e : escrow) : Z :=
  if bool_decide (e_presale e = k /\ e_idx e = Z.of_nat i) then f e else 0.
Definition esum (k : addr) (i : nat) (f : escrow -> Z) (E : gmap addr escrow) : Z :=
  msum (in_reg k i f) E.

Definition one (_ : escrow) : Z := 1.
Definition refunded_full (e : escrow) : Z :=
  if e_withdrawn e =? 1 then e_deposit e + e_fee e else 0.
Definition refunded_share (p : presale) (r : registry) (e : escrow) : Z :=
  if e_withdrawn e =? 1 then share_deposit p r (e_deposit e) + share_fee p r (e_fee e) else 0.

Record books (k : addr) (p : presale) (E : gmap addr escrow) : Prop := {
  b_deposit : p_deposit p = lsum r_deposit (p_regs p);
  b_fee : p_fee p = lsum r_fee (p_regs p);
  b_claimed : p_claimed p = lsum r_claimed (p_regs p);
  b_refunded : p_refunded p = lsum r_refunded (p_regs p);
  b_escrows : p_escrows p = lsum r_escrows (p_regs p);
  b_u64 : p_deposit p + p_fee p <= U64MAX;
  b_nonneg : forall i r, p_regs p !! i = Some r ->
    0 <= r_deposit r /\ 0 <= r_fee r /\ 0 <= r_claimed r /\ 0 <= r_refunded r;
  b_count : forall i r, p_regs p !! i = Some r -> r_escrows r = esum k i one E;
  b_flags : (p_cwd p = 0 \/ p_cwd p = 1) /\ (p_fee_col p = 0 \/ p_fee_col p = 1) /\
            (p_unsold_done p = 0 \/ p_unsold_done p = 1)
}.

Record caps (p : presale) : Prop := {
  k_cap : p_mode p <> 1 -> p_deposit p <= p_max_cap p;
  k_fixed : p_mode p = 0 -> forall i r, p_regs p !! i = Some r -> Z.of_nat i < p_nreg p ->
    r_deposit r * scale < (r_supply r + 1) * p_raw0 p + scale
}.

(** One escrow [e] at address [ek] of presale [k]. *)
Record esc_ok (now : Z) (k : addr) (p : presale) (ek : addr) (e : escrow) : Prop := {
  s_key : ek = PEscrow k (e_owner e) (e_idx e);
  s_idx : 0 <= e_idx e < p_nreg p;
  s_deposit : 0 <= e_deposit e <= e_cap e;
  s_fee : 0 <= e_fee e;
  s_claimed : 0 <= e_claimed e;
  s_pending : 0 <= e_pending e;
  s_flag : e_withdrawn e = 0 \/ e_withdrawn e = 1;
  s_reg : forall r, p_regs p !! Z.to_nat (e_idx e) = Some r ->
    e_cap e <= r_max_cap r /\ (e_deposit e = 0 \/ r_min_cap r <= e_deposit e) /\
    e_claimed e + e_pending e <= entitled p r (e_deposit e) now
}.

(** Before the end nothing has been paid out. *)
Record fresh (k : addr) (p : presale) (E : gmap addr escrow) : Prop := {
  f_flags : p_cwd p = 0 /\ p_fee_col p = 0 /\ p_unsold_done p = 0;
  f_reg : forall i r, p_regs p !! i = Some r ->
    r_deposit r = esum k i e_deposit E /\ r_fee r = esum k i e_fee E /\
    r_claimed r = 0 /\ r_refunded r = 0;
  f_esc : forall ek e, E !! ek = Some e -> e_presale e = k ->
    e_claimed e = 0 /\ e_pending e = 0 /\ e_withdrawn e = 0
}.

(** Deposits and fees of escrows closed after the end. *)
Definition closed_deposit (k : addr) (i : nat) (r : registry) (E : gmap addr escrow) : Z :=
  r_deposit r - esum k i e_deposit E.
Definition closed_fee (k : addr) (i : nat) (r : registry) (E : gmap addr escrow) : Z :=
  r_fee r - esum k i e_fee E.

(** What has been paid out of a registry of a successful presale. *)
Record paid_success (k : addr) (p : presale) (E : gmap addr escrow) (i : nat) (r : registry)
    : Prop := {
  ps_claim_lo : esum k i e_claimed E <= r_claimed r;
  ps_claim : r_claimed r - esum k i e_claimed E <=
    imm_part p r * closed_deposit k i r E / r_deposit r +
    vest_part p r * closed_deposit k i r E / r_deposit r;
  ps_refund : r_refunded r <= esum k i (refunded_share p r) E +
    closed_deposit k i r E * reg_excess p r / r_deposit r +
    closed_fee k i r E * reg_fee_excess p r / r_fee r
}.

(** ... of a failed one. *)
Record paid_failed (k : addr) (p : presale) (E : gmap addr escrow) : Prop := {
  pf_flags : p_fee_col p = 0 /\ p_unsold_done p = 0;
  pf_reg : forall i r, p_regs p !! i = Some r ->
    r_claimed r = 0 /\
    r_refunded r = esum k i refunded_full E + closed_deposit k i r E + closed_fee k i r E;
  pf_esc : forall ek e, E !! ek = Some e -> e_presale e = k ->
    e_claimed e = 0 /\ e_pending e = 0
}.

Record acct (now : Z) (k : addr) (p : presale) (E : gmap addr escrow) : Prop := {
  a_books : books k p E;
  a_caps : caps p;
  a_esc : forall ek e, E !! ek = Some e -> e_presale e = k -> esc_ok now k p ek e;
  a_open : forall i r, p_regs p !! i = Some r ->
    0 <= closed_deposit k i r E /\ 0 <= closed_fee k i r E;
  a_fresh : now < p_end p -> fresh k p E;
  a_success : p_min_cap p <= p_deposit p ->
    forall i r, p_regs p !! i = Some r -> paid_success k p E i r;
  a_failed : p_deposit p < p_min_cap p -> paid_failed k p E
}.

(** What is still owed out of the vaults, from the presale account alone. *)
Definition qneed (p : presale) : Z :=
  p_deposit p + p_fee p - p_refunded p
  - (if (p_cwd p =? 1) && (p_min_cap p <=? p_deposit p)
     then Z.min (p_deposit p) (p_max_cap p) else 0)
  - (if p_fee_col p =? 1 then fee_income p else 0).
Definition bneed (p : presale) : Z :=
  p_supply p - p_claimed p
  - (if p_unsold_done p =? 1 then unsold p else 0)
  - (if (p_cwd p =? 1) && (p_deposit p <? p_min_cap p) then p_supply p else 0).

(** * The invariant *)

Record presale_ok (w : world) (k : addr) (p : presale) : Prop := {
  q_cfg : cfg k p;
  q_qmint : mint_good w (p_qprog p) (p_qmint p);
  q_bmint : mint_good w (p_bprog p) (p_bmint p);
  q_qvault : vault_has w (p_qmint p) (qneed p) (PQuoteVault k);
  q_bvault : vault_has w (p_bmint p) (bneed p) (PBaseVault k);
  q_acct : acct (w_now w) k p (w_escrows w)
}.

Record inv (w : world) : Prop := {
  i_now : 0 <= w_now w <= I64MAX;
  i_tokens : tokens_ok w;
  i_presales : forall k p, w_presales w !! k = Some p -> presale_ok w k p;
  i_escrows : forall ek e, w_escrows w !! ek = Some e ->
    exists p, w_presales w !! e_presale e = Some p;
  i_fixed : forall k x, w_fixed w !! k = Some x ->
    k = PFixedArgs (x_presale x) /\ 0 < x_qprice x <= U128MAX /\
    (x_disable_withdraw x = 0 \/ x_disable_withdraw x = 1);
  i_opers : forall k o, w_opers w !! k = Some o -> k = POperator (o_creator o) (o_owner o);
  i_merkles : forall k c, w_merkles w !! k = Some c ->
    k = PMerkle (k_presale c) (k_version c) /\
    exists p, w_presales w !! k_presale c = Some p /\ p_wl p = 1;
  i_servers : forall k s, w_servers w !! k = Some s ->
    k = PServer (s_presale s) /\ exists p, w_presales w !! s_presale s = Some p
}.

(** * Sums over escrows *)

Lemma esum_update k i j f E ek e e' :
  E !! ek = Some e -> e_presale e = k -> e_presale e' = k ->
  e_idx e = Z.of_nat j -> e_idx e' = Z.of_nat j ->
  esum k i f (<[ek := e']> E) = esum k i f E + (if decide (i = j) then f e' - f e else 0).
Proof.
  intros He Hp Hp' Hi Hi'. unfold esum. rewrite (msum_update _ _ _ e) by assumption.
  unfold in_reg. rewrite Hp, Hp', Hi, Hi'. destruct (decide (i = j)) as [->|Hne].
  - rewrite bool_decide_eq_true_2 by auto. lia.
  - rewrite bool_decide_eq_false_2 by lia. lia.
Qed.

Lemma esum_insert k i j f E ek e :
  E !! ek = None -> e_presale e = k -> e_idx e = Z.of_nat j ->
  esum k i f (<[ek := e]> E) = esum k i f E + (if decide (i = j) then f e else 0).
Proof.
  intros He Hp Hi. unfold esum. rewrite msum_insert_new by assumption.
  unfold in_reg. rewrite Hp, Hi. destruct (decide (i = j)) as [->|Hne].
  - rewrite bool_decide_eq_true_2 by auto. lia.
  - rewrite bool_decide_eq_false_2 by lia. lia.
Qed.

Lemma esum_delete k i j f E ek e :
  E !! ek = Some e -> e_presale e = k -> e_idx e = Z.of_nat j ->
  esum k i f (delete ek E) = esum k i f E - (if decide (i = j) then f e else 0).
Proof.
  intros He Hp Hi. unfold esum. rewrite (msum_delete (in_reg k i f) E ek e) by assumption.
  unfold in_reg. rewrite Hp, Hi. destruct (decide (i = j)) as [->|Hne].
  - rewrite bool_decide_eq_true_2 by auto. lia.
  - rewrite bool_decide_eq_false_2 by lia. lia.
Qed.

Lemma esum_other_update k i f E ek e e' :
  E !! ek = Some e -> e_presale e <> k -> e_presale e' <> k ->
  esum k i f (<[ek := e']> E) = esum k i f E.
Proof.
  intros He Hp Hp'. unfold esum. rewrite (msum_update _ _ _ e) by assumption.
  unfold in_reg. rewrite !bool_decide_eq_false_2 by tauto. lia.
Qed.
Lemma esum_other_insert k i f E ek e :
  E !! ek = None -> e_presale e <> k -> esum k i f (<[ek := e]> E) = esum k i f E.
Proof.
  intros He Hp. unfold esum. rewrite msum_insert_new by assumption.
  unfold in_reg. rewrite !bool_decide_eq_false_2 by tauto. lia.
Qed.
Lemma esum_other_delete k i f E ek e :
  E !! ek = Some e -> e_presale e <> k -> esum k i f (delete ek E) = esum k i f E.
Proof.
  intros He Hp. unfold esum. rewrite (msum_delete (in_reg k i f) E ek e) by assumption.
  unfold in_reg. rewrite !bool_decide_eq_false_2 by tauto. lia.
Qed.

Lemma esum_ext k i f g E :
  (forall ek e, E !! ek = Some e -> e_presale e = k -> e_idx e = Z.of_nat i -> f e = g e) ->
  esum k i f E = esum k i g E.
Proof.
  intros Hfg. apply msum_ext. intros ek e He. unfold in_reg.
  destruct (bool_decide _) eqn:Hb; [|reflexivity]. clean_bool. destruct Hb. eauto.
Qed.
Lemma esum_le k i f g E :
  (forall ek e, E !! ek = Some e -> e_presale e = k -> e_idx e = Z.of_nat i -> f e <= g e) ->
  esum k i f E <= esum k i g E.
Proof.
  intros Hfg. apply msum_le. intros ek e He. unfold in_reg.
  destruct (bool_decide _) eqn:Hb; [|lia]. clean_bool. destruct Hb. eauto.
Qed.
Lemma esum_zero k i E : esum k i (fun _ => 0) E = 0.
Proof.
  unfold esum. etransitivity; [|apply (msum_zero E)]. apply msum_ext. intros. unfold in_reg.
  destruct (bool_decide _); reflexivity.
Qed.
Lemma esum_nonneg k i f E :
  (forall ek e, E !! ek = Some e -> e_presale e = k -> e_idx e = Z.of_nat i -> 0 <= f e) ->
  0 <= esum k i f E.
Proof. intros Hf. rewrite <- (esum_zero k i E). apply esum_le. assumption. Qed.
Lemma esum_add k i f g E : esum k i (fun e => f e + g e) E = esum k i f E + esum k i g E.
Proof.
  unfold esum. rewrite <- msum_add. apply msum_ext. intros. unfold in_reg.
  destruct (bool_decide _); lia.
Qed.
Lemma esum_member k i f E ek e :
  E !! ek = Some e -> e_presale e = k -> e_idx e = Z.of_nat i ->
  (forall ek e, E !! ek = Some e -> e_presale e = k -> e_idx e = Z.of_nat i -> 0 <= f e) ->
  f e <= esum k i f E.
Proof.
  intros He Hp Hi Hf.
  replace (f e) with (in_reg k i f ek e).
  - apply (msum_member (in_reg k i f)); [assumption|].
    intros k' x' Hx. unfold in_reg. destruct (bool_decide _) eqn:Hb; [|lia].
    clean_bool. destruct Hb. eauto.
  - unfold in_reg. rewrite bool_decide_eq_true_2 by auto. reflexivity.
Qed.
Lemma esum_none k i f E :
  (forall ek e, E !! ek = Some e -> e_presale e <> k) -> esum k i f E = 0.
Proof.
  intros Hn. rewrite <- (esum_zero k i E). apply esum_ext. intros ek e He Hp. exfalso. eapply Hn; eauto.
Qed.

(** * Entitlements *)

Lemma cfg_reg_zero k p i r :
  cfg k p -> p_regs p !! i = Some r -> p_nreg p <= Z.of_nat i -> r = reg_zero.
Proof.
  intros Hc Hr Hi. destruct (c_regs k p Hc i r Hr) as [(? & _)|(_ & ?)]; [lia|assumption].
Qed.

Lemma reg_supply_nonneg k p i r : cfg k p -> p_regs p !! i = Some r -> 0 <= r_supply r.
Proof.
  intros Hc Hr. destruct (c_regs k p Hc i r Hr) as [(? & ? & _)|(_ & ->)]; [lia|cbn; lia].
Qed.

Lemma elem_reg (P : registry -> Prop) (p : presale) :
  (forall i r, p_regs p !! i = Some r -> P r) -> forall r, r ∈ p_regs p -> P r.
Proof. intros HP r Hr. apply elem_of_list_lookup in Hr as [i Hi]. eauto. Qed.

Lemma reg_supply_u64 k p i r : cfg k p -> p_regs p !! i = Some r -> 0 <= r_supply r <= U64MAX.
Proof.
  intros Hc Hr. pose proof (reg_supply_nonneg k p i r Hc Hr). split; [assumption|].
  pose proof (c_supply k p Hc). pose proof (c_supply64 k p Hc).
  pose proof (lsum_member r_supply (p_regs p) i r Hr
                (elem_reg (fun r => 0 <= r_supply r) p (fun i r => reg_supply_nonneg k p i r Hc))).
  lia.
Qed.

Lemma sold_range k p i r :
  cfg k p -> p_regs p !! i = Some r -> 0 <= r_deposit r -> 0 <= sold p r <= r_supply r.
Proof.
  intros Hc Hr Hd. pose proof (reg_supply_nonneg k p i r Hc Hr) as Hs. unfold sold.
  destruct (r_deposit r =? 0); [lia|]. destruct (Z.eqb_spec (p_mode p) 0) as [Hm|_]; [|lia].
  destruct (c_price k p Hc Hm) as [Hq _].
  pose proof (bought_nonneg (p_raw0 p) (r_deposit r) ltac:(lia) Hd). lia.
Qed.

Lemma parts_range k p i r :
  cfg k p -> p_regs p !! i = Some r -> 0 <= r_deposit r ->
  0 <= imm_part p r <= sold p r /\ 0 <= vest_part p r <= sold p r /\
  imm_part p r + vest_part p r = sold p r.
Proof.
  intros Hc Hr Hd. pose proof (sold_range k p i r Hc Hr Hd) as Hs.
  pose proof (imm_range (sold p r) (p_bps p) (c_bps k p Hc) ltac:(lia)) as Hi.
  unfold vest_part, imm_part in *. lia.
Qed.

Lemma vested_by_range p now v : 0 <= v -> 0 <= p_vest p -> 0 <= vested_by p now v <= v.
Proof.
  intros Hv Hd. unfold vested_by. destruct (Z.ltb_spec now (p_vs p)); [lia|].
  destruct (Z.eqb_spec (p_vest p) 0); [lia|]. apply vested_range; lia.
Qed.

Lemma vested_by_mono p now now' v :
  0 <= v -> 0 <= p_vest p -> now <= now' -> vested_by p now v <= vested_by p now' v.
Proof.
  intros Hv Hd Hn. pose proof (vested_by_range p now' v Hv Hd) as Hr'. unfold vested_by in *.
  destruct (Z.ltb_spec now (p_vs p)); [lia|]. destruct (Z.ltb_spec now' (p_vs p)); [lia|].
  destruct (Z.eqb_spec (p_vest p) 0); [lia|]. apply Z.div_le_mono; [lia|]. nia.
Qed.

Lemma entitled_nonneg k p i r d now :
  cfg k p -> p_regs p !! i = Some r -> 0 <= r_deposit r -> 0 <= d -> 0 <= entitled p r d now.
Proof.
  intros Hc Hr Hd0 Hd. destruct (parts_range k p i r Hc Hr Hd0) as (Hi & Hv & _).
  destruct (c_dur k p Hc) as [_ Hvd].
  pose proof (vested_by_range p now (vest_part p r) ltac:(lia) Hvd).
  unfold entitled.
  pose proof (fl_nonneg (imm_part p r) d (r_deposit r) ltac:(lia) Hd Hd0).
  pose proof (fl_nonneg (vested_by p now (vest_part p r)) d (r_deposit r) ltac:(lia) Hd Hd0).
  destruct (_ <=? now); lia.
Qed.

Lemma entitled_mono k p i r d now now' :
  cfg k p -> p_regs p !! i = Some r -> 0 <= r_deposit r -> 0 <= d -> now <= now' ->
  entitled p r d now <= entitled p r d now'.
Proof.
  intros Hc Hr Hd0 Hd Hn. destruct (parts_range k p i r Hc Hr Hd0) as (Hi & Hv & _).
  destruct (c_dur k p Hc) as [_ Hvd].
  pose proof (vested_by_range p now (vest_part p r) ltac:(lia) Hvd).
  pose proof (vested_by_mono p now now' (vest_part p r) ltac:(lia) Hvd Hn).
  unfold entitled.
  pose proof (fl_nonneg (imm_part p r) d (r_deposit r) ltac:(lia) Hd Hd0).
  pose proof (fl_mono (vested_by p now (vest_part p r)) d (vested_by p now' (vest_part p r)) d (r_deposit r)
    ltac:(lia) ltac:(lia) Hd0).
  destruct (Z.leb_spec (p_imm_ts p) now), (Z.leb_spec (p_imm_ts p) now'); lia.
Qed.

Lemma entitled_le_final k p i r d now :
  cfg k p -> p_regs p !! i = Some r -> 0 <= r_deposit r -> 0 <= d ->
  entitled p r d now <= final p r d.
Proof.
  intros Hc Hr Hd0 Hd. destruct (parts_range k p i r Hc Hr Hd0) as (Hi & Hv & _).
  destruct (c_dur k p Hc) as [_ Hvd].
  pose proof (vested_by_range p now (vest_part p r) ltac:(lia) Hvd).
  unfold entitled, final.
  pose proof (fl_nonneg (imm_part p r) d (r_deposit r) ltac:(lia) Hd Hd0).
  pose proof (fl_mono (vested_by p now (vest_part p r)) d (vest_part p r) d (r_deposit r)
    ltac:(lia) ltac:(lia) Hd0).
  destruct (_ <=? now); lia.
Qed.

(** After the vesting end everything is released. *)
Lemma entitled_final k p i r d now :
  cfg k p -> p_regs p !! i = Some r -> 0 <= r_deposit r ->
  p_vs p + p_vest p <= now -> entitled p r d now = final p r d.
Proof.
  intros Hc Hr Hd0 Hn. destruct (c_dur k p Hc) as [_ Hvd].
  unfold entitled, final.
  assert (vested_by p now (vest_part p r) = vest_part p r) as ->.
  { unfold vested_by. destruct (Z.ltb_spec now (p_vs p)); [lia|].
    destruct (Z.eqb_spec (p_vest p) 0); [reflexivity|].
    rewrite Z.min_r by lia. apply Z.div_mul. assumption. }
  destruct (Z.leb_spec (p_imm_ts p) now); [reflexivity|].
  assert (p_bps p = 0).
  { pose proof (c_bps k p Hc). pose proof (c_imm k p Hc). lia. }
  unfold imm_part. rewrite H0, Z.mul_0_r.
  replace (0 / 10000) with 0 by reflexivity. rewrite Z.mul_0_l.
  destruct (Z.eq_dec (r_deposit r) 0) as [->|?]; [rewrite !div_0_den|rewrite !Z.div_0_l by assumption]; lia.
Qed.

Lemma final_le k p i r d :
  cfg k p -> p_regs p !! i = Some r -> 0 <= d <= r_deposit r -> 0 <= final p r d <= sold p r.
Proof.
  intros Hc Hr Hd. destruct (parts_range k p i r Hc Hr ltac:(lia)) as (Hi & Hv & Hs).
  unfold final.
  pose proof (fl_nonneg (imm_part p r) d (r_deposit r) ltac:(lia) ltac:(lia) ltac:(lia)).
  pose proof (fl_nonneg (vest_part p r) d (r_deposit r) ltac:(lia) ltac:(lia) ltac:(lia)).
  pose proof (fl_le_self (imm_part p r) d (r_deposit r) ltac:(lia) Hd).
  pose proof (fl_le_self (vest_part p r) d (r_deposit r) ltac:(lia) Hd). lia.
Qed.

(** * Refund shares *)

Lemma excess_range p : 0 <= p_max_cap p -> 0 <= p_deposit p -> 0 <= excess p <= p_deposit p.
Proof. unfold excess. lia. Qed.

Lemma reg_excess_range p r :
  0 <= p_max_cap p -> 0 <= r_deposit r <= p_deposit p -> 0 <= reg_excess p r <= r_deposit r.
Proof.
  intros Hm Hr. pose proof (excess_range p Hm ltac:(lia)). unfold reg_excess.
  split; [apply fl_nonneg; lia|]. apply fl_le_self_r; lia.
Qed.
Lemma reg_fee_excess_range p r :
  0 <= p_max_cap p -> 0 <= r_deposit r <= p_deposit p -> 0 <= r_fee r ->
  0 <= reg_fee_excess p r <= r_fee r.
Proof.
  intros Hm Hr Hf. pose proof (reg_excess_range p r Hm Hr). unfold reg_fee_excess.
  split; [apply fl_nonneg; lia|]. apply fl_le_self; lia.
Qed.
Lemma share_deposit_range p r d :
  0 <= p_max_cap p -> 0 <= r_deposit r <= p_deposit p -> 0 <= d ->
  0 <= share_deposit p r d <= d.
Proof.
  intros Hm Hr Hd. pose proof (reg_excess_range p r Hm Hr). unfold share_deposit.
  split; [apply fl_nonneg; lia|]. apply fl_le_self; lia.
Qed.
Lemma share_fee_range p r f :
  0 <= p_max_cap p -> 0 <= r_deposit r <= p_deposit p -> 0 <= r_fee r -> 0 <= f ->
  0 <= share_fee p r f <= f.
Proof.
  intros Hm Hr Hf Hd. pose proof (reg_fee_excess_range p r Hm Hr Hf). unfold share_fee.
  split; [apply fl_nonneg; lia|]. apply fl_le_self; lia.
Qed.

(** * Consequences of the books *)

Lemma books_reg_le k p E i r :
  books k p E -> p_regs p !! i = Some r ->
  0 <= r_deposit r <= p_deposit p /\ 0 <= r_fee r <= p_fee p /\
  0 <= r_claimed r <= p_claimed p /\ 0 <= r_refunded r <= p_refunded p.
Proof.
  intros Hb Hr. destruct (b_nonneg k p E Hb i r Hr) as (Hd & Hf & Hcl & Hre).
  rewrite (b_deposit k p E Hb), (b_fee k p E Hb), (b_claimed k p E Hb), (b_refunded k p E Hb).
  pose proof (elem_reg _ p (b_nonneg k p E Hb)) as He.
  repeat split; try assumption; (eapply lsum_member; [eassumption|]);
    intros y Hy; specialize (He y Hy); cbn in He; lia.
Qed.

Lemma books_totals k p E :
  books k p E -> 0 <= p_deposit p /\ 0 <= p_fee p /\ 0 <= p_claimed p /\ 0 <= p_refunded p.
Proof.
  intros Hb.
  rewrite (b_deposit k p E Hb), (b_fee k p E Hb), (b_claimed k p E Hb), (b_refunded k p E Hb).
  pose proof (elem_reg _ p (b_nonneg k p E Hb)) as He.
  repeat split; apply lsum_nonneg; intros y Hy; specialize (He y Hy); cbn in He; lia.
Qed.

Lemma esc_reg now k p ek e :
  cfg k p -> esc_ok now k p ek e -> exists r, p_regs p !! Z.to_nat (e_idx e) = Some r.
Proof.
  intros Hc He. pose proof (s_idx _ _ _ _ _ He). pose proof (c_nreg k p Hc).
  destruct (lookup_lt_is_Some_2 (p_regs p) (Z.to_nat (e_idx e))) as [r Hr]; [|eauto].
  rewrite (c_len k p Hc). lia.
Qed.
